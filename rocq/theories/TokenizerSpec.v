(** What the tokens of a text are, without the tokenizer: each token is a piece of the
    text, they follow each other, and what is between them means nothing in Python. *)
From Coq Require Import Ascii String List NArith Arith Bool.
From Verif Require Import TextModel RegexModel TokenizerModel.
Import ListNotations.
Local Open Scope N_scope. Local Open Scope list_scope.

Definition newline (c : N) : Prop := c = 10 \/ c = 13.
Definition blank (c : N) : Prop := c = 32 \/ c = 9 \/ c = 12.
(** The ends of a line. *)
Definition line_end (t : text) : Prop := t = [10] \/ t = [13] \/ t = [13; 10].

(** [between g rest]: [g], which is followed by [rest], consists of white space, line ends,
    comments and continuations.  A comment goes up to the end of its line. *)
Inductive between : text -> text -> Prop :=
| between_nothing rest : between [] rest
| between_blank c g rest : blank c -> between g rest -> between (c :: g) rest
| between_newline c g rest : newline c -> between g rest -> between (c :: g) rest
| between_comment body g rest : Forall (fun c => ~ newline c) body ->
    (g ++ rest = [] \/ exists c r, g ++ rest = c :: r /\ newline c) -> between g rest -> between (35 :: body ++ g) rest
| between_continuation e g rest : line_end e -> between g rest -> between (92 :: e ++ g) rest.

(** ** Literals as the language reference describes them (section Lexical analysis) *)

(** [digit ( ["_"] digit )*] *)
Inductive digits (p : N -> Prop) : text -> Prop :=
| digits_one d : p d -> digits p [d]
| digits_more d w : p d -> digits p w -> digits p (d :: w)
| digits_underscore d w : p d -> digits p w -> digits p (d :: 95 :: w).
Definition decimal (d : N) : Prop := 48 <= d <= 57.
Definition hexadecimal (d : N) : Prop := decimal d \/ 97 <= d <= 102 \/ 65 <= d <= 70.
Definition octal (d : N) : Prop := 48 <= d <= 55.
Definition binary (d : N) : Prop := d = 48 \/ d = 49.

(** [("0x" | "0X") (["_"] hexdigit)+] and the like *)
Definition prefixed (x : N) (p : N -> Prop) (w : text) : Prop :=
  exists c r, (c = x \/ c = x - 32) /\ digits p r /\ (w = 48 :: c :: r \/ w = 48 :: c :: 95 :: r).
Definition integer (w : text) : Prop :=
  digits decimal w /\ (Forall (fun c => c = 48 \/ c = 95) w \/ exists d r, w = d :: r /\ 49 <= d <= 57) \/
  prefixed 120 hexadecimal w \/ prefixed 111 octal w \/ prefixed 98 binary w.
Definition exponent (w : text) : Prop :=
  exists e sign d, (e = 101 \/ e = 69) /\ (sign = [] \/ sign = [43] \/ sign = [45]) /\ digits decimal d /\ w = e :: sign ++ d.
Definition fraction (w : text) : Prop :=
  exists a b, w = a ++ 46 :: b /\ (a = [] \/ digits decimal a) /\ (b = [] \/ digits decimal b) /\ (a <> [] \/ b <> []).
Definition float (w : text) : Prop :=
  fraction w \/ exists a e, w = a ++ e /\ (fraction a \/ digits decimal a) /\ exponent e.
Definition imaginary (w : text) : Prop :=
  exists a j, w = a ++ [j] /\ (j = 106 \/ j = 74) /\ (digits decimal a \/ float a).
Definition number (w : text) : Prop := integer w \/ float w \/ imaginary w.

(** What is inside of [q...q]: no line ends but after a backslash, and no [q] but after a backslash *)
Inductive short_body (q : N) : text -> Prop :=
| short_end : short_body q []
| short_char c w : c <> q -> c <> 92 -> ~ newline c -> short_body q w -> short_body q (c :: w)
| short_escape c w : ~ newline c -> short_body q w -> short_body q (92 :: c :: w)
| short_continuation e w : line_end e -> short_body q w -> short_body q (92 :: e ++ w).

(** What is inside of [qqq...qqq], after [n] quotes: no three [q], and no [q] at the end, but after a backslash *)
Inductive long_body (q : N) : nat -> text -> Prop :=
| long_end : long_body q 0 []
| long_quote n w : (n < 2)%nat -> long_body q (S n) w -> long_body q n (q :: w)
| long_char n c w : c <> q -> c <> 92 -> long_body q 0 w -> long_body q n (c :: w)
| long_escape n c w : long_body q 0 w -> long_body q n (92 :: c :: w).

Definition quote (q : N) : Prop := q = 39 \/ q = 34.
(** The letter, in both cases *)
Definition letter_of (x c : N) : Prop := c = x \/ c = x - 32.
Definition string_prefix (p : text) : Prop :=
  p = [] \/ exists c, p = [c] /\ (letter_of 114 c \/ letter_of 117 c \/ letter_of 116 c).
Definition bytes_prefix (p : text) : Prop :=
  exists b, letter_of 98 b /\ (p = [b] \/ exists r, letter_of 114 r /\ (p = [b; r] \/ p = [r; b])).
Definition fstring_prefix (p : text) : Prop :=
  exists f, letter_of 102 f /\ (p = [f] \/ exists r, letter_of 114 r /\ (p = [f; r] \/ p = [r; f])).
Definition literal (prefix : text -> Prop) (w : text) : Prop :=
  exists p q, prefix p /\ quote q /\
    ((exists b, w = p ++ q :: b ++ [q] /\ short_body q b) \/
     exists b, w = p ++ q :: q :: q :: b ++ [q; q; q] /\ long_body q 0 b).
(** The beginning of a triple-quoted string that does not end *)
Definition only_opened (w : text) : Prop :=
  exists p q, (string_prefix p \/ bytes_prefix p) /\ quote q /\ w = p ++ [q; q; q].

Definition operators : list text :=
  [ [40]; [41]; [91]; [93]; [123]; [125]; [44]; [58]; [46]; [59]; [64]; [61]; [126]; [33]; [96];
    [43]; [45]; [42]; [47]; [37]; [38]; [124]; [94]; [60]; [62]; [42; 42]; [47; 47]; [60; 60]; [62; 62];
    [43; 61]; [45; 61]; [42; 61]; [47; 61]; [37; 61]; [38; 61]; [64; 61]; [96; 61]; [124; 61]; [94; 61]; [33; 61]; [61; 61]; [60; 61]; [62; 61]; [58; 61];
    [42; 42; 61]; [47; 47; 61]; [60; 60; 61]; [62; 62; 61]; [45; 62]; [46; 46; 46] ].

(** The text of a token of each kind. *)
Definition fits (k : kind) (w : text) : Prop :=
  match k with
  | Indent | Dedent | ErrorDedent | Endmarker => w = []
  | Newline => line_end w
  | Number => number w
  | String_ => literal string_prefix w
  | Bytes_ => literal bytes_prefix w
  | Operator => In w operators
  | FStringStart => exists p q, fstring_prefix p /\ quote q /\ (w = p ++ [q] \/ w = p ++ [q; q; q])
  | ErrorToken => (exists c, w = [c]) \/ only_opened w
  | Name | FStringString => w <> []
  | FStringEnd => exists q, quote q /\ (w = [q] \/ w = [q; q; q])
  end.

(** [laid_out at rest ts]: [ts] are tokens of the text [rest] which begins at byte [at]. *)
Inductive laid_out : nat -> text -> list token -> Prop :=
| laid_end at_ : laid_out at_ [] []
| laid_token at_ g w rest t ts :
    between g (w ++ rest) -> tok_start t = (at_ + bytes g)%nat -> tok_len t = bytes w -> fits (tok_kind t) w ->
    laid_out (at_ + bytes g + bytes w) rest ts -> laid_out at_ (g ++ w ++ rest) (t :: ts).

Definition is_indent (t : token) : bool := match tok_kind t with Indent => true | _ => false end.
Definition is_dedent (t : token) : bool := match tok_kind t with Dedent => true | _ => false end.
Definition is_end (t : token) : bool := match tok_kind t with Endmarker => true | _ => false end.
Definition count (p : token -> bool) (ts : list token) : nat := length (filter p ts).

(** Blocks are closed as often as they are opened, and never before. *)
Definition balanced (ts : list token) : Prop :=
  count is_indent ts = count is_dedent ts /\
  forall p q, ts = p ++ q -> (count is_dedent p <= count is_indent p)%nat.

(** One end marker, and it is the last token. *)
Definition ends_once (at_ : nat) (ts : list token) : Prop :=
  exists l s, ts = l ++ [mk_tok at_ 0 Endmarker s] /\ count is_end l = 0%nat.

Definition line_start (pre : text) : Prop := pre = [] \/ exists a c, pre = a ++ [c] /\ newline c.

(** A line that begins with white space, and then has a backslash before its end. *)
Definition indented_continuation (code : text) : Prop :=
  exists a b c d, code = a ++ b ++ 92 :: c :: d /\ line_start a /\ b <> [] /\ Forall blank b /\ newline c.

(** ** Logical lines *)

(** Like [between], within a line *)
Inductive inline : text -> text -> Prop :=
| inline_nothing rest : inline [] rest
| inline_blank c g rest : blank c -> inline g rest -> inline (c :: g) rest
| inline_comment body g (rest : text) : Forall (fun c => ~ newline c) body ->
    (g ++ rest = [] \/ exists c r, g ++ rest = c :: r /\ newline c) -> inline g rest -> inline (35 :: body ++ g) rest
| inline_continuation e g rest : line_end e -> inline g rest -> inline (92 :: e ++ g) rest.

(** Words that only begin statements: after them brackets that were not closed do not count. *)
Definition statement_words : list string :=
  ["assert"; "break"; "class"; "continue"; "def"; "del"; "except"; "finally"; "global"; "import"; "nonlocal"; "pass"; "return";
   "try"; "while"; "with"]%string.
Fixpoint text_of (s : string) : text := match s with EmptyString => [] | String a r => N_of_ascii a :: text_of r end.
Definition one_of (l : list text) (w : text) : bool := existsb (fun x => if list_eq_dec N.eq_dec w x then true else false) l.

(** The number of open brackets after a token *)
Definition depth_after (k : kind) (w : text) (d : nat) : nat :=
  match k with
  | Operator => if one_of [[40]; [91]; [123]] w then S d else if one_of [[41]; [93]; [125]] w then pred d
                else if one_of [[59]] w then 0%nat else d
  | Name => if one_of (map text_of statement_words) w then 0%nat else d
  | Dedent | ErrorDedent => 0%nat
  | _ => d
  end.
(** Whether the token before the rest of the text was the end of a line *)
Definition fresh_after (k : kind) (fresh : bool) : bool :=
  match k with Newline => true | Dedent | ErrorDedent => fresh | _ => false end.

(** [lines fresh d rest ts]: the tokens [ts] of [rest], up to the first f-string, end a line exactly where [d] is 0: there is
    no [Newline] inside of brackets or on an empty line, and outside of brackets no line end is passed over but those of empty lines. *)
Inductive lines : bool -> nat -> text -> list token -> Prop :=
| lines_end fresh d : lines fresh d [] []
| lines_token (fresh : bool) (d : nat) (g w rest : text) (t : token) ts :
    tok_len t = bytes w -> fits (tok_kind t) w ->
    (if fresh then between g (w ++ rest) else if Nat.eqb d 0 then inline g (w ++ rest) else between g (w ++ rest)) ->
    (tok_kind t = Newline -> d = 0%nat /\ fresh = false) ->
    (tok_kind t = FStringStart \/ lines (fresh_after (tok_kind t) fresh) (depth_after (tok_kind t) w d) rest ts) ->
    lines fresh d (g ++ w ++ rest) (t :: ts).
