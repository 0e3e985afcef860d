(** The tokenizer (crates/parsa_python/src/tokenizer.rs): source text to tokens.

    Not modelled: [char::is_alphabetic] and [char::is_numeric] of the standard library
    (arbitrary functions here) and the regex crate (RegexModel.v says what is computed). *)
From Coq Require Import List NArith Arith Bool.
From Verif Require Import TextModel RegexModel.
Import ListNotations.
Local Open Scope N_scope.

(** ** The regular expressions *)

(** [0-9] and so on. *)
Definition digit (c : char) : bool := range 48 57 c.
Definition hex_digit (c : char) : bool := digit c || range 97 102 c || range 65 70 c.
(** [_?p]. *)
Definition with_underscore (p : char -> bool) : re := Cat (Opt (one 95)) (Cls p).

(** crates/parsa_python/src/tokenizer.rs:10 [HEX_NUMBER] *)
Definition HEX_NUMBER : re := cats [one 48; any_of [120; 88]; Plus (with_underscore hex_digit)].
(** crates/parsa_python/src/tokenizer.rs:11 [BIN_NUMBER] *)
Definition BIN_NUMBER : re := cats [one 48; any_of [98; 66]; Plus (with_underscore (range 48 49))].
(** crates/parsa_python/src/tokenizer.rs:12 [OCT_NUMBER] *)
Definition OCT_NUMBER : re := cats [one 48; any_of [111; 79]; Plus (with_underscore (range 48 55))].
(** crates/parsa_python/src/tokenizer.rs:13 [DEC_NUMBER] *)
Definition DEC_NUMBER : re :=
  Or (Cat (one 48) (Star (with_underscore (N.eqb 48)))) (Cat (Cls (range 49 57)) (Star (with_underscore digit))).
(** The sub-expression [0-9](_?[0-9])* *)
Definition DIGITS : re := Cat (Cls digit) (Star (with_underscore digit)).
(** crates/parsa_python/src/tokenizer.rs:14 [EXPONENT] *)
Definition EXPONENT : re := cats [any_of [101; 69]; Opt (any_of [45; 43]); DIGITS].
(** crates/parsa_python/src/tokenizer.rs:17 [INT_NUMBER] *)
Definition INT_NUMBER : re := or [HEX_NUMBER; BIN_NUMBER; OCT_NUMBER; DEC_NUMBER].
(** crates/parsa_python/src/tokenizer.rs:18 [EXP_FLOAT] *)
Definition EXP_FLOAT : re := Cat DIGITS EXPONENT.
(** crates/parsa_python/src/tokenizer.rs:19-21 [POINT_FLOAT] *)
Definition POINT_FLOAT : re :=
  Cat (or [cats [DIGITS; one 46; Opt DIGITS]; Cat (one 46) DIGITS]) (Opt EXPONENT).
(** crates/parsa_python/src/tokenizer.rs:22 [FLOAT_NUMBER] *)
Definition FLOAT_NUMBER : re := or [POINT_FLOAT; EXP_FLOAT].
(** crates/parsa_python/src/tokenizer.rs:23 [IMAG_NUMBER] *)
Definition IMAG_NUMBER : re := Cat (or [DIGITS; FLOAT_NUMBER]) (any_of [106; 74]).
(** crates/parsa_python/src/tokenizer.rs:24-26 [NUMBER] *)
Definition NUMBER : re := or [IMAG_NUMBER; FLOAT_NUMBER; INT_NUMBER].

(** crates/parsa_python/src/tokenizer.rs:39 [NEWLINE] *)
Definition NEWLINE : re := Or (Cat (one 13) (Opt (one 10))) (one 10).

(** crates/parsa_python/src/tokenizer.rs:58-70 [all_string_regexes], for one of the two quotes; a dot does not stand for a
    line feed, unless the flag [s] is set. *)
Definition short_string (quote : char) : re :=
  cats [one quote;
        Star (Or (Cat (one 92) (or [NEWLINE; none_of [10]])) (none_of [13; 10; quote; 92]));
        one quote].
Definition triple_string (quote : char) : re :=
  let any := Cls (fun _ => true) in
  let other := none_of [quote; 92] in
  let q := one quote in
  Cat (lit [quote; quote; quote])
      (Opt (Cat (Star (or [Cat (one 92) any; Cat q other; cats [q; one 92; any];
                           cats [q; q; other]; cats [q; q; one 92; any]; other]))
                (lit [quote; quote; quote]))).
(** crates/parsa_python/src/tokenizer.rs:58-70 [all_string_regexes] *)
Definition all_string_regexes (prefixes : list re) : re :=
  Cat (or prefixes) (or [triple_string 39; triple_string 34; short_string 39; short_string 34]).
(** crates/parsa_python/src/tokenizer.rs:28 [STRING] *)
Definition STRING : re := all_string_regexes [Eps; any_of [114; 82]; any_of [117; 85]; any_of [116; 84]].
(** crates/parsa_python/src/tokenizer.rs:29 [BYTES] *)
Definition BYTES : re :=
  all_string_regexes [Cat (any_of [98; 66]) (Opt (any_of [114; 82])); Cat (any_of [114; 82]) (any_of [98; 66])].

(** crates/parsa_python/src/tokenizer.rs:34-37 [OPERATOR] *)
Definition OPERATOR : re :=
  let eq := Opt (one 61) in
  or [cats [one 42; one 42; eq]; cats [one 62; one 62; eq]; cats [one 60; one 60; eq]; cats [one 47; one 47; eq];
      lit [45; 62]; lit [46; 46; 46]; Cat (one 58) eq;
      Cat (any_of [43; 45; 42; 47; 37; 38; 64; 96; 124; 94; 33; 61; 60; 62]) eq;
      any_of [91; 93; 40; 41; 123; 125]; any_of [126; 59; 46; 44; 64]].

(** crates/parsa_python/src/tokenizer.rs:40 [F_STRING_START] *)
Definition F_STRING_START : re :=
  Cat (Or (Cat (any_of [70; 102]) (Opt (any_of [82; 114]))) (Cat (any_of [82; 114]) (any_of [70; 102])))
      (or [lit [34; 34; 34]; lit [39; 39; 39]; one 39; one 34]).

(** crates/parsa_python/src/tokenizer.rs:41 [UNICODE_CHARACTER_NAME]; it has no [^]. *)
Definition UNICODE_CHARACTER_NAME : re :=
  let word := Plus (Cls (fun c => range 65 90 c || range 97 122 c || digit c || (c =? 45))) in
  cats [one 123; word; Star (Cat (one 32) word); one 125].

(** crates/parsa_python/src/tokenizer.rs:43-47 [ALWAYS_BREAK_NAMES] *)
Definition ALWAYS_BREAK_NAMES : list text :=
  [ [105; 109; 112; 111; 114; 116]; [99; 108; 97; 115; 115]; [100; 101; 102]; [116; 114; 121];
    [101; 120; 99; 101; 112; 116]; [102; 105; 110; 97; 108; 108; 121]; [119; 104; 105; 108; 101];
    [119; 105; 116; 104]; [114; 101; 116; 117; 114; 110]; [99; 111; 110; 116; 105; 110; 117; 101];
    [98; 114; 101; 97; 107]; [100; 101; 108]; [112; 97; 115; 115]; [103; 108; 111; 98; 97; 108];
    [97; 115; 115; 101; 114; 116]; [110; 111; 110; 108; 111; 99; 97; 108] ].

(** ** Tokens and the state *)

(** crates/parsa_python/src/tokenizer.rs:83-88 [TerminalType]; [NeverMatch] is not generated by the tokenizer. *)
Inductive kind : Type :=
| Name | Operator | String_ | Bytes_ | Number | Endmarker | Newline | ErrorToken
| Indent | Dedent | ErrorDedent | FStringStart | FStringString | FStringEnd.

Record token : Type := mk_tok { tok_start : nat; tok_len : nat; tok_kind : kind; tok_syntax : bool }.

(** crates/parsa_python/src/tokenizer.rs:103-108 [QuoteType] *)
Inductive quote_type : Type := Single | Double | SingleTriple | DoubleTriple.

(** crates/parsa_python/src/tokenizer.rs:111-115 [FStringNode] *)
Record fnode : Type := mk_fnode { f_quote : quote_type; f_level : nat; f_specs : nat }.

(** crates/parsa_python/src/tokenizer.rs:91-100 [PythonTokenizer].  The indentation stack has its top first, the stack of
    f-strings its top last, like the vector. *)
Record state : Type := mk_state {
  prev_newline : bool; index : nat; ended : bool; indents : list nat; parens : nat; fstack : list fnode }.

Definition set_index (i : nat) (st : state) : state := mk_state (prev_newline st) i (ended st) (indents st) (parens st) (fstack st).
Definition set_prev (b : bool) (st : state) : state := mk_state b (index st) (ended st) (indents st) (parens st) (fstack st).
Definition set_ended (st : state) : state := mk_state (prev_newline st) (index st) true (indents st) (parens st) (fstack st).
Definition set_indents (l : list nat) (st : state) : state := mk_state (prev_newline st) (index st) (ended st) l (parens st) (fstack st).
Definition set_parens (n : nat) (st : state) : state := mk_state (prev_newline st) (index st) (ended st) (indents st) n (fstack st).
Definition set_fstack (l : list fnode) (st : state) : state := mk_state (prev_newline st) (index st) (ended st) (indents st) (parens st) l.

(** A call that returns, one that panics or builds a [str] that begins inside a character
    (undefined behaviour), and one for which the fuel of the model was not enough. *)
Inductive run (A : Type) : Type := Got (a : A) | Undefined | More.
Arguments Got {A} a. Arguments Undefined {A}. Arguments More {A}.

(** crates/parsa_python/src/tokenizer.rs:119-121 [open_parentheses] *)
Definition open_parentheses (n : fnode) : fnode := mk_fnode (f_quote n) (S (f_level n)) (f_specs n).
(** crates/parsa_python/src/tokenizer.rs:124-132 [close_parentheses] *)
Definition close_parentheses (n : fnode) : fnode :=
  let level := pred (f_level n) in
  mk_fnode (f_quote n) level (if (level =? 0)%nat then 0%nat else f_specs n).
(** crates/parsa_python/src/tokenizer.rs:135-140 [allow_multiline] *)
Definition allow_multiline (n : fnode) : bool :=
  match f_quote n with Single | Double => false | SingleTriple | DoubleTriple => true end.
(** crates/parsa_python/src/tokenizer.rs:143-145 [in_expr] *)
Definition in_expr (n : fnode) : bool := (f_specs n <? f_level n)%nat.
(** crates/parsa_python/src/tokenizer.rs:148-151 [in_format_spec] *)
Definition in_format_spec (n : fnode) : bool := negb (in_expr n) && (0 <? f_specs n)%nat.

(** crates/parsa_python/src/tokenizer.rs:167-179 [new_tok] *)
Definition new_tok (st : state) (start : nat) (syntax : bool) (k : kind) : token :=
  mk_tok start (index st - start) k syntax.

(** The state before the first token: crates/parsa_python/src/tokenizer.rs:154-163 (PythonTokenizer::new). *)
Definition start_state : state := mk_state true 0 false [0%nat] 0 [].

(** crates/parsa_python/src/tokenizer.rs:182-192 [dedent_if_necessary] *)
Definition dedent_if_necessary (st : state) (indentation : nat) : run (option token * state) :=
  match indents st with
  | [] => Undefined
  | last :: rest =>
      if (indentation <? last)%nat then
        match rest with
        | [] => Undefined
        | second :: _ =>
            if (second <? indentation)%nat then
              Got (Some (new_tok st (index st) false ErrorDedent), set_indents (indentation :: rest) st)
            else Got (Some (new_tok st (index st) false Dedent), set_indents rest st)
        end
      else Got (None, st)
  end.

(** The characters before the token, backwards: the indentation of the line, when there is nothing else on it. *)
Fixpoint indentation_before (reversed : text) (n : nat) : option nat :=
  match reversed with
  | [] => None
  | c :: r =>
      if (c =? 32) || (c =? 9) then indentation_before r (S n)
      else if (c =? 10) || (c =? 13) then Some n
      else None
  end.

(** crates/parsa_python/src/tokenizer.rs:195-213 [encountered_break_token] *)
Definition encountered_break_token (code : text) (st : state) : run (option token * state) :=
  if negb (parens st =? 0)%nat || negb (match fstack st with [] => true | _ => false end) then
    let st := set_fstack [] (set_parens 0 st) in
    match take_bytes code (index st) with
    | None => Undefined
    | Some before =>
        match indentation_before (rev before) 0 with
        | Some indentation => dedent_if_necessary st indentation
        | None => Got (None, st)
        end
    end
  else Got (None, st).

(** crates/parsa_python/src/tokenizer.rs:379-386 [maybe_fstring_string] *)
Definition maybe_fstring_string (st : state) (length : nat) : option (token * state) :=
  if (0 <? length)%nat then
    let st' := set_index (index st + length) st in Some (new_tok st' (index st) false FStringString, st')
  else None.

(** What [handle_fstring_stack] does: nothing (the rest of [next] follows), a token, or a call of [next]. *)
Inductive handled : Type := FNone (st : state) | FToken (t : token) (st : state) | FNext (st : state).

(** crates/parsa_python/src/tokenizer.rs:351-376 [end_f_string]; only called when the top is not in an expression. *)
Definition end_f_string (st : state) (string_length drain_from : nat) (quote : quote_type) : handled :=
  match maybe_fstring_string st string_length with
  | Some (t, st) => FToken t st
  | None =>
      let st' := set_index (index st + match quote with Single | Double => 1 | _ => 3 end)
                           (set_fstack (firstn drain_from (fstack st)) st) in
      FToken (new_tok st' (index st) false FStringEnd) st'
  end.

(** The first f-string of the stack that a quote character ends, from below. *)
Fixpoint find_quote (short triple : quote_type -> bool) (is_triple : bool) (j : nat) (l : list fnode) : option (nat * quote_type) :=
  match l with
  | [] => None
  | n :: r =>
      if short (f_quote n) || (triple (f_quote n) && is_triple) then Some (j, f_quote n)
      else find_quote short triple is_triple (S j) r
  end.
Definition is_single (q : quote_type) : bool := match q with Single => true | _ => false end.
Definition is_double (q : quote_type) : bool := match q with Double => true | _ => false end.
Definition is_single3 (q : quote_type) : bool := match q with SingleTriple => true | _ => false end.
Definition is_double3 (q : quote_type) : bool := match q with DoubleTriple => true | _ => false end.
(** The same from above. *)
Definition find_quote_rev (short triple : quote_type -> bool) (is_triple : bool) (l : list fnode) : option (nat * quote_type) :=
  match find_quote short triple is_triple 0 (rev l) with
  | Some (j, q) => Some (length l - S j, q)%nat
  | None => None
  end.

Fixpoint starts_with (p t : text) : bool :=
  match p, t with
  | [], _ => true
  | _, [] => false
  | a :: p, b :: t => (a =? b) && starts_with p t
  end.

(** The first f-string of the stack that allows no newline. *)
Fixpoint find_single_line (j : nat) (l : list fnode) : option nat :=
  match l with [] => None | n :: r => if allow_multiline n then find_single_line (S j) r else Some j end.

(** The loop of crates/parsa_python/src/tokenizer.rs:216-342 [handle_fstring_stack]; [skip] characters are passed over
    (what [iterator.next] and [iterator.nth] do).  The branches that ask for [in_expr] are never reached. *)
Fixpoint fstring_loop (st : state) (tos : fnode) (skip i : nat) (cs : text) {struct cs} : handled :=
  match cs with
  | [] => FNone st
  | c :: r =>
      let i' := (i + utf8_len c)%nat in
      match skip with
      | S skip => fstring_loop st tos skip i' r
      | O =>
          if (c =? 123) || (c =? 125) then
            match r with
            | [] => fstring_loop st tos 0 i' r
            | next :: _ =>
                if negb (next =? c) || in_format_spec tos then
                  match maybe_fstring_string st i with Some (t, st) => FToken t st | None => FNone st end
                else fstring_loop st tos 1 i' r
            end
          else if c =? 34 then
            match find_quote is_double is_double3 (starts_with [34; 34; 34] cs) 0 (fstack st) with
            | Some (j, quote) => end_f_string st i j quote
            | None => fstring_loop st tos 0 i' r
            end
          else if c =? 39 then
            match find_quote_rev is_single is_single3 (starts_with [39; 39; 39] cs) (fstack st) with
            | Some (j, quote) => end_f_string st i j quote
            | None => fstring_loop st tos 0 i' r
            end
          else if c =? 92 then
            match r with
            | [] => fstring_loop st tos 0 i' r
            | next :: r' =>
                match (if next =? 78 then find_end UNICODE_CHARACTER_NAME r' else None) with
                | Some e => fstring_loop st tos (S e) i' r
                | None => fstring_loop st tos (if negb (next =? 123) && negb (next =? 125) then 1 else 0) i' r
                end
            end
          else if (c =? 10) || (c =? 13) then
            match find_single_line 0 (fstack st) with
            | None => fstring_loop st tos 0 i' r
            | Some j =>
                match maybe_fstring_string st i with
                | Some (t, st) => FToken t st
                | None => FNext (set_fstack (firstn j (fstack st)) st)
                end
            end
          else fstring_loop st tos 0 i' r
      end
  end.

(** The last element of the vector replaced. *)
Definition set_tos (n : fnode) (l : list fnode) : list fnode := removelast l ++ [n].

(** crates/parsa_python/src/tokenizer.rs:216-342 [handle_fstring_stack], for a stack with top [tos] *)
Definition handle_fstring_stack (code : text) (st : state) (tos : fnode) : run handled :=
  match drop_bytes code (index st) with
  | None => Undefined
  | Some c =>
      if in_expr tos then
        match c with
        | character :: _ =>
            if (character =? 58) && (f_level tos - f_specs tos =? 1)%nat then
              let st' := set_index (S (index st))
                           (set_fstack (set_tos (mk_fnode (f_quote tos) (f_level tos) (S (f_specs tos))) (fstack st)) st) in
              Got (FToken (new_tok st' (index st) true Operator) st')
            else Got (FNone st)
        | [] => Got (FNone st)
        end
      else Got (fstring_loop st tos 0 0 c)
  end.

(** crates/parsa_python/src/tokenizer.rs:389-440 [skip_whitespace]: the indentation and the number of bytes passed over.
    [self.index] keeps in step with the loop over the characters, so the byte after a
    backslash is the next character; after a continuation the function calls itself and
    the indentation counted by that call is dropped. *)
Fixpoint skip_whitespace (prev : bool) (was_comment : bool) (indentation n : nat) (cs : text) {struct cs} : nat * nat :=
  match cs with
  | [] => (indentation, n)
  | c :: r =>
      let n' := (n + utf8_len c)%nat in
      if (c =? 10) || (c =? 13) then
        if prev then skip_whitespace prev false 0 n' r else (indentation, n)
      else if was_comment then skip_whitespace prev true indentation n' r
      else if (c =? 32) || (c =? 9) || (c =? 12) then
        skip_whitespace prev false (if prev then S indentation else indentation) n' r
      else if c =? 35 then skip_whitespace prev true 0 n' r
      else if c =? 92 then
        match r with
        | d :: r' =>
            if d =? 13 then
              match r' with
              | e :: r'' =>
                  if e =? 10 then (indentation, snd (skip_whitespace prev false 0 (n + 3) r''))
                  else (indentation, snd (skip_whitespace prev false 0 (n + 2) r'))
              | [] => (indentation, snd (skip_whitespace prev false 0 (n + 2) r'))
              end
            else if d =? 10 then (indentation, snd (skip_whitespace prev false 0 (n + 2) r'))
            else (indentation, n)
        | [] => (indentation, n)
        end
      else (indentation, n)
  end.

Section Tokenizer.
(** [char::is_alphabetic] and [char::is_numeric] of the standard library. *)
Variables (alphabetic numeric : char -> bool).

(** crates/parsa_python/src/tokenizer.rs:443-452 [find_name_length]: the name. *)
Fixpoint name_from (first : bool) (cs : text) : text :=
  match cs with
  | [] => []
  | c :: r =>
      if alphabetic c || (c =? 95) || (numeric c && negb first) then c :: name_from false r else []
  end.

Definition text_eqb (a b : text) : bool := if list_eq_dec N.eq_dec a b then true else false.
Definition contains (p t : text) : bool :=
  (fix go (t : text) : bool := starts_with p t || match t with [] => false | _ :: r => go r end) t.
Definition ends_with (c : char) (t : text) : bool := match rev t with d :: _ => c =? d | [] => false end.

(** crates/parsa_python/src/tokenizer.rs:528-533: a string of at most five bytes that is only the opening of a triple quoted one *)
Definition unterminated (s : text) : bool :=
  (bytes s <=? 5)%nat &&
  (contains [39; 39; 39] s && negb (ends_with 34 s) || contains [34; 34; 34] s && negb (ends_with 39 s)).

(** crates/parsa_python/src/tokenizer.rs:541-552: the quotes of an f-string *)
Definition quote_of (s : text) : quote_type :=
  if contains [39; 39] s then SingleTriple else if contains [34; 34] s then DoubleTriple
  else if contains [34] s then Double else Single.

(** Opening or closing brackets, crates/parsa_python/src/tokenizer.rs:503-518 *)
Definition brackets (character : char) (st : state) : state :=
  let tos := match fstack st with [] => None | n :: r => Some (List.last r n) end in
  if mem character [40; 91; 123] then
    match tos with
    | None => set_parens (S (parens st)) st
    | Some node => set_fstack (set_tos (open_parentheses node) (fstack st)) st
    end
  else if mem character [41; 93; 125] then
    match tos with
    | None => set_parens (pred (parens st)) st
    | Some node => set_fstack (set_tos (close_parentheses node) (fstack st)) st
    end
  else st.

(** The part of crates/parsa_python/src/tokenizer.rs:457-595 [next] from the number on; [c] is the text at [index st], [again]
    the call of [next] after a newline in brackets. *)
Definition next_token (code : text) (again : state -> run (option token * state)) (st : state) (c : text) : run (option token * state) :=
  let start := index st in
  let token (st : state) (syntax : bool) (k : kind) := Got (Some (new_tok st start syntax k), st) in
  let to (s : text) (st : state) := set_index (index st + bytes s) st in
  match find NUMBER c with
  | Some m => token (to m st) false Number
  | None =>
  match find OPERATOR c with
  | Some m =>
      match c with
      | [] => Undefined
      | character :: _ =>
          match (if character =? 59 then encountered_break_token code st else Got (None, st)) with
          | Got (Some t, st) => Got (Some t, st)
          | Got (None, st) => token (brackets character (to m st)) true Operator
          | Undefined => Undefined
          | More => More
          end
      end
  | None =>
  match find STRING c with
  | Some m => token (to m st) false (if unterminated m then ErrorToken else String_)
  | None =>
  match find BYTES c with
  | Some m => token (to m st) false (if unterminated m then ErrorToken else Bytes_)
  | None =>
  match find F_STRING_START c with
  | Some m => token (set_fstack (fstack st ++ [mk_fnode (quote_of m) 0 0]) (to m st)) false FStringStart
  | None =>
  match name_from true c with
  | (_ :: _) as name =>
      match (if existsb (text_eqb name) ALWAYS_BREAK_NAMES then encountered_break_token code st else Got (None, st)) with
      | Got (Some t, st) => Got (Some t, st)
      | Got (None, st) => token (to name st) true Name
      | Undefined => Undefined
      | More => More
      end
  | [] =>
  match find NEWLINE c with
  | Some m =>
      if (parens st =? 0)%nat && match fstack st with [] => true | _ => false end
      then token (set_prev true (to m st)) false Newline
      else again (to m st)
  | None =>
  match c with
  | [] =>
      match indents st with
      | [_] => token (set_ended st) false Endmarker
      | _ => token (set_indents (tl (indents st)) st) false Dedent
      end
  | character :: _ => token (set_index (index st + utf8_len character) st) false ErrorToken
  end end end end end end end end.

(** The part of crates/parsa_python/src/tokenizer.rs:457-595 [next] from [skip_whitespace] on *)
Definition next_main (code : text) (again : state -> run (option token * state)) (st : state) : run (option token * state) :=
  match drop_bytes code (index st) with
  | None => Undefined
  | Some c0 =>
      let (indentation, n) := skip_whitespace (prev_newline st) false 0 0 c0 in
      let st := set_index (index st + n) st in
      match drop_bytes code (index st) with
      | None => Undefined
      | Some c =>
          if prev_newline st then
            match c with
            | character :: _ =>
                if negb (character =? 10) && negb (character =? 13) && (parens st =? 0)%nat &&
                   match fstack st with [] => true | _ => false end then
                  match indents st with
                  | [] => Undefined
                  | last :: _ =>
                      if (last <? indentation)%nat then
                        let st := set_prev false (set_indents (indentation :: indents st) st) in
                        Got (Some (new_tok st (index st) false Indent), st)
                      else
                        match dedent_if_necessary st indentation with
                        | Got (Some t, st) =>
                            if (index st <? indentation)%nat then Undefined
                            else Got (Some t, set_index (index st - indentation) st)
                        | Got (None, st) => next_token code again (set_prev false st) c
                        | Undefined => Undefined
                        | More => More
                        end
                  end
                else next_token code again (set_prev false st) c
            | [] => next_token code again (set_prev false st) c
            end
          else next_token code again st c
      end
  end.

(** crates/parsa_python/src/tokenizer.rs:457-595 [next] *)
Fixpoint next (fuel : nat) (code : text) (st : state) {struct fuel} : run (option token * state) :=
  match fuel with
  | O => More
  | S fuel =>
      if ended st then Got (None, st)
      else
        match fstack st with
        | [] => next_main code (next fuel code) st
        | n :: r =>
            match handle_fstring_stack code st (List.last r n) with
            | Got (FToken t st) => Got (Some t, st)
            | Got (FNext st) =>
                match next fuel code st with
                | Got (Some t, st) => Got (Some t, st)
                | Got (None, st) => next_main code (next fuel code) st
                | Undefined => Undefined
                | More => More
                end
            | Got (FNone st) => next_main code (next fuel code) st
            | Undefined => Undefined
            | More => More
            end
        end
  end.

(** All tokens, as the parser takes them from the iterator. *)
Fixpoint tokens_from (fuel : nat) (code : text) (st : state) {struct fuel} : run (list token) :=
  match fuel with
  | O => More
  | S fuel' =>
      match next (S (length code)) code st with
      | Got (None, _) => Got []
      | Got (Some t, st) =>
          match tokens_from fuel' code st with
          | Got ts => Got (t :: ts)
          | Undefined => Undefined
          | More => More
          end
      | Undefined => Undefined
      | More => More
      end
  end.

Definition tokenize (code : text) : run (list token) := tokens_from (6 * length code + 6) code start_state.

End Tokenizer.
