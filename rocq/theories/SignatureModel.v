(** Model of signature help: crates/zuban_python/src/signatures.rs and crates/zubanls/src/request_handlers.rs.

    Texts are lists of code points; offsets into them are in bytes of UTF-8, as in the code.

    Simplifications: the arguments before the cursor and the callables are given; types in labels are given as texts. *)
From Coq Require Import List Bool NArith ZArith.
Import ListNotations.
Open Scope list_scope.

Definition text := list N.
Fixpoint text_eqb (a b : text) : bool :=
  match a, b with
  | [], [] => true
  | c :: a, d :: b => (c =? d)%N && text_eqb a b
  | _, _ => false
  end.
(** [str::starts_with] *)
Fixpoint starts_with (t prefix : text) {struct prefix} : bool :=
  match prefix, t with
  | [], _ => true
  | c :: prefix, d :: t => (c =? d)%N && starts_with t prefix
  | _ :: _, [] => false
  end.

Inductive kind := PositionalOnly | PositionalOrKeyword | KeywordOnly | Star | StarStar.
Record param := mk_param { p_kind : kind; p_name : option text; p_type : text; p_default : bool }.

(** crates/parsa_python_cst/src/signatures.rs:107-114 (SignatureArg) *)
Inductive argument := PositionalOrEmptyAfterComma | PositionalOrKeywordName (name : text) | Keyword (name : text) | StarArgs | StarStarKwargs.

Record scanned := mk_scanned
  { expected_positional : Z; for_kwarg : option text; used_kwargs : list text; had_kwargs : bool; had_star_args : bool;
    potential : option text }.
(** The loop over the arguments, crates/zuban_python/src/signatures.rs:118-147 (into_iterator) *)
Definition scan_one (s : scanned) (a : argument) : scanned :=
  match a with
  | PositionalOrEmptyAfterComma => mk_scanned (expected_positional s + 1) None (used_kwargs s) (had_kwargs s) (had_star_args s) None
  | PositionalOrKeywordName name => mk_scanned (expected_positional s + 1) None (used_kwargs s) (had_kwargs s) (had_star_args s) (Some name)
  | Keyword name => mk_scanned (expected_positional s) (Some name) (used_kwargs s ++ [name]) true (had_star_args s) None
  | StarArgs => mk_scanned (expected_positional s) None (used_kwargs s) (had_kwargs s) true None
  | StarStarKwargs => mk_scanned (expected_positional s) None (used_kwargs s) true (had_star_args s) None
  end.
Definition scan (args : list argument) : scanned := fold_left scan_one args (mk_scanned 0 None [] false false None).

(** The loop for a keyword, crates/zuban_python/src/signatures.rs:154-171 (into_iterator) *)
Fixpoint keyword_param (name : text) (i : nat) (params : list param) : option nat :=
  match params with
  | [] => None
  | p :: params =>
      match p_kind p with
      | PositionalOnly | Star => keyword_param name (S i) params
      | PositionalOrKeyword | KeywordOnly =>
          match p_name p with
          | Some n => if text_eqb n name then Some i else keyword_param name (S i) params
          | None => keyword_param name (S i) params
          end
      | StarStar => Some i
      end
  end.

Definition is_used (s : scanned) (p : param) : bool :=
  match p_name p with Some n => existsb (text_eqb n) (used_kwargs s) | None => false end.
(** The other loop, crates/zuban_python/src/signatures.rs:172-225 (into_iterator) *)
Fixpoint other_param (s : scanned) (expected : Z) (valid : bool) (i : nat) (params : list param) : option nat * bool :=
  match params with
  | [] => (None, false)
  | p :: params =>
      let next := other_param s expected valid (S i) params in
      let count := if (expected - 1 <=? 0)%Z then (Some i, valid) else other_param s (expected - 1)%Z valid (S i) params in
      match p_kind p with
      | PositionalOnly =>
          if negb (had_kwargs s) then count
          else other_param s expected (if negb (had_star_args s) then false else valid) (S i) params
      | PositionalOrKeyword =>
          if negb (had_kwargs s) then count
          else if is_used s p then next
          else count
      | KeywordOnly =>
          match p_name p with
          | Some n =>
              if is_used s p then next
              else
                match potential s with
                | Some prefix => if starts_with n prefix then (Some i, valid) else next
                | None => (Some i, valid)
                end
          | None => next
          end
      | Star => if negb (had_kwargs s) then (Some i, valid) else next
      | StarStar => (Some i, valid)
      end
  end.

(** [current_param] and [is_valid_with_arguments].  The closure [calc_current_param]:
    crates/zuban_python/src/signatures.rs:117-227 (into_iterator) *)
Definition calc_current_param (args : list argument) (params : list param) : option nat * bool :=
  let s := scan args in
  match for_kwarg s with
  | Some name => match keyword_param name 0 params with Some i => (Some i, true) | None => (None, false) end
  | None => other_param s (expected_positional s + if had_star_args s then 1 else 0)%Z true 0 params
  end.

(** ** Labels *)

Definition utf8_len (c : N) : nat := if (c <? 128)%N then 1 else if (c <? 2048)%N then 2 else if (c <? 65536)%N then 3 else 4.
(** [str::len] *)
Definition len (t : text) : nat := fold_right (fun c n => utf8_len c + n) 0 t.
(** [str::encode_utf16] *)
Definition utf16 (c : N) : list N :=
  if (c <? 65536)%N then [c] else [55296 + (c - 65536) / 1024; 56320 + (c - 65536) mod 1024]%N.
Definition encode_utf16 (t : text) : list N := flat_map utf16 t.

Definition comma : text := [44; 32]%N.
Definition star : text := [42]%N.
Definition colon : text := [58; 32]%N.
Definition default_mark : text := [32; 61]%N.
(** One parameter is added to the label; the offsets are those of its name.  crates/zuban_python/src/signatures.rs:236-275 (into_iterator) *)
Definition add_param (label : text) (p : param) : text * (nat * nat) :=
  let label := match label with [] => label | _ => label ++ comma end in
  let label := match p_kind p with Star => label ++ star | StarStar => label ++ star ++ star | _ => label end in
  let start := len label in
  let '(label, offsets) :=
    match p_name p with
    | Some name => let label := label ++ name in (label ++ colon ++ p_type p, (start + 1, len label + 1))
    | None => let label := label ++ p_type p in (label, (start + 1, len label + 1))
    end in
  (if p_default p then label ++ default_mark else label, offsets).
Fixpoint add_params (label : text) (params : list param) : text * list (nat * nat) :=
  match params with
  | [] => (label, [])
  | p :: params =>
      let (label, offsets) := add_param label p in
      let (label, rest) := add_params label params in
      (label, offsets :: rest)
  end.
(** The label of the signature, crates/zuban_python/src/signatures.rs:280-285 (into_iterator) *)
Definition signature_label (params : list param) (return_type : text) : text :=
  [40]%N ++ fst (add_params [] params) ++ [41; 32; 45; 62; 32]%N ++ return_type.

(** [&label[..n]]; None is the panic when [n] is inside a character or behind the end *)
Fixpoint prefix_bytes (n : nat) (t : text) : option text :=
  match n, t with
  | O, _ => Some []
  | _, [] => None
  | _, c :: t => if Nat.leb (utf8_len c) n then option_map (cons c) (prefix_bytes (n - utf8_len c) t) else None
  end.
(** crates/zuban_python/src/signatures.rs:323-329 [utf16_code_units_name_range] *)
Definition utf16_code_units_name_range (label : text) (range : nat * nat) : option (nat * nat) :=
  match prefix_bytes (fst range) label, prefix_bytes (snd range) label with
  | Some a, Some b => Some (length (encode_utf16 a), length (encode_utf16 b))
  | _, _ => None
  end.

(** ** The active signature *)

(** The parameters of a callable; None stands for [...].  crates/zuban_python/src/signatures.rs:228-279 (into_iterator) *)
Definition call_signature (args : list argument) (params : option (list param)) : option nat * bool :=
  match params with Some params => calc_current_param args params | None => (None, true) end.

(** The loop over the signatures in [handle_signature_help], crates/zubanls/src/request_handlers.rs:222-229 (handle_signature_help) *)
Fixpoint first_active (i : nat) (sigs : list (option nat * bool)) : option nat * option nat :=
  match sigs with
  | [] => (None, None)
  | (current, valid) :: sigs => if valid then (Some i, current) else first_active (S i) sigs
  end.
(** crates/zubanls/src/request_handlers.rs:210-256 [handle_signature_help], the active signature and the active parameter *)
Definition handle_signature_help (args : list argument) (sigs : list (option (list param))) : option nat * option nat :=
  first_active 0 (map (call_signature args) sigs).
