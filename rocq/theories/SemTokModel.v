(** Model of the semantic token response (crates/zubanls/src/semantic_tokens.rs and the
    handler in request_handlers.rs).  Positions are [nat]; the unsigned subtractions are checked
    ([None] is the overflow panic of a debug build). *)
From Coq Require Import NArith Arith List Bool.
From Verif Require Import TextModel LinesSpec LinesModel.
Import ListNotations.

(** zubanls/src/semantic_tokens.rs:44-76 the list of token types, in order. *)
Inductive token_type :=
| T_NAMESPACE | T_TYPE | T_CLASS | T_ENUM | T_INTERFACE | T_STRUCT | T_TYPE_PARAMETER
| T_PARAMETER | T_VARIABLE | T_PROPERTY | T_ENUM_MEMBER | T_EVENT | T_FUNCTION | T_METHOD
| T_MACRO | T_KEYWORD | T_MODIFIER | T_COMMENT | T_STRING | T_NUMBER | T_REGEXP | T_OPERATOR
| T_DECORATOR.

Definition SUPPORTED_TYPES : list token_type :=
  [ T_NAMESPACE; T_TYPE; T_CLASS; T_ENUM; T_INTERFACE; T_STRUCT; T_TYPE_PARAMETER;
    T_PARAMETER; T_VARIABLE; T_PROPERTY; T_ENUM_MEMBER; T_EVENT; T_FUNCTION; T_METHOD;
    T_MACRO; T_KEYWORD; T_MODIFIER; T_COMMENT; T_STRING; T_NUMBER; T_REGEXP; T_OPERATOR;
    T_DECORATOR ].

Definition token_type_eq_dec : forall a b : token_type, {a = b} + {a <> b}.
Proof. decide equality. Defined.

(** zubanls/src/semantic_tokens.rs:109-130 the list of modifiers, in order. *)
Inductive modifier :=
| M_DECLARATION | M_DEFINITION | M_READONLY | M_STATIC | M_DEPRECATED | M_ABSTRACT | M_ASYNC
| M_DEFAULT_LIBRARY.

Definition SUPPORTED_MODIFIERS : list modifier :=
  [ M_DECLARATION; M_DEFINITION; M_READONLY; M_STATIC; M_DEPRECATED; M_ABSTRACT; M_ASYNC;
    M_DEFAULT_LIBRARY ].

Definition modifier_eq_dec : forall a b : modifier, {a = b} + {a <> b}.
Proof. decide equality. Defined.

(** [iter().position(|it| it == x)] *)
Fixpoint position_of {A} (dec : forall a b : A, {a = b} + {a <> b}) (x : A) (l : list A) : option nat :=
  match l with
  | [] => None
  | y :: r => if dec y x then Some 0 else
                match position_of dec x r with Some i => Some (S i) | None => None end
  end.

(** zuban_python/src/semantic_tokens.rs:246-255 [struct SemanticTokenProperties]. *)
Record properties := mk_props {
  definition : bool; declaration : bool; in_stdlib : bool; read_only : bool;
  static_ : bool; deprecated : bool; abstract_ : bool; async_ : bool }.

(** zubanls/src/semantic_tokens.rs:144-150 [bitor_assign]; [None]: the unwrap fails. *)
Definition bitor_assign (bits : N) (m : modifier) : option N :=
  match position_of modifier_eq_dec m SUPPORTED_MODIFIERS with
  | Some idx => Some (N.lor bits (N.shiftl 1 (N.of_nat idx)))
  | None => None
  end.

(** The closure [add] of [push]. *)
Definition add_if (bits : option N) (property : bool) (m : modifier) : option N :=
  match bits with
  | Some b => if property then bitor_assign b m else Some b
  | None => None
  end.

Definition modifier_bits (p : properties) : option N :=
  let b := Some 0%N in
  let b := add_if b (definition p) M_DEFINITION in
  let b := add_if b (declaration p) M_DECLARATION in
  let b := add_if b (in_stdlib p) M_DEFAULT_LIBRARY in
  let b := add_if b (read_only p) M_READONLY in
  let b := add_if b (static_ p) M_STATIC in
  let b := add_if b (deprecated p) M_DEPRECATED in
  let b := add_if b (async_ p) M_ASYNC in
  add_if b (abstract_ p) M_ABSTRACT.

(** [lsp_types::SemanticToken] *)
Record encoded := mk_enc {
  delta_line : nat; delta_start : nat; enc_length : nat; enc_type : nat; enc_modifiers : N }.

(** zubanls/src/semantic_tokens.rs:156-160 [struct SemanticTokensBuilder]. *)
Record builder := mk_builder { prev_line : nat; prev_char : nat; data : list encoded }.

Definition new_builder : builder := mk_builder 0 0 [].

(** Checked unsigned subtraction. *)
Definition sub_checked (a b : nat) : option nat := if b <=? a then Some (a - b) else None.

(** zubanls/src/semantic_tokens.rs:226-231 [type_index]. *)
Definition type_index (t : token_type) : option nat := position_of token_type_eq_dec t SUPPORTED_TYPES.

(** zubanls/src/semantic_tokens.rs:172-216 [push]. *)
Definition push (b : builder) (line char len : nat) (ty : token_type) (pr : properties)
  : option builder :=
  match modifier_bits pr with
  | None => None
  | Some bits =>
      let deltas :=
        match data b with
        | [] => Some (line, char)
        | _ :: _ =>
            match sub_checked line (prev_line b) with
            | None => None
            | Some pl =>
                if pl =? 0 then
                  match sub_checked char (prev_char b) with
                  | None => None
                  | Some pc => Some (pl, pc)
                  end
                else Some (pl, char)
            end
        end in
      match deltas, type_index ty with
      | Some (pl, pc), Some ti =>
          Some (mk_builder line char (data b ++ [mk_enc pl pc len ti bits]))
      | _, _ => None
      end
  end.

(** A token as found in the document: the text before the name, the name, its type and properties. *)
Record name_token := mk_nt {
  nt_before : text; nt_name : text; nt_type : token_type; nt_props : properties }.

(** request_handlers.rs:94-101 [to_position] with zuban_python/src/semantic_tokens.rs:201-203 [position]. *)
Definition to_position (enc : encoding) (idx : newline_indices) (code : text) (byte : nat)
  : res (nat * nat) :=
  let p := position_infos_of idx code byte in
  let column := match enc with
                | U8 => Ok (utf8_bytes_column p)
                | U16 => utf16_code_units_column code p
                | U32 => code_points_column code p
                end in
  bind column (fun c => Ok (pi_line p, c)).

(** zuban_python/src/semantic_tokens.rs:205-207 [length]: the number of bytes of the name. *)
Definition token_length (t : name_token) : nat := bytes (nt_name t).

(** request_handlers.rs:674-697 [semantic_tokens_internal] over the tokens delivered by the document. *)
Fixpoint push_all (enc : encoding) (idx : newline_indices) (code : text) (b : builder)
  (ts : list name_token) : res builder :=
  match ts with
  | [] => Ok b
  | t :: r =>
      bind (to_position enc idx code (bytes (nt_before t))) (fun '(line, char) =>
      bind (or_panic (push b line char (token_length t) (nt_type t) (nt_props t))) (fun b' =>
      push_all enc idx code b' r))
  end.

Definition semantic_tokens_internal (enc : encoding) (idx : newline_indices) (code : text)
  (ts : list name_token) : res (list encoded) :=
  bind (push_all enc idx code new_builder ts) (fun b => Ok (data b)).
