(** The client side: decoding of a semantic token response following the LSP specification,
    with the legend the server announces (lists of types and modifiers). *)
From Coq Require Import NArith Arith List Bool.
From Verif Require Import SemTokModel.
Import ListNotations.

(** A decoded token: absolute position, length, type, set of modifiers (in legend order). *)
Record decoded := mk_dec {
  d_line : nat; d_char : nat; d_len : nat; d_type : token_type; d_mods : list modifier }.

Fixpoint bits_set (bits : N) (i : nat) (legend : list modifier) : list modifier :=
  match legend with
  | [] => []
  | m :: r => (if N.testbit bits (N.of_nat i) then [m] else []) ++ bits_set bits (S i) r
  end.

Fixpoint decode (line char : nat) (l : list encoded) : option (list decoded) :=
  match l with
  | [] => Some []
  | e :: r =>
      let line' := line + delta_line e in
      let char' := if delta_line e =? 0 then char + delta_start e else delta_start e in
      match nth_error SUPPORTED_TYPES (enc_type e), decode line' char' r with
      | Some ty, Some ds =>
          Some (mk_dec line' char' (enc_length e) ty (bits_set (enc_modifiers e) 0 SUPPORTED_MODIFIERS) :: ds)
      | _, _ => None
      end
  end.

(** The modifiers that a client has to see. *)
Definition mods_of (p : properties) : list modifier :=
  (if declaration p then [M_DECLARATION] else []) ++
  (if definition p then [M_DEFINITION] else []) ++
  (if read_only p then [M_READONLY] else []) ++
  (if static_ p then [M_STATIC] else []) ++
  (if deprecated p then [M_DEPRECATED] else []) ++
  (if abstract_ p then [M_ABSTRACT] else []) ++
  (if async_ p then [M_ASYNC] else []) ++
  (if in_stdlib p then [M_DEFAULT_LIBRARY] else []).

(** Tokens as pushed: position, length, type, properties. *)
Record source := mk_src {
  s_line : nat; s_char : nat; s_len : nat; s_type : token_type; s_props : properties }.

Definition expected (s : source) : decoded :=
  mk_dec (s_line s) (s_char s) (s_len s) (s_type s) (mods_of (s_props s)).

Definition before (l1 c1 l2 c2 : nat) : Prop := l1 < l2 \/ (l1 = l2 /\ c1 <= c2).

(** In document order. *)
Inductive sorted : list source -> Prop :=
| sorted_nil : sorted []
| sorted_one s : sorted [s]
| sorted_cons s1 s2 r :
    before (s_line s1) (s_char s1) (s_line s2) (s_char s2) -> sorted (s2 :: r) -> sorted (s1 :: s2 :: r).

Fixpoint pushes (b : builder) (ss : list source) : option builder :=
  match ss with
  | [] => Some b
  | s :: r =>
      match push b (s_line s) (s_char s) (s_len s) (s_type s) (s_props s) with
      | Some b' => pushes b' r
      | None => None
      end
  end.
