(** What signature help should show: how Python binds arguments to parameters. *)
From Coq Require Import List Bool NArith Arith.
From Verif Require Import SignatureModel.
Import ListNotations.

Definition rank (k : kind) : nat := match k with PositionalOnly => 0 | PositionalOrKeyword => 1 | Star => 2 | KeywordOnly => 3 | StarStar => 4 end.
(** The order of parameters that Python's grammar has *)
Definition ordered (ps : list param) : Prop :=
  forall i j p q, i < j -> nth_error ps i = Some p -> nth_error ps j = Some q ->
  rank (p_kind p) <= rank (p_kind q) /\ (p_kind p = Star \/ p_kind p = StarStar -> p_kind p <> p_kind q).
Definition by_name (p : param) : Prop := p_kind p = PositionalOrKeyword \/ p_kind p = KeywordOnly.
Definition named (ps : list param) : Prop :=
  (forall p, In p ps -> by_name p -> p_name p <> None) /\
  (forall i j p q, nth_error ps i = Some p -> nth_error ps j = Some q -> by_name p -> by_name q -> p_name p = p_name q -> i = j).
Definition by_position (p : param) : Prop := p_kind p = PositionalOnly \/ p_kind p = PositionalOrKeyword.

(** The positional argument with the index [k] is bound to the parameter with the index [i]. *)
Definition takes_positional (ps : list param) (k i : nat) : Prop :=
  exists p, nth_error ps i = Some p /\
    ((by_position p /\ i = k) \/ (p_kind p = Star /\ forall q, nth_error ps k = Some q -> ~ by_position q)).
(** The keyword argument with a name *)
Definition takes_keyword (ps : list param) (name : text) (i : nat) : Prop :=
  exists p, nth_error ps i = Some p /\
    ((by_name p /\ p_name p = Some name) \/ (p_kind p = StarStar /\ forall q, In q ps -> by_name q -> p_name q <> Some name)).

(** What is typed so far could become a keyword argument for this name. *)
Definition could_become (a : argument) (name : text) : Prop :=
  match a with PositionalOrKeywordName prefix => exists rest, name = prefix ++ rest | _ => True end.
Definition is_positional (a : argument) : Prop := a = PositionalOrEmptyAfterComma \/ exists name, a = PositionalOrKeywordName name.

(** A parameter that a keyword argument behind the others could still be for: [n] positional and the keyword arguments [used] are given. *)
Definition still_free (ps : list param) (n : nat) (used : list text) (a : argument) (i : nat) : Prop :=
  exists p, nth_error ps i = Some p /\
    ((p_kind p = PositionalOrKeyword /\ n <= i /\ forall name, p_name p = Some name -> ~ In name used) \/
     (p_kind p = KeywordOnly /\ exists name, p_name p = Some name /\ ~ In name used /\ could_become a name) \/
     p_kind p = StarStar).

(** The label of a signature *)
Definition shown_name (p : param) : text := match p_name p with Some name => name | None => p_type p end.
Definition shown (p : param) : text :=
  (match p_kind p with Star => [42] | StarStar => [42; 42] | _ => [] end ++ shown_name p ++
   (match p_name p with Some _ => [58; 32] ++ p_type p | None => [] end) ++ (if p_default p then [32; 61] else []))%N.
Fixpoint separated (l : list text) : text := match l with [] => [] | [t] => t | t :: l => t ++ [44; 32]%N ++ separated l end.

(** The bits of a code point that UTF-8 can hold in so many bytes *)
Definition utf8_bits (n : nat) : N := match n with 0 => 0 | 1 => 7 | _ => 5 * N.of_nat n + 1 end.
(** The code point of units of UTF-16 *)
Definition decode_utf16 (units : list N) : option N :=
  match units with
  | [c] => if (c <? 55296)%N || (57343 <? c)%N then Some c else None
  | [h; l] => if (55296 <=? h)%N && (h <? 56320)%N && (56320 <=? l)%N && (l <? 57344)%N then Some (65536 + (h - 55296) * 1024 + (l - 56320))%N else None
  | _ => None
  end.
