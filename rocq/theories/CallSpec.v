(** Calls as the Python language reference describes them (section Calls), for positional
    and keyword arguments.  Written without any function of the model: only its data
    types for parameters are used. *)
From Coq Require Import List NArith Arith.
From Verif Require Import CallModel.
Import ListNotations.

Section Spec.
Variables (ty val : Type) (fits : ty -> val -> Prop).

Definition positional (p : param ty) : Prop := p_kind p = PositionalOnly \/ p_kind p = PositionalOrKeyword.
(** The parameter can be given as [n=...]. *)
Definition named (n : N) (p : param ty) : Prop :=
  (p_kind p = PositionalOrKeyword \/ p_kind p = KeywordOnly) /\ p_name p = Some n.
Definition variadic (p : param ty) : Prop := p_kind p = Star \/ p_kind p = StarStar.
Definition required (p : param ty) : Prop := ~ variadic p /\ p_default p = false.

(** The order of the kinds in a parameter list. *)
Definition rank (k : kind) : nat :=
  match k with PositionalOnly => 0 | PositionalOrKeyword => 1 | Star => 2 | KeywordOnly => 3 | StarStar => 4 end.

(** A parameter list that Python accepts: the kinds are in order, there is at most one [*args] and
    one [**kwargs], a parameter that may be given by name has one, and no two have the same. *)
Record signature (ps : list (param ty)) : Prop := {
  in_order : forall i j p q, i < j -> nth_error ps i = Some p -> nth_error ps j = Some q -> rank (p_kind p) <= rank (p_kind q);
  one_variadic : forall i j p q, nth_error ps i = Some p -> nth_error ps j = Some q -> variadic p -> p_kind p = p_kind q -> i = j;
  has_name : forall p, In p ps -> p_kind p = PositionalOrKeyword \/ p_kind p = KeywordOnly -> p_name p <> None;
  one_named : forall n i j p q, nth_error ps i = Some p -> nth_error ps j = Some q -> named n p -> named n q -> i = j
}.

(** A call: the positional values and the named ones; no name occurs twice (a syntax error in Python). *)
Record call : Type := mk_call { by_position : list val; by_name : list (N * val) }.
Definition distinct_names (c : call) : Prop := NoDup (map fst (by_name c)).

(** The [j]-th parameter receives the [i]-th positional argument. *)
Definition receives_position (ps : list (param ty)) (i j : nat) : Prop :=
  exists p, nth_error ps j = Some p /\
    (positional p /\ i = j \/
     p_kind p = Star /\ forall q, nth_error ps i = Some q -> ~ positional q).

(** The [j]-th parameter receives the argument named [n]. *)
Definition receives_name (ps : list (param ty)) (n : N) (j : nat) : Prop :=
  exists p, nth_error ps j = Some p /\
    (named n p \/ p_kind p = StarStar /\ forall q, In q ps -> ~ named n q).

(** The value is of the type of the parameter (every value, if there is none). *)
Definition accepts_value (ps : list (param ty)) (j : nat) (v : val) : Prop :=
  exists p, nth_error ps j = Some p /\ forall t, p_type p = Some t -> fits t v.

(** The call is executed without a TypeError and every argument has the type of its parameter. *)
Record accepts (ps : list (param ty)) (c : call) : Prop := {
  every_position : forall i v, nth_error (by_position c) i = Some v -> exists j, receives_position ps i j /\ accepts_value ps j v;
  every_name : forall n v, In (n, v) (by_name c) -> exists j, receives_name ps n j /\ accepts_value ps j v;
  one_value : forall i n j, i < length (by_position c) -> In n (map fst (by_name c)) ->
    receives_position ps i j -> receives_name ps n j -> False;
  all_required : forall j p, nth_error ps j = Some p -> required p ->
    (exists i, i < length (by_position c) /\ receives_position ps i j) \/
    (exists n, In n (map fst (by_name c)) /\ receives_name ps n j)
}.

End Spec.

Arguments mk_call {val} by_position by_name.
Arguments by_position {val} c.
Arguments by_name {val} c.
Arguments positional {ty} p.
Arguments named {ty} n p.
Arguments variadic {ty} p.
Arguments required {ty} p.
Arguments signature {ty} ps.
Arguments distinct_names {val} c.
Arguments receives_position {ty} ps i j.
Arguments receives_name {ty} ps n j.
Arguments accepts_value {ty val} fits ps j v.
Arguments accepts {ty val} fits ps c.
