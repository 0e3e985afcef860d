(** What a solution for the type variables of a call is, and what is assumed about types. *)
From Coq Require Import List NArith Bool.
From Verif Require Import SolveModel.
Import ListNotations.

Section SolveSpec.
Variable T : Type.
Variable le : T -> T -> bool.
Variables inst : N -> list T -> T.
Variable union : list T -> T.
Variable variances : N -> list variance.

Definition Le (a b : T) : Prop := le a b = true.
Definition Equal (a b : T) : Prop := Le a b /\ Le b a.

(** A value in a position of a variance is right for the type that is wanted there. *)
Definition fits (v : variance) (value wanted : T) : Prop :=
  match v with
  | Covariant => Le value wanted
  | Contravariant => Le wanted value
  | Invariant_ => Equal value wanted
  end.

(** A type is within a bound. *)
Definition sat (b : bound T) (t : T) : Prop :=
  match b with
  | Uncalculated _ _ => True
  | Invariant _ k => Equal k t
  | Upper _ k => Le t k
  | Lower _ k => Le k t
  | UpperAndLower _ u l => Le l t /\ Le t u
  end.

Inductive all_fit : list variance -> list T -> list T -> Prop :=
  | fit_nil : all_fit [] [] []
  | fit_cons v vs t ts u us : fits v t u -> all_fit vs ts us -> all_fit (v :: vs) (t :: ts) (u :: us).

(** The type of a parameter with types for the type variables. *)
Fixpoint subst (sigma : nat -> T) (f : formal T) : T :=
  match f with
  | Var _ i => sigma i
  | Closed _ t => t
  | Class _ c args => inst c (map (subst sigma) args)
  | Union _ fs => union (map (subst sigma) fs)
  end.

(** All arguments are right for their parameters. *)
Definition solves (params : list (formal T * T)) (sigma : nat -> T) : Prop :=
  forall f t, In (f, t) params -> Le t (subst sigma f).

(** Classes have all their type arguments and unions have members. *)
Inductive well_formed : formal T -> Prop :=
  | wf_var i : well_formed (Var T i)
  | wf_closed t : well_formed (Closed T t)
  | wf_class c args : length args = length (variances c) -> Forall well_formed args ->
      well_formed (Class T c args)
  | wf_union fs : fs <> [] -> Forall well_formed fs -> well_formed (Union T fs).

(** Neither unions nor, where the variance is turned around, classes. *)
Inductive plain : variance -> formal T -> Prop :=
  | plain_var v i : plain v (Var T i)
  | plain_closed v t : plain v (Closed T t)
  | plain_class v c args : v <> Contravariant -> plain_args v (variances c) args ->
      plain v (Class T c args)
with plain_args : variance -> list variance -> list (formal T) -> Prop :=
  | plain_nil v : plain_args v [] []
  | plain_cons v w ws f fs : plain (compose v w) f -> plain_args v ws fs ->
      plain_args v (w :: ws) (f :: fs).

(** A type variable is used where the type that is taken for it may not be smaller than the value. *)
Inductive bounds_below (i : nat) : variance -> formal T -> Prop :=
  | below_var v : v <> Contravariant -> bounds_below i v (Var T i)
  | below_class v c args : below_args i v (variances c) args -> bounds_below i v (Class T c args)
with below_args (i : nat) : variance -> list variance -> list (formal T) -> Prop :=
  | below_here v w ws f fs : bounds_below i (compose v w) f -> below_args i v (w :: ws) (f :: fs)
  | below_later v w ws f fs : below_args i v ws fs -> below_args i v (w :: ws) (f :: fs).

(** A type variable is used at all. *)
Inductive used (i : nat) : formal T -> Prop :=
  | used_var : used i (Var T i)
  | used_class c args f : In f args -> used i f -> used i (Class T c args).

Section Laws.
Variables same eq : T -> T -> bool.
Variables common_base_type common_sub_type : T -> T -> option T.
Variables as_instance_of instance_of : T -> N -> option (list T).
Variable members : T -> list T.

(** Assignability is a preorder, and being the same is being assignable both ways. *)
Record order : Prop := {
  le_refl a : Le a a;
  le_trans a b c : Le a b -> Le b c -> Le a c;
  same_right a b : same a b = true <-> Equal a b;
  eq_right a b : eq a b = true -> Equal a b }.

(** A common base is the least one, a common subtype is one. *)
Record joins : Prop := {
  base_above a b c : common_base_type a b = Some c -> Le a c /\ Le b c;
  base_least a b c d : common_base_type a b = Some c -> Le a d -> Le b d -> Le c d;
  sub_below a b c : common_sub_type a b = Some c -> Le c a /\ Le c b }.

(** They are found if there are any, and a common subtype is the greatest. *)
Record complete_joins : Prop := {
  base_found a b d : Le a d -> Le b d -> exists c, common_base_type a b = Some c;
  sub_greatest a b c d : common_sub_type a b = Some c -> Le d a -> Le d b -> Le d c;
  sub_found a b d : Le d a -> Le d b -> exists c, common_sub_type a b = Some c }.

(** Classes and unions. *)
Record classes : Prop := {
  inst_variance c ts us : all_fit (variances c) ts us -> Le (inst c ts) (inst c us);
  base_right m c ts : as_instance_of m c = Some ts ->
    length ts = length (variances c) /\ Le m (inst c ts);
  instance_right m c ts : instance_of m c = Some ts ->
    length ts = length (variances c) /\ Equal m (inst c ts);
  members_all t u : (forall m, In m (members t) -> Le m u) -> Le t u;
  members_below t m : In m (members t) -> Le m t;
  members_some t : members t <> [];
  union_above ts t : In t ts -> Le t (union ts);
  union_least ts u : ts <> [] -> (forall t, In t ts -> Le t u) -> Le (union ts) u }.

Record complete_classes : Prop := {
  base_complete t m c ts : In m (members t) -> length ts = length (variances c) ->
    Le m (inst c ts) -> exists us, as_instance_of m c = Some us /\ all_fit (variances c) us ts;
  instance_complete m c ts : length ts = length (variances c) -> Equal m (inst c ts) ->
    exists us, instance_of m c = Some us /\ Forall2 Equal us ts }.
End Laws.
End SolveSpec.
