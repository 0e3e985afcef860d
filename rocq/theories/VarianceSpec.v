(** What a variance means: the signs of the uses of a type variable, and subtyping as the typing specification has it, with inheritance,
    transitivity and the variances of the classes. *)
From Coq Require Import List Bool PeanoNat.
From Verif Require Import VarianceModel.
Import ListNotations.

Inductive sign := Plus | Minus | Both.
Definition flip (s : sign) : sign := match s with Plus => Minus | Minus => Plus | Both => Both end.
Definition under (v : variance) (s : sign) : sign :=
  match v with Covariant => s | Contravariant => flip s | Invariant => Both end.

Section Signs.
Variable table : nat -> nat -> variance.
Variable x : nat.

(** The signs of the uses of [x]: under a parameter they turn round, under an invariant type argument they are both. *)
Fixpoint signs (t : type) : list sign :=
  let fix arguments c i ts :=
    match ts with
    | [] => []
    | t :: ts => map (under (table c i)) (signs t) ++ arguments c (S i) ts
    end in
  match t with
  | Var y => if x =? y then [Plus] else []
  | Any => []
  | Instance c ts => arguments c 0 ts
  | Function ps r => map flip (flat_map signs ps) ++ signs r
  | Tuple ts | Union ts => flat_map signs ts
  end.
End Signs.

Section Subtyping.
Variable table : nat -> nat -> variance.
Variable bases : nat -> list type.

(** The base of a class with type arguments *)
Fixpoint instantiate (ts : list type) (t : type) : type :=
  match t with
  | Var y => match nth_error ts y with Some u => u | None => t end
  | Any => Any
  | Instance c us => Instance c (map (instantiate ts) us)
  | Function ps r => Function (map (instantiate ts) ps) (instantiate ts r)
  | Tuple us => Tuple (map (instantiate ts) us)
  | Union us => Union (map (instantiate ts) us)
  end.

Inductive subtype : type -> type -> Prop :=
| Sub_refl : forall t, subtype t t
| Sub_trans : forall t u w, subtype t u -> subtype u w -> subtype t w
| Sub_object : forall t, subtype t object
| Sub_base : forall c ts b, In b (bases c) -> subtype (Instance c ts) (instantiate ts b)
| Sub_instance : forall c ts us, length ts = length us ->
    (forall i t u, nth_error ts i = Some t -> nth_error us i = Some u -> table c i <> Contravariant -> subtype t u) ->
    (forall i t u, nth_error ts i = Some t -> nth_error us i = Some u -> table c i <> Covariant -> subtype u t) ->
    subtype (Instance c ts) (Instance c us)
| Sub_function : forall ps qs r s, length ps = length qs ->
    (forall i p q, nth_error ps i = Some p -> nth_error qs i = Some q -> subtype q p) -> subtype r s ->
    subtype (Function ps r) (Function qs s)
| Sub_tuple : forall ts us, length ts = length us ->
    (forall i t u, nth_error ts i = Some t -> nth_error us i = Some u -> subtype t u) -> subtype (Tuple ts) (Tuple us)
| Sub_union_left : forall ts u, (forall t, In t ts -> subtype t u) -> subtype (Union ts) u
| Sub_union_right : forall t u us, In u us -> subtype t u -> subtype t (Union us).
End Subtyping.

(** ** The types for which replacing by object tells the signs *)
Section Simple.
Variable inherits : nat -> list type -> nat -> list type -> bool.
Variable x : nat.

Definition no_union (t : type) : Prop := match t with Union _ => False | _ => True end.

(** No instance of [m] is one of [u], by the classes. *)
Definition apart (m u : type) : Prop :=
  match u with
  | Var y => x <> y
  | Any | Union _ => False
  | Instance d _ =>
      d <> 0 /\ match m with
                | Instance c _ => c <> d /\ forall ts us, inherits c ts d us = false
                | Var _ => forall us, inherits 0 [] d us = false
                | _ => True
                end
  | Function _ _ => match m with Function _ _ => False | _ => True end
  | Tuple _ => match m with Tuple _ => False | _ => True end
  end.

Inductive simple : type -> Prop :=
| Simple_var : forall y, simple (Var y)
| Simple_any : simple Any
| Simple_instance : forall c ts, (forall t, In t ts -> simple t) -> simple (Instance c ts)
| Simple_function : forall ps r, (forall p, In p ps -> simple p) -> simple r -> simple (Function ps r)
| Simple_tuple : forall ts, (forall t, In t ts -> simple t) -> simple (Tuple ts)
| Simple_union : forall ts, (forall t, In t ts -> simple t) ->
    (forall before m after, ts = before ++ m :: after -> mentions x m = true ->
       no_union m /\ forall u, In u (before ++ after) -> apart m u) ->
    simple (Union ts).
End Simple.

(** ** Classes *)

(** The type of what may be assigned to a member; a name with an underscore is not assigned from outside. *)
Definition written (frozen : bool) (m : member) : option type :=
  if is_underscored (m_name m) then None
  else match m_kind m with
       | AnnotatedAttribute => if frozen then None else Some (m_type m)
       | Attribute | ClassVar => Some (m_type m)
       | Property (Some s) => Some s
       | _ => None
       end.

(** The constructors are not called on instances. *)
Definition counted (k : class) : list member := filter (fun m => negb (skipped (m_name m))) (c_members k).

Definition reads (table : nat -> nat -> variance) (k : class) (x : nat) : list sign :=
  flat_map (signs table x) (c_bases k)
  ++ flat_map (fun m => signs table x (erase_return_self_type (c_self k) (m_type m))) (counted k).
Definition writes (table : nat -> nat -> variance) (k : class) (x : nat) : list sign :=
  flat_map (fun m => match written (c_frozen k) m with Some t => map flip (signs table x t) | None => [] end) (counted k).

(** The instances of the class with [a] can be used for those with [b]. *)
Definition usable (table : nat -> nat -> variance) (bases : nat -> list type) (k : class) (x : nat) (a b : type) : Prop :=
  (forall t, In t (c_bases k) -> subtype table bases (replace x a t) (replace x b t))
  /\ (forall m, In m (counted k) -> subtype table bases (replace x a (m_type m)) (replace x b (m_type m)))
  /\ (forall m t, In m (counted k) -> written (c_frozen k) m = Some t -> subtype table bases (replace x b t) (replace x a t)).

(** The members of the class for which the theorems hold *)
Record fine (inherits : nat -> list type -> nat -> list type -> bool) (k : class) (x : nat) : Prop := Fine
  { fine_bases : forall b, In b (c_bases k) -> simple inherits x b;
    fine_members : forall m, In m (counted k) -> simple inherits x (erase_return_self_type (c_self k) (m_type m));
    fine_setters : forall m s, In m (counted k) -> m_kind m = Property (Some s) -> s = m_type m;
    fine_written : forall m t, In m (counted k) -> written (c_frozen k) m = Some t -> erase_return_self_type (c_self k) t = t;
    (* A function that returns an instance of the class returns one with the same type arguments. *)
    fine_results : forall m ps ts, In m (counted k) -> m_type m = Function ps (Instance (c_self k) ts) ->
      forall i t, nth_error ts i = Some t -> t = Var i }.

(** The class [c] is not in the type. *)
Fixpoint avoids (c : nat) (t : type) : bool :=
  match t with
  | Var _ | Any => true
  | Instance d ts => negb (d =? c) && forallb (avoids c) ts
  | Function ps r => forallb (avoids c) ps && avoids c r
  | Tuple ts | Union ts => forallb (avoids c) ts
  end.
