(** The rules of assignability, for types without type variables: which type may be given where a type is expected.

    They follow https://typing.python.org/en/latest/spec/concepts.html#summary-of-type-relations (assignability and equivalence),
    https://typing.python.org/en/latest/spec/tuples.html, https://typing.python.org/en/latest/spec/literal.html,
    https://typing.python.org/en/latest/spec/enums.html and
    https://typing.python.org/en/latest/spec/special-types.html#special-cases-for-float-and-complex.  Of [SubtypeModel], only the
    types, what a program declares and the substitution of type variables are used. *)
From Coq Require Import List NArith Bool.
From Verif Require Import TupleModel SubtypeModel.
Import ListNotations.
Open Scope N_scope.

Section Rules.
Variable p : program.

Definition class_of_literal (l : literal) : N :=
  match l with LInt _ _ => int_class p | LBool _ => bool_class p | LStr _ => str_class p | LBytes _ => bytes_class p end.

(** Values of the type are instances of the class with these type arguments, by declaration.  An enum is not listed among its own base classes. *)
Inductive instance_of : type -> N -> list type -> Prop :=
| i_class c gs : instance_of (Class c gs) c gs
| i_base c gs d ds : In (Class d ds) (bases p c) -> instance_of (Class c gs) d (map (substitute gs) ds)
| i_literal l : instance_of (Literal l) (class_of_literal l) []
| i_literal_base l d ds : In (Class d ds) (bases p (class_of_literal l)) -> instance_of (Literal l) d (map (substitute []) ds)
| i_tuple a d ds : In (Class d ds) (bases p (tuple_class p)) -> instance_of (Tuple a) d (map (substitute [entries p a]) ds)
| i_enum e d ds : In (Class d ds) (bases p (enum_class p e)) -> instance_of (Enum e) d (map (substitute []) ds)
| i_member e m d ds : In (Class d ds) (bases p (enum_class p e)) -> instance_of (EnumMember e m) d (map (substitute []) ds).

(** [int] is promoted to [float], [float] to [complex]. *)
Inductive promoted : N -> N -> Prop :=
| pr_one c d : promote_to p c = Some d -> promoted c d
| pr_more c d e : promote_to p c = Some d -> promoted d e -> promoted c e.

Inductive own_class : type -> N -> Prop :=
| oc_class c gs : own_class (Class c gs) c
| oc_literal l : own_class (Literal l) (class_of_literal l)
| oc_enum e : own_class (Enum e) (enum_class p e)
| oc_member e m : own_class (EnumMember e m) (enum_class p e).

Definition is_union (t : type) : Prop := match t with Union _ => True | _ => False end.

(** [sub t1 t2]: where [t1] is expected, [t2] may be given.  [same t1 t2]: they are equivalent, as the arguments of an invariant type
    variable have to be. *)
Inductive sub : type -> type -> Prop :=
| s_any_expected t : sub Any t
| s_any_given t : sub t Any
| s_never t : sub t Never
| s_none : sub NoneType NoneType
| s_literal l : sub (Literal l) (Literal l)
| s_enum e : sub (Enum e) (Enum e)
| s_enum_member e m : sub (Enum e) (EnumMember e m)
| s_member_itself e m : sub (EnumMember e m) (EnumMember e m)
| s_object t : sub (Class (object p) []) t
| s_class c gs1 t gs2 : instance_of t c gs2 -> related (variances p c) gs1 gs2 -> sub (Class c gs1) t
| s_promotion c d t : own_class t c -> promoted c d -> sub (Class d []) t
| s_tuple ts1 ts2 : subs ts1 ts2 -> sub (Tuple (FixedLen ts1)) (Tuple (FixedLen ts2))
| s_tuples t1 t2 : sub t1 t2 -> sub (Tuple (ArbitraryLen t1)) (Tuple (ArbitraryLen t2))
| s_tuple_items t1 ts2 : sub_all t1 ts2 -> sub (Tuple (ArbitraryLen t1)) (Tuple (FixedLen ts2))
| s_tuple_any ts : sub (Tuple (FixedLen ts)) (Tuple (ArbitraryLen Any))
| s_union_expected ts t1 t2 : In t1 ts -> sub t1 t2 -> sub (Union ts) t2
| s_union_given t1 ts2 : sub_all t1 ts2 -> sub t1 (Union ts2)
| s_bool ts gs : In (Literal (LBool true)) ts -> In (Literal (LBool false)) ts -> sub (Union ts) (Class (bool_class p) gs)
with same : type -> type -> Prop :=
| e_any_left t : same Any t
| e_any_right t : same t Any
| e_none : same NoneType NoneType
| e_never : same Never Never
| e_literal l : same (Literal l) (Literal l)
| e_enum e : same (Enum e) (Enum e)
| e_member e m : same (EnumMember e m) (EnumMember e m)
| e_class c gs1 gs2 : sames gs1 gs2 -> same (Class c gs1) (Class c gs2)
| e_tuple ts1 ts2 : sames ts1 ts2 -> same (Tuple (FixedLen ts1)) (Tuple (FixedLen ts2))
| e_tuples t1 t2 : same t1 t2 -> same (Tuple (ArbitraryLen t1)) (Tuple (ArbitraryLen t2))
| e_tuple_any ts : same (Tuple (FixedLen ts)) (Tuple (ArbitraryLen Any))
| e_any_tuple ts : same (Tuple (ArbitraryLen Any)) (Tuple (FixedLen ts))
| e_union t1 t2 : is_union t1 \/ is_union t2 -> sub t1 t2 -> sub t2 t1 -> same t1 t2
with related : list variance -> list type -> list type -> Prop :=
| r_none : related [] [] []
| r_covariant vs t1 t2 ts1 ts2 : sub t1 t2 -> related vs ts1 ts2 -> related (Covariant :: vs) (t1 :: ts1) (t2 :: ts2)
| r_contravariant vs t1 t2 ts1 ts2 : sub t2 t1 -> related vs ts1 ts2 -> related (Contravariant :: vs) (t1 :: ts1) (t2 :: ts2)
| r_invariant vs t1 t2 ts1 ts2 : same t1 t2 -> related vs ts1 ts2 -> related (Invariant :: vs) (t1 :: ts1) (t2 :: ts2)
with subs : list type -> list type -> Prop :=
| subs_none : subs [] []
| subs_more t1 t2 ts1 ts2 : sub t1 t2 -> subs ts1 ts2 -> subs (t1 :: ts1) (t2 :: ts2)
with sames : list type -> list type -> Prop :=
| sames_none : sames [] []
| sames_more t1 t2 ts1 ts2 : same t1 t2 -> sames ts1 ts2 -> sames (t1 :: ts1) (t2 :: ts2)
with sub_all : type -> list type -> Prop :=
| all_none t : sub_all t []
| all_more t1 t2 ts2 : sub t1 t2 -> sub_all t1 ts2 -> sub_all t1 (t2 :: ts2).

Scheme sub_ind' := Induction for sub Sort Prop
with same_ind' := Induction for same Sort Prop
with related_ind' := Induction for related Sort Prop
with subs_ind' := Induction for subs Sort Prop
with sames_ind' := Induction for sames Sort Prop
with sub_all_ind' := Induction for sub_all Sort Prop.
Combined Scheme rules_ind from sub_ind', same_ind', related_ind', subs_ind', sames_ind', sub_all_ind'.

(** The types the rules are for.  [k] type variables are allowed, in base classes. *)
Definition boolean (t : type) : bool := match t with Literal (LBool _) => true | _ => false end.
Definition variable (t : type) : bool := match t with TypeVar _ => true | _ => false end.

Fixpoint ordinary (k : nat) (t : type) : Prop :=
  match t with
  | Any | NoneType | Never | Literal _ | Enum _ | EnumMember _ _ => True
  | Class c gs => length gs = length (variances p c) /\ Forall (fun s => s) (map (ordinary k) gs)
  | Tuple (FixedLen ts) => Forall (fun s => s) (map (ordinary k) ts)
  | Tuple (ArbitraryLen t) => ordinary k t
  | Union ts => ts <> [] /\ NoDup (filter boolean ts) /\ existsb variable ts = false /\ Forall (fun s => s) (map (ordinary k) ts)
  | TypeVar n => (N.to_nat n < k)%nat
  | _ => False
  end.

Definition named (t : type) : list N := match t with Class c _ => [c] | _ => [] end.

(** The programs: there are no protocols and unknown base classes; base classes are classes, with every class at most once among them; the number of
    type variables of the special classes is right. *)
Record ordinary_program : Prop := {
  no_protocols : forall c, is_protocol p c = false;
  nothing_incomplete : forall c, incomplete p c = false;
  bases_ordinary : forall c b, In b (bases p c) -> (exists d ds, b = Class d ds) /\ ordinary (length (variances p c)) b;
  bases_once : forall c, NoDup (c :: flat_map named (bases p c));
  object_plain : variances p (object p) = [];
  literals_plain : forall l, variances p (class_of_literal l) = [];
  tuple_generic : length (variances p (tuple_class p)) = 1%nat;
  promotions_plain : forall c d, promote_to p c = Some d -> variances p d = [];
  enums_plain : forall e, variances p (enum_class p e) = [];
  entries_ordinary : forall a, ordinary 0 (Tuple a) -> ordinary 0 (entries p a);
  unions_equal : forall ts us, same_union p ts us = true -> incl us ts
}.

(** How deep a type is nested in arguments of type variables that are not covariant, with a depth for each class *)
Section Depth.
Variable weight : N -> nat.

Definition below (v : variance) (d : nat) : nat := match v with Covariant => d | _ => S d end.

Fixpoint deepest (vs : list variance) (ds : list nat) : nat :=
  match vs, ds with v :: vs, d :: ds => Nat.max (below v d) (deepest vs ds) | _, _ => O end.

Fixpoint depth (t : type) : nat :=
  match t with
  | Class c gs => Nat.max (weight c) (deepest (variances p c) (map depth gs))
  | Literal l => weight (class_of_literal l)
  | Enum e | EnumMember e _ => weight (enum_class p e)
  | Tuple (FixedLen ts) => Nat.max (weight (tuple_class p)) (list_max (map depth ts))
  | Tuple (ArbitraryLen t) => Nat.max (weight (tuple_class p)) (depth t)
  | Union ts => list_max (map depth ts)
  | _ => O
  end.
End Depth.

(** No base class is deeper than the class, as with [class C(list[int])] and [class C(Sequence[C])], other than with [class C(list[C])]; and there is no endless promotion. *)
Record ranked_program (weight : N -> nat) : Prop := {
  bases_ranked : forall c gs b, ordinary 0 (Class c gs) -> In b (bases p c) -> (depth weight (substitute gs b) <= depth weight (Class c gs))%nat;
  tuple_covariant : variances p (tuple_class p) = [Covariant];
  entries_ranked : forall a, ordinary 0 (Tuple a) -> (depth weight (entries p a) <= depth weight (Tuple a))%nat;
  promotions_end : exists rank : N -> nat, forall c d, promote_to p c = Some d -> (rank d < rank c)%nat
}.
End Rules.
