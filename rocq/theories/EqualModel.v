(** Model of the equality of types (crates/zuban_python/src/type_helpers/typing.rs): what [assert_type] asks, and what the
    simplification of unions asks of types with [Any]s.  Recursive aliases are not in the model: types are finite. *)
From Coq Require Import List Arith Bool.
Import ListNotations.

(** crates/zuban_python/src/type_/mod.rs:492-529 [enum Type], crates/zuban_python/src/type_/mod.rs:207-213 [enum GenericItem],
    crates/zuban_python/src/type_/tuple.rs:542-546 [enum TupleArgs], crates/zuban_python/src/type_/callable.rs:274-277 [enum CallableParams],
    crates/zuban_python/src/type_/callable.rs:39-45 [enum ParamType].  Names, links and usages are numbers; the members
    that the equality does not look into and compares with [==] are [TOther]. *)
Inductive ty :=
| TClass (link : nat) (generics : list garg)
| TDataclass (link : nat) (generics : list garg)
| TTuple (args : targs)
| TNamedTuple (defined_at : nat) (args : targs)
| TTypedDict (named : list member) (extra_items : option member)
| TCallable (return_type : ty) (params : cparams) (type_vars : nat) (guard : option guard_)
| TType (t : ty)
| TTypeForm (t : ty)
| TLiteral (value : nat) (implicit : bool) (fallback : nat)
| TLiteralString (implicit : bool)
| TAny (cause : nat)
| TNever (cause : nat)
| TUnion (entries : list ty)
| TIntersection (entries : list ty)
| TEnumMember (defined_at member_index : nat)
| TOther (what : nat)
with garg := TypeArg (t : ty) | TypeArgs (args : targs) | ParamSpecArg (type_vars : nat) (params : cparams)
with targs := WithUnpack (before : list ty) (unpack : unpack_) (after : list ty) | FixedLen (ts : list ty) | ArbitraryLen (t : ty)
with unpack_ := UTypeVarTuple (usage : nat) | UArbitraryLen (t : ty)
with cparams := Simple (ps : list param) | AnyParams (cause : nat)
with param := Param (has_default : bool) (name : option nat) (k : ptype)
with ptype :=
| PositionalOnly (t : ty) | PositionalOrKeyword (t : ty) | KeywordOnly (t : ty)
| StarArbitraryLen (t : ty) | StarParamSpecArgs (usage : nat) | StarUnpackedTuple (args : targs)
| StarStarValueType (t : ty) | StarStarParamSpecKwargs (usage : nat) | StarStarUnpackTypedDict (named : list member) (extra_items : option member)
with member := Member (name : nat) (required read_only : bool) (t : ty)
with guard_ := Guard (from_type_is : bool) (t : ty).

(** The inner loop of crates/zuban_python/src/type_helpers/typing.rs:492-520 [is_equal_union_or_intersection]: removes the first that is equal. *)
Fixpoint remove_first {A : Type} (p : A -> bool) (l : list A) : option (list A) :=
  match l with
  | [] => None
  | y :: r => if p y then Some r else option_map (cons y) (remove_first p r)
  end.

(** [zip] and [all]: stops at the end of the shorter one. *)
Section ZipAll.
Context {A : Type}.
Variable f : A -> A -> bool.
Fixpoint zip_all (l1 l2 : list A) : bool :=
  match l1, l2 with
  | x :: r1, y :: r2 => f x y && zip_all r1 r2
  | _, _ => true
  end.
Definition both (a b : option A) : bool := match a, b with None, None => true | Some x, Some y => f x y | _, _ => false end.
(** The outer loop. *)
Fixpoint match_up (ts1 all_second : list A) : bool :=
  match ts1 with
  | [] => match all_second with [] => true | _ => false end
  | t1 :: r => match remove_first (f t1) all_second with Some l => match_up r l | None => false end
  end.
Definition is_equal_union_or_intersection (ts1 ts2 : list A) : bool :=
  (length ts1 =? length ts2) && match_up ts1 ts2.
End ZipAll.

(** [==] of names. *)
Definition opt_eqb (a b : option nat) : bool := match a, b with Some x, Some y => x =? y | None, None => true | _, _ => false end.

Section Equal.
Variable mypy_compatible any_is_all : bool.

(** crates/zuban_python/src/type_helpers/typing.rs:291-489 [is_equal_type_internal]; the closures are the other functions. *)
Fixpoint is_equal_type (t1 t2 : ty) {struct t1} : bool :=
  match t1, t2 with
  | TClass l1 g1, TClass l2 g2 => (l1 =? l2) && zip_all generic_eq g1 g2
  | TDataclass l1 g1, TDataclass l2 g2 => (l1 =? l2) && zip_all generic_eq g1 g2
  | TTuple a1, TTuple a2 => tuple_args_eq a1 a2
  | TNamedTuple _ a1, TNamedTuple _ a2 => tuple_args_eq a1 a2
  | TTypedDict m1 e1, TTypedDict m2 e2 => (length m1 =? length m2) && zip_all member_eq m1 m2 && both extra_eq e1 e2
  | TCallable r1 p1 v1 g1, TCallable r2 p2 v2 g2 =>
      is_equal_type r1 r2 && params_eq p1 p2 && (v1 =? v2) && both guard_eq g1 g2
  | TType t1, TType t2 => is_equal_type t1 t2
  | TLiteral v1 _ _, TLiteral v2 _ _ => v1 =? v2
  | TLiteral _ i f, TClass l _ | TClass l _, TLiteral _ i f => mypy_compatible && i && (f =? l)
  | TLiteralString _, TLiteralString _ => true
  | TAny _, TAny _ => true
  | TNever _, TNever _ => true
  | TUnion u1, TUnion u2 => is_equal_union_or_intersection is_equal_type u1 u2
  | TIntersection u1, TIntersection u2 => is_equal_union_or_intersection is_equal_type u1 u2
  | TEnumMember d1 i1, TEnumMember d2 i2 => (i1 =? i2) && (d1 =? d2)
  | TAny _, _ | _, TAny _ => any_is_all
  | TTypeForm t1, TTypeForm t2 => is_equal_type t1 t2
  | TOther w1, TOther w2 => w1 =? w2
  | _, _ => false
  end
with generic_eq (g1 g2 : garg) {struct g1} : bool :=
  match g1, g2 with
  | TypeArg t1, TypeArg t2 => is_equal_type t1 t2
  | TypeArgs a1, TypeArgs a2 => tuple_args_eq a1 a2
  | ParamSpecArg v1 p1, ParamSpecArg v2 p2 => (v1 =? v2) && params_eq p1 p2
  | _, _ => false
  end
with tuple_args_eq (a1 a2 : targs) {struct a1} : bool :=
  match a1, a2 with
  | WithUnpack b1 _ f1, WithUnpack b2 _ f2 => zip_all is_equal_type b1 b2 && zip_all is_equal_type f1 f2
  | FixedLen ts1, FixedLen ts2 => zip_all is_equal_type ts1 ts2
  | ArbitraryLen t1, ArbitraryLen t2 => is_equal_type t1 t2
  | _, _ => false
  end
with params_eq (p1 p2 : cparams) {struct p1} : bool :=
  match p1, p2 with
  | Simple ps1, Simple ps2 => zip_all param_eq ps1 ps2
  | AnyParams _, AnyParams _ => true
  | _, _ => false
  end
with param_eq (p1 p2 : param) {struct p1} : bool :=
  match p1, p2 with Param d1 n1 k1, Param d2 n2 k2 => Bool.eqb d1 d2 && ptype_eq n1 n2 k1 k2 end
with ptype_eq (n1 n2 : option nat) (k1 k2 : ptype) {struct k1} : bool :=
  match k1, k2 with
  | PositionalOnly t1, PositionalOnly t2 => is_equal_type t1 t2
  | PositionalOrKeyword t1, PositionalOrKeyword t2 => is_equal_type t1 t2 && opt_eqb n1 n2
  | KeywordOnly t1, KeywordOnly t2 => is_equal_type t1 t2 && opt_eqb n1 n2
  | StarArbitraryLen t1, StarArbitraryLen t2 => is_equal_type t1 t2
  | StarParamSpecArgs u1, StarParamSpecArgs u2 => u1 =? u2
  | StarUnpackedTuple a1, StarUnpackedTuple a2 => tuple_args_eq a1 a2
  | StarStarValueType t1, StarStarValueType t2 => is_equal_type t1 t2
  | StarStarParamSpecKwargs u1, StarStarParamSpecKwargs u2 => u1 =? u2
  | StarStarUnpackTypedDict m1 e1, StarStarUnpackTypedDict m2 e2 =>
      (length m1 =? length m2) && zip_all member_eq m1 m2 && both extra_eq e1 e2
  | _, _ => false
  end
with member_eq (m1 m2 : member) {struct m1} : bool :=
  match m1, m2 with
  | Member n1 r1 o1 t1, Member n2 r2 o2 t2 => (n1 =? n2) && Bool.eqb r1 r2 && Bool.eqb o1 o2 && is_equal_type t1 t2
  end
with extra_eq (m1 m2 : member) {struct m1} : bool :=
  match m1, m2 with Member _ _ o1 t1, Member _ _ o2 t2 => is_equal_type t1 t2 && Bool.eqb o1 o2 end
with guard_eq (g1 g2 : guard_) {struct g1} : bool :=
  match g1, g2 with Guard i1 t1, Guard i2 t2 => i1 && i2 && is_equal_type t1 t2 end.
End Equal.
