(** When two types are the same: written the same, but for the reasons of [Any]s and [Never]s, whether a literal was written down, the
    names of positional parameters, and the order of the members of unions and intersections. *)
From Coq Require Import List Arith Bool Permutation.
From Verif Require Import EqualModel.
Import ListNotations.

Inductive same : ty -> ty -> Prop :=
| same_class l g1 g2 : Forall2 same_arg g1 g2 -> same (TClass l g1) (TClass l g2)
| same_dataclass l g1 g2 : Forall2 same_arg g1 g2 -> same (TDataclass l g1) (TDataclass l g2)
| same_tuple a1 a2 : same_tuple_args a1 a2 -> same (TTuple a1) (TTuple a2)
| same_named_tuple d a1 a2 : same_tuple_args a1 a2 -> same (TNamedTuple d a1) (TNamedTuple d a2)
| same_typed_dict m1 m2 e1 e2 : Forall2 same_member m1 m2 -> same_extra e1 e2 -> same (TTypedDict m1 e1) (TTypedDict m2 e2)
| same_callable r1 r2 p1 p2 v g1 g2 : same r1 r2 -> same_params p1 p2 -> same_guard g1 g2 -> same (TCallable r1 p1 v g1) (TCallable r2 p2 v g2)
| same_type t1 t2 : same t1 t2 -> same (TType t1) (TType t2)
| same_type_form t1 t2 : same t1 t2 -> same (TTypeForm t1) (TTypeForm t2)
| same_literal v i1 i2 f1 f2 : same (TLiteral v i1 f1) (TLiteral v i2 f2)
| same_literal_string i1 i2 : same (TLiteralString i1) (TLiteralString i2)
| same_any c1 c2 : same (TAny c1) (TAny c2)
| same_never c1 c2 : same (TNever c1) (TNever c2)
| same_union l1 l2 l : Permutation l2 l -> Forall2 same l1 l -> same (TUnion l1) (TUnion l2)
| same_intersection l1 l2 l : Permutation l2 l -> Forall2 same l1 l -> same (TIntersection l1) (TIntersection l2)
| same_enum_member d i : same (TEnumMember d i) (TEnumMember d i)
| same_other w : same (TOther w) (TOther w)
with same_arg : garg -> garg -> Prop :=
| same_type_arg t1 t2 : same t1 t2 -> same_arg (TypeArg t1) (TypeArg t2)
| same_type_args a1 a2 : same_tuple_args a1 a2 -> same_arg (TypeArgs a1) (TypeArgs a2)
| same_param_spec_arg v p1 p2 : same_params p1 p2 -> same_arg (ParamSpecArg v p1) (ParamSpecArg v p2)
with same_tuple_args : targs -> targs -> Prop :=
| same_with_unpack b1 b2 u1 u2 a1 a2 : Forall2 same b1 b2 -> same_unpack u1 u2 -> Forall2 same a1 a2 -> same_tuple_args (WithUnpack b1 u1 a1) (WithUnpack b2 u2 a2)
| same_fixed_len l1 l2 : Forall2 same l1 l2 -> same_tuple_args (FixedLen l1) (FixedLen l2)
| same_arbitrary_len t1 t2 : same t1 t2 -> same_tuple_args (ArbitraryLen t1) (ArbitraryLen t2)
with same_unpack : unpack_ -> unpack_ -> Prop :=
| same_type_var_tuple u : same_unpack (UTypeVarTuple u) (UTypeVarTuple u)
| same_unpacked_len t1 t2 : same t1 t2 -> same_unpack (UArbitraryLen t1) (UArbitraryLen t2)
with same_params : cparams -> cparams -> Prop :=
| same_simple l1 l2 : Forall2 same_param l1 l2 -> same_params (Simple l1) (Simple l2)
| same_any_params c1 c2 : same_params (AnyParams c1) (AnyParams c2)
with same_param : param -> param -> Prop :=
| same_param_of d n1 n2 k1 k2 : same_ptype n1 n2 k1 k2 -> same_param (Param d n1 k1) (Param d n2 k2)
with same_ptype : option nat -> option nat -> ptype -> ptype -> Prop :=
| same_positional n1 n2 t1 t2 : same t1 t2 -> same_ptype n1 n2 (PositionalOnly t1) (PositionalOnly t2)
| same_positional_or_keyword n t1 t2 : same t1 t2 -> same_ptype n n (PositionalOrKeyword t1) (PositionalOrKeyword t2)
| same_keyword_only n t1 t2 : same t1 t2 -> same_ptype n n (KeywordOnly t1) (KeywordOnly t2)
| same_star n1 n2 t1 t2 : same t1 t2 -> same_ptype n1 n2 (StarArbitraryLen t1) (StarArbitraryLen t2)
| same_star_param_spec n1 n2 u : same_ptype n1 n2 (StarParamSpecArgs u) (StarParamSpecArgs u)
| same_star_unpacked n1 n2 a1 a2 : same_tuple_args a1 a2 -> same_ptype n1 n2 (StarUnpackedTuple a1) (StarUnpackedTuple a2)
| same_star_star n1 n2 t1 t2 : same t1 t2 -> same_ptype n1 n2 (StarStarValueType t1) (StarStarValueType t2)
| same_star_star_param_spec n1 n2 u : same_ptype n1 n2 (StarStarParamSpecKwargs u) (StarStarParamSpecKwargs u)
| same_star_star_typed_dict n1 n2 m1 m2 e1 e2 : Forall2 same_member m1 m2 -> same_extra e1 e2 ->
    same_ptype n1 n2 (StarStarUnpackTypedDict m1 e1) (StarStarUnpackTypedDict m2 e2)
with same_member : member -> member -> Prop :=
| same_member_of n r o t1 t2 : same t1 t2 -> same_member (Member n r o t1) (Member n r o t2)
with same_extra : option member -> option member -> Prop :=
| same_no_extra : same_extra None None
| same_extra_of n1 n2 r1 r2 o t1 t2 : same t1 t2 -> same_extra (Some (Member n1 r1 o t1)) (Some (Member n2 r2 o t2))
with same_guard : option guard_ -> option guard_ -> Prop :=
| same_no_guard : same_guard None None
| same_guard_of i t1 t2 : same t1 t2 -> same_guard (Some (Guard i t1)) (Some (Guard i t2)).

(** Types in which all tuples of a fixed length have [n] members, all simple callables have [m] parameters, and all classes with the same
    link have as many arguments; without named tuples, tuples that unpack, and [TypeGuard]s. *)
Section Uniform.
Variable n m : nat.
Variable arity : nat -> nat.
Fixpoint uniform (t : ty) : bool :=
  match t with
  | TClass l g | TDataclass l g => (length g =? arity l) && forallb uniform_arg g
  | TTuple a => uniform_tuple a
  | TNamedTuple _ _ => false
  | TTypedDict ms e => forallb uniform_member ms && match e with None => true | Some e => uniform_member e end
  | TCallable r p _ g => uniform r && uniform_params p && match g with None => true | Some g => uniform_guard g end
  | TType t | TTypeForm t => uniform t
  | TUnion l | TIntersection l => forallb uniform l
  | _ => true
  end
with uniform_arg (g : garg) : bool :=
  match g with TypeArg t => uniform t | TypeArgs a => uniform_tuple a | ParamSpecArg _ p => uniform_params p end
with uniform_tuple (a : targs) : bool :=
  match a with WithUnpack _ _ _ => false | FixedLen l => (length l =? n) && forallb uniform l | ArbitraryLen t => uniform t end
with uniform_params (p : cparams) : bool :=
  match p with Simple l => (length l =? m) && forallb uniform_param l | AnyParams _ => true end
with uniform_param (p : param) : bool := match p with Param _ _ k => uniform_ptype k end
with uniform_ptype (k : ptype) : bool :=
  match k with
  | PositionalOnly t | PositionalOrKeyword t | KeywordOnly t | StarArbitraryLen t | StarStarValueType t => uniform t
  | StarUnpackedTuple a => uniform_tuple a
  | StarStarUnpackTypedDict ms e => forallb uniform_member ms && match e with None => true | Some e => uniform_member e end
  | StarParamSpecArgs _ | StarStarParamSpecKwargs _ => true
  end
with uniform_member (x : member) : bool := match x with Member _ _ _ t => uniform t end
with uniform_guard (g : guard_) : bool := match g with Guard i t => i && uniform t end.
End Uniform.

(** Types without a [TypeGuard] ([TypeIs] is allowed). *)
Fixpoint guardless (t : ty) : bool :=
  match t with
  | TClass _ g | TDataclass _ g => forallb guardless_arg g
  | TTuple a | TNamedTuple _ a => guardless_tuple a
  | TTypedDict ms e => forallb guardless_member ms && match e with None => true | Some e => guardless_member e end
  | TCallable r p _ g => guardless r && guardless_params p && match g with None => true | Some g => guardless_guard g end
  | TType t | TTypeForm t => guardless t
  | TUnion l | TIntersection l => forallb guardless l
  | _ => true
  end
with guardless_arg (g : garg) : bool :=
  match g with TypeArg t => guardless t | TypeArgs a => guardless_tuple a | ParamSpecArg _ p => guardless_params p end
with guardless_tuple (a : targs) : bool :=
  match a with WithUnpack b _ a => forallb guardless b && forallb guardless a | FixedLen l => forallb guardless l | ArbitraryLen t => guardless t end
with guardless_params (p : cparams) : bool := match p with Simple l => forallb guardless_param l | AnyParams _ => true end
with guardless_param (p : param) : bool := match p with Param _ _ k => guardless_ptype k end
with guardless_ptype (k : ptype) : bool :=
  match k with
  | PositionalOnly t | PositionalOrKeyword t | KeywordOnly t | StarArbitraryLen t | StarStarValueType t => guardless t
  | StarUnpackedTuple a => guardless_tuple a
  | StarStarUnpackTypedDict ms e => forallb guardless_member ms && match e with None => true | Some e => guardless_member e end
  | StarParamSpecArgs _ | StarStarParamSpecKwargs _ => true
  end
with guardless_member (x : member) : bool := match x with Member _ _ _ t => guardless t end
with guardless_guard (g : guard_) : bool := match g with Guard i t => i && guardless t end.
