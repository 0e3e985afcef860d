(** What types mean: the values they have.  A type is a set of values, a class is given by the sets of values of its type arguments;
    the laws say what the definitions of a program (base classes, variances, bounds, ...) promise about the values.

    Unions, tuples, [type[...]] and the variances follow https://typing.python.org/en/latest/spec/concepts.html and
    https://peps.python.org/pep-0483/.  The types are those of [SubtypeModel], but nothing here uses its functions. *)
From Coq Require Import List NArith Bool.
From Verif Require Import TupleModel TupleSpec SubtypeModel.
Import ListNotations.
Open Scope N_scope.

(** The values of a running program *)
Record world (V : Type) := mk_world {
  instance : N -> list (V -> Prop) -> V -> Prop;   (* of a class, given the values of its type arguments *)
  literal_value : literal -> V -> Prop;
  none_value : V -> Prop;
  literal_text : V -> Prop;                        (* a str that comes from literals *)
  tuple_value : V -> list V -> Prop;               (* a tuple and its items *)
  stands_for : N -> list V -> Prop;                (* a TypeVarTuple *)
  member_value : N -> N -> V -> Prop;              (* a member of an enum *)
  made_by : N -> V -> Prop;                        (* made by a NewType *)
  class_of : V -> V -> Prop                        (* a value and its class *)
}.

Arguments instance {V}. Arguments literal_value {V}. Arguments none_value {V}. Arguments literal_text {V}.
Arguments tuple_value {V}. Arguments stands_for {V}. Arguments member_value {V}. Arguments made_by {V}. Arguments class_of {V}.

Section Meaning.
Context {V : Type}.
Variable w : world V.

(** The values of a tuple type, from those of the types of its items *)
Definition tuple_of (a : args (V -> Prop)) (v : V) : Prop :=
  exists vs, tuple_value w v vs /\ is_tuple (fun (s : V -> Prop) x => s x) (stands_for w) a vs.

(** The values of a type, where [env] gives those of the type variables *)
Fixpoint has (env : N -> V -> Prop) (t : type) (v : V) : Prop :=
  match t with
  | Any => True
  | NoneType => none_value w v
  | Never => False
  | Class c gs | Dataclass c gs => instance w c (map (has env) gs) v
  | Literal l => literal_value w l v
  | LiteralString => literal_text w v
  | Tuple (FixedLen ts) => tuple_of (FixedLen (map (has env) ts)) v
  | Tuple (ArbitraryLen t) => tuple_of (ArbitraryLen (has env t)) v
  | Tuple (WithUnpack (mk_unpack b (TypeVarTuple n) a)) =>
      tuple_of (WithUnpack (mk_unpack (map (has env) b) (TypeVarTuple n) (map (has env) a))) v
  | Tuple (WithUnpack (mk_unpack b (Many t) a)) =>
      tuple_of (WithUnpack (mk_unpack (map (has env) b) (Many (has env t)) (map (has env) a))) v
  | Union ts => Exists (fun s => s v) (map (has env) ts)
  | Intersection ts => Forall (fun s => s v) (map (has env) ts)
  | Enum e => exists m, member_value w e m v
  | EnumMember e m => member_value w e m v
  | NewType n => made_by w n v
  | TypeVar n => env n v
  | TypeOf t => exists x, class_of w x v /\ has env t x
  end.

(** The type variables of a class with these arguments *)
Definition arguments (sets : list (V -> Prop)) (n : N) : V -> Prop := nth (N.to_nat n) sets (fun _ => True).

(** How the sets [s] and [r] are related where [s] is given and [r] is expected *)
Definition related (v : variance) (s r : V -> Prop) : Prop :=
  match v with
  | Covariant => forall x, s x -> r x
  | Contravariant => forall x, r x -> s x
  | Invariant => forall x, s x <-> r x
  end.

End Meaning.

(** The types the theorem is about.  They have no [Any] and no [LiteralString], every tuple with an unpack has a TypeVarTuple there, dataclasses have only
    invariant type variables, and a metaclass or [type] is not named.  In a base class of a class with [Some k] type variables
    only these may be used, and not within [type[...]]. *)
Section Fine.
Variable p : program.

Definition constrained (n : N) : Prop := match kind_of p n with Constraints _ => True | _ => False end.

(** The type in [type[...]] *)
Fixpoint typable (k : option nat) (t : type) : Prop :=
  match t with
  | TypeVar n => match k with Some _ => False | None => ~ constrained n end
  | Union ts => Forall (fun s => s) (map (typable k) ts)
  | _ => True
  end.

Definition is_type_var (t : type) : Prop := match t with TypeVar _ => True | _ => False end.

(** With two literals of bool, there are both of them. *)
Definition distinct_bools (ts : list type) : Prop :=
  (2 <= length (filter (fun t => match t with Literal (LBool _) => true | _ => false end) ts))%nat ->
  In (Literal (LBool true)) ts /\ In (Literal (LBool false)) ts.

Fixpoint fine (k : option nat) (t : type) : Prop :=
  match t with
  | Any | LiteralString => False
  | NoneType | Never | Literal _ | Enum _ | EnumMember _ _ | NewType _ => True
  | Class c gs =>
      length gs = length (variances p c) /\ incomplete p c = false /\ metaclass p c <> UnknownMetaclass /\
      (forall d, metaclass p d <> Metaclass c) /\ c <> bare_type p /\ c <> generic_alias p /\
      Forall (fun s => s) (map (fine k) gs)
  | Dataclass c gs =>
      length gs = length (variances p c) /\ Forall (eq Invariant) (variances p c) /\ Forall (fun s => s) (map (fine k) gs)
  | Tuple (FixedLen ts) => Forall (fun s => s) (map (fine k) ts)
  | Tuple (ArbitraryLen t) => fine k t
  | Tuple (WithUnpack (mk_unpack b (TypeVarTuple _) a)) =>
      Forall (fun s => s) (map (fine k) b) /\ Forall (fun s => s) (map (fine k) a)
  | Tuple (WithUnpack (mk_unpack b (Many _) a)) => False
  | Union ts =>
      ts <> [] /\ distinct_bools ts /\ (k <> None -> Forall (fun t => ~ is_type_var t) ts) /\ Forall (fun s => s) (map (fine k) ts)
  | Intersection ts => ts <> [] /\ Forall (fun s => s) (map (fine k) ts)
  | TypeVar n => match k with Some k => (N.to_nat n < k)%nat | None => True end
  | TypeOf t => typable k t /\ fine k t
  end.

(** The same, but a class may be a metaclass, and there is [LiteralString] *)
Definition fine_value (k : option nat) (t : type) : Prop :=
  match t with
  | Class c gs => length gs = length (variances p c) /\ incomplete p c = false /\ Forall (fun s => s) (map (fine k) gs)
  | LiteralString => True
  | _ => fine k t
  end.

(** The definitions of the program use only such types. *)
Record proper : Prop := mk_proper {
  proper_bases : forall c b, In b (bases p c) -> fine_value (Some (length (variances p c))) b;
  proper_object : variances p (object p) = [] /\ incomplete p (object p) = false;
  proper_literals : forall c, In c [int_class p; bool_class p; str_class p; bytes_class p] -> variances p c = [] /\ incomplete p c = false;
  proper_tuple : length (variances p (tuple_class p)) = 1%nat;
  proper_entries : forall a, fine None (Tuple a) -> fine None (entries p a);
  proper_enums : forall e, variances p (enum_class p e) = [];
  proper_newtypes : forall n, fine None (newtype_type p n);
  proper_promotions : forall c d, promote_to p c = Some d -> fine None (Class d []);
  proper_metaclasses : forall c d, metaclass p c = Metaclass d -> fine_value None (Class d []);
  proper_kinds : forall n, match kind_of p n with
    | Unrestricted => True
    | Bound t => fine None (TypeOf t)
    | Constraints ts => Forall (fine None) ts
    end
}.
End Fine.

Section Laws.
Context {V : Type}.
Variables (p : program) (w : world V) (env : N -> V -> Prop).
Notation has := (has w).

(** What the definitions of the program promise about the values *)
Record lawful : Prop := mk_lawful {
  (* the variances of the type variables are right *)
  law_arguments : forall c s r v, length s = length (variances p c) -> length r = length (variances p c) ->
    (forall i u a b, nth_error (variances p c) i = Some u -> nth_error s i = Some a -> nth_error r i = Some b -> related u a b) ->
    instance w c s v -> instance w c r v;
  (* an instance of a class is one of its base classes *)
  law_bases : forall c s b v, length s = length (variances p c) -> In b (bases p c) -> instance w c s v -> has (arguments s) b v;
  law_object : forall v, instance w (object p) [] v;
  law_promotions : forall c d s v, promote_to p c = Some d -> instance w c s v -> instance w d [] v;
  (* literals, None, enums *)
  law_int : forall n s v, literal_value w (LInt n s) v -> instance w (int_class p) [] v;
  law_str : forall s v, literal_value w (LStr s) v -> literal_text w v;
  law_text : forall v, literal_text w v -> instance w (str_class p) [] v;
  law_bytes : forall s v, literal_value w (LBytes s) v -> instance w (bytes_class p) [] v;
  law_bool : forall v, instance w (bool_class p) [] v <-> literal_value w (LBool true) v \/ literal_value w (LBool false) v;
  law_members : forall e m v, member_value w e m v -> instance w (enum_class p e) [] v;
  (* a tuple is an instance of the base classes of tuple, for the type of its items *)
  law_tuple : forall v vs s b, tuple_value w v vs -> Forall s vs -> In b (bases p (tuple_class p)) -> has (arguments [s]) b v;
  law_entries : forall a v vs, has env (Tuple a) v -> tuple_value w v vs -> Forall (has env (entries p a)) vs;
  law_newtypes : forall n v, made_by w n v -> has env (newtype_type p n) v;
  law_metaclasses : forall c d s x v, metaclass p c = Metaclass d -> instance w c s x -> class_of w x v -> instance w d [] v;
  (* a type variable stands for values within its bound *)
  law_kinds : forall n, match kind_of p n with
    | Unrestricted => True
    | Bound t => forall v, env n v -> has env t v
    | Constraints ts => forall v, env n v -> Exists (fun t => has env t v) ts
    end;
  (* what is not modelled: protocols and the equality of unions *)
  law_protocols : forall c gs t v, fine p None (Class c gs) -> fine_value p None t -> is_protocol p c = true -> check_protocol p c gs t = Yes -> has env t v -> has env (Class c gs) v;
  law_same_union : forall ts us v, same_union p ts us = true -> has env (Union us) v -> has env (Union ts) v
}.
End Laws.
