(** What a comparison of values knows of their types.

    [world], [has] and [lawful] of [SubtypeSpec] say which values a type has; [ordinary] of [SubtypeRules] which types are treated. *)
From Coq Require Import List NArith Bool.
From Verif Require Import TupleModel TupleSpec SubtypeModel SubtypeSpec SubtypeRules.
Import ListNotations.
Open Scope N_scope.

(** A class is a subclass of another one. *)
Definition derives (p : program) (c d : N) : Prop := c = d \/ d = object p \/ exists ds, In (Class d ds) (bases p c).

(** A class whose instances are neither tuples nor members of an enum, unless it is [object] or above the class of the enum. *)
Definition nameable (p : program) (c : N) : Prop :=
  (forall ds, ~ In (Class c ds) (bases p (tuple_class p))) /\ forall e, c <> enum_class p e.

(** All classes in a type are such classes. *)
Fixpoint separate (p : program) (t : type) : Prop :=
  match t with
  | Class c gs => nameable p c /\ Forall (fun s => s) (map (separate p) gs)
  | Tuple (FixedLen ts) => Forall (fun s => s) (map (separate p) ts)
  | Tuple (ArbitraryLen t) => separate p t
  | Union ts => Forall (fun s => s) (map (separate p) ts)
  | _ => True
  end.

(** A tuple type with an unpack, made of such types *)
Definition plain_unpack (p : program) (u : with_unpack type) : Prop :=
  Forall (ordinary p 0) (before u) /\ Forall (separate p) (before u) /\ Forall (ordinary p 0) (after u) /\ Forall (separate p) (after u) /\
  match middle u with Many t => ordinary p 0 t /\ separate p t | TypeVarTuple _ => True end.

Record separate_program (p : program) : Prop := {
  separate_bases : forall c d ds, In (Class d ds) (bases p c) -> Forall (separate p) ds;
  separate_literals : forall l, nameable p (class_of_literal p l)
}.

(** Values that may be found equal, with what is known about them: two equal values belong to related classes, containers are not empty and have equal items,
    and equal literals are the same.  Identity is such a relation on values that are not empty. *)
Record alike {V} (p : program) (w : world V) (interchangeable : N -> bool) (E : V -> V -> Prop) : Prop := {
  alike_sym : forall x y, E x y -> E y x;
  alike_classes : forall c s d r x y, E x y -> instance w c s x -> instance w d r y ->
    derives p c d \/ derives p d c \/ interchangeable c = true /\ interchangeable d = true \/ promoted p c d \/ promoted p d c;
  alike_arguments : forall c s r x y, E x y -> instance w c s x -> instance w c r y ->
    length s = length (variances p c) -> length r = length (variances p c) ->
    Forall2 (fun a b => exists x' y', E x' y' /\ a x' /\ b y') s r;
  alike_literals : forall l m x y, E x y -> literal_value w l x -> literal_value w m y -> l = m;
  alike_tuples : forall x y xs ys, E x y -> tuple_value w x xs -> tuple_value w y ys -> xs <> [] /\ Forall2 E xs ys;
  alike_tuple_class : forall x y xs d r, E x y -> tuple_value w x xs -> instance w d r y ->
    d = object p \/ exists ds, In (Class d ds) (bases p (tuple_class p));
  alike_none_class : forall x y d r, E x y -> none_value w x -> instance w d r y -> d = object p;
  alike_none_tuple : forall x y ys, E x y -> none_value w x -> ~ tuple_value w y ys;
  alike_none_member : forall x y e m, E x y -> none_value w x -> ~ member_value w e m y;
  alike_members : forall x y e m e' m', E x y -> member_value w e m x -> member_value w e' m' y -> e = e' /\ m = m';
  alike_member_tuple : forall x y e m ys, E x y -> member_value w e m x -> ~ tuple_value w y ys;
  alike_member_class : forall x y e m d r, E x y -> member_value w e m x -> instance w d r y ->
    d = object p \/ d = enum_class p e \/ variances p d = [] /\ (promoted p (enum_class p e) d \/ exists ds, In (Class d ds) (bases p (enum_class p e)))
}.

(** ** Types where the answer is exact: without type arguments and literals, with a value for each class, member and None *)
Fixpoint simple {V} (p : program) (w : world V) (listed : N -> bool) (t : type) : Prop :=
  match t with
  | NoneType => exists v, none_value w v
  | Enum e => exists m v, member_value w e m v
  | EnumMember e m => exists v, member_value w e m v
  | Class c gs => gs = [] /\ listed c = false /\ fine p None (Class c []) /\ exists v, instance w c [] v
  | Tuple (FixedLen ts) => Forall (fun s => s) (map (simple p w listed) ts)
  | Tuple (ArbitraryLen t) => simple p w listed t
  | Union ts => ts <> [] /\ Forall (fun s => s) (map (simple p w listed) ts)
  | _ => False
  end.

(** There is no cycle of base classes. *)
Definition acyclic (p : program) : Prop := forall c d, derives p c d -> derives p d c -> c = d.

(** ** What is left of a type without None *)
Definition alternative (u t : type) : Prop := u <> NoneType /\ match t with Union ts => In u ts | _ => u = t end.

(** A union with something else than None *)
Definition more_than_none (t : type) : Prop := exists u, alternative u t.

(** [Mapping] itself, or a class like dict that gives it its own type parameters *)
Definition a_mapping (p : program) (mapping c : N) : Prop := c = mapping \/ bases p c = [Class mapping [TypeVar 0; TypeVar 1]].

(** Mappings, and the classes of bytes: the comparison looks at them in other ways than at the classes they are of. *)
Definition special (p : program) (mapping : N) (bytes_like : N -> bool) (t : type) : Prop :=
  match t with Class c _ => derives p c mapping \/ bytes_like c = true | _ => False end.
