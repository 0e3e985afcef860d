(** What Python does when it unpacks a value into targets, puts together a display and matches a sequence pattern, and which values the types have.

    Assignment: https://docs.python.org/3/reference/simple_stmts.html#assignment-statements; displays:
    https://docs.python.org/3/reference/expressions.html#expression-lists; patterns: https://docs.python.org/3/reference/compound_stmts.html#sequence-patterns. *)
From Coq Require Import List NArith Bool.
From Verif Require Import TupleModel TupleSpec UnpackModel.
Import ListNotations.

Section Unpacking.
Context {V : Type}.
(** Iterating over the value gives these values and ends; the first is a list that has just been made of these values *)
Variables (iterates : V -> list V -> Prop) (list_value : V -> list V -> Prop).

Definition starred (t : target) : bool := match t with Starred _ => true | _ => false end.

(** The assignment of the value to the target succeeds, and this is bound to the names.  "If the target list contains one target prefixed with an
    asterisk: the object must be an iterable with at least as many items as there are targets in the target list, minus one. [...] Else: the object must be
    an iterable with the same number of items as there are targets." *)
Inductive assigned : target -> V -> list (N * V) -> Prop :=
| as_name n v : assigned (Name n) v [(n, v)]
| as_targets ts v vs bs : iterates v vs -> assigned_all ts vs bs -> assigned (Targets ts) v bs
with assigned_all : list target -> list V -> list (N * V) -> Prop :=
| as_nil : assigned_all [] [] []
| as_item t v ts vs bs bs' : starred t = false -> assigned t v bs -> assigned_all ts vs bs' -> assigned_all (t :: ts) (v :: vs) (bs ++ bs')
| as_star t l ms ts vs bs bs' :
    existsb starred ts = false -> length vs = length ts -> list_value l ms -> assigned t l bs -> assigned_all ts vs bs' ->
    assigned_all (Starred t :: ts) (ms ++ vs) (bs ++ bs').

(** The display of these entries makes a tuple of these values. *)
Inductive displayed (has : type -> V -> Prop) : list entry -> list V -> Prop :=
| di_nil : displayed has [] []
| di_one t v es vs : has t v -> displayed has es vs -> displayed has (One t :: es) (v :: vs)
| di_star t v l es vs : has t v -> iterates v l -> displayed has es vs -> displayed has (Star t :: es) (l ++ vs).

(** The items of a sequence match the patterns: which item is matched against which pattern, and what the rest is. *)
Section Patterns.
Context {P : Type}.
Variable matches : P -> V -> Prop.

Definition is_rest (p : @sequence_item P) : bool := match p with Rest _ => true | Entry _ => false end.

(** [ms] are the pairs of a pattern and the item it is tried on, if the number of items fits; [rs] is the rest. *)
Inductive aligned : list (@sequence_item P) -> list V -> list (P * V) -> list (N * V) -> Prop :=
| al_nil : aligned [] [] [] []
| al_entry p v ps vs ms rs : aligned ps vs ms rs -> aligned (Entry p :: ps) (v :: vs) ((p, v) :: ms) rs
| al_rest n l l' ps vs ms rs :
    existsb is_rest ps = false -> list_value l l' -> aligned ps vs ms rs ->
    aligned (Rest n :: ps) (l' ++ vs) ms (match n with Some n => (n, l) :: rs | None => rs end).

Definition sequence_matches (ps : list (@sequence_item P)) (vs : list V) : Prop :=
  exists ms rs, aligned ps vs ms rs /\ Forall (fun m => matches (fst m) (snd m)) ms.
End Patterns.

End Unpacking.

(** The types of an iterator cover everything that comes behind a part of any length (see the refutation of loops). *)
Fixpoint covered (it : iterator) : Prop :=
  match it with
  | Unpacked w _ _ => match middle w with Many t => incl (after w) (t :: before w) | TypeVarTuple _ => True end
  | Several its => (fix all its := match its with [] => True | it :: its => covered it /\ all its end) its
  | _ => True
  end.

(** Only tuples are unpacked: a target that has targets gets a tuple, or something that stands for one.  With [fixed], the numbers of items are known (and there are
    no unions); without, the starred targets are names where a tuple has a part of any length. *)
Inductive destructured (fixed : bool) : target -> type -> Prop :=
| de_name n ty : destructured fixed (Name n) ty
| de_fixed ts tys : along fixed ts tys -> destructured fixed (Targets ts) (Tuple (FixedLen tys))
| de_unpack ts w :
    fixed = false ->
    (forall t ty, In t ts -> starred t = false -> In ty (before w ++ after w) -> destructured fixed t ty) ->
    (forall t, In (Starred t) ts -> exists n, t = Name n) ->
    destructured fixed (Targets ts) (Tuple (WithUnpack w))
| de_union ts tys : fixed = false -> (forall ty, In ty tys -> destructured fixed (Targets ts) ty) -> destructured fixed (Targets ts) (Union tys)
| de_bound ts n ty : destructured fixed (Targets ts) ty -> destructured fixed (Targets ts) (TypeVar n (Some ty))
| de_new_type ts n ty : destructured fixed (Targets ts) ty -> destructured fixed (Targets ts) (NewType n ty)
| de_recursive ts n ty : destructured fixed (Targets ts) ty -> destructured fixed (Targets ts) (Recursive n ty)
with along (fixed : bool) : list target -> list type -> Prop :=
| al_done tys : along fixed [] tys
| al_short t ts : starred t = false -> along fixed (t :: ts) []
| al_item t ts ty tys : starred t = false -> destructured fixed t ty -> along fixed ts tys -> along fixed (t :: ts) (ty :: tys)
| al_few t ts tys : (length tys < length ts)%nat -> along fixed (Starred t :: ts) tys
| al_star t ts m tys : length tys = length ts -> destructured fixed t (Tuple (FixedLen m)) -> along fixed ts tys -> along fixed (Starred t :: ts) (m ++ tys).

(** How deep unions are nested in unions, directly or as the bound of a type variable, behind a NewType or an alias *)
Fixpoint level (t : type) : nat :=
  match t with
  | Union ts => S (fold_right (fun t n => Nat.max (level t) n) O ts)
  | TypeVar _ (Some t) | NewType _ t | Recursive _ t => level t
  | _ => O
  end.

(** Only an alias may have a union in a union, but not below a type variable or a NewType; and so in all parts of the type. *)
Fixpoint flat (t : type) : bool :=
  match t with
  | Class _ gs => forallb flat gs
  | Tuple (FixedLen ts) => forallb flat ts
  | Tuple (ArbitraryLen t) => flat t
  | Tuple (WithUnpack (mk_unpack b m a)) => forallb flat b && match m with Many t => flat t | TypeVarTuple _ => true end && forallb flat a
  | Union ts => forallb flat ts && forallb (fun t => match t with Recursive _ _ => true | _ => Nat.leb (level t) 1 end) ts
  | TypeVar _ (Some t) | NewType _ t => flat t && Nat.leb (level t) 1
  | Recursive _ t => flat t
  | _ => true
  end.

(** The parts of the code that are parameters keep to such types. *)
Record flat_laws (items : N -> list type -> class_items) (join union : list type -> type) (avoid_implicit_literal : type -> type) : Prop := {
  flat_items : forall c gs, forallb flat gs = true ->
    match items c gs with TupleBase a => flat (Tuple a) = true | ItemsOf t => flat t = true | NoItems => True end;
  flat_join : forall ts, forallb flat ts = true -> flat (join ts) = true;
  flat_union : forall ts, forallb flat ts = true -> flat (union ts) = true;
  flat_avoided : forall t, flat t = true -> flat (avoid_implicit_literal t) = true }.

Section Laws.
Context {V : Type}.
Variables (iterates list_value : V -> list V -> Prop) (has : type -> V -> Prop) (stands_for : N -> list V -> Prop).
Variables (list_class str_class object_class : N) (items : N -> list type -> class_items) (join union : list type -> type)
          (avoid_implicit_literal : type -> type).

(** The values of the types, and what is asked of the parts of the code that are parameters.  A class with a tuple among its base classes is taken to be
    iterated like the tuple. *)
Record lawful : Prop := {
  has_any : forall v, has Any v;
  has_never : forall v, ~ has Never v;
  has_none : forall v vs, has NoneType v -> ~ iterates v vs;
  has_union : forall ts v, has (Union ts) v -> exists t, In t ts /\ has t v;
  has_tuple : forall a v, has (Tuple a) v -> exists vs, iterates v vs /\ is_tuple has stands_for a vs;
  has_bound : forall n t v, has (TypeVar n (Some t)) v -> has t v;
  has_new_type : forall n t v, has (NewType n t) v -> has t v;
  has_recursive : forall n t v, has (Recursive n t) v -> has t v;
  has_literal : forall s v, has (Literal s) v -> has (Class str_class []) v;
  has_object : forall v, has (Class object_class []) v;
  has_list : forall t l vs, list_value l vs -> Forall (has t) vs -> has (Class list_class [t]) l;
  list_exists : forall vs, exists l, list_value l vs;
  list_iterates : forall l vs, list_value l vs -> iterates l vs;
  iterates_once : forall v vs ws, iterates v vs -> iterates v ws -> ws = vs;
  has_items : forall c gs t v vs, items c gs = ItemsOf t -> has (Class c gs) v -> iterates v vs -> Forall (has t) vs;
  has_tuple_base : forall c gs a v vs, items c gs = TupleBase a -> has (Class c gs) v -> iterates v vs -> is_tuple has stands_for a vs;
  has_join : forall ts t v, In t ts -> has t v -> has (join ts) v;
  has_simplified_union : forall ts t v, In t ts -> has t v -> has (union ts) v;
  has_avoided : forall t v, has t v -> has (avoid_implicit_literal t) v }.
End Laws.

(** What is asked of the patterns of the items: the types if they match and if they do not *)
Record pattern_laws {V P : Type} (has : type -> V -> Prop) (matches : P -> V -> Prop) (guards : P -> type -> type * type) (is_never : type -> bool) : Prop := {
  matching : forall p t v, has t v -> matches p v -> has (fst (guards p t)) v;
  not_matching : forall p t v, has t v -> matches p v \/ has (snd (guards p t)) v;
  never_empty : forall t v, is_never t = true -> ~ has t v }.

(** The rest of a pattern is behind and in front of so many patterns. *)
Fixpoint rest_before {P} (ps : list (@sequence_item P)) : nat :=
  match ps with [] => O | Rest _ :: _ => O | Entry _ :: ps => S (rest_before ps) end.
Fixpoint rest_after {P} (ps : list (@sequence_item P)) : nat :=
  match ps with [] => O | Rest _ :: ps => length ps | Entry _ :: ps => rest_after ps end.
