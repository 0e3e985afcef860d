(** Which types the theorems about joins and meets are for, and what is expected of the parameters.  Types are sets of values as in
    [SubtypeSpec]; nothing here uses the functions of the models. *)
From Coq Require Import List NArith Bool.
From Verif Require Import TupleModel TupleSpec SubtypeModel SubtypeSpec.
Import ListNotations.
Open Scope N_scope.

(** One type has all the values of the other. *)
Definition contains {V} (w : world V) (env : N -> V -> Prop) (t s : type) : Prop := forall v, has w env s v -> has w env t v.

Section Types.
Variable p : program.

(** A class that is no metaclass, with all its bases known *)
Definition nameable (c : N) : Prop :=
  incomplete p c = false /\ metaclass p c <> UnknownMetaclass /\ (forall d, metaclass p d <> Metaclass c) /\ c <> bare_type p /\ c <> generic_alias p.

(** No unpacks in tuples, no type variables with constraints, no dataclasses that are metaclasses *)
Fixpoint tame (k : option nat) (t : type) : Prop :=
  match t with
  | Class _ gs => Forall (fun s => s) (map (tame k) gs)
  | Dataclass c gs => nameable c /\ Forall (fun s => s) (map (tame k) gs)
  | Tuple (FixedLen ts) | Union ts | Intersection ts => Forall (fun s => s) (map (tame k) ts)
  | Tuple (ArbitraryLen t) | TypeOf t => tame k t
  | Tuple (WithUnpack _) => False
  | TypeVar n => match k with Some _ => True | None => ~ constrained p n end
  | _ => True
  end.

(** The types of the theorems; [fine] is that of [SubtypeSpec]. *)
Definition good (k : option nat) (t : type) : Prop := fine p k t /\ tame k t.

(** The same with an unpack at the top *)
Definition loose (a : args type) : Prop :=
  match a with
  | FixedLen ts => Forall (good None) ts
  | ArbitraryLen t => good None t
  | WithUnpack (mk_unpack b m a) => Forall (good None) b /\ Forall (good None) a /\ match m with Many t => good None t | TypeVarTuple _ => True end
  end.

(** No unions, no [type[...]] and no unpacks, also in tuples *)
Fixpoint plain_parts (t : type) : Prop :=
  match t with
  | Any | Union _ | TypeOf _ | Tuple (WithUnpack _) => False
  | Tuple (FixedLen ts) => Forall (fun s => s) (map plain_parts ts)
  | Tuple (ArbitraryLen t) => plain_parts t
  | _ => True
  end.

Definition or_any (t : type) : Prop := good None t \/ t = Any.

(** The definitions of the program use such types.  A class that is no metaclass has no metaclass as a base. *)
Record settled : Prop := mk_settled {
  settled_bases : forall c b, nameable c -> In b (bases p c) -> good (Some (length (variances p c))) b;
  settled_classes : forall c, In c [object p; int_class p; bool_class p; str_class p; bytes_class p; tuple_class p] -> nameable c;
  settled_enums : forall e, nameable (enum_class p e);
  settled_entries : forall a, good None (Tuple a) -> good None (entries p a);
  settled_loose : forall a, loose a -> or_any (entries p a)
}.
End Types.

(** What the simplified union of two types has to be (the unions have a property of their own, C16) *)
Record unites {V} (p : program) (w : world V) (env : N -> V -> Prop) (u : type -> type -> type) : Prop := mk_unites {
  unites_both : forall t s, or_any p t -> or_any p s -> contains w env (u t s) t /\ contains w env (u t s) s;
  unites_good : forall t s, good p None t -> good p None s -> good p None (u t s)
}.
