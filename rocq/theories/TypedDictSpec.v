(** What a TypedDict promises, said with dicts: a dict is a map from keys to values, a view of it as
    a TypedDict says what is in the dict and what may be done with it.  Nothing here uses the
    functions of the model, only its records. *)
From Coq Require Import List NArith Bool.
From Verif Require Import TypedDictModel.
Import ListNotations.
Open Scope N_scope.

Section Spec.
Variables T value : Type.
(** The values of a type. *)
Variable has : T -> value -> Prop.

Definition dict := N -> option value.

(** The TypedDict has an item for the key: a named one, or if there is none the extra items. *)
Definition item (td : typed_dict T) (k : N) (t : T) (required read_only : bool) : Prop :=
  In (mk_member T k t required read_only) (named T td)
  \/ ((forall m, In m (named T td) -> m_name T m <> k)
      /\ extra_items T td = Some (mk_extra T t read_only) /\ required = false).

(** The dict is one of the TypedDict.  A closed TypedDict has extra items of a type without values. *)
Definition conforms (td : typed_dict T) (d : dict) : Prop :=
  forall k t required read_only, item td k t required read_only ->
  match d k with Some v => has t v | None => required = false end.

(** What can be done with a dict. *)
Inductive operation := Set_ (k : N) (v : value) | Del (k : N) | Clear.

Definition apply (o : operation) (d : dict) : dict :=
  match o with
  | Set_ k v => fun k' => if k' =? k then Some v else d k'
  | Del k => fun k' => if k' =? k then None else d k'
  | Clear => fun _ => None
  end.

(** What may be done with a dict that is seen as a TypedDict. *)
Definition allowed (td : typed_dict T) (o : operation) : Prop :=
  match o with
  | Set_ k v => exists t required, item td k t required false /\ has t v
  | Del k => exists t, item td k t false false
  | Clear => forall k, exists t, item td k t false false
  end.

(** A contract is what the others that have the same dict rely on.  A TypedDict models a contract if
    the dicts of the contract are dicts of the TypedDict and whatever it allows keeps the
    contract. *)
Definition models (td : typed_dict T) (contract : dict -> Prop) : Prop :=
  forall d, contract d ->
    conforms td d /\ forall o, allowed td o -> contract (apply o d).

(** A dict seen as [td2] may be seen as [td1], whatever others rely on. *)
Definition safe (td1 td2 : typed_dict T) : Prop :=
  forall contract, models td2 contract -> models td1 contract.

(** The names of a TypedDict are different. *)
Definition distinct (td : typed_dict T) : Prop := NoDup (map (m_name T) (named T td)).

(** The same for a dict seen as [dict[str, t]] and as [Mapping[str, t]]. *)
Definition models_dict (t : T) (contract : dict -> Prop) : Prop :=
  forall d, contract d ->
    (forall k v, d k = Some v -> has t v)
    /\ (forall k v, has t v -> contract (apply (Set_ k v) d))
    /\ (forall k, contract (apply (Del k) d))
    /\ contract (apply Clear d).

Definition models_mapping (t : T) (contract : dict -> Prop) : Prop :=
  forall d, contract d -> forall k v, d k = Some v -> has t v.

(** The keys of a type of keys. *)
Definition key_has (x : key) (k : N) : Prop :=
  match x with Literals l ls => In k (l :: ls) | Str => True | OtherKey => False end.

(** The value of the default of [get] and [pop]: [None] without one. *)
Definition default_has (none : value) (second_arg : option T) (v : value) : Prop :=
  match second_arg with Some t => has t v | None => v = none end.

(** The answers about types are right. *)
Record right_types (super same : T -> T -> bool) (is_never : T -> bool) (unite : list T -> T)
  (object none_type : T) (none : value) : Prop := mk_right_types {
  right_super : forall a b, super a b = true <-> (forall v, has b v -> has a v);
  right_same : forall a b, same a b = true <-> (forall v, has a v <-> has b v);
  right_never : forall a, is_never a = true <-> (forall v, ~ has a v);
  right_union : forall ts v, has (unite ts) v <-> exists t, In t ts /\ has t v;
  right_object : forall v, has object v;
  right_none : has none_type none }.

(** The dict made by a dict display: what the elements are. *)
Inductive piece := Pair (k : N) (v : value) | Unpacked (d : dict).

Definition put (d : dict) (p : piece) : dict :=
  match p with
  | Pair k v => fun k' => if k' =? k then Some v else d k'
  | Unpacked new => fun k' => match new k' with Some v => Some v | None => d k' end
  end.

Definition display (ps : list piece) : dict := fold_left put ps (fun _ => None).

(** The dict has no keys but the names of the TypedDict. *)
Definition only_names (td : typed_dict T) (d : dict) : Prop :=
  forall k v, d k = Some v -> exists m, In m (named T td) /\ m_name T m = k.

(** What an element of a dict display is when it runs; nothing is hidden in an unpacked dict. *)
Inductive made : element T -> piece -> Prop :=
  | made_pair : forall k t v, has t v -> made (KeyValue T (Some k) t) (Pair k v)
  | made_unpacked : forall td d, conforms td d -> only_names td d ->
      made (Star T td) (Unpacked d).
End Spec.
