(** * What [dataclasses.dataclass] does with these methods

    Written after Lib/dataclasses.py of CPython 3.12. No dictionary is given where the decorator raises an exception. *)
From Coq Require Import List Bool String.
From Verif Require Import DataMethodsModel.
Import ListNotations.
Open Scope string_scope.
Open Scope list_scope.

Definition has_eq (c : class) : Prop := In "__eq__" (c_names c).
(** [has_explicit_hash]: a class that defines [__eq__] gets [__hash__ = None], which does not count. *)
Definition explicit (c : class) : Prop := c_hash c = Some true \/ (c_hash c = Some false /\ ~ has_eq c).
(** What the body of a class gives: with [__eq__] and no [__hash__] it is None *)
Inductive body : class -> option bool -> Prop :=
| body_given : forall c h, c_hash c = Some h -> body c (Some h)
| body_eq : forall c, c_hash c = None -> has_eq c -> body c (Some false)
| body_none : forall c, c_hash c = None -> ~ has_eq c -> body c None.
Definition is_frozen (o : options) : Prop := frozen o = Some true.
(** [__hash__] in the dictionary of the class, after the table [_hash_action]; there is no rule where an exception is raised. *)
Inductive in_dict : class -> option bool -> Prop :=
| dict_plain : forall c h, c_data c = None -> body c h -> in_dict c h
| dict_unsafe : forall c o, c_data c = Some o -> unsafe_hash o = true -> ~ explicit c -> in_dict c (Some true)
| dict_no_eq : forall c o h, c_data c = Some o -> unsafe_hash o = false -> o_eq o = false -> body c h -> in_dict c h
| dict_explicit : forall c o, c_data c = Some o -> unsafe_hash o = false -> o_eq o = true -> explicit c -> in_dict c (c_hash c)
| dict_none : forall c o, c_data c = Some o -> unsafe_hash o = false -> o_eq o = true -> ~ is_frozen o -> ~ explicit c -> in_dict c (Some false)
| dict_add : forall c o, c_data c = Some o -> unsafe_hash o = false -> o_eq o = true -> is_frozen o -> ~ explicit c -> in_dict c (Some true).
(** [__hash__] of an object: the first class that has one *)
Inductive py_hash : list class -> bool -> Prop :=
| py_here : forall c mro h, in_dict c (Some h) -> py_hash (c :: mro) h
| py_above : forall c mro h, in_dict c None -> py_hash mro h -> py_hash (c :: mro) h.

(** When the decorator raises because of a base *)
Definition frozen_clash (o : options) (bases : list class) : Prop :=
  exists c super f, In c bases /\ c_data c = Some super /\ frozen o = Some f /\ frozen super = Some (negb f).
(** When it raises because of the methods for comparison *)
Definition order_clash (o : options) (names : list string) : Prop :=
  order o = true /\ (o_eq o = false \/ exists m, In m names /\ In m ["__lt__"; "__le__"; "__gt__"; "__ge__"]).
