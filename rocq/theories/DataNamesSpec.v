(** * The dictionaries of classes in Python

    The decorator adds a name only if the body has not bound it ([_set_new_attribute]). *)
From Coq Require Import List.
From Verif Require Import DataNamesModel.
Import ListNotations.

(** Whether the decorator makes the name with these options *)
Inductive makes (o : options) : name -> Prop :=
| makes_init : o_init o = true -> makes o Init
| makes_match_args : o_match_args o = true -> makes o MatchArgs
| makes_slots : o_slots o = true -> makes o Slots
| makes_order : forall i, o_order o = true -> makes o (OrderMethod i).
Definition made (c : class) (n : name) : Prop := exists o, c_data c = Some o /\ makes o n.
Definition bound (c : class) (n : name) : Prop := In n (c_names c).

Inductive in_dict (c : class) (n : name) : origin -> Prop :=
| dict_body : bound c n -> in_dict c n InBody
| dict_made : ~ bound c n -> made c n -> in_dict c n Generated.
(** An attribute is that of the first class whose dictionary has it; the same for a class and for an object. *)
Definition attribute (mro : list class) (n : name) (k : nat) (r : origin) : Prop :=
  exists c, nth_error mro k = Some c /\ in_dict c n r /\
    forall j d, j < k -> nth_error mro j = Some d -> ~ bound d n /\ ~ made d n.
(** A body that binds what the decorator would make *)
Definition replaced (c : class) (n : name) : Prop := bound c n /\ made c n.
