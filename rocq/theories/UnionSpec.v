(** What a union means: the values of its members; and what is expected of the functions that the simplification asks. *)
From Coq Require Import List Arith Bool Permutation.
From Verif Require Import UnionModel.
Import ListNotations.

Definition means {T Val : Type} (denote : T -> Val -> Prop) (l : list (T * nat)) (v : Val) : Prop := exists e, In e l /\ denote (fst e) v.

(** The functions that the simplification asks, see UnionModel. *)
Record ops := mk_ops {
  T : Type; kind_of : T -> kind; eqb : T -> T -> bool; is_object : T -> bool; has_any : T -> bool; is_calculating : T -> bool;
  is_recursive_with_generics : T -> bool; unknown_type_param : T -> bool; unknown_class : T -> option nat; class_ : T -> option nat;
  equal_type : T -> T -> bool; is_super_type_of : T -> T -> bool; bool_type : T; enum_type : nat -> T; enum_len : nat -> nat;
  fallback_type : T -> T; priority : T -> nat; order : list (T * nat) -> list (T * nat) }.

Definition simplify (o : ops) : list (T o * nat) -> list (T o * nat) :=
  merge_simplified_union_type (T o) (kind_of o) (eqb o) (is_object o) (has_any o) (is_calculating o) (is_recursive_with_generics o)
    (unknown_type_param o) (unknown_class o) (class_ o) (equal_type o) (is_super_type_of o) (bool_type o) (enum_type o) (enum_len o)
    (fallback_type o) (priority o) (order o).

Definition simplify_all (o : ops) : list (list (T o * nat)) -> list (T o * nat) :=
  simplified_union (T o) (kind_of o) (eqb o) (is_object o) (has_any o) (is_calculating o) (is_recursive_with_generics o)
    (unknown_type_param o) (unknown_class o) (class_ o) (equal_type o) (is_super_type_of o) (bool_type o) (enum_type o) (enum_len o)
    (fallback_type o) (priority o) (order o).

(** No [Any] inside, not being inferred at the moment, no generic recursive alias. *)
Definition plain_type (o : ops) (t : T o) : Prop := has_any o t = false /\ is_calculating o t = false /\ is_recursive_with_generics o t = false.
Definition literal_type (o : ops) (t : T o) : Prop := exists x, kind_of o t = LiteralValue x.
Definition subset {o : ops} {Val : Type} (denote : T o -> Val -> Prop) (a b : T o) : Prop := forall v, denote a v -> denote b v.

(** The answers are right about the values that the types stand for. *)
Record truthful (o : ops) {Val : Type} (denote : T o -> Val -> Prop) : Prop := {
  order_permuted : forall l, Permutation l (order o l);
  super_sound : forall a b, is_super_type_of o a b = true -> subset denote b a;
  eqb_sound : forall a b, eqb o a b = true -> subset denote a b /\ subset denote b a /\ has_any o a = has_any o b;
  equal_sound : forall a b, equal_type o a b = true -> subset denote a b /\ subset denote b a;
  equal_unknown : forall a b, equal_type o a b = true -> unknown_class o b = None -> unknown_class o a = None;
  unknown_has_any : forall a, has_any o a = false -> unknown_class o a = None /\ unknown_type_param o a = false;
  object_all : forall a, is_object o a = true -> forall v, denote a v;
  literal_value : forall a b x, kind_of o a = LiteralValue x -> kind_of o b = LiteralValue x -> subset denote a b;
  literal_fallback : forall a x, kind_of o a = LiteralValue x -> subset denote a (fallback_type o a);
  member_plain : forall t e i, kind_of o t = EnumMember e i -> i < enum_len o e /\ plain_type o t;
  member_same : forall a b e i, kind_of o a = EnumMember e i -> kind_of o b = EnumMember e i -> is_super_type_of o a b = true;
  member_values : exists member : nat -> nat -> Val -> Prop,
    (forall t e i v, kind_of o t = EnumMember e i -> (denote t v <-> member e i v)) /\
    (forall e v, denote (enum_type o e) v <-> exists i, i < enum_len o e /\ member e i v);
  class_kind : forall t, class_ o t <> None -> kind_of o t = OtherType;
  bool_values : exists truth : bool -> Val -> Prop,
    (forall v, denote (bool_type o) v <-> truth true v \/ truth false v) /\
    (forall t b v, kind_of o t = BoolLiteral b -> (denote t v <-> truth b v));
  enum_known : forall e, unknown_class o (enum_type o e) = None;
  bool_known : unknown_class o (bool_type o) = None;
  enum_kind : forall e, kind_of o (enum_type o e) = OtherType }.

(** The super types of enums, bools and their members; transitivity. *)
Record well_ordered (o : ops) : Prop := {
  super_trans : forall a b c, is_super_type_of o a b = true -> is_super_type_of o b c = true -> is_super_type_of o a c = true;
  enum_above : forall t e i, kind_of o t = EnumMember e i -> is_super_type_of o (enum_type o e) t = true;
  enum_atoms : forall t e, plain_type o t -> is_super_type_of o (enum_type o e) t = true ->
    exists i, i < enum_len o e /\ forall m, kind_of o m = EnumMember e i -> is_super_type_of o t m = true;
  bool_above : forall t b, kind_of o t = BoolLiteral b -> is_super_type_of o (bool_type o) t = true;
  bool_plain : forall t b, kind_of o t = BoolLiteral b -> plain_type o t;
  bool_atoms : forall t, plain_type o t -> is_super_type_of o (bool_type o) t = true ->
    exists b, forall m, kind_of o m = BoolLiteral b -> is_super_type_of o t m = true;
  bool_whole : forall t m b, plain_type o t -> (forall x, kind_of o t <> BoolLiteral x) -> kind_of o m = BoolLiteral b ->
    is_super_type_of o t m = true -> is_super_type_of o t (bool_type o) = true;
  bool_exists : forall b, exists t, kind_of o t = BoolLiteral b }.
