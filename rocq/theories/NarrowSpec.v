(** What narrowing is about: a variable of a type is tested, and the code behind is run with the values that pass, or with the ones that do not. *)
From Coq Require Import List NArith ZArith Bool.
From Verif Require Import TupleModel TupleSpec SubtypeModel SubtypeSpec NarrowModel.
Import ListNotations.
Open Scope Z_scope.

(** The comparison of two ints *)
Definition compared (op : operator) (a b : Z) : bool :=
  match op with
  | OpEq => a =? b
  | OpNe => negb (a =? b)
  | OpLt => a <? b
  | OpGt => a >? b
  | OpLe => a <=? b
  | OpGe => a >=? b
  end.

(** [len(x) op n], or [n op len(x)] *)
Definition len_test (len_is_right : bool) (op : operator) (n len : Z) : bool :=
  if len_is_right then compared op n len else compared op len n.

Section Tests.
Context {V : Type}.
Variables (w : world V) (env : N -> V -> Prop).

(** Both sides of a test have every value of the type that belongs there. *)
Definition keeps (t : type) (test : V -> bool) (truthy falsey : type) : Prop :=
  forall v, has w env t v -> has w env (if test v then truthy else falsey) v.

(** A side has exactly the values of the type that belong there. *)
Definition exactly (t : type) (test : V -> bool) (side : type) : Prop :=
  forall v, has w env side v <-> has w env t v /\ test v = true.

(** [len(v)]: a tuple has as many items as [len] says, a named tuple as many as it has fields. *)
Record measured (named_tuple : N -> option N) (len_of : V -> N) : Prop := mk_measured {
  law_len : forall v vs, tuple_value w v vs -> len_of v = N.of_nat (length vs);
  law_fields : forall c n s v, named_tuple c = Some n -> instance w c s v -> len_of v = n
}.
End Tests.
