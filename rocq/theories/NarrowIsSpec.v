(** What a comparison of [x] with another value tells about [x], in terms of the values of types *)
From Coq Require Import List NArith ZArith Bool.
From Verif Require Import TupleModel TupleSpec SubtypeModel SubtypeSpec.
Import ListNotations.

Section Comparisons.
Context {V : Type}.
Variables (w : world V) (env : N -> V -> Prop).
Notation has := (has w env).

(** A branch where the type of [x] is given, or is what it was before *)
Definition branch_allows (b : option type) (v : V) : Prop :=
  match b with Some t => has t v | None => True end.

(** [x] is of type [t], what it is compared with of type [other]; [test] is [==] or [is]. *)
Definition splits (test : V -> V -> bool) (t other : type) (truthy falsey : option type) : Prop :=
  forall v u, has t v -> has other u -> branch_allows (if test v u then truthy else falsey) v.

(** A value of type [t] passes exactly if it is of the other type. *)
Definition compares_plainly (test : V -> V -> bool) (t other : type) : Prop :=
  forall v u, has t v -> has other u -> (test v u = true <-> has other v).

Definition disjoint (t other : type) : Prop := forall v, has t v -> has other v -> False.

(** No value of type [t] passes. *)
Definition never_passes (test : V -> V -> bool) (t other : type) : Prop :=
  forall v u, has t v -> has other u -> test v u = false.

(** Every value of type [t] passes. *)
Definition always_passes (test : V -> V -> bool) (t other : type) : Prop :=
  forall v u, has t v -> has other u -> test v u = true.
End Comparisons.
