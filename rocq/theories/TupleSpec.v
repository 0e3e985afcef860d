(** What Python does with a tuple (a list of values), and which tuples belong to a tuple type.

    Subscripts: https://docs.python.org/3/reference/expressions.html#subscriptions and
    https://docs.python.org/3/library/stdtypes.html#common-sequence-operations (notes 3 to 5); unpacking:
    https://docs.python.org/3/reference/simple_stmts.html#assignment-statements; sequence patterns:
    https://docs.python.org/3/reference/compound_stmts.html#sequence-patterns.  The types are those of [TupleModel],
    but nothing here uses its functions. *)
From Coq Require Import List ZArith Bool.
From Verif Require Import TupleModel.
Import ListNotations.
Open Scope Z_scope.

(** [l[i]] is [v]; otherwise there is an IndexError. *)
Definition item {V} (l : list V) (i : Z) (v : V) : Prop :=
  exists n, nth_error l n = Some v /\ (i = Z.of_nat n \/ i = Z.of_nat n - Z.of_nat (length l)).

(** The bounds of [l[start:stop:step]] in a list of length [n]: a negative one counts from the end, then they are limited to
    the positions there are; left out, they are the "end" values, which depend on the sign of the step. *)
Definition counted (n i : Z) : Z := if i <? 0 then n + i else i.

Definition limited (low high i : Z) : Z := Z.max low (Z.min high i).

Definition first_position (n step : Z) (start : option Z) : Z :=
  match start with
  | None => if step >? 0 then 0 else n - 1
  | Some s => if step >? 0 then limited 0 n (counted n s) else limited (-1) (n - 1) (counted n s)
  end.

Definition end_position (n step : Z) (stop : option Z) : Z :=
  match stop with
  | None => if step >? 0 then n else -1
  | Some e => if step >? 0 then limited 0 n (counted n e) else limited (-1) (n - 1) (counted n e)
  end.

(** [r] is [l[start:stop:step]]: the items at the first position and every [step]-th after it, as long as the end position is
    not reached or passed *)
Definition sliced {V} (l : list V) (start stop : option Z) (step : Z) (r : list V) : Prop :=
  let n := Z.of_nat (length l) in
  step <> 0 /\
  forall k : nat,
    let i := first_position n step start + Z.of_nat k * step in
    let e := end_position n step stop in
    nth_error r k = if (if step >? 0 then i <? e else i >? e) then nth_error l (Z.to_nat i) else None.

(** [l * k] *)
Definition times {V} (l : list V) (k : Z) : list V := concat (repeat l (Z.to_nat k)).

Section Values.
Context {T V : Type}.
(** The values of a type, and the lists of values a TypeVarTuple stands for *)
Variables (has : T -> V -> Prop) (stands_for : N -> list V -> Prop).

Definition in_middle (u : unpack T) (vs : list V) : Prop :=
  match u with TypeVarTuple n => stands_for n vs | Many t => Forall (has t) vs end.

(** The tuple of these values has the type. *)
Definition is_tuple (a : args T) (vs : list V) : Prop :=
  match a with
  | FixedLen ts => Forall2 has ts vs
  | ArbitraryLen t => Forall (has t) vs
  | WithUnpack w => exists l m r, vs = l ++ m ++ r /\ Forall2 has (before w) l /\ in_middle (middle w) m /\ Forall2 has (after w) r
  end.

(** The values of an index: those of its literals; a literal of another kind ([True]) may be any number *)
Definition index_value (i : index) (z : Z) : Prop :=
  match i with
  | Literals first others => In (Some z) (first :: others) \/ In None (first :: others)
  | NotLiteral => True
  end.

(** A bound of a slice: left out, or an index *)
Definition bound_value (i : option index) (z : option Z) : Prop :=
  match i, z with
  | Some i, Some z => index_value i z
  | Some NotLiteral, None => True
  | Some (Literals first others), None => In None (first :: others)
  | None, None => True
  | None, Some _ => False
  end.

Definition step_value (i : option index) (z : Z) : Prop :=
  match i with Some i => index_value i z | None => z = 1 end.

(** The values of the parts of a tuple, one behind the other *)
Inductive laid_out : list (part T) -> list V -> Prop :=
| lo_nil : laid_out [] []
| lo_item t v ps vs : has t v -> laid_out ps vs -> laid_out (Item t :: ps) (v :: vs)
| lo_unpacked a l ps vs : is_tuple a l -> laid_out ps vs -> laid_out (Unpacked a :: ps) (l ++ vs).

End Values.
