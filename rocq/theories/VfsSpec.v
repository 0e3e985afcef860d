(** Specification for the virtual file system: who is affected by a change and what the editor shows.  It does not use
    the operations of the model. *)
From Coq Require Import List Arith.
Import ListNotations.

(** Everything that can be reached from a list of numbers. *)
Inductive reach (R : nat -> nat -> Prop) (l : list nat) : nat -> Prop :=
| reach_in : forall i, In i l -> reach R l i
| reach_step : forall i j, reach R l i -> R i j -> reach R l j.

(** [j] depends on [i], directly or not. *)
Definition depends (R : nat -> nat -> Prop) (i j : nat) : Prop := exists k, R i k /\ reach R [k] j.

(** What the editor and the operating system told us. *)
Inductive told := Said (p : list nat) (c : nat) | Closed (p : list nat) | Other.

(** The content of the buffer for a path, if it is open: the last thing that was said about it. *)
Fixpoint buffer (p : list nat) (h : list told) (acc : option nat) : option nat :=
  match h with
  | [] => acc
  | Said q c :: r => buffer p r (if list_eq_dec Nat.eq_dec q p then Some c else acc)
  | Closed q :: r => buffer p r (if list_eq_dec Nat.eq_dec q p then None else acc)
  | Other :: r => buffer p r acc
  end.
