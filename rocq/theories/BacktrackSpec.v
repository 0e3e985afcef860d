(** A reader that can go back is a position in the list of all tokens. *)
From Coq Require Import List Arith.
From Verif Require Import BacktrackModel.
Import ListNotations.

Section Spec.
  Variable T : Type.
  Variable start_index length_ : T -> nat.
  (** All the tokens of the file. *)
  Variable all : list T.

  (** [high]: how many tokens were read at least once; [since]: the first token that is recorded, while recording. *)
  Record reader := mk_reader { pos : nat; high : nat; just_read : bool; marks : list nat; since : option nat }.

  Definition at_span (j a l : nat) : Prop := exists t, nth_error all j = Some t /\ start_index t = a /\ length_ t = l.

  Inductive moves : reader -> op -> reader -> list (option T) -> Prop :=
  | moves_next r t : nth_error all (pos r) = Some t ->
      moves r Next (mk_reader (S (pos r)) (Nat.max (high r) (S (pos r))) true (marks r) (since r)) [Some t]
  | moves_end r : nth_error all (pos r) = None ->
      moves r Next (mk_reader (pos r) (high r) false (marks r) (since r)) [None]
  | moves_start r : just_read r = true ->
      moves r Start (mk_reader (pos r) (high r) true (marks r ++ [pos r - 1])
                       (match since r with Some p => Some p | None => Some (pos r - 1) end)) []
  | moves_reset r k m : nth_error (marks r) k = Some m ->
      moves r (Reset k) (mk_reader m (high r) false (marks r) (since r)) []
  (** The last token with this position among those that were read; it was recorded. *)
  | moves_leaf r a l j p : since r = Some p -> p <= j -> j < high r -> at_span j a l ->
      (forall i, j < i -> i < high r -> ~ at_span i a l) ->
      moves r (ResetLeaf a l) (mk_reader (S j) (high r) false (marks r) (since r)) []
  | moves_stop r : moves r Stop (mk_reader (pos r) (high r) (just_read r) [] None) [].

  Inductive reads : reader -> list op -> reader -> list (option T) -> Prop :=
  | reads_nil r : reads r [] r []
  | reads_cons r o r1 out ops r2 outs : moves r o r1 out -> reads r1 ops r2 outs -> reads r (o :: ops) r2 (out ++ outs).

  Definition at_start : reader := mk_reader 0 0 false [] None.
End Spec.
