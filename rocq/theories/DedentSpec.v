(** What removing the common indentation means, line by line. *)
From Coq Require Import List NArith.
From Verif Require Import TextModel.
Import ListNotations.

Section Spec.
  Variable white : N -> bool.

  Definition blank (l : text) : Prop := forall c, In c l -> white c = true.

  (** The lines of a text: no line feed in them, joined by line feeds. *)
  Inductive lines_of : text -> list text -> Prop :=
  | lines_last l : ~ In LF l -> lines_of l [l]
  | lines_next l t ls : ~ In LF l -> lines_of t ls -> lines_of (l ++ LF :: t) (l :: ls).

  (** [k] bytes of white space are removed from the front of the line, or a short blank line stays. *)
  Definition dedented (k : nat) (l l' : text) : Prop :=
    (exists w, l = w ++ l' /\ blank w /\ bytes w = k) \/ l' = l /\ blank l /\ bytes l < k.

  (** A line that is not blank and not indented. *)
  Definition flush_left (l : text) : Prop := exists c r, l = c :: r /\ white c = false.
End Spec.
