(** Model of the guard against endless recursion: crates/utils/src/lib.rs [AlreadySeen]. *)
From Coq Require Import List Bool.
Import ListNotations.

Section Guard.
  Variable T : Type.
  (** [PartialEq]. *)
  Variable eqb : T -> T -> bool.

  (** lib.rs:174-177 [struct AlreadySeen]. *)
  Inductive already_seen := Seen (current : T) (previous : option already_seen).

  Definition current (s : already_seen) : T := match s with Seen c _ => c end.

  (** lib.rs:187-192 [new]. *)
  Definition new (c : T) : already_seen := Seen c None.

  (** lib.rs:198-203 [append]. *)
  Definition append (s : already_seen) (c : T) : already_seen := Seen c (Some s).

  (** All the items of the iterator that starts at [s]. *)
  Fixpoint items (s : already_seen) : list T :=
    match s with Seen c p => c :: match p with Some q => items q | None => [] end end.

  (** lib.rs:194-196 [iter_ancestors]. *)
  Definition iter_ancestors (s : already_seen) : list T :=
    match s with Seen _ (Some q) => items q | Seen _ None => [] end.

  (** lib.rs:180-183 [is_cycle]. *)
  Definition is_cycle (s : already_seen) : bool := existsb (fun a => eqb a (current s)) (iter_ancestors s).

  (** The way in which it is used: an item is entered with [append], and if that is not a cycle, all the items that it needs
      are entered.  The result: the items that were evaluated.  [None]: not finished yet. *)
  Variable needs : T -> list T.

  Fixpoint evaluate (fuel : nat) (s : already_seen) : option (list T) :=
    match fuel with
    | 0 => None
    | S fuel =>
        if is_cycle s then Some []
        else
          (fix each (l : list T) : option (list T) :=
             match l with
             | [] => Some [current s]
             | x :: r =>
                 match evaluate fuel (append s x), each r with
                 | Some a, Some b => Some (a ++ b)
                 | _, _ => None
                 end
             end) (needs (current s))
    end.
End Guard.
