(** The text between the tokens of a file, and edits. *)
From Coq Require Import List NArith Arith Bool.
From Verif Require Import TextModel TreeModel TreeSpec TreeProps IgnoreSpec.
Import ListNotations.

(** White space, line ends, comments, and backslashes before line ends. *)
Inductive gap : list N -> Prop :=
| gap_end : gap []
| gap_white c g : (c = 32 \/ c = 9 \/ c = 12)%N -> gap g -> gap (c :: g)
| gap_newline c g : newline c -> gap g -> gap (c :: g)
| gap_comment body g : Forall (fun c => ~ newline c) body -> (g = [] \/ exists c r, g = c :: r /\ newline c) -> gap g -> gap (35%N :: body ++ g)
| gap_continuation c g : newline c -> gap g -> gap (92%N :: c :: g).

(** Such a text is between each leaf of the tree and the next one, and after the last. *)
Definition gaps_of (code : list N) (t : tree) : Prop := forall q, leaf_at t q ->
  (forall q', leaf_at t q' -> left_of q q' -> (forall r, leaf_at t r -> left_of q r -> r = q' \/ left_of q' r) ->
     exists g, slice code (leaf_end t q) (leaf_start t q') = Some g /\ gap g) /\
  ((forall q', leaf_at t q' -> ~ left_of q q') -> exists g, slice code (leaf_end t q) (bytes code) = Some g /\ gap g).

(** [new] is [code] with [s] inserted at byte [i]; a position after it is moved. *)
Definition inserted (code new : list N) (i : nat) (s : list N) : Prop := exists a b, code = a ++ b /\ bytes a = i /\ new = a ++ s ++ b.
Definition moved (i n position : nat) : nat := (if i <? position then position + n else position)%nat.

(** The line of a position, from there on. *)
Definition rest_of_line (code : list N) (position : nat) (line : list N) : Prop :=
  exists pre post, code = pre ++ line ++ post /\ bytes pre = position /\ Forall (fun c => ~ newline c) line /\ (post = [] \/ exists c p, post = c :: p /\ newline c).

(** A code as they are written: not empty, without white space, commas and number signs. *)
Definition plain_code (e : list N) : Prop := e <> [] /\ Forall (fun c => c <> 32 /\ c <> 35 /\ c <> 44 /\ ~ newline c)%N e.
