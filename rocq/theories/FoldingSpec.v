(** * Which parts of a file can be folded *)
From Coq Require Import List Arith Sorted.
From Verif Require Import FoldingModel.
Import ListNotations.
Open Scope nat_scope.
Open Scope list_scope.

(** Something else than dedents *)
Definition solid (t : tree) : Prop := exists l, In l (leaves t) /\ lf_kind l <> Dedent.
(** The end of an indented part: newline, indent, statements and dedent *)
Definition indented (newline : leaf) (tail : list tree) : Prop :=
  lf_kind newline = Newline /\ 0 < lf_length newline /\ exists indent stmts dedent, lf_kind indent = Indent /\ tail = Leaf newline :: Leaf indent :: stmts ++ [Leaf dedent] /\ stmts <> [] /\ Forall solid stmts.
(** What can be folded and the newline where it starts: blocks that are not on the line of the colon, and the cases of a match statement *)
Inductive foldable : tree -> leaf -> Prop :=
| foldable_block : forall newline children, indented newline children -> foldable (Node Block children) newline
| foldable_match : forall newline a b c tail, indented newline tail -> foldable (Node MatchStmt (a :: b :: c :: tail)) newline.
(** The trees that the grammar allows, as far as blocks are concerned *)
Inductive grammatical : tree -> Prop :=
| grammatical_leaf : forall l, grammatical (Leaf l)
| grammatical_node : forall k children, Forall grammatical children ->
    (k = Block -> (exists l, children = [Node SimpleStmts l]) \/ exists newline, foldable (Node Block children) newline) ->
    (k = MatchStmt -> exists newline, foldable (Node MatchStmt children) newline) -> grammatical (Node k children).

Inductive subtree : tree -> tree -> Prop :=
| subtree_same : forall t, subtree t t
| subtree_child : forall t c k children, In c children -> subtree t c -> subtree t (Node k children).

(** The last leaf that is no dedent *)
Definition last_solid (ls : list leaf) (l : leaf) : Prop := lf_kind l <> Dedent /\ exists a b, ls = a ++ l :: b /\ forall d, In d b -> lf_kind d = Dedent.
(** No leaf starts before the one in front has ended. *)
Definition in_order (ls : list leaf) : Prop := StronglySorted (fun a b => lf_start a + lf_length a <= lf_start b) ls.
(** Two ranges are apart, or one is in the other. *)
Definition apart_or_nested (x y : nat * nat) : Prop :=
  snd x <= fst y \/ snd y <= fst x \/ (fst x <= fst y /\ snd y <= snd x) \/ (fst y <= fst x /\ snd x <= snd y).
