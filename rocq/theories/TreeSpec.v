(** Syntax trees, and the array that represents one: the nodes in preorder, each with the distance to the next sibling. *)
From Coq Require Import List Arith NArith Bool.
From Verif Require Import TreeModel.
Import ListNotations.

Inductive tree :=
| Leaf (ty : N) (start len : nat)
| Node (ty : N) (start len : nat) (cs : list tree).

Fixpoint size (t : tree) : nat :=
  match t with
  | Leaf _ _ _ => 1
  | Node _ _ _ cs => S (list_sum (map size cs))
  end.

(** [last]: there is no next sibling. *)
Fixpoint flatten (last : bool) (t : tree) : list node :=
  match t with
  | Leaf ty start len => [mk_node (if last then 0 else 1) ty start len]
  | Node ty start len cs =>
      mk_node (if last then 0 else size t) ty start len ::
      (fix go (cs : list tree) : list node :=
         match cs with
         | [] => []
         | c :: r => flatten (match r with [] => true | _ :: _ => false end) c ++ go r
         end) cs
  end.

Definition array (t : tree) : list node := flatten true t.

(** Leaves and inner nodes have different types; inner nodes have children. *)
Inductive proper : tree -> Prop :=
| proper_leaf ty start len : (ty < 32768)%N -> proper (Leaf ty start len)
| proper_node ty start len cs : (32768 <= ty)%N -> cs <> [] -> Forall proper cs -> proper (Node ty start len cs).

(** A node of the tree is given by the way from the root to it: the numbers of the children. *)
Notation path := (list nat) (only parsing).

Fixpoint subtree (t : tree) (p : path) : option tree :=
  match p with
  | [] => Some t
  | k :: p =>
      match t with
      | Leaf _ _ _ => None
      | Node _ _ _ cs => match nth_error cs k with Some c => subtree c p | None => None end
      end
  end.

(** Its place in preorder. *)
Fixpoint index (t : tree) (p : path) : nat :=
  match p with
  | [] => 0
  | k :: p =>
      match t with
      | Leaf _ _ _ => 0
      | Node _ _ _ cs =>
          1 + list_sum (map size (firstn k cs)) + match nth_error cs k with Some c => index c p | None => 0 end
      end
  end.

Definition is_node (t : tree) (p : path) : Prop := subtree t p <> None.
Definition leaf_at (t : tree) (p : path) : Prop := exists ty start len, subtree t p = Some (Leaf ty start len).

(** [p] is left of [q]: they branch off a common ancestor in that order. *)
Definition left_of (p q : path) : Prop := exists r i j p' q', p = r ++ i :: p' /\ q = r ++ j :: q' /\ i < j.
(** [q] is below [p]. *)
Definition below (q p : path) : Prop := exists k r, q = p ++ k :: r.
(** The order of the text: before, or around. *)
Definition precedes (p q : path) : Prop := left_of p q \/ below q p.

(** Positions: from [lo], one after the other, every node ends with its last leaf; the end is [hi]. *)
Inductive placed : nat -> tree -> nat -> Prop :=
| placed_leaf lo ty start len : lo <= start -> placed lo (Leaf ty start len) (start + len)
| placed_node lo ty start len cs : lo <= start -> placed_all start cs (start + len) -> placed lo (Node ty start len cs) (start + len)
with placed_all : nat -> list tree -> nat -> Prop :=
| placed_none lo : placed_all lo [] lo
| placed_more lo c mid r hi : placed lo c mid -> placed_all mid r hi -> placed_all lo (c :: r) hi.

Definition type_of (t : tree) : N := match t with Leaf ty _ _ | Node ty _ _ _ => ty end.
Definition start_of (t : tree) : nat := match t with Leaf _ s _ | Node _ s _ _ => s end.
Definition end_of (t : tree) : nat := match t with Leaf _ s l | Node _ s l _ => s + l end.
