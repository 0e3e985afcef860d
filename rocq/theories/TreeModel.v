(** Model of the navigation in syntax trees: the macros of crates/parsa/src/lib.rs. *)
From Coq Require Import List Arith NArith Bool.
Import ListNotations.

(** crates/parsa/src/grammar.rs:37-43 [struct InternalNode].  Numbers are natural numbers here (u32 in the code). *)
Record node := mk_node { next_node_offset : nat; type_ : N; start_index : nat; length_ : nat }.

(** crates/parsa/src/automaton.rs:36-38 [is_leaf]: smaller than [NODE_START]. *)
Definition is_leaf (n : node) : bool := N.ltb (type_ n) 32768.

(** crates/parsa/src/lib.rs:203-213 [start], [end], [length]. *)
Definition end_ (n : node) : nat := start_index n + length_ n.

(** crates/parsa/src/lib.rs:266-276 [next_sibling]; nodes are given by their index. *)
Definition next_sibling (nodes : list node) (x : nat) : option nat :=
  match nth_error nodes x with
  | Some n => if next_node_offset n =? 0 then None else Some (x + next_node_offset n)
  | None => None
  end.

(** crates/parsa/src/lib.rs:278-294 [previous_sibling]: the loop, with the nodes before in reversed order. *)
Fixpoint previous_sibling_ (back : list node) (x i : nat) : option nat :=
  match back with
  | [] => None
  | n :: back =>
      let offset := next_node_offset n in
      if offset =? i then Some (x - i)
      else if i <? offset then None
      else previous_sibling_ back x (S i)
  end.
Definition previous_sibling (nodes : list node) (x : nat) : option nat := previous_sibling_ (rev (firstn x nodes)) x 1.

(** crates/parsa/src/lib.rs:300-317 [parent]. *)
Fixpoint parent_ (back : list node) (x i sibling_i : nat) : option nat :=
  match back with
  | [] => None
  | n :: back =>
      let offset := next_node_offset n in
      if ((i <? offset) || ((offset =? 0) && (i =? sibling_i + 1))) && negb (is_leaf n) then Some (x - i)
      else parent_ back x (S i) (if sibling_i + offset =? i then i else sibling_i)
  end.
Definition parent (nodes : list node) (x : nat) : option nat := parent_ (rev (firstn x nodes)) x 1 0.

(** crates/parsa/src/lib.rs:246-259 [iter_children] with 472-491, the iteration ([fuel] is the number of nodes; [None]: a node
    does not exist, which panics). *)
Fixpoint siblings (fuel : nat) (nodes : list node) (next_index : nat) : option (list nat) :=
  match fuel with
  | 0 => None
  | S fuel =>
      match nth_error nodes next_index with
      | None => None
      | Some current_node =>
          if next_node_offset current_node =? 0 then Some [next_index]
          else option_map (cons next_index) (siblings fuel nodes (next_index + next_node_offset current_node))
      end
  end.
Definition children (nodes : list node) (x : nat) : option (list nat) :=
  match nth_error nodes x with
  | None => None
  | Some n => if is_leaf n then Some [] else siblings (length nodes) nodes (S x)
  end.

(** crates/parsa/src/lib.rs:344-355 [previous_leaf]. *)
Fixpoint last_leaf_before (nodes : list node) (index : nat) : option nat :=
  match nodes with
  | [] => None
  | n :: r =>
      match last_leaf_before r (S index) with
      | Some i => Some i
      | None => if is_leaf n then Some index else None
      end
  end.
Definition previous_leaf (nodes : list node) (x : nat) : option nat := last_leaf_before (firstn x nodes) 0.

(** crates/parsa/src/lib.rs:357-370 [next_leaf]. *)
Fixpoint first_leaf (nodes : list node) (index : nat) : option nat :=
  match nodes with
  | [] => None
  | n :: r => if is_leaf n then Some index else first_leaf r (S index)
  end.
Definition next_leaf (nodes : list node) (x : nat) : option nat := first_leaf (skipn (S x) nodes) (S x).

(** crates/parsa/src/lib.rs:372-378 [last_leaf_in_subtree]. *)
Fixpoint last_leaf_ (fuel : nat) (nodes : list node) (x : nat) : option nat :=
  match fuel with
  | 0 => None
  | S fuel =>
      match nth_error nodes x with
      | None => None
      | Some n =>
          if is_leaf n then Some x
          else
            match children nodes x with
            | None => None
            | Some cs => match rev cs with [] => None | c :: _ => last_leaf_ fuel nodes c end
            end
      end
  end.
Definition last_leaf_in_subtree (nodes : list node) (x : nat) : option nat := last_leaf_ (length nodes) nodes x.

(** [slice::partition_point] of the standard library for a list whose elements with the property come first. *)
Fixpoint partition_point (nodes : list node) (position : nat) : nat :=
  match nodes with
  | [] => 0
  | n :: r => if start_index n <=? position then S (partition_point r position) else 0
  end.

(** crates/parsa/src/lib.rs:817-845 [leaf_by_position]. *)
Definition leaf_by_position (nodes : list node) (position : nat) : option nat :=
  match last_leaf_before (firstn (partition_point nodes position) nodes) 0 with
  | Some i =>
      match nth_error nodes i with
      | None => None
      | Some n =>
          if end_ n <? position then match next_leaf nodes i with Some next => Some next | None => Some i end
          else Some i
      end
  | None => first_leaf nodes 0
  end.

(** crates/parsa/src/lib.rs:333-342 [search] and 511-543, all the nodes it iterates over; [None]: it panics. *)
Fixpoint search_from (nodes : list node) (end_code_index : nat) (types : list N) (index : nat) : option (option nat) :=
  match nodes with
  | [] => None
  | n :: r =>
      if end_code_index <=? start_index n then Some None
      else if existsb (N.eqb (type_ n)) types then Some (Some index)
      else search_from r end_code_index types (S index)
  end.
Fixpoint search_all (fuel : nat) (nodes : list node) (end_code_index : nat) (types : list N) (avoid : bool) (next_index : nat) : option (list nat) :=
  match fuel with
  | 0 => None
  | S fuel =>
      match search_from (skipn next_index nodes) end_code_index types next_index with
      | None => None
      | Some None => Some []
      | Some (Some found) =>
          let next :=
            if avoid then
              match nth_error nodes found with
              | None => None
              | Some n =>
                  if next_node_offset n =? 0 then option_map S (last_leaf_in_subtree nodes found)
                  else Some (found + next_node_offset n)
              end
            else Some (S found) in
          match next with
          | None => None
          | Some next => option_map (cons found) (search_all fuel nodes end_code_index types avoid next)
          end
      end
  end.
Definition search (nodes : list node) (x : nat) (types : list N) (avoid : bool) : option (list nat) :=
  match nth_error nodes x with
  | None => None
  | Some n => if is_leaf n then None else search_all (S (length nodes)) nodes (end_ n) types avoid x
  end.
