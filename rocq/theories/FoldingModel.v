(** * Folding ranges

    The tree has the leaves of the parser with their start and length in bytes; the start of a node is the start of its first leaf.
    The imports at the start of a file are those of [AutoImportModel], where a text is a list of bytes. *)
From Coq Require Import Ascii List Bool Arith.
From Verif Require Import AutoImportModel.
Import ListNotations.
Open Scope nat_scope.
Open Scope list_scope.

Inductive leaf_kind := Newline | Indent | Dedent | OtherLeaf.
Record leaf := mk_leaf { lf_kind : leaf_kind; lf_start : nat; lf_length : nat }.
Inductive node_kind := Block | MatchStmt | SimpleStmts | OtherNode.
Inductive tree := Leaf (l : leaf) | Node (k : node_kind) (children : list tree).

Fixpoint leaves (t : tree) : list leaf := match t with Leaf l => [l] | Node _ children => flat_map leaves children end.
(** [PyNode::start]; None only for a node without leaves, which there is not *)
Definition start (t : tree) : option nat := match leaves t with l :: _ => Some (lf_start l) | [] => None end.
Definition is_simple_stmts (t : tree) : bool := match t with Node SimpleStmts _ => true | _ => false end.

(** The loop with [previous_leaf], where the leaves go backwards from the last one of the node to the start of the file; None is the panic of [unwrap].
    crates/parsa_python_cst/src/lib.rs:419-425 (folding_blocks) *)
Fixpoint skip_dedents (backwards : list leaf) : option leaf :=
  match backwards with
  | [] => None
  | l :: rest => match lf_kind l with Dedent => skip_dedents rest | _ => Some l end
  end.
(** [before] are the leaves in front of the node. *)
Definition end_ (before : list leaf) (n : tree) : option nat := option_map lf_start (skip_dedents (rev (before ++ leaves n))).
Definition range (s e : option nat) : list (option (nat * nat)) := match s, e with Some s, Some e => [Some (s, e)] | _, _ => [None] end.
(** The closure for one node; [None] in the list is a panic.  crates/parsa_python_cst/src/lib.rs:418-433 (folding_blocks) *)
Definition fold_of (before : list leaf) (k : node_kind) (children : list tree) : list (option (nat * nat)) :=
  match k with
  | MatchStmt => range (match nth_error children 3 with Some c => start c | None => None end) (end_ before (Node k children))
  | Block => match children with
             | c :: _ => if is_simple_stmts c then [] else range (start (Node k children)) (end_ before (Node k children))
             | [] => [None]
             end
  | _ => []
  end.
(** All nodes in the order of the tree.  crates/parsa_python_cst/src/lib.rs:417-434 [folding_blocks] *)
Fixpoint folding_blocks (before : list leaf) (t : tree) {struct t} : list (option (nat * nat)) :=
  match t with
  | Leaf _ => []
  | Node k children =>
    fold_of before k children ++
    (fix go (before : list leaf) (l : list tree) : list (option (nat * nat)) :=
       match l with [] => [] | c :: l => folding_blocks before c ++ go (before ++ leaves c) l end) before children
  end.

(** The range of the imports.  crates/zuban_python/src/lib.rs:394-400 (folding_ranges) *)
Definition has_import_range (f : file) : bool :=
  match all_imports 0 (f_lines f) with (s, _, _) :: _ => s <? initial_imports_end_code_index f | [] => false end.
Definition import_range (f : file) : option (nat * nat) := if has_import_range f then Some (0, initial_imports_end_code_index f - 1) else None.

(** [str::is_char_boundary]: the byte is not one that continues a character.  To slice elsewhere is a panic, as in [line_part], crates/zuban_python/src/lines.rs:262-264 (line_part) *)
Definition is_char_boundary (t : text) (i : nat) : bool :=
  match nth_error t i with Some c => negb ((128 <=? nat_of_ascii c) && (nat_of_ascii c <? 192)) | None => i =? length t end.
