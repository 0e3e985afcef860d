(** Model of the selection ranges (crates/parsa_python_cst/src/ranges.rs), on the trees of [TreeModel]. *)
From Coq Require Import List Arith NArith Bool.
From Verif Require Import TreeModel.
Import ListNotations.

Section Select.
(** Which node types are the nonterminal [stmt], a keyword, and one of those that are not offered
    (crates/parsa_python_cst/src/ranges.rs:137-146: operators, the end marker, (error) dedents and indents, keywords, [kwargs], [block], [simple_stmts]). *)
Variables (is_stmt is_keyword hidden : N -> bool).
(** The bytes of the file. *)
Variable code : list N.

(** crates/parsa/src/lib.rs:167-170 [as_code], of which only the end matters: [ends_with("\n")]. *)
Definition ends_with_newline (n : node) : bool :=
  match rev (firstn (length_ n) (skipn (start_index n) code)) with
  | b :: _ => N.eqb b 10
  | [] => false
  end.

(** [str::rfind] for a newline. *)
Fixpoint rfind_newline (bs : list N) : option nat :=
  match bs with
  | [] => None
  | b :: r =>
      match rfind_newline r with
      | Some i => Some (S i)
      | None => if N.eqb b 10 then Some 0 else None
      end
  end.

(** crates/parsa_python_cst/src/ranges.rs:27-29 [is_pos_in_node]. *)
Definition is_pos_in_node (n : node) (position : nat) : bool := (start_index n <=? position) && (position <=? end_ n).

(** crates/parsa_python_cst/src/ranges.rs:31-38 [node_includes_in_position]; [None]: the [unwrap] panics. *)
Fixpoint node_includes_in_position (fuel : nat) (nodes : list node) (x position : nat) : option nat :=
  match fuel with
  | 0 => None
  | S fuel =>
      match parent nodes x with
      | None => None
      | Some y =>
          match nth_error nodes y with
          | None => None
          | Some n => if is_pos_in_node n position then Some y else node_includes_in_position fuel nodes y position
          end
      end
  end.

(** crates/parsa_python_cst/src/ranges.rs:18-43 [initial_node_for_selection_ranges]. *)
Definition initial_node (nodes : list node) (position : nat) : option nat :=
  match leaf_by_position nodes position with
  | None => None
  | Some x =>
      match nth_error nodes x with
      | None => None
      | Some n =>
          let x :=
            if (start_index n =? position) && (is_keyword (type_ n) || ends_with_newline n) then
              match previous_leaf nodes x with
              | Some y =>
                  match nth_error nodes y with
                  | Some m => if end_ m =? position then y else x
                  | None => x
                  end
              | None => x
              end
            else x in
          match nth_error nodes x with
          | None => None
          | Some n => if is_pos_in_node n position then Some x else node_includes_in_position (length nodes) nodes x position
          end
      end
  end.

(** crates/parsa_python_cst/src/ranges.rs:116-153 [next], all the ranges it gives. *)
Fixpoint ranges (fuel : nat) (nodes : list node) (node_ : option nat) (previous : option (nat * nat)) : option (list (nat * nat)) :=
  match node_ with
  | None => Some []
  | Some x =>
      match fuel with
      | 0 => None
      | S fuel =>
          match nth_error nodes x with
          | None => None
          | Some n =>
              let range := (start_index n, end_ n) in
              let same := match previous with Some p => (fst p =? fst range) && (snd p =? snd range) | None => false end in
              if same then ranges fuel nodes (parent nodes x) previous
              else
                let start :=
                  if is_stmt (type_ n) then
                    match rfind_newline (firstn (start_index n) code) with
                    | Some prefix_n => start_index n - (start_index n - prefix_n - 1)
                    | None => start_index n
                    end
                  else start_index n in
                if hidden (type_ n) then ranges fuel nodes (parent nodes x) previous
                else option_map (cons (start, end_ n)) (ranges fuel nodes (parent nodes x) (Some (start, end_ n)))
          end
      end
  end.

(** crates/parsa_python_cst/src/ranges.rs:45-52 [selection_ranges]. *)
Definition selection_ranges (nodes : list node) (position : nat) : option (list (nat * nat)) :=
  match initial_node nodes position with
  | None => None
  | Some x => ranges (length nodes) nodes (Some x) None
  end.
End Select.
