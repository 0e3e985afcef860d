(** Model of document synchronisation:
    [crates/zuban_python/src/lsp_utils.rs] and
    [Project::store_file_with_lsp_changes] ([crates/zuban_python/src/lib.rs:133-153]). *)
From Coq Require Import List NArith Arith Bool.
From Verif Require Import TextModel LinesSpec LinesModel.
Import ListNotations.

(** [lsp_types::Position]. *)
Record lsp_position := mk_pos { p_line : nat; p_character : nat }.

(** The derived [Ord] of [Position]: lexicographic. *)
Definition pos_ltb (a b : lsp_position) : bool :=
  (p_line a <? p_line b) || ((p_line a =? p_line b) && (p_character a <? p_character b)).

(** [lsp_types::TextDocumentContentChangeEvent] (deprecated [range_length] dropped). *)
Record change := mk_change {
  ch_range : option (lsp_position * lsp_position); ch_text : text }.

(** lsp_utils.rs:16-25: the last full-document change and what follows it. *)
Fixpoint after_last_full (cs : list change) : option (text * list change) :=
  match cs with
  | [] => None
  | c :: r =>
      match after_last_full r with
      | Some x => Some x
      | None => match ch_range c with
                | None => Some (ch_text c, r)
                | Some _ => None
                end
      end
  end.

(** State of the [Cow<NewlineIndices>] of lsp_utils.rs:30: borrowed from the open
    file or owned. *)
Inductive cow := Borrowed (i : newline_indices) | Owned (i : newline_indices).
Definition cow_idx (c : cow) := match c with Borrowed i => i | Owned i => i end.
(** Reading the lines initialises the [OnceLock] (lines.rs:25-33). *)
Definition cow_init (c : cow) (t : text) : cow :=
  match c with
  | Borrowed i => Borrowed (Some (get_lines i t))
  | Owned i => Owned (Some (get_lines i t))
  end.

(** lsp_utils.rs:37-52.  [index_valid] = [None] models [!0u32] (a line number
    4294967295 is not modelled).  [borrowed] tracks the state of the index of the
    open file, which survives when the loop fails.  Returns the text (or failure)
    and the final state of that index. *)
Fixpoint apply_loop (enc : encoding) (txt : text) (idx : cow)
  (borrowed : newline_indices) (index_valid : option nat) (cs : list change)
  {struct cs} : res text * newline_indices :=
  match cs with
  | [] => (Ok txt, borrowed)
  | c :: r =>
      match ch_range c with
      | None => apply_loop enc txt idx borrowed index_valid r
      | Some (st, en) =>
          if pos_ltb en st then (Err, borrowed) else
          let rebuild := match index_valid with
                         | None => false
                         | Some v => v <=? p_line en
                         end in
          let idx := if rebuild then Owned None else idx in
          let index_valid := Some (p_line st) in
          let start_r := line_column_to_safe_byte (cow_idx idx) txt
                           (input_of enc (p_line st) (p_character st)) in
          let idx := cow_init idx txt in
          let borrowed := match idx with Borrowed i => i | Owned _ => borrowed end in
          match start_r with
          | Err => (Err, borrowed)
          | Panic => (Panic, borrowed)
          | Ok start =>
              match line_column_to_safe_byte (cow_idx idx) txt
                      (input_of enc (p_line en) (p_character en)) with
              | Err => (Err, borrowed)
              | Panic => (Panic, borrowed)
              | Ok e =>
                  match replace_range txt start e (ch_text c) with
                  | None => (Panic, borrowed)
                  | Some txt' => apply_loop enc txt' idx borrowed index_valid r
                  end
              end
          end
      end
  end.

(** lsp_utils.rs:8-54.  Returns the result and the final state of the newline
    index of the open file (interior mutability of [line_indices]). *)
Definition apply_document_changes (enc : encoding) (file_contents : text)
  (line_indices : newline_indices) (cs : list change)
  : res text * newline_indices :=
  let '(txt, cs) := match after_last_full cs with
                    | Some (t, r) => (t, r)
                    | None => (file_contents, cs)
                    end in
  match cs with
  | [] => (Ok txt, line_indices)
  | _ => apply_loop enc txt (Borrowed line_indices) line_indices None cs
  end.

(** An open document: its code and its newline index
    (fields [tree.code()] and [newline_indices] of [PythonFile]). *)
Record doc := mk_doc { d_code : text; d_index : newline_indices }.

(** lib.rs:133-153 for an open document: on success the new code is stored in a
    fresh file (fresh index), on failure the document is kept. *)
Definition store_file_with_lsp_changes (enc : encoding) (d : doc) (cs : list change)
  : res unit * doc :=
  match apply_document_changes enc (d_code d) (d_index d) cs with
  | (Ok t, _) => (Ok tt, mk_doc t None)
  | (Err, i) => (Err, mk_doc (d_code d) i)
  | (Panic, i) => (Panic, mk_doc (d_code d) i)
  end.

(** What happens to an open document: any request that reads its lines (initialising the
    [OnceLock], lines.rs:25-33), and change notifications. *)
Inductive doc_op := Look | Notify (cs : list change).

Definition doc_step (enc : encoding) (d : doc) (o : doc_op) : res unit * doc :=
  match o with
  | Look => (Ok tt, mk_doc (d_code d) (Some (get_lines (d_index d) (d_code d))))
  | Notify cs => store_file_with_lsp_changes enc d cs
  end.
