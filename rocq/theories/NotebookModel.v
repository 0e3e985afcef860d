(** Model of the notebooks of the language server: crates/zubanls/src/notebooks.rs and notification_handlers.rs. *)
From Coq Require Import List Bool Arith.
Import ListNotations.

Notation uri := nat (only parsing).
(** The contents of a cell; texts are only compared. *)
Notation code := nat (only parsing).

(** An open document: its text and the cell before it ([super_file]). *)
Record doc := mk_doc { d_code : code; d_parent : option uri }.

(** One notebook ([None]: not open) and the documents in memory. *)
Record state := mk_state { cells : option (list uri); docs : uri -> option doc }.

Inductive outcome := Done | Failed | Panicked.

Inductive kind := Markdown | Code.

Definition set_doc (s : state) (u : uri) (d : option doc) : state :=
  mk_state (cells s) (fun v => if v =? u then d else docs s v).

(** crates/zuban_python/src/database.rs:1349-1403 [store_in_memory_file] with crates/vfs/src/vfs.rs:402-488 [store_in_memory_file]: a known
    parent is always stored; without one a document with the same text stays as it is. *)
Definition store (s : state) (u : uri) (c : code) (parent : option uri) : state :=
  match parent, docs s u with
  | None, Some d => if d_code d =? c then s else set_doc s u (Some (mk_doc c None))
  | _, _ => set_doc s u (Some (mk_doc c parent))
  end.

(** crates/zubanls/src/notification_handlers.rs:50-64 [store_in_memory_file_with_parent]; the parent has to be open. *)
Definition store_with_parent (s : state) (u : uri) (c : code) (parent : option uri) : outcome * state :=
  match parent with
  | Some p => match docs s p with Some _ => (Done, store s u c (Some p)) | None => (Failed, s) end
  | None => (Done, store s u c None)
  end.

(** crates/zubanls/src/notebooks.rs:32-54 [add_cell_and_return_parent]; [None]: it fails. *)
Definition add_cell (s : state) (u : uri) (at_ : nat) : option (option uri * state) :=
  match cells s with
  | None => None
  | Some cs =>
      if length cs <? at_ then None
      else
        let cs := firstn at_ cs ++ u :: skipn at_ cs in
        Some (match at_ with S p => nth_error cs p | 0 => None end, mk_state (Some cs) (docs s))
  end.

(** [Vec::swap_remove] of the first document with the URI (the order of the others does not matter). *)
Fixpoint take_doc (u : uri) (l : list (uri * code)) : option (code * list (uri * code)) :=
  match l with
  | [] => None
  | (v, c) :: r =>
      if v =? u then Some (c, r)
      else match take_doc u r with Some (c', r') => Some (c', (v, c) :: r') | None => None end
  end.

(** crates/zubanls/src/notification_handlers.rs:96-124 [new_cells]; [at_] is [start_at_nth_cell + i]. *)
Fixpoint new_cells (s : state) (cs : list (kind * uri)) (text_documents : list (uri * code)) (at_ : nat) : outcome * state :=
  match cs with
  | [] => (Done, s)
  | (Markdown, _) :: r => new_cells s r text_documents (S at_)
  | (Code, u) :: r =>
      match take_doc u text_documents with
      | None => (Failed, s)
      | Some (c, text_documents) =>
          match add_cell s u at_ with
          | None => (Failed, s)
          | Some (parent, s) =>
              match store_with_parent s u c parent with
              | (Done, s) => new_cells s r text_documents (S at_)
              | r => r
              end
          end
      end
  end.

(** crates/zubanls/src/notification_handlers.rs:126-140 [close_cells]. *)
Fixpoint close_cells (s : state) (us : list uri) (result : outcome) : outcome * state :=
  match us with
  | [] => (result, s)
  | u :: r =>
      match docs s u with
      | Some _ => close_cells (set_doc s u None) r result
      | None => close_cells s r Failed
      end
  end.

(** crates/zubanls/src/notebooks.rs:24-30 [remove_cells]; [Vec::drain] panics if the range is too long. *)
Definition remove_cells (s : state) (from to : nat) : outcome * state :=
  match cells s with
  | None => (Failed, s)
  | Some cs => if length cs <? to then (Panicked, s) else (Done, mk_state (Some (firstn from cs ++ skipn to cs)) (docs s))
  end.

(** [NotebookDocumentCellChangeStructure]. *)
Record structure := mk_structure {
  st_start : nat; st_delete : nat; st_cells : option (list (kind * uri));
  st_open : option (list (uri * code)); st_close : option (list uri)
}.

(** The last part of the handling of the structure: the cell after the changed ones. *)
Definition update_child (s : state) (new_end : nat) : outcome * state :=
  match cells s with
  | None => (Failed, s)
  | Some cs =>
      match nth_error cs new_end with
      | None => (Done, s)
      | Some child =>
          match docs s child with
          | None => (Failed, s)
          | Some d =>
              match nth_error cs new_end with
              | Some parent => store_with_parent s child (d_code d) (Some parent)
              | None => (Panicked, s)
              end
          end
      end
  end.

(** crates/zubanls/src/notification_handlers.rs:29-40 [change_document]: the text after the changes; the parent stays. *)
Fixpoint change_documents (s : state) (changes : list (uri * code)) : outcome * state :=
  match changes with
  | [] => (Done, s)
  | (u, c) :: r =>
      match docs s u with
      | None => (Failed, s)
      | Some d => change_documents (store s u c (d_parent d)) r
      end
  end.

Definition change_structure (s : state) (st : structure) : outcome * outcome * state :=
  let new_end := st_start st + match st_cells st with Some l => length l | None => 0 end in
  let '(result, removed, s) :=
    match st_close st with
    | None => (Done, Done, s)
    | Some us => let (result, s) := close_cells s us Done in
                 let (o, s) := remove_cells s (st_start st) (st_start st + st_delete st) in (result, o, s)
    end in
  match removed with
  | Done =>
      let (o, s) := match st_cells st with
                    | None => (Done, s)
                    | Some l => new_cells s l (match st_open st with Some d => d | None => [] end) (st_start st)
                    end in
      match o with
      | Done => let (o, s) := update_child s new_end in (result, o, s)
      | _ => (result, o, s)
      end
  | o => (result, o, s)
  end.

(** crates/zubanls/src/notification_handlers.rs:142-206 [handle_did_change_notebook]. *)
Definition did_change (s : state) (st : option structure) (texts : list (uri * code)) : outcome * state :=
  let '(result, o, s) := match st with Some st => change_structure s st | None => (Done, Done, s) end in
  match o with
  | Done =>
      match change_documents s texts with
      | (Done, s) => (result, s)
      | r => r
      end
  | _ => (o, s)
  end.

(** crates/zubanls/src/notification_handlers.rs:80-94 [handle_did_open_notebook]. *)
Definition did_open (s : state) (cs : list (kind * uri)) (texts : list (uri * code)) : outcome * state :=
  new_cells (mk_state (Some []) (docs s)) cs texts 0.

(** crates/zubanls/src/notification_handlers.rs:208-216 [handle_did_close_notebook]. *)
Definition did_close (s : state) (us : list uri) : outcome * state :=
  let (o, s) := close_cells s us Done in (o, mk_state None (docs s)).

Inductive notification :=
| Open (cs : list (kind * uri)) (texts : list (uri * code))
| Change (st : option structure) (texts : list (uri * code))
| Close (us : list uri).

Definition handle (s : state) (n : notification) : outcome * state :=
  match n with
  | Open cs texts => did_open s cs texts
  | Change st texts => did_change s st texts
  | Close us => did_close s us
  end.

(** All the notifications, as long as nothing fails. *)
Fixpoint handle_all (s : state) (ns : list notification) : outcome * state :=
  match ns with
  | [] => (Done, s)
  | n :: r => match handle s n with (Done, s) => handle_all s r | o => o end
  end.

Definition initial : state := mk_state None (fun _ => None).
