(** Model of the end of a run on the command line and of the responses to goto requests. *)
From Coq Require Import List Bool String Arith Decimal DecimalString.
Import ListNotations.
Open Scope string_scope.
Open Scope list_scope.
Open Scope nat_scope.

(** An issue of a file: its position and whether it is a note (crates/zuban_python/src/diagnostics.rs:786-794 [is_note]). *)
Record issue := mk_issue { i_at : nat; i_note : bool }.

Inductive severity := Error | Information.

(** crates/zuban_python/src/diagnostics.rs:779-784 [severity]. *)
Definition severity_of (i : issue) : severity := if i_note i then Information else Error.

(** zuban_python/src/lib.rs:563-568 [struct Diagnostics] *)
Record diagnostics := mk_diagnostics { checked_files : nat; files_with_errors : nat; issues : list issue }.

(** [slice::sort_by_key], a stable sort by position. *)
Fixpoint insert_issue (i : issue) (l : list issue) : list issue :=
  match l with
  | [] => [i]
  | j :: r => if i_at j <=? i_at i then j :: insert_issue i r else i :: l
  end.

Definition sort_issues (l : list issue) : list issue := fold_left (fun acc i => insert_issue i acc) l [].

(** zuban_python/src/lib.rs:187-224 [Project::diagnostics], with crates/zuban_python/src/select_files.rs:19-32 [diagnostics_for_relevant_files]: for the
    issues of every checked file. *)
Definition project_diagnostics (files : list (list issue)) : diagnostics :=
  mk_diagnostics (List.length files)
    (List.length (filter (fun f => match f with [] => false | _ => true end) files))
    (List.concat (map sort_issues files)).

(** zuban_python/src/lib.rs:595-602 [error_count] *)
Definition error_count (d : diagnostics) : nat :=
  List.length (filter (fun i => match severity_of i with Error => true | Information => false end) (issues d)).

Definition show (n : nat) : string := NilZero.string_of_uint (Nat.to_uint n).

Definition s_if_plural (n : nat) : string := match n with 1 => "" | _ => "s" end.

(** zuban_python/src/lib.rs:571-593 [summary] *)
Definition summary (d : diagnostics) : string :=
  match error_count d with
  | 0 => String.concat "" ["Success: no issues found in "; show (checked_files d); " source file"; s_if_plural (checked_files d)]
  | n => String.concat "" ["Found "; show n; " error"; s_if_plural (List.length (issues d));
                    " in "; show (files_with_errors d); " file"; s_if_plural (files_with_errors d);
                    " (checked "; show (checked_files d); " source file"; s_if_plural (checked_files d); ")"]
  end.

(** crates/zmypy/src/lib.rs:29-54 [with_exit_code]; [None]: no files were found or another failure. *)
Definition exit_code (files : option (list (list issue))) : nat :=
  match files with
  | Some files => if 0 <? error_count (project_diagnostics files) then 1 else 0
  | None => 2
  end.

(** ** Goto *)

(** crates/zubanls/src/capabilities.rs:212-214 [location_link], for [caps.text_document?.definition?.link_support]. *)
Definition location_link (caps : option (option (option bool))) : bool :=
  match caps with Some (Some (Some b)) => b | _ => false end.

(** The forms of the response: [Vec<Location>] and [Vec<LocationLink>]; [A]: names. *)
Inductive response (A : Type) := Locations (l : list A) | Links (l : list A).
Arguments Locations {A} l.
Arguments Links {A} l.

(** crates/zubanls/src/request_handlers.rs:331-368 [run_goto_like], for the names that were found. *)
Definition run_goto_like {A} (caps : option (option (option bool))) (names : list A) : option (response A) :=
  if location_link caps
  then match names with [] => None | _ => Some (Locations names) end
  else match names with [] => None | _ => Some (Links names) end.
