(** Specification of path names, independent of the implementation: a path text is cut at the slashes and
    walked like a (symlink free) file system does. *)
From Coq Require Import NArith List Bool.
Import ListNotations.
Open Scope N_scope.

Definition SLASH : N := 47.
Definition DOT : N := 46.

(** A file name: not empty, no slash, not [.] or [..]. *)
Definition is_name (n : list N) : Prop :=
  n <> [] /\ ~ In SLASH n /\ n <> [DOT] /\ n <> [DOT; DOT].

Definition absolute (p : list N) : Prop := exists r, p = SLASH :: r.

(** One step of the walk from the directory given by the names from the root downwards. *)
Inductive walk1 (d : list (list N)) : list N -> list (list N) -> Prop :=
| walk_empty : walk1 d [] d                          (* doubled or trailing slash *)
| walk_dot : walk1 d [DOT] d
| walk_up_root : d = [] -> walk1 d [DOT; DOT] []        (* the root is its own parent *)
| walk_up d' n : d = d' ++ [n] -> walk1 d [DOT; DOT] d'
| walk_name n : is_name n -> walk1 d n (d ++ [n]).

(** Walking the text [p] from directory [d] ends at [d']. *)
Inductive walk : list (list N) -> list N -> list (list N) -> Prop :=
| walk_last d s d' : ~ In SLASH s -> walk1 d s d' -> walk d s d'
| walk_seg d s d1 p d' : ~ In SLASH s -> walk1 d s d1 -> walk d1 p d' -> walk d (s ++ SLASH :: p) d'.

(** The location of an absolute path. *)
Definition location (p : list N) (d : list (list N)) : Prop :=
  exists r, p = SLASH :: r /\ walk [] r d.

(** The canonical spelling of a location. *)
Fixpoint slashed (d : list (list N)) : list N :=
  match d with
  | [] => []
  | n :: r => SLASH :: n ++ slashed r
  end.

Definition spelling (d : list (list N)) : list N :=
  match d with [] => [SLASH] | _ => slashed d end.
