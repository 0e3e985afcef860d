(** Model of the choice of files to check: crates/zuban_python/src/select_files.rs.

    A workspace is a tree of entries; a directory that is the root of another workspace is [nested] and has the entries of that workspace.
    A file that was found is given by the path of the root of its workspace and the path from there.

    Simplifications: regular expressions, globs and the rules of [.gitignore] files are given as functions; what a path leads to
    (search_path, ensure_fallback) is given; an entry map is a list (hidden and globally ignored names are not in it); the order of the files is left out, as is the loading of files. *)
From Coq Require Import Ascii String List Bool PeanoNat.
Import ListNotations.
Open Scope nat_scope.
Open Scope list_scope.

Definition text := list ascii.
Definition str : string -> text := list_ascii_of_string.
Definition path := list text.
Definition text_eqb (a b : text) : bool := if list_eq_dec ascii_dec a b then true else false.

Inductive verdict := Nothing | Ignored | Whitelisted.
Inductive entry :=
| File (name : text)
| Dir (name : text) (nested : bool) (entries : list entry)
| Gitignore (rules : nat)
| Missing (name : text).
Definition found : Type := path * path.

(** The names with the separator between them.  crates/vfs/src/tree.rs:132-139 (relative_path), 256-263 (relative_path) *)
Fixpoint join (p : path) : text :=
  match p with
  | [] => []
  | [n] => n
  | n :: p => n ++ "/"%char :: join p
  end.

Definition ends_with (t suffix : text) : bool :=
  (length suffix <=? length t) && text_eqb (skipn (length t - length suffix) t) suffix.
(** crates/zuban_python/src/utils.rs:202-204 [is_file_with_python_ending] *)
Definition is_file_with_python_ending (t : text) : bool := ends_with t (str ".py") || ends_with t (str ".pyi").

(** crates/zuban_python/src/select_files.rs:48-53 [should_skip_file], with the excludes as one function *)
Definition should_skip_file (excluded : text -> bool) (t : text) : bool :=
  if negb (is_file_with_python_ending t) then true else excluded t.

(** crates/zuban_python/src/select_files.rs:311-318 [ignore_py_if_overwritten_by_pyi] *)
Definition is_file (name : text) (e : entry) : bool := match e with File n => text_eqb n name | _ => false end.
Definition ignore_py_if_overwritten_by_pyi (parent : list entry) (name : text) : bool :=
  if negb (ends_with name (str ".py")) then false else existsb (is_file (name ++ str "i")) parent.

Section Settings.
Variable excluded : text -> bool.
Variable matched : nat -> path -> bool -> verdict.
Variable exclude_gitignore : bool.

(** crates/vfs/src/tree.rs:669-671 [is_path_ignored] *)
Definition is_path_ignored (g : nat) (p : path) (is_dir : bool) : bool := match matched g p is_dir with Ignored => true | _ => false end.
(** crates/zuban_python/src/select_files.rs:248-256 [ignored_by_gitignore] *)
Definition ignored_by_gitignore (current : list nat) (p : path) (is_dir : bool) : bool := existsb (fun g => is_path_ignored g p is_dir) current.

Fixpoint find_gitignore (l : list entry) : option nat :=
  match l with
  | [] => None
  | Gitignore g :: _ => Some g
  | _ :: l => find_gitignore l
  end.
(** The gitignores while the entries are handled: crates/zuban_python/src/select_files.rs:289-308 [handle_entries] *)
Definition push (current : list nat) (l : list entry) : list nat :=
  if exclude_gitignore then match find_gitignore l with Some g => current ++ [g] | None => current end else current.

(** crates/zuban_python/src/select_files.rs:258-283 [handle_entry] *)
Fixpoint handle_entry (root here : path) (current : list nat) (parent : list entry) (e : entry) : list found :=
  match e with
  | File n =>
      if negb (should_skip_file excluded (join (here ++ [n]))) && negb (ignore_py_if_overwritten_by_pyi parent n)
         && negb (ignored_by_gitignore current (root ++ here ++ [n]) false)
      then [(root, here ++ [n])]
      else []
  | Dir n nested sub =>
      if negb (excluded (join (here ++ [n]))) && negb (ignored_by_gitignore current (root ++ here ++ [n]) true) && negb nested
      then flat_map (handle_entry root (here ++ [n]) (push current sub) sub) sub
      else []
  | Gitignore _ | Missing _ => []
  end.
(** crates/zuban_python/src/select_files.rs:289-308 [handle_entries] *)
Definition handle_entries (root here : path) (current : list nat) (l : list entry) : list found :=
  flat_map (handle_entry root here (push current l) l) l.

Record workspace := mk_workspace { w_root : path; w_checked : bool; w_entries : list entry }.
(** crates/zuban_python/src/select_files.rs:124-128 [search_all_typechecked_files] *)
Definition search_all_typechecked_files (ws : list workspace) : list found :=
  flat_map (fun w => handle_entries (w_root w) [] [] (w_entries w)) (filter w_checked ws).

(** The walk over all entries for globs, with the closure: crates/zuban_python/src/select_files.rs:213-236 (search_in_workspaces),
    crates/vfs/src/tree.rs:192-201 (walk_internal), 516-526 (walk_entries) *)
Fixpoint walk (glob : path -> bool) (root here : path) (parent : list entry) (e : entry) : list found :=
  match e with
  | File n => if glob (root ++ here ++ [n]) then handle_entry root here [] parent e else []
  | Dir n nested sub =>
      if glob (root ++ here ++ [n]) then handle_entry root here [] parent e
      else if nested then flat_map (walk glob (root ++ here ++ [n]) [] sub) sub
      else flat_map (walk glob root (here ++ [n]) sub) sub
  | Gitignore _ | Missing _ => []
  end.
Definition walk_entries (glob : path -> bool) (w : workspace) : list found :=
  flat_map (walk glob (w_root w) [] (w_entries w)) (w_entries w).

(** What a path leads to *)
Inductive place := PlaceDir (root here : path) (entries : list entry) | PlaceFile (root rel : path).
Inductive pattern := Simple (p : path) (searched fallback : option place) | Glob (matches : path -> bool).
Definition place_files (p : place) : list found :=
  match p with
  | PlaceDir root here l => handle_entries root here [] l
  | PlaceFile root rel => [(root, rel)]
  end.
Fixpoint starts_with (p prefix : path) : bool :=
  match prefix, p with
  | [], _ => true
  | a :: prefix, b :: p => text_eqb a b && starts_with p prefix
  | _ :: _, [] => false
  end.
Definition or_else (a b : list found) : list found := match a with [] => b | _ => a end.
(** crates/zuban_python/src/select_files.rs:148-193 (search_in_workspaces): one path *)
Definition simple_files (ws : list workspace) (p : path) (searched fallback : option place) : list found :=
  match searched with
  | Some place => place_files place
  | None =>
      let of w := if starts_with (w_root w) p then handle_entries (w_root w) [] [] (w_entries w) else [] in
      or_else (flat_map of (filter w_checked ws))
        (or_else (flat_map of ws) (match fallback with Some place => place_files place | None => [] end))
  end.

(** The simple paths, up to an error *)
Fixpoint simples (ws : list workspace) (ps : list pattern) : option (list found) :=
  match ps with
  | [] => Some []
  | Glob _ :: ps => simples ws ps
  | Simple p searched fallback :: ps =>
      match simple_files ws p searched fallback with
      | [] => None
      | l => option_map (app l) (simples ws ps)
      end
  end.
Definition globs (ps : list pattern) : list (path -> bool) := flat_map (fun p => match p with Glob m => [m] | _ => [] end) ps.
Definition any_glob (l : list (path -> bool)) (p : path) : bool := existsb (fun m => m p) l.
(** [None] is the error that no file was found.  crates/zuban_python/src/select_files.rs:130-236 [search_in_workspaces] *)
Definition search_in_workspaces (ws : list workspace) (ps : list pattern) : option (list found) :=
  match ps with
  | [] => match search_all_typechecked_files ws with [] => None | l => Some l end
  | _ =>
      match simples ws ps with
      | None => None
      | Some l =>
          match globs ps with
          | [] => Some l
          | gs => match flat_map (walk_entries (any_glob gs)) (filter w_checked ws) with [] => None | m => Some (l ++ m) end
          end
      end
  end.

(** The flags of a file that has its own, once it is parsed: crates/zuban_python/src/select_files.rs:76-123 (find_files) *)
Variable specific : found -> option (text -> bool).
Definition keep (f : found) : bool :=
  match specific f with Some excluded => negb (should_skip_file excluded (join (snd f))) | None => true end.
Definition find_files (ws : list workspace) (ps : list pattern) : option (list found) := option_map (filter keep) (search_in_workspaces ws ps).
End Settings.
