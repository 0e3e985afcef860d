(** Model of the resolution of imports (crates/zuban_python/src/imports.rs).

    The virtual file system is a tree of files and directories; the entries of a directory are a list, in the order in
    which the hash map is iterated.  Missing entries are left out of the tree (they behave as if they were not there) and
    so are gitignore files.  Case sensitive.  Files are identified by their path.  The registrations for invalidation are
    returned: [Depends] for [FileEntry::add_invalidation], [Absent] for the callback of [add_missing_entry_callback].
    [ensure_file_index] is not modelled (every file that somebody depends on gets an index), nor is django-stubs. *)
From Coq Require Import List Bool String.
Import ListNotations.
Open Scope string_scope.
Open Scope list_scope.

Notation path := (list string) (only parsing).

(** crates/vfs/src/tree.rs:168-173 [enum DirectoryEntry]. *)
Inductive item := IFile | IDir (es : list (string * item)).

(** crates/vfs/src/tree.rs:329-331 [search]. *)
Definition get (n : string) (es : list (string * item)) : option item :=
  match List.find (fun x => fst x =? n) es with Some (_, i) => Some i | None => None end.

Fixpoint at_path (t : item) (p : path) : option item :=
  match p with
  | [] => Some t
  | n :: r => match t with
              | IFile => None
              | IDir es => match get n es with Some i => at_path i r | None => None end
              end
  end.

(** crates/vfs/src/tree.rs:265-267 [Directory::entries]. *)
Definition entries (t : item) (p : path) : list (string * item) :=
  match at_path t p with Some (IDir es) => es | _ => [] end.

Inductive reg := Depends (p : path) | Absent (p : path).

(** imports.rs:18-23 [enum ImportResult]. *)
Inductive result := RFile (p : path) | RNamespace (dirs : list path) | RUntyped (p : path).

Definition INIT_PY := "__init__.py".
Definition INIT_PYI := "__init__.pyi".

(** imports.rs:536-565 [load_init_file_from_entries], the loop: the stub or otherwise the source file. *)
Fixpoint init_loop (es : list (string * item)) (found_py : bool) : bool * bool :=
  match es with
  | [] => (false, found_py)
  | (n, IFile) :: r =>
      if n =? INIT_PYI then (true, found_py)
      else init_loop r (if n =? INIT_PY then true else found_py)
  | (_, IDir _) :: r => init_loop r found_py
  end.

(** imports.rs:536-565 [load_init_file_from_entries]. *)
Definition load_init_file (t : item) (dir : path) : option path * list reg :=
  match init_loop (entries t dir) false with
  | (true, _) => (Some (dir ++ [INIT_PYI]), [Depends (dir ++ [INIT_PYI])])
  | (false, true) => (Some (dir ++ [INIT_PY]), [Absent (dir ++ [INIT_PYI]); Depends (dir ++ [INIT_PY])])
  | (false, false) => (None, [Absent (dir ++ [INIT_PYI]); Absent (dir ++ [INIT_PY])])
  end.

Section Import.
  Variable t : item.
  (** The flag [follow_untyped_imports] of the importing file. *)
  Variable follow_untyped : bool.
  Variable name : string.
  Variable needs_exact_case check_stubs : bool.

  Definition name_py := append name ".py".
  Definition name_pyi := append name ".pyi".

  (** The state of the loop over the directories; [s_had] and [s_regs] are those of the current directory. *)
  Record state := mk_state { s_py : option path; s_stub : option path; s_ns : list path; s_had : bool; s_regs : list reg }.

  (** imports.rs:350-486 [python_import_with_needs_exact_case], the closure [directory_imports] for the directory [dir]. *)
  Definition directory_imports (needs_py_typed : bool) (dir : path) (s : state) : option result * state :=
    let (init, regs) := load_init_file t dir in
    match init with
    | Some f =>
        (Some (if needs_py_typed && negb follow_untyped
                  && match get "py.typed" (entries t dir) with None => true | Some _ => false end
               then RUntyped f else RFile f),
         mk_state (s_py s) (s_stub s) (s_ns s) (s_had s) (s_regs s ++ regs))
    | None => (None, mk_state (s_py s) (s_stub s) (s_ns s ++ [dir]) true (s_regs s ++ regs))
    end.

  (** The closure [file_imports], in the same function. *)
  Definition file_imports (needs_py_typed : bool) (f : path) (is_py : bool) (s : state) : option result * state :=
    if needs_py_typed && negb follow_untyped then (Some (RUntyped f), s)
    else if is_py then (None, mk_state (Some f) (s_stub s) (s_ns s) (s_had s) (s_regs s))
    else (None, mk_state (s_py s) (Some f) (s_ns s) (s_had s) (s_regs s)).

  (** The loop over all the entries if [needs_exact_case]. *)
  Fixpoint exact_loop (needs_py_typed : bool) (dir : path) (es : list (string * item)) (s : state) : option result * state :=
    match es with
    | [] => (None, s)
    | (n, IDir _) :: r =>
        if n =? name
        then match directory_imports needs_py_typed (dir ++ [n]) s with
             | (Some res, s) => (Some res, s)
             | (None, s) => exact_loop needs_py_typed dir r s
             end
        else exact_loop needs_py_typed dir r s
    | (n, IFile) :: r =>
        let is_py := n =? name_py in
        if is_py || check_stubs && (n =? name_pyi)
        then match file_imports needs_py_typed (dir ++ [n]) is_py s with
             | (Some res, s) => (Some res, s)
             | (None, s) => exact_loop needs_py_typed dir r s
             end
        else exact_loop needs_py_typed dir r s
    end.

  Definition lookup_file (es : list (string * item)) (n : string) : bool :=
    match get n es with Some IFile => true | _ => false end.

  (** The other branch: the three names are looked up. *)
  Definition lookups (needs_py_typed : bool) (dir : path) (es : list (string * item)) (s : state) : option result * state :=
    let '(res, s) :=
      match get name es with
      | Some (IDir _) => directory_imports needs_py_typed (dir ++ [name]) s
      | _ => (None, s)
      end in
    match res with
    | Some _ => (res, s)
    | None =>
        if check_stubs && lookup_file es name_pyi then file_imports needs_py_typed (dir ++ [name_pyi]) false s
        else if lookup_file es name_py then file_imports needs_py_typed (dir ++ [name_py]) true s
        else (None, s)
    end.

  (** imports.rs:350-486 [python_import_with_needs_exact_case]: the loop over the directories. *)
  Fixpoint import_loop (dirs : list (path * bool)) (s : state) : option result * list reg :=
    match dirs with
    | [] => (match s_ns s with [] => None | ns => Some (RNamespace ns) end, s_regs s)
    | (dir, needs_py_typed) :: rest =>
        let es := entries t dir in
        let s := mk_state (s_py s) (s_stub s) (s_ns s) false (s_regs s) in
        let (res, s) := if needs_exact_case then exact_loop needs_py_typed dir es s else lookups needs_py_typed dir es s in
        match res with
        | Some _ => (res, s_regs s)
        | None =>
            match (match s_stub s with Some f => Some f | None => s_py s end) with
            | Some f => (Some (RFile f), (s_regs s ++ [Depends f]))
            | None =>
                import_loop rest
                  (mk_state None None (s_ns s) (s_had s)
                     (s_regs s ++ [Absent (dir ++ [name_py])]
                      ++ (if check_stubs then [Absent (dir ++ [name_pyi])] else [])
                      ++ (if s_had s then [] else [Absent (dir ++ [name])])))
            end
        end
    end.

  Definition python_import (dirs : list (path * bool)) : option result * list reg :=
    import_loop dirs (mk_state None None [] false []).
End Import.

(** The workspaces: the root and whether it is a part of site-packages. *)
Notation workspaces := (list (list string * bool)) (only parsing).

(** imports.rs:251-262 [global_import_without_stubs_first]. *)
Definition import_without_stubs_first (t : item) (ws : workspaces) (follow : bool) (name : string) : option result * list reg :=
  python_import t follow name false true (map (fun w => (fst w, false)) ws).

(** The first directory without an [__init__] above the importing file (the last loop of [global_import]).  [parents]: the
    directories of the file inside of its workspace, the innermost first. *)
Fixpoint outer_dir (t : item) (parents : list path) : option path * list reg :=
  match parents with
  | [] => (None, [])
  | d :: r =>
      match load_init_file t d with
      | (None, regs) => (Some d, regs)
      | (Some _, regs) => let (o, regs') := outer_dir t r in (o, (regs ++ regs'))
      end
  end.

(** imports.rs:181-227 [global_import]; [typing]: the path of typing.pyi in typeshed. *)
Definition global_import (t : item) (ws : workspaces) (follow explicit_package_bases : bool) (typing : path)
    (parents : list path) (name : string) : option result * list reg :=
  if name =? "typing" then (Some (RFile typing), [])
  else
    match import_without_stubs_first t ws follow (append name "-stubs") with
    | (Some r, regs) => (Some r, regs)
    | (None, regs) =>
        match python_import t follow name false true ws with
        | (Some r, regs') => (Some r, (regs ++ regs'))
        | (None, regs') =>
            if explicit_package_bases then (None, (regs ++ regs'))
            else
              match outer_dir t parents with
              | (None, regs'') => (None, (regs ++ regs' ++ regs''))
              | (Some d, regs'') =>
                  let (r, regs''') := python_import t follow name false true [(d, false)] in
                  (r, (regs ++ regs' ++ regs'' ++ regs'''))
              end
        end
    end.
