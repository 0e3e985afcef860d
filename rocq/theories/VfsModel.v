(** Model of the virtual file system (crates/vfs/src/{vfs,tree,workspaces,local_fs}.rs).

    Simplifications: one workspace with the scheme [file]; no symbolic links, gitignore files, nested workspaces and sub
    files; case sensitive; file names and contents are numbers.  [Arc<FileEntry>] is an index into a heap of entries, so
    that sharing is kept.  Hash sets and maps are lists; the theorems hold for every order.  Every operation gets the
    state of the disk at that time. *)
From Coq Require Import List Bool Arith.
Import ListNotations.

Notation name := nat (only parsing).
Notation content := nat (only parsing).
Notation path := (list nat) (only parsing).

(** The disk below the root of the workspace. *)
Inductive disk := DFile (c : content) | DDir (children : list (name * disk)).

(** Maps with [insert] and [remove]. *)
Definition find {A} (n : name) (m : list (name * A)) : option A :=
  match List.find (fun p => Nat.eqb (fst p) n) m with Some (_, v) => Some v | None => None end.
Definition remove {A} (n : name) (m : list (name * A)) : list (name * A) := filter (fun p => negb (Nat.eqb (fst p) n)) m.
Definition insert {A} (n : name) (v : A) (m : list (name * A)) : list (name * A) := (n, v) :: remove n m.

(** What the operating system has at a path. *)
Fixpoint disk_at (d : disk) (p : path) : option disk :=
  match p with
  | [] => Some d
  | n :: r => match d with
              | DFile _ => None
              | DDir es => match find n es with Some d' => disk_at d' r | None => None end
              end
  end.

(** crates/vfs/src/local_fs.rs:26-44 [read_and_watch_file]. *)
Definition read_file (d : disk) (p : path) : option content :=
  match disk_at d p with Some (DFile c) => Some c | _ => None end.

(** crates/vfs/src/tree.rs:554-557 [InvalidationDetail]. *)
Inductive invs := InvDb | InvSome (files : list nat).

(** crates/vfs/src/tree.rs:95-100 [struct FileEntry]: the file index and the invalidations. *)
Record entry := mk_entry { e_index : option nat; e_inv : invs }.

(** crates/vfs/src/tree.rs:168-173 [enum DirectoryEntry]; the entries of a directory are read on demand. *)
Inductive node := NFile (e : nat) | NDir (children : option (list (name * node))) | NMissing (i : invs).

(** crates/vfs/src/vfs.rs:900-904 [struct FileState]; of the file itself just the code. *)
Record file := mk_file { f_path : path; f_entry : nat; f_code : option content }.

(** Calls of [invalidate_references_to] (the second argument) and of [on_invalidated_in_memory_file]. *)
Inductive event := Refs (changed : option nat) (i : nat) | Notify (p : path).

(** crates/vfs/src/vfs.rs:45-50 [struct Vfs], with all the events so far. *)
Record vfs := mk_vfs {
  v_tree : list (name * node);
  v_heap : list entry;
  v_files : list file;
  v_mem : list (path * nat);
  v_log : list event }.

Definition get_entry (h : list entry) (e : nat) : entry := nth e h (mk_entry None (InvSome [])).
Fixpoint set_nth {A} (i : nat) (v : A) (l : list A) : list A :=
  match l, i with
  | [], _ => []
  | _ :: r, 0 => v :: r
  | x :: r, S i => x :: set_nth i v r
  end.
Definition get_file (fs : list file) (i : nat) : file := nth i fs (mk_file [] 0 None).

Definition path_eqb (a b : path) : bool := if list_eq_dec Nat.eq_dec a b then true else false.
Definition mem_find (m : list (path * nat)) (p : path) : option nat :=
  match List.find (fun x => path_eqb (fst x) p) m with Some (_, i) => Some i | None => None end.
Definition mem_remove (m : list (path * nat)) (p : path) : list (path * nat) :=
  filter (fun x => negb (path_eqb (fst x) p)) m.
Definition mem_insert (m : list (path * nat)) (p : path) (i : nat) : list (path * nat) := (p, i) :: mem_remove m p.

(** crates/vfs/src/tree.rs:599-604 [Invalidations::take]: nothing is taken from an entry that invalidates everything. *)
Definition take_inv (h : list entry) (e : nat) : invs * list entry :=
  let en := get_entry h e in
  match e_inv en with
  | InvDb => (InvDb, h)
  | InvSome l => (InvSome l, set_nth e (mk_entry (e_index en) (InvSome [])) h)
  end.

(** crates/vfs/src/tree.rs:586-590 [Invalidations::add]. *)
Definition add_inv (i : nat) (v : invs) : invs :=
  match v with InvDb => InvDb | InvSome l => InvSome (if existsb (Nat.eqb i) l then l else l ++ [i]) end.

(** crates/vfs/src/tree.rs:592-597 [Invalidations::extend]. *)
Definition extend_inv (a b : invs) : invs :=
  match a, b with InvSome x, InvSome y => InvSome (x ++ y) | _, _ => InvDb end.

Section Invalidate.
  Variable fs : list file.
  Variable mem : list (path * nat).
  Variable changed : option nat.

  (** crates/vfs/src/vfs.rs:238-294 [invalidate_files] and [invalidate_file_by_index].  The result is whether the whole
      database is invalid ([InvalidatedDb]); [None] if the fuel is used up. *)
  Fixpoint invalidate_files (fuel : nat) (inv : invs) (h : list entry) (log : list event)
    : option (bool * list entry * list event) :=
    match inv with
    | InvDb => Some (true, h, log ++ map (fun x => Notify (fst x)) mem)
    | InvSome l =>
        match fuel with
        | O => match l with [] => Some (false, h, log) | _ => None end
        | S k =>
            (fix each (l : list nat) (h : list entry) (log : list event) :=
               match l with
               | [] => Some (false, h, log)
               | i :: r =>
                   let f := get_file fs i in
                   let (taken, h) := take_inv h (f_entry f) in
                   match invalidate_files k taken h (log ++ [Refs changed i]) with
                   | Some (false, h, log) =>
                       each r h (match mem_find mem (f_path f) with
                                 | Some _ => log ++ [Notify (f_path f)]
                                 | None => log
                                 end)
                   | res => res
                   end
               end) l h log
        end
    end.
End Invalidate.

(** Enough fuel (proved): all the registered invalidations. *)
Definition weight (h : list entry) : nat :=
  fold_right (fun en n => match e_inv en with InvDb => 0 | InvSome l => length l end + n) 0 h.

(** [invalidate_files] on the state; [None] does not occur. *)
Definition run_invalidate (s : vfs) (changed : option nat) (inv : invs) : option (bool * vfs) :=
  match invalidate_files (v_files s) (v_mem s) changed (S (weight (v_heap s))) inv (v_heap s) (v_log s) with
  | Some (db, h, log) => Some (db, mk_vfs (v_tree s) h (v_files s) (v_mem s) log)
  | None => None
  end.

(** [invalidate_file_by_index] on the state. *)
Definition run_invalidate_index (s : vfs) (changed : option nat) (i : nat) : option (bool * vfs) :=
  run_invalidate s changed (InvSome [i]).

Definition set_code (fs : list file) (i : nat) (c : option content) : list file :=
  let f := get_file fs i in set_nth i (mk_file (f_path f) (f_entry f) c) fs.

(** crates/vfs/src/vfs.rs:501-506 [invalidate_and_unload_file]. *)
Definition invalidate_and_unload_file (s : vfs) (i : nat) : option (bool * vfs) :=
  let fs := set_code (v_files s) i None in
  let (taken, h) := take_inv (v_heap s) (f_entry (get_file fs i)) in
  run_invalidate (mk_vfs (v_tree s) h fs (v_mem s) (v_log s)) (Some i) taken.

Section Tree.
  (** crates/vfs/src/local_fs.rs:15 and 388: names that start with a dot and three others are ignored. *)
  Variable ignored : name -> bool.

  (** crates/vfs/src/local_fs.rs:46-131 [read_and_watch_dir]: new entries for the children. *)
  Fixpoint list_dir (es : list (name * disk)) (h : list entry) : list (name * node) * list entry :=
    match es with
    | [] => ([], h)
    | (n, d) :: r =>
        if ignored n then list_dir r h
        else
          match d with
          | DFile _ => let (l, h') := list_dir r (h ++ [mk_entry None (InvSome [])]) in ((n, NFile (length h)) :: l, h')
          | DDir _ => let (l, h') := list_dir r h in ((n, NDir None) :: l, h')
          end
    end.

  Definition read_dir (d : disk) (p : path) (h : list entry) : list (name * node) * list entry :=
    match disk_at d p with Some (DDir es) => list_dir es h | _ => ([], h) end.

  (** tree.rs:285-304 [entries_with_workspace_likes]: read the directory if that was not done yet. *)
  Definition dir_entries (d : disk) (p : path) (es : option (list (name * node))) (h : list entry)
    : list (name * node) * list entry :=
    match es with Some es => (es, h) | None => read_dir d p h end.

  (** crates/vfs/src/workspaces.rs:561-609 [ensure_dirs_and_file] and crates/vfs/src/tree.rs:364-423
      [Entries::ensure_file]; [None] stands for [unimplemented!]. *)
  Fixpoint ensure_file (d : disk) (here : path) (p : path) (es : list (name * node)) (h : list entry)
    : option (list (name * node) * list entry * nat * invs) :=
    match p with
    | [] => None
    | [n] =>
        match find n es with
        | Some (NFile e) => Some (es, h, e, InvSome [])
        | Some (NMissing i) => Some (insert n (NFile (length h)) es, h ++ [mk_entry None (InvSome [])], length h, i)
        | Some (NDir _) => None
        | None => Some (insert n (NFile (length h)) es, h ++ [mk_entry None (InvSome [])], length h, InvSome [])
        end
    | n :: r =>
        match find n es with
        | Some (NDir sub) =>
            let (sub, h) := dir_entries d (here ++ [n]) sub h in
            match ensure_file d (here ++ [n]) r sub h with
            | Some (sub, h, e, i) => Some (insert n (NDir (Some sub)) es, h, e, i)
            | None => None
            end
        | Some (NFile _) => None
        | missing =>
            let (sub, h) := read_dir d (here ++ [n]) h in
            match ensure_file d (here ++ [n]) r sub h with
            | Some (sub, h, e, i) =>
                Some (insert n (NDir (Some sub)) es, h, e,
                      extend_inv i match missing with Some (NMissing i0) => i0 | _ => InvSome [] end)
            | None => None
            end
        end
    end.

  (** crates/vfs/src/tree.rs:333-355 [Entries::search_path]; directories are read. *)
  Fixpoint search_path (d : disk) (here : path) (p : path) (es : list (name * node)) (h : list entry)
    : list (name * node) * list entry * option nat :=
    match p with
    | [] => (es, h, None)
    | [n] => (es, h, match find n es with Some (NFile e) => Some e | _ => None end)
    | n :: r =>
        match find n es with
        | Some (NDir sub) =>
            let (sub, h) := dir_entries d (here ++ [n]) sub h in
            let '(sub, h, e) := search_path d (here ++ [n]) r sub h in
            (insert n (NDir (Some sub)) es, h, e)
        | _ => (es, h, None)
        end
    end.

  (** tree.rs:425-445 [Entries::unload_file]. *)
  Fixpoint unload_file (p : path) (es : list (name * node)) : list (name * node) :=
    match p with
    | [] => es
    | [n] => match find n es with Some (NFile _) => remove n es | _ => es end
    | n :: r => match find n es with
                | Some (NDir (Some sub)) => insert n (NDir (Some (unload_file r sub))) es
                | _ => es
                end
    end.

  (** crates/vfs/src/vfs.rs:801-851 [with_added_file], [add_uninitialized_file_state]: the index of the entry, with a new
      file state if there is none; the code is only set if there is none yet. *)
  Definition with_added_file (s : vfs) (p : path) (e : nat) (c : option content) : vfs * nat :=
    let en := get_entry (v_heap s) e in
    match e_index en with
    | Some i =>
        (mk_vfs (v_tree s) (v_heap s)
           (match f_code (get_file (v_files s) i) with None => set_code (v_files s) i c | Some _ => v_files s end)
           (v_mem s) (v_log s), i)
    | None =>
        let i := length (v_files s) in
        (mk_vfs (v_tree s) (set_nth e (mk_entry (Some i) (e_inv en)) (v_heap s)) (v_files s ++ [mk_file p e c])
           (v_mem s) (v_log s), i)
    end.

  (** crates/vfs/src/vfs.rs:362-393 [ensure_file_for_file_entry_with_conditional], for the entry at a path: the index if
      the file could be loaded. *)
  Definition load_entry (d : disk) (s : vfs) (p : path) (e : nat) : vfs * option nat :=
    match e_index (get_entry (v_heap s) e) with
    | Some i =>
        let f := get_file (v_files s) i in
        match f_code f with
        | Some _ => (s, Some i)
        | None =>
            match read_file d (f_path f) with
            | Some c => (mk_vfs (v_tree s) (v_heap s) (set_code (v_files s) i (Some c)) (v_mem s) (v_log s), Some i)
            | None => (s, None)
            end
        end
    | None =>
        match read_file d p with
        | Some c => let (s, i) := with_added_file s p e (Some c) in (s, Some i)
        | None => (s, None)
        end
    end.

  (** crates/zuban_python/src/database.rs:1297-1305 [file_by_file_path]; then the code of the file. *)
  Definition load (d : disk) (s : vfs) (p : path) : vfs * option content :=
    let '(t, h, e) := search_path d [] p (v_tree s) (v_heap s) in
    let s := mk_vfs t h (v_files s) (v_mem s) (v_log s) in
    match e with
    | Some e =>
        let (s, i) := load_entry d s p e in
        (s, match i with Some i => f_code (get_file (v_files s) i) | None => None end)
    | None => (s, None)
    end.

  (** crates/vfs/src/vfs.rs:402-488 [store_in_memory_file].  [None]: the code panics.  The flag is [InvalidatedDb]. *)
  Definition store_in_memory_file (d : disk) (s : vfs) (p : path) (c : content) : option (bool * vfs) :=
    match ensure_file d [] p (v_tree s) (v_heap s) with
    | None => None
    | Some (t, h, e, inv) =>
        let in_mem := match mem_find (v_mem s) p with Some i => Some i | None => e_index (get_entry h e) end in
        let mem := match mem_find (v_mem s) p, in_mem with None, Some i => mem_insert (v_mem s) p i | _, _ => v_mem s end in
        let s := mk_vfs t h (v_files s) mem (v_log s ++ [Notify p]) in
        match in_mem with
        | Some i =>
            if match f_code (get_file (v_files s) i) with Some c' => Nat.eqb c' c | None => false end
            then Some (false, s)
            else
              match invalidate_and_unload_file s i with
              | None => None
              | Some (db, s) =>
                  let en := get_entry (v_heap s) e in
                  let h := if db then set_nth e (mk_entry (e_index en) InvDb) (v_heap s) else v_heap s in
                  let s := mk_vfs (v_tree s) h (set_nth i (mk_file p e (Some c)) (v_files s)) (v_mem s) (v_log s) in
                  match run_invalidate s (Some i) inv with
                  | None => None
                  | Some (db', s) => Some (db || db', s)
                  end
              end
        | None =>
            let (s, i) := with_added_file s p e (Some c) in
            let s := mk_vfs (v_tree s) (v_heap s) (v_files s) (mem_insert (v_mem s) p i) (v_log s) in
            run_invalidate s (Some i) inv
        end
    end.

  (** crates/vfs/src/vfs.rs:508-558 [close_in_memory_file], without gitignore; [None]: the path is not open. *)
  Definition close_in_memory_file (d : disk) (s : vfs) (p : path) : option (bool * vfs) :=
    match mem_find (v_mem s) p with
    | None => None
    | Some i =>
        let s := mk_vfs (v_tree s) (v_heap s) (v_files s) (mem_remove (v_mem s) p) (v_log s) in
        match read_file d p with
        | Some c =>
            if match f_code (get_file (v_files s) i) with Some c' => Nat.eqb c c' | None => false end
            then Some (false, s)
            else
              (* update_file, vfs.rs:787-798 *)
              match invalidate_and_unload_file s i with
              | Some (db, s) =>
                  Some (db, mk_vfs (v_tree s) (v_heap s) (set_code (v_files s) i (Some c)) (v_mem s) (v_log s))
              | None => None
              end
        | None =>
            let s := mk_vfs (unload_file p (v_tree s)) (v_heap s) (v_files s) (v_mem s) (v_log s) in
            invalidate_and_unload_file s i
        end
    end.

  (** vfs.rs:645-674, tree.rs:185-201: the file entries and the missing entries below a directory entry.  Directories
      that were not read are left out: their entries would be new ones, without an index. *)
  Fixpoint walk (n : node) : list nat * list invs :=
    match n with
    | NFile e => ([e], [])
    | NMissing i => ([], [i])
    | NDir None => ([], [])
    | NDir (Some es) =>
        (fix go (es : list (name * node)) : list nat * list invs :=
           match es with
           | [] => ([], [])
           | (_, x) :: r => let (a, b) := walk x in let (c, d) := go r in (a ++ c, b ++ d)
           end) es
    end.

  (** vfs.rs:769-785 [matches_current_dir_entry]. *)
  Definition matches_current (d : disk) (s : vfs) (old : node) (new : node) : bool :=
    match old, new with
    | NFile e, NFile _ =>
        match e_index (get_entry (v_heap s) e) with
        | Some i =>
            let f := get_file (v_files s) i in
            match f_code f, read_file d (f_path f) with
            | Some old, Some new => Nat.eqb old new
            | _, _ => false
            end
        | None => false
        end
    | _, _ => false
    end.

  (** crates/vfs/src/local_fs.rs:133-164 [read_and_watch_entry] for the last name of a path. *)
  Definition read_entry (d : disk) (p : path) (n : name) (h : list entry) : option node * list entry :=
    match disk_at d p with
    | None => (None, h)
    | Some x =>
        if ignored n then (None, h)
        else match x with
             | DFile _ => (Some (NFile (length h)), h ++ [mk_entry None (InvSome [])])
             | DDir _ => (Some (NDir None), h)
             end
    end.

  (** local_fs.rs:176-199 [is_unnecessary_invalidation]. *)
  Definition unnecessary (d : disk) (p : path) (cur : option node) : bool :=
    match cur, disk_at d p with Some (NDir _), Some (DDir _) => true | _, _ => false end.

  (** vfs.rs:675-727: what happens in the parent directory, whose entries are [es].  The result is the new entries, the
      heap and the node that was removed. *)
  Definition replace_entry (d : disk) (s : vfs) (p : path) (n : name) (es : list (name * node))
    : list (name * node) * list entry * option node :=
    if unnecessary d p (find n es) then (es, v_heap s, None)
    else
      match read_entry d p n (v_heap s) with
      | (Some new, h) =>
          match find n es with
          | Some old => if matches_current d s old new then (es, h, None) else (insert n new es, h, Some old)
          | None => (insert n new es, h, None)
          end
      | (None, h) =>
          match find n es with
          | Some (NMissing _) => (es, h, None)
          | Some old => (remove n es, h, Some old)
          | None => (es, h, None)
          end
      end.

  (** crates/vfs/src/workspaces.rs:178-234 [search_potential_parent_for_invalidation] and the replacement in there; only
      through directories that were read. *)
  Fixpoint replace_at (d : disk) (s : vfs) (full : path) (p : path) (es : list (name * node))
    : list (name * node) * list entry * option node :=
    match p with
    | [] => (es, v_heap s, None)
    | [n] => replace_entry d s full n es
    | n :: r =>
        match find n es with
        | Some (NDir (Some sub)) =>
            let '(sub, h, old) := replace_at d s full r sub in (insert n (NDir (Some sub)) es, h, old)
        | _ => (es, v_heap s, None)
        end
    end.

  Definition mem_path (m : list (path * nat)) (i : nat) : option path :=
    match List.find (fun x => Nat.eqb (snd x) i) m with Some (p, _) => Some p | None => None end.

  (** vfs.rs:645-674 [check_invalidations_for_dir_entry]: files to unload, files to invalidate, open files. *)
  Definition classify (s : vfs) (es : list nat) : list nat * list nat * list (path * nat) :=
    fold_right (fun e acc =>
      let '(unloads, invalid, opened) := acc in
      match e_index (get_entry (v_heap s) e) with
      | None => acc
      | Some i => match mem_path (v_mem s) i with
                  | Some p => (unloads, i :: invalid, (p, i) :: opened)
                  | None => (i :: unloads, invalid, opened)
                  end
      end) ([], [], []) es.

  Fixpoint unload_all (s : vfs) (l : list nat) : option (bool * vfs) :=
    match l with
    | [] => Some (false, s)
    | i :: r => match invalidate_and_unload_file s i with Some (false, s) => unload_all s r | res => res end
    end.

  Fixpoint invalidate_all (s : vfs) (l : list nat) : option (bool * vfs) :=
    match l with
    | [] => Some (false, s)
    | i :: r => match run_invalidate_index s None i with Some (false, s) => invalidate_all s r | res => res end
    end.

  (** vfs.rs:749-764: the entries of the open files are created again, with their index. *)
  Fixpoint ensure_all (d : disk) (s : vfs) (l : list (path * nat)) : option vfs :=
    match l with
    | [] => Some s
    | (p, i) :: r =>
        match ensure_file d [] p (v_tree s) (v_heap s) with
        | None => None
        | Some (t, h, e, _) =>
            let en := get_entry h e in
            let h := match e_index en with Some _ => h | None => set_nth e (mk_entry (Some i) (e_inv en)) h end in
            ensure_all d (mk_vfs t h (v_files s) (v_mem s) (v_log s ++ [Notify p])) r
        end
    end.

  Definition some_files (l : list invs) : list nat :=
    concat (map (fun i => match i with InvSome l => l | InvDb => [] end) l).

  (** crates/vfs/src/vfs.rs:591-767 [invalidate_path], an event of the operating system for a path. *)
  Definition invalidate_path (d : disk) (s : vfs) (p : path) : option (bool * vfs) :=
    match mem_find (v_mem s) p with
    | Some _ => Some (false, s)
    | None =>
        let '(t, h, old) := replace_at d s p p (v_tree s) in
        let s := mk_vfs t h (v_files s) (v_mem s) (v_log s) in
        let '(es, missing) := match old with Some n => walk n | None => ([], []) end in
        let '(unloads, invalid, opened) := classify s es in
        if existsb (fun i => match i with InvDb => true | _ => false end) missing then Some (true, s)
        else
          match unload_all s unloads with
          | Some (false, s) =>
              match invalidate_all s (invalid ++ some_files missing) with
              | Some (false, s) => match ensure_all d s opened with Some s => Some (false, s) | None => None end
              | res => res
              end
          | res => res
          end
    end.

  (** ** Histories *)

  (** tree.rs:141-143 [add_invalidation], for the entry at a path: file [i] depends on it. *)
  Definition depend (d : disk) (s : vfs) (p : path) (i : nat) : vfs :=
    let '(t, h, e) := search_path d [] p (v_tree s) (v_heap s) in
    let h := match e with
             | Some e => let en := get_entry h e in set_nth e (mk_entry (e_index en) (add_inv i (e_inv en))) h
             | None => h
             end in
    mk_vfs t h (v_files s) (v_mem s) (v_log s).

  (** crates/vfs/src/tree.rs:447-481 [add_missing_entry_callback], for a path whose directories were read. *)
  Fixpoint add_missing (p : path) (i : nat) (es : list (name * node)) (h : list entry) : list (name * node) * list entry :=
    match p with
    | [] => (es, h)
    | [n] =>
        match find n es with
        | Some (NMissing v) => (insert n (NMissing (add_inv i v)) es, h)
        | Some (NFile e) =>
            let en := get_entry h e in (es, set_nth e (mk_entry (e_index en) (add_inv i (e_inv en))) h)
        | Some (NDir _) => (es, h)
        | None => (insert n (NMissing (InvSome [i])) es, h)
        end
    | n :: r =>
        match find n es with
        | Some (NDir (Some sub)) => let (sub, h) := add_missing r i sub h in (insert n (NDir (Some sub)) es, h)
        | _ => (es, h)
        end
    end.

  (** crates/vfs/src/vfs.rs:320-326 [ensure_file_index], for the entry at a path. *)
  Definition touch (d : disk) (s : vfs) (p : path) : vfs :=
    let '(t, h, e) := search_path d [] p (v_tree s) (v_heap s) in
    let s := mk_vfs t h (v_files s) (v_mem s) (v_log s) in
    match e with Some e => fst (with_added_file s p e None) | None => s end.

  (** [load] with [invalidates_db], crates/vfs/src/vfs.rs:328-340 [ensure_file_for_file_entry]: for the files of typeshed
      that everything depends on. *)
  Definition load_base (d : disk) (s : vfs) (p : path) : vfs :=
    let '(t, h, e) := search_path d [] p (v_tree s) (v_heap s) in
    let s := mk_vfs t h (v_files s) (v_mem s) (v_log s) in
    match e with
    | Some e =>
        let s' := fst (load_entry d s p e) in
        match e_index (get_entry h e), read_file d p with
        | None, Some _ =>
            mk_vfs (v_tree s') (set_nth e (mk_entry (e_index (get_entry (v_heap s') e)) InvDb) (v_heap s')) (v_files s')
              (v_mem s') (v_log s')
        | _, _ => s'
        end
    | None => s
    end.

  Inductive op :=
  | Store (p : path) (c : content)   (** the editor opens or changes a document *)
  | Close (p : path)                 (** the editor closes a document *)
  | Changed (p : path)               (** the operating system reports a change *)
  | Load (p : path)                  (** somebody needs the file *)
  | LoadBase (p : path)              (** the same for a file that everything depends on *)
  | Touch (p : path)                 (** an import finds the file *)
  | Depend (p : path) (i : nat)      (** file [i] depends on the file *)
  | Missing (p : path) (i : nat).    (** file [i] depends on the absence of the file *)

  Definition step (s : vfs) (o : disk * op) : option (bool * vfs) :=
    let (d, o) := o in
    match o with
    | Store p c => store_in_memory_file d s p c
    | Close p => match mem_find (v_mem s) p with None => Some (false, s) | Some _ => close_in_memory_file d s p end
    | Changed p => invalidate_path d s p
    | Load p => Some (false, fst (load d s p))
    | LoadBase p => Some (false, load_base d s p)
    | Touch p => Some (false, touch d s p)
    | Depend p i => Some (false, depend d s p i)
    | Missing p i => let (t, h) := add_missing p i (v_tree s) (v_heap s) in
                     Some (false, mk_vfs t h (v_files s) (v_mem s) (v_log s))
    end.

  (** Histories without a panic and in which no event of the operating system invalidates the whole database. *)
  Fixpoint run (s : vfs) (ops : list (disk * op)) : option vfs :=
    match ops with
    | [] => Some s
    | o :: r =>
        match step s o with
        | Some (db, s) => if match snd o with Changed _ => db | _ => false end then None else run s r
        | None => None
        end
    end.

  (** The workspace is read when it is added. *)
  Definition start (d : disk) : vfs :=
    let (t, h) := read_dir d [] [] in mk_vfs t h [] [] [].
End Tree.
