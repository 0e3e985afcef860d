(** Model of the search for references and of renaming: [ReferencesResolver] in crates/zuban_python/src/goto.rs, [references_for_rename] in
    crates/zuban_python/src/lib.rs and the answer in crates/zubanls/src/request_handlers.rs.

    Simplifications: where goto leads from a name, which names are other definitions of one, and the stub or module of a definition are given; ranges
    are given by their start; URIs are made of directories and a name, without trailing slashes. *)
From Coq Require Import List Bool NArith Arith.
Import ListNotations.
Open Scope list_scope.
Open Scope nat_scope.

Definition text := list N.
Definition text_eqb (a b : text) : bool := if list_eq_dec N.eq_dec a b then true else false.
Definition position := (nat * nat)%type.
Definition position_eqb (a b : position) : bool := (fst a =? fst b) && (snd a =? snd b).
Definition contains (l : list position) (p : position) : bool := existsb (position_eqb p) l.

(** The scope that a name is in, with those around it *)
Inductive scope := Module | Class (parent : scope) | Function (parent : scope) | Lambda (parent : scope).
(** The scopes from [ScopesIterator] with [only_reachable], from the scope that contains the last one: the parents of functions and classes that are classes are left out.
    crates/zuban_python/src/completion.rs:866-906 (next) *)
Fixpoint reachable_from (s : scope) : list scope :=
  match s with
  | Module => [Module]
  | Class s => reachable_from s
  | Function s' => s :: reachable_from s'
  | Lambda s' => s :: match s' with Class s'' => s' :: reachable_from s'' | _ => reachable_from s' end
  end.
Definition scopes (s : scope) : list scope := match s with Class s' => s :: reachable_from s' | _ => reachable_from s end.
Definition is_function (s : scope) : bool := match s with Function _ | Lambda _ => true | _ => false end.

(** A name in a file *)
Record occurrence := mk_occurrence { o_file : nat; o_start : nat; o_text : text; o_scope : scope; o_defines : bool }.
Inductive name := TreeName (o : occurrence) | ModuleName (file : nat).

Definition name_file (n : name) : nat := match n with TreeName o => o_file o | ModuleName file => file end.
(** crates/zuban_python/src/goto.rs:982-984 [to_unique_position], with the range of crates/zuban_python/src/name.rs:188-208 (name_range) *)
Definition to_unique_position (n : name) : position := match n with TreeName o => (o_file o, o_start o) | ModuleName file => (file, 0) end.

Inductive goal := OnlyCurrentFile | OnlyTypeCheckedWorkspaces | AllFilesIncludingDependencies.

Section References.
(** Where goto leads, with [follow_goto_if_necessary]: crates/zuban_python/src/goto.rs:497-657 (goto_name), crates/zuban_python/src/goto.rs:986-1044 [follow_goto_if_necessary] *)
Variable resolve : occurrence -> list name.
(** The definition in the stub of a file, or in the file of a stub *)
Variable counterpart : name -> option name.
(** [OtherDefinitionIterator], for a first definition *)
Variable other_definitions : occurrence -> list occurrence.
(** [filter_all_names] *)
Variable names_in : nat -> list occurrence.
(** The files of the type checked workspaces and of all, with a Python ending or loaded *)
Variables checked_files all_files : list nat.
(** The regular expression finds the name in the file: crates/zuban_python/src/goto.rs:949-955 (find_references_in_workspace_entries) *)
Variable mentions : nat -> text -> bool.

(** crates/zuban_python/src/goto.rs:801-810 (references) *)
Definition globally_reachable (n : name) : bool := match n with TreeName o => negb (existsb is_function (scopes (o_scope o))) | ModuleName _ => true end.

Record found := mk_found { definitions : list position; definition_results : list name; is_globally_reachable : bool }.

(** The closure [add_definitions], crates/zuban_python/src/goto.rs:820-848 (references) *)
Definition add_definitions (g : goal) (include_declarations : bool) (current : nat) (f : found) (n : name) : found :=
  let should_add := include_declarations && match g with OnlyCurrentFile => name_file n =? current | _ => true end in
  let all := n :: match n with TreeName o => map TreeName (other_definitions o) | ModuleName _ => [] end in
  mk_found (definitions f ++ map to_unique_position all) (definition_results f ++ if should_add then all else []) (is_globally_reachable f).

(** The closure for each name that goto leads to, crates/zuban_python/src/goto.rs:796-853 (references) *)
Definition on_goto (g : goal) (include_declarations : bool) (current : nat) (f : found) (n : name) : found :=
  match definitions f with
  | _ :: _ => f
  | [] =>
      let f := mk_found (to_unique_position n :: definitions f) (definition_results f) (is_globally_reachable f || globally_reachable n) in
      let f := match counterpart n with Some other => add_definitions g include_declarations current f other | None => f end in
      add_definitions g include_declarations current f n
  end.

(** crates/zuban_python/src/goto.rs:906-941 [find_references_in_file] *)
Definition find_references_in_file (defs : list position) (search : text) (file : nat) : list occurrence :=
  filter (fun o => text_eqb (o_text o) search && existsb (fun d => contains defs (to_unique_position d)) (resolve o) && negb (contains defs (to_unique_position (TreeName o))))
         (names_in file).
(** crates/zuban_python/src/goto.rs:943-979 [find_references_in_workspace_entries] *)
Definition find_references_in_workspace_entries (defs : list position) (search : text) (files : list nat) : list occurrence :=
  flat_map (find_references_in_file defs search) (filter (fun f => mentions f search) files).

(** The names that [on_result] is called with, in this order; crates/zuban_python/src/goto.rs:782-904 [references] *)
Definition references (g : goal) (include_declarations : bool) (on_name : occurrence) : list name :=
  let search := o_text on_name in
  let current := o_file on_name in
  let f := fold_left (on_goto g include_declarations current) (resolve on_name) (mk_found [] [] false) in
  let search_with f :=
    let refs :=
      if negb (is_globally_reachable f) then find_references_in_file (definitions f) search current
      else match g with
           | OnlyCurrentFile => find_references_in_file (definitions f) search current
           | OnlyTypeCheckedWorkspaces => find_references_in_workspace_entries (definitions f) search checked_files
           | AllFilesIncludingDependencies => find_references_in_workspace_entries (definitions f) search all_files
           end in
    definition_results f ++ map TreeName refs in
  match definitions f with
  | [] => if o_defines on_name then search_with (mk_found [to_unique_position (TreeName on_name)] [TreeName on_name] false) else []
  | _ :: _ => search_with f
  end.

(** [entry(..).or_insert_with(Vec::new).push(..)] *)
Fixpoint push_change (changes : list (nat * list occurrence)) (o : occurrence) : list (nat * list occurrence) :=
  match changes with
  | [] => [(o_file o, [o])]
  | (file, os) :: changes => if file =? o_file o then (file, os ++ [o]) :: changes else (file, os) :: push_change changes o
  end.
Definition add_change (r : list (nat * list occurrence) * list nat) (n : name) : list (nat * list occurrence) * list nat :=
  match n with TreeName o => (push_change (fst r) o, snd r) | ModuleName file => (fst r, snd r ++ [file]) end.

(** The changes of names in each file, and the files to rename; None is the error for the client.
    crates/zuban_python/src/lib.rs:326-385 [references_for_rename] *)
Definition references_for_rename (on_name : occurrence) (new_name : text) : option (list (nat * list occurrence) * list nat) :=
  if text_eqb (o_text on_name) new_name then Some ([], [])
  else
    match references OnlyTypeCheckedWorkspaces true on_name with
    | [] => None
    | names => Some (fold_left add_change names ([], []))
    end.
End References.

(** ** The new URI of a file *)
Definition slash : N := 47.
Definition dot : N := 46.
(** The text before the last occurrence of a character, and the one behind it *)
Fixpoint split_last (c : N) (t : text) : option (text * text) :=
  match t with
  | [] => None
  | d :: t =>
      match split_last c t with
      | Some (a, b) => Some (d :: a, b)
      | None => if (d =? c)%N then Some ([], t) else None
      end
  end.
(** [Path::parent]; slashes before the last component are not part of it *)
Fixpoint trim_slashes (t : text) : text :=
  match t with
  | [] => []
  | c :: t => match trim_slashes t with [] => if (c =? slash)%N then [] else [c] | t => c :: t end
  end.
Definition parent (t : text) : option text :=
  match split_last slash t with Some (a, _) => Some (trim_slashes a) | None => match t with [] => None | _ => Some [] end end.
Definition file_name (t : text) : text := match split_last slash t with Some (_, b) => b | None => t end.
(** [Path::file_stem] and [Path::extension] *)
Definition file_stem (t : text) : text := match split_last dot (file_name t) with Some ([], _) | None => file_name t | Some (a, _) => a end.
Definition extension (t : text) : option text := match split_last dot (file_name t) with Some ([], _) | None => None | Some (_, b) => Some b end.

Definition init : text := [95; 95; 105; 110; 105; 116; 95; 95]%N.
(** None is a panic.  crates/zuban_python/src/lib.rs:504-524 [to_uri] *)
Definition to_uri (uri new_name : text) : option text :=
  match parent uri, extension uri with
  | Some dir, Some ext =>
      let '(dir, maybe_init) :=
        if text_eqb (file_stem uri) init then match parent dir with Some par => (par, init ++ [slash]) | None => (dir, []) end else (dir, []) in
      Some (firstn (length dir) uri ++ [slash] ++ new_name ++ maybe_init ++ [dot] ++ ext)
  | _, _ => None
  end.
