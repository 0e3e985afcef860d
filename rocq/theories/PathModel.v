(** Model of the path handling of crates/vfs (Unix: [cfg!(windows)] is false, separator [/]).
    A path is the list of its code points. *)
From Coq Require Import NArith List Bool.
From Verif Require Import PathSpec.
Import ListNotations.
Open Scope N_scope.

(** Equality of strings. *)
Fixpoint str_eqb (a b : list N) : bool :=
  match a, b with
  | [], [] => true
  | x :: a, y :: b => (x =? y) && str_eqb a b
  | _, _ => false
  end.

(** [str::split(c)] of the standard library: always at least one piece. *)
Fixpoint split (c : N) (s : list N) : list (list N) :=
  match s with
  | [] => [[]]
  | x :: r =>
      if x =? c then [] :: split c r
      else match split c r with
           | [] => [[x]]
           | p :: ps => (x :: p) :: ps
           end
  end.

(** [std::path::Component] on Unix (no prefixes). *)
Inductive component := RootDir | CurDir | ParentDir | Normal (n : list N).

Definition component_eqb (a b : component) : bool :=
  match a, b with
  | RootDir, RootDir | CurDir, CurDir | ParentDir, ParentDir => true
  | Normal a, Normal b => str_eqb a b
  | _, _ => false
  end.

(** A piece between separators as a component; empty pieces and [.] are skipped by the iterator. *)
Definition piece_component (s : list N) : list component :=
  if str_eqb s [] then []
  else if str_eqb s [DOT] then []
  else if str_eqb s [DOT; DOT] then [ParentDir]
  else [Normal s].

(** [std::path::Path::components] (Unix), as documented by the standard library: repeated separators
    and [.] are ignored except for a leading [.] of a relative path, a trailing slash is ignored. *)
Definition components (p : list N) : list component :=
  match p with
  | c :: r =>
      if c =? SLASH then RootDir :: concat (map piece_component (split SLASH r))
      else match split SLASH p with
           | s :: ps =>
               (if str_eqb s [DOT] then [CurDir] else piece_component s)
                 ++ concat (map piece_component ps)
           | [] => []
           end
  | [] => []
  end.

(** [PathBuf::push] (standard library) of a component: an absolute component replaces the buffer,
    otherwise a separator is added if the buffer is not empty and does not end with one. *)
Definition ends_with_slash (b : list N) : bool :=
  match rev b with c :: _ => c =? SLASH | [] => false end.

Definition buf_push (b : list N) (c : component) : list N :=
  match c with
  | RootDir => [SLASH]
  | CurDir => b   (* not used *)
  | ParentDir => b   (* not used *)
  | Normal n =>
      match b with
      | [] => n
      | _ => if ends_with_slash b then b ++ n else b ++ [SLASH] ++ n
      end
  end.

(** [str::rfind('/')] as the pair of the part before and after the last separator. *)
Fixpoint rsplit (c : N) (s : list N) : option (list N * list N) :=
  match s with
  | [] => None
  | x :: r =>
      match rsplit c r with
      | Some (a, b) => Some (x :: a, b)
      | None => if x =? c then Some ([], r) else None
      end
  end.

(** [PathBuf::pop] (standard library).  Simplified: defined for buffers without doubled or trailing separators, which is
    what [normalize] builds. *)
Definition buf_pop (b : list N) : list N :=
  match rsplit SLASH b with
  | None => []
  | Some ([], _) => [SLASH]
  | Some (a, _) => a
  end.

(** normalized_path.rs:84-100 [normalize]: the loop. *)
Definition normalize_step (b : list N) (c : component) : list N :=
  match c with
  | CurDir => b
  | ParentDir => buf_pop b
  | other => buf_push b other
  end.

(** normalized_path.rs:84-100 [normalize]: [None] if nothing changes. *)
Definition normalize_opt (p : list N) : option (list N) :=
  let s := fold_left normalize_step (components p) [] in
  if str_eqb s p then None else Some s.

(** normalized_path.rs:14-27 [NormalizedPath::normalize]; [Cow::Borrowed] is the path itself. *)
Definition normalize (p : list N) : list N :=
  match normalize_opt p with Some s => s | None => p end.

(** vfs/src/lib.rs:64-70 [strip_separator_suffix] (Unix). *)
Definition strip_separator_suffix (p : list N) : option (list N) :=
  match rev p with
  | c :: r => if c =? SLASH then Some (rev r) else None
  | [] => None
  end.

(** vfs/src/lib.rs:96-101 [unchecked_abs_path]. *)
Definition unchecked_abs_path (p : list N) : list N :=
  match strip_separator_suffix p with Some q => q | None => p end.

(** vfs/src/lib.rs:92-94 [normalize_unchecked_abs_path]. *)
Definition normalize_unchecked_abs_path (p : list N) : list N := normalize (unchecked_abs_path p).

(** [Path::join] (standard library). *)
Definition path_join (p q : list N) : list N :=
  match q with
  | c :: _ => if c =? SLASH then q
              else match p with [] => q | _ => if ends_with_slash p then p ++ q else p ++ [SLASH] ++ q end
  | [] => match p with [] => [] | _ => if ends_with_slash p then p else p ++ [SLASH] end
  end.

(** vfs/src/lib.rs:111-113 [join]. *)
Definition join (p name : list N) : list N := unchecked_abs_path (path_join p name).

(** vfs/src/lib.rs:83-90 [absolute_path]. *)
Definition absolute_path (cwd p : list N) : list N :=
  match p with
  | c :: _ => if c =? SLASH then unchecked_abs_path p else join cwd p
  | [] => join cwd p
  end.

(** [Path::starts_with] (standard library): the components of [base] are a prefix. *)
Fixpoint comps_prefix (base p : list component) : bool :=
  match base, p with
  | [], _ => true
  | a :: base, b :: p => component_eqb a b && comps_prefix base p
  | _ :: _, [] => false
  end.

(** path.rs:18-22 [contains_sub_file]. *)
Definition contains_sub_file (base p : list N) : bool :=
  comps_prefix (components base) (components p).

(** vfs/src/lib.rs:170-210 [path_relative_to]: the loop that drops the common prefix. *)
Fixpoint drop_common (a b : list component) : list component * list component :=
  match a, b with
  | x :: a', y :: b' => if component_eqb x y then drop_common a' b' else (a, b)
  | _, _ => (a, b)
  end.

(** vfs/src/lib.rs:170-210 [path_relative_to]: rendering of the rest of [from]; only normal components are kept. *)
Fixpoint render_rest (sep : N) (needs_separator : bool) (l : list component) : list N :=
  match l with
  | [] => []
  | Normal n :: r =>
      (if needs_separator then [sep] else []) ++ n ++ render_rest sep true r
  | _ :: r => render_rest sep needs_separator r
  end.

Fixpoint render_ups (sep : N) (l : list component) : list N :=
  match l with
  | [] => []
  | _ :: r => [DOT; DOT; sep] ++ render_ups sep r
  end.

(** vfs/src/lib.rs:170-210 [path_relative_to]. *)
Definition path_relative_to (from to : list N) (sep : N) : option (list N) :=
  match components from, components to with
  | a :: fr, b :: t =>
      if component_eqb a b then
        let '(fr', t') := drop_common fr t in
        Some (render_ups sep t' ++ render_rest sep false fr')
      else None
  | _, _ => None
  end.

(** [str::find] as the pair of the parts around the first occurrence. *)
Fixpoint lsplit (c : N) (s : list N) : option (list N * list N) :=
  match s with
  | [] => None
  | x :: r =>
      if x =? c then Some ([], r)
      else match lsplit c r with Some (a, b) => Some (x :: a, b) | None => None end
  end.

(** vfs/src/lib.rs:135-150 [split_off_first_item] (Unix). *)
Definition split_off_first_item (p : list N) : list N * option (list N) :=
  match lsplit SLASH p with Some (a, b) => (a, Some b) | None => (p, None) end.

(** vfs/src/lib.rs:152-167 [split_off_last_item] (Unix). *)
Definition split_off_last_item (p : list N) : option (list N) * list N :=
  match rsplit SLASH p with Some (a, b) => (Some a, b) | None => (None, p) end.
