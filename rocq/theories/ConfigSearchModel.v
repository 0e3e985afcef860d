(** * The search for a configuration

    The directories are those from the current one up to the root.  Of a file only is modelled whether it has something for mypy (the table [tool.mypy] of
    pyproject.toml, a section that starts with mypy in the others) and whether it has the table [tool.zuban].  Errors in files are not modelled; the mode is C25. *)
From Coq Require Import List Bool.
Import ListNotations.

Inductive file := Pyproject | MypyIni | DotMypyIni | SetupCfg.
Record content := mk_content { has_mypy : bool; has_zuban : bool }.
Definition directory := file -> option content.

(** crates/config/src/searcher.rs:7-19 (CONFIG_NAMES) *)
Definition config_names : list file := [Pyproject; MypyIni; DotMypyIni; SetupCfg].
(** The options are the default ones or those of a file, with those of [tool.zuban] applied to them or not; [path] is reported as the path of the configuration. *)
Record found := mk_found { base : option file; zuban : bool; path : file }.

(** What the loop does with a file that exists: the file is used or the loop goes on.  crates/config/src/searcher.rs:130-176 (find_mypy_config_file_in_dir) *)
Definition uses (f : file) (c : content) : bool :=
  match f with
  | Pyproject | SetupCfg => has_mypy c
  | MypyIni | DotMypyIni => true
  end.
(** The loop: the paths that were checked and the file that ended it.  crates/config/src/searcher.rs:116-178 (find_mypy_config_file_in_dir) *)
Fixpoint try_files (names : list file) (d : directory) : list file * option file :=
  match names with
  | [] => ([], None)
  | f :: names =>
      let next := let '(checked, r) := try_files names d in (f :: checked, r) in
      match d f with
      | Some c => if uses f c then ([f], Some f) else next
      | None => next
      end
  end.
(** crates/config/src/searcher.rs:108-198 [find_mypy_config_file_in_dir] *)
Definition find_in_dir (d : directory) : list file * option found :=
  let '(checked, r) := try_files config_names d in
  (checked,
   match d Pyproject with
   | Some p => Some (match r with Some f => mk_found (Some f) (has_zuban p) f | None => mk_found None (has_zuban p) Pyproject end)
   | None => match r with Some f => Some (mk_found (Some f) false f) | None => None end
   end).
(** Without a configuration file on the command line; the result has the number of the directory.  crates/config/src/searcher.rs:29-75 [find_config] *)
Fixpoint find_config (k : nat) (dirs : list directory) : list (nat * file) * option (nat * found) :=
  match dirs with
  | [] => ([], None)
  | d :: outer =>
      let '(checked, r) := find_in_dir d in
      match r with
      | Some r => (map (pair k) checked, Some (k, r))
      | None => let '(more, r) := find_config (S k) outer in (map (pair k) checked ++ more, r)
      end
  end.
