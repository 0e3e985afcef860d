(** Model of the edits that add an import: crates/zuban_python/src/auto_imports.rs, crates/parsa_python_cst/src/ranges.rs,
    crates/parsa_python_cst/src/lib.rs.

    A file is a list of statement lines. A line has the comments and empty lines before it, the statements with the separators between them,
    the rest of the line and the newline. A compound statement is one statement of kind [Other], with its body; the imports in it come
    after the end of the first imports, where the loop over the imports stops.

    Simplifications: the files that the imports lead to and their kinds are given; positions are numbers of characters; the search for
    importable names and the choice of an existing import are left out. *)
From Coq Require Import Ascii String List Bool PeanoNat.
Import ListNotations.
Open Scope nat_scope.
Open Scope list_scope.

Definition text := list ascii.
Definition newline : ascii := "010"%char.
Definition carriage_return : ascii := "013"%char.
Definition str : string -> text := list_ascii_of_string.
Definition is_char (c d : ascii) : bool := if ascii_dec c d then true else false.

(** crates/zuban_python/src/auto_imports.rs:364-369 (ImportKind), with its order *)
Inductive import_kind := StdLib | ThirdParty | Project.
Definition rank (k : import_kind) : nat := match k with StdLib => 0 | ThirdParty => 1 | Project => 2 end.
Definition less (k l : import_kind) : bool := rank k <? rank l.

(** [StringExpression] is a string that is a statement; an import has the kind of its first file that can be loaded. *)
Inductive what := StringExpression | Import (kind : option import_kind) (future : bool) | Other.
Record small := mk_small { s_gap : text; s_code : text; s_what : what }.
Record line := mk_line { l_prefix : text; l_smalls : list small; l_rest : text; l_newline : text }.
Record file := mk_file { f_lines : list line; f_tail : text }.

Definition small_text (s : small) : text := s_gap s ++ s_code s.
Definition smalls_text (l : list small) : text := flat_map small_text l.
Definition line_text (l : line) : text := l_prefix l ++ smalls_text (l_smalls l) ++ l_rest l ++ l_newline l.
Definition lines_text (l : list line) : text := flat_map line_text l.
Definition file_text (f : file) : text := lines_text (f_lines f) ++ f_tail f.

(** The closure [is_import]: crates/parsa_python_cst/src/ranges.rs:56-85 (initial_imports_end_code_index) *)
Fixpoint are_imports (first : bool) (l : list small) : bool :=
  match l with
  | [] => true
  | s :: l =>
      match s_what s with
      | StringExpression => first
      | Import _ _ => are_imports first l
      | Other => false
      end
  end.

(** crates/parsa_python_cst/src/ranges.rs:88-100 (initial_imports_end_code_index): the characters of the prefix from the end *)
Definition is_ascii_whitespace (c : ascii) : bool :=
  existsb (is_char c) [" "%char; "009"%char; newline; "012"%char; carriage_return].
Fixpoint scan (i last : nat) (reversed : text) : option nat :=
  match reversed with
  | [] => None
  | c :: reversed =>
      if is_char c newline then scan (S i) i reversed
      else if is_ascii_whitespace c then scan (S i) last reversed
      else Some last
  end.

(** The place before a statement with the prefix, which starts at [offset] *)
Definition end_at (first : bool) (offset : nat) (prefix : text) : nat :=
  if first then match scan 0 0 (rev prefix) with Some last => offset + length prefix - last | None => offset end
  else offset.

(** crates/parsa_python_cst/src/ranges.rs:54-104 [initial_imports_end_code_index] *)
Fixpoint imports_end (first : bool) (offset : nat) (lines : list line) (tail : text) : nat :=
  match lines with
  | [] => end_at first offset tail
  | l :: lines =>
      if are_imports first (l_smalls l) then imports_end false (offset + length (line_text l)) lines tail
      else end_at first offset (l_prefix l)
  end.
Definition initial_imports_end_code_index (f : file) : nat := imports_end true 0 (f_lines f) (f_tail f).

(** All imports with their start, end and kind: crates/zuban_python/src/file/name_binder.rs:621-647 (index_import_from, index_import_name) *)
Fixpoint small_imports (offset : nat) (l : list small) : list (nat * nat * option import_kind) :=
  match l with
  | [] => []
  | s :: l =>
      let start := offset + length (s_gap s) in
      let end_ := offset + length (small_text s) in
      match s_what s with
      | Import kind _ => (start, end_, kind) :: small_imports end_ l
      | _ => small_imports end_ l
      end
  end.
Fixpoint all_imports (offset : nat) (lines : list line) : list (nat * nat * option import_kind) :=
  match lines with
  | [] => []
  | l :: lines => small_imports (offset + length (l_prefix l)) (l_smalls l) ++ all_imports (offset + length (line_text l)) lines
  end.

Fixpoint find (c : ascii) (t : text) : option nat :=
  match t with
  | [] => None
  | d :: t => if is_char c d then Some 0 else option_map S (find c t)
  end.

(** The closure [newline_end_after_import]: crates/zuban_python/src/auto_imports.rs:343-351 (position_for_import) *)
Definition newline_end_after_import (code : text) (end_ : nat) : nat :=
  match find newline (skipn end_ code) with Some i => end_ + i + 1 | None => end_ end.

(** The loop; the flag tells of a newline at the start.
    crates/zuban_python/src/auto_imports.rs:318-363 [position_for_import] *)
Fixpoint through (code : text) (end_of_imports : nat) (kind : import_kind) (imports : list (nat * nat * option import_kind))
    (previous : option (import_kind * nat)) : nat * bool :=
  let finish := match previous with Some (k, p) => (p, less k kind) | None => (end_of_imports, false) end in
  match imports with
  | [] => finish
  | (start, end_, k) :: imports =>
      if end_of_imports <=? start then finish
      else
        match k with
        | None => through code end_of_imports kind imports previous
        | Some k =>
            if less kind k then
              match previous with Some (pk, p) => (p, less pk kind) | None => (start, false) end
            else through code end_of_imports kind imports (Some (k, newline_end_after_import code end_))
        end
  end.
Definition position_for_import (f : file) (kind : import_kind) : nat * bool :=
  through (file_text f) (initial_imports_end_code_index f) kind (all_imports 0 (f_lines f)) None.

(** The new statement: a name of a module, a module of a package, or a module *)
Inductive potential := NameOf (module name : text) | ModuleOf (package name : text) | Module (module : text).
Definition statement (p : potential) : text :=
  match p with
  | NameOf m n | ModuleOf m n => str "from " ++ m ++ str " import " ++ n
  | Module m => str "import " ++ m
  end.

(** crates/zuban_python/src/auto_imports.rs:248-316 [create_import_code_action], without the names that are added to an import *)
Definition starts_new_line (code : text) (pos : nat) : bool :=
  match nth_error code pos with Some c => is_char c newline || is_char c carriage_return | None => false end.
Definition create_import_code_action (f : file) (kind : import_kind) (p : potential) : nat * text :=
  let (pos, newline_at_start) := position_for_import f kind in
  (pos, (if newline_at_start then [newline] else []) ++ statement p ++ [newline]
        ++ if starts_new_line (file_text f) pos then [] else [newline]).
Definition apply_action (code : text) (action : nat * text) : text :=
  firstn (fst action) code ++ snd action ++ skipn (fst action) code.

(** ** Names that are added to an import *)

(** The children of the targets in brackets, each with the text after it *)
Definition child : Type := text * text.
Definition child_text (c : child) : text := fst c ++ snd c.
Inductive targets := Star | Bare (names : text) | Brackets (children : list child).
Definition targets_text (t : targets) : text :=
  match t with Star => str "*" | Bare n => n | Brackets cs => flat_map child_text cs end.

Definition starts_with_blank (t : text) : bool := match t with c :: _ => is_char c " "%char | [] => false end.

(** The code before, the targets and the addition, as one new text; None is the panic of an [unwrap].
    crates/parsa_python_cst/src/lib.rs:3238-3271 [insertion_point_for_new_name] *)
Definition add_name (t : targets) (name : text) : option text :=
  match t with
  | Star | Bare _ => Some (targets_text t ++ str ", " ++ name)
  | Brackets cs =>
      match rev cs with
      | last :: (code, suffix) :: before =>
          let front := flat_map child_text (rev before) ++ code in
          Some (if list_eq_dec ascii_dec code (str ",") then
                  match suffix with
                  | c :: suffix' =>
                      if starts_with_blank suffix then front ++ [c] ++ name ++ suffix' ++ child_text last
                      else front ++ str " " ++ name ++ suffix ++ child_text last
                  | [] => front ++ str " " ++ name ++ child_text last
                  end
                else front ++ str ", " ++ name ++ suffix ++ child_text last)
      | _ => None
      end
  end.
