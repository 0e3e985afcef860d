(** What a file with an added import is: the lines of Python files and the statements in them. *)
From Coq Require Import Ascii String List Bool PeanoNat.
From Verif Require Import AutoImportModel.
Import ListNotations.
Open Scope nat_scope.
Open Scope list_scope.

Definition blank (c : ascii) : Prop := In c [" "%char; "009"%char; "012"%char; carriage_return].

(** A line without a statement: blanks and a comment *)
Definition empty_line (t : text) : Prop :=
  exists blanks comment, t = blanks ++ comment /\ Forall blank blanks
    /\ (comment = [] \/ exists c, comment = "#"%char :: c) /\ ~ In newline comment.
Inductive trivia : text -> Prop :=
| Trivia_nil : trivia []
| Trivia_line : forall t rest, empty_line t -> trivia rest -> trivia (t ++ newline :: rest).

(** A semicolon between blanks *)
Definition separator (t : text) : Prop := exists a b, t = a ++ ";"%char :: b /\ Forall blank a /\ Forall blank b.

Record line_ok (l : line) : Prop := Line_ok
  { ok_prefix : trivia (l_prefix l);
    ok_smalls : exists s others, l_smalls l = s :: others /\ s_gap s = [] /\ Forall (fun o => separator (s_gap o)) others;
    ok_rest : ~ In newline (l_rest l);
    ok_newline : l_newline l = [newline] \/ l_newline l = [carriage_return; newline] \/ l_newline l = [carriage_return] }.

Definition file_ok (f : file) : Prop :=
  Forall line_ok (f_lines f) /\ exists t last, f_tail f = t ++ last /\ trivia t /\ empty_line last.

(** The statements, without the text between them *)
Definition statements (f : file) : list (text * what) :=
  map (fun s => (s_code s, s_what s)) (flat_map l_smalls (f_lines f)).

Definition imported (s : small) : Prop := match s_what s with Import _ _ => True | _ => False end.

(** After an import, the line ends with its first newline. *)
Definition tidy (l : line) : Prop :=
  forall a s b, l_smalls l = a ++ s :: b -> imported s -> ~ In newline (smalls_text b) /\ l_newline l <> [carriage_return].

(** The names of targets in brackets *)
Inductive listed : list child -> list text -> Prop :=
| Listed_one : forall n g, n <> str "," -> listed [(n, g)] [n]
| Listed_comma : forall n g h, n <> str "," -> listed [(n, g); (str ",", h)] [n]
| Listed_more : forall n g h cs ns, n <> str "," -> listed cs ns -> listed ((n, g) :: (str ",", h) :: cs) (n :: ns).
Definition in_brackets (cs : list child) (ns : list text) : Prop :=
  exists g inner last, cs = (str "(", g) :: inner ++ [(str ")", last)] /\ listed inner ns.
