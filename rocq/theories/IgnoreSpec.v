(** Which comments suppress a diagnostic, in terms of the text. *)
From Coq Require Import List NArith Arith Bool.
From Verif Require Import TextModel.
Import ListNotations.
Open Scope N_scope.

Definition newline (c : N) : Prop := c = 10 \/ c = 13.
Definition spaces (s : list N) : Prop := Forall (fun c => c = 32) s.

(** [p] is a part of [s] between neighbouring separators (or the ends of [s]). *)
Definition part (sep : N -> Prop) (s p : list N) : Prop :=
  exists a b, s = a ++ p ++ b /\ (a = [] \/ exists a' c, a = a' ++ [c] /\ sep c) /\ (b = [] \/ exists c b', b = c :: b' /\ sep c) /\ Forall (fun c => ~ sep c) p.
Definition line_of (region line : list N) : Prop := part newline region line.

(** What a comment says: everything is ignored, or the listed codes. *)
Inductive mark := Bare | Codes (l : list N).

(** "ignore" and what may follow: white space and codes in brackets; otherwise nothing, or white space and anything. *)
Definition ignore_word : list N := [105; 103; 110; 111; 114; 101].
Inductive with_codes : list N -> list N -> Prop :=
| in_brackets s1 codes s2 : spaces s1 -> codes <> [] -> spaces s2 -> with_codes (s1 ++ [91] ++ codes ++ [93] ++ s2) codes.
Inductive after_ignore : list N -> mark -> Prop :=
| after_codes rest codes : with_codes rest codes -> after_ignore rest (Codes codes)
| after_bare rest : (forall codes, ~ with_codes rest codes) -> (rest = [] \/ exists c r, rest = c :: r /\ (c = 32 \/ c = 9)) -> after_ignore rest Bare.

(** The text of a comment (after the number sign): "type:" or "zuban:", then "ignore". *)
Inductive keyword : list N -> Prop :=
| kw_type : keyword [116; 121; 112; 101; 58]
| kw_zuban : keyword [122; 117; 98; 97; 110; 58].
Inductive comment_text : list N -> mark -> Prop :=
| comment_ignore s1 kw s2 rest m : spaces s1 -> keyword kw -> spaces s2 -> after_ignore rest m ->
    comment_text (s1 ++ kw ++ s2 ++ ignore_word ++ rest) m.

(** A line carries the comment: from one number sign to the next or to the end of the line. *)
Definition carries (line : list N) (m : mark) : Prop :=
  exists pre body post, line = pre ++ [35] ++ body ++ post /\ ~ In 35 body /\ (post = [] \/ exists p, post = 35 :: p) /\ comment_text body m.

(** An element of a list of codes: between commas, without the spaces around it. *)
Definition listed (codes item : list N) : Prop :=
  exists s1 s2, spaces s1 /\ spaces s2 /\ part (eq 44) codes (s1 ++ item ++ s2) /\
    (forall c r, item = c :: r -> c <> 32) /\ (forall c r, item = r ++ [c] -> c <> 32).

(** The comment covers a diagnostic with this code and super code (a note has no code). *)
Definition covers (code super : option (list N)) (m : mark) : Prop :=
  match m with
  | Bare => True
  | Codes l => code = None \/ exists item, listed l item /\ (code = Some item \/ super = Some item)
  end.

(** The text from the start of a diagnostic to the end of the line on which it ends (at byte [end_]). *)
Definition region (code : list N) (start end_ : nat) (r : list N) : Prop :=
  exists pre r1 r2 post, code = pre ++ r1 ++ r2 ++ post /\ bytes pre = start /\ bytes (pre ++ r1) = end_ /\ r = r1 ++ r2 /\
    Forall (fun c => ~ newline c) r2 /\ (post = [] \/ exists c p, post = c :: p /\ newline c).

(** A line that the diagnostic touches: [before] and [after] are the rest of the first and of the last line. *)
Definition spans (code : list N) (start end_ : nat) (line : list N) : Prop :=
  exists pre before r1 r2 post, code = pre ++ before ++ r1 ++ r2 ++ post /\ bytes (pre ++ before) = start /\ bytes (pre ++ before ++ r1) = end_ /\
    (pre = [] \/ exists p c, pre = p ++ [c] /\ newline c) /\ Forall (fun c => ~ newline c) before /\
    Forall (fun c => ~ newline c) r2 /\ (post = [] \/ exists c p, post = c :: p /\ newline c) /\ line_of (before ++ r1 ++ r2) line.
