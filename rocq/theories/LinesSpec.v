(** Independent specification of lines, columns and positions in a text.
    Nothing here refers to the newline index of the implementation. *)
From Coq Require Import List NArith Arith Bool.
From Verif Require Import TextModel.
Import ListNotations.

Definition no_newline (s : text) : Prop := ~ In LF s /\ ~ In CR s.

(** The three line terminators. *)
Definition terminator (e : text) : Prop := e = [LF] \/ e = [CR; LF] \/ e = [CR].

(** [lines_of t ls]: [ls] is the decomposition of [t] into lines, each given as
    (content, terminator); the last line has no terminator.  A carriage return
    directly followed by a line feed is one terminator. *)
Inductive lines_of : text -> list (text * text) -> Prop :=
| lines_last s :
    no_newline s -> lines_of s [(s, [])]
| lines_more s e t ls :
    no_newline s -> terminator e ->
    (e = [CR] -> forall r, t <> LF :: r) ->
    lines_of t ls ->
    lines_of (s ++ e ++ t) ((s, e) :: ls).

(** The text of the first [l] lines with their terminators. *)
Fixpoint joined (ls : list (text * text)) : text :=
  match ls with
  | [] => []
  | (s, e) :: r => s ++ e ++ joined r
  end.

(** Byte offset of the start of line [l]. *)
Definition line_start (ls : list (text * text)) (l : nat) : nat :=
  bytes (joined (firstn l ls)).

(** Position encodings of the language server protocol. *)
Inductive encoding := U8 | U16 | U32.

(** Width of a text in an encoding. *)
Definition width (enc : encoding) (t : text) : nat :=
  match enc with U8 => bytes t | U16 => units16 t | U32 => length t end.

(** Characters of the basic multilingual plane (one UTF-16 unit). *)
Definition bmp (t : text) : Prop := Forall (fun c => (c < 65536)%N) t.

(** The lines as listed to the user: the content, plus the carriage return of a
    CRLF terminator; the empty text after a final terminator is not a line. *)
Fixpoint listed (ls : list (text * text)) : list text :=
  match ls with
  | [] => []
  | [(s, e)] => match s with [] => [] | _ => [s] end
  | (s, e) :: r => (s ++ removelast e) :: listed r
  end.

Fixpoint number_from {A} (n : nat) (l : list A) : list (nat * A) :=
  match l with [] => [] | x :: r => (n, x) :: number_from (S n) r end.
