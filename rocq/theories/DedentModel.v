(** Model of the cleaning of docstrings: [dedent_cow] and [clean_docstring]. *)
From Coq Require Import List NArith Arith Bool.
From Verif Require Import TextModel PathModel.
Import ListNotations.
Open Scope nat_scope.

(** [char::is_whitespace] of the standard library (the Unicode property White_Space). *)
Definition white (c : char) : bool :=
  ((9 <=? c) && (c <=? 13) || (c =? 32) || (c =? 133) || (c =? 160) || (c =? 5760)
   || (8192 <=? c) && (c <=? 8202) || (c =? 8232) || (c =? 8233) || (c =? 8239) || (c =? 8287) || (c =? 12288))%N.

(** [str::trim_start]. *)
Fixpoint trim_start (t : text) : text :=
  match t with
  | [] => []
  | c :: r => if white c then trim_start r else t
  end.

(** [str::trim]. *)
Definition trim (t : text) : text := rev (trim_start (rev (trim_start t))).

(** [[&str]::join("\n")]. *)
Fixpoint join_lines (ls : list text) : text :=
  match ls with
  | [] => []
  | [l] => l
  | l :: r => l ++ LF :: join_lines r
  end.

(** crates/utils/src/lib.rs:240-262 [dedent_cow], the first loop; [None] is [usize::MAX]. *)
Fixpoint min_indent (ls : list text) (indent : option nat) : option nat :=
  match ls with
  | [] => indent
  | l :: r =>
      min_indent r
        (if match trim l with [] => true | _ => false end then indent
         else let here := bytes l - bytes (trim_start l) in
              Some (match indent with Some i => Nat.min i here | None => here end))
  end.

(** The closure for every line. *)
Definition cut (indent : nat) (l : text) : res text :=
  if indent <=? bytes l then or_panic (slice l indent (bytes l)) else Ok l.

Fixpoint cut_all (indent : nat) (ls : list text) : res (list text) :=
  match ls with
  | [] => Ok []
  | l :: r => bind (cut indent l) (fun l => bind (cut_all indent r) (fun r => Ok (l :: r)))
  end.

(** crates/utils/src/lib.rs:240-262 [dedent_cow]. *)
Definition dedent (s : text) : res text :=
  let lines := split LF s in
  match min_indent lines None with
  | None => Ok s
  | Some indent => bind (cut_all indent lines) (fun ls => Ok (join_lines ls))
  end.

(** [str::find] with a string: the byte index of the first occurrence. *)
Fixpoint starts_with (p t : text) : bool :=
  match p, t with
  | [], _ => true
  | a :: p, b :: t => (a =? b)%N && starts_with p t
  | _ :: _, [] => false
  end.

Fixpoint find_from (p t : text) (at_ : nat) : option nat :=
  if starts_with p t then Some at_
  else match t with
       | [] => None
       | c :: r => find_from p r (at_ + utf8_len c)
       end.

(** crates/parsa_python_cst/src/strings.rs:287-293 [trim_string_in_place]. *)
Definition trim_string_in_place (s : text) : res text :=
  let trimmed := trim s in
  bind (or_panic (find_from trimmed s 0)) (fun start =>
    let end_ := start + bytes trimmed in
    bind (or_panic (take_bytes s end_)) (fun s =>
      or_panic (drop_bytes s start))).

(** crates/parsa_python_cst/src/strings.rs:275-284 [clean_docstring], for the value of the literal.  The text stays as it is if it is
    [Cow::Borrowed] after [dedent_cow]: if all the lines are blank and the value was a slice of the source ([borrowed]). *)
Definition clean_docstring (borrowed : bool) (s : text) : res text :=
  match min_indent (split LF s) None with
  | None => if borrowed then Ok s else trim_string_in_place s
  | Some _ => bind (dedent s) trim_string_in_place
  end.
