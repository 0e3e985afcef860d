(** What [bool(x)] is, and what the type of [x] says about it *)
From Coq Require Import List NArith ZArith Bool.
From Verif Require Import TupleModel TupleSpec SubtypeModel SubtypeSpec NarrowIsModel.
Import ListNotations.
Open Scope N_scope.

Section Truth.
Context {V : Type}.
Variables (w : world V) (env : N -> V -> Prop).
Notation has := (has w env).
Variables (bool_of : V -> option bool) (len_of : V -> option N).   (* what [__bool__] and [__len__] of a value return, if there are such *)

(** [bool(v)]: [__bool__] is asked first, then [__len__] *)
Definition truth (v : V) : bool :=
  match bool_of v with
  | Some b => b
  | None => match len_of v with Some n => negb (n =? 0) | None => true end
  end.

(** The truth of a literal; [empty] is the text of [""] *)
Definition literal_truth (empty : N) (l : literal) : bool :=
  match l with LBool b => b | LInt n _ => negb (n =? 0) | LStr s | LBytes s => negb (s =? empty) end.

Definition is_number (l : literal) : Prop := match l with LBool _ | LInt _ _ => True | _ => False end.

(** The builtins *)
Record truth_laws (p : program) (empty : N) : Prop := mk_truth_laws {
  law_none : forall v, none_value w v -> truth v = false;
  law_literal : forall l v, literal_value w l v -> truth v = literal_truth empty l;
  law_tuple : forall v vs, tuple_value w v vs -> truth v = match vs with [] => false | _ => true end;
  law_bool : forall s v, instance w (bool_class p) s v -> literal_value w (LBool true) v \/ literal_value w (LBool false) v;
  law_enough : forall b v, literal_value w (LBool b) v -> instance w (bool_class p) [] v;
  law_zero : forall v, literal_value w (LInt 0 false) v -> instance w (int_class p) [] v;
  law_empty : forall v, literal_value w (LStr empty) v -> instance w (str_class p) [] v;
  law_empty_bytes : forall v, literal_value w (LBytes empty) v -> instance w (bytes_class p) [] v
}.

(** What the methods of a class (or of an enum) return is what they return for all of its values [s]. *)
Record as_declared (methods : bool -> returned) (empty : N) (s : V -> Prop) : Prop := mk_as_declared {
  law_bool_returns : forall l v, methods true = Always l -> is_number l -> s v -> bool_of v = Some (literal_truth empty l);
  law_len_returns : forall l v, methods false = Always l -> is_number l -> s v -> exists n, len_of v = Some n /\ negb (n =? 0) = literal_truth empty l
}.

(** There is no such method, for all the values [s].  That is not so for a class with a subclass that adds one. *)
Definition none_added (methods : bool -> returned) (s : V -> Prop) : Prop := methods true = NoMethod -> forall v, s v -> bool_of v = None.
Definition no_len_added (methods : bool -> returned) (s : V -> Prop) : Prop := methods false = NoMethod -> forall v, s v -> len_of v = None.

(** What a value that is inferred may be: its type, and its truth where that is known *)
Fixpoint describes (i : inferred) (v : V) : Prop :=
  match i with
  | Simple t None => has t v
  | Simple t (Some b) => has t v /\ truth v = b
  | OneOf l => Exists (fun P => P v) (map describes l)
  end.
End Truth.
