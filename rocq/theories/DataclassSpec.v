(** What Python does: the decorator [dataclass] and [replace] of the module [dataclasses] of CPython 3.12.  The only thing shared with the model is the
    syntax of the program. *)
From Coq Require Import List NArith Bool.
From Verif Require Import DataclassModel.
Import ListNotations.
Open Scope N_scope.

(** ** Fields *)
Record pyfield := mk_pyfield { f_name : N; f_type : N; f_kind : field_kind; f_kw : bool; f_init : bool; f_default : bool }.

(** A dictionary keeps the order in which keys were first added. *)
Definition same_name (f g : pyfield) : bool := f_name f =? f_name g.
Definition py_set (d : list pyfield) (f : pyfield) : list pyfield :=
  if existsb (same_name f) d then map (fun g => if same_name f g then f else g) d else d ++ [f].
Definition py_update (d fs : list pyfield) : list pyfield := fold_left py_set fs d.

(** The arguments of [field(...)] *)
Fixpoint init_arg (args : list field_arg) : bool :=
  match args with [] => true | ArgInit (Some b) :: _ => b | _ :: args => init_arg args end.
Fixpoint kw_only_arg (args : list field_arg) : option bool :=
  match args with [] => None | ArgKwOnly (Some b) :: _ => Some b | _ :: args => kw_only_arg args end.
Definition is_default_arg (a : field_arg) : bool := match a with ArgDefault | ArgDefaultFactory => true | _ => false end.

(** [_get_field]; [attribute] says which names are attributes of the class, and [kw] what [kw_only] is without an argument. *)
Definition get_field (attribute : N -> bool) (kw : bool) (a : annotated) : pyfield :=
  match a_right a with
  | FieldCall args =>
      mk_pyfield (a_name a) (a_type a) (a_kind a) (match kw_only_arg args with Some b => b | None => kw end) (init_arg args) (existsb is_default_arg args)
  | Expression => mk_pyfield (a_name a) (a_type a) (a_kind a) kw true true
  | Nothing => mk_pyfield (a_name a) (a_type a) (a_kind a) kw true (attribute (a_name a))
  end.

(** The fields of a body, in which [_: KW_ONLY] makes the following ones keyword-only *)
Fixpoint own_fields (attribute : N -> bool) (kw : bool) (body : list annotated) : list pyfield :=
  match body with
  | [] => []
  | a :: body =>
      match a_kind a with
      | KwOnlyMarker => own_fields attribute true body
      | _ => get_field attribute kw a :: own_fields attribute kw body
      end
  end.

(** Whether a body makes a name an attribute of the class.  [dataclass] removes those that are a [field()] without a [default]. *)
Definition assigned (c : class) (a : annotated) : bool :=
  match a_right a with
  | Nothing => false
  | Expression => true
  | FieldCall args => negb (is_dataclass c) || existsb (fun x => match x with ArgDefault => true | _ => false end) args
  end.
Definition defines (c : class) (name : N) : bool :=
  existsb (fun a => (a_name a =? name) && assigned c a) (body c) || existsb (N.eqb name) (others c).

Section Program.
Variable program : list class.

Definition base_defines (name : N) (i : nat) : bool := match nth_error program i with Some b => defines b name | None => false end.
Definition attribute_of (c : class) (name : N) : bool := defines c name || existsb (base_defines name) (mro c).

Section Fields.
(** [__dataclass_fields__] of each class *)
Variable fields : nat -> option (list pyfield).

(** A class that is no dataclass gets those of the first one in its MRO. *)
Fixpoint first_dataclass (classes : list nat) : option nat :=
  match classes with
  | [] => None
  | i :: classes =>
      match nth_error program i with
      | Some c => if is_dataclass c then Some i else first_dataclass classes
      | None => first_dataclass classes
      end
  end.
Definition inherited_fields (classes : list nat) : option (list pyfield) :=
  match first_dataclass classes with Some i => fields i | None => None end.

Definition add_fields (d : list pyfield) (base : nat) : list pyfield :=
  match fields base with Some e => py_update d e | None => d end.
Definition process_class (c : class) : list pyfield :=
  py_update (fold_left add_fields (rev (mro c)) []) (own_fields (attribute_of c) (opt_kw_only c) (body c)).

Definition are_fields : Prop := forall i c, nth_error program i = Some c ->
  fields i = if is_dataclass c then Some (process_class c) else inherited_fields (mro c).
End Fields.
End Program.

(** ** [__init__] *)
Definition in_init (f : pyfield) : bool := match f_kind f with Plain | InitVar => f_init f | _ => false end.
Definition std_fields (d : list pyfield) : list pyfield := filter (fun f => in_init f && negb (f_kw f)) d.
Definition kw_fields (d : list pyfield) : list pyfield := filter (fun f => in_init f && f_kw f) d.

Definition param_of (f : pyfield) : param := mk_param (f_name f) (f_type f) (if f_kw f then KeywordOnly else PositionalOrKeyword) (f_default f).
Definition py_init (d : list pyfield) : list param := map param_of (std_fields d ++ kw_fields d).

(** TypeError: a field without a default after one with a default *)
Definition default_error (d : list pyfield) : Prop :=
  exists before f between g after, std_fields d = before ++ f :: between ++ g :: after /\ f_default f = true /\ f_default g = false.

(** TypeError: KW_ONLY twice *)
Definition is_marker (a : annotated) : bool := match a_kind a with KwOnlyMarker => true | _ => false end.
Definition marker_error (body : list annotated) : Prop := exists before a between b after,
  body = before ++ a :: between ++ b :: after /\ is_marker a = true /\ is_marker b = true.

(** ** [__match_args__], [__post_init__] and [__slots__] *)
Definition py_match_args (d : list pyfield) : list N := map f_name (std_fields d).
Definition is_init_var (f : pyfield) : bool := match f_kind f with InitVar => true | _ => false end.
Definition py_post_init (d : list pyfield) : list (N * N) := map (fun f => (f_name f, f_type f)) (filter is_init_var d).
Definition is_plain (f : pyfield) : bool := match f_kind f with Plain => true | _ => false end.
Definition py_slots (inherited : list N) (d : list pyfield) : list N :=
  filter (fun n => negb (existsb (N.eqb n) inherited)) (map f_name (filter is_plain d)).

(** ** [replace(x, name=..., ...)] does not raise an error *)
Definition py_replace (d : list pyfield) (given : list N) : Prop :=
  (forall n, In n given -> exists f, In f d /\ f_name f = n /\ in_init f = true) /\
  (forall f, In f d -> in_init f = true -> is_init_var f = true -> f_default f = false -> In (f_name f) given).
(** A call with these keywords fits keyword-only parameters. *)
Definition call_fits (ps : list param) (given : list N) : Prop :=
  (forall n, In n given -> exists p, In p ps /\ p_name p = n) /\ (forall p, In p ps -> p_default p = false -> In (p_name p) given).
