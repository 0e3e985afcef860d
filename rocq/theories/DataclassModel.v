(** What zuban takes to be the [__init__] of a dataclass, and what follows from it: [__match_args__], [__post_init__], [__slots__] and
    [dataclasses.replace].  crates/zuban_python/src/type_/dataclass.rs

    Names and types are numbers.  Simplified: there are no type variables, descriptors, converters, type aliases, dataclass_transform or bases
    that are not known, and a name is annotated at most once in a class body. *)
From Coq Require Import List NArith Bool.
Import ListNotations.
Open Scope N_scope.

(** ** The program *)
(** The annotation of a name in a class body *)
Inductive field_kind := Plain | InitVar | ClassVar | KwOnlyMarker.
(** The arguments of [field(...)]; a boolean that is not written as True or False is None *)
Inductive field_arg := ArgDefault | ArgDefaultFactory | ArgKwOnly (b : option bool) | ArgInit (b : option bool) | ArgOther (key : N).
Inductive right_side := Nothing | Expression | FieldCall (args : list field_arg).
Record annotated := mk_annotated { a_name : N; a_type : N; a_kind : field_kind; a_right : right_side }.

(** [mro] are the other classes of the MRO, as positions in the list of all classes; [others] are names in the body that are not annotated *)
Record class := mk_class {
  is_dataclass : bool; opt_kw_only : bool; opt_frozen : bool; mro : list nat; body : list annotated; others : list N
}.

(** ** Fields *)
(** crates/zuban_python/src/type_/dataclass.rs:578-585 [FieldOptions] *)
Record field_options := mk_field_options { has_default : bool; kw_only : option bool; init : bool }.

Definition default_options : field_options := mk_field_options false None true.

(** One round of the loop in crates/zuban_python/src/type_/dataclass.rs:672-753 [field_options_from_args] *)
Definition apply_arg (o : field_options) (a : field_arg) : field_options :=
  match a with
  | ArgDefault | ArgDefaultFactory => mk_field_options true (kw_only o) (init o)
  | ArgKwOnly (Some b) => mk_field_options (has_default o) (Some b) (init o)
  | ArgInit (Some b) => mk_field_options (has_default o) (kw_only o) b
  | _ => o
  end.

(** crates/zuban_python/src/type_/dataclass.rs:599-627 [calculate_field_arg] *)
Definition calculate_field_arg (r : right_side) : field_options :=
  match r with
  | FieldCall args => fold_left apply_arg args default_options
  | Expression => mk_field_options true None true
  | Nothing => mk_field_options false None true
  end.

(** ** Parameters *)
Inductive param_kind := PositionalOrKeyword | KeywordOnly.
Record param := mk_param { p_name : N; p_type : N; p_kind : param_kind; p_default : bool }.

Inductive issue := NoDefaultAfterDefault | MultipleKwOnly | NonFrozenFromFrozen | FrozenFromNonFrozen.

Record inits := mk_inits { init_params : list param; post_init_params : list (N * N); non_init_fields : list N; issues : list issue }.

Definition is_keyword_only (p : param) : bool := match p_kind p with KeywordOnly => true | PositionalOrKeyword => false end.

(** The loop of [add_param] in crates/zuban_python/src/type_/dataclass.rs:199-552 [calculate_init_of_dataclass]: the place of a parameter with that name
    and that of the first one that is keyword-only *)
Fixpoint find_name (ps : list param) (name : N) (i : nat) : option nat :=
  match ps with
  | [] => None
  | p :: ps => if p_name p =? name then Some i else find_name ps name (S i)
  end.
Fixpoint first_kwarg (ps : list param) (i : nat) : option nat :=
  match ps with
  | [] => None
  | p :: ps => if is_keyword_only p then Some i else first_kwarg ps (S i)
  end.

(** [add_param] in crates/zuban_python/src/type_/dataclass.rs:199-552 [calculate_init_of_dataclass] *)
Definition add_param (ps : list param) (new : param) : list param * bool :=
  match find_name ps (p_name new) 0 with
  | Some i => (firstn i ps ++ new :: skipn (S i) ps, false)
  | None =>
      (match (if is_keyword_only new then None else first_kwarg ps 0) with
       | Some i => firstn i ps ++ new :: skipn i ps
       | None => ps ++ [new]
       end, true)
  end.

(** The loops over the MRO and the parameters of the bases in crates/zuban_python/src/type_/dataclass.rs:199-552 [calculate_init_of_dataclass] *)
Definition add_base_param (post : list (N * N)) (st : list param * list (N * N)) (new : param) : list param * list (N * N) :=
  let '(params, post_params) := st in
  let '(params, is_new) := add_param params new in
  (params,
   if is_new then
     match find (fun q => fst q =? p_name new) post with Some q => post_params ++ [q] | None => post_params end
   else post_params).

Definition add_base (super : nat -> option inits) (st : list param * list (N * N)) (base : nat) : list param * list (N * N) :=
  match super base with
  | Some i => fold_left (add_base_param (post_init_params i)) (init_params i) st
  | None => st
  end.

Definition frozen_issue (frozen : bool) (base : class) : list issue :=
  if is_dataclass base && negb (eqb frozen (opt_frozen base)) then [if frozen then FrozenFromNonFrozen else NonFrozenFromFrozen] else [].

(** The loop over the fields in crates/zuban_python/src/type_/dataclass.rs:199-552 [calculate_init_of_dataclass] *)
Record fields_state := mk_fields_state {
  s_params : list param; s_post : list (N * N); s_non_init : list N; s_marker : bool; s_issues : list issue
}.

Definition add_field (class_kw_only : bool) (s : fields_state) (a : annotated) : fields_state :=
  match a_kind a with
  | ClassVar => s
  | KwOnlyMarker =>
      if s_marker s then mk_fields_state (s_params s) (s_post s) (s_non_init s) true (s_issues s ++ [MultipleKwOnly])
      else mk_fields_state (s_params s) (s_post s) (s_non_init s) true (s_issues s)
  | kind =>
      let o := calculate_field_arg (a_right a) in
      let kw := match kw_only o with Some b => b | None => class_kw_only || s_marker s end in
      let post := match kind with InitVar => s_post s ++ [(a_name a, a_type a)] | _ => s_post s end in
      if init o then
        mk_fields_state (fst (add_param (s_params s) (mk_param (a_name a) (a_type a) (if kw then KeywordOnly else PositionalOrKeyword) (has_default o))))
          post (s_non_init s) (s_marker s) (s_issues s)
      else mk_fields_state (s_params s) post (s_non_init s ++ [a_name a]) (s_marker s) (s_issues s)
  end.

(** The check of the order of defaults in crates/zuban_python/src/type_/dataclass.rs:199-552 [calculate_init_of_dataclass]; [i] is the place of the second parameter *)
Fixpoint latest_default_issue (ps : list param) (i : nat) (latest : option nat) : option nat :=
  match ps with
  | prev :: ((next :: _) as rest) =>
      latest_default_issue rest (S i) (if negb (is_keyword_only next) && p_default prev && negb (p_default next) then Some i else latest)
  | _ => latest
  end.

Definition without_default (p : param) : param := mk_param (p_name p) (p_type p) (p_kind p) false.

(** crates/zuban_python/src/type_/dataclass.rs:199-552 [calculate_init_of_dataclass]; [super] are the results for the classes before *)
Definition calculate_init_of_dataclass (program : list class) (super : nat -> option inits) (c : class) : inits :=
  let bases := rev (mro c) in
  let '(params, post) := fold_left (add_base super) bases ([], []) in
  let frozen := flat_map (fun i => match nth_error program i with Some b => frozen_issue (opt_frozen c) b | None => [] end) bases in
  let s := fold_left (add_field (opt_kw_only c)) (body c) (mk_fields_state params post [] false []) in
  match latest_default_issue (s_params s) 1 None with
  | Some i =>
      mk_inits (map without_default (firstn i (s_params s)) ++ skipn i (s_params s)) (s_post s) (s_non_init s) (frozen ++ s_issues s ++ [NoDefaultAfterDefault])
  | None => mk_inits (s_params s) (s_post s) (s_non_init s) (frozen ++ s_issues s)
  end.

(** All classes, one after the other; crates/zuban_python/src/type_/dataclass.rs:1035-1054 [ensure_calculated_dataclass] asks for those of the bases first *)
Definition lookup_inits (known : list (option inits)) (i : nat) : option inits :=
  match nth_error known i with Some r => r | None => None end.
Definition add_class (program : list class) (known : list (option inits)) (c : class) : list (option inits) :=
  known ++ [if is_dataclass c then Some (calculate_init_of_dataclass program (lookup_inits known) c) else None].
Definition inits_of (program : list class) : nat -> option inits :=
  lookup_inits (fold_left (add_class program) program []).

(** ** What follows from the parameters *)
Fixpoint take_positional (ps : list param) : list N :=
  match ps with
  | [] => []
  | p :: ps => if is_keyword_only p then [] else p_name p :: take_positional ps
  end.

(** crates/zuban_python/src/type_/dataclass.rs:1176-1193 [dunder_match_args_tuple] *)
Definition match_args (i : inits) : list N := take_positional (init_params i).

(** crates/zuban_python/src/type_/dataclass.rs:1130-1136 [slots_as_lookup_result]: the length of the tuple *)
Definition slots_length (i : inits) : nat := length (init_params i).

(** crates/zuban_python/src/type_/dataclass.rs:1208-1270 [lookup_on_dataclass]: whether there is an attribute with the name of a parameter.  The class of the
    first annotation of the name is what the instance has; an InitVar is no attribute. *)
Fixpoint first_annotation (program : list class) (classes : list nat) (name : N) : option annotated :=
  match classes with
  | [] => None
  | i :: classes =>
      match nth_error program i with
      | Some c =>
          match find (fun a => a_name a =? name) (body c) with
          | Some a => Some a
          | None => first_annotation program classes name
          end
      | None => first_annotation program classes name
      end
  end.
Definition has_attribute (program : list class) (self : nat) (c : class) (name : N) (i : inits) : bool :=
  if opt_frozen c && existsb (fun p => p_name p =? name) (init_params i) then true
  else
    match first_annotation program (self :: mro c) name with
    | Some a => match a_kind a with InitVar => false | _ => true end
    | None => false
    end.

(** crates/zuban_python/src/type_/dataclass.rs:797-891 [dataclasses_replace]: the parameters after the first one *)
Definition replace_params (program : list class) (self : nat) (c : class) (i : inits) : list param :=
  map (fun p => mk_param (p_name p) (p_type p) KeywordOnly (has_attribute program self c (p_name p) i || p_default p)) (init_params i).
