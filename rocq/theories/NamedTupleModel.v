(** * Named tuples that are made by a call

    The fields of [collections.namedtuple(...)] and [typing.NamedTuple(...)] as the type checker sees them, and the attributes of such a tuple.
    Texts are lists of code points.  What an expression is (a literal, a list) and its type are given; the parser is not modelled here. *)
From Coq Require Import NArith List Bool Arith Ascii String Decimal.
Import ListNotations.
Open Scope string_scope.
Open Scope list_scope.
Open Scope nat_scope.

Definition text := list N.
Fixpoint text_eqb (a b : text) : bool :=
  match a, b with [], [] => true | x :: a, y :: b => N.eqb x y && text_eqb a b | _, _ => false end.
Definition text_of (s : string) : text := List.map N_of_ascii (list_ascii_of_string s).
Definition mem (t : text) (l : list text) : bool := existsb (text_eqb t) l.

(** The issues that are reported *)
Inductive issue :=
| Duplicate (name : text) | InvalidFieldName (name : text) | StartsWithUnderscore (name : text) | UsedAKeyword (name : text)
| TooFewArguments | UnexpectedArguments | StringLiteralAsFirstArg | FirstArgumentMismatch (should is : text) | InvalidSecondArgument
| DefaultsShouldBeListOrTuple | ExpectedBoolForRename | UnexpectedKeyword (key : text) | TooManyArguments | TooManyDefaults
| StringLiteralExpectedAsItem | TupleExpectedAsField | StrAndTypeExpected | InvalidNameOfField | StarNotSupported.

(** [CallableParam] as far as it is used for named tuples: the name (None for the first one, which stands for the class), the type, and whether there is a default *)
Record param := mk_param { p_name : option text; p_type : nat; has_default : bool }.

(** What the grammar writes in quotes, as far as it could be an identifier.
    crates/parsa_python/src/lib.rs:457-459 (keywords_contain), crates/parsa_python/src/lib.rs:13-450 (create_grammar) *)
Definition grammar_keywords : list text := List.map text_of
  ["False"; "None"; "True"; "_"; "and"; "as"; "assert"; "async"; "await"; "break"; "case"; "class"; "continue"; "def"; "del"; "elif"; "else"; "except"; "finally"; "for"; "from"; "global"; "if"; "import";
   "in"; "is"; "lambda"; "match"; "nonlocal"; "not"; "or"; "pass"; "raise"; "return"; "try"; "type"; "while"; "with"; "yield"].
Definition keywords_contain (t : text) : bool := mem t grammar_keywords.

(** [format!("{}", n)] *)
Fixpoint digits (d : uint) : text :=
  match d with
  | Nil => [] | D0 d => 48%N :: digits d | D1 d => 49%N :: digits d | D2 d => 50%N :: digits d | D3 d => 51%N :: digits d | D4 d => 52%N :: digits d
  | D5 d => 53%N :: digits d | D6 d => 54%N :: digits d | D7 d => 55%N :: digits d | D8 d => 56%N :: digits d | D9 d => 57%N :: digits d
  end.
Definition format_number (n : nat) : text := digits (Nat.to_uint n).

Section Chars.
(** [char::is_alphabetic] and [char::is_alphanumeric] *)
Variables is_alphabetic is_alphanumeric : N -> bool.

(** crates/zuban_python/src/file/type_computation/named_tuple.rs:446-452 [is_identifier] *)
Definition is_identifier (s : text) : bool :=
  match s with
  | [] => false
  | c :: rest => (is_alphabetic c || N.eqb c 95) && forallb (fun c => is_alphanumeric c || N.eqb c 95) rest
  end.
Definition starts_with_underscore (s : text) : bool := match s with c :: _ => N.eqb c 95 | [] => false end.
Definition named (name : text) (p : param) : bool := match p_name p with Some n => text_eqb n name | None => false end.

(** The issue of a name, if there is one; the branches of crates/zuban_python/src/file/type_computation/named_tuple.rs:465-497 (add_named_tuple_param) *)
Definition field_issue (params : list param) (name : text) : option issue :=
  if existsb (named name) params then Some (Duplicate name)
  else if negb (is_identifier name) then Some (InvalidFieldName name)
  else if starts_with_underscore name then Some (StartsWithUnderscore name)
  else if keywords_contain name then Some (UsedAKeyword name)
  else None.
(** crates/zuban_python/src/file/type_computation/named_tuple.rs:454-503 [add_named_tuple_param] *)
Definition add_named_tuple_param (rename : bool) (params : list param) (name : text) (t : nat) : list param * list issue :=
  match field_issue params name with
  | Some i => (params ++ [mk_param (Some (95%N :: format_number (List.length params - 1))) t false], if rename then [] else [i])
  | None => (params ++ [mk_param (Some name) t false], [])
  end.
(** crates/zuban_python/src/file/type_computation/named_tuple.rs:505-509 [start_namedtuple_params] *)
Definition start_namedtuple_params : list param := [mk_param None 0 false].

(** The calls of [add_named_tuple_param] one after the other *)
Fixpoint add_all (rename : bool) (params : list param) (names : list (text * nat)) : list param * list issue :=
  match names with
  | [] => (params, [])
  | (n, t) :: names => let (ps, i) := add_named_tuple_param rename params n t in let (ps, j) := add_all rename ps names in (ps, i ++ j)
  end.

(** ** The string with the names *)

(** [str::split] with the separators comma and space *)
Fixpoint split (s : text) : list text :=
  match s with
  | [] => [[]]
  | c :: s => if N.eqb c 44 || N.eqb c 32 then [] :: split s else match split s with [] => [[c]] | p :: rest => (c :: p) :: rest end
  end.
(** The loop that makes slices of the parts; [width] is [char::len_utf8].
    crates/zuban_python/src/file/type_computation/named_tuple.rs:378-391 (new_collections_named_tuple) *)
Variable width : N -> nat.
Definition len (t : text) : nat := fold_right (fun c n => width c + n) 0 t.
Fixpoint slices (start : nat) (parts : list text) : list (nat * nat * text) :=
  match parts with
  | [] => []
  | part :: parts => (match part with [] => [] | _ => [(start, start + len part, part)] end) ++ slices (start + len part + 1) parts
  end.
Definition string_names (content : text) : list text := List.map snd (slices 0 (split content)).

(** ** [collections.namedtuple] *)

(** The first argument of the call *)
Inductive name_arg := NameMissing | NameNotPositional | NameNotString | NameString (content : text).
(** The second one: a list or tuple, where None is an element that is no string literal; one string literal; several strings; another atom; something else *)
Inductive fields_arg := FieldsMissing | FieldsNotPositional | FieldsNotAtom | Elements (l : list (option text)) | OneString (content : text) | SeveralStrings | OtherAtom.
(** Further arguments: [defaults=] with the number of expressions in the list or tuple, [rename=] with the literal *)
Inductive extra_arg := DefaultsArg (count : option nat) | RenameArg (value : option bool) | KeywordArg (key : text) | OtherArg.
Record call := mk_call { c_name : name_arg; c_assigned : option text; c_fields : fields_arg; c_extra : list extra_arg }.

(** crates/zuban_python/src/file/type_computation/named_tuple.rs:140-225 [check_named_tuple_name] *)
Definition check_named_tuple_name (c : call) : option text * list issue :=
  match c_name c with
  | NameMissing => (None, [TooFewArguments])
  | NameNotPositional => (None, [UnexpectedArguments])
  | NameNotString => (None, [StringLiteralAsFirstArg])
  | NameString is =>
    let (name, issues) := match c_assigned c with
      | Some should => if text_eqb should is then (is, []) else (should, [FirstArgumentMismatch should is])
      | None => (is, []) end in
    match c_fields c with
    | FieldsMissing => (None, issues ++ [TooFewArguments])
    | FieldsNotPositional | FieldsNotAtom => (None, issues ++ [InvalidSecondArgument])
    | _ => (Some name, issues)
    end
  end.

(** The loop over the further arguments: the values of [rename] and [defaults], None for the return.
    crates/zuban_python/src/file/type_computation/named_tuple.rs:299-342 (new_collections_named_tuple) *)
Fixpoint read_extra (rename : bool) (defaults : option nat) (args : list extra_arg) : option (bool * option nat) * list issue :=
  match args with
  | [] => (Some (rename, defaults), [])
  | DefaultsArg None :: _ => (None, [DefaultsShouldBeListOrTuple])
  | DefaultsArg (Some n) :: args => read_extra rename (Some n) args
  | RenameArg (Some b) :: args => read_extra b defaults args
  | RenameArg None :: args => let (r, i) := read_extra rename defaults args in (r, ExpectedBoolForRename :: i)
  | KeywordArg k :: args => let (r, i) := read_extra rename defaults args in (r, UnexpectedKeyword k :: i)
  | OtherArg :: args => let (r, i) := read_extra rename defaults args in (r, TooManyArguments :: i)
  end.

(** crates/zuban_python/src/file/type_computation/named_tuple.rs:356-373 (add_from_iterator); the type of a field is 0, which is Any *)
Fixpoint add_elements (rename : bool) (params : list param) (l : list (option text)) : list param * list issue :=
  match l with
  | [] => (params, [])
  | None :: l => let (ps, j) := add_elements rename params l in (ps, StringLiteralExpectedAsItem :: j)
  | Some n :: l => let (ps, i) := add_named_tuple_param rename params n 0 in let (ps, j) := add_elements rename ps l in (ps, i ++ j)
  end.

Definition set_default (p : param) : param := mk_param (p_name p) (p_type p) true.
(** crates/zuban_python/src/file/type_computation/named_tuple.rs:409-420 (new_collections_named_tuple) *)
Definition apply_defaults (defaults : option nat) (params : list param) : list param * list issue :=
  match defaults with
  | None => (params, [])
  | Some count =>
    let members := List.length params - 1 in
    let skip := if Nat.ltb members count then 0 else members - count in
    (firstn (skip + 1) params ++ List.map set_default (skipn (skip + 1) params), if Nat.ltb members count then [TooManyDefaults] else [])
  end.

(** crates/zuban_python/src/file/type_computation/named_tuple.rs:290-431 [new_collections_named_tuple] *)
Definition new_collections_named_tuple (c : call) : option (text * list param) * list issue :=
  match check_named_tuple_name c with
  | (None, i) => (None, i)
  | (Some name, i1) =>
    match read_extra false None (c_extra c) with
    | (None, i2) => (None, i1 ++ i2)
    | (Some (rename, defaults), i2) =>
      let found := match c_fields c with
        | Elements l => Some (add_elements rename start_namedtuple_params l)
        | OneString s => Some (add_all rename start_namedtuple_params (List.map (fun n => (n, 0)) (string_names s)))
        | SeveralStrings => Some (start_namedtuple_params, [InvalidSecondArgument])
        | _ => None
        end in
      match found with
      | None => (None, i1 ++ i2 ++ [InvalidSecondArgument])
      | Some (params, i3) => let (params, i4) := apply_defaults defaults params in (Some (name, params), i1 ++ i2 ++ i3 ++ i4)
      end
    end
  end.

(** ** [typing.NamedTuple] *)

(** An element of the list: a star or no tuple, a tuple with fewer than two elements, one where the name is starred or no string, one where the type is starred,
    or a name with a type and [more] further elements *)
Inductive element := NoTuple | TooShort | BadName | StarType | Field (name : text) (t : nat) (more : nat).
(** crates/zuban_python/src/file/type_computation/named_tuple.rs:36-103 [compute_named_tuple_initializer] *)
Fixpoint initializer (params : list param) (l : list element) : option (list param) * list issue :=
  match l with
  | [] => (Some params, [])
  | NoTuple :: _ => (None, [TupleExpectedAsField])
  | TooShort :: _ => (None, [StrAndTypeExpected])
  | BadName :: _ => (None, [InvalidNameOfField])
  | StarType :: _ => (None, [StarNotSupported])
  | Field n t _ :: l => let (ps, i) := add_named_tuple_param false params n t in let (r, j) := initializer ps l in (r, i ++ j)
  end.
Definition compute_named_tuple_initializer (l : list element) : option (list param) * list issue := initializer start_namedtuple_params l.
End Chars.

(** ** The attributes *)

(** crates/zuban_python/src/type_/named_tuple.rs:68-71 [params], where [new] is the list of the parameters of [__new__] *)
Definition params (new : list param) : list param := tl new.
(** crates/zuban_python/src/type_/named_tuple.rs:73-77 [search_param] *)
Definition search_param (new : list param) (name : text) : option param := find (named name) (params new).
(** crates/zuban_python/src/type_/named_tuple.rs:90-101 [as_tuple] *)
Definition as_tuple (new : list param) : list nat := List.map p_type (params new).
(** The names that have a branch of their own; [minor] is the version of Python 3.
    crates/zuban_python/src/type_/named_tuple.rs:207-313 (lookup_internal) *)
Definition own_branch (minor : nat) (name : text) : bool :=
  mem name (List.map text_of ["__new__"; "_replace"; "_asdict"; "_make"; "_fields"; "_field_defaults"; "_field_types"; "_source"; "__mul__"; "__rmul__"; "__add__"])
  || (Nat.leb 13 minor && text_eqb name (text_of "__replace__")) || (Nat.leb 10 minor && text_eqb name (text_of "__match_args__")).
Inductive looked_up := OwnBranch | FieldType (t : nat) | NoAttribute.
(** crates/zuban_python/src/type_/named_tuple.rs:172-324 [lookup_internal] *)
Definition lookup_internal (minor : nat) (new : list param) (name : text) : looked_up :=
  if own_branch minor name then OwnBranch else match search_param new name with Some p => FieldType (p_type p) | None => NoAttribute end.
(** The elements of the types of [_fields] and [__match_args__], and the parameters of [_replace]; crates/zuban_python/src/type_/named_tuple.rs:180-206 (replace_method) *)
Definition match_args (new : list param) : list (option text) := List.map p_name (params new).
Definition replace_params (new : list param) : list param := List.map set_default (params new).
