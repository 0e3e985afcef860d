(** Model of the members of an enum: crates/zuban_python/src/file/type_computation/class.rs, crates/zuban_python/src/type_/enum_.rs,
    crates/zuban_python/src/file/type_computation/enum_.rs.

    Simplifications: the body of the class is a list of statements without control flow, an assignment has one name as its target, the
    arguments of calls are single positional ones, the decorators are names.  Dataclasses, the values of members and the issues about
    annotations and about [__members__] are left out. *)
From Coq Require Import Ascii String List Bool NArith.
Import ListNotations.
Open Scope string_scope.
Open Scope list_scope.

Definition name := list ascii.
Definition name_dec : forall a b : name, {a = b} + {a <> b} := list_eq_dec ascii_dec.
Definition same (a b : name) : bool := if name_dec a b then true else false.

Fixpoint starts_with (p n : name) : bool :=
  match p, n with
  | [], _ => true
  | c :: p, d :: n => if ascii_dec c d then starts_with p n else false
  | _ :: _, [] => false
  end.
Definition ends_with (p n : name) : bool := starts_with (rev p) (rev n).
Definition text : string -> name := list_ascii_of_string.

(** What an expression gives when the program runs.  The code under test does not know these; they are part of the syntax below only
    where the checker does not look into the expression. *)
Inductive object :=
| Plain (v : N)            (* equal values have equal numbers *)
| Descriptor (v : N)       (* a function, property, classmethod, ... *)
| Nested (v : N)           (* a class of the body of the enum *)
| MemberOf (o : object)    (* enum.member(o) *)
| NonmemberOf (o : object). (* enum.nonmember(o) *)

(** The callables and decorators the checker knows; a name of another class, of a function *)
Inductive callee := Member | Nonmember | Builtin (* classmethod, staticmethod *).
Inductive decorator := Known (c : callee) | OtherClass (gives : object) | OtherFunction (gives : object).

Inductive expression :=
| Lambda (v : N)
| Call (f : callee) (argument : expression)
| Name (n : name)
| Other (gives : object).

Inductive statement :=
| Assign (n : name) (e : expression)              (* n = e, n: T = e *)
| Declare (n : name)                              (* n: T *)
| Function (n : name) (decorators : list decorator) (v : N)
| Class (n : name) (decorators : list decorator) (v : N)
| Bind (n : name) (gives : object)                (* an import, the target of a loop, ... *)
| Ignore (names : list name).                     (* _ignore_ = names *)

Definition name_of (s : statement) : name :=
  match s with
  | Assign n _ | Declare n | Function n _ _ | Class n _ _ | Bind n _ => n
  | Ignore _ => text "_ignore_"
  end.
Definition bound (earlier : list statement) (n : name) : bool := existsb (fun s => same (name_of s) n) earlier.

(** crates/zuban_python/src/file/type_computation/class.rs:1326-1329 (enum_members) *)
Definition excluded (n : name) : bool :=
  starts_with (text "_") n && (ends_with (text "_") n || starts_with (text "__") n).

Inductive verdict := IsMember | IsAlias (target : name) | NoMember.

Section Version.
(** The minor version of Python 3: enum.member and enum.nonmember are there since 3.11 (crates/zuban_python/src/python_state.rs, enum_nonmember_node_ref). *)
Variable minor : N.
Definition knows_nonmember : bool := (11 <=? minor)%N.

(** The closure search_decorated_for: the first decorator that is a class decides.
    crates/zuban_python/src/file/type_computation/class.rs:1349-1369 (enum_members) *)
Fixpoint first_class (ds : list decorator) : option (option callee) :=
  match ds with
  | [] => None
  | Known c :: _ => Some (Some c)
  | OtherClass _ :: _ => Some None
  | OtherFunction _ :: ds => first_class ds
  end.
Definition decorated_with_member (ds : list decorator) : bool :=
  knows_nonmember && match first_class ds with Some (Some Member) => true | _ => false end.
Definition decorated_with_nonmember (ds : list decorator) : bool :=
  knows_nonmember && match first_class ds with Some (Some Nonmember) => true | _ => false end.

(** crates/zuban_python/src/file/type_computation/class.rs:1448-1517 [maybe_valid_enum_member_assignment]; a name of the class resolves to it
    if it is bound earlier (ScopeModel.v) *)
Definition assignment (earlier : list statement) (e : expression) : verdict :=
  match e with
  | Lambda _ => NoMember
  | Call c _ =>
      if knows_nonmember then match c with Member => IsMember | Nonmember | Builtin => NoMember end
      else IsMember
  | Name m => if bound earlier m then IsAlias m else IsMember
  | Other _ => IsMember
  end.

(** crates/zuban_python/src/file/type_computation/class.rs:1370-1444 (enum_members) *)
Definition judge (earlier : list statement) (s : statement) : verdict :=
  match s with
  | Assign _ e => assignment earlier e
  | Declare _ => NoMember
  | Function _ ds _ => if decorated_with_member ds then IsMember else NoMember
  | Class _ ds _ => if decorated_with_nonmember ds then NoMember else IsMember
  | Bind _ _ => IsMember
  | Ignore _ => IsMember
  end.

(** The names in the order of their first bindings, which are those of the symbol table
    (crates/zuban_python/src/file/name_binder.rs:296-329 [add_new_definition_with_cause]), with what is found about them.
    crates/zuban_python/src/file/type_computation/class.rs:1322-1446 [enum_members] *)
Fixpoint gather (earlier body : list statement) : list (name * verdict) :=
  match body with
  | [] => []
  | s :: rest =>
      (if excluded (name_of s) || bound earlier (name_of s) then [] else [(name_of s, judge earlier s)])
      ++ gather (earlier ++ [s]) rest
  end.

Definition members_of (found : list (name * verdict)) : list name :=
  flat_map (fun x => match snd x with IsMember => [fst x] | _ => [] end) found.
Definition aliases_of (found : list (name * verdict)) : list (name * name) :=
  flat_map (fun x => match snd x with IsAlias t => [(fst x, t)] | _ => [] end) found.

Definition members (body : list statement) : list name := members_of (gather [] body).
Definition aliases (body : list statement) : list (name * name) := aliases_of (gather [] body).

(** EnumReusedMemberName: the first binding of a member points to the next one of the name.
    crates/zuban_python/src/file/type_computation/class.rs:1426-1436 (enum_members),
    crates/zuban_python/src/file/name_binder.rs:331-375 [ensure_multi_definition] *)
Definition bindings (body : list statement) (n : name) : nat := List.length (filter (fun s => same (name_of s) n) body).
Definition reused (body : list statement) : list name := filter (fun n => Nat.ltb 1 (bindings body n)) (members body).

(** crates/zuban_python/src/type_/enum_.rs:446-473 [lookup_members_or_aliases_on_enum], [lookup] *)
Definition member_named (found : list (name * verdict)) (n : name) : option name :=
  List.find (fun m => same m n) (members_of found).
Fixpoint find_alias (found : list (name * verdict)) (l : list (name * name)) (n : name) : option name :=
  match l with
  | [] => None
  | (a, t) :: l =>
      if same a n then match member_named found t with Some m => Some m | None => find_alias found l n end
      else find_alias found l n
  end.
Definition look (found : list (name * verdict)) (n : name) : option name :=
  match member_named found n with Some m => Some m | None => find_alias found (aliases_of found) n end.
Definition lookup (body : list statement) (n : name) : option name := look (gather [] body) n.

(** Whether the class has members and can be no base: crates/zuban_python/src/file/type_computation/class.rs:639-652 (ensure_calculated_class_infos),
    crates/zuban_python/src/file/type_computation/class.rs:1157-1170 (calculate_class_infos) *)
Definition closed (body : list statement) : bool := match members body with [] => false | _ => true end.
End Version.

(** ** Enums made by a call *)

(** The parts of [str::split(&[',', ' '])], with the current part in reverse *)
Definition separates (c : ascii) : bool := if ascii_dec c ","%char then true else if ascii_dec c " "%char then true else false.
Fixpoint split (part : name) (s : name) : list name :=
  match s with
  | [] => [rev part]
  | c :: s => if separates c then rev part :: split [] s else split (c :: part) s
  end.

(** The names with the offsets of their slices.
    crates/zuban_python/src/file/type_computation/enum_.rs:326-349 [split_enum_members] *)
Fixpoint slices (start : nat) (parts : list name) : list (name * nat) :=
  match parts with
  | [] => []
  | [] :: parts => slices (start + 1) parts
  | part :: parts => (part, start) :: slices (start + List.length part + 1) parts
  end.

(** crates/zuban_python/src/file/type_computation/enum_.rs:149-168 [add_member]: the members and the names of EnumReusedMemberName *)
Fixpoint add_members (have : list name) (ns : list name) : list name * list name :=
  match ns with
  | [] => (have, [])
  | n :: ns =>
      if existsb (fun m => same m n) have then let (ms, bad) := add_members have ns in (ms, n :: bad)
      else add_members (have ++ [n]) ns
  end.

(** The names of an enum made from a string *)
Definition functional (s : name) : list name * list name := add_members [] (map fst (slices 0 (split [] s))).
