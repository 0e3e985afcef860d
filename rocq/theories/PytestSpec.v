(** The fixture that pytest uses: the last one of those registered that a test can see, where those of plugins come before those of modules
    ([FixtureManager._register_fixture] and [getfixturedefs] in _pytest/fixtures.py). *)
From Coq Require Import Ascii String.
From Coq Require Import List Bool Arith.
From Verif Require Import PytestModel.
Import ListNotations.
Open Scope string_scope.
Open Scope list_scope.
Open Scope nat_scope.

(** A fixture with a location belongs to a conftest, a module or a class; one without to a plugin. *)
Record fixture := mk_fixture { function : nat; has_location : bool }.
Definition register (faclist : list fixture) (f : fixture) : list fixture :=
  if has_location f then faclist ++ [f]
  else filter (fun g => negb (has_location g)) faclist ++ [f] ++ filter has_location faclist.
Definition register_all (fs : list fixture) : list fixture := fold_left register fs [].

(** A file gives a name when something in it that is decorated with [fixture] from pytest has it, or got it with [name]. *)
Definition known_as (b : binding) : string := match b_given b with Some n => n | None => b_name b end.
Definition is_given (n : string) (b : binding) : bool :=
  String.eqb (known_as b) n && match b_function b with Some _ => true | None => false end
  && existsb (fun d => match defined_in d with Some m => String.eqb m "_pytest.fixtures" | None => false end) (b_decorators b).
Definition gives (bs : list binding) (n : string) : option nat := match find (is_given n) bs with Some b => b_function b | None => None end.
Definition from (bindings : nat -> list binding) (n : string) (location : bool) (file : nat) : list fixture :=
  match gives (bindings file) n with Some f => [mk_fixture f location] | None => [] end.

(** The order in which things are registered: the modules of pytest, each conftest from the outermost with its plugins after it, the module, the class. *)
Record session := mk_session { names_of : nat -> list binding; builtin : list nat; conftests : list nat; plugins_of : nat -> list nat; module : list nat; class_fixture : option nat }.
Definition candidates (s : session) (n : string) : list fixture :=
  flat_map (from (names_of s) n false) (builtin s)
  ++ flat_map (fun c => from (names_of s) n true c ++ flat_map (from (names_of s) n false) (plugins_of s c)) (conftests s)
  ++ flat_map (from (names_of s) n true) (module s)
  ++ match class_fixture s with Some f => [mk_fixture f true] | None => [] end.
Fixpoint last_of {A} (l : list A) : option A := match l with [] => None | [x] => Some x | _ :: l => last_of l end.
Definition used (s : session) (n : string) : option nat := option_map function (last_of (register_all (candidates s n))).
(** A fixture that asks for its own name gets the one before it. *)
Definition used_instead (s : session) (n : string) : option nat := option_map function (last_of (removelast (register_all (candidates s n)))).

(** [pytest_plugins] may be a sequence of strings or a string. *)
Definition plugins_in (import_dotted : string -> option nat) (v : option plugin_value) : list nat :=
  flat_map (fun s => match import_dotted s with Some f => [f] | None => [] end)
    match v with
    | Some (PluginTuple items) | Some (PluginList items) | Some (PluginSet items) => flat_map (fun i => match i with StringItem s => [s] | OtherItem => [] end) items
    | Some (PluginString s) => [s]
    | Some PluginOther | None => []
    end.

(** The modules of pytest with fixtures *)
Definition modules_with_fixtures : list string :=
  ["cacheprovider"; "capture"; "doctest"; "fixtures"; "junitxml"; "logging"; "monkeypatch"; "pytester"; "recwarn"; "tmpdir"].

(** The session that a file takes part in, with the conftests of its directory and those around it; without the file itself when it is one of them *)
Definition outer_conftests (current : nat) (levels : list (option nat)) : list nat := flat_map (fun l => match l with Some f => if f =? current then [] else [f] | None => [] end) levels.
Definition files_of (pytest_file : string -> option nat) (ms : list string) : list nat := flat_map (fun m => match pytest_file m with Some f => [f] | None => [] end) ms.

Record project := mk_project { bindings : nat -> list binding; plugin_assignment : nat -> option plugin_value; import_dotted : string -> option nat; pytest_file : string -> option nat }.
Definition plugins (p : project) (c : nat) : list nat := plugins_in (import_dotted p) (plugin_assignment p c).
Definition session_of (p : project) (current : nat) (levels : list (option nat)) (class_fixture : option nat) : session :=
  mk_session (bindings p) (files_of (pytest_file p) modules_with_fixtures) (rev (outer_conftests current levels)) (plugins p) [current] class_fixture.
Definition search (p : project) := find_pytest_fixture_for_param (bindings p) (plugin_assignment p) (import_dotted p) (pytest_file p).

(** The names bound in a file are different, fixtures have their own name, and their decorator is written with [fixture]. *)
Definition plain (bs : list binding) : Prop := NoDup (map b_name bs) /\
  forall b, In b bs -> b_given b = None /\ forall d, In d (b_decorators b) -> defined_in d = Some "_pytest.fixtures" -> says_fixture d = true.
(** At most one plugin and one module of pytest that is looked at give the name, and then no conftest further outside than the one with the plugin does. *)
Record clear (p : project) (current : nat) (levels : list (option nat)) (n : string) : Prop := mk_clear {
  clear_plain : forall f, plain (bindings p f);
  clear_string : forall c s, In c (outer_conftests current levels) -> plugin_assignment p c <> Some (PluginString s);
  clear_plugin : forall f f' a b, In f (flat_map (plugins p) (outer_conftests current levels)) -> In f' (flat_map (plugins p) (outer_conftests current levels)) ->
    gives (bindings p f) n = Some a -> gives (bindings p f') n = Some b -> a = b;
  clear_outer : forall inner c outer f x, outer_conftests current levels = inner ++ c :: outer -> In f (plugins p c) -> gives (bindings p f) n = Some x ->
    forall c', In c' outer -> gives (bindings p c') n = None;
  clear_builtin : forall f f' a b, In f (files_of (pytest_file p) modules_with_fixtures) -> In f' (files_of (pytest_file p) modules_with_fixtures) ->
    gives (bindings p f) n = Some a -> gives (bindings p f') n = Some b -> a = b;
  clear_module : forall m f, In m modules_with_fixtures -> ~ In m ["monkeypatch"; "capture"; "logging"; "tmpdir"; "pytester"] -> pytest_file p m = Some f -> gives (bindings p f) n = None }.

(** A function that pytest takes for a test, by its name and place *)
Inductive collected : scope -> Prop :=
| collected_module : collected InModule
| collected_class : forall s, collected s -> collected (InClass s).

(** What a test gets from a fixture with this return type: what it returns, or the first thing it yields *)
Inductive value_of : bool -> type -> type -> Prop :=
| value_returned : forall t, value_of false t t
| value_yielded : forall c t args, In c ["typing.Generator"; "types.GeneratorType"; "typing.Iterator"; "typing.Iterable"] -> value_of true (Class c (t :: args)) t.
