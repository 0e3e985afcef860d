(** Model of the search for pytest fixtures: crates/zuban_python/src/pytest.rs.

    Simplifications: the names bound in a module, the file that [conftest] means in a directory, what decorators and the names of plugins lead to and the return types
    of fixtures are given; that a file cannot be loaded is the same as that it is missing. *)
From Coq Require Import Ascii String.
From Coq Require Import List Bool Arith.
Import ListNotations.
Open Scope string_scope.
Open Scope list_scope.
Open Scope nat_scope.

(** A decorator: its code contains [fixture], and the module of the definition that it leads to, without a call *)
Record decorator := mk_decorator { says_fixture : bool; defined_in : option string }.
(** What a name of a module is bound to at its end; [given] is the argument [name] of [fixture] *)
Record binding := mk_binding { b_name : string; b_function : option nat; b_decorators : list decorator; b_given : option string }.

(** crates/zuban_python/src/pytest.rs:109-134 [is_fixture] *)
Definition is_fixture (ds : list decorator) : bool :=
  existsb (fun d => says_fixture d && match defined_in d with Some m => String.eqb m "_pytest.fixtures" | None => false end) ds.

Inductive scope := InModule | InClass (parent : scope) | InFunction (parent : scope).
(** crates/zuban_python/src/pytest.rs:85-107 [is_pytest_fixture_or_test] *)
Definition is_pytest_fixture_or_test (func_name : string) (parent : scope) (ds : list decorator) : bool :=
  String.prefix "test" func_name && match parent with InModule => true | InFunction _ => false | InClass InModule => true | InClass _ => false end || is_fixture ds.

(** crates/zuban_python/src/pytest.rs:21-22 (_PYTEST_FIXTURE_MODULES) *)
Definition pytest_fixture_modules : list string := ["monkeypatch"; "capture"; "logging"; "tmpdir"; "pytester"].

(** The value that [pytest_plugins] is assigned *)
Inductive plugin_item := StringItem (s : string) | OtherItem.
Inductive plugin_value := PluginTuple (items : list plugin_item) | PluginList (items : list plugin_item) | PluginSet (items : list plugin_item) | PluginString (s : string) | PluginOther.

Section Search.
(** The names bound in a file, without two of the same name *)
Variable bindings : nat -> list binding.
(** [pytest_plugins] in a file *)
Variable plugin_assignment : nat -> option plugin_value.
(** [import_dotted], and the files of the package [_pytest] *)
Variable import_dotted : string -> option nat.
Variable pytest_file : string -> option nat.

(** crates/zuban_python/src/pytest.rs:286-324 [conftest_pytest_plugins] *)
Definition conftest_pytest_plugins (file : nat) : option (list nat) :=
  match plugin_assignment file with
  | Some (PluginTuple items) | Some (PluginList items) | Some (PluginSet items) =>
      Some (flat_map (fun item => match item with StringItem s => match import_dotted s with Some f => [f] | None => [] end | OtherItem => [] end) items)
  | Some (PluginString _) | Some PluginOther | None => None
  end.

(** [FixtureModuleIterator]; [parent] are the files that [conftest] means in the directory and those around it, the last one is the workspace.
    crates/zuban_python/src/pytest.rs:172-180 (FixtureModuleIterator) *)
Record iterator := mk_iterator { skip_current_module : bool; parent : option (list (option nat)); modules_left : list string; plugins_left : list nat }.

(** The loop over the directories; the file and the parents that are left.  crates/zuban_python/src/pytest.rs:214-253 (next) *)
Fixpoint search_conftest (current : nat) (levels : list (option nat)) : option (nat * option (list (option nat))) :=
  match levels with
  | [] => None
  | found :: outer =>
      let result := match found with Some f => if f =? current then None else Some f | None => None end in
      match outer with
      | [] => match result with Some f => Some (f, None) | None => None end
      | _ :: _ => match result with Some f => Some (f, Some outer) | None => search_conftest current outer end
      end
  end.

(** crates/zuban_python/src/pytest.rs:255-282 (next) *)
Fixpoint next_module (ms : list string) : option (nat * list string) :=
  match ms with
  | [] => None
  | m :: ms => match pytest_file m with Some f => Some (f, ms) | None => next_module ms end
  end.

(** crates/zuban_python/src/pytest.rs:204-283 [next] *)
Definition next (current : nat) (it : iterator) : option (nat * iterator) :=
  let from_pytest := match next_module (modules_left it) with Some (f, ms) => Some (f, mk_iterator true None ms []) | None => None end in
  if negb (skip_current_module it) then Some (current, mk_iterator true (parent it) (modules_left it) (plugins_left it))
  else
    match plugins_left it with
    | f :: fs => Some (f, mk_iterator true (parent it) (modules_left it) fs)
    | [] =>
        match parent it with
        | Some levels =>
            match search_conftest current levels with
            | Some (f, outer) => Some (f, mk_iterator true outer (modules_left it) (match conftest_pytest_plugins f with Some fs => fs | None => [] end))
            | None => from_pytest
            end
        | None => from_pytest
        end
    end.

(** The closure in [find_map]: crates/zuban_python/src/pytest.rs:61-82 (find_pytest_fixture_for_param) *)
Definition fixture_in (fixture_name : string) (file : nat) : option nat :=
  match find (fun b => String.eqb (b_name b) fixture_name) (bindings file) with
  | Some b => match b_function b with Some func => if is_fixture (b_decorators b) then Some func else None | None => None end
  | None => None
  end.

(** [find_map] calls [next] until the closure returns something; OutOfFuel is not reached with enough fuel. *)
Inductive outcome := Found (func : option nat) | OutOfFuel.
Fixpoint find_map (current : nat) (fixture_name : string) (fuel : nat) (it : iterator) : outcome :=
  match fuel with
  | 0 => OutOfFuel
  | S fuel =>
      match next current it with
      | None => Found None
      | Some (f, it) => match fixture_in fixture_name f with Some func => Found (Some func) | None => find_map current fixture_name fuel it end
      end
  end.

(** crates/zuban_python/src/pytest.rs:49-83 [find_pytest_fixture_for_param] *)
Definition find_pytest_fixture_for_param (pytest_folder : bool) (current : nat) (levels : list (option nat)) (param func_name : string) (scope : scope) (ds : list decorator) (fuel : nat) : outcome :=
  if negb pytest_folder then Found None
  else if negb (is_pytest_fixture_or_test func_name scope ds) then Found None
  else find_map current param fuel (mk_iterator (String.eqb param func_name) (Some levels) pytest_fixture_modules []).
End Search.

(** The type of the parameter; crates/zuban_python/src/pytest.rs:24-47 [maybe_infer_pytest_param], crates/zuban_python/src/python_state.rs:1314-1316 [is_generator] *)
Inductive type := Class (name : string) (args : list type) | Any.
Definition is_generator (c : string) : bool := String.eqb c "typing.Generator" || String.eqb c "types.GeneratorType".
Definition infer_param (return_type : type) : type :=
  match return_type with
  | Class c args => if is_generator c then match args with a :: _ => a | [] => Any end else return_type
  | Any => Any
  end.
