(** * The methods that a dataclass gets

    Which [__hash__] is found on a dataclass and on the classes below it, and what is reported about [order], [eq] and [frozen].
    A class is given by its options, if it is a dataclass, and by what is in its own symbol table; the order of the bases is given.
    Simplification: the type of a method is only whether it can be called. *)
From Coq Require Import List Bool String.
Import ListNotations.
Open Scope string_scope.
Open Scope list_scope.

(** [DataclassOptions], as far as it is used here; [frozen] can be unknown with [dataclass_transform].  crates/zuban_python/src/type_/dataclass.rs:55-70 (DataclassOptions) *)
Record options := mk_options { o_eq : bool; order : bool; frozen : option bool; unsafe_hash : bool }.
(** [c_hash] is what the body of the class binds [__hash__] to: nothing, None ([Some false]) or a method ([Some true]); [c_names] are the names in its symbol table. *)
Record class := mk_class { c_data : option options; c_hash : option bool; c_names : list string }.

Inductive issue := EqMustBeTrue | CustomOrderMethod (name : string) | NonFrozenFromFrozen | FrozenFromNonFrozen.

(** The end of reading the options.  crates/zuban_python/src/file/type_computation/class.rs:2285-2290 (check_dataclass_options) *)
Definition check_options (o : options) : options * list issue :=
  if negb (o_eq o) && order o then (mk_options true (order o) (frozen o) (unsafe_hash o), [EqMustBeTrue]) else (o, []).

(** crates/zuban_python/src/type_/dataclass.rs:46 (ORDER_METHOD_NAMES) *)
Definition order_method_names : list string := ["__lt__"; "__gt__"; "__le__"; "__ge__"].
(** crates/zuban_python/src/type_/dataclass.rs:512-526 (calculate_init_of_dataclass) *)
Definition order_issues (o : options) (names : list string) : list issue :=
  if order o then flat_map (fun m => if existsb (String.eqb m) names then [CustomOrderMethod m] else []) order_method_names else [].
(** The check in the loop over the bases, from the last one.  crates/zuban_python/src/type_/dataclass.rs:251-268 (calculate_init_of_dataclass) *)
Definition frozen_issues (o : options) (bases : list class) : list issue :=
  flat_map (fun c => match c_data c with
    | Some super => match frozen o, frozen super with
                    | Some f1, Some f2 => if Bool.eqb f1 f2 then [] else [if f1 then FrozenFromNonFrozen else NonFrozenFromFrozen]
                    | _, _ => []
                    end
    | None => []
    end) (rev bases).

(** The first class that binds the name; a dataclass in the list gives what its class binds.
    crates/zuban_python/src/type_/dataclass.rs:1195-1206 (lookup_dataclass_symbol), crates/zuban_python/src/type_helpers/class.rs:747-775 (lookup_symbol) *)
Fixpoint lookup_in_mro (mro : list class) : option bool :=
  match mro with [] => None | c :: mro => match c_hash c with Some h => Some h | None => lookup_in_mro mro end end.
Definition unwrap_or_default (b : option bool) : bool := match b with Some b => b | None => false end.
(** [__hash__] of an object of a class with these bases.  crates/zuban_python/src/type_/dataclass.rs:1208-1270 [lookup_on_dataclass] *)
Definition lookup_hash (c : class) (bases : list class) : option bool :=
  match c_data c with
  | Some o => if negb (unsafe_hash o) && negb (unwrap_or_default (frozen o)) && o_eq o && match c_hash c with Some _ => false | None => true end then Some false
              else lookup_in_mro (c :: bases)
  | None => lookup_in_mro (c :: bases)
  end.
