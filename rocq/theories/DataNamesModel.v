(** * Where the names of a dataclass come from

    A dataclass has names that are bound in its body and names that are generated; a lookup gives the class, counted in the order of the bases, and which of the two it is.
    The order of the bases is given, and what is bound on self in methods is not modelled; nor is [__dataclass_fields__]. *)
From Coq Require Import List Bool Arith.
Import ListNotations.

(** [OrderMethod 0] to [OrderMethod 3] are the methods of [ORDER_METHOD_NAMES].  crates/zuban_python/src/type_/dataclass.rs:46 (ORDER_METHOD_NAMES) *)
Inductive name := Init | MatchArgs | Slots | OrderMethod (i : nat) | Other (i : nat).
Definition name_eqb (a b : name) : bool :=
  match a, b with
  | Init, Init | MatchArgs, MatchArgs | Slots, Slots => true
  | OrderMethod i, OrderMethod j | Other i, Other j => i =? j
  | _, _ => false
  end.
(** crates/zuban_python/src/type_/dataclass.rs:56-70 (DataclassOptions) *)
Record options := mk_options { o_init : bool; o_match_args : bool; o_slots : bool; o_order : bool }.
(** [c_names] are the names of the symbol table *)
Record class := mk_class { c_data : option options; c_names : list name }.
Inductive origin := InBody | Generated.

(** The class storage has the name.  crates/zuban_python/src/type_helpers/class.rs:747-775 (lookup_symbol) *)
Definition in_body (c : class) (n : name) : bool := existsb (name_eqb n) (c_names c).
(** crates/zuban_python/src/type_/dataclass.rs:1138-1174 [lookup_symbol_internal] *)
Definition lookup_symbol_internal (o : options) (n : name) : bool :=
  match n with
  | MatchArgs => o_match_args o
  | OrderMethod _ => o_order o
  | Init => o_init o
  | Slots => o_slots o
  | Other _ => false
  end.
Definition own_symbol (c : class) (n : name) : option origin := if in_body c n then Some InBody else None.
(** For a base: crates/zuban_python/src/type_/dataclass.rs:1195-1206 [lookup_dataclass_symbol] *)
Definition base_symbol (c : class) (n : name) : option origin :=
  match c_data c with
  | Some o => if lookup_symbol_internal o n then Some Generated else own_symbol c n
  | None => own_symbol c n
  end.
Fixpoint bases_lookup (k : nat) (bases : list class) (n : name) : option (nat * origin) :=
  match bases with
  | [] => None
  | c :: bases => match base_symbol c n with Some r => Some (k, r) | None => bases_lookup (S k) bases n end
  end.
(** The lookup on a class starts with the class itself, which is no dataclass there. *)
Definition class_lookup (c : class) (bases : list class) (n : name) : option (nat * origin) :=
  match own_symbol c n with Some r => Some (0, r) | None => bases_lookup 1 bases n end.
(** crates/zuban_python/src/type_/dataclass.rs:1208-1270 [lookup_on_dataclass] *)
Definition lookup_on_instance (c : class) (bases : list class) (n : name) : option (nat * origin) :=
  match c_data c with
  | Some o => if lookup_symbol_internal o n && negb (in_body c n) then Some (0, Generated) else class_lookup c bases n
  | None => class_lookup c bases n
  end.
(** crates/zuban_python/src/type_/dataclass.rs:1063-1128 [lookup_on_dataclass_type] *)
Definition lookup_on_type (c : class) (bases : list class) (n : name) : option (nat * origin) :=
  match c_data c with
  | Some o =>
      match n with
      | OrderMethod _ => if o_order o then Some (0, Generated) else class_lookup c bases n
      | Slots => if o_slots o then Some (0, Generated) else class_lookup c bases n
      | MatchArgs => if o_match_args o then Some (0, Generated) else class_lookup c bases n
      | _ => class_lookup c bases n
      end
  | None => class_lookup c bases n
  end.
(** The [__init__] for a call of the class.  crates/zuban_python/src/type_/dataclass.rs:947-1015 (dataclass_initialize) *)
Definition constructor (c : class) (bases : list class) : option (nat * origin) :=
  match c_data c with
  | Some o => if negb (o_init o) || in_body c Init then class_lookup c bases Init else Some (0, Generated)
  | None => class_lookup c bases Init
  end.
