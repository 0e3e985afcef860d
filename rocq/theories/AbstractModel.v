(** Model of the abstract attributes of a class: what keeps it from being instantiated.

    Simplifications: classes without type parameters as in MroModel.v; tuples, named tuples, enums, NewTypes as bases, metaclasses and the
    issue about a missing ABCMeta in a stub are left out; the order in which the attributes are listed is that of their discovery. *)
From Coq Require Import Ascii String List Bool Arith NArith.
From Verif Require Import MroModel.
Import ListNotations.
Open Scope string_scope.
Open Scope list_scope.

(** What Python makes of a decorator.  The code under test only reads [code]. *)
Inductive effect := Marks (* sets __isabstractmethod__ *) | Keeps (* passes it on, like property *) | Drops (* another object *) | Joins (* x.setter: the property with this function *).
Record decorator := mk_decorator { code : string; means : effect }.

(** The statements of a class body that bind a name, in their order.  [trivial]: the body of the function is [...], [pass] or a docstring
    (crates/parsa_python_cst/src/lib.rs, [trivial_body_state]), or raises NotImplementedError. *)
Inductive binding :=
| Function (name : N) (decorators : list decorator) (trivial : bool)
| Assign (name : N)        (* x = 1 and x: int = 1 *)
| Declare (name : N)       (* x: int *)
| Nested (name : N)        (* a class *)
| Import (name : N).
Definition name_of (b : binding) : N := match b with Function n _ _ | Assign n | Declare n | Nested n | Import n => n end.

Record class := mk_class {
  bases : list nat; body : list binding;
  self_names : list N;      (* self.x = ... in methods *)
  protocol : bool; in_stub : bool;
  dataclass : bool          (* then it is a [Type::Dataclass] where it is a base *)
}.

(** ** The symbols of a class *)

(** crates/zuban_python/src/file/name_binder.rs:296-329 [add_new_definition_with_cause]: the first definition stays in the symbol table. *)
Definition first_binding (bs : list binding) (n : N) : option binding := List.find (fun b => (name_of b =? n)%N) bs.
(** crates/zuban_python/src/utils.rs:134-136 [lookup_symbol] *)
Definition bound (bs : list binding) (n : N) : bool := match first_binding bs n with Some _ => true | None => false end.
Definition symbols (bs : list binding) : list N := nodup N.eq_dec (map name_of bs).

(** crates/zuban_python/src/file/name_binder.rs:1045-1072 [search_abstract_method_likes] *)
Definition marked (b : binding) : bool :=
  match b with
  | Function _ ds _ => existsb (fun d => (code d =? "abstractmethod") || (code d =? "abstractproperty")) ds
  | _ => false
  end.
Definition own_abstract (bs : list binding) : list N :=
  filter (fun n => match first_binding bs n with Some b => marked b | None => false end) (symbols bs).

Definition is_overload (d : decorator) : bool := (code d =? "overload") || (code d =? "typing.overload").

(** crates/zuban_python/src/file/type_computation/class.rs:1555-1638 [gather_protocol_members], without the variance.  [excluded] are
    EXCLUDED_PROTOCOL_ATTRIBUTES. *)
Section Members.
Variable excluded : N -> bool.

Definition functions (bs : list binding) (n : N) : list (list decorator) :=
  flat_map (fun b => match b with Function m ds _ => if (m =? n)%N then [ds] else [] | _ => [] end) bs.

Definition member (c : class) (n : N) : list (N * bool) :=
  if excluded n then [] else
  let fresh := negb (in_stub c) && negb (existsb (N.eqb n) (self_names c)) in
  match first_binding (body c) n with
  | Some (Import _) | None => []
  | Some (Function _ _ trivial) =>
      if (List.length (filter (fun b => (name_of b =? n)%N) (body c)) =? 1)%nat then [(n, fresh && trivial)]
      else
        let fs := functions (body c) n in
        [(n, fresh && negb (existsb (existsb is_overload) fs && existsb (fun ds => negb (existsb is_overload ds)) fs))]
  | Some (Assign _) => [(n, false)]
  | Some (Declare _) | Some (Nested _) => [(n, fresh)]
  end.
Definition protocol_members (c : class) : list (N * bool) := if protocol c then flat_map (member c) (symbols (body c)) else [].

(** ** The order of the bases, with the entries that stand at the start of an iterator *)

(** MroModel.outer, with the [is_direct_base] of the entries.
    crates/zuban_python/src/file/type_computation/class.rs:2078-2249 [linearize_mro_and_return_linearizable] *)
Fixpoint outer_direct (fuel : nat) (its : list iter) (allowed_to_use : nat) (mro : list (nat * bool)) (linearizable : bool)
  : option (list (nat * bool) * bool) :=
  match fuel with
  | O => None
  | S k =>
      match find_candidate its (firstn (Nat.min allowed_to_use (List.length its)) its) false with
      | (Some (i, c), _) =>
          let stepped := map (next_if c) its in
          let allowed := allowed_to_use + fold_right (fun p n => snd p + n) 0 stepped in
          let its := map fst stepped in
          if Nat.eqb c object then outer_direct k its allowed mro linearizable
          else outer_direct k its (allowed + (if Nat.eqb i 0 then 1 else 0)) ((c, Nat.eqb i 0) :: mro) linearizable
      | (None, false) => Some (rev mro, linearizable)
      | (None, true) =>
          match take_first its with
          | Some ((i, x), its) =>
              if mem_id x (map fst mro) && negb (Nat.eqb x object)
              then outer_direct k its (allowed_to_use + (if Nat.eqb i 0 then 1 else 0)) ((x, Nat.eqb i 0) :: mro) false
              else outer_direct k its allowed_to_use mro false
          | None => None
          end
      end
  end.
Definition linearize_direct (stored : nat -> list nat) (bs : list nat) : option (list (nat * bool) * bool) :=
  let its := base_iterators stored bs in outer_direct (S (total its)) its 1 [] (negb (object_not_last bs)).

(** ** Abstract attributes *)

Record infos := mk_infos { mro : list (nat * bool); accepted : bool; abstract : list (nat * N) (* where, and the name *); members : list (N * bool) }.
Definition object_class : class := mk_class [] [] [] false false false.
Definition object_infos : infos := mk_infos [] true [] [].

Definition class_at (classes : list class) (k : nat) : class := nth k classes object_class.
Definition infos_at (table : list infos) (k : nat) : infos := nth k table object_infos.

(** A [Type::Class] in the order of the bases *)
Definition regular (classes : list class) (k : nat) : bool := negb (dataclass (class_at classes k)).

Definition indexed {A} (l : list A) : list (nat * A) := combine (seq 0 (List.length l)) l.

(** The closure [maybe_add] in crates/zuban_python/src/file/type_computation/class.rs:1651-1676 (calculate_abstract_attributes) *)
Definition maybe_add (classes : list class) (c : class) (mro : list (nat * bool)) (result : list (nat * N)) (link : nat * N) (mro_index : nat) : list (nat * N) :=
  let n := snd link in
  if bound (body c) n || existsb (fun l => (snd l =? n)%N) result then result
  else if existsb (fun e => negb (mro_index =? fst e)%nat && regular classes (fst (snd e)) && bound (body (class_at classes (fst (snd e)))) n) (indexed mro) then result
  else result ++ [link].

(** The entry [base], with its index, of the loop in crates/zuban_python/src/file/type_computation/class.rs:1677-1708 *)
Definition add_base (classes : list class) (table : list infos) (c : class) (mro : list (nat * bool)) (result : list (nat * N)) (e : nat * (nat * bool)) : list (nat * N) :=
  let '(i, (b, direct)) := e in
  if regular classes b && direct then
    let inherited := fold_left (fun r link => maybe_add classes c mro r link i) (abstract (infos_at table b)) result in
    if protocol c then inherited
    else fold_left (fun r m => if snd m && negb (existsb (N.eqb (fst m)) (self_names c)) then maybe_add classes c mro r (b, fst m) i else r)
           (members (infos_at table b)) inherited
  else result.

(** crates/zuban_python/src/file/type_computation/class.rs:1640-1734 [calculate_abstract_attributes] *)
Definition calculate_abstract_attributes (classes : list class) (table : list infos) (c : class) (mro : list (nat * bool)) : list (nat * N) :=
  fold_left (add_base classes table c mro) (indexed mro) (map (fun n => (List.length table, n)) (own_abstract (body c))).

(** What is stored for a class, after the classes before it; class 0 is object.
    crates/zuban_python/src/file/type_computation/class.rs:1214-1276 *)
Definition define (state : list class * list infos) (c : class) : list class * list infos :=
  let '(classes, table) := state in
  let (bs, distinct) := distinct_bases [] (bases c) in
  let '(m, ok) := match linearize_direct (fun k => map fst (mro (infos_at table k))) bs with Some (m, l) => (m, distinct && l) | None => ([], false) end in
  (classes ++ [c], table ++ [mk_infos m ok (calculate_abstract_attributes classes table c m) (protocol_members c)]).
Definition program_infos (defs : list class) : list class * list infos := fold_left define defs ([object_class], [object_infos]).

(** [C()] is reported, for a class [C] with all its bases known.
    crates/zuban_python/src/type_helpers/class.rs:1606-1617 (execute_and_return_generics) *)
Definition reported (defs : list class) (k : nat) : bool :=
  match abstract (infos_at (snd (program_infos defs)) k) with [] => false | _ => true end.
End Members.
