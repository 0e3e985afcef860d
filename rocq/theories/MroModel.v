(** Model of the computation of the method resolution order
    (crates/zuban_python/src/file/type_computation/class.rs).

    Simplification: classes without type parameters, identified by numbers; tuples, named tuples and the check for
    disjoint bases are left out.  Then [to_base_kind] is equality of the numbers, the types of equal classes are equal,
    and a base is an entry without remapping exactly when it is the first one of its iterator. *)
From Coq Require Import List Bool Arith.
Import ListNotations.

Notation id := nat (only parsing).
(** [db.python_state.object_type()]. *)
Definition object : id := 0.

(** A peekable enumerated iterator over a base and its stored MRO: the number of entries taken, and the rest. *)
Record iter := mk_iter { taken : nat; rest : list id }.

(** crates/zuban_python/src/file/type_computation/class.rs:2147-2175: the iterators; [stored] is the MRO saved for a class,
    without the class itself and without object. *)
Definition base_iterators (stored : id -> list id) (bases : list id) : list iter :=
  map (fun b => mk_iter 0 (b :: stored b)) bases.

(** class.rs:2183-2188: does the candidate occur after the first entry of any iterator? *)
Definition conflicts (its : list iter) (c : id) : bool :=
  existsb (fun it => existsb (Nat.eqb c) (tl (rest it))) its.

(** class.rs:2180-2189: the first of the given iterators whose first entry has no conflict with [all], together with
    whether any iterator had an entry.  The result is the index of the entry and the entry. *)
Fixpoint find_candidate (all : list iter) (usable : list iter) (had_entry : bool) : option (nat * id) * bool :=
  match usable with
  | [] => (None, had_entry)
  | it :: r =>
      match rest it with
      | [] => find_candidate all r had_entry
      | c :: _ => if conflicts all c then find_candidate all r true else (Some (taken it, c), true)
      end
  end.

(** class.rs:2191-2217, [next_if] on one iterator: advance if the first entry is the candidate; the number by which
    [allowed_to_use] grows. *)
Definition next_if (c : id) (it : iter) : iter * nat :=
  match rest it with
  | [] => (it, 0)
  | x :: r => ((if Nat.eqb x c then mk_iter (S (taken it)) r else it), if Nat.eqb (taken it) 0 then 1 else 0)
  end.

(** class.rs:2228-2245: the iterator that is advanced although its first entry conflicts. *)
Fixpoint take_first (its : list iter) : option ((nat * id) * list iter) :=
  match its with
  | [] => None
  | it :: r =>
      match rest it with
      | x :: r' => Some ((taken it, x), mk_iter (S (taken it)) r' :: r)
      | [] => match take_first r with Some (e, r') => Some (e, it :: r') | None => None end
      end
  end.

Definition mem_id (c : id) (l : list id) : bool := existsb (Nat.eqb c) l.

(** class.rs:2176-2247, the loop ['outer]; [mro] is in reverse.  [None] stands for the end of the fuel or
    [unreachable!()]. *)
Fixpoint outer (fuel : nat) (its : list iter) (allowed_to_use : nat) (mro : list id) (linearizable : bool)
  : option (list id * bool) :=
  match fuel with
  | O => None
  | S k =>
      match find_candidate its (firstn (Nat.min allowed_to_use (length its)) its) false with
      | (Some (i, c), _) =>
          let stepped := map (next_if c) its in
          let allowed := allowed_to_use + fold_right (fun p n => snd p + n) 0 stepped in
          let its := map fst stepped in
          if Nat.eqb c object then outer k its allowed mro linearizable
          else outer k its (allowed + (if Nat.eqb i 0 then 1 else 0)) (c :: mro) linearizable
      | (None, false) => Some (rev mro, linearizable)
      | (None, true) =>
          match take_first its with
          | Some ((i, x), its) =>
              if mem_id x mro && negb (Nat.eqb x object)
              then outer k its (allowed_to_use + (if Nat.eqb i 0 then 1 else 0)) (x :: mro) false
              else outer k its allowed_to_use mro false
          | None => None
          end
      end
  end.

(** class.rs:2086-2094: object among the bases, but not the last one. *)
Fixpoint object_not_last (bases : list id) : bool :=
  match bases with
  | [] => false
  | b :: r => if Nat.eqb b object then match r with [] => false | _ => true end else object_not_last r
  end.

Definition total (its : list iter) : nat := fold_right (fun it n => length (rest it) + n) 0 its.

(** crates/zuban_python/src/file/type_computation/class.rs:2078-2249 [linearize_mro_and_return_linearizable]. *)
Definition linearize_mro (stored : id -> list id) (bases : list id) : option (list id * bool) :=
  let its := base_iterators stored bases in
  outer (S (total its)) its 1 [] (negb (object_not_last bases)).

(** class.rs:960-971: a base that is there already is reported ([DuplicateBaseClass]) and left out.  The bases and whether
    there was no such error. *)
Fixpoint distinct_bases (acc : list id) (bases : list id) : list id * bool :=
  match bases with
  | [] => (rev acc, true)
  | b :: r => if mem_id b acc then (fst (distinct_bases acc r), false) else distinct_bases (b :: acc) r
  end.

(** All classes of a program in the order of their definition; class [k] is the [k]-th entry of the table, and object is
    entry 0.  The table holds the stored MROs and whether the class was accepted without an error about its bases
    (class.rs:960-971, 1214-1236, 1256-1258). *)
Definition stored_in (table : list (list id * bool)) (c : id) : list id := fst (nth c table ([], true)).
Definition define_class (table : list (list id * bool)) (bases : list id) : list (list id * bool) :=
  let (bases, distinct) := distinct_bases [] bases in
  table ++ [match linearize_mro (stored_in table) bases with
            | Some (mro, linearizable) => (mro, distinct && linearizable)
            | None => ([], false)
            end].
Definition class_table (defs : list (list id)) : list (list id * bool) :=
  fold_left define_class defs [([], true)].
