(** Model of the simplification of unions (crates/zuban_python/src/type_/union.rs).  Types are abstract; the answers of the
    functions that the simplification asks about them are parameters. *)
From Coq Require Import List Arith Bool.
Import ListNotations.

(** What the simplification distinguishes: crates/zuban_python/src/type_/mod.rs:492-529 [enum Type], crates/zuban_python/src/type_/mod.rs:2163-2168 [enum LiteralKind]. *)
Inductive kind :=
| LiteralValue (value : nat)          (* a literal that is not a bool *)
| BoolLiteral (b : bool)
| EnumMember (enum_ member_index : nat)
| OtherType.

Section Union.
Variable T : Type.
Variable kind_of : T -> kind.
Variable eqb : T -> T -> bool.                   (* [==] *)
Variable is_object has_any is_calculating : T -> bool.
Variable is_recursive_with_generics : T -> bool.
(** [Type::Any(AnyCause::UnknownTypeParam)]; the class, if all its generics are unknown type parameters; the class, of any class type. *)
Variable unknown_type_param : T -> bool.
Variable unknown_class class_ : T -> option nat.
Variable is_equal_type_without_unpacking_recursive_types : T -> T -> bool.
Variable is_super_type_of : T -> T -> bool.
Variable bool_type : T.
Variable enum_type : nat -> T.
Variable enum_len : nat -> nat.                  (* [members.len()] *)
Variable fallback_type : T -> T.                 (* of a literal *)
Variable priority : T -> nat.                    (* crates/zuban_python/src/type_/union.rs:370-379 [sort_for_priority], plus one *)

(** crates/zuban_python/src/type_/union.rs:287-290 [struct UnionEntry]: the type and its [format_index]. *)
Notation entry := (T * nat)%type (only parsing).

(** The iteration order of the hash map of the literals. *)
Variable order : list (T * nat) -> list (T * nat).

Definition same_class (a b : option nat) : bool := match a, b with Some x, Some y => x =? y | _, _ => false end.

(** The loop over [new_types], crates/zuban_python/src/type_/union.rs:142-197.  [Some]: the new list, [continue 'outer]; [None]: the loop ends. *)
Fixpoint merge_into (new_types : list entry) (additional_t : T) : option (list entry) :=
  match new_types with
  | [] => None
  | current :: rest =>
      let t := fst current in
      let continue_ := option_map (cons current) (merge_into rest additional_t) in
      if has_any t then
        if same_class (unknown_class t) (class_ additional_t) then Some ((additional_t, snd current) :: rest) else continue_
      else if is_calculating additional_t then None
      else if is_recursive_with_generics t then continue_
      else if is_calculating t then if eqb additional_t t then Some new_types else continue_
      else if is_super_type_of additional_t t then
        Some ((additional_t, snd current) ::
              filter (fun e => has_any (fst e) || is_calculating (fst e) || is_recursive_with_generics (fst e) || negb (is_super_type_of additional_t (fst e))) rest)
      else if is_super_type_of t additional_t then Some new_types
      else continue_
  end.

(** The variables of the loop of crates/zuban_python/src/type_/union.rs:85-238 [merge_simplified_union_type]. *)
Record state := mk_state { new_types : list entry; literal_values : list (nat * entry); had_enum_member : bool; had_true : bool; had_false : bool }.
Definition set_new_types (s : state) (l : list entry) : state := mk_state l (literal_values s) (had_enum_member s) (had_true s) (had_false s).

(** [HashMap::entry(key).or_insert(value)]. *)
Definition or_insert (m : list (nat * entry)) (k : nat) (e : entry) : list (nat * entry) :=
  if existsb (fun x => fst x =? k) m then m else m ++ [(k, e)].

(** One round of the loop, crates/zuban_python/src/type_/union.rs:93-209.  [None]: it returns this type. *)
Definition add_type (s : state) (additional : entry) : option state :=
  let additional_t := fst additional in
  match kind_of additional_t with
  | LiteralValue v => Some (mk_state (new_types s) (or_insert (literal_values s) v additional) (had_enum_member s) (had_true s) (had_false s))
  | k =>
      if is_object additional_t then None
      else if has_any additional_t then
        if match unknown_class additional_t with
           | Some c => existsb (fun e => same_class (Some c) (class_ (fst e))) (new_types s)
           | None => false
           end then Some s
        else if negb (existsb (fun e => is_equal_type_without_unpacking_recursive_types (fst e) additional_t) (new_types s)) && negb (unknown_type_param additional_t) then
          Some (set_new_types s (new_types s ++ [additional]))
        else Some s
      else if existsb (fun e => eqb (fst e) additional_t) (new_types s) then Some s
      else if is_recursive_with_generics additional_t then
        if existsb (fun e => eqb (fst e) additional_t) (new_types s) then Some s
        else Some (set_new_types s (new_types s ++ [additional]))
      else
        match merge_into (new_types s) additional_t with
        | Some l => Some (set_new_types s l)
        | None =>
            Some (mk_state (new_types s ++ [additional]) (literal_values s)
              (match k with EnumMember _ _ => true | _ => had_enum_member s end)
              (match k with BoolLiteral true => true | _ => had_true s end)
              (match k with BoolLiteral false => true | _ => had_false s end))
        end
  end.

(** All the rounds; [inl]: the type that is returned early. *)
Fixpoint add_types (s : state) (types : list entry) : T + state :=
  match types with
  | [] => inr s
  | t :: r => match add_type s t with None => inl (fst t) | Some s => add_types s r end
  end.

(** crates/zuban_python/src/type_/union.rs:240-267 [try_contracting_enum_members]: how many members of the enum there are, and the first. *)
Definition of_enum (e : nat) (x : entry) : bool := match kind_of (fst x) with EnumMember e' _ => e' =? e | _ => false end.
Definition enum_count (e : nat) (l : list entry) : nat := length (filter (of_enum e) l).
Definition first_member (e : nat) (l : list entry) : option nat :=
  match filter (of_enum e) l with
  | x :: _ => match kind_of (fst x) with EnumMember _ i => Some i | _ => None end
  | [] => None
  end.
Definition contract_entry (all : list entry) (x : entry) : list entry :=
  match kind_of (fst x) with
  | EnumMember e i =>
      if enum_len e <=? enum_count e all then
        match first_member e all with
        | Some j => if j =? i then [(enum_type e, snd x)] else []
        | None => [x]
        end
      else [x]
  | _ => [x]
  end.
Definition try_contracting_enum_members (l : list entry) : list entry := flat_map (contract_entry l) l.

(** crates/zuban_python/src/type_/union.rs:269-284 [contract_bool_literals]. *)
Fixpoint contract_bool_literals (first : bool) (l : list entry) : list entry :=
  match l with
  | [] => []
  | x :: r =>
      match kind_of (fst x) with
      | BoolLiteral _ => if first then (bool_type, snd x) :: contract_bool_literals false r else contract_bool_literals false r
      | _ => x :: contract_bool_literals first r
      end
  end.

(** [sort_by_key], a stable sort. *)
Fixpoint insert_by (key : entry -> nat) (x : entry) (l : list entry) : list entry :=
  match l with
  | [] => [x]
  | y :: r => if key x <=? key y then x :: l else y :: insert_by key x r
  end.
Definition sort_by_key (key : entry -> nat) (l : list entry) : list entry := fold_right (insert_by key) [] l.

(** crates/zuban_python/src/type_/union.rs:85-238 [merge_simplified_union_type] and crates/zuban_python/src/type_/mod.rs:539-552
    [from_union_entries]: the entries of the type that it returns; none for [Never], one for a type that is no union. *)
Definition merge_simplified_union_type (types : list entry) : list entry :=
  match add_types (mk_state [] [] false false false) types with
  | inl t => [(t, 0)]
  | inr s =>
      let l := if had_enum_member s then try_contracting_enum_members (new_types s) else new_types s in
      let l := if had_false s && had_true s then contract_bool_literals true l else l in
      let lits := order (map snd (literal_values s)) in
      let lits := match l with
                  | [] => lits
                  | _ => filter (fun v => negb (existsb (fun e => eqb (fst e) (fallback_type (fst v))) l)) lits
                  end in
      sort_by_key (fun e => priority (fst e)) (sort_by_key snd lits ++ l)
  end.

(** crates/zuban_python/src/type_/union.rs:60-83 [simplified_union_from_iterators_with_format_index]: each type is given by its entries
    (crates/zuban_python/src/type_/mod.rs:743-761 [iter_with_unpacked_union_entries], 835-841 [highest_union_format_index]), one for a type
    that is no union.  [format_index] does not overflow in this model. *)
Definition highest_of (entries : list entry) : nat := match entries with [] => 0 | [_] => 1 | _ => list_max (map snd entries) end.
Definition highest_union_format_index (types : list (list entry)) : nat := list_max (map highest_of types).
Fixpoint with_format_index (multiply i : nat) (types : list (list entry)) : list entry :=
  match types with
  | [] => []
  | t :: r => map (fun e => (fst e, i * multiply + snd e)) t ++ with_format_index multiply (S i) r
  end.
Definition simplified_union (types : list (list entry)) : list entry :=
  merge_simplified_union_type (with_format_index (highest_union_format_index types + 1) 0 types).
End Union.
