(** How [is], [==] and the truth of a value narrow its type: crates/zuban_python/src/file/flow_analysis.rs.

    Left out are [Self], sentinels, TypedDicts and partial containers.  What is looked up in the definitions of a program (a [__eq__] that is not the
    one of a builtin, what [__bool__] returns, ...) is given, and so is [is_simple_super_type_of] (C54).  Whether a literal is
    written as one is not kept in the types, but is a flag. *)
From Coq Require Import List NArith ZArith Bool.
From Verif Require Import TupleModel SubtypeModel NarrowModel.
Import ListNotations.
Open Scope N_scope.

(** crates/zuban_python/src/type_/enum_.rs:302-306 [EnumKind] *)
Inductive enum_kind := IntEnum | StrEnum | Normal.

(** What a method returns that is looked up: there is no such method, it may be anything, or it is a literal *)
Inductive returned := NoMethod | Anything | Always (l : literal).

Section Narrow.
Variable p : program.
Variable accepts : type -> type -> bool.       (* [is_simple_super_type_of] *)
Variable ellipsis : N.                         (* the class of [...] *)
Variable custom_eq : type -> bool.             (* crates/zuban_python/src/file/flow_analysis.rs:1235-1237 [has_custom_eq] *)
Variable member_count : N -> N.                (* of an enum: [Enum::members] *)
Variable is_flag : N -> bool.                  (* the enum has [Flag] as a base *)
Variable kind_of_enum : N -> enum_kind.

(** ** [is] and [==] *)
Definition of_class (c : N) (t : type) : bool := match t with Class d _ => c =? d | _ => false end.

(** The two sides, while the parts of a union are looked at *)
Definition sides : Type := type * type.
Definition nothing : sides := (Never, Never).
Definition add_truthy (s : sides) (t : type) : sides := (join (fst s) t, snd s).
Definition add_falsey (s : sides) (t : type) : sides := (fst s, join (snd s) t).
Definition add_both (s : sides) (t : type) : sides := add_falsey (add_truthy s t) t.

(** crates/zuban_python/src/type_/enum_.rs:212-217 [implicit_members] *)
Definition members (e : N) : list N := up_to (member_count e).

(** The other members of an enum *)
Definition add_members (e m : N) (s : sides) : sides :=
  fold_left (fun s n =>
    if n =? m then (EnumMember e m, snd s)
    else if is_flag e then s else add_falsey s (EnumMember e n)) (members e) (if is_flag e then add_falsey s (Enum e) else s).

(** The end of a round of the loop in [split_off_enum_member] *)
Definition keep_unless_custom (abort_on_custom_eq : bool) (s : sides) (t : type) : option sides :=
  if abort_on_custom_eq && (custom_eq t || match t with Enum e => match kind_of_enum e with Normal => false | _ => true end | _ => false end) then None
  else Some (add_falsey s t).

(** One round of the loop in crates/zuban_python/src/file/flow_analysis.rs:1239-1350 [split_off_enum_member]; [None] is a return *)
Definition split_off_member_of (e m : N) (abort_on_custom_eq : bool) (s : option sides) (t : type) : option sides :=
  match s with
  | None => None
  | Some s =>
      let anything := if abort_on_custom_eq then None else Some (add_falsey (EnumMember e m, snd s) t) in
      match t with
      | Any => match anything with None => None | Some s => keep_unless_custom abort_on_custom_eq s t end
      | EnumMember f n =>
          if (e =? f) && (m =? n) then Some (EnumMember e m, snd s) else keep_unless_custom abort_on_custom_eq s t
      | Enum f => if e =? f then Some (add_members e m s) else keep_unless_custom abort_on_custom_eq s t
      | NoneType => keep_unless_custom abort_on_custom_eq s t
      | _ =>
          if of_class (object p) t then match anything with None => None | Some s => keep_unless_custom abort_on_custom_eq s t end
          else if abort_on_custom_eq && match kind_of_enum e with
              | IntEnum => of_class (int_class p) t || custom_eq t
              | StrEnum => of_class (str_class p) t || custom_eq t
              | Normal => false
              end
          then None
          else keep_unless_custom abort_on_custom_eq s t
      end
  end.

(** crates/zuban_python/src/file/flow_analysis.rs:1239-1350 [split_off_enum_member] *)
Definition split_off_enum_member (t : type) (e m : N) (abort_on_custom_eq : bool) : option sides :=
  fold_left (split_off_member_of e m abort_on_custom_eq) (parts t) (Some nothing).

(** crates/zuban_python/src/file/flow_analysis.rs:1518-1533 [maybe_split_bool_from_literal] *)
Definition maybe_split_bool_from_literal (t : type) (l : literal) : option sides :=
  match l with
  | LBool b => if of_class (bool_class p) t then Some (Literal (LBool b), Literal (LBool (negb b))) else None
  | _ => None
  end.

Definition is_int_or_str_enum (t : type) : bool :=
  match t with Enum e => match kind_of_enum e with Normal => false | _ => true end | _ => false end.

(** The last two arms in crates/zuban_python/src/file/flow_analysis.rs:1352-1417 [split_off_singleton] *)
Definition split_off_other (singleton : type) (s : sides) (t : type) : sides :=
  if same singleton t then add_truthy s singleton
  else
    match singleton with
    | Literal l =>
        match maybe_split_bool_from_literal t l with
        | Some (tr, fa) => add_falsey (add_truthy s tr) fa
        | None =>
            if custom_eq t then add_both s t
            else
              add_falsey (if accepts t singleton then add_truthy s singleton
                          else if is_int_or_str_enum t then add_truthy s t else s) t
        end
    | _ => add_falsey s t
    end.

(** One round of the loop in crates/zuban_python/src/file/flow_analysis.rs:1352-1417 [split_off_singleton] *)
Definition split_off_singleton_of (singleton : type) (is_eq : bool) (s : sides) (t : type) : sides :=
  match t with
  | Any | TypeVar _ => add_falsey (add_truthy s (if is_eq then t else singleton)) t
  | Literal l =>
      match singleton with
      | Literal l' => if same_literal l l' then add_truthy s t else add_falsey s t
      | _ => add_falsey s t
      end
  | Class c _ => if c =? object p then add_falsey (add_truthy s singleton) t else split_off_other singleton s t
  | _ => split_off_other singleton s t
  end.

(** crates/zuban_python/src/file/flow_analysis.rs:1352-1417 [split_off_singleton] *)
Definition split_off_singleton (t singleton : type) (is_eq : bool) : sides :=
  fold_left (split_off_singleton_of singleton is_eq) (parts t) nothing.

(** A frame: the type of what is tested is narrowed, or not *)
Definition frame : Type := option type.
Definition frames (s : sides) : frame * frame := (Some (fst s), Some (snd s)).

(** crates/zuban_python/src/file/flow_analysis.rs:1419-1516 [narrow_is_or_eq]; [literals] says that a literal may narrow: it is written as
    one, the type of what is tested has one, or what is tested is a name, not in the mode of Mypy *)
Definition narrow_is_or_eq (t other : type) (is_eq literals : bool) : option (frame * frame) :=
  let member e m := option_map frames (split_off_enum_member t e m is_eq) in
  let remove_none :=
    match t with
    | Union ts =>
        if mem NoneType ts then
          let falsey := snd (split_off_singleton t NoneType is_eq) in
          if accepts other falsey || accepts falsey other then Some (Some falsey, None) else None
        else None
    | _ => None
    end in
  match other with
  | NoneType =>
      if is_eq then Some (None, Some (snd (split_off_singleton t NoneType is_eq)))
      else
        match t with
        | TypeVar _ => Some (Some NoneType, Some t)
        | _ => Some (frames (split_off_singleton t other is_eq))
        end
  | EnumMember e m => member e m
  | Enum e => if member_count e =? 1 then member e 0 else remove_none
  | Literal _ => if negb is_eq || literals then Some (frames (split_off_singleton t other is_eq)) else remove_none
  | Class c _ => if c =? ellipsis then Some (frames (split_off_singleton t other is_eq)) else remove_none
  | _ => remove_none
  end.

(** ** [in] *)
Variable simplified_union : type -> type -> type.
Variable common_sub_type : type -> type -> option type.

(** A frame that may be unreachable *)
Inductive reached := Unreachable | Reached (f : frame).

(** crates/zuban_python/src/file/flow_analysis.rs:350-355 [from_type] *)
Definition from_type (f : frame) : reached :=
  match f with Some Never => Unreachable | f => Reached f end.

(** crates/zuban_python/src/file/flow_analysis.rs:1087-1149 [merge_or], for one name that is narrowed *)
Definition merge_or (x y : reached) : reached :=
  match x, y with
  | Unreachable, y => y
  | x, Unreachable => x
  | Reached (Some t), Reached (Some u) => Reached (Some (simplified_union t u))
  | _, _ => Reached None
  end.

(** crates/zuban_python/src/file/flow_analysis.rs:1182-1212 [merge_and], for one name that is narrowed *)
Definition merge_and (x y : reached) : reached :=
  match x, y with
  | Unreachable, _ | _, Unreachable => Unreachable
  | Reached None, y => y
  | x, Reached None => x
  | Reached (Some t), Reached (Some u) =>
      match common_sub_type t u with Some r => Reached (Some r) | None => Unreachable end
  end.

(** One round of the [fold] in crates/zuban_python/src/file/flow_analysis.rs:4620-4734 [guard_of_in_operator]; [literals] is the flag of [narrow_is_or_eq] for an entry *)
Definition narrow_in_entry (t : type) (literals : type -> bool) (r : option (reached * reached)) (entry : type) : option (reached * reached) :=
  match r with
  | None => None
  | Some (tr, fa) =>
      match narrow_is_or_eq t entry true (literals entry) with
      | Some (new_tr, new_fa) => Some (merge_or tr (from_type new_tr), merge_and fa (from_type new_fa))
      | None => None
      end
  end.

Definition narrow_in_tuple (t : type) (entries : list type) (literals : type -> bool) : option (reached * reached) :=
  fold_left (narrow_in_entry t literals) entries (Some (Unreachable, Reached None)).

(** crates/zuban_python/src/file/flow_analysis.rs:5415-5422 [removed_optional] *)
Definition removed_optional (t : type) : option type :=
  if mem NoneType (parts t) then Some (retain_in_union (fun u => negb (same u NoneType)) t) else None.

Variable overlaps : type -> type -> bool.           (* [simple_overlaps] *)
Variable container_item : type -> option type.      (* crates/zuban_python/src/file/flow_analysis.rs:5373-5413 [stdlib_container_item] *)

(** crates/zuban_python/src/file/flow_analysis.rs:4620-4734 [guard_of_in_operator], without TypedDicts and for [in] *)
Definition narrow_in (t container : type) (literals : type -> bool) : option (reached * reached) :=
  match match container with Tuple (FixedLen entries) => narrow_in_tuple t entries literals | _ => None end with
  | Some r => Some r
  | None =>
      match container_item container with
      | Some item =>
          if negb (mem NoneType (parts item)) && overlaps t item then
            match removed_optional t with Some u => Some (from_type (Some u), Reached None) | None => None end
          else None
      | None => None
      end
  end.

(** ** [type(x) is C] *)
Variable is_final : N -> bool.
Variable same_type : type -> type -> bool.     (* [is_simple_same_type] *)

(** crates/zuban_python/src/file/flow_analysis.rs:5466-5535 [check_for_comparison_guard] for [type(x)]; the other side is [type[c]] *)
Definition narrow_type_of (t c : type) : option (frame * frame) :=
  let narrowed final :=
    Some (Some (if accepts t c then c else Never), if final : bool then Some (retain_in_union (fun u => negb (same_type u c)) t) else None) in
  match c with
  | Any => None
  | Class d _ => if is_metaclass p d then None else narrowed (is_final d)
  | _ => narrowed false
  end.

(** ** Truth *)
Variable returned_by : N -> bool -> returned.       (* by the [__bool__] (or, with false, by the [__len__]) of a class *)
Variable enum_returned_by : N -> bool -> returned.  (* of an enum *)
Variable named_tuple : N -> option N.
Variable empty : N.                                 (* the text of [""] *)

Definition always_true (t : type) : option sides := Some (t, Never).
Definition always_false (t : type) : option sides := Some (Never, t).

(** [check_literal] in [split_truthy_and_falsey_t] *)
Definition check_literal (t : type) (l : literal) : option sides :=
  match l with
  | LBool b => if b then always_true t else always_false t
  | LInt n _ => if n =? 0 then always_false t else always_true t
  | _ => None
  end.

(** [narrow_by_return_literal] in [split_truthy_and_falsey_t]: [None] is no such method *)
Definition narrow_by_return_literal (t : type) (r : returned) : option (option sides) :=
  match r with NoMethod => None | Anything => Some None | Always l => Some (check_literal t l) end.

Definition or_else {A} (o : option A) (d : A) : A := match o with Some x => x | None => d end.

Definition split_single (t : type) : option sides :=
  let check_enum e :=
    or_else (narrow_by_return_literal t (enum_returned_by e true))
      (or_else (narrow_by_return_literal t (enum_returned_by e false)) (always_true t)) in
  match t with
  | NoneType => always_false t
  | Literal l => check_literal t l
  | Tuple (ArbitraryLen u) => Some (of_variable_len [u] u [], of_fixed_len [])
  | Class c _ =>
      if c =? bool_class p then Some (Literal (LBool true), Literal (LBool false))
      else if c =? int_class p then Some (t, Literal (LInt 0 false))
      else if c =? str_class p then Some (t, Literal (LStr empty))
      else if c =? bytes_class p then Some (t, Literal (LBytes empty))
      else
        or_else (narrow_by_return_literal t (returned_by c true))
          match named_tuple c with
          | Some n => check_literal t (LInt n false)
          | None => or_else (narrow_by_return_literal t (returned_by c false)) (if is_final c then always_true t else None)
          end
  | EnumMember e _ | Enum e => check_enum e
  | _ => None
  end.

Definition either (o : option sides) (t : type) : sides := or_else o (t, t).

Definition join_sides (s r : sides) : sides := (join (fst s) (fst r), join (snd s) (snd r)).

(** crates/zuban_python/src/file/flow_analysis.rs:1570-1684 [split_truthy_and_falsey_t] *)
Fixpoint split_truthy_and_falsey (t : type) : option sides :=
  match t with
  | Union ts =>
      let results := map (fun t => (t, split_truthy_and_falsey t)) ts in
      if existsb (fun r => match snd r with Some _ => true | None => false end) results then
        Some (fold_left (fun s r => join_sides s (either (snd r) (fst r))) results nothing)
      else None
  | Never => Some nothing
  | _ => split_single t
  end.

(** ** The types of [x or y] and [x and y] *)
(** crates/zuban_python/src/file/flow_analysis.rs:5170-5176 [TruthyInferred] *)
Inductive inferred := Simple (t : type) (truthiness : option bool) | OneOf (l : list inferred).

Section Operands.
Variable simplified_union_of : list type -> type.    (* [simplified_union_from_iterators] *)

(** crates/zuban_python/src/file/flow_analysis.rs:5188-5196 [as_cow_type] *)
Fixpoint as_type (i : inferred) : type :=
  match i with Simple t _ => t | OneOf l => simplified_union_of (map as_type l) end.

(** crates/zuban_python/src/file/flow_analysis.rs:1535-1568 [split_truthy_and_falsey] *)
Fixpoint split_inferred (i : inferred) : option sides :=
  match i with
  | Simple t None => split_truthy_and_falsey t
  | Simple t (Some true) => always_true t
  | Simple t (Some false) => always_false t
  | OneOf l => Some (fold_left (fun s r => join_sides s (either (snd r) (as_type (fst r)))) (map (fun i => (i, split_inferred i)) l) nothing)
  end.

(** crates/zuban_python/src/file/flow_analysis.rs:5198-5210 [combine] *)
Definition combine (i j : inferred) : inferred :=
  let l := match j with OneOf l => l | j => [j] end in
  match i with OneOf k => OneOf (k ++ l) | i => OneOf (i :: l) end.

(** crates/zuban_python/src/file/flow_analysis.rs:2957-3020 [check_disjunction]; the right side is not looked at if the left one is never false *)
Definition check_disjunction (left : inferred) (right : option inferred) : inferred :=
  match right with
  | None => left
  | Some j => combine (Simple (match split_inferred left with Some (truthy, _) => truthy | None => as_type left end) (Some true)) j
  end.

(** crates/zuban_python/src/file/flow_analysis.rs:2889-2945 [check_conjunction] *)
Definition check_conjunction (left : inferred) (right : option inferred) : inferred :=
  match right with
  | None => left
  | Some j => combine (Simple (match split_inferred left with Some (_, falsey) => falsey | None => as_type left end) (Some false)) j
  end.
End Operands.
End Narrow.
