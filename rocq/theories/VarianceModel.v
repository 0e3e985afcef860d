(** Model of the inference of the variance of type variables: crates/zuban_python/src/type_helpers/class.rs,
    crates/zuban_python/src/file/type_computation/class.rs, crates/zuban_python/src/file/diagnostics.rs.

    Simplifications: types are type variables, instances, functions with positional parameters, tuples, unions and Any; type variables have
    no bounds; the types of the members are given, so that [check_narrowed] and lookups in base classes are left out; overloads and
    TypedDicts are left out. *)
From Coq Require Import Ascii String List Bool PeanoNat.
Import ListNotations.
Open Scope string_scope.
Open Scope nat_scope.
Open Scope list_scope.

(** crates/zuban_python/src/type_/type_var_likes.rs:379-401 (Variance) *)
Inductive variance := Invariant | Covariant | Contravariant.
Definition invert (v : variance) : variance :=
  match v with Covariant => Contravariant | Contravariant => Covariant | Invariant => Invariant end.

Inductive type :=
| Var (x : nat)
| Any
| Instance (c : nat) (arguments : list type)
| Function (parameters : list type) (result : type)
| Tuple (items : list type)
| Union (members : list type).
Definition object : type := Instance 0 [].

Fixpoint same (t u : type) {struct t} : bool :=
  let fix all ts us :=
    match ts, us with
    | [], [] => true
    | t :: ts, u :: us => same t u && all ts us
    | _, _ => false
    end in
  match t, u with
  | Var x, Var y => x =? y
  | Any, Any => true
  | Instance c ts, Instance d us => (c =? d) && all ts us
  | Function ps r, Function qs s => all ps qs && same r s
  | Tuple ts, Tuple us => all ts us
  | Union ts, Union us => all ts us
  | _, _ => false
  end.

(** The types without type variable [x] are unchanged; the result tells of a change.
    crates/zuban_python/src/type_/replace.rs:48-64 (replace_type_var_likes) *)
Fixpoint replace (x : nat) (by_ : type) (t : type) : type :=
  match t with
  | Var y => if x =? y then by_ else t
  | Any => Any
  | Instance c ts => Instance c (map (replace x by_) ts)
  | Function ps r => Function (map (replace x by_) ps) (replace x by_ r)
  | Tuple ts => Tuple (map (replace x by_) ts)
  | Union ts => Union (map (replace x by_) ts)
  end.
Fixpoint mentions (x : nat) (t : type) : bool :=
  match t with
  | Var y => x =? y
  | Any => false
  | Instance _ ts | Tuple ts | Union ts => existsb (mentions x) ts
  | Function ps r => existsb (mentions x) ps || mentions x r
  end.

Fixpoint size (t : type) : nat :=
  match t with
  | Var _ | Any => 1
  | Instance _ ts | Tuple ts | Union ts => S (list_sum (map size ts))
  | Function ps r => S (list_sum (map size ps) + size r)
  end.

Fixpoint all2 {A B} (f : A -> B -> bool) (l : list A) (m : list B) : bool :=
  match l, m with
  | [], [] => true
  | a :: l, b :: m => f a b && all2 f l m
  | _, _ => false
  end.

Section Program.
(** Whether an instance is one of another class, by the MRO (SubtypeModel.v) *)
Variable inherits : nat -> list type -> nat -> list type -> bool.
(** The variance of the type variables of a class, as far as it is known *)
Variable table : nat -> nat -> variance.

Fixpoint arguments_match (le : type -> type -> bool) (c i : nat) (ts us : list type) : bool :=
  match ts, us with
  | t :: ts, u :: us =>
      match table c i with
      | Covariant => le t u
      | Contravariant => le u t
      | Invariant => same t u
      end && arguments_match le c (S i) ts us
  | _, _ => true
  end.

(** [t] is assignable to [u]; the fuel is the size of both.
    crates/zuban_python/src/type_/matching.rs:23-289 (is_super_type_of, matches_internal), crates/zuban_python/src/type_/matching.rs:683-748 [matches_class],
    crates/zuban_python/src/type_/matching.rs:295-297 [is_simple_sub_type_of] *)
Fixpoint sub (fuel : nat) (t u : type) : bool :=
  match fuel with
  | O => false
  | S fuel =>
      match t, u with
      | Any, _ | _, Any => true
      | Union ts, _ => forallb (fun t => sub fuel t u) ts
      | _, Union us => existsb (fun u => sub fuel t u) us
      | _, Instance 0 [] => true
      | Var x, Var y => x =? y
      | Instance c ts, Instance d us => if c =? d then arguments_match (sub fuel) c 0 ts us else inherits c ts d us
      | Function ps r, Function qs s => all2 (fun p q => sub fuel q p) ps qs && sub fuel r s
      | Tuple ts, Tuple us => all2 (sub fuel) ts us
      | _, _ => false
      end
  end.
Definition is_sub_type (t u : type) : bool := sub (size t + size u) t u.

(** crates/zuban_python/src/type_helpers/class.rs:2238-2258 [check_type_var_variance_validity_for_type] *)
Definition check (x : nat) (t : type) : option (bool * bool) :=
  if mentions x t then Some (is_sub_type t (replace x object t), is_sub_type (replace x object t) t) else None.

(** crates/zuban_python/src/file/diagnostics.rs:3458-3490 [check_type_var_variance_for_base]: whether a base is reported for a type variable
    that is declared with a variance *)
Definition base_reported (declared : variance) (x : nat) (base : type) : bool :=
  match declared with
  | Invariant => false
  | _ =>
      match check x base with
      | None | Some (true, true) => false
      | Some (false, true) => match declared with Contravariant => false | _ => true end
      | Some (false, false) => true
      | Some (true, false) => match declared with Covariant => false | _ => true end
      end
  end.

(** crates/zuban_python/src/inferred.rs:3235-3254 (AttributeKind); a setter has the type of its value. *)
Inductive kind := AnnotatedAttribute | Attribute | ClassVar | Final | Property (setter : option type) | Method.
(** crates/zuban_python/src/inferred.rs:3293-3304 [is_writable] *)
Definition is_writable (k : kind) : bool :=
  match k with
  | AnnotatedAttribute | Attribute | ClassVar | Property (Some _) => true
  | Final | Property None | Method => false
  end.

Definition name := list ascii.
Fixpoint starts_with (p n : name) : bool :=
  match p, n with
  | [], _ => true
  | c :: p, d :: n => if ascii_dec c d then starts_with p n else false
  | _ :: _, [] => false
  end.
Definition ends_with (p n : name) : bool := starts_with (rev p) (rev n).
Definition text : string -> name := list_ascii_of_string.
(** crates/zuban_python/src/utils.rs:198-200 [is_magic_method] *)
Definition is_magic_method (n : name) : bool := starts_with (text "__") n && ends_with (text "__") n.
Definition is_underscored (n : name) : bool := starts_with (text "_") n && negb (is_magic_method n).

Record member := mk_member { m_name : name; m_kind : kind; m_type : type }.
Definition skipped (n : name) : bool :=
  existsb (fun s => if list_eq_dec ascii_dec (text s) n then true else false) ["__init__"; "__new__"; "__init_subclass__"].

(** crates/zuban_python/src/type_helpers/class.rs:1937-1977 [erase_return_self_type] *)
Definition erase_return_self_type (self : nat) (t : type) : type :=
  match t with
  | Function ps (Instance c _) => if c =? self then Function ps Any else t
  | _ => t
  end.

(** The attribute of a frozen dataclass: crates/zuban_python/src/type_helpers/class.rs:1877-1891 (infer_variance_for_index) *)
Definition effective_kind (frozen : bool) (k : kind) : kind :=
  match k with AnnotatedAttribute => if frozen then Property None else k | _ => k end.

(** The loop over the bases; None is the early return of Invariant.
    crates/zuban_python/src/type_helpers/class.rs:1782-1790 (infer_variance_for_index) *)
Fixpoint through_bases (x : nat) (bases : list type) (st : bool * bool) : option (bool * bool) :=
  match bases with
  | [] => Some st
  | b :: bases =>
      match check x b with
      | None => through_bases x bases st
      | Some (co, contra) =>
          let st := (fst st && co, snd st && contra) in
          match st with (false, false) => None | _ => through_bases x bases st end
      end
  end.

(** crates/zuban_python/src/type_helpers/class.rs:1895-1930 (infer_variance_for_index) *)
Fixpoint through_members (self : nat) (frozen : bool) (x : nat) (members : list member) (st : bool * bool) : option (bool * bool) :=
  match members with
  | [] => Some st
  | m :: members =>
      if skipped (m_name m) then through_members self frozen x members st
      else
        match check x (erase_return_self_type self (m_type m)) with
        | None => through_members self frozen x members st
        | Some (co, contra) =>
            let write := negb contra && is_writable (effective_kind frozen (m_kind m)) && negb (is_underscored (m_name m)) in
            let st := (fst st && co && negb write, snd st && contra) in
            match st with (false, false) => None | _ => through_members self frozen x members st end
        end
  end.

(** crates/zuban_python/src/type_helpers/class.rs:1763-1935 [infer_variance_for_index]; None is the panic of [unreachable!]. *)
Definition infer (self : nat) (frozen : bool) (bases : list type) (members : list member) (x : nat) : option variance :=
  match through_bases x bases (true, true) with
  | None => Some Invariant
  | Some st =>
      match through_members self frozen x members st with
      | None => Some Invariant
      | Some (false, true) => Some Contravariant
      | Some (false, false) => None
      | Some (true, _) => Some Covariant
      end
  end.
End Program.

(** The variance that is used for the type variable of a class whose variance is not there yet.
    crates/zuban_python/src/type_/type_var_likes.rs:1043-1070 [inferred_variance] *)
Definition set (table : nat -> nat -> variance) (c x : nat) (v : variance) : nat -> nat -> variance :=
  fun d y => if (d =? c) && (y =? x) then v else table d y.

Record class := mk_class { c_self : nat; c_frozen : bool; c_bases : list type; c_members : list member }.

(** The type variables [x], ... of the class, one after the other; those that are not there yet are covariant.
    crates/zuban_python/src/file/type_computation/class.rs:259-297 [infer_variance_of_type_params] *)
Fixpoint fallback (table : nat -> nat -> variance) (c : nat) (xs : list nat) : nat -> nat -> variance :=
  match xs with [] => table | x :: xs => set (fallback table c xs) c x Covariant end.
Fixpoint infer_each (inherits : nat -> list type -> nat -> list type -> bool) (table : nat -> nat -> variance) (k : class) (xs : list nat)
    : option (nat -> nat -> variance) :=
  match xs with
  | [] => Some table
  | x :: xs =>
      match infer inherits table (c_self k) (c_frozen k) (c_bases k) (c_members k) x with
      | Some v => infer_each inherits (set table (c_self k) x v) k xs
      | None => None
      end
  end.
Definition infer_class (inherits : nat -> list type -> nat -> list type -> bool) (table : nat -> nat -> variance) (k : class) (xs : list nat)
    : option (nat -> nat -> variance) := infer_each inherits (fallback table (c_self k) xs) k xs.
