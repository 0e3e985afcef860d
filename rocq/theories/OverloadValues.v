(** The values of the types of OverloadTypes.  No function of the model is used. *)
From Coq Require Import List NArith Arith Bool.
From Verif Require Import OverloadTypes.
Import ListNotations.

(** [Other] stands for every value that is neither a bool nor a member of an enum nor a tuple. *)
Inductive value : Type :=
| Other (n : N)
| BoolValue (b : bool)
| MemberValue (e : N) (i : nat)
| TupleValue (l : list value).

Section Values.
(** The values of a class, and those of type[t], type[type[t]], ... where [t] is not a union: arbitrary *)
Variable instance : N -> value -> Prop.
Variable class_object : nat -> type -> value -> Prop.

(** [has d t v]: [v] is a value of the type [t] inside of [d] times [type[...]]. *)
Fixpoint has (d : nat) (t : type) (v : value) : Prop :=
  match t with
  | Union u us => has d u v \/ (fix any (l : list type) : Prop := match l with [] => False | x :: l => has d x v \/ any l end) us
  | TypeOf t => has (S d) t v
  | _ =>
      match d with
      | S _ => class_object d t v
      | 0 =>
          match t with
          | Class n => instance n v
          | Bool => exists b, v = BoolValue b
          | BoolLiteral b => v = BoolValue b
          | Enum e n => exists i, i < n /\ v = MemberValue e i
          | EnumMember e n i => i < n /\ v = MemberValue e i
          | Tuple ts =>
              exists l, v = TupleValue l /\
                (fix all2 (ts : list type) (l : list value) : Prop :=
                   match ts, l with [], [] => True | t :: ts, v :: l => has 0 t v /\ all2 ts l | _, _ => False end) ts l
          | Any => True
          | _ => False
          end
      end
  end.

(** [v] is a value of the type [t]. *)
Definition value_of (t : type) (v : value) : Prop := has 0 t v.

End Values.

(** How many members an item of a tuple is replaced by, and the tuples for which all combinations of them
    are tried: no two of these numbers have a common divisor. *)
Fixpoint regular (t : type) : Prop :=
  match t with
  | Tuple items =>
      (fix all (l : list type) : Prop := match l with [] => True | x :: l => regular x /\ all l end) items /\
      forall i j t u us vs, i < j -> nth_error items i = Some t -> nth_error items j = Some u ->
        maybe_union_like_with_materializations t = Some us -> maybe_union_like_with_materializations u = Some vs ->
        Nat.gcd (length us) (length vs) = 1
  | _ => True
  end.

(** No Any in the type *)
Fixpoint static (t : type) : Prop :=
  match t with
  | Any => False
  | Union u us => static u /\ (fix all (l : list type) : Prop := match l with [] => True | x :: l => static x /\ all l end) us
  | Tuple items => (fix all (l : list type) : Prop := match l with [] => True | x :: l => static x /\ all l end) items
  | TypeOf t => static t
  | _ => True
  end.
