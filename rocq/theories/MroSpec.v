(** The linearization of Python (C3), independent of the code. *)
From Coq Require Import List Bool Arith.
Import ListNotations.

Definition in_tails (h : nat) (lists : list (list nat)) : Prop := exists l, In l lists /\ In h (tl l).

Definition drop_head (h : nat) (l : list nat) : list nat :=
  match l with x :: r => if Nat.eqb x h then r else l | [] => [] end.

(** The first elements of the non-empty lists, in order. *)
Fixpoint heads (lists : list (list nat)) : list nat :=
  match lists with
  | [] => []
  | [] :: r => heads r
  | (h :: _) :: r => h :: heads r
  end.

(** [c3_merge lists r]: repeatedly take the first head that is in no tail.  There is no [r] if this gets stuck. *)
Inductive c3_merge : list (list nat) -> list nat -> Prop :=
| c3_done : forall lists, (forall l, In l lists -> l = []) -> c3_merge lists []
| c3_step : forall lists before h after r,
    heads lists = before ++ h :: after ->
    ~ in_tails h lists ->
    (forall h', In h' before -> in_tails h' lists) ->
    c3_merge (map (drop_head h) lists) r ->
    c3_merge lists (h :: r).

(** The linearizations of the bases and the bases themselves are merged. *)
Definition python_mro (full : nat -> list nat) (bases : list nat) (r : list nat) : Prop :=
  c3_merge (map full bases ++ [bases]) r.

(** Programs: the bases of each class, in the order of definition; object is class 0 and the base of classes without
    bases.  [python_accepts defs table]: Python accepts all the definitions, with these linearizations. *)
Inductive python_accepts : list (list nat) -> list (list nat) -> Prop :=
| pa_nil : python_accepts [] [[0]]
| pa_class : forall defs table bases r,
    python_accepts defs table ->
    (forall b, In b bases -> b < length table) ->
    python_mro (fun b => nth b table []) (match bases with [] => [0] | _ => bases end) r ->
    python_accepts (defs ++ [bases]) (table ++ [length table :: r]).

(** [l] in the given order, possibly with others in between, is part of [r]. *)
Inductive subsequence : list nat -> list nat -> Prop :=
| sub_nil : subsequence [] []
| sub_take : forall x l r, subsequence l r -> subsequence (x :: l) (x :: r)
| sub_skip : forall x l r, subsequence l r -> subsequence l (x :: r).

(** [ancestor defs c a]: [a] is reached from [c] by going from classes to their bases; class [k + 1] is the [k]-th one. *)
Inductive ancestor (defs : list (list nat)) : nat -> nat -> Prop :=
| anc_base : forall k bases b, nth_error defs k = Some bases -> In b bases -> ancestor defs (S k) b
| anc_more : forall c b a, ancestor defs c b -> ancestor defs b a -> ancestor defs c a.

(** Python's view of a linearization that is stored without the class itself and without object. *)
Definition whole (c : nat) (mro : list nat) : list nat := match c with 0 => [0] | _ => c :: mro ++ [0] end.

(** Bases are defined earlier. *)
Definition well_scoped (defs : list (list nat)) : Prop :=
  forall k bases b, nth_error defs k = Some bases -> In b bases -> b <= k.
