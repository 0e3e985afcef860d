(** C48: two types are found equal ([assert_type]) exactly when they are the same. *)
From Coq Require Import List Arith Bool Permutation.
From Verif Require Import EqualModel EqualSpec EqualProofs.
Import ListNotations.

Definition t_int := TClass 1 [].
Definition t_str := TClass 2 [].
Definition t_list (t : ty) := TClass 3 [TypeArg t].
Definition t_tuple (l : list ty) := TTuple (FixedLen l).
Definition t_fn (l : list ty) (r : ty) := TCallable r (Simple (map (fun t => Param false None (PositionalOnly t)) l)) 0 None.

(** C48, for types in which all fixed tuples have the same length, all callables the same number of parameters, and classes the number of
    arguments that their definition has.  What is missing is refuted below. *)
Theorem C48_equal_iff_same_partial : forall n m arity a b,
  uniform n m arity a = true -> uniform n m arity b = true -> (is_equal_type false false a b = true <-> same a b).
Proof. intros n m arity a b. apply equal_right. Qed.

(** Reflexive, symmetric and transitive on them. *)
Theorem C48_equivalence_partial : forall n m arity a b c,
  uniform n m arity a = true -> uniform n m arity b = true -> uniform n m arity c = true ->
  is_equal_type false false a a = true /\
  is_equal_type false false a b = is_equal_type false false b a /\
  (is_equal_type false false a b = true -> is_equal_type false false b c = true -> is_equal_type false false a c = true).
Proof.
  intros n m arity a b c Ua Ub Uc.
  refine (conj _ (conj _ _)).
  - apply (equal_right n m arity); try assumption. apply same_refl.
  - apply eq_true_iff_eq. rewrite (equal_right n m arity a b Ua Ub), (equal_right n m arity b a Ub Ua). split; apply same_sym.
  - rewrite (equal_right n m arity a b Ua Ub), (equal_right n m arity b c Ub Uc), (equal_right n m arity a c Ua Uc). apply same_trans.
Qed.

(** The example: unions in a different order, with different reasons of the [Any]s. *)
Definition ex_arity (l : nat) : nat := if l =? 3 then 1 else 0.
Definition ex_a := TUnion [t_list (TAny 0); t_tuple [t_int; t_str]; t_fn [t_int] (TType t_str)].
Definition ex_b := TUnion [t_fn [t_int] (TType t_str); t_list (TAny 5); t_tuple [t_int; t_str]].
Definition ex_c := TUnion [t_fn [t_int] (TType t_str); t_list (TAny 5); t_tuple [t_str; t_int]].
Example equal_example :
  uniform 2 1 ex_arity ex_a = true /\ uniform 2 1 ex_arity ex_b = true /\ uniform 2 1 ex_arity ex_c = true /\
  is_equal_type false false ex_a ex_b = true /\ is_equal_type false false ex_a ex_c = false.
Proof. refine (conj _ (conj _ (conj _ (conj _ _)))); vm_compute; reflexivity. Qed.

(** Every type without a [TypeGuard] equals itself, in both modes. *)
Theorem C48_reflexive : forall mypy_compatible any_is_all t, guardless t = true -> is_equal_type mypy_compatible any_is_all t t = true.
Proof. exact equal_refl. Qed.
Example reflexive_example : guardless (TCallable (TClass 4 []) (Simple [Param true (Some 7) (KeywordOnly (TNamedTuple 3 (FixedLen [t_int])))]) 0 (Some (Guard true t_int))) = true.
Proof. reflexivity. Qed.

(** [assert_type(x, tuple[int, str])] says nothing about an [x] of type [tuple[int]], or [tuple[()]]. *)
Theorem C48_tuple_length_refuted : exists a b,
  is_equal_type false false (t_tuple a) (t_tuple b) = true /\ ~ same (t_tuple a) (t_tuple b) /\
  is_equal_type false false (t_tuple []) (t_tuple b) = true.
Proof.
  exists [t_int], [t_int; t_str]. refine (conj eq_refl (conj _ eq_refl)). intros H.
  inversion H as [| |? ? H'| | | | | | | | | | | | |]; subst. inversion H' as [|? ? F|]; subst. inversion F as [|? ? ? ? _ F']; subst. inversion F'.
Qed.

(** So it is not transitive. *)
Theorem C48_not_transitive_refuted : exists a b c,
  is_equal_type false false a b = true /\ is_equal_type false false b c = true /\ is_equal_type false false a c = false.
Proof. exists (t_tuple [t_int]), (t_tuple []), (t_tuple [t_str]). auto. Qed.

(** [Callable[[int], None]] and [Callable[[int, str], None]]. *)
Theorem C48_callable_arity_refuted : exists a b r,
  is_equal_type false false (t_fn a r) (t_fn b r) = true /\ ~ same (t_fn a r) (t_fn b r).
Proof.
  exists [t_int], [t_int; t_str], (TOther 0). refine (conj eq_refl _). intros H.
  inversion H as [| | | | |r1 r2 p1 p2 v g1 g2 H1 Hp H3 E1 E2| | | | | | | | | |]; subst. inversion Hp as [l1 l2 F E1 E2|]; subst. inversion F as [|x y l l' H4 F' E1 E2]; subst. inversion F'.
Qed.

(** Two different named tuples with the same member types. *)
Theorem C48_named_tuple_refuted : exists d e a, d <> e /\ is_equal_type false false (TNamedTuple d a) (TNamedTuple e a) = true.
Proof. exists 0, 1, (FixedLen [t_int]). split; [discriminate|reflexivity]. Qed.

(** [tuple[int, *tuple[str, ...]]] and [tuple[int, *tuple[int, ...]]]. *)
Theorem C48_unpack_refuted : exists u v,
  is_equal_type false false (TTuple (WithUnpack [t_int] u [])) (TTuple (WithUnpack [t_int] v [])) = true /\ ~ same_unpack u v.
Proof. exists (UArbitraryLen t_str), (UArbitraryLen t_int). split; [reflexivity|]. intros H. inversion H as [|? ? H']; subst. inversion H'. Qed.

(** A callable with a [TypeGuard] does not equal itself. *)
Theorem C48_type_guard_refuted : exists t, same t t /\ is_equal_type false false t t = false.
Proof. exists (TCallable (TClass 4 []) (Simple [Param false None (PositionalOnly t_int)]) 0 (Some (Guard false t_int))). split; [apply same_refl|reflexivity]. Qed.

(** With empty tuples, the order of the members of a union matters. *)
Theorem C48_union_order_refuted : exists l l', Permutation l l' /\ is_equal_type false false (TUnion l) (TUnion l') = false.
Proof.
  exists [t_tuple []; t_tuple [t_int]; t_tuple [t_str]], [t_tuple [t_str]; t_tuple []; t_tuple [t_int]]. split; [|reflexivity].
  apply (Permutation_trans (l' := [t_tuple []; t_tuple [t_str]; t_tuple [t_int]])); [apply perm_skip, perm_swap|apply perm_swap].
Qed.

Print Assumptions C48_equal_iff_same_partial.
Print Assumptions C48_equivalence_partial.
Print Assumptions C48_reflexive.
Print Assumptions C48_union_order_refuted.
