(** * C81: the hash, order and frozen checks of dataclasses are those of Python *)
From Coq Require Import List Bool String.
From Verif Require Import DataMethodsModel DataMethodsSpec DataMethods.
Import ListNotations.
Open Scope string_scope.
Open Scope list_scope.

Definition default_options := mk_options true false (Some false) false.
Definition frozen_options := mk_options true false (Some true) false.
Definition object_class := mk_class None (Some true) ["__eq__"; "__hash__"].

(** Where the bases have in their dictionaries what their bodies bind, the [__hash__] of a dataclass is that of Python.
    Missing: the bases that get or lose [__hash__] by a decorator or by [__eq__], and the three cases for the class itself; all of them are refuted below. *)
Theorem C81_hash_partial : forall c bases o h, c_data c = Some o ->
  Forall (fun b => in_dict b (c_hash b)) bases ->
  (c_hash c = Some false -> ~ has_eq c) ->
  (unsafe_hash o = true -> c_hash c = None) ->
  (has_eq c -> c_hash c = None -> o_eq o = true) ->
  (c_hash c = None -> unsafe_hash o = true \/ (o_eq o = true /\ frozen o = Some true) -> py_hash bases true) ->
  (lookup_hash c bases = Some h <-> py_hash (c :: bases) h).
Proof.
  intros c bases o h D F N U Q P. apply hash_exact with o; auto.
  intros A B. apply (kept_lookup bases true F). auto.
Qed.
Lemma object_kept : in_dict object_class (c_hash object_class).
Proof. apply dict_plain; [reflexivity|]. now apply body_given. Qed.
(** A dataclass that is frozen, below a class with a [__hash__] of its own *)
Example C81_hash_case :
  let base := mk_class None (Some true) ["__hash__"] in let c := mk_class (Some frozen_options) None ["x"] in
  Forall (fun b => in_dict b (c_hash b)) [base; object_class] /\ lookup_hash c [base; object_class] = Some true /\ py_hash [c; base; object_class] true.
Proof.
  cbn zeta. repeat split.
  - constructor; [|constructor; [apply object_kept|constructor]]. apply dict_plain; [reflexivity|]. now apply body_given.
  - apply py_here. apply dict_add with frozen_options; try reflexivity. intros [A|[A _]]; discriminate.
Qed.
Example C81_hash_none_case :
  let c := mk_class (Some default_options) None ["x"] in lookup_hash c [object_class] = Some false.
Proof. reflexivity. Qed.

(** With the default options and no [__hash__] in the body a dataclass is not hashable, whatever the bases are. *)
Theorem C81_unhashable : forall c bases o, c_data c = Some o -> c_hash c = None ->
  o_eq o = true -> unsafe_hash o = false -> frozen o <> Some true ->
  lookup_hash c bases = Some false /\ py_hash (c :: bases) false.
Proof. exact options_none. Qed.
Example C81_unhashable_case :
  let c := mk_class (Some default_options) None ["x"; "__eq__"] in
  lookup_hash c [mk_class None (Some true) []; object_class] = Some false.
Proof. reflexivity. Qed.
(** For a class that is no dataclass it is that of Python as well, under the same condition on all the classes. *)
Theorem C81_plain_partial : forall c bases h, c_data c = None -> Forall (fun b => in_dict b (c_hash b)) (c :: bases) ->
  (lookup_hash c bases = Some h <-> py_hash (c :: bases) h).
Proof. intros c bases h D F. unfold lookup_hash. rewrite D. now apply kept_lookup. Qed.
Example C81_plain_case :
  let c := mk_class None (Some false) ["__hash__"] in
  Forall (fun b => in_dict b (c_hash b)) [c; object_class] /\ lookup_hash c [object_class] = Some false.
Proof.
  cbn zeta. split; [|reflexivity]. constructor; [|constructor; [apply object_kept|constructor]].
  apply dict_plain; [reflexivity|]. now apply body_given.
Qed.
(** There is at most one [__hash__] in Python. *)
Theorem C81_one_hash : forall mro h1 h2, py_hash mro h1 -> py_hash mro h2 -> h1 = h2.
Proof. exact py_hash_fun. Qed.

(** A class that is no dataclass, below one that is not hashable, is found hashable. *)
Theorem C81_subclass_refuted : exists c base, c_data c = None /\ c_data base = Some default_options /\
  lookup_hash c [base; object_class] = Some true /\ py_hash [c; base; object_class] false.
Proof.
  exists (mk_class None None ["y"]), (mk_class (Some default_options) None ["x"]). repeat split.
  apply py_above.
  - apply dict_plain; [reflexivity|]. apply body_none; [reflexivity|]. intros [A|[]]. discriminate.
  - apply py_here. apply dict_none with default_options; try reflexivity; [discriminate|]. intros [A|[A _]]; discriminate.
Qed.
(** A class with [__eq__] and without [__hash__] is found hashable; so is a dataclass with it and [eq=False]. *)
Theorem C81_eq_refuted : exists o c d, c_data c = None /\ c_data d = Some o /\ o_eq o = false /\
  lookup_hash c [object_class] = Some true /\ py_hash [c; object_class] false /\
  lookup_hash d [object_class] = Some true /\ py_hash [d; object_class] false.
Proof.
  exists (mk_options false false (Some false) false), (mk_class None None ["__eq__"]), (mk_class (Some (mk_options false false (Some false) false)) None ["__eq__"]).
  repeat split; apply py_here.
  - apply dict_plain; [reflexivity|]. apply body_eq; [reflexivity|now left].
  - eapply dict_no_eq; try reflexivity. apply body_eq; [reflexivity|now left].
Qed.
(** A frozen dataclass gets a [__hash__], but below a class that has none it is found not to be hashable. *)
Theorem C81_frozen_hash_refuted : exists c base, c_data c = Some frozen_options /\ c_hash base = Some false /\
  lookup_hash c [base; object_class] = Some false /\ py_hash [c; base; object_class] true.
Proof.
  exists (mk_class (Some frozen_options) None ["x"]), (mk_class None (Some false) ["__hash__"]). repeat split.
  apply py_here. apply dict_add with frozen_options; try reflexivity. intros [A|[A _]]; discriminate.
Qed.
(** With [unsafe_hash] and a [__hash__] in the body the decorator raises; nothing is reported. *)
Theorem C81_unsafe_refuted : exists o c, c_data c = Some o /\ (forall h, ~ in_dict c h) /\
  lookup_hash c [object_class] = Some true /\
  snd (check_options o) ++ order_issues o (c_names c) ++ frozen_issues o [object_class] = [].
Proof.
  exists (mk_options true false (Some false) true), (mk_class (Some (mk_options true false (Some false) true)) (Some true) ["__hash__"]).
  repeat split. intros h A. inversion A as [? ? D| ? o D U N | ? o ? D U | ? o D U | ? o D U | ? o D U]; cbn in D; try discriminate; injection D as <-; try discriminate.
  apply N. now left.
Qed.

(** An issue about [frozen] is added exactly when the decorator raises because of a base, and it is the one for the class. *)
Theorem C81_frozen : forall o bases,
  (frozen_issues o bases <> [] <-> frozen_clash o bases) /\
  (forall i, In i (frozen_issues o bases) -> (frozen o = Some true /\ i = FrozenFromNonFrozen) \/ (frozen o = Some false /\ i = NonFrozenFromFrozen)).
Proof. intros o bases. split; [apply frozen_exact|apply frozen_kind]. Qed.
Example C81_frozen_case :
  frozen_issues default_options [mk_class None None []; mk_class (Some frozen_options) None []; object_class] = [NonFrozenFromFrozen].
Proof. reflexivity. Qed.

(** An issue about [order] is added exactly when the decorator raises because of it, and every method in the way is named. *)
Theorem C81_order : forall o names,
  (snd (check_options o) ++ order_issues (fst (check_options o)) names <> [] <-> order_clash o names) /\
  (forall m, In (CustomOrderMethod m) (order_issues o names) <-> order o = true /\ In m names /\ In m ["__lt__"; "__le__"; "__gt__"; "__ge__"]).
Proof. intros o names. split; [apply order_exact|apply order_member]. Qed.
Example C81_order_case :
  order_issues (mk_options true true (Some false) false) ["x"; "__ge__"; "__lt__"] = [CustomOrderMethod "__lt__"; CustomOrderMethod "__ge__"].
Proof. reflexivity. Qed.
(** Afterwards a dataclass with [order] has [eq], and nothing else is changed. *)
Theorem C81_options : forall o, let o' := fst (check_options o) in
  (order o' = true -> o_eq o' = true) /\ (order o = false -> o' = o) /\ (o_eq o = true -> o' = o) /\
  order o' = order o /\ frozen o' = frozen o /\ unsafe_hash o' = unsafe_hash o.
Proof. intros [[|] [|] f u]; cbn; repeat split; congruence. Qed.

Print Assumptions C81_hash_partial.
Print Assumptions C81_plain_partial.
Print Assumptions C81_unhashable.
Print Assumptions C81_one_hash.
Print Assumptions C81_subclass_refuted.
Print Assumptions C81_eq_refuted.
Print Assumptions C81_frozen_hash_refuted.
Print Assumptions C81_unsafe_refuted.
Print Assumptions C81_frozen.
Print Assumptions C81_order.
Print Assumptions C81_options.
