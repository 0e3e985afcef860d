(** * C82: names that the body of a dataclass binds are found before those that are generated *)
From Coq Require Import List Bool Arith.
From Verif Require Import DataNamesModel DataNamesSpec DataNames.
Import ListNotations.

Definition usual_options := mk_options true true false false.
Definition object_class := mk_class None [Init].
Lemma object_not_replaced : forall n, ~ replaced object_class n.
Proof. intros n [_ (o & E & _)]. discriminate. Qed.

(** On an object a name is found where Python finds it, if no base binds what it would generate.
    Missing: such bases, see [C82_inherited_refuted].  With slots and methods for the order such a class is an error in Python. *)
Theorem C82_instance_partial : forall c bases n k r, Forall (fun b => ~ replaced b n) bases ->
  (lookup_on_instance c bases n = Some (k, r) <-> attribute (c :: bases) n k r).
Proof. intros c bases n k r F. rewrite (instance_first c bases n F). apply first_exact. Qed.
(** Own [__match_args__] below a dataclass that generates it *)
Example C82_instance_case :
  let base := mk_class (Some usual_options) [Other 0] in let c := mk_class (Some usual_options) [MatchArgs; Other 1] in
  Forall (fun b => ~ replaced b MatchArgs) [base; object_class] /\
  lookup_on_instance c [base; object_class] MatchArgs = Some (0, InBody) /\ lookup_on_instance c [base; object_class] (Other 0) = Some (1, InBody).
Proof.
  cbn zeta. repeat split. constructor; [|constructor; [apply object_not_replaced|constructor]].
  intros [[A|[]] _]. discriminate.
Qed.

(** The [__init__] that is called for a new object is the one of Python, under the same condition. *)
Theorem C82_constructor_partial : forall c bases k r, Forall (fun b => ~ replaced b Init) bases ->
  (constructor c bases = Some (k, r) <-> attribute (c :: bases) Init k r).
Proof. intros c bases k r F. rewrite constructor_instance. now apply C82_instance_partial. Qed.
Example C82_constructor_case :
  constructor (mk_class (Some usual_options) [Init; Other 0]) [object_class] = Some (0, InBody) /\
  constructor (mk_class (Some usual_options) [Other 0]) [object_class] = Some (0, Generated) /\
  constructor (mk_class (Some (mk_options false true false false)) [Other 0]) [mk_class (Some usual_options) []; object_class] = Some (1, Generated).
Proof. repeat split. Qed.
(** For all bases: a name in the body is found there, and one that is generated otherwise. *)
Theorem C82_own : forall c bases n,
  (bound c n -> lookup_on_instance c bases n = Some (0, InBody)) /\
  (~ bound c n -> made c n -> lookup_on_instance c bases n = Some (0, Generated)).
Proof.
  intros c bases n. split.
  - intro B. apply in_body_bound in B. unfold lookup_on_instance, class_lookup, own_symbol. rewrite B.
    destruct (c_data c); [|reflexivity]. now rewrite andb_false_r.
  - intros B (o & D & M). apply not_bound in B. apply internal_makes in M. unfold lookup_on_instance. now rewrite D, M, B.
Qed.

(** On the class itself it is the same, except for [__init__] and for names that the body binds although they are generated. *)
Theorem C82_type_partial : forall c bases n k r, Forall (fun b => ~ replaced b n) (c :: bases) -> (n = Init -> ~ made c n) ->
  (lookup_on_type c bases n = Some (k, r) <-> attribute (c :: bases) n k r).
Proof.
  intros c bases n k r F N. apply Forall_cons_iff in F. destruct F as [A F].
  rewrite type_instance; [now apply C82_instance_partial|assumption|]. intro E. left. auto.
Qed.
Example C82_type_case :
  let c := mk_class (Some (mk_options false true false true)) [Other 0] in
  Forall (fun b => ~ replaced b (OrderMethod 2)) [c; object_class] /\
  lookup_on_type c [object_class] (OrderMethod 2) = Some (0, Generated) /\ lookup_on_type c [object_class] Init = Some (1, InBody).
Proof.
  cbn zeta. repeat split. constructor; [|constructor; [apply object_not_replaced|constructor]].
  intros [[A|[]] _]. discriminate.
Qed.

(** A class below a dataclass with its own [__init__] is called with the generated one. *)
Theorem C82_inherited_refuted : exists c base, c_data c = None /\ c_data base = Some usual_options /\ bound base Init /\
  constructor c [base; object_class] = Some (1, Generated) /\ attribute [c; base; object_class] Init 1 InBody.
Proof.
  exists (mk_class None [Other 1]), (mk_class (Some usual_options) [Init; Other 0]). repeat split; [now left|].
  apply first_exact. reflexivity.
Qed.
(** The [__init__] of a dataclass, as an attribute of the class, is that of a base. *)
Theorem C82_type_init_refuted : exists c, c_data c = Some usual_options /\
  lookup_on_type c [object_class] Init = Some (1, InBody) /\ attribute [c; object_class] Init 0 Generated /\
  lookup_on_instance c [object_class] Init = Some (0, Generated).
Proof. exists (mk_class (Some usual_options) [Other 0]). repeat split. apply first_exact. reflexivity. Qed.
(** [__match_args__] in the body is found on an object, but not on the class. *)
Theorem C82_type_match_args_refuted : exists c, c_data c = Some usual_options /\
  lookup_on_type c [object_class] MatchArgs = Some (0, Generated) /\ attribute [c; object_class] MatchArgs 0 InBody /\
  lookup_on_instance c [object_class] MatchArgs = Some (0, InBody).
Proof. exists (mk_class (Some usual_options) [MatchArgs; Other 0]). repeat split. apply first_exact. reflexivity. Qed.

Print Assumptions C82_instance_partial.
Print Assumptions C82_constructor_partial.
Print Assumptions C82_own.
Print Assumptions C82_type_partial.
Print Assumptions C82_inherited_refuted.
Print Assumptions C82_type_init_refuted.
Print Assumptions C82_type_match_args_refuted.
