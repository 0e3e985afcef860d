(** * Proofs about the methods that a dataclass gets *)
From Coq Require Import List Bool String.
From Verif Require Import DataMethodsModel DataMethodsSpec.
Import ListNotations.
Open Scope string_scope.
Open Scope list_scope.

Lemma has_eq_dec : forall c, {has_eq c} + {~ has_eq c}.
Proof. intro c. apply in_dec, string_dec. Qed.
Lemma body_fun : forall c h1 h2, body c h1 -> body c h2 -> h1 = h2.
Proof. intros c h1 h2 A B. inversion A; inversion B; subst; congruence || contradiction. Qed.
Lemma explicit_body : forall c, explicit c -> exists h, c_hash c = Some h.
Proof. intros c [A|[A _]]; eauto. Qed.
Lemma in_dict_fun : forall c h1 h2, in_dict c h1 -> in_dict c h2 -> h1 = h2.
Proof.
  intros c h1 h2 A B. inversion A; inversion B; subst; try congruence; try contradiction;
  try (eapply body_fun; eassumption);
  repeat match goal with H : c_data ?c = Some ?a, K : c_data ?c = Some ?b |- _ => assert (a = b) by congruence; subst b; clear K end; congruence || contradiction.
Qed.
Lemma py_hash_fun : forall mro h1 h2, py_hash mro h1 -> py_hash mro h2 -> h1 = h2.
Proof.
  induction mro as [|c mro IH]; intros h1 h2 A B; [inversion A|].
  inversion A; inversion B; subst.
  - assert (E : Some h1 = Some h2) by (eapply in_dict_fun; eassumption). congruence.
  - assert (E : Some h1 = None) by (eapply in_dict_fun; eassumption). discriminate.
  - assert (E : Some h2 = None) by (eapply in_dict_fun; eassumption). discriminate.
  - eauto.
Qed.

(** A class whose dictionary has what its body binds *)
Definition kept (c : class) : Prop := in_dict c (c_hash c).
Lemma kept_lookup : forall mro h, Forall kept mro -> (lookup_in_mro mro = Some h <-> py_hash mro h).
Proof.
  induction mro as [|c mro IH]; intros h F; cbn.
  - split; intro A; [discriminate|inversion A].
  - apply Forall_cons_iff in F. destruct F as [K F]. unfold kept in K. specialize (IH h F).
    destruct (c_hash c) as [b|] eqn:E.
    + split; intro A.
      * injection A as ->. now apply py_here.
      * inversion A as [? ? ? B|? ? ? B C]; subst; pose proof (in_dict_fun _ _ _ K B); congruence.
    + split; intro A.
      * apply py_above; [assumption|]. now apply IH.
      * inversion A as [? ? ? B|? ? ? B C]; subst; [pose proof (in_dict_fun _ _ _ K B); congruence|]. now apply IH.
Qed.

Lemma hash_exact : forall c bases o h, c_data c = Some o -> Forall kept bases ->
  (c_hash c = Some false -> ~ has_eq c) ->
  (unsafe_hash o = true -> c_hash c = None) ->
  (has_eq c -> c_hash c = None -> o_eq o = true) ->
  (c_hash c = None -> unsafe_hash o = true \/ (o_eq o = true /\ frozen o = Some true) -> lookup_in_mro bases = Some true) ->
  (lookup_hash c bases = Some h <-> py_hash (c :: bases) h).
Proof.
  intros c bases o h D F N U Q P.
  assert (X : forall b, in_dict c (Some b) -> (py_hash (c :: bases) h <-> b = h)).
  { intros b A. split; intro B.
    - inversion B as [? ? ? G|? ? ? G]; subst; pose proof (in_dict_fun _ _ _ A G); congruence.
    - subst b. now apply py_here. }
  assert (Y : in_dict c None -> (py_hash (c :: bases) h <-> lookup_in_mro bases = Some h)).
  { intro A. rewrite (kept_lookup _ _ F). split; intro B.
    - inversion B as [? ? ? G|? ? ? G]; subst; [pose proof (in_dict_fun _ _ _ A G); congruence|assumption].
    - now apply py_above. }
  unfold lookup_hash. rewrite D. cbn [lookup_in_mro].
  destruct (c_hash c) as [b|] eqn:E.
  - rewrite andb_false_r.
    assert (Ex : explicit c) by (destruct b; [now left|right; auto]).
    destruct (unsafe_hash o) eqn:Eu; [now specialize (U eq_refl)|].
    rewrite (X b); [split; congruence|].
    destruct (o_eq o) eqn:Eq.
    + rewrite <- E. now apply dict_explicit with o.
    + apply dict_no_eq with o; auto. now apply body_given.
  - assert (NE : ~ explicit c) by (intros [A|[A _]]; congruence).
    destruct (unsafe_hash o) eqn:Eu.
    + cbn. rewrite (P eq_refl (or_introl eq_refl)), (X true); [split; congruence|]. now apply dict_unsafe with o.
    + destruct (o_eq o) eqn:Eq.
      * destruct (frozen o) as [[|]|] eqn:Ef; cbn.
        -- rewrite (P eq_refl (or_intror (conj eq_refl eq_refl))), (X true); [split; congruence|]. now apply dict_add with o.
        -- rewrite (X false); [split; congruence|]. apply dict_none with o; auto. unfold is_frozen. congruence.
        -- rewrite (X false); [split; congruence|]. apply dict_none with o; auto. unfold is_frozen. congruence.
      * rewrite andb_false_r. cbn. symmetry. apply Y. apply dict_no_eq with o; auto. apply body_none; auto.
        intro A. specialize (Q A eq_refl). discriminate.
Qed.

(** For all bases: where a dataclass is found not to be hashable by its options, it is not *)
Lemma options_none : forall c bases o, c_data c = Some o -> c_hash c = None ->
  o_eq o = true -> unsafe_hash o = false -> frozen o <> Some true ->
  lookup_hash c bases = Some false /\ py_hash (c :: bases) false.
Proof.
  intros c bases o D E Q U Fz. split.
  - unfold lookup_hash. rewrite D, E, U, Q. destruct (frozen o) as [[|]|]; cbn; congruence.
  - apply py_here. apply dict_none with o; auto. intros [A|[A _]]; congruence.
Qed.

Lemma flat_map_nil : forall (A B : Type) (f : A -> list B) l, flat_map f l = [] <-> (forall x, In x l -> f x = []).
Proof.
  intros A B f l. induction l as [|a l IH]; cbn; [tauto|]. split.
  - intros E x [->|M]; apply app_eq_nil in E; [tauto|]. now apply IH.
  - intro E. rewrite (E a) by auto. cbn. apply IH. auto.
Qed.
Lemma frozen_exact : forall o bases, frozen_issues o bases <> [] <-> frozen_clash o bases.
Proof.
  intros o bases. unfold frozen_issues, frozen_clash. split.
  - intro E. destruct (flat_map _ (rev bases)) as [|i r] eqn:G in E; [congruence|].
    assert (M : In i (i :: r)) by now left. rewrite <- G in M. apply in_flat_map in M. destruct M as (c & Mc & Mi).
    apply in_rev in Mc. destruct (c_data c) as [s|] eqn:D; [|destruct Mi].
    destruct (frozen o) as [f|] eqn:Eo; [|destruct Mi]. destruct (frozen s) as [g|] eqn:Es; [|destruct Mi].
    exists c, s, f. repeat split; auto. rewrite Es. destruct f, g; cbn in *; tauto.
  - intros (c & s & f & Mc & D & Eo & Es) E. rewrite flat_map_nil in E.
    specialize (E c (proj1 (in_rev _ _) Mc)). rewrite D, Eo, Es in E. destruct f; discriminate.
Qed.
Lemma frozen_kind : forall o bases i, In i (frozen_issues o bases) ->
  (frozen o = Some true /\ i = FrozenFromNonFrozen) \/ (frozen o = Some false /\ i = NonFrozenFromFrozen).
Proof.
  intros o bases i M. apply in_flat_map in M. destruct M as (c & _ & M).
  destruct (c_data c) as [s|]; [|destruct M]. destruct (frozen o) as [f|]; [|destruct M]. destruct (frozen s) as [g|]; [|destruct M].
  destruct f, g; cbn in M; try contradiction; destruct M as [<-|[]]; auto.
Qed.

Lemma order_member : forall o names m, In (CustomOrderMethod m) (order_issues o names) <->
  order o = true /\ In m names /\ In m ["__lt__"; "__le__"; "__gt__"; "__ge__"].
Proof.
  intros o names m. unfold order_issues. destruct (order o); [|cbn; intuition discriminate].
  rewrite in_flat_map. split.
  - intros (x & Mx & M). destruct (existsb (String.eqb x) names) eqn:E; [|destruct M].
    destruct M as [M|[]]. injection M as ->. apply existsb_exists in E. destruct E as (y & My & E). apply String.eqb_eq in E. subst y.
    repeat split; auto. cbn in *. tauto.
  - intros (_ & Mn & Mm). exists m. split; [cbn in *; tauto|].
    assert (E : existsb (String.eqb m) names = true) by (apply existsb_exists; exists m; split; auto; apply String.eqb_refl).
    rewrite E. now left.
Qed.
Lemma order_only : forall o names i, In i (order_issues o names) -> exists m, i = CustomOrderMethod m.
Proof.
  intros o names i. unfold order_issues. destruct (order o); [|intros []]. intro M. apply in_flat_map in M. destruct M as (x & _ & M).
  destruct (existsb _ names); [|destruct M]. destruct M as [<-|[]]. eauto.
Qed.
Lemma order_exact : forall o names, snd (check_options o) ++ order_issues (fst (check_options o)) names <> [] <-> order_clash o names.
Proof.
  intros o names. unfold order_clash, check_options. destruct (negb (o_eq o) && order o) eqn:E; cbn.
  - apply andb_true_iff in E. destruct E as [A B]. apply negb_true_iff in A. split; [auto|discriminate].
  - split.
    + intro N. destruct (order_issues o names) as [|i r] eqn:G; [congruence|].
      assert (M : In i (order_issues o names)) by (rewrite G; now left).
      destruct (order_only _ _ _ M) as [m ->]. apply order_member in M. destruct M as (Eo & M1 & M2). split; [assumption|]. right. exists m. auto.
    + intros (Eo & [Q|(m & M1 & M2)]).
      * rewrite Q, Eo in E. discriminate.
      * intro N. assert (M : In (CustomOrderMethod m) (order_issues o names)) by (apply order_member; auto). rewrite N in M. destruct M.
Qed.
