(** Proofs about the variances of classes. *)
From Coq Require Import List Bool PeanoNat Lia.
From Verif Require Import VarianceModel VarianceSpec Variance.
Import ListNotations.

(** ** Uses with one sign follow the subtypes *)
Section Monotone.
Variable table : nat -> nat -> variance.
Variable bases : nat -> list type.
Variable x : nat.
Notation signs := (signs table x).
Notation subtype := (subtype table bases).

Lemma plus_under : forall v l, all_plus (map (under v) l) ->
  (v <> Contravariant -> all_plus l) /\ (v <> Covariant -> all_minus l).
Proof.
  intros v l H. destruct v.
  - apply plus_both in H. subst l. split; intros _; constructor.
  - cbn [under] in H. rewrite map_same in H. split; [intros _; exact H | congruence].
  - change (map (under Contravariant) l) with (map flip l) in H. apply plus_flip in H. split; [congruence | intros _; exact H].
Qed.
Lemma minus_under : forall v l, all_minus (map (under v) l) ->
  (v <> Contravariant -> all_minus l) /\ (v <> Covariant -> all_plus l).
Proof.
  intros v l H. destruct v.
  - apply minus_both in H. subst l. split; intros _; constructor.
  - cbn [under] in H. rewrite map_same in H. split; [intros _; exact H | congruence].
  - change (map (under Contravariant) l) with (map flip l) in H. apply minus_flip in H. split; [congruence | intros _; exact H].
Qed.

Lemma argument_signs_nth : forall (P : sign -> Prop) c ts k i t, Forall P (argument_signs table x c k ts) -> nth_error ts i = Some t ->
  Forall P (map (under (table c (k + i))) (signs t)).
Proof.
  intros P c ts. induction ts as [| u ts IH]; intros k i t H E; [destruct i; discriminate |].
  cbn [argument_signs] in H. apply Forall_app in H. destruct H as [H1 H2]. destruct i as [| i]; cbn [nth_error] in E.
  - injection E as <-. rewrite Nat.add_0_r. exact H1.
  - specialize (IH (S k) i t H2 E). rewrite Nat.add_succ_r. exact IH.
Qed.

Lemma nth_map : forall A B (f : A -> B) l i b, nth_error (map f l) i = Some b -> exists a, nth_error l i = Some a /\ b = f a.
Proof.
  intros A B f l. induction l as [| a l IH]; intros [| i] b E; cbn [map nth_error] in E; try discriminate.
  - injection E as <-. exists a. split; reflexivity.
  - apply IH. exact E.
Qed.

Lemma monotone : forall a b, subtype a b -> forall t,
  (all_plus (signs t) -> subtype (replace x a t) (replace x b t)) /\ (all_minus (signs t) -> subtype (replace x b t) (replace x a t)).
Proof.
  intros a b Hab. induction t as [y | | c ts IH | ps r IHp IHr | ts IH | ts IH] using type_induction; cbn [replace].
  - cbn [VarianceSpec.signs]. destruct (x =? y); [| split; intros _; apply Sub_refl].
    split; [intros _; exact Hab |]. intro H. inversion H as [| s l E1 E2]. discriminate E1.
  - split; intros _; apply Sub_refl.
  - rewrite signs_instance. split; intro H; (apply Sub_instance; [rewrite !map_length; reflexivity | |]);
      intros i t u Ht Hu Hv; apply nth_map in Ht, Hu; destruct Ht as (t0 & Ht & ->); destruct Hu as (u0 & Hu & ->);
      rewrite Ht in Hu; injection Hu as <-; apply (argument_signs_nth _ c ts 0 i t0) in H; try exact Ht; cbn [Nat.add] in H;
      apply nth_error_In in Ht; destruct (IH t0 Ht) as [IH1 IH2];
      first [apply plus_under in H | apply minus_under in H]; destruct H as [H1 H2]; auto.
  - cbn [VarianceSpec.signs]. destruct IHr as [R1 R2].
    rewrite plus_app, minus_app, plus_flip, minus_flip, plus_flat, minus_flat.
    split; intros [Hp Hr]; (apply Sub_function; [rewrite !map_length; reflexivity | | auto]);
      intros i p q Ep Eq; apply nth_map in Ep, Eq; destruct Ep as (p0 & Ep & ->); destruct Eq as (q0 & Eq & ->);
      rewrite Ep in Eq; injection Eq as <-; apply nth_error_In in Ep; destruct (IHp p0 Ep) as [I1 I2]; auto.
  - cbn [VarianceSpec.signs]. rewrite plus_flat, minus_flat.
    split; intro H; (apply Sub_tuple; [rewrite !map_length; reflexivity |]);
      intros i p q Ep Eq; apply nth_map in Ep, Eq; destruct Ep as (p0 & Ep & ->); destruct Eq as (q0 & Eq & ->);
      rewrite Ep in Eq; injection Eq as <-; apply nth_error_In in Ep; destruct (IH p0 Ep) as [I1 I2]; auto.
  - cbn [VarianceSpec.signs]. rewrite plus_flat, minus_flat.
    split; intro H; apply Sub_union_left; intros w Hw; apply in_map_iff in Hw; destruct Hw as (w0 & <- & Hw);
      destruct (IH w0 Hw) as [I1 I2]; (eapply Sub_union_right; [apply in_map; exact Hw | auto]).
Qed.
End Monotone.

(** ** What is inferred *)
Definition is_plus (s : sign) : bool := match s with Plus => true | _ => false end.
Definition is_minus (s : sign) : bool := match s with Minus => true | _ => false end.
Lemma is_plus_all : forall l, forallb is_plus l = true <-> all_plus l.
Proof.
  intro l. unfold all_plus. rewrite forallb_forall, Forall_forall. split; intros H s Hs; specialize (H s Hs); destruct s; cbn in *; congruence.
Qed.
Lemma is_minus_all : forall l, forallb is_minus l = true <-> all_minus l.
Proof.
  intro l. unfold all_minus. rewrite forallb_forall, Forall_forall. split; intros H s Hs; specialize (H s Hs); destruct s; cbn in *; congruence.
Qed.
Lemma bool_iff : forall a b P, (a = true <-> P) -> (b = true <-> P) -> a = b.
Proof. intros [|] [|] P H1 H2; try reflexivity; assert (false = true) by tauto; congruence. Qed.
Lemma plus_minus : forall l, forallb is_plus l = true -> forallb is_minus l = true -> l = [].
Proof. intros [| [| |] l]; cbn; intros H1 H2; try reflexivity; discriminate. Qed.

Definition guarded (st : bool * bool) : option (bool * bool) := match st with (false, false) => None | _ => Some st end.

Section Program.
Variable inherits : nat -> list type -> nat -> list type -> bool.
Variable table : nat -> nat -> variance.
Variable x : nat.
Notation signs := (signs table x).

Lemma check_exact : forall t, simple inherits x t ->
  check inherits table x t =
  match signs t with [] => None | _ => Some (forallb is_plus (signs t), forallb is_minus (signs t)) end.
Proof.
  intros t Hs. pose proof (check_told inherits table x t Hs) as H. destruct (check inherits table x t) as [[co contra] |].
  - destruct H as (H1 & H2 & H3). rewrite (bool_iff _ _ _ H1 (is_plus_all (signs t))), (bool_iff _ _ _ H2 (is_minus_all (signs t))).
    destruct (signs t); [congruence | reflexivity].
  - rewrite H. reflexivity.
Qed.

Lemma guarded_and : forall a b c d, (a && c, b && d) <> (false, false) -> (a, b) <> (false, false).
Proof. intros [|] [|] c d H; cbn in *; congruence. Qed.

Lemma through_bases_exact : forall bs st, (forall b, In b bs -> simple inherits x b) -> st <> (false, false) ->
  through_bases inherits table x bs st =
  guarded (fst st && forallb is_plus (flat_map signs bs), snd st && forallb is_minus (flat_map signs bs)).
Proof.
  induction bs as [| b bs IH]; intros [p m] Hs Hst; cbn [through_bases flat_map fst snd].
  - cbn [forallb]. rewrite !andb_true_r. destruct p, m; try reflexivity. congruence.
  - rewrite (check_exact b (Hs b (or_introl eq_refl))). rewrite !forallb_app, !andb_assoc.
    assert (Hs2 : forall b, In b bs -> simple inherits x b) by (intros b0 Hb; apply Hs; right; exact Hb).
    destruct (signs b) as [| s l] eqn:E.
    + cbn [forallb]. rewrite !andb_true_r. rewrite (IH (p, m) Hs2 Hst). reflexivity.
    + destruct (p && forallb is_plus (s :: l)) eqn:Ep; destruct (m && forallb is_minus (s :: l)) eqn:Em;
        try (rewrite IH by (exact Hs2 || discriminate); reflexivity). reflexivity.
Qed.

Section Class.
Variable k : class.
Hypothesis Hf : fine inherits k x.
Notation erased m := (erase_return_self_type (c_self k) (m_type m)).
Definition member_writes (m : member) : list sign :=
  match written (c_frozen k) m with Some t => map flip (signs t) | None => [] end.

Lemma written_type : forall m t, In m (counted k) -> written (c_frozen k) m = Some t -> t = m_type m /\ erased m = m_type m.
Proof.
  intros m t Hm Hw. assert (E : t = m_type m).
  { unfold written in Hw. destruct (is_underscored (m_name m)); [discriminate |].
    destruct (m_kind m) as [ | | | | s |] eqn:Ek; try congruence; [destruct (c_frozen k); congruence |].
    destruct s as [s |]; [| discriminate]. injection Hw as <-. apply (fine_setters _ _ _ Hf m s Hm Ek). }
  split; [exact E |]. rewrite <- E. apply (fine_written _ _ _ Hf m t Hm Hw).
Qed.

Lemma written_writable : forall m,
  is_writable (effective_kind (c_frozen k) (m_kind m)) && negb (is_underscored (m_name m)) =
  match written (c_frozen k) m with Some _ => true | None => false end.
Proof.
  intro m. unfold written. destruct (is_underscored (m_name m)); [rewrite andb_false_r; reflexivity |]. rewrite andb_true_r.
  destruct (m_kind m) as [ | | | | [s |] |]; cbn [effective_kind]; try reflexivity. destruct (c_frozen k); reflexivity.
Qed.

Lemma member_write : forall m, In m (counted k) -> signs (erased m) <> [] ->
  forallb is_plus (signs (erased m))
  && negb (negb (forallb is_minus (signs (erased m))) && is_writable (effective_kind (c_frozen k) (m_kind m)) && negb (is_underscored (m_name m)))
  = forallb is_plus (signs (erased m) ++ member_writes m).
Proof.
  intros m Hm Hn. rewrite <- (andb_assoc _ (is_writable _)), written_writable, forallb_app. unfold member_writes.
  destruct (written (c_frozen k) m) as [t |] eqn:Ew.
  - destruct (written_type m t Hm Ew) as [-> E]. rewrite E. rewrite andb_true_r, negb_involutive. f_equal.
    apply (bool_iff _ _ (all_minus (signs (m_type m)))); [apply is_minus_all |]. rewrite is_plus_all. apply plus_flip.
  - rewrite andb_false_r. reflexivity.
Qed.

Lemma through_members_exact : forall ms st, (forall m, In m ms -> skipped (m_name m) = false -> In m (counted k)) -> st <> (false, false) ->
  through_members inherits table (c_self k) (c_frozen k) x ms st =
  guarded (fst st && forallb is_plus (flat_map (fun m => signs (erased m) ++ member_writes m) (filter (fun m => negb (skipped (m_name m))) ms)),
           snd st && forallb is_minus (flat_map (fun m => signs (erased m)) (filter (fun m => negb (skipped (m_name m))) ms))).
Proof.
  induction ms as [| m ms IH]; intros [p n] Hin Hst; cbn [through_members filter].
  - cbn [flat_map forallb fst snd]. rewrite !andb_true_r. destruct p, n; try reflexivity. congruence.
  - assert (Hin2 : forall m, In m ms -> skipped (m_name m) = false -> In m (counted k)) by (intros m0 H0; apply Hin; right; exact H0).
    destruct (skipped (m_name m)) eqn:Esk; cbn [negb]; [apply IH; assumption |].
    assert (Hm : In m (counted k)) by (apply Hin; [left; reflexivity | exact Esk]).
    rewrite (check_exact _ (fine_members _ _ _ Hf m Hm)). cbn [flat_map fst snd]. rewrite !(forallb_app _ (_ ++ _)), !andb_assoc.
    rewrite (forallb_app is_minus). rewrite (andb_assoc n).
    destruct (signs (erased m)) as [| s l] eqn:E.
    + assert (Ew : member_writes m = []).
      { unfold member_writes. destruct (written (c_frozen k) m) as [t |] eqn:Ew; [| reflexivity].
        destruct (written_type m t Hm Ew) as [-> E2]. rewrite E2 in E. rewrite E. reflexivity. }
      rewrite Ew. cbn [app forallb]. rewrite !andb_true_r. rewrite (IH (p, n) Hin2 Hst). reflexivity.
    + pose proof (member_write m Hm) as Hw. rewrite E in Hw. specialize (Hw ltac:(discriminate)).
      rewrite <- (andb_assoc p). rewrite Hw.
      destruct (p && forallb is_plus ((s :: l) ++ member_writes m)) eqn:Ep; destruct (n && forallb is_minus (s :: l)) eqn:En;
        try (rewrite IH by (exact Hin2 || discriminate); reflexivity). reflexivity.
Qed.

Lemma plus_reads_writes :
  forallb is_plus (flat_map signs (c_bases k)) && forallb is_plus (flat_map (fun m => signs (erased m) ++ member_writes m) (counted k)) = true
  <-> all_plus (reads table k x ++ writes table k x).
Proof.
  rewrite andb_true_iff, !is_plus_all. unfold reads, writes. rewrite !plus_app, !plus_flat. unfold member_writes. split.
  - intros [H1 H2]. split; [split; [exact H1 |] |]; intros m Hm; specialize (H2 m Hm); apply plus_app in H2; apply H2.
  - intros [[H1 H2] H3]. split; [exact H1 |]. intros m Hm. apply plus_app. split; [apply H2 | apply H3]; exact Hm.
Qed.
Lemma minus_reads :
  forallb is_minus (flat_map signs (c_bases k)) && forallb is_minus (flat_map (fun m => signs (erased m)) (counted k)) = true
  <-> all_minus (reads table k x).
Proof. rewrite andb_true_iff, !is_minus_all. unfold reads. rewrite minus_app. tauto. Qed.

Lemma infer_exact :
  infer inherits table (c_self k) (c_frozen k) (c_bases k) (c_members k) x =
  Some (if forallb is_plus (reads table k x ++ writes table k x) then Covariant
        else if forallb is_minus (reads table k x) then Contravariant else Invariant).
Proof.
  rewrite (bool_iff _ _ _ (is_plus_all _) (plus_reads_writes)), (bool_iff _ _ _ (is_minus_all _) (minus_reads)).
  unfold infer. rewrite through_bases_exact by (try (exact (fine_bases _ _ _ Hf)); discriminate). cbn [fst snd andb].
  set (p := forallb is_plus (flat_map signs (c_bases k))). set (n := forallb is_minus (flat_map signs (c_bases k))).
  assert (Hm : forall st, st <> (false, false) -> through_members inherits table (c_self k) (c_frozen k) x (c_members k) st =
    guarded (fst st && forallb is_plus (flat_map (fun m => signs (erased m) ++ member_writes m) (counted k)),
             snd st && forallb is_minus (flat_map (fun m => signs (erased m)) (counted k)))).
  { intros st Hst. apply through_members_exact; [| exact Hst]. intros m H1 H2. apply filter_In. rewrite H2. split; [exact H1 | reflexivity]. }
  destruct p, n; cbn [guarded andb]; try reflexivity; rewrite Hm by discriminate; cbn [fst snd andb];
    destruct (forallb is_plus (flat_map _ (counted k))); destruct (forallb is_minus (flat_map _ (counted k))); reflexivity.
Qed.
End Class.

(** The panic is never reached, for any class. *)
Lemma through_bases_some : forall bs st st2, st <> (false, false) -> through_bases inherits table x bs st = Some st2 -> st2 <> (false, false).
Proof.
  induction bs as [| b bs IH]; intros st st2 Hst E; cbn [through_bases] in E; [congruence |].
  destruct (check inherits table x b) as [[co contra] |]; [| exact (IH st st2 Hst E)].
  destruct (fst st && co); destruct (snd st && contra); try discriminate E; refine (IH _ st2 _ E); discriminate.
Qed.
Lemma through_members_some : forall self frozen ms st st2, st <> (false, false) ->
  through_members inherits table self frozen x ms st = Some st2 -> st2 <> (false, false).
Proof.
  intros self frozen. induction ms as [| m ms IH]; intros st st2 Hst E; cbn [through_members] in E; [congruence |].
  destruct (skipped (m_name m)); [exact (IH st st2 Hst E) |].
  destruct (check inherits table x _) as [[co contra] |]; [| exact (IH st st2 Hst E)].
  destruct (_ && negb _) in E; destruct (snd st && contra) in E; try discriminate E; refine (IH _ st2 _ E); discriminate.
Qed.
Lemma infer_total : forall self frozen bs ms, infer inherits table self frozen bs ms x <> None.
Proof.
  intros self frozen bs ms. unfold infer. destruct (through_bases inherits table x bs (true, true)) as [st |] eqn:E1; [| discriminate].
  apply through_bases_some in E1; [| discriminate].
  destruct (through_members inherits table self frozen x ms st) as [[[|] [|]] |] eqn:E2; try discriminate.
  apply through_members_some in E2; [congruence | exact E1].
Qed.
End Program.

(** ** The variance is one for which the class can be used *)
Section Sound.
Variable inherits : nat -> list type -> nat -> list type -> bool.
Variable table : nat -> nat -> variance.
Variable bases : nat -> list type.
Variable x : nat.
Variable k : class.
Hypothesis Hf : fine inherits k x.
Notation signs := (signs table x).
Notation subtype := (subtype table bases).

Lemma own_result : forall ts a b, (forall i t, nth_error ts i = Some t -> t = Var i) -> subtype a b ->
  (table (c_self k) x = Covariant ->
     subtype (replace x a (Instance (c_self k) ts)) (replace x b (Instance (c_self k) ts)))
  /\ (table (c_self k) x = Contravariant ->
     subtype (replace x b (Instance (c_self k) ts)) (replace x a (Instance (c_self k) ts))).
Proof.
  intros ts a b Hts Hab. split; intro Hv; cbn [replace]; (apply Sub_instance; [rewrite !map_length; reflexivity | |]);
    intros i t u Ht Hu Hn; apply nth_map in Ht, Hu; destruct Ht as (t0 & Ht & ->); destruct Hu as (u0 & Hu & ->);
    rewrite Ht in Hu; injection Hu as <-; apply Hts in Ht; subst t0; cbn [replace]; destruct (x =? i) eqn:E;
    try apply Sub_refl; apply Nat.eqb_eq in E; subst i; try congruence; exact Hab.
Qed.

Lemma member_monotone : forall m a b, In m (counted k) -> subtype a b ->
  (table (c_self k) x = Covariant -> all_plus (signs (erase_return_self_type (c_self k) (m_type m))) ->
     subtype (replace x a (m_type m)) (replace x b (m_type m)))
  /\ (table (c_self k) x = Contravariant -> all_minus (signs (erase_return_self_type (c_self k) (m_type m))) ->
     subtype (replace x b (m_type m)) (replace x a (m_type m))).
Proof.
  intros m a b Hm Hab. destruct (monotone table bases x a b Hab (erase_return_self_type (c_self k) (m_type m))) as [M1 M2].
  destruct (m_type m) as [y | | c ts | ps r | ts | ts] eqn:Et; cbn [erase_return_self_type] in *; try (split; intros _; assumption).
  destruct r as [y | | c ts | ps2 r2 | ts | ts]; cbn [erase_return_self_type] in *; try (split; intros _; assumption).
  destruct (c =? c_self k) eqn:Ec; [| split; intros _; assumption]. apply Nat.eqb_eq in Ec. subst c.
  destruct (own_result ts a b (fine_results _ _ _ Hf m ps ts Hm Et) Hab) as [R1 R2].
  assert (Hp : forall t, In t ps -> (all_minus (signs t) -> subtype (replace x b t) (replace x a t)) /\ (all_plus (signs t) -> subtype (replace x a t) (replace x b t))).
  { intros t _. destruct (monotone table bases x a b Hab t) as [N1 N2]. split; assumption. }
  split; intros Hv Hs; cbn [VarianceSpec.signs] in Hs; rewrite app_nil_r in Hs;
    [rewrite plus_flip, minus_flat in Hs | rewrite minus_flip, plus_flat in Hs];
    cbn [replace]; (apply Sub_function; [rewrite !map_length; reflexivity | | cbn [replace] in R1, R2; auto]);
    intros i p q Ep Eq; apply nth_map in Ep, Eq; destruct Ep as (p0 & Ep & ->); destruct Eq as (q0 & Eq & ->);
    rewrite Ep in Eq; injection Eq as <-; apply nth_error_In in Ep; destruct (Hp p0 Ep) as [P1 P2]; auto.
Qed.

Lemma covariant_usable : table (c_self k) x = Covariant -> all_plus (reads table k x ++ writes table k x) ->
  forall a b, subtype a b -> usable table bases k x a b.
Proof.
  intros Hv Hp a b Hab. unfold reads, writes in Hp. rewrite !plus_app, !plus_flat in Hp. destruct Hp as [[H1 H2] H3].
  split; [| split].
  - intros t Ht. apply (monotone table bases x a b Hab t). apply H1. exact Ht.
  - intros m Hm. apply (member_monotone m a b Hm Hab); [exact Hv |]. apply H2. exact Hm.
  - intros m t Hm Hw. specialize (H3 m Hm). cbn beta in H3. rewrite Hw in H3. apply plus_flip in H3.
    apply (monotone table bases x a b Hab t). exact H3.
Qed.

Lemma contravariant_usable : table (c_self k) x = Contravariant -> all_minus (reads table k x) ->
  (forall m t, In m (counted k) -> written (c_frozen k) m = Some t -> mentions x t = false) ->
  forall a b, subtype a b -> usable table bases k x b a.
Proof.
  intros Hv Hp Hw a b Hab. unfold reads in Hp. rewrite minus_app, !minus_flat in Hp. destruct Hp as [H1 H2].
  split; [| split].
  - intros t Ht. apply (monotone table bases x a b Hab t). apply H1. exact Ht.
  - intros m Hm. apply (member_monotone m a b Hm Hab); [exact Hv |]. apply H2. exact Hm.
  - intros m t Hm Ht. rewrite !(replace_unchanged x _ t (Hw m t Hm Ht)). apply Sub_refl.
Qed.
End Sound.

(** ** The variances that are found stay right when all of them are known *)
Section Agree.
Variable inherits : nat -> list type -> nat -> list type -> bool.
Variables one two : nat -> nat -> variance.
Variable self : nat.
Hypothesis agree : forall c i, c <> self -> one c i = two c i.
Hypothesis self_object : self <> 0.

Lemma sub_agree : forall n t u, avoids self t = true -> avoids self u = true -> sub inherits one n t u = sub inherits two n t u.
Proof.
  induction n as [| n IH]; intros t u Ht Hu; [reflexivity |]. cbn [sub].
  destruct t as [y | | c ts | ps r | ts | ts]; destruct u as [z | | d us | qs s | us | us]; try reflexivity; cbn [avoids] in *;
    repeat match goal with H : _ && _ = true |- _ => apply andb_true_iff in H; destruct H end;
    repeat match goal with H : forallb _ _ = true |- _ => pose proof (proj1 (forallb_forall _ _) H); clear H end.
  all: try (apply existsb_ext_in; intros w Hw; apply IH; cbn [avoids]; rewrite ?andb_true_iff, ?forallb_forall; auto).
  all: try (apply forallb_ext_in; intros w Hw; apply IH; cbn [avoids]; rewrite ?andb_true_iff, ?forallb_forall; auto).
  - assert (Hc : c <> self) by (apply Nat.eqb_neq, negb_true_iff; assumption).
    assert (E : forall i, arguments_match one (sub inherits one n) c i ts us = arguments_match two (sub inherits two n) c i ts us).
    { assert (Hts : forall t, In t ts -> avoids self t = true) by assumption. assert (Hus : forall t, In t us -> avoids self t = true) by assumption.
      clear - IH agree Hc Hts Hus. revert us Hts Hus. induction ts as [| t ts IHl]; intros [| w ws] Hts Hus i; try reflexivity.
      cbn [arguments_match]. rewrite (agree c i Hc), !(IH _ _) by (first [apply Hts; left; reflexivity | apply Hus; left; reflexivity]).
      rewrite IHl; [reflexivity | |]; intros v Hv; [apply Hts | apply Hus]; right; exact Hv. }
    destruct d as [| d]; [destruct us as [| u us]; [reflexivity |] |]; rewrite E; reflexivity.
  - rewrite (IH r s) by assumption. f_equal. apply all2_ext_in. intros p q Hp Hq. apply IH; auto.
  - apply all2_ext_in. intros p q Hp Hq. apply IH; auto.
Qed.

Lemma avoids_replaced : forall x t, avoids self t = true -> avoids self (replace x object t) = true.
Proof.
  intros x t. assert (L : forall ts, (forall t, In t ts -> avoids self t = true -> avoids self (replace x object t) = true) ->
    forallb (avoids self) ts = true -> forallb (avoids self) (map (replace x object) ts) = true).
  { intros ts H E. apply forallb_forall. intros u Hu. apply in_map_iff in Hu. destruct Hu as (w & <- & Hw). apply H; [exact Hw |].
    apply (proj1 (forallb_forall _ _) E w Hw). }
  induction t as [y | | c ts IH | ps r IHp IHr | ts IH | ts IH] using type_induction; cbn [replace avoids]; intro H.
  - destruct (x =? y); [| reflexivity]. unfold object. cbn [ avoids forallb]. rewrite andb_true_r. apply negb_true_iff, Nat.eqb_neq. congruence.
  - reflexivity.
  - apply andb_true_iff in H. destruct H as [H1 H2]. rewrite H1. apply (L ts IH H2).
  - apply andb_true_iff in H. destruct H as [H1 H2]. rewrite (L ps IHp H1), (IHr H2). reflexivity.
  - apply (L ts IH H).
  - apply (L ts IH H).
Qed.

Lemma check_agree : forall x t, avoids self t = true -> check inherits one x t = check inherits two x t.
Proof.
  intros x t H. unfold check, is_sub_type. destruct (mentions x t); [| reflexivity].
  rewrite !(sub_agree _ _ _) by (try exact H; apply avoids_replaced; exact H). reflexivity.
Qed.

Lemma infer_agree : forall frozen bs ms x,
  (forall b, In b bs -> avoids self b = true) ->
  (forall m, In m ms -> skipped (m_name m) = false -> avoids self (erase_return_self_type self (m_type m)) = true) ->
  infer inherits one self frozen bs ms x = infer inherits two self frozen bs ms x.
Proof.
  intros frozen bs ms x Hb Hm. unfold infer.
  assert (Eb : forall st, through_bases inherits one x bs st = through_bases inherits two x bs st).
  { clear Hm ms. induction bs as [| b bs IH]; intro st; [reflexivity |]. cbn [through_bases].
    rewrite (check_agree x b (Hb b (or_introl eq_refl))). assert (Hb2 : forall b, In b bs -> avoids self b = true) by (intros c Hc; apply Hb; right; exact Hc).
    destruct (check inherits two x b) as [[co contra] |]; [| apply IH; exact Hb2].
    destruct (fst st && co), (snd st && contra); try reflexivity; apply IH; exact Hb2. }
  rewrite Eb. destruct (through_bases inherits two x bs (true, true)) as [st |]; [| reflexivity].
  assert (Em : forall st, through_members inherits one self frozen x ms st = through_members inherits two self frozen x ms st).
  { clear Hb Eb bs st. induction ms as [| m ms IH]; intro st; [reflexivity |]. cbn [through_members].
    assert (Hm2 : forall m, In m ms -> skipped (m_name m) = false -> avoids self (erase_return_self_type self (m_type m)) = true)
      by (intros c Hc; apply Hm; right; exact Hc).
    destruct (skipped (m_name m)) eqn:Es; [apply IH; exact Hm2 |].
    rewrite (check_agree x _ (Hm m (or_introl eq_refl) Es)).
    destruct (check inherits two x _) as [[co contra] |]; [| apply IH; exact Hm2].
    destruct (_ && negb _); destruct (snd st && contra); try reflexivity; apply IH; exact Hm2. }
  rewrite Em. reflexivity.
Qed.
End Agree.

Lemma fallback_other : forall table c xs d y, d <> c -> fallback table c xs d y = table d y.
Proof.
  intros table c xs d y H. induction xs as [| x xs IH]; [reflexivity |]. cbn [fallback]. unfold set.
  rewrite (proj2 (Nat.eqb_neq d c) H). exact IH.
Qed.

Lemma infer_each_fixed : forall inherits k, c_self k <> 0 ->
  (forall b, In b (c_bases k) -> avoids (c_self k) b = true) ->
  (forall m, In m (c_members k) -> skipped (m_name m) = false -> avoids (c_self k) (erase_return_self_type (c_self k) (m_type m)) = true) ->
  forall xs table, exists result,
    infer_each inherits table k xs = Some result
    /\ (forall c i, c <> c_self k -> result c i = table c i)
    /\ (forall i, ~ In i xs -> result (c_self k) i = table (c_self k) i)
    /\ (forall x, In x xs -> infer inherits table (c_self k) (c_frozen k) (c_bases k) (c_members k) x = Some (result (c_self k) x)).
Proof.
  intros inherits k H0 Hb Hm. induction xs as [| x xs IH]; intro table; cbn [infer_each].
  - exists table. split; [reflexivity |]. split; [reflexivity |]. split; [reflexivity |]. intros x [].
  - destruct (infer inherits table (c_self k) (c_frozen k) (c_bases k) (c_members k) x) as [v |] eqn:E;
      [| destruct (infer_total inherits table x _ _ _ _ E)].
    destruct (IH (set table (c_self k) x v)) as (result & E1 & E2 & E3 & E4). exists result. split; [exact E1 |].
    assert (Hag : forall c i, c <> c_self k -> set table (c_self k) x v c i = table c i)
      by (intros c i Hc; unfold set; rewrite (proj2 (Nat.eqb_neq c _) Hc); reflexivity).
    assert (Hin : forall y, infer inherits (set table (c_self k) x v) (c_self k) (c_frozen k) (c_bases k) (c_members k) y
                            = infer inherits table (c_self k) (c_frozen k) (c_bases k) (c_members k) y)
      by (intro y; apply infer_agree; assumption).
    split; [intros c i Hc; rewrite (E2 c i Hc); apply Hag; exact Hc |]. split.
    + intros i Hi. rewrite E3 by (intro; apply Hi; right; assumption). unfold set. rewrite Nat.eqb_refl. cbn [andb].
      rewrite (proj2 (Nat.eqb_neq i x)); [reflexivity |]. intros ->. apply Hi. left. reflexivity.
    + intros y Hy. destruct (in_dec Nat.eq_dec y xs) as [Hin2 | Hno].
      * rewrite <- (Hin y). apply E4. exact Hin2.
      * destruct Hy as [<- | Hy]; [| contradiction]. rewrite E3 by exact Hno. unfold set. rewrite !Nat.eqb_refl. exact E.
Qed.

Lemma infer_class_fixed : forall inherits table k xs, c_self k <> 0 ->
  (forall b, In b (c_bases k) -> avoids (c_self k) b = true) ->
  (forall m, In m (c_members k) -> skipped (m_name m) = false -> avoids (c_self k) (erase_return_self_type (c_self k) (m_type m)) = true) ->
  exists result,
    infer_class inherits table k xs = Some result
    /\ (forall c i, c <> c_self k -> result c i = table c i)
    /\ (forall i, ~ In i xs -> result (c_self k) i = table (c_self k) i)
    /\ (forall x, In x xs -> infer inherits result (c_self k) (c_frozen k) (c_bases k) (c_members k) x = Some (result (c_self k) x)).
Proof.
  intros inherits table k xs H0 Hb Hm.
  destruct (infer_each_fixed inherits k H0 Hb Hm xs (fallback table (c_self k) xs)) as (result & E1 & E2 & E3 & E4).
  exists result. split; [exact E1 |]. split.
  - intros c i Hc. rewrite (E2 c i Hc). apply fallback_other. exact Hc.
  - split.
    + intros i Hi. rewrite (E3 i Hi). clear - Hi. induction xs as [| x xs IH]; [reflexivity |]. cbn [fallback]. unfold set.
      rewrite (proj2 (Nat.eqb_neq i x)), andb_false_r; [| intros ->; apply Hi; left; reflexivity].
      apply IH. intro H. apply Hi. right. exact H.
    + intros x Hx. rewrite <- (E4 x Hx). apply infer_agree; assumption.
Qed.
