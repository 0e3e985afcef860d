(** Facts about the specification of calls: what [accepts] says parameter by parameter. *)
From Coq Require Import List NArith Arith Bool Lia Permutation.
From Verif Require Import CallModel CallSpec.
Import ListNotations.

Section Facts.
Variables (ty val : Type) (fits : ty -> val -> Prop).
Notation param := (param ty).

Definition ok (p : param) (v : val) : Prop := forall t, p_type p = Some t -> fits t v.
Definition receives_kw (ps : list param) (n : N) (p : param) : Prop :=
  In p ps /\ (named n p \/ p_kind p = StarStar /\ forall q, In q ps -> ~ named n q).

(** A call without positional arguments: no order is involved. *)
Definition kw_ok (ps : list param) (K : list (N * val)) : Prop :=
  (forall n v, In (n, v) K -> exists p, receives_kw ps n p /\ ok p v) /\
  (forall p, In p ps -> required p -> exists n, In n (map fst K) /\ named n p).

Lemma accepts_kw : forall ps K, accepts fits ps (mk_call [] K) <-> kw_ok ps K.
Proof.
  intros ps K; split.
  - intros [A B C D]; cbn [by_position by_name] in *; split.
    + intros n v Hin. destruct (B n v Hin) as (j & (p & Hp & Hr) & (p' & Hp' & Hv)).
      rewrite Hp in Hp'; injection Hp' as <-.
      exists p; split; [split; [exact (nth_error_In _ _ Hp)|exact Hr]|exact Hv].
    + intros p Hin Hreq. destruct (In_nth_error _ _ Hin) as (j & Hj).
      destruct (D j p Hj Hreq) as [(i & Hi & _)|(n & Hn & (q & Hq & Hr))]; [cbn in Hi; lia|].
      rewrite Hj in Hq; injection Hq as <-.
      exists n; split; [exact Hn|]. destruct Hr as [Hr|[Hr _]]; [exact Hr|].
      exfalso; apply (proj1 Hreq); right; exact Hr.
  - intros [B D]; constructor; cbn [by_position by_name].
    + intros i v Hi; destruct i; discriminate.
    + intros n v Hin. destruct (B n v Hin) as (p & (Hp & Hr) & Hv).
      destruct (In_nth_error _ _ Hp) as (j & Hj).
      exists j; split; [exists p; auto|exists p; auto].
    + intros i n j Hi; cbn in Hi; lia.
    + intros j p Hj Hreq. right. destruct (D p (nth_error_In _ _ Hj) Hreq) as (n & Hn & Hname).
      exists n; split; [exact Hn|]. exists p; auto.
Qed.

(** ** Parameter lists *)

Lemma signature_tail : forall p (r : list param), signature (p :: r) -> signature r.
Proof.
  intros p r [A B C D]; constructor.
  - intros i j q q' Hij Hi Hj. exact (A (S i) (S j) q q' ltac:(lia) Hi Hj).
  - intros i j q q' Hi Hj Hv Hk. specialize (B (S i) (S j) q q' Hi Hj Hv Hk). lia.
  - intros q Hq. exact (C q (or_intror Hq)).
  - intros n i j q q' Hi Hj Hn Hn'. specialize (D n (S i) (S j) q q' Hi Hj Hn Hn'). lia.
Qed.

Lemma signature_rank : forall p (r : list param) q, signature (p :: r) -> In q r -> rank (p_kind p) <= rank (p_kind q).
Proof.
  intros p r q H Hq. destruct (In_nth_error _ _ Hq) as (j & Hj).
  exact (in_order _ _ H 0 (S j) p q ltac:(lia) eq_refl Hj).
Qed.

Lemma signature_named : forall p (r : list param) q n, signature (p :: r) -> In q r -> named n p -> ~ named n q.
Proof.
  intros p r q n H Hq Hp Hn. destruct (In_nth_error _ _ Hq) as (j & Hj).
  pose proof (one_named _ _ H n 0 (S j) p q eq_refl Hj Hp Hn); lia.
Qed.

Lemma signature_variadic : forall p (r : list param) q, signature (p :: r) -> In q r -> variadic p -> p_kind q <> p_kind p.
Proof.
  intros p r q H Hq Hp Hn. destruct (In_nth_error _ _ Hq) as (j & Hj).
  pose proof (one_variadic _ _ H 0 (S j) p q eq_refl Hj Hp (eq_sym Hn)); lia.
Qed.

Lemma named_not_star_star : forall n (p : param), named n p -> p_kind p <> StarStar.
Proof. intros n p [[H|H] _]; rewrite H; discriminate. Qed.

Lemma named_inj : forall n m (p : param), named n p -> named m p -> n = m.
Proof. intros n m p [_ H] [_ H']; rewrite H in H'; injection H'; auto. Qed.

(** ** Keyword calls, parameter by parameter *)

Definition without (n : N) (K : list (N * val)) : list (N * val) := filter (fun kv => negb (N.eqb (fst kv) n)) K.

Lemma in_without : forall n K m v, In (m, v) (without n K) <-> In (m, v) K /\ m <> n.
Proof.
  intros n K m v; unfold without; rewrite filter_In; cbn.
  rewrite negb_true_iff, N.eqb_neq; tauto.
Qed.

Lemma in_without_fst : forall n K m, In m (map fst (without n K)) <-> In m (map fst K) /\ m <> n.
Proof.
  intros n K m; rewrite !in_map_iff; split.
  - intros ((m' & v) & <- & H); apply in_without in H; cbn; split; [|tauto]. exists (m', v); tauto.
  - intros (((m' & v) & <- & H) & Hn). exists (m', v); split; auto. apply in_without; auto.
Qed.

Lemma without_nodup : forall n K, NoDup (map fst K) -> NoDup (map fst (without n K)).
Proof.
  intros n K; induction K as [|(m & v) K IH]; cbn [map fst without filter]; intros H; [constructor|].
  inversion H as [|? ? Hm HK]; subst.
  destruct (N.eqb m n) eqn:E; cbn [negb]; [exact (IH HK)|].
  cbn [map fst]; constructor; [|exact (IH HK)].
  intros Hin; apply Hm. fold (without n K) in Hin. apply in_without_fst in Hin; tauto.
Qed.

Lemma without_absent : forall n K, ~ In n (map fst K) -> without n K = K.
Proof.
  intros n K; induction K as [|(m & v) K IH]; cbn [map fst without filter In]; intros H; [reflexivity|].
  destruct (N.eqb_spec m n) as [->|E]; [tauto|].
  cbn [negb]; f_equal; apply IH; tauto.
Qed.

Lemma key_fun : forall (K : list (N * val)) n v w, NoDup (map fst K) -> In (n, v) K -> In (n, w) K -> v = w.
Proof.
  intros K n v w; induction K as [|(m & u) K IH]; cbn [map fst In]; intros H Hv Hw; [tauto|].
  inversion H as [|? ? Hm HK]; subst.
  destruct Hv as [Hv|Hv], Hw as [Hw|Hw].
  - congruence.
  - exfalso; apply Hm; apply in_map_iff; exists (n, w); split; [cbn; congruence|exact Hw].
  - exfalso; apply Hm; apply in_map_iff; exists (n, v); split; [cbn; congruence|exact Hv].
  - exact (IH HK Hv Hw).
Qed.

(** A parameter that receives its argument by name, taken out. *)
Lemma kw_take : forall p r n v K,
  NoDup (map fst K) -> named n p -> (forall q, In q r -> ~ named n q) -> In (n, v) K ->
  (kw_ok (p :: r) K <-> ok p v /\ kw_ok r (without n K)).
Proof.
  intros p r n v K Hnd Hp Hr Hin; split.
  - intros [A B]; refine (conj _ (conj _ _)).
    + destruct (A n v Hin) as (q & (Hq & Hrec) & Hv).
      destruct Hrec as [Hrec|[_ Hrec]]; [|exfalso; exact (Hrec p (or_introl eq_refl) Hp)].
      destruct Hq as [->|Hq]; [exact Hv|exfalso; exact (Hr q Hq Hrec)].
    + intros m w Hm. apply in_without in Hm as [Hm Hne].
      destruct (A m w Hm) as (q & (Hq & Hrec) & Hv).
      assert (Hqr : In q r).
      { destruct Hq as [->|Hq]; [|exact Hq]. exfalso. destruct Hrec as [Hrec|[Hrec _]].
        - apply Hne; exact (named_inj _ _ _ Hrec Hp).
        - exact (named_not_star_star _ _ Hp Hrec). }
      exists q; split; [|exact Hv]; split; [exact Hqr|].
      destruct Hrec as [Hrec|[Hrec Hno]]; [left; exact Hrec|right; split; [exact Hrec|]].
      intros q' Hq'; exact (Hno q' (or_intror Hq')).
    + intros q Hq Hreq. destruct (B q (or_intror Hq) Hreq) as (m & Hm & Hname).
      exists m; split; [|exact Hname]. apply in_without_fst; split; [exact Hm|].
      intros ->; exact (Hr q Hq Hname).
  - intros (Hv & A & B); split.
    + intros m w Hm. destruct (N.eq_dec m n) as [->|Hne].
      * rewrite (key_fun _ _ _ _ Hnd Hm Hin). exists p; split; [split; [left; reflexivity|left; exact Hp]|exact Hv].
      * destruct (A m w (proj2 (in_without _ _ _ _) (conj Hm Hne))) as (q & (Hq & Hrec) & Hw).
        exists q; split; [|exact Hw]; split; [right; exact Hq|].
        destruct Hrec as [Hrec|[Hrec Hno]]; [left; exact Hrec|right; split; [exact Hrec|]].
        intros q' [<-|Hq']; [|exact (Hno q' Hq')]. intros H; apply Hne; exact (named_inj _ _ _ H Hp).
    + intros q [<-|Hq] Hreq.
      * exists n; split; [|exact Hp]. apply in_map_iff; exists (n, v); auto.
      * destruct (B q Hq Hreq) as (m & Hm & Hname). exists m; split; [|exact Hname].
        apply in_without_fst in Hm; tauto.
Qed.

(** A parameter that receives nothing. *)
Lemma kw_skip : forall p r K,
  ~ variadic p -> (forall n, named n p -> ~ In n (map fst K)) ->
  (kw_ok (p :: r) K <-> p_default p = true /\ kw_ok r K).
Proof.
  intros p r K Hvar Hno; split.
  - intros [A B]; refine (conj _ (conj _ _)).
    + destruct (p_default p) eqn:E; [reflexivity|exfalso].
      destruct (B p (or_introl eq_refl) (conj Hvar E)) as (n & Hn & Hname). exact (Hno n Hname Hn).
    + intros m w Hm. destruct (A m w Hm) as (q & (Hq & Hrec) & Hv).
      assert (Hk : In m (map fst K)) by (apply in_map_iff; exists (m, w); auto).
      exists q; split; [|exact Hv]; split.
      * destruct Hq as [->|Hq]; [exfalso|exact Hq]. destruct Hrec as [Hrec|[Hrec _]].
        -- exact (Hno m Hrec Hk).
        -- apply Hvar; right; exact Hrec.
      * destruct Hrec as [Hrec|[Hrec Hn]]; [left; exact Hrec|right; split; [exact Hrec|]].
        intros q' Hq'; exact (Hn q' (or_intror Hq')).
    + intros q Hq Hreq; exact (B q (or_intror Hq) Hreq).
  - intros (Hd & A & B); split.
    + intros m w Hm. destruct (A m w Hm) as (q & (Hq & Hrec) & Hv).
      assert (Hk : In m (map fst K)) by (apply in_map_iff; exists (m, w); auto).
      exists q; split; [|exact Hv]; split; [right; exact Hq|].
      destruct Hrec as [Hrec|[Hrec Hn]]; [left; exact Hrec|right; split; [exact Hrec|]].
      intros q' [<-|Hq']; [|exact (Hn q' Hq')]. intros H; exact (Hno m H Hk).
    + intros q [<-|Hq] Hreq; [|exact (B q Hq Hreq)].
      destruct Hreq as [_ Hreq]; rewrite Hd in Hreq; discriminate.
Qed.

(** [*args] receives no named argument. *)
Lemma kw_star : forall p r K, p_kind p = Star -> (kw_ok (p :: r) K <-> kw_ok r K).
Proof.
  intros p r K Hp.
  assert (Hn : forall n, ~ named n p) by (intros n [[H|H] _]; rewrite Hp in H; discriminate).
  split; intros [A B]; split.
  - intros m w Hm. destruct (A m w Hm) as (q & (Hq & Hrec) & Hv).
    exists q; split; [|exact Hv]; split.
    + destruct Hq as [->|Hq]; [exfalso|exact Hq]. destruct Hrec as [Hrec|[Hrec _]]; [exact (Hn _ Hrec)|rewrite Hp in Hrec; discriminate].
    + destruct Hrec as [Hrec|[Hrec Hno]]; [left; exact Hrec|right; split; [exact Hrec|]].
      intros q' Hq'; exact (Hno q' (or_intror Hq')).
  - intros q Hq Hreq; exact (B q (or_intror Hq) Hreq).
  - intros m w Hm. destruct (A m w Hm) as (q & (Hq & Hrec) & Hv).
    exists q; split; [|exact Hv]; split; [right; exact Hq|].
    destruct Hrec as [Hrec|[Hrec Hno]]; [left; exact Hrec|right; split; [exact Hrec|]].
    intros q' [<-|Hq']; [apply Hn|exact (Hno q' Hq')].
  - intros q [<-|Hq] Hreq; [|exact (B q Hq Hreq)].
    exfalso; apply (proj1 Hreq); left; exact Hp.
Qed.

(** The order of the parameters and of the arguments does not matter. *)
Lemma kw_params : forall ps ps' K, (forall p, In p ps <-> In p ps') -> kw_ok ps K -> kw_ok ps' K.
Proof.
  intros ps ps' K H [A B]; split.
  - intros n v Hin. destruct (A n v Hin) as (p & (Hp & Hrec) & Hv).
    exists p; split; [|exact Hv]; split; [apply H; exact Hp|].
    destruct Hrec as [Hrec|[Hrec Hno]]; [left; exact Hrec|right; split; [exact Hrec|]].
    intros q Hq; apply Hno, H; exact Hq.
  - intros p Hp Hreq; exact (B p (proj2 (H p) Hp) Hreq).
Qed.

Lemma kw_args : forall ps K K', (forall x, In x K <-> In x K') -> kw_ok ps K -> kw_ok ps K'.
Proof.
  intros ps K K' H [A B]; split.
  - intros n v Hin. exact (A n v (proj2 (H _) Hin)).
  - intros p Hp Hreq. destruct (B p Hp Hreq) as (n & Hn & Hname).
    exists n; split; [|exact Hname]. apply in_map_iff in Hn as (x & <- & Hx).
    apply in_map_iff; exists x; split; [reflexivity|apply H; exact Hx].
Qed.

Lemma kw_nil : forall K, kw_ok [] K <-> K = [].
Proof.
  intros K; split.
  - intros [A _]. destruct K as [|(n & v) K]; [reflexivity|].
    destruct (A n v (or_introl eq_refl)) as (p & (Hp & _) & _); destruct Hp.
  - intros ->; split; [intros n v []|intros p []].
Qed.

(** ** Calls with positional arguments *)

Section Position.
Variables (p : param) (r : list param) (v : val) (vs : list val) (K : list (N * val)).
Hypothesis sig : signature (p :: r).
Hypothesis pos : positional p.

Lemma position_0 : forall j, receives_position (p :: r) 0 j <-> j = 0.
Proof.
  intros j; split.
  - intros (q & Hq & [[_ H]|[_ H]]); [auto|exfalso; exact (H p eq_refl pos)].
  - intros ->; exists p; split; [reflexivity|left; split; [exact pos|reflexivity]].
Qed.

Lemma position_S : forall i j, receives_position (p :: r) (S i) j <-> exists j', j = S j' /\ receives_position r i j'.
Proof.
  intros i j; split.
  - intros (q & Hq & H). destruct j as [|j].
    + cbn in Hq; injection Hq as <-. exfalso. destruct H as [[_ H]|[H _]]; [discriminate|].
      destruct pos as [E|E]; rewrite E in H; discriminate.
    + exists j; split; [reflexivity|]. exists q; split; [exact Hq|].
      destruct H as [[H1 H2]|[H1 H2]]; [left; split; [exact H1|congruence]|right; split; [exact H1|exact H2]].
  - intros (j' & -> & (q & Hq & H)). exists q; split; [exact Hq|].
    destruct H as [[H1 H2]|[H1 H2]]; [left; split; [exact H1|congruence]|right; split; [exact H1|exact H2]].
Qed.

Lemma not_star_star : p_kind p <> StarStar.
Proof. destruct pos as [E|E]; rewrite E; discriminate. Qed.

Lemma name_0 : forall n, receives_name (p :: r) n 0 <-> named n p.
Proof.
  intros n; split.
  - intros (q & Hq & H); cbn in Hq; injection Hq as <-.
    destruct H as [H|[H _]]; [exact H|exfalso; exact (not_star_star H)].
  - intros H; exists p; split; [reflexivity|left; exact H].
Qed.

Lemma name_S : forall n j, ~ named n p -> (receives_name (p :: r) n (S j) <-> receives_name r n j).
Proof.
  intros n j Hn; split.
  - intros (q & Hq & H); exists q; split; [exact Hq|].
    destruct H as [H|[H Hno]]; [left; exact H|right; split; [exact H|]].
    intros q' Hq'; exact (Hno q' (or_intror Hq')).
  - intros (q & Hq & H); exists q; split; [exact Hq|].
    destruct H as [H|[H Hno]]; [left; exact H|right; split; [exact H|]].
    intros q' [<-|Hq']; [exact Hn|exact (Hno q' Hq')].
Qed.

(** A positional argument goes to the first parameter, and then that parameter may not be named. *)
Lemma accepts_position :
  accepts fits (p :: r) (mk_call (v :: vs) K) <->
  ok p v /\ accepts fits r (mk_call vs K) /\ forall n, named n p -> ~ In n (map fst K).
Proof.
  split.
  - intros [A B C D]; cbn [by_position by_name] in *.
    assert (Hno : forall n, named n p -> ~ In n (map fst K)).
    { intros n Hn Hin. refine (C 0 n 0 _ Hin (proj2 (position_0 0) eq_refl) (proj2 (name_0 n) Hn)). cbn; lia. }
    refine (conj _ (conj _ Hno)).
    + destruct (A 0 v eq_refl) as (j & Hj & (q & Hq & Hv)).
      apply position_0 in Hj; subst j. cbn in Hq; injection Hq as <-. exact Hv.
    + constructor; cbn [by_position by_name].
      * intros i w Hi. destruct (A (S i) w Hi) as (j & Hj & Hw).
        apply position_S in Hj as (j' & -> & Hj). exists j'; split; [exact Hj|exact Hw].
      * intros n w Hin. assert (Hk : In n (map fst K)) by (apply in_map_iff; exists (n, w); auto).
        assert (Hn : ~ named n p) by (intros H; exact (Hno n H Hk)).
        destruct (B n w Hin) as (j & Hj & Hw). destruct j as [|j].
        -- apply name_0 in Hj; contradiction.
        -- exists j; split; [exact (proj1 (name_S n j Hn) Hj)|exact Hw].
      * intros i n j Hi Hk Hp Hname. assert (Hn : ~ named n p) by (intros H; exact (Hno n H Hk)).
        refine (C (S i) n (S j) _ Hk _ (proj2 (name_S n j Hn) Hname)); [cbn; lia|].
        apply position_S; exists j; auto.
      * intros j q Hj Hreq. destruct (D (S j) q Hj Hreq) as [(i & Hi & H)|(n & Hk & H)].
        -- destruct i as [|i]; [apply position_0 in H; discriminate|].
           apply position_S in H as (j' & [= <-] & H). left; exists i; split; [cbn in Hi; lia|exact H].
        -- right; exists n; split; [exact Hk|]. apply name_S; [|exact H].
           intros H'; exact (Hno n H' Hk).
  - intros (Hv & [A B C D] & Hno); cbn [by_position by_name] in *; constructor; cbn [by_position by_name].
    + intros i w Hi. destruct i as [|i].
      * cbn in Hi; injection Hi as <-. exists 0; split; [apply position_0; reflexivity|]. exists p; auto.
      * destruct (A i w Hi) as (j & Hj & Hw). exists (S j); split; [apply position_S; exists j; auto|exact Hw].
    + intros n w Hin. assert (Hk : In n (map fst K)) by (apply in_map_iff; exists (n, w); auto).
      assert (Hn : ~ named n p) by (intros H; exact (Hno n H Hk)).
      destruct (B n w Hin) as (j & Hj & Hw). exists (S j); split; [apply name_S; auto|exact Hw].
    + intros i n j Hi Hk Hp Hname. assert (Hn : ~ named n p) by (intros H; exact (Hno n H Hk)).
      destruct j as [|j]; [apply name_0 in Hname; contradiction|].
      destruct i as [|i]; [apply position_0 in Hp; discriminate|].
      apply position_S in Hp as (j' & [= <-] & Hp). apply (name_S n j Hn) in Hname.
      refine (C i n j _ Hk Hp Hname). cbn in Hi; lia.
    + intros j q Hj Hreq. destruct j as [|j].
      * left; exists 0; split; [cbn; lia|apply position_0; reflexivity].
      * destruct (D j q Hj Hreq) as [(i & Hi & H)|(n & Hk & H)].
        -- left; exists (S i); split; [cbn; lia|apply position_S; exists j; auto].
        -- right; exists n; split; [exact Hk|]. apply name_S; [|exact H]. intros H'; exact (Hno n H' Hk).
Qed.

End Position.

(** All positional arguments that are left go to [*args]. *)
Lemma accepts_star : forall p r vs K, signature (p :: r) -> p_kind p = Star ->
  (accepts fits (p :: r) (mk_call vs K) <-> Forall (ok p) vs /\ kw_ok r K).
Proof.
  intros p r vs K Hsig Hp.
  assert (Hpos : forall q, In q (p :: r) -> ~ positional q).
  { intros q Hq [E|E]; (destruct Hq as [<-|Hq]; [rewrite Hp in E; discriminate|]);
      pose proof (signature_rank _ _ _ Hsig Hq) as H; rewrite Hp, E in H; cbn in H; lia. }
  assert (Hrec : forall i j, receives_position (p :: r) i j <-> j = 0).
  { intros i j; split.
    - intros (q & Hq & [[H _]|[H _]]); [exfalso; exact (Hpos q (nth_error_In _ _ Hq) H)|].
      symmetry; refine (one_variadic _ _ Hsig 0 j p q eq_refl Hq (or_introl Hp) _); congruence.
    - intros ->; exists p; split; [reflexivity|right; split; [exact Hp|]].
      intros q Hq; exact (Hpos q (nth_error_In _ _ Hq)). }
  rewrite <- (kw_star p r K Hp), <- accepts_kw.
  split.
  - intros [A B C D]; cbn [by_position by_name] in *; split.
    + apply Forall_forall; intros v Hv. destruct (In_nth_error _ _ Hv) as (i & Hi).
      destruct (A i v Hi) as (j & Hj & (q & Hq & Hf)). apply Hrec in Hj; subst j.
      cbn in Hq; injection Hq as <-; exact Hf.
    + constructor; cbn [by_position by_name].
      * intros i v Hi; destruct i; discriminate.
      * exact B.
      * intros i n j Hi; cbn in Hi; lia.
      * intros j q Hj Hreq. destruct (D j q Hj Hreq) as [(i & _ & H)|H]; [exfalso|right; exact H].
        apply Hrec in H; subst j; cbn in Hj; injection Hj as <-. apply (proj1 Hreq); left; exact Hp.
  - intros [F [A B C D]]; cbn [by_position by_name] in *; constructor; cbn [by_position by_name].
    + intros i v Hi. exists 0; split; [apply Hrec; reflexivity|].
      exists p; split; [reflexivity|]. rewrite Forall_forall in F. exact (F v (nth_error_In _ _ Hi)).
    + exact B.
    + intros i n j _ _ Hj (q & Hq & H). apply Hrec in Hj; subst j; cbn in Hq; injection Hq as <-.
      destruct H as [[[H|H] _]|[H _]]; rewrite Hp in H; discriminate.
    + intros j q Hj Hreq. destruct (D j q Hj Hreq) as [(i & Hi & _)|H]; [cbn in Hi; lia|right; exact H].
Qed.

(** Without a positional parameter or [*args], no positional argument. *)
Lemma accepts_keyword_only : forall p r vs K, signature (p :: r) -> p_kind p = KeywordOnly \/ p_kind p = StarStar ->
  accepts fits (p :: r) (mk_call vs K) -> vs = [].
Proof.
  intros p r vs K Hsig Hp [A _ _ _]; cbn [by_position] in A.
  destruct vs as [|v vs]; [reflexivity|exfalso].
  destruct (A 0 v eq_refl) as (j & (q & Hq & H) & _).
  assert (Hr : 3 <= rank (p_kind q)).
  { destruct j as [|j]; [cbn in Hq; injection Hq as <-; destruct Hp as [E|E]; rewrite E; cbn; lia|].
    cbn [nth_error] in Hq. pose proof (signature_rank _ _ _ Hsig (nth_error_In _ _ Hq)) as Hr.
    destruct Hp as [E|E]; rewrite E in Hr; cbn [rank] in Hr; lia. }
  destruct H as [[[E|E] _]|[E _]]; rewrite E in Hr; cbn in Hr; lia.
Qed.

Lemma accepts_nil : forall vs K, accepts fits [] (mk_call vs K) <-> vs = [] /\ K = [].
Proof.
  intros vs K; split.
  - intros H. assert (E : vs = []).
    { destruct H as [A _ _ _]; cbn [by_position] in A. destruct vs as [|v vs]; [reflexivity|exfalso].
      destruct (A 0 v eq_refl) as (j & (q & Hq & _) & _). destruct j; discriminate. }
    subst vs; split; [reflexivity|]. apply accepts_kw, kw_nil in H; exact H.
  - intros [-> ->]. apply accepts_kw, kw_nil; reflexivity.
Qed.

(** [**kwargs] takes what is left. *)
Lemma kw_star_star : forall p K, p_kind p = StarStar -> (kw_ok [p] K <-> Forall (fun kv => ok p (snd kv)) K).
Proof.
  intros p K Hp.
  assert (Hn : forall n q, In q [p] -> ~ named n q).
  { intros n q [<-|[]] H; exact (named_not_star_star _ _ H Hp). }
  split.
  - intros [A _]; apply Forall_forall; intros (n & v) Hin.
    destruct (A n v Hin) as (q & (Hq & _) & Hv). destruct Hq as [<-|[]]; exact Hv.
  - intros F; rewrite Forall_forall in F; split.
    + intros n v Hin; exists p; split; [split; [left; reflexivity|right; split; [exact Hp|apply Hn]]|exact (F _ Hin)].
    + intros q [<-|[]] [Hreq _]; exfalso; apply Hreq; right; exact Hp.
Qed.

End Facts.
