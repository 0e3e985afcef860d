(** The call in which [*xs] and [**kws] give as much as they can. *)
From Coq Require Import List NArith Arith Bool Lia Permutation.
From Verif Require Import CallModel CallSpec CallFacts CallProofs CallOpen.
Import ListNotations.

Section Facts.
Variables (ty val : Type) (fits : ty -> val -> bool).
Notation param := (param ty).
Notation right_type := (fun t v => fits t v = true).
Notation ok := (ok ty val right_type).
Notation kw_ok := (kw_ok ty val right_type).
Notation without := (without val).
Notation same := (same val).
Notation binds := (binds ty val fits).
Notation binds_open := (binds_open ty val fits).

(** What [**kws] adds: the same value for every name. *)
Definition given (y : option val) (E : list N) : list (N * val) :=
  match y with Some b => map (fun n => (n, b)) E | None => [] end.

Lemma in_given : forall y E n v, In (n, v) (given y E) <-> y = Some v /\ In n E.
Proof.
  intros [b|] E n v; cbn [given]; [|split; [intros []|intros [H _]; discriminate]]. rewrite in_map_iff. split.
  - intros (m & [= <- <-] & H); auto.
  - intros [[= <-] H]; eauto.
Qed.

Lemma in_given_fst : forall y E n, In n (map fst (given y E)) <-> y <> None /\ In n E.
Proof.
  intros y E n; rewrite in_map_iff; split.
  - intros ((m & v) & <- & H). apply in_given in H as [-> H]. cbn; split; [discriminate|exact H].
  - intros [Hy H]. destruct y as [b|]; [|contradiction]. exists (n, b); split; [reflexivity|]. apply in_given; auto.
Qed.

Lemma fst_given : forall b E, map fst (given (Some b) E) = E.
Proof. intros b E; cbn [given]; rewrite map_map; cbn. apply map_id. Qed.

(** [E] are the names that [**kws] may give: those of parameters in [us], and the name [f] if there is a [**kwargs] in [ps]. *)
Definition may_give (f : N) (us ps : list param) (K : list (N * val)) (E : list N) : Prop :=
  forall n, In n E <-> ~ In n (map fst K) /\ (exists p, In p us /\ named n p) \/ n = f /\ exists p, In p ps /\ p_kind p = StarStar.
Definition fresh (f : N) (ps : list param) (K : list (N * val)) : Prop :=
  (forall p, In p ps -> ~ named f p) /\ ~ In f (map fst K).

Lemma kind_star_star : forall k : kind, k = StarStar \/ k <> StarStar.
Proof. destruct k; auto; right; discriminate. Qed.

Lemma keyword_phase : forall ps K y f E, signature ps -> fresh f ps K -> may_give f ps ps K E ->
  (binds_open ps [] None K y <-> binds ps [] (K ++ given y E)).
Proof.
  induction ps as [|p r IH]; intros K y f E Hsig [Hf HfK] HE; cbn [CallOpen.binds_open CallProofs.binds].
  - assert (EE : E = []).
    { destruct E as [|n E]; [reflexivity|exfalso]. destruct (proj1 (HE n) (or_introl eq_refl)) as [(_ & p & [] & _)|(_ & p & [] & _)]. }
    subst E. replace (given y []) with (@nil (N * val)) by (destruct y; reflexivity). rewrite app_nil_r. reflexivity.
  - pose proof (signature_tail _ _ _ Hsig) as Hsig'.
    assert (Hf' : fresh f r K) by (split; [intros q Hq; apply Hf; right; exact Hq|exact HfK]).
    assert (Hss : p_kind p <> StarStar -> (forall n, named n p -> In n (map fst K)) -> may_give f r r K E).
    { intros Hk Hno n. rewrite (HE n). split; (intros [(A & q & Hq & B)|(A & q & Hq & B)]; [left|right]).
      - destruct Hq as [<-|Hq]; [exfalso; exact (A (Hno n B))|]. eauto.
      - destruct Hq as [<-|Hq]; [contradiction|]. eauto.
      - split; [exact A|]. exists q; split; [right; exact Hq|exact B].
      - split; [exact A|]. exists q; split; [right; exact Hq|exact B]. }
    assert (Hkw : p_kind p = PositionalOrKeyword \/ p_kind p = KeywordOnly ->
      (by_kw_open ty val fits p (fun K => binds_open r [] None K y) K y <-> by_kw ty val fits p (binds r []) (K ++ given y E))).
    { intros Hk. assert (Hk' : p_kind p <> StarStar) by (destruct Hk as [Hk|Hk]; rewrite Hk; discriminate).
      pose proof (has_name _ _ Hsig p (or_introl eq_refl) Hk) as Hname. destruct (p_name p) as [n|] eqn:En; [|contradiction].
      assert (Hnp : named n p) by (split; assumption).
      unfold by_kw_open, by_kw. rewrite En.
      assert (HnE : In n E <-> ~ In n (map fst K)).
      { rewrite (HE n); split.
        - intros [[A _]|(-> & _)]; [exact A|exfalso; exact (Hf p (or_introl eq_refl) Hnp)].
        - intros A; left; split; [exact A|]. exists p; split; [left; reflexivity|exact Hnp]. }
      destruct (in_dec N.eq_dec n (map fst K)) as [Hin|Hin].
      - assert (Hn' : ~ In n E) by (rewrite HnE; tauto).
        assert (Hw : without n (K ++ given y E) = without n K ++ given y E).
        { unfold CallFacts.without. rewrite filter_app. f_equal. apply without_absent. rewrite in_given_fst; tauto. }
        assert (Hfw : fresh f r (without n K)) by (split; [apply Hf'|rewrite in_without_fst; tauto]).
        assert (HEw : may_give f r r (without n K) E).
        { intros m. rewrite (Hss Hk' (fun m Hm => ltac:(rewrite (named_inj _ _ _ _ Hm Hnp); exact Hin)) m). rewrite in_without_fst.
          split; (intros [(A & q & Hq & B)|A]; [left|right; exact A]); (split; [|exists q; auto]); [tauto|].
          intros C; apply A; split; [exact C|]. intros ->. exact (signature_named _ _ _ _ _ Hsig Hq Hnp B). }
        split; (intros [(m & v & [= <-] & A & B & C)|(A & _)]; [left; exists n, v|exfalso; apply (A n eq_refl)]).
        + refine (conj eq_refl (conj (in_or_app _ _ _ (or_introl A)) (conj B _))). rewrite Hw. apply (IH _ y f E Hsig' Hfw HEw); exact C.
        + exact Hin.
        + rewrite Hw in C. apply (IH _ y f E Hsig' Hfw HEw) in C. refine (conj eq_refl (conj _ (conj B C))).
          apply in_app_or in A as [A|A]; [exact A|]. apply in_given in A; tauto.
        + rewrite map_app; apply in_or_app; left; exact Hin.
      - pose proof (proj2 HnE Hin) as Hn'.
        set (E' := filter (fun m => negb (N.eqb m n)) E).
        assert (HE' : may_give f r r K E').
        { intros m. unfold E'. rewrite filter_In, negb_true_iff, N.eqb_neq, (HE m). split.
          - intros ([(A & q & Hq & B)|(A & q & Hq & B)] & Hne); [left|right].
            + destruct Hq as [<-|Hq]; [exfalso; exact (Hne (named_inj _ _ _ _ B Hnp))|]. eauto.
            + destruct Hq as [<-|Hq]; [contradiction|]. eauto.
          - intros [(A & q & Hq & B)|(A & q & Hq & B)]; split.
            + left; split; [exact A|]. exists q; split; [right; exact Hq|exact B].
            + intros ->. exact (signature_named _ _ _ _ _ Hsig Hq Hnp B).
            + right; split; [exact A|]. exists q; split; [right; exact Hq|exact B].
            + intros ->. subst n. exact (Hf p (or_introl eq_refl) Hnp). }
        assert (Hw : without n (K ++ given y E) = K ++ given y E').
        { unfold CallFacts.without. rewrite filter_app. f_equal; [apply without_absent; exact Hin|].
          destruct y as [b|]; [|reflexivity]. cbn [given]. unfold E'. clear. induction E as [|m E IH]; [reflexivity|]. cbn.
          destruct (N.eqb m n); cbn; rewrite IH; reflexivity. }
        split.
        + intros [(m & v & [= <-] & A & _)|(_ & A & B)]; [exfalso; apply Hin; apply (in_map fst) in A; exact A|].
          apply (IH K y f E' Hsig' Hf' HE') in B. destruct y as [b|].
          * left; exists n, b. refine (conj eq_refl (conj _ (conj A _))); [|rewrite Hw; exact B].
            apply in_or_app; right. apply in_given; auto.
          * right. cbn [given] in B |- *; rewrite app_nil_r in *. refine (conj _ (conj A B)). intros m [= <-]; exact Hin.
        + intros [(m & v & [= <-] & A & B & C)|(A & B & C)]; right.
          * apply in_app_or in A as [A|A]; [exfalso; apply Hin; apply (in_map fst) in A; exact A|].
            apply in_given in A as [-> _]. rewrite Hw in C. apply (IH K _ f E' Hsig' Hf' HE') in C.
            refine (conj _ (conj B C)). intros m [= <-]; exact Hin.
          * destruct y as [b|].
            -- exfalso; apply (A n eq_refl). rewrite map_app; apply in_or_app; right. apply in_given_fst; split; [discriminate|exact Hn'].
            -- cbn [given] in C; rewrite app_nil_r in C.
               refine (conj _ (conj B _)); [intros m [= <-]; exact Hin|]. apply (IH K None f E' Hsig' Hf' HE').
               cbn [given]; rewrite app_nil_r; exact C. }
    destruct (p_kind p) eqn:Ek.
    + rewrite (IH K y f E Hsig' Hf'); [reflexivity|]. apply Hss; [discriminate|]. intros n [[A|A] _]; rewrite Ek in A; discriminate.
    + apply Hkw; left; reflexivity.
    + rewrite (IH K y f E Hsig' Hf').
      * split; [intros (A & _ & B); auto|intros [A B]; auto].
      * apply Hss; [discriminate|]. intros n [[A|A] _]; rewrite Ek in A; discriminate.
    + rewrite Hkw by (right; reflexivity). reflexivity.
    + assert (Er : r = []).
      { destruct r as [|q r]; [reflexivity|exfalso].
        pose proof (signature_rank _ _ _ q Hsig (or_introl eq_refl)) as Hq; rewrite Ek in Hq; cbn [rank] in Hq.
        apply (signature_variadic _ _ _ q Hsig (or_introl eq_refl)); [right; exact Ek|].
        rewrite Ek; destruct (p_kind q); cbn in Hq; try lia; reflexivity. }
      subst r. cbn [CallOpen.binds_open CallProofs.binds]. rewrite Forall_app.
      assert (HfE : In f E) by (apply HE; right; split; [reflexivity|]; exists p; split; [left; reflexivity|exact Ek]).
      assert (Hy : Forall (fun kv => ok p (snd kv)) (given y E) <-> match y with Some b => ok p b | None => True end).
      { rewrite Forall_forall. destruct y as [b|]; split.
        - intros H; exact (H (f, b) (proj2 (in_given _ _ _ _) (conj eq_refl HfE))).
        - intros H (n & v) Hin. apply in_given in Hin as [[= <-] _]. exact H.
        - auto.
        - intros _ x []. }
      rewrite Hy. tauto.
Qed.

(** ** The positions that [*xs] fills *)

Definition positional_b (p : param) : bool := match p_kind p with PositionalOnly | PositionalOrKeyword => true | _ => false end.
Definition star_b (p : param) : bool := match p_kind p with Star => true | _ => false end.
Definition places (ps : list param) : nat := length (filter positional_b ps).

(** How many values [*xs] gives at most: one for every positional parameter left, and one for [*args]. *)
Definition extra_places (ps : list param) (k : nat) : nat := (places ps - k) + (if existsb star_b ps then 1 else 0).

Definition filled (ps : list param) (vs : list val) (x : option val) : list val :=
  match x with Some a => vs ++ repeat a (extra_places ps (length vs)) | None => vs end.

(** The parameters that no position reaches. *)
Definition unfilled (ps : list param) (k : nat) : list param :=
  filter (fun p => match p_kind p with KeywordOnly => true | _ => false end) ps ++
  filter (fun p => match p_kind p with PositionalOrKeyword => true | _ => false end) (skipn k ps).

Lemma in_unfilled : forall ps k p, In p (unfilled ps k) <->
  In p ps /\ p_kind p = KeywordOnly \/ (exists j, k <= j /\ nth_error ps j = Some p) /\ p_kind p = PositionalOrKeyword.
Proof.
  intros ps k p. unfold unfilled. rewrite in_app_iff, !filter_In.
  assert (H : In p (skipn k ps) <-> exists j, k <= j /\ nth_error ps j = Some p).
  { revert k. induction ps as [|q ps IH]; intros k.
    - rewrite skipn_nil. split; [intros []|intros ([|j] & _ & H); discriminate].
    - destruct k as [|k].
      + cbn [skipn]. split.
        * intros Hin. apply In_nth_error in Hin as (j & Hj). exists j; split; [lia|exact Hj].
        * intros (j & _ & Hj). exact (nth_error_In _ _ Hj).
      + cbn [skipn]. rewrite IH. split; [intros (j & A & B); exists (S j); split; [lia|exact B]|].
        intros ([|j] & A & B); [lia|]. exists j; split; [lia|exact B]. }
  rewrite H. destruct (p_kind p); split; intros [[A B]|[A B]]; try discriminate; auto.
Qed.

Lemma unfilled_0 : forall ps f K E, may_give f (unfilled ps 0) ps K E -> may_give f ps ps K E.
Proof.
  intros ps f K E H n. rewrite (H n). split; (intros [(A & p & Hp & B)|A]; [left; split; [exact A|]; exists p|right; exact A]); (split; [|exact B]).
  - apply in_unfilled in Hp as [[Hp _]|[(j & _ & Hj) _]]; [exact Hp|exact (nth_error_In _ _ Hj)].
  - apply in_unfilled. destruct B as [[B|B] _]; [right|left; auto]. split; [|exact B].
    apply In_nth_error in Hp as (j & Hj). exists j; split; [lia|exact Hj].
Qed.

Lemma no_places : forall p r, signature (p :: r) -> 2 <= rank (p_kind p) -> places (p :: r) = 0.
Proof.
  intros p r Hsig Hp. unfold places.
  assert (H : filter positional_b (p :: r) = []).
  { destruct (filter positional_b (p :: r)) as [|q l] eqn:E; [reflexivity|exfalso].
    assert (Hq : In q (filter positional_b (p :: r))) by (rewrite E; left; reflexivity).
    apply filter_In in Hq as [Hq B]. destruct Hq as [<-|Hq].
    - unfold positional_b in B; destruct (p_kind p); cbn in Hp; try lia; discriminate.
    - pose proof (signature_rank _ _ _ q Hsig Hq) as Hr. unfold positional_b in B; destruct (p_kind q); cbn in Hr; try lia; discriminate. }
  rewrite H; reflexivity.
Qed.

Lemma positional_places : forall p r k, positional p -> extra_places (p :: r) (S k) = extra_places r k /\
  extra_places (p :: r) 0 = S (extra_places r 0).
Proof.
  intros p r k Hp. assert (A : positional_b p = true) by (unfold positional_b; destruct Hp as [E|E]; rewrite E; reflexivity).
  assert (B : star_b p = false) by (unfold star_b; destruct Hp as [E|E]; rewrite E; reflexivity).
  unfold extra_places, places. cbn [filter existsb]. rewrite A, B. cbn [length orb]. split; lia.
Qed.

Lemma filled_cons : forall p r v vs x, positional p -> filled (p :: r) (v :: vs) x = v :: filled r vs x.
Proof.
  intros p r v vs [a|] Hp; cbn [filled length app]; [|reflexivity]. rewrite (proj1 (positional_places p r _ Hp)). reflexivity.
Qed.

Lemma filled_nil : forall p r a, positional p -> filled (p :: r) [] (Some a) = a :: filled r [] (Some a).
Proof. intros p r a Hp; cbn [filled length app]. rewrite (proj2 (positional_places p r 0 Hp)). reflexivity. Qed.

Lemma unfilled_S : forall p r k, positional p -> unfilled (p :: r) (S k) = unfilled r k.
Proof.
  intros p r k Hp. unfold unfilled. cbn [skipn filter]. destruct Hp as [E|E]; rewrite E; reflexivity.
Qed.

Lemma may_give_positional : forall f us p r K E, positional p -> may_give f us (p :: r) K E -> may_give f us r K E.
Proof.
  intros f us p r K E Hp H n. rewrite (H n). split; (intros [A|(A & q & Hq & B)]; [left; exact A|right; split; [exact A|]; exists q]); (split; [|exact B]).
  - destruct Hq as [<-|Hq]; [exfalso; destruct Hp as [C|C]; rewrite C in B; discriminate|exact Hq].
  - right; exact Hq.
Qed.

Lemma same_app_r : forall K A B, same A B -> same (K ++ A) (K ++ B).
Proof. intros K A B H x. rewrite !in_app_iff, (H x). reflexivity. Qed.

(** Behind [*args] there are only parameters that are given by name. *)
Lemma unfilled_late : forall p r k, signature (p :: r) -> 2 <= rank (p_kind p) ->
  forall q n, named n q -> (In q (unfilled (p :: r) k) <-> In q (p :: r)).
Proof.
  intros p r k Hsig Hp q n Hn. rewrite in_unfilled.
  assert (Hno : In q (p :: r) -> p_kind q <> PositionalOrKeyword).
  { intros [<-|Hq] E; [rewrite E in Hp; cbn in Hp; lia|].
    pose proof (signature_rank _ _ _ q Hsig Hq) as Hr. rewrite E in Hr; cbn in Hr; lia. }
  split.
  - intros [[A _]|[(j & _ & Hj) _]]; [exact A|exact (nth_error_In _ _ Hj)].
  - intros Hq. left; split; [exact Hq|]. destruct Hn as [[A|A] _]; [exfalso; exact (Hno Hq A)|exact A].
Qed.

Lemma fullest : forall ps vs x K y f E, signature ps -> fresh f ps K -> may_give f (unfilled ps (length (filled ps vs x))) ps K E ->
  (binds_open ps vs x K y <-> binds ps (filled ps vs x) (K ++ given y E)).
Proof.
  induction ps as [|p r IH]; intros vs x K y f E Hsig Hf HE.
  - assert (EE : filled [] vs x = vs).
    { destruct x as [a|]; cbn [filled]; [|reflexivity]. unfold extra_places, places. cbn. apply app_nil_r. }
    rewrite EE in *. cbn [CallOpen.binds_open CallProofs.binds].
    assert (E0 : E = []).
    { destruct E as [|n E]; [reflexivity|exfalso]. destruct (proj1 (HE n) (or_introl eq_refl)) as [(_ & p & Hp & _)|(_ & p & [] & _)].
      unfold unfilled in Hp. rewrite skipn_nil in Hp. destruct Hp. }
    subst E. replace (given y []) with (@nil (N * val)) by (destruct y; reflexivity). rewrite app_nil_r. reflexivity.
  - pose proof (signature_tail _ _ _ Hsig) as Hsig'.
    assert (Hf' : fresh f r K) by (destruct Hf as [A B]; split; [intros q Hq; apply A; right; exact Hq|exact B]).
    assert (Hnone : vs = [] -> x = None -> binds_open (p :: r) vs x K y <-> binds (p :: r) (filled (p :: r) vs x) (K ++ given y E)).
    { intros -> ->. cbn [filled]. cbn [filled length] in HE. exact (keyword_phase (p :: r) K y f E Hsig Hf (unfilled_0 _ _ _ _ HE)). }
    assert (Hlate : 2 <= rank (p_kind p) -> may_give f (p :: r) (p :: r) K E).
    { intros Hp n. rewrite (HE n). split; (intros [(A & q & Hq & B)|A]; [left; split; [exact A|]; exists q|right; exact A]); (split; [|exact B]).
      - exact (proj1 (unfilled_late p r _ Hsig Hp q n B) Hq).
      - exact (proj2 (unfilled_late p r _ Hsig Hp q n B) Hq). }
    assert (Hpos : positional p -> binds_open (p :: r) vs x K y <-> binds (p :: r) (filled (p :: r) vs x) (K ++ given y E)).
    { intros Hp. destruct vs as [|v vs].
      - destruct x as [a|]; [|apply Hnone; reflexivity]. rewrite (filled_nil p r a Hp) in *. cbn [length] in HE.
        rewrite (unfilled_S p r _ Hp) in HE.
        pose proof (IH [] (Some a) K y f E Hsig' Hf' (may_give_positional _ _ _ _ _ _ Hp HE)) as H.
        cbn [CallOpen.binds_open CallProofs.binds]. destruct Hp as [Ek|Ek]; rewrite Ek; rewrite H; reflexivity.
      - rewrite (filled_cons p r v vs x Hp) in *. cbn [length] in HE. rewrite (unfilled_S p r _ Hp) in HE.
        pose proof (IH vs x K y f E Hsig' Hf' (may_give_positional _ _ _ _ _ _ Hp HE)) as H.
        cbn [CallOpen.binds_open CallProofs.binds]. destruct Hp as [Ek|Ek]; rewrite Ek; rewrite H; reflexivity. }
    assert (Hrest : p_kind p <> StarStar -> (forall n, ~ named n p) -> may_give f r r K E -> binds_open r [] None K y <-> binds r [] (K ++ given y E)).
    { intros _ _ H. exact (keyword_phase r K y f E Hsig' Hf' H). }
    destruct (p_kind p) eqn:Ek.
    + apply Hpos; left; exact Ek.
    + apply Hpos; right; exact Ek.
    + pose proof (no_places p r Hsig ltac:(rewrite Ek; cbn; lia)) as Hnp.
      assert (Hs : existsb star_b (p :: r) = true) by (cbn; unfold star_b; rewrite Ek; reflexivity).
      assert (HEr : may_give f r r K E).
      { intros n. rewrite (Hlate ltac:(cbn; lia) n). split; (intros [(A & q & Hq & B)|(A & q & Hq & B)]; [left|right]; (split; [exact A|]); exists q; (split; [|exact B])).
        - destruct Hq as [<-|Hq]; [exfalso; destruct B as [[B|B] _]; rewrite Ek in B; discriminate|exact Hq].
        - destruct Hq as [<-|Hq]; [congruence|exact Hq].
        - right; exact Hq.
        - right; exact Hq. }
      pose proof (keyword_phase r K y f E Hsig' Hf' HEr) as H.
      cbn [CallOpen.binds_open CallProofs.binds]. rewrite Ek, H. destruct x as [a|]; cbn [filled].
      * unfold extra_places. rewrite Hnp, Hs. cbn [Nat.sub Nat.add repeat]. rewrite Forall_app.
        split; [intros (A & B & C); refine (conj (conj A _) C); constructor; [exact B|constructor]|].
        intros ((A & B) & C). refine (conj A (conj (Forall_inv B) C)).
      * tauto.
    + pose proof (no_places p r Hsig ltac:(rewrite Ek; cbn; lia)) as Hnp.
      assert (Hs : existsb star_b (p :: r) = false).
      { destruct (existsb star_b (p :: r)) eqn:B; [exfalso|reflexivity]. apply existsb_exists in B as (q & Hq & B).
        unfold star_b in B. destruct Hq as [<-|Hq]; [rewrite Ek in B; discriminate|].
        pose proof (signature_rank _ _ _ q Hsig Hq) as Hr. rewrite Ek in Hr. destruct (p_kind q); cbn in Hr; try lia; discriminate. }
      assert (Ev : filled (p :: r) vs x = vs).
      { destruct x as [a|]; cbn [filled]; [|reflexivity]. unfold extra_places. rewrite Hnp, Hs. cbn. apply app_nil_r. }
      rewrite Ev. pose proof (keyword_phase (p :: r) K y f E Hsig Hf (Hlate ltac:(cbn; lia))) as H.
      cbn [CallOpen.binds_open CallProofs.binds] in H |- *. rewrite Ek in H |- *. split; intros [-> A]; [apply H|apply H]; auto.
    + pose proof (no_places p r Hsig ltac:(rewrite Ek; cbn; lia)) as Hnp.
      assert (Hs : existsb star_b (p :: r) = false).
      { destruct (existsb star_b (p :: r)) eqn:B; [exfalso|reflexivity]. apply existsb_exists in B as (q & Hq & B).
        unfold star_b in B. destruct Hq as [<-|Hq]; [rewrite Ek in B; discriminate|].
        pose proof (signature_rank _ _ _ q Hsig Hq) as Hr. rewrite Ek in Hr. destruct (p_kind q); cbn in Hr; try lia; discriminate. }
      assert (Ev : filled (p :: r) vs x = vs).
      { destruct x as [a|]; cbn [filled]; [|reflexivity]. unfold extra_places. rewrite Hnp, Hs. cbn. apply app_nil_r. }
      rewrite Ev. pose proof (keyword_phase (p :: r) K y f E Hsig Hf (Hlate ltac:(cbn; lia))) as H.
      cbn [CallOpen.binds_open CallProofs.binds] in H |- *. rewrite Ek in H |- *. split; intros [-> A]; [apply H|apply H]; auto.
Qed.

End Facts.
