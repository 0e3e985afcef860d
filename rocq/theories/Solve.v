(** Proofs about the inference of type variables. *)
From Coq Require Import List NArith Bool Lia PeanoNat.
From Verif Require Import SolveModel SolveSpec.
Import ListNotations.

Arguments Uncalculated {T}.
Arguments Invariant {T}.
Arguments Upper {T}.
Arguments UpperAndLower {T}.
Arguments Lower {T}.
Arguments mk_arg {T}.
Arguments type_ {T}.
Arguments uninferrable {T}.
Arguments Inferred {T}.
Arguments Any {T}.
Arguments Never {T}.
Arguments Var {T}.
Arguments Closed {T}.
Arguments Class {T}.
Arguments Union {T}.
Arguments Unrestricted {T}.
Arguments Bound_ {T}.
Arguments Constraints {T}.

Section Proofs.
Variable T : Type.
Variables le same eq : T -> T -> bool.
Variables base sub : T -> T -> option T.
Hypothesis O : order T le same eq.
Hypothesis J : joins T le base sub.

Notation Le := (Le T le).
Notation Equal := (Equal T le).
Notation fits := (fits T le).

Lemma refl a : Le a a.
Proof. apply (le_refl _ _ _ _ O). Qed.

Lemma trans a b c : Le a b -> Le b c -> Le a c.
Proof. apply (le_trans _ _ _ _ O). Qed.

Notation sat := (sat T le).

Definition wf (b : bound T) : Prop :=
  match b with UpperAndLower u l => Le l u | _ => True end.

Lemma sat_new t v x : sat (new_bound T t v) x <-> fits v t x.
Proof. destruct v; cbn; unfold Equal; tauto. Qed.

Lemma sat_equal b x y : Equal x y -> sat b x -> sat b y.
Proof.
  intros [H1 H2]. destruct b as [f | k | k | u l | k]; cbn; unfold Equal; trivial.
  - intros [A B]. split; eauto using trans.
  - intros A. eauto using trans.
  - intros [A B]. split; eauto using trans.
  - intros A. eauto using trans.
Qed.

Lemma base_or a b :
  Le a b \/ (exists c, base a b = Some c) ->
  let c := match base a b with Some t => t | None => b end in
  Le a c /\ Le b c /\ forall d, Le a d -> Le b d -> Le c d.
Proof.
  intros H. cbv zeta. destruct (base a b) as [c|] eqn:E.
  - destruct (base_above _ _ _ _ J _ _ _ E) as [A B]. split; [exact A|]. split; [exact B|].
    intros d. apply (base_least _ _ _ _ J _ _ _ _ E).
  - destruct H as [H | [c [=]]]. split; [exact H|]. split; [apply refl|]. trivial.
Qed.

Lemma update_lower b t : (exists f, b = Lower f) \/ (exists f, b = Upper f) \/ (exists u l, b = UpperAndLower u l) ->
  between T le same b t = true -> wf b ->
  wf (update_lower_bound T eq base b t) /\
  forall x, sat (update_lower_bound T eq base b t) x <-> sat b x /\ Le t x.
Proof.
  intros S B W. destruct b as [f | k | k | u l | k];
    try solve [exfalso; destruct S as [[? [=]] | [[? [=]] | [? [? [=]]]]]].
  - cbn in *. destruct (eq k t) eqn:E.
    + destruct (eq_right _ _ _ _ O _ _ E) as [E1 E2]. cbn. split; [exact Logic.I|]. intros x. unfold Equal.
      split; [intros [A1 A2]; split; eauto using trans | intros [A1 A2]; split; eauto using trans].
    + cbn. split; [exact B|]. intros x. tauto.
  - cbn [between] in B. apply andb_true_iff in B as [B1 B2]. cbn [wf] in W.
    destruct (base_or l t (or_introl B2)) as (A1 & A2 & A3). cbn [update_lower_bound].
    cbv zeta in *. set (c := match base l t with Some x => x | None => t end) in *.
    assert (Le c u) as Cu by (apply A3; assumption).
    destruct (eq u c) eqn:E.
    + destruct (eq_right _ _ _ _ O _ _ E) as [E1 E2]. cbn. split; [exact Logic.I|]. intros x. unfold Equal.
      split.
      * intros [D1 D2]. split; [split|]; eauto using trans.
      * intros [[D1 D2] D3]. split; [apply A3; assumption | eauto using trans].
    + cbn. split; [exact Cu|]. intros x. split.
      * intros [D1 D2]. split; [split|]; eauto using trans.
      * intros [[D1 D2] D3]. split; [apply A3; assumption | assumption].
  - cbn [between] in B. destruct (base_or k t (or_introl B)) as (A1 & A2 & A3). cbn [update_lower_bound].
    cbv zeta in *. set (c := match base k t with Some x => x | None => t end) in *.
    cbn. split; [exact Logic.I|]. intros x. split.
    + intros D. split; eauto using trans.
    + intros [D1 D2]. apply A3; assumption.
Qed.

Lemma update_upper b t : (exists f, b = Lower f) \/ (exists f, b = Upper f) \/ (exists u l, b = UpperAndLower u l) ->
  between T le same b t = true -> wf b ->
  wf (update_upper_bound T eq b t) /\
  forall x, sat (update_upper_bound T eq b t) x <-> sat b x /\ Le x t.
Proof.
  intros S B W. destruct b as [f | k | k | u l | k];
    try solve [exfalso; destruct S as [[? [=]] | [[? [=]] | [? [? [=]]]]]].
  - cbn in *. split; [exact Logic.I|]. intros x. split; [intros A; split; [|assumption]; eauto using trans | tauto].
  - cbn [between] in B. apply andb_true_iff in B as [B1 B2]. cbn [wf] in W. cbn [update_upper_bound].
    destruct (eq t l) eqn:E.
    + destruct (eq_right _ _ _ _ O _ _ E) as [E1 E2]. cbn. split; [exact Logic.I|]. intros x. unfold Equal.
      split.
      * intros [D1 D2]. split; [split|]; eauto using trans.
      * intros [[D1 D2] D3]. split; eauto using trans.
    + cbn. split; [exact B2|]. intros x. split.
      * intros [D1 D2]. split; [split|]; eauto using trans.
      * intros [[D1 D2] D3]. split; assumption.
  - cbn in *. destruct (eq t k) eqn:E.
    + destruct (eq_right _ _ _ _ O _ _ E) as [E1 E2]. cbn. split; [exact Logic.I|]. intros x. unfold Equal.
      split; [intros [A1 A2]; split; eauto using trans | intros [A1 A2]; split; eauto using trans].
    + cbn. split; [exact B|]. intros x. tauto.
Qed.

Notation merge_or_mismatch := (merge_or_mismatch T le same eq base sub).
Notation merge := (merge T le same eq base sub).

Definition is_calculated (b : bound T) : Prop := calculated T b = true.

(** One constraint is added. *)
Lemma mismatch_sound b t v : is_calculated b -> wf b ->
  let r := merge_or_mismatch b t v in
  is_calculated (snd r) /\ wf (snd r) /\ (forall x, sat (snd r) x -> sat b x) /\
  (fst r = true -> forall x, sat (snd r) x -> fits v t x).
Proof.
  intros Cb W. cbv zeta. unfold SolveModel.merge_or_mismatch.
  destruct (between T le same b t) eqn:B.
  - destruct b as [f | k | k | u l | k]; [discriminate Cb | | | |].
    + cbn in B. apply (same_right _ _ _ _ O) in B. destruct B as [B1 B2]. cbn [fst snd].
      split; [exact Cb|]. split; [exact W|]. split; [trivial|]. intros _ x [H1 H2].
      destruct v; cbn; [split|..]; eauto using trans.
    + destruct v; cbn [fst snd].
      * cbn in *. split; [reflexivity|]. split; [exact Logic.I|]. split; [|trivial].
        intros x [H1 H2]. eauto using trans.
      * destruct (update_lower (Upper k) t) as [W2 S2]; [eauto | exact B | exact W |].
        split; [cbn; destruct (eq k t); reflexivity|]. split; [exact W2|].
        split; [intros x Hx; exact (proj1 (proj1 (S2 x) Hx)) | intros _ x Hx; exact (proj2 (proj1 (S2 x) Hx))].
      * destruct (update_upper (Upper k) t) as [W2 S2]; [eauto | exact B | exact W |].
        split; [reflexivity|]. split; [exact W2|].
        split; [intros x Hx; exact (proj1 (proj1 (S2 x) Hx)) | intros _ x Hx; exact (proj2 (proj1 (S2 x) Hx))].
    + destruct v; cbn [fst snd].
      * cbn in *. apply andb_true_iff in B as [B1 B2]. split; [reflexivity|]. split; [exact Logic.I|].
        split; [|trivial]. intros x [H1 H2]. split; eauto using trans.
      * destruct (update_lower (UpperAndLower u l) t) as [W2 S2]; [eauto | exact B | exact W |].
        split; [cbn; destruct (eq u _); reflexivity|]. split; [exact W2|].
        split; [intros x Hx; exact (proj1 (proj1 (S2 x) Hx)) | intros _ x Hx; exact (proj2 (proj1 (S2 x) Hx))].
      * destruct (update_upper (UpperAndLower u l) t) as [W2 S2]; [eauto | exact B | exact W |].
        split; [cbn; destruct (eq t l); reflexivity|]. split; [exact W2|].
        split; [intros x Hx; exact (proj1 (proj1 (S2 x) Hx)) | intros _ x Hx; exact (proj2 (proj1 (S2 x) Hx))].
    + destruct v; cbn [fst snd].
      * cbn in *. split; [reflexivity|]. split; [exact Logic.I|]. split; [|trivial].
        intros x [H1 H2]. eauto using trans.
      * destruct (update_lower (Lower k) t) as [W2 S2]; [eauto | exact B | exact W |].
        split; [reflexivity|]. split; [exact W2|].
        split; [intros x Hx; exact (proj1 (proj1 (S2 x) Hx)) | intros _ x Hx; exact (proj2 (proj1 (S2 x) Hx))].
      * destruct (update_upper (Lower k) t) as [W2 S2]; [eauto | exact B | exact W |].
        split; [cbn; destruct (eq t k); reflexivity|]. split; [exact W2|].
        split; [intros x Hx; exact (proj1 (proj1 (S2 x) Hx)) | intros _ x Hx; exact (proj2 (proj1 (S2 x) Hx))].
  - assert (forall m, (m = true -> forall x, sat b x -> fits v t x) ->
      is_calculated (snd (m, b)) /\ wf (snd (m, b)) /\ (forall x, sat (snd (m, b)) x -> sat b x) /\
      (fst (m, b) = true -> forall x, sat (snd (m, b)) x -> fits v t x)) as K by (cbn; tauto).
    destruct v; [apply K; discriminate | |].
    + destruct b as [f | k | k | u l | k]; [discriminate Cb | | | |]; cbn [merge_covariant].
      * apply K. intros H x [H1 H2]. cbn. eauto using trans.
      * apply K. discriminate.
      * destruct (base l t) as [c|] eqn:E; [destruct (le c u) eqn:Eu|].
        -- destruct (base_above _ _ _ _ J _ _ _ E) as [A1 A2]. cbn. split; [reflexivity|]. split; [exact Eu|].
           split; [intros x [H1 H2]; split; eauto using trans | intros _ x [H1 H2]; eauto using trans].
        -- apply K. intros H x [H1 H2]. cbn. eauto using trans.
        -- apply K. intros H x [H1 H2]. cbn. eauto using trans.
      * destruct (base k t) as [c|] eqn:E.
        -- destruct (base_above _ _ _ _ J _ _ _ E) as [A1 A2]. cbn. split; [reflexivity|]. split; [exact Logic.I|].
           split; [intros x H1; eauto using trans | intros _ x H1; eauto using trans].
        -- apply K. intros H x H1. cbn in *. eauto using trans.
    + destruct b as [f | k | k | u l | k]; [discriminate Cb | | | |]; cbn [merge_contravariant].
      * apply K. intros H x [H1 H2]. cbn. eauto using trans.
      * destruct (sub k t) as [c|] eqn:E.
        -- destruct (sub_below _ _ _ _ J _ _ _ E) as [A1 A2]. cbn. split; [reflexivity|]. split; [exact Logic.I|].
           split; [intros x H1; eauto using trans | intros _ x H1; eauto using trans].
        -- apply K. intros H x H1. cbn in *. eauto using trans.
      * destruct (sub u t) as [c|] eqn:E; [destruct (le l c) eqn:Eu|].
        -- destruct (sub_below _ _ _ _ J _ _ _ E) as [A1 A2]. cbn. split; [reflexivity|]. split; [exact Eu|].
           split; [intros x [H1 H2]; split; eauto using trans | intros _ x [H1 H2]; eauto using trans].
        -- apply K. intros H x [H1 H2]. cbn. eauto using trans.
        -- apply K. intros H x [H1 H2]. cbn. eauto using trans.
      * apply K. discriminate.
Qed.

Lemma bound_eq_sat a b x : bound_eq T eq a b = true -> (sat a x <-> sat b x).
Proof.
  destruct a as [[f|] | k | k | u l | k], b as [[g|] | k2 | k2 | u2 l2 | k2]; cbn; try discriminate; try tauto;
    try (rewrite andb_true_iff; intros [E1 E2]; apply (eq_right _ _ _ _ O) in E1, E2; destruct E1, E2;
         split; intros [? ?]; split; eauto using trans);
    try (intros E; apply (eq_right _ _ _ _ O) in E; destruct E as [E1 E2]; unfold Equal;
         split; [intros [? ?] || intros ? | intros [? ?] || intros ?]; try split; eauto using trans).
Qed.

Definition is_new (b : bound T) : Prop :=
  match b with Invariant _ | Upper _ | Lower _ => True | _ => False end.

(** A new bound is merged. *)
Lemma merge_sound a other : is_new other -> wf (type_ a) ->
  let r := merge a other in
  wf (type_ (snd r)) /\ (forall x, sat (type_ (snd r)) x -> sat (type_ a) x) /\
  (fst r = true -> forall x, sat (type_ (snd r)) x -> sat other x).
Proof.
  intros N W. cbv zeta. unfold SolveModel.merge.
  destruct (bound_eq T eq (type_ a) other) eqn:E.
  { cbn [fst snd]. split; [exact W|]. split; [trivial|]. intros _ x. exact (proj1 (bound_eq_sat _ _ x E)). }
  clear E.
  assert (forall b t v, is_calculated b -> wf b -> (forall x, fits v t x -> sat other x) ->
    let r := merge_or_mismatch b t v in
    wf (snd r) /\ (forall x, sat (snd r) x -> sat b x) /\
    (fst r = true -> forall x, sat (snd r) x -> sat other x)) as K.
  { intros b t v Cb Wb H. destruct (mismatch_sound b t v Cb Wb) as (_ & B & C & D). cbv zeta in *.
    split; [exact B|]. split; [exact C|]. intros F x Hx. apply H, D; assumption. }
  destruct (type_ a) as [f | k | k | u l | k] eqn:Et.
  { destruct other as [g | k2 | k2 | u2 l2 | k2]; try contradiction N; cbn [calculated orb fst snd type_ wf sat]; tauto. }
  all: destruct other as [g | k2 | k2 | u2 l2 | k2]; try contradiction N; cbn [fst snd type_];
    match goal with |- context [SolveModel.merge_or_mismatch _ _ _ _ _ _ ?b ?t ?v] =>
      specialize (K b t v eq_refl W) end;
    cbv zeta in K; apply K; intros x Hx; cbn in *; unfold SolveSpec.Equal in *; tauto.
Qed.

(** Any two bounds are merged. *)
Lemma merge_any a other : wf (type_ a) -> wf other ->
  let r := merge a other in
  wf (type_ (snd r)) /\ (forall x, sat (type_ (snd r)) x -> sat (type_ a) x) /\
  (fst r = true -> forall x, sat (type_ (snd r)) x -> sat other x).
Proof.
  intros W Wo. destruct other as [g | k2 | k2 | u2 l2 | k2]; try (apply merge_sound; [exact Logic.I | exact W]).
  - cbv zeta. unfold SolveModel.merge. destruct (bound_eq T eq (type_ a) (Uncalculated g)).
    { cbn [fst snd]. cbn. auto. }
    destruct (type_ a) as [f | k | k | u l | k] eqn:Et; [destruct (calculated T _ || _)|..];
      cbn [fst snd type_]; rewrite ?Et; cbn; auto.
  - cbv zeta. unfold SolveModel.merge. destruct (bound_eq T eq (type_ a) (UpperAndLower u2 l2)) eqn:E.
    { cbn [fst snd]. split; [exact W|]. split; [trivial|]. intros _ x. apply (proj1 (bound_eq_sat _ _ x E)). }
    assert (forall b, is_calculated b -> wf b ->
      let r1 := merge_or_mismatch b u2 Contravariant in
      let r2 := merge_or_mismatch (snd r1) l2 Covariant in
      wf (snd r2) /\ (forall x, sat (snd r2) x -> sat b x) /\
      (fst r1 && fst r2 = true -> forall x, sat (snd r2) x -> sat (UpperAndLower u2 l2) x)) as K.
    { intros b Cb Wb r1 r2. destruct (mismatch_sound b u2 Contravariant Cb Wb) as (A0 & A1 & A2 & A3).
      fold r1 in A0, A1, A2, A3.
      destruct (mismatch_sound (snd r1) l2 Covariant A0 A1) as (_ & B1 & B2 & B3). fold r2 in B1, B2, B3.
      split; [exact B1|]. split; [auto|]. intros F x Hx. apply andb_true_iff in F as [F1 F2]. cbn in *. split; auto. }
    destruct (type_ a) as [f | k | k | u l | k] eqn:Et.
    { cbn [calculated orb fst snd type_]. split; [exact Wo|]. split; [intros x _; exact Logic.I | trivial]. }
    all: cbn [fst snd type_]; apply K; [reflexivity | exact W].
Qed.

Notation match_or_add := (match_or_add T le same eq base sub).

Lemma simple_matches_right t value v : simple_matches T le same t value v = true <-> fits v value t.
Proof.
  destruct v; cbn; unfold SolveSpec.Le; try tauto. rewrite (same_right _ _ _ _ O).
  unfold SolveSpec.Equal, SolveSpec.Le. tauto.
Qed.

Lemma new_is_new t v : is_new (new_bound T t v).
Proof. destruct v; exact Logic.I. Qed.

Lemma fits_equal v value x y : Equal x y -> fits v value x -> fits v value y.
Proof.
  intros [A B]. destruct v; cbn; unfold SolveSpec.Equal.
  - intros [C D]. split; eauto using trans.
  - eauto using trans.
  - eauto using trans.
Qed.

Lemma add_sound k a value v : wf (type_ a) ->
  let r := match_or_add k a value v in
  wf (type_ (snd r)) /\ (forall x, sat (type_ (snd r)) x -> sat (type_ a) x) /\
  (fst r = true -> forall x, sat (type_ (snd r)) x -> fits v value x).
Proof.
  intros W. cbv zeta.
  assert (forall other, is_new other -> (forall x, sat other x -> fits v value x) ->
    let r := merge a other in
    wf (type_ (snd r)) /\ (forall x, sat (type_ (snd r)) x -> sat (type_ a) x) /\
    (fst r = true -> forall x, sat (type_ (snd r)) x -> fits v value x)) as K.
  { intros other N H. destruct (merge_sound a other N W) as (A & B & C). cbv zeta in *.
    split; [exact A|]. split; [exact B|]. intros F x Hx. apply H, C; assumption. }
  assert (let r := (false, if calculated T (type_ a) then a else mk_arg (Uncalculated (Some value)) (uninferrable a)) in
    wf (type_ (snd r)) /\ (forall x, sat (type_ (snd r)) x -> sat (type_ a) x) /\
    (fst r = true -> forall x, sat (type_ (snd r)) x -> fits v value x)) as M.
  { cbn [fst snd]. destruct (type_ a) as [f | k' | k' | u l | k'] eqn:Et; cbn [calculated type_];
      rewrite ?Et; (split; [first [exact W | exact Logic.I]|]); (split; [trivial | discriminate]). }
  unfold SolveModel.match_or_add. destruct k as [| t | cs].
  - apply K; [apply new_is_new|]. intros x. apply sat_new.
  - destruct (le value t); [|exact M]. apply K; [apply new_is_new|]. intros x. apply sat_new.
  - unfold check_constraints. destruct (find _ cs) as [c|] eqn:E; cbn [option_map]; [|exact M].
    apply find_some in E. destruct E as [_ E]. apply simple_matches_right in E.
    assert (forall x, sat (Invariant c) x -> fits v value x) as H
      by (intros x Hx; eapply fits_equal; [exact Hx | exact E]).
    destruct (calculated T (type_ a)) eqn:Ec; [apply K; [exact Logic.I | exact H]|].
    cbn [fst snd type_ wf]. split; [exact Logic.I|]. split; [|auto].
    intros x _. destruct (type_ a); try discriminate Ec. exact Logic.I.
Qed.

(** Adding to a bound does not lose solutions. *)
Section Complete.
Hypothesis CJ : complete_joins T le base sub.

Lemma mismatch_complete b t v x : is_calculated b -> wf b -> sat b x -> fits v t x ->
  let r := merge_or_mismatch b t v in fst r = true /\ sat (snd r) x.
Proof.
  intros Cb W S F. cbv zeta. unfold SolveModel.merge_or_mismatch.
  destruct (between T le same b t) eqn:B.
  - destruct b as [f | k | k | u l | k]; [discriminate Cb | | | |].
    + cbn [fst snd]. split; [reflexivity | exact S].
    + destruct v; cbn [fst snd]; (split; [reflexivity|]).
      * exact F.
      * apply (update_lower (Upper k) t); [eauto | exact B | exact W | split; assumption].
      * apply (update_upper (Upper k) t); [eauto | exact B | exact W | split; assumption].
    + destruct v; cbn [fst snd]; (split; [reflexivity|]).
      * exact F.
      * apply (update_lower (UpperAndLower u l) t); [eauto | exact B | exact W | split; assumption].
      * apply (update_upper (UpperAndLower u l) t); [eauto | exact B | exact W | split; assumption].
    + destruct v; cbn [fst snd]; (split; [reflexivity|]).
      * exact F.
      * apply (update_lower (Lower k) t); [eauto | exact B | exact W | split; assumption].
      * apply (update_upper (Lower k) t); [eauto | exact B | exact W | split; assumption].
  - assert (v = Invariant_ -> False) as NI.
    { intros ->. cbn in F. destruct F as [F1 F2].
      assert (between T le same b t = true) as C; [|rewrite C in B; discriminate B].
      destruct b as [f | k | k | u l | k]; [discriminate Cb | | | |]; cbn in *.
      - apply (same_right _ _ _ _ O). destruct S as [S1 S2]. split; eauto using trans.
      - exact (trans _ _ _ F1 S).
      - destruct S as [S1 S2]. apply andb_true_iff. split; [exact (trans _ _ _ F1 S2) | exact (trans _ _ _ S1 F2)].
      - exact (trans _ _ _ S F2). }
    destruct v; [destruct (NI eq_refl) | |]; clear NI.
    + destruct b as [f | k | k | u l | k]; [discriminate Cb | | | |]; cbn [merge_covariant sat SolveSpec.fits] in *.
      * cbn [fst snd]. destruct S as [S1 S2]. split; [exact (trans _ _ _ F S2) | split; assumption].
      * exfalso. cbn in B. assert (le t k = true) as C by exact (trans _ _ _ F S). congruence.
      * destruct S as [S1 S2]. destruct (base_found _ _ _ _ CJ l t x S1 F) as [c E]. rewrite E.
        pose proof (base_least _ _ _ _ J _ _ _ _ E S1 F) as L.
        assert (le c u = true) as Eu by exact (trans _ _ _ L S2). rewrite Eu. cbn. tauto.
      * destruct (base_found _ _ _ _ CJ k t x S F) as [c E]. rewrite E.
        pose proof (base_least _ _ _ _ J _ _ _ _ E S F) as L. cbn. tauto.
    + destruct b as [f | k | k | u l | k]; [discriminate Cb | | | |]; cbn [merge_contravariant sat SolveSpec.fits] in *.
      * cbn [fst snd]. destruct S as [S1 S2]. split; [exact (trans _ _ _ S1 F) | split; assumption].
      * destruct (sub_found _ _ _ _ CJ k t x S F) as [c E]. rewrite E.
        pose proof (sub_greatest _ _ _ _ CJ _ _ _ _ E S F) as L. cbn. tauto.
      * destruct S as [S1 S2]. destruct (sub_found _ _ _ _ CJ u t x S2 F) as [c E]. rewrite E.
        pose proof (sub_greatest _ _ _ _ CJ _ _ _ _ E S2 F) as L.
        assert (le l c = true) as Eu by exact (trans _ _ _ S1 L). rewrite Eu. cbn. tauto.
      * exfalso. cbn in B. assert (le k t = true) as C by exact (trans _ _ _ S F). congruence.
Qed.

Lemma merge_complete a other x : is_new other -> wf (type_ a) -> sat (type_ a) x -> sat other x ->
  let r := merge a other in fst r = true /\ sat (type_ (snd r)) x.
Proof.
  intros N W S F. cbv zeta. unfold SolveModel.merge.
  destruct (bound_eq T eq (type_ a) other); [split; [reflexivity | exact S]|].
  destruct (type_ a) as [f | k | k | u l | k] eqn:Et.
  { destruct other as [g | k2 | k2 | u2 l2 | k2]; try contradiction N; cbn [calculated orb fst snd type_]; tauto. }
  all: destruct other as [g | k2 | k2 | u2 l2 | k2]; try contradiction N; cbn [fst snd type_];
    apply mismatch_complete; try exact W; try exact S; try reflexivity;
    cbn in *; unfold SolveSpec.Equal in *; tauto.
Qed.

Lemma merge_any_complete a other x : wf (type_ a) -> wf other -> sat (type_ a) x -> sat other x ->
  let r := merge a other in fst r = true /\ sat (type_ (snd r)) x.
Proof.
  intros W Wo HS F. destruct other as [g | k2 | k2 | u2 l2 | k2];
    try (apply merge_complete; [exact Logic.I | exact W | exact HS | exact F]).
  - cbv zeta. unfold SolveModel.merge. destruct (bound_eq T eq (type_ a) (Uncalculated g)); [split; [reflexivity | exact HS]|].
    destruct (type_ a) as [f | k | k | u l | k] eqn:Et; [destruct (calculated T _ || _)|..];
      cbn [fst snd type_]; rewrite ?Et; split; try reflexivity; try exact HS; exact Logic.I.
  - cbv zeta. unfold SolveModel.merge.
    destruct (bound_eq T eq (type_ a) (UpperAndLower u2 l2)); [split; [reflexivity | exact HS]|].
    cbn in F. destruct F as [F1 F2].
    assert (forall b, is_calculated b -> wf b -> sat b x ->
      let r1 := merge_or_mismatch b u2 Contravariant in
      let r2 := merge_or_mismatch (snd r1) l2 Covariant in
      fst r1 && fst r2 = true /\ sat (snd r2) x) as K.
    { intros b Cb Wb Hb r1 r2. destruct (mismatch_sound b u2 Contravariant Cb Wb) as (A0 & A1 & _). fold r1 in A0, A1.
      destruct (mismatch_complete b u2 Contravariant x Cb Wb Hb F2) as [B1 B2]. fold r1 in B1, B2.
      destruct (mismatch_complete (snd r1) l2 Covariant x A0 A1 B2 F1) as [C1 C2]. fold r2 in C1, C2.
      rewrite B1, C1. split; [reflexivity | exact C2]. }
    destruct (type_ a) as [f | k | k | u l | k] eqn:Et.
    { cbn [calculated orb fst snd type_]. split; [reflexivity | split; assumption]. }
    all: cbn [fst snd type_]; apply K; [reflexivity | exact W | exact HS].
Qed.

Lemma add_complete a value v x : wf (type_ a) -> sat (type_ a) x -> fits v value x ->
  let r := match_or_add Unrestricted a value v in fst r = true /\ sat (type_ (snd r)) x.
Proof.
  intros W S F. apply merge_complete; [apply new_is_new | exact W | exact S |]. apply sat_new, F.
Qed.
End Complete.

(** The parts of a bound. *)
Definition has_lower (b : bound T) : bool :=
  match b with Invariant _ | Lower _ | UpperAndLower _ _ => true | _ => false end.

Lemma bound_eq_shape a b : bound_eq T eq a b = true ->
  has_lower a = has_lower b /\ calculated T a = calculated T b.
Proof. destruct a as [[f|] | k | k | u l | k], b as [[g|] | k2 | k2 | u2 l2 | k2]; cbn; try discriminate; auto. Qed.

Lemma mismatch_shape b t v : is_calculated b -> fst (merge_or_mismatch b t v) = true ->
  has_lower (snd (merge_or_mismatch b t v)) =
    has_lower b || match v with Contravariant => false | _ => true end.
Proof.
  intros Cb. unfold SolveModel.merge_or_mismatch.
  destruct b as [f | k | k | u l | k]; [discriminate Cb | | | |];
    destruct v; cbn [between merge_covariant merge_contravariant update_lower_bound update_upper_bound];
    repeat match goal with
      | |- context [if ?c then _ else _] => destruct c
      | |- context [match base ?x ?y with _ => _ end] => destruct (base x y)
      | |- context [match sub ?x ?y with _ => _ end] => destruct (sub x y)
      end; cbn; try reflexivity; try discriminate.
Qed.

Lemma merge_shape a t v : fst (merge a (new_bound T t v)) = true ->
  let r := snd (merge a (new_bound T t v)) in
  uninferrable r = uninferrable a /\ calculated T (type_ r) = true /\
  has_lower (type_ r) = has_lower (type_ a) || match v with Contravariant => false | _ => true end.
Proof.
  cbv zeta. unfold SolveModel.merge. destruct (bound_eq T eq (type_ a) (new_bound T t v)) eqn:E.
  { intros _. apply bound_eq_shape in E. cbn [snd]. destruct E as [-> ->].
    destruct v; auto. }
  clear E. destruct (type_ a) as [f | k | k | u l | k] eqn:Et.
  { intros _. destruct v; cbn; auto. }
  all: destruct v; cbn [new_bound fst snd type_ uninferrable]; intros F; rewrite F; cbn [negb];
    (split; [apply orb_false_r|]);
    (split; [|apply mismatch_shape; [reflexivity | exact F]]);
    clear; unfold SolveModel.merge_or_mismatch; cbn [between merge_covariant merge_contravariant update_lower_bound update_upper_bound];
    repeat match goal with
      | |- context [if ?c then _ else _] => destruct c
      | |- context [match base ?x ?y with _ => _ end] => destruct (base x y)
      | |- context [match sub ?x ?y with _ => _ end] => destruct (sub x y)
      end; reflexivity.
Qed.
End Proofs.
