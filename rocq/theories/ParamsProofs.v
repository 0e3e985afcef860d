(** A match of parameters means that calls carry over. *)
From Coq Require Import List NArith Arith Bool Lia Permutation.
From Verif Require Import CallModel CallSpec CallFacts ParamsModel.
Import ListNotations.

Section Proofs.
Variables (ty val : Type) (fits : ty -> val -> Prop).
Variables (type_match type_same : ty -> ty -> bool) (is_any : ty -> bool) (precise : bool).
Hypothesis match_sound : forall a b, type_match a b = true -> forall v, fits a v -> fits b v.
Hypothesis same_sound : forall a b, type_same a b = true -> forall v, fits a v -> fits b v.

Notation param := (param ty).
Notation ok := (ok ty val fits).
Notation kw_ok := (kw_ok ty val fits).
Notation receives_kw := (receives_kw ty).
Notation without := (without val).
Notation accepts := (accepts fits).
Notation matches_from := (matches_from type_match type_same is_any precise false).
Notation matching := (match_ type_match).

Definition annotated (ps : list param) : Prop := forall p, In p ps -> p_type p <> None.

Lemma match_ok : forall p1 p2 v, matching p1 p2 = true -> p_type p1 <> None -> ok p1 v -> ok p2 v.
Proof.
  intros p1 p2 v H Ha Hok t Ht. unfold match_, with_variance in H. rewrite Ht in H.
  destruct (p_type p1) as [t1|] eqn:E; [|congruence]. exact (match_sound t1 t H v (Hok t1 E)).
Qed.

Lemma kind_eqb_eq : forall a b, kind_eqb a b = true <-> a = b.
Proof. intros [] []; split; try reflexivity; discriminate. Qed.

Lemma is_kind_iff : forall k (p : param), is_kind k p = true <-> p_kind p = k.
Proof. intros k p; apply kind_eqb_eq. Qed.

Lemma is_variadic_iff : forall p : param, is_variadic p = true <-> variadic p.
Proof. intros p; unfold is_variadic, variadic; rewrite orb_true_iff, !is_kind_iff; tauto. Qed.

Lemma by_keyword_iff : forall p : param, by_keyword p = true <-> p_kind p = PositionalOrKeyword \/ p_kind p = KeywordOnly.
Proof. intros p; unfold by_keyword; rewrite orb_true_iff, !is_kind_iff; tauto. Qed.

Lemma same_name_named : forall n (p q : param), p_name p = Some n -> same_name p q = true -> by_keyword q = true -> named n q.
Proof.
  intros n p q Hp H Hq. unfold same_name in H; rewrite Hp in H. destruct (p_name q) as [m|] eqn:E; [|discriminate].
  apply N.eqb_eq in H; subst m. split; [apply by_keyword_iff; exact Hq|exact E].
Qed.

Lemma not_same_name : forall n (p q : param), p_name p = Some n -> same_name p q = false -> ~ named n q.
Proof. intros n p q Hp H [_ Hq]. unfold same_name in H; rewrite Hp, Hq, N.eqb_refl in H; discriminate. Qed.

Lemma same_name_sym : forall p q : param, same_name p q = same_name q p.
Proof. intros p q; unfold same_name. destruct (p_name p), (p_name q); try reflexivity. apply N.eqb_sym. Qed.

(** ** Keyword calls *)

Lemma kw_add : forall p l K, ~ required p -> (forall n, named n p -> ~ In n (map fst K)) -> kw_ok l K -> kw_ok (p :: l) K.
Proof.
  intros p l K Hr Hn [A B]; split.
  - intros n v Hin. destruct (A n v Hin) as (q & (Hq & Hrec) & Hv). exists q; split; [|exact Hv]. split; [right; exact Hq|].
    destruct Hrec as [H|[H Hno]]; [left; exact H|right; split; [exact H|]].
    intros x [<-|Hx]; [|exact (Hno x Hx)]. intros Hx; apply (Hn n Hx). apply (in_map fst) in Hin; exact Hin.
  - intros q [<-|Hq] Hreq; [contradiction|exact (B q Hq Hreq)].
Qed.

Lemma kw_insert : forall ps n v K, NoDup (map fst K) -> In (n, v) K -> kw_ok ps (without n K) ->
  (exists p, receives_kw ps n p /\ ok p v) -> kw_ok ps K.
Proof.
  intros ps n v K Hnd Hin [A B] Hp; split.
  - intros m w Hw. destruct (N.eq_dec m n) as [->|Hne].
    + rewrite (key_fun val K n w v Hnd Hw Hin). exact Hp.
    + apply A. apply in_without; split; assumption.
  - intros p Hp' Hreq. destruct (B p Hp' Hreq) as (m & Hm & Hnm). exists m; split; [|exact Hnm].
    apply in_without_fst in Hm; apply Hm.
Qed.

Lemma nodup_app_r : forall (A : Type) (a b : list A), NoDup (a ++ b) -> NoDup b.
Proof. intros A a b H; induction a as [|x a IH]; [exact H|]. apply IH. cbn [app] in H; inversion H; assumption. Qed.

Definition names (l : list param) : list N :=
  flat_map (fun p => if by_keyword p then match p_name p with Some n => [n] | None => [] end else []) l.

Lemma in_names : forall n l, In n (names l) <-> exists q, In q l /\ named n q.
Proof.
  intros n l; unfold names; rewrite in_flat_map. split; intros (q & Hq & H); exists q; split; try exact Hq.
  - destruct (by_keyword q) eqn:E; [|destruct H]. apply by_keyword_iff in E. destruct (p_name q) as [m|] eqn:En; [|destruct H].
    destruct H as [->|[]]. split; assumption.
  - destruct H as [Hk Hn]. apply by_keyword_iff in Hk. rewrite Hk, Hn. left; reflexivity.
Qed.

Lemma names_app : forall a b, names (a ++ b) = names a ++ names b.
Proof. intros a b; apply flat_map_app. Qed.

Lemma names_perm : forall a b, Permutation a b -> NoDup (names a) -> NoDup (names b).
Proof. intros a b H; apply Permutation_NoDup. unfold names. apply Permutation_flat_map; exact H. Qed.

Lemma names_signature : forall ps, signature ps -> NoDup (names ps).
Proof.
  induction ps as [|p r IH]; intros H; [constructor|]. cbn [names flat_map].
  pose proof (IH (signature_tail _ _ _ H)) as Hr.
  destruct (by_keyword p) eqn:E; [|exact Hr]. destruct (p_name p) as [n|] eqn:En; [|exact Hr].
  cbn [app]. constructor; [|exact Hr]. intros Hin. apply in_names in Hin as (q & Hq & Hnq).
  refine (signature_named _ _ _ _ _ H Hq _ Hnq). split; [apply by_keyword_iff; exact E|exact En].
Qed.

Lemma names_cons_named : forall n q l, named n q -> NoDup (names (q :: l)) -> forall x, In x l -> ~ named n x.
Proof.
  intros n q l [Hk Hn] H x Hx Hnx. unfold names in H; cbn [flat_map] in H. apply by_keyword_iff in Hk. rewrite Hk, Hn in H.
  cbn [app] in H. inversion H as [|? ? Hnot _]; subst. apply Hnot. apply in_names; exists x; split; assumption.
Qed.

Lemma names_tail : forall q l, NoDup (names (q :: l)) -> NoDup (names l).
Proof.
  intros q l H; unfold names in H; cbn [flat_map] in H. apply nodup_app_r in H; exact H.
Qed.

Lemma kw_perm : forall a b K, Permutation a b -> kw_ok a K -> kw_ok b K.
Proof.
  intros a b K H; apply kw_params. intros p; split; apply Permutation_in; [|apply Permutation_sym]; exact H.
Qed.

(** ** The two searches for a keyword-only parameter *)

Lemma take_unused_some : forall (p1 : param) U q U', take_unused p1 U = Some (q, U') -> same_name p1 q = true /\ Permutation U (q :: U').
Proof.
  intros p1 U; induction U as [|x U IH]; intros q U' H; cbn [take_unused] in H; [discriminate|].
  destruct (same_name p1 x) eqn:E.
  - injection H as <- <-. split; [exact E|reflexivity].
  - destruct (take_unused p1 U) as [[y r]|]; [|discriminate]. injection H as <- <-.
    destruct (IH y r eq_refl) as [A B]. split; [exact A|]. transitivity (x :: y :: r); [constructor; exact B|constructor].
Qed.

Lemma take_unused_none : forall (p1 : param) U, take_unused p1 U = None -> forall x, In x U -> same_name p1 x = false.
Proof.
  intros p1 U; induction U as [|x U IH]; intros H y Hy; [destruct Hy|]. cbn [take_unused] in H.
  destruct (same_name p1 x) eqn:E; [discriminate|]. destruct (take_unused p1 U) as [[z r]|]; [discriminate|].
  destruct Hy as [<-|Hy]; [exact E|exact (IH eq_refl y Hy)].
Qed.

(** Parameters that may be left out of a keyword call. *)
Definition droppable (p : param) : Prop := p_kind p = Star \/ p_kind p = PositionalOnly /\ p_default p = true.

Lemma droppable_add : forall d l K, Forall droppable d -> kw_ok l K -> kw_ok (d ++ l) K.
Proof.
  induction d as [|p d IH]; intros l K H Hl; [exact Hl|]. inversion H as [|? ? Hp Hd]; subst. cbn [app].
  apply kw_add; [| |exact (IH l K Hd Hl)].
  - intros [Hv Hdef]. destruct Hp as [Hp|[_ Hp]]; [apply Hv; left; exact Hp|congruence].
  - intros n [[E|E] _]; destruct Hp as [Hp|[Hp _]]; rewrite Hp in E; discriminate.
Qed.

Lemma find_keyword_some : forall ps2 p1 U m ps2' U' n, find_keyword type_match p1 ps2 U = Some (m, ps2', U') ->
  p_name p1 = Some n -> signature ps2 -> (forall x, In x U -> ~ named n x) ->
  signature ps2' /\
  exists q dropped, Permutation (U ++ ps2) (q :: dropped ++ U' ++ ps2') /\ Forall droppable dropped /\ m = matching p1 q /\
    (forall x, In x U' -> In x U \/ p_kind x = PositionalOrKeyword \/ p_kind x = KeywordOnly) /\
    (named n q \/ p_kind q = StarStar /\ forall x, In x (U ++ ps2) -> ~ named n x).
Proof.
  induction ps2 as [|p2 r2 IH]; intros p1 U m ps2' U' n H Hn Hsig HU; cbn [find_keyword] in H; [discriminate|].
  pose proof (signature_tail _ _ _ Hsig) as Hsig'.
  destruct (same_name p1 p2 && by_keyword p2) eqn:E.
  - injection H as <- <- <-. apply andb_true_iff in E as [E1 E2]. split; [exact Hsig'|].
    exists p2, []. refine (conj _ (conj (Forall_nil _) (conj eq_refl (conj (fun x Hx => or_introl Hx) (or_introl _))))).
    + cbn [app]. symmetry; apply Permutation_middle.
    + exact (same_name_named n p1 p2 Hn E1 E2).
  - assert (Hp2 : ~ named n p2).
    { intros Hx. assert (by_keyword p2 = true) by (apply by_keyword_iff; apply Hx).
      rewrite H0, andb_true_r in E. exact (not_same_name n p1 p2 Hn E Hx). }
    assert (Hpush : find_keyword type_match p1 r2 (U ++ [p2]) = Some (m, ps2', U') ->
      p_kind p2 = PositionalOrKeyword \/ p_kind p2 = KeywordOnly ->
      signature ps2' /\
      exists q dropped, Permutation (U ++ p2 :: r2) (q :: dropped ++ U' ++ ps2') /\ Forall droppable dropped /\ m = matching p1 q /\
        (forall x, In x U' -> In x U \/ p_kind x = PositionalOrKeyword \/ p_kind x = KeywordOnly) /\
        (named n q \/ p_kind q = StarStar /\ forall x, In x (U ++ p2 :: r2) -> ~ named n x)).
    { intros H' Hk. destruct (IH p1 (U ++ [p2]) m ps2' U' n H' Hn Hsig') as (S1 & q & d & A & B & C & D & F).
      - intros x Hx. apply in_app_iff in Hx as [Hx|[<-|[]]]; [exact (HU x Hx)|exact Hp2].
      - split; [exact S1|]. rewrite <- app_assoc in A, F; cbn [app] in A, F. exists q, d.
        refine (conj A (conj B (conj C (conj _ F)))).
        intros x Hx. destruct (D x Hx) as [Hx'|Hx']; [|right; exact Hx'].
        apply in_app_iff in Hx' as [Hx'|[<-|[]]]; [left; exact Hx'|right; exact Hk]. }
    assert (Hdrop : find_keyword type_match p1 r2 U = Some (m, ps2', U') -> droppable p2 ->
      signature ps2' /\
      exists q dropped, Permutation (U ++ p2 :: r2) (q :: dropped ++ U' ++ ps2') /\ Forall droppable dropped /\ m = matching p1 q /\
        (forall x, In x U' -> In x U \/ p_kind x = PositionalOrKeyword \/ p_kind x = KeywordOnly) /\
        (named n q \/ p_kind q = StarStar /\ forall x, In x (U ++ p2 :: r2) -> ~ named n x)).
    { intros H' Hd. destruct (IH p1 U m ps2' U' n H' Hn Hsig' HU) as (S1 & q & d & A & B & C & D & F).
      split; [exact S1|]. exists q, (p2 :: d). refine (conj _ (conj (Forall_cons _ Hd B) (conj C (conj D _)))).
      - transitivity (p2 :: U ++ r2); [symmetry; apply Permutation_middle|]. cbn [app].
        transitivity (p2 :: q :: d ++ U' ++ ps2'); [constructor; exact A|constructor].
      - destruct F as [F|[F F']]; [left; exact F|right; split; [exact F|]].
        intros x Hx. apply in_app_iff in Hx as [Hx|[<-|Hx]]; [exact (HU x Hx)|exact Hp2|].
        apply F'; apply in_app_iff; right; exact Hx. }
    destruct (p_kind p2) eqn:Ek.
    + destruct (p_default p2) eqn:Ed; [|discriminate]. apply Hdrop; [exact H|right; split; assumption].
    + apply Hpush; [exact H|left; reflexivity].
    + apply Hdrop; [exact H|left; exact Ek].
    + apply Hpush; [exact H|right; reflexivity].
    + injection H as <- <- <-. split; [exact Hsig'|].
      assert (Er : r2 = []).
      { destruct r2 as [|x r2]; [reflexivity|exfalso].
        pose proof (signature_rank _ _ _ x Hsig (or_introl eq_refl)) as Hx; rewrite Ek in Hx; cbn [rank] in Hx.
        apply (signature_variadic _ _ _ x Hsig (or_introl eq_refl)); [right; exact Ek|].
        rewrite Ek; destruct (p_kind x); cbn in Hx; try lia; reflexivity. }
      subst r2. exists p2, []. refine (conj _ (conj (Forall_nil _) (conj eq_refl (conj (fun x Hx => or_introl Hx) (or_intror (conj Ek _)))))).
      * cbn [app]. symmetry; apply Permutation_middle.
      * intros x Hx. apply in_app_iff in Hx as [Hx|[<-|[]]]; [exact (HU x Hx)|exact Hp2].
Qed.

Lemma match_star_star_facts : forall ps2 p1 missing, match_star_star type_match missing p1 ps2 = true ->
  (forall p, In p ps2 -> ~ required p) /\
  (forall p, In p ps2 -> by_keyword p = true \/ p_kind p = StarStar -> matching p1 p = true) /\
  (missing = true -> exists p, In p ps2 /\ p_kind p = StarStar).
Proof.
  induction ps2 as [|p2 r2 IH]; intros p1 missing H; cbn [match_star_star] in H.
  - refine (conj _ (conj _ _)); [intros p []|intros p []|]. intros ->; discriminate.
  - assert (G : forall missing', match_star_star type_match missing' p1 r2 = true -> (missing = true -> missing' = true \/ p_kind p2 = StarStar) ->
      ~ required p2 -> (by_keyword p2 = true \/ p_kind p2 = StarStar -> matching p1 p2 = true) ->
      (forall p, In p (p2 :: r2) -> ~ required p) /\
      (forall p, In p (p2 :: r2) -> by_keyword p = true \/ p_kind p = StarStar -> matching p1 p = true) /\
      (missing = true -> exists p, In p (p2 :: r2) /\ p_kind p = StarStar)).
    { intros missing' H' Hm Hr Ht. destruct (IH p1 missing' H') as (A & B & C). refine (conj _ (conj _ _)).
      - intros p [<-|Hp]; [exact Hr|exact (A p Hp)].
      - intros p [<-|Hp]; [exact Ht|exact (B p Hp)].
      - intros Hmi. destruct (Hm Hmi) as [Hmi'|Hk]; [|exists p2; split; [left; reflexivity|exact Hk]].
        destruct (C Hmi') as (p & Hp & Hk). exists p; split; [right; exact Hp|exact Hk]. }
    assert (Hd : p_default p2 = true -> ~ required p2) by (intros E [_ E']; congruence).
    assert (Hv : variadic p2 -> ~ required p2) by (intros E [E' _]; contradiction).
    destruct (p_kind p2) eqn:Ek.
    + apply andb_true_iff in H as [H1 H2]. apply (G missing H2); [auto|auto|].
      intros [X|X]; [apply by_keyword_iff in X; destruct X as [X|X]|]; congruence.
    + apply andb_true_iff in H as [H H2]. apply andb_true_iff in H as [H1 H3]. apply (G missing H2); auto.
    + apply (G missing H); [auto|apply Hv; left; exact Ek|].
      intros [X|X]; [apply by_keyword_iff in X; destruct X as [X|X]|]; congruence.
    + apply andb_true_iff in H as [H H2]. apply andb_true_iff in H as [H1 H3]. apply (G missing H2); auto.
    + apply andb_true_iff in H as [H1 H2]. apply (G false H2); auto. apply Hv; right; exact Ek.
Qed.

(** ** The keyword phase *)

Definition keyword_part (ps : list param) : Prop := forall p, In p ps -> p_kind p = KeywordOnly \/ p_kind p = StarStar.
Definition has_kind (k : kind) (ps : list param) : Prop := exists p, In p ps /\ p_kind p = k.
(** A keyword-only parameter with a default meets one with a default. *)
Definition defaults_kept (ps1 ps2 : list param) : Prop :=
  forall n p1 p2, In p1 ps1 -> p_kind p1 = KeywordOnly -> named n p1 -> p_default p1 = true -> In p2 ps2 -> named n p2 -> p_default p2 = true.

Lemma not_trivial : forall prev p1 (r1 ps2 : list param),
  precise = true \/ (forall p, In p (p1 :: r1) -> variadic p -> any_type is_any p = false) ->
  negb precise && is_trivial_suffix is_any prev p1 r1 ps2 = false.
Proof.
  intros prev p1 r1 ps2 [->|H]; [reflexivity|]. apply andb_false_iff; right.
  assert (G : forall l, (forall p, In p l -> In p (p1 :: r1)) -> match find (is_kind StarStar) l with Some s => any_type is_any s | None => false end = false).
  { intros l Hl. destruct (find (is_kind StarStar) l) as [s|] eqn:E; [|reflexivity]. apply find_some in E as [E1 E2].
    apply H; [apply Hl; exact E1|right; apply is_kind_iff; exact E2]. }
  unfold is_trivial_suffix. destruct prev as [x|]; [apply G; auto|].
  destruct (is_kind Star p1) eqn:E; [|reflexivity]. cbn [andb]. destruct r1 as [|q r1].
  - rewrite (H p1); [reflexivity|left; reflexivity|left; apply is_kind_iff; exact E].
  - apply G. intros p Hp; right; exact Hp.
Qed.

Lemma without_subset : forall n (K : list (N * val)) x, In x (without n K) -> In x K.
Proof. intros n K (m & v) H; apply in_without in H; apply H. Qed.

Lemma keyword_phase : forall r1 ps2 U mis1 mis2 prev K,
  matches_from r1 ps2 U mis1 mis2 prev = true -> keyword_part r1 -> signature r1 -> signature ps2 ->
  annotated r1 -> precise = true \/ (forall p, In p r1 -> variadic p -> any_type is_any p = false) ->
  (forall x, In x U -> p_kind x = PositionalOrKeyword \/ p_kind x = KeywordOnly) ->
  NoDup (names (U ++ ps2)) -> NoDup (map fst K) -> defaults_kept r1 (U ++ ps2) ->
  (has_kind StarStar ps2 -> (forall n v q, In (n, v) K -> In q U -> named n q -> ok q v) /\
     (has_kind KeywordOnly r1 -> forall n v q, In (n, v) K -> In q ps2 -> named n q -> ok q v)) ->
  kw_ok r1 K -> kw_ok (U ++ ps2) K.
Proof.
  induction r1 as [|p1 r1 IH]; intros ps2 U mis1 mis2 prev K H Hkp Hs1 Hs2 Hann Htriv HU Hnames Hnd Hdef Hty Hok.
  - cbn [ParamsModel.matches_from] in H. apply andb_true_iff in H as [H1 H2]. rewrite forallb_forall in H1, H2.
    apply kw_nil in Hok; subst K. split; [intros n v []|]. intros p Hp [Hv Hd]. exfalso.
    apply in_app_iff in Hp as [Hp|Hp]; [rewrite (H1 p Hp) in Hd; discriminate|].
    specialize (H2 p Hp). rewrite Hd in H2. cbn [orb] in H2. apply Hv, is_variadic_iff; exact H2.
  - pose proof (signature_tail _ _ _ Hs1) as Hs1'.
    assert (Hkp' : keyword_part r1) by (intros p Hp; apply Hkp; right; exact Hp).
    assert (Hann' : annotated r1) by (intros p Hp; apply Hann; right; exact Hp).
    assert (Hp1 : p_type p1 <> None) by (apply Hann; left; reflexivity).
    assert (Htriv' : precise = true \/ (forall p, In p r1 -> variadic p -> any_type is_any p = false)).
    { destruct Htriv as [Htriv|Htriv]; [left; exact Htriv|right]. intros p Hp; apply Htriv; right; exact Hp. }
    cbn [ParamsModel.matches_from] in H.
    destruct (hd_error (ps2 ++ U)) as [p2|] eqn:Ehd; [|rewrite (not_trivial prev p1 r1 ps2 Htriv) in H; discriminate].
    destruct (p_default p1 && negb (p_default p2 || is_variadic p2)) eqn:Edef; [discriminate|].
    destruct (Hkp p1 (or_introl eq_refl)) as [Ek|Ek]; rewrite Ek in H.
    + destruct (p_name p1) as [n|] eqn:En; [|exfalso; exact (has_name _ _ Hs1 p1 (or_introl eq_refl) (or_intror Ek) En)].
      assert (Hn1 : named n p1) by (split; [right; exact Ek|exact En]).
      assert (Hkw1 : has_kind KeywordOnly (p1 :: r1)) by (exists p1; split; [left; reflexivity|exact Ek]).
      (* either the name is used, or the parameter has a default *)
      assert (Hcases : (exists v, In (n, v) K /\ ok p1 v /\ kw_ok r1 (without n K)) \/
                       (~ In n (map fst K) /\ p_default p1 = true /\ kw_ok r1 K)).
      { destruct (in_dec N.eq_dec n (map fst K)) as [Hin|Hout].
        - apply in_map_iff in Hin as ((n' & v) & E & Hin); cbn in E; subst n'. left; exists v.
          apply (kw_take ty val fits p1 r1 n v K Hnd Hn1) in Hok; [tauto| |exact Hin].
          intros q Hq; exact (signature_named _ _ _ _ _ Hs1 Hq Hn1).
        - right. apply kw_skip in Hok; [tauto| |].
          + intros [E|E]; rewrite Ek in E; discriminate.
          + intros m Hm; rewrite (named_inj _ _ _ _ Hm Hn1); exact Hout. }
      (* [q] is taken from the list, [L] is left *)
      assert (Htake : forall q dropped ps2' U', Permutation (U ++ ps2) (q :: dropped ++ U' ++ ps2') -> Forall droppable dropped ->
        matching p1 q = true -> named n q -> matches_from r1 ps2' U' mis1 mis2 prev = true -> signature ps2' ->
        (forall x, In x U' -> p_kind x = PositionalOrKeyword \/ p_kind x = KeywordOnly) ->
        (has_kind StarStar ps2' -> has_kind StarStar ps2) ->
        kw_ok (U ++ ps2) K).
      { intros q d ps2' U' Hperm Hd Hm Hnq Hrec Hs2' HU' Hss.
        assert (Hin_sub : forall x, In x (U' ++ ps2') -> In x (U ++ ps2)).
        { intros x Hx. apply (Permutation_in _ (Permutation_sym Hperm)). right. apply in_app_iff; right; exact Hx. }
        pose proof (names_perm _ _ Hperm Hnames) as Hnames'.
        assert (Hrest : forall x, In x (d ++ U' ++ ps2') -> ~ named n x) by exact (names_cons_named n q _ Hnq Hnames').
        assert (Hnames2 : NoDup (names (U' ++ ps2'))).
        { apply names_tail in Hnames'. rewrite names_app in Hnames'. apply nodup_app_r in Hnames'; exact Hnames'. }
        assert (Hdef' : defaults_kept r1 (U' ++ ps2')).
        { intros m x y Hx Hkx Hmx Hdx Hy Hmy. apply (Hdef m x y); auto. right; exact Hx. }
        assert (Hty' : forall K', (forall x, In x K' -> In x K) -> has_kind StarStar ps2' ->
          (forall m v x, In (m, v) K' -> In x U' -> named m x -> ok x v) /\
          (has_kind KeywordOnly r1 -> forall m v x, In (m, v) K' -> In x ps2' -> named m x -> ok x v)).
        { intros K' HK' Hx. destruct (Hty (Hss Hx)) as [T1 T2]. specialize (T2 Hkw1).
          assert (T : forall m v x, In (m, v) K' -> In x (U' ++ ps2') -> named m x -> ok x v).
          { intros m v x Hm' Hx' Hnx. specialize (Hin_sub x Hx'). apply in_app_iff in Hin_sub as [Hi|Hi].
            - exact (T1 m v x (HK' _ Hm') Hi Hnx).
            - exact (T2 m v x (HK' _ Hm') Hi Hnx). }
          split; [|intros _]; intros m v x Hm' Hx' Hnx; apply (T m v x Hm'); try exact Hnx; apply in_app_iff; auto. }
        apply (kw_perm (q :: d ++ U' ++ ps2')); [symmetry; exact Hperm|].
        destruct Hcases as [(v & Hin & Hv & Hr)|(Hout & Hdp & Hr)].
        - apply (kw_take ty val fits q _ n v K Hnd Hnq Hrest Hin). split; [exact (match_ok p1 q v Hm Hp1 Hv)|].
          apply droppable_add; [exact Hd|].
          apply (IH ps2' U' mis1 mis2 prev (without n K)); try assumption.
          + apply without_nodup; exact Hnd.
          + apply Hty'. apply without_subset.
        - apply kw_skip.
          + intros [E|E]; destruct Hnq as [[Eq|Eq] _]; rewrite Eq in E; discriminate.
          + intros m Hm'; rewrite (named_inj _ _ _ _ Hm' Hnq); exact Hout.
          + split.
            * apply (Hdef n p1 q); auto; [left; reflexivity|]. apply (Permutation_in _ (Permutation_sym Hperm)); left; reflexivity.
            * apply droppable_add; [exact Hd|]. apply (IH ps2' U' mis1 mis2 prev K); try assumption. apply Hty'; auto. }
      (* [**kwargs] takes it, [L] is left *)
      assert (Hstar : forall q dropped ps2' U' keep, Permutation (U ++ ps2) (q :: dropped ++ U' ++ ps2') -> Forall droppable dropped ->
        matching p1 q = true -> p_kind q = StarStar -> matches_from r1 (keep ++ ps2') U' mis1 mis2 prev = true -> signature (keep ++ ps2') ->
        keep = [] \/ keep = [q] ->
        (forall x, In x U' -> p_kind x = PositionalOrKeyword \/ p_kind x = KeywordOnly) ->
        In q ps2 -> (forall x, In x (U ++ ps2) -> named n x -> forall v, In (n, v) K -> ok x v) ->
        kw_ok (U ++ ps2) K).
      { intros q d ps2' U' keep Hperm Hd Hm Hq Hrec Hs2' Hkeep HU' Hqin Hnamed.
        assert (Hin_sub : forall x, In x (U' ++ keep ++ ps2') -> In x (U ++ ps2)).
        { intros x Hx. apply (Permutation_in _ (Permutation_sym Hperm)).
          apply in_app_iff in Hx as [Hx|Hx]; [right; rewrite !in_app_iff; auto|].
          apply in_app_iff in Hx as [Hx|Hx]; [|right; rewrite !in_app_iff; auto].
          destruct Hkeep as [->| ->]; [destruct Hx|]. destruct Hx as [<-|[]]; left; reflexivity. }
        assert (Enames : names (U' ++ keep ++ ps2') = names (U' ++ ps2')).
        { rewrite !names_app. f_equal. destruct Hkeep as [->| ->]; [reflexivity|]. cbn [names flat_map].
          destruct (by_keyword q) eqn:E; [|reflexivity]. apply by_keyword_iff in E; destruct E as [E|E]; rewrite Hq in E; discriminate. }
        pose proof (names_perm _ _ Hperm Hnames) as Hnames'.
        assert (Hnames2 : NoDup (names (U' ++ keep ++ ps2'))).
        { rewrite Enames. apply names_tail in Hnames'. rewrite names_app in Hnames'. apply nodup_app_r in Hnames'; exact Hnames'. }
        assert (Hdef' : defaults_kept r1 (U' ++ keep ++ ps2')).
        { intros m x y Hx Hkx Hmx Hdx Hy Hmy. apply (Hdef m x y); auto. right; exact Hx. }
        assert (Hss : has_kind StarStar ps2) by (exists q; split; assumption).
        assert (Hty' : forall K', (forall x, In x K' -> In x K) -> has_kind StarStar (keep ++ ps2') ->
          (forall m v x, In (m, v) K' -> In x U' -> named m x -> ok x v) /\
          (has_kind KeywordOnly r1 -> forall m v x, In (m, v) K' -> In x (keep ++ ps2') -> named m x -> ok x v)).
        { intros K' HK' _. destruct (Hty Hss) as [T1 T2]. specialize (T2 Hkw1).
          assert (T : forall m v x, In (m, v) K' -> In x (U' ++ keep ++ ps2') -> named m x -> ok x v).
          { intros m v x Hm' Hx' Hnx. specialize (Hin_sub x Hx'). apply in_app_iff in Hin_sub as [Hi|Hi].
            - exact (T1 m v x (HK' _ Hm') Hi Hnx).
            - exact (T2 m v x (HK' _ Hm') Hi Hnx). }
          split; [|intros _]; intros m v x Hm' Hx' Hnx; apply (T m v x Hm'); try exact Hnx; apply in_app_iff; auto. }
        assert (Hback : forall K', kw_ok (U' ++ keep ++ ps2') K' -> kw_ok (U ++ ps2) K').
        { intros K' HK'. apply (kw_perm (q :: d ++ U' ++ ps2')); [symmetry; exact Hperm|].
          assert (Hq' : kw_ok (q :: U' ++ ps2') K').
          { destruct Hkeep as [->| ->].
            - cbn [app] in HK'. apply kw_add; [intros [Hv _]; apply Hv; right; exact Hq| |exact HK'].
              intros m Hm'; exfalso; exact (named_not_star_star _ _ _ Hm' Hq).
            - apply (kw_perm (U' ++ [q] ++ ps2')); [symmetry; apply Permutation_middle|exact HK']. }
          apply (kw_perm (d ++ q :: U' ++ ps2')); [symmetry; apply Permutation_middle|].
          apply droppable_add; assumption. }
        destruct Hcases as [(v & Hin & Hv & Hr)|(Hout & Hdp & Hr)].
        - apply (kw_insert _ n v K Hnd Hin).
          + apply Hback. apply (IH (keep ++ ps2') U' mis1 mis2 prev (without n K)); try assumption.
            * apply without_nodup; exact Hnd.
            * apply Hty'. apply without_subset.
          + destruct (in_dec N.eq_dec n (names (U ++ ps2))) as [Hi|Hi].
            * apply in_names in Hi as (x & Hx & Hnx). exists x; split; [split; [exact Hx|left; exact Hnx]|exact (Hnamed x Hx Hnx v Hin)].
            * exists q; split; [|exact (match_ok p1 q v Hm Hp1 Hv)]. split; [apply in_app_iff; right; exact Hqin|right; split; [exact Hq|]].
              intros x Hx Hnx. apply Hi, in_names; exists x; auto.
        - apply Hback. apply (IH (keep ++ ps2') U' mis1 mis2 prev K); try assumption. apply Hty'; auto. }
      (* the first parameter may be [*args] *)
      cbv zeta in H.
      assert (Hhead : exists dropped ps2' p2', ps2 = dropped ++ ps2' /\ Forall droppable dropped /\
        ps2' = (if is_kind Star p2 then tl ps2 else ps2) /\
        p2' = (if is_kind Star p2 then match ps2' with q :: _ => q | [] => p2 end else p2) /\
        (is_kind StarStar p2' = true -> exists r, ps2' = p2' :: r)).
      { destruct (is_kind Star p2) eqn:Es.
        - apply is_kind_iff in Es. destruct ps2 as [|x ps2].
          + cbn [app] in Ehd. exfalso. destruct U as [|u U]; [discriminate|]. injection Ehd as ->.
            destruct (HU p2 (or_introl eq_refl)) as [E|E]; rewrite E in Es; discriminate.
          + cbn in Ehd; injection Ehd as ->. exists [p2], ps2. eexists.
            refine (conj eq_refl (conj (Forall_cons _ (or_introl Es) (Forall_nil _)) (conj eq_refl (conj eq_refl _)))).
            destruct ps2 as [|y ps2]; [intros X; apply is_kind_iff in X; congruence|]. intros _; eexists; reflexivity.
        - exists [], ps2, p2. refine (conj eq_refl (conj (Forall_nil _) (conj eq_refl (conj eq_refl _)))).
          intros X; apply is_kind_iff in X. destruct ps2 as [|x ps2].
          + cbn [app] in Ehd. exfalso. destruct U as [|u U]; [discriminate|]. injection Ehd as ->.
            destruct (HU p2 (or_introl eq_refl)) as [E|E]; rewrite E in X; discriminate.
          + cbn in Ehd; injection Ehd as ->. eexists; reflexivity. }
      destruct Hhead as (d0 & ps2' & p2' & Eps & Hd0 & E1 & E2 & Hss).
      rewrite <- E1 in H. rewrite <- E2 in H. clear E1 E2.
      assert (Hs2' : signature ps2').
      { subst ps2. clear - Hs2. induction d0 as [|x d0 IHd]; [exact Hs2|]. apply IHd. exact (signature_tail _ _ _ Hs2). }
      assert (Hsub2 : forall x, In x ps2' -> In x ps2) by (intros x Hx; subst ps2; apply in_app_iff; right; exact Hx).
      destruct (is_kind StarStar p2') eqn:Ess.
      * destruct (Hss eq_refl) as (r & Er). apply is_kind_iff in Ess. apply andb_true_iff in H as [Hm H].
        rewrite Er in H.
        assert (Hin2 : In p2' ps2) by (apply Hsub2; rewrite Er; left; reflexivity).
        assert (HTs : has_kind StarStar ps2) by (exists p2'; split; assumption).
        apply (Hstar p2' d0 r U [p2']); try assumption.
        -- rewrite Eps, Er. transitivity (d0 ++ U ++ p2' :: r); [apply Permutation_app_swap_app|].
           transitivity (d0 ++ p2' :: U ++ r); [apply Permutation_app_head; symmetry; apply Permutation_middle|symmetry; apply Permutation_middle].
        -- cbn [app]. rewrite <- Er; exact Hs2'.
        -- right; reflexivity.
        -- intros x Hx Hnx v Hv. destruct (Hty HTs) as [T1 T2]. apply in_app_iff in Hx as [Hx|Hx].
           ++ exact (T1 n v x Hv Hx Hnx).
           ++ exact (T2 Hkw1 n v x Hv Hx Hnx).
      * destruct (take_unused p1 U) as [[q U']|] eqn:Et.
        -- apply andb_true_iff in H as [Hm H]. destruct (take_unused_some _ _ _ _ Et) as [Hsn Hpu].
           assert (HqU : In q U) by (apply (Permutation_in _ (Permutation_sym Hpu)); left; reflexivity).
           assert (Hnq : named n q).
           { apply (same_name_named n p1 q En Hsn). apply by_keyword_iff. exact (HU q HqU). }
           apply (Htake q d0 ps2' U'); try assumption.
           ++ rewrite Eps. transitivity (d0 ++ U ++ ps2'); [apply Permutation_app_swap_app|].
              transitivity (d0 ++ (q :: U') ++ ps2'); [apply Permutation_app_head, Permutation_app_tail; exact Hpu|].
              cbn [app]. symmetry; apply Permutation_middle.
           ++ intros x Hx. apply HU. apply (Permutation_in _ (Permutation_sym Hpu)); right; exact Hx.
           ++ intros (x & Hx & Hkx). exists x; split; [apply Hsub2; exact Hx|exact Hkx].
        -- destruct (find_keyword type_match p1 ps2' U) as [[[m ps2''] U']|] eqn:Ef; [|discriminate].
           apply andb_true_iff in H as [Hm H]. subst m.
           destruct (find_keyword_some _ _ _ _ _ _ n Ef En Hs2') as (Hs2'' & q & d & Hperm & Hd & Hmq & HUU & Hq).
           { intros x Hx. apply (not_same_name n p1 x En). exact (take_unused_none _ _ Et x Hx). }
           assert (HpermA : Permutation (U ++ ps2) (q :: (d0 ++ d) ++ U' ++ ps2'')).
           { rewrite Eps. transitivity (d0 ++ U ++ ps2'); [apply Permutation_app_swap_app|].
             transitivity (d0 ++ q :: d ++ U' ++ ps2''); [apply Permutation_app_head; exact Hperm|].
             rewrite <- app_assoc. symmetry; apply Permutation_middle. }
           assert (HU' : forall x, In x U' -> p_kind x = PositionalOrKeyword \/ p_kind x = KeywordOnly).
           { intros x Hx. destruct (HUU x Hx) as [Hx'|Hx']; [exact (HU x Hx')|exact Hx']. }
           assert (Hdd : Forall droppable (d0 ++ d)) by (apply Forall_app; split; assumption).
           destruct Hq as [Hq|[Hq Hno]].
           ++ apply (Htake q (d0 ++ d) ps2'' U'); try assumption; [symmetry; exact Hmq|].
              intros (x & Hx & Hkx). exists x; split; [|exact Hkx].
              assert (Hx' : In x (U ++ ps2)).
              { apply (Permutation_in _ (Permutation_sym HpermA)). right. rewrite !in_app_iff; auto. }
              apply in_app_iff in Hx' as [Hx'|Hx']; [|exact Hx']. destruct (HU x Hx') as [E|E]; rewrite E in Hkx; discriminate.
           ++ assert (Hqin : In q ps2).
              { assert (Hx' : In q (U ++ ps2)) by (apply (Permutation_in _ (Permutation_sym HpermA)); left; reflexivity).
                apply in_app_iff in Hx' as [Hx'|Hx']; [|exact Hx']. destruct (HU q Hx') as [E|E]; rewrite E in Hq; discriminate. }
              apply (Hstar q (d0 ++ d) ps2'' U' []); try assumption; [symmetry; exact Hmq|left; reflexivity|].
              intros x Hx Hnx. exfalso. rewrite Eps in Hx. apply in_app_iff in Hx as [Hx|Hx].
              ** apply (Hno x); [apply in_app_iff; left; exact Hx|exact Hnx].
              ** apply in_app_iff in Hx as [Hx|Hx]; [|apply (Hno x); [apply in_app_iff; right; exact Hx|exact Hnx]].
                 rewrite Forall_forall in Hd0. destruct Hnx as [[E|E] _]; destruct (Hd0 x Hx) as [E'|[E' _]]; rewrite E' in E; discriminate.
    + (* [**kwargs] *)
      assert (Er : r1 = []).
      { destruct r1 as [|x r1]; [reflexivity|exfalso].
        pose proof (signature_rank _ _ _ x Hs1 (or_introl eq_refl)) as Hx; rewrite Ek in Hx; cbn [rank] in Hx.
        apply (signature_variadic _ _ _ x Hs1 (or_introl eq_refl)); [right; exact Ek|].
        rewrite Ek; destruct (p_kind x); cbn in Hx; try lia; reflexivity. }
      subst r1. apply andb_true_iff in H as [H HUd]. cbn [ParamsModel.matches_from] in HUd.
      apply andb_true_iff in HUd as [HUd _]. rewrite forallb_forall in HUd.
      destruct (match_star_star_facts ps2 p1 true H) as (A & B & C). destruct (C eq_refl) as (ss & Hss & Hkss).
      apply (kw_star_star ty val fits p1 K Ek) in Hok. rewrite Forall_forall in Hok.
      split.
      * intros n v Hin. specialize (Hok (n, v) Hin); cbn [snd] in Hok.
        destruct (in_dec N.eq_dec n (names (U ++ ps2))) as [Hi|Hi].
        -- apply in_names in Hi as (x & Hx & Hnx). exists x; split; [split; [exact Hx|left; exact Hnx]|].
           apply in_app_iff in Hx as [Hx|Hx].
           ++ apply (proj1 (Hty (ex_intro _ ss (conj Hss Hkss))) n v x Hin Hx Hnx).
           ++ apply (match_ok p1 x v); [|exact Hp1|exact Hok]. apply B; [exact Hx|]. left; apply by_keyword_iff; apply Hnx.
        -- exists ss; split; [|apply (match_ok p1 ss v); [apply B; auto|exact Hp1|exact Hok]].
           split; [apply in_app_iff; right; exact Hss|right; split; [exact Hkss|]].
           intros x Hx Hnx; apply Hi, in_names; exists x; auto.
      * intros p Hp Hreq. exfalso. apply in_app_iff in Hp as [Hp|Hp]; [|exact (A p Hp Hreq)].
        destruct Hreq as [_ E]; rewrite (HUd p Hp) in E; discriminate.
Qed.

(** ** The positional phase *)

Lemma keyword_behind_facts : forall l p1 star n, keyword_behind type_match type_same p1 star l = true -> named n p1 -> signature l ->
  (exists q, In q l /\ named n q /\ matching p1 q = true) \/
  (exists q, In q l /\ p_kind q = StarStar /\ with_variance type_same (p_type star) (p_type q) = true /\ forall x, In x l -> ~ named n x).
Proof.
  induction l as [|p2 r2 IH]; intros p1 star n H Hn Hs; cbn [keyword_behind] in H; [discriminate|].
  destruct (p_kind p2) eqn:Ek; try discriminate.
  - destruct (same_name p2 p1) eqn:E.
    + apply andb_true_iff in H as [_ H]. left; exists p2. refine (conj (or_introl eq_refl) (conj _ H)).
      rewrite same_name_sym in E. apply (same_name_named n p1 p2); [apply Hn|exact E|].
      apply by_keyword_iff; right; exact Ek.
    + rewrite same_name_sym in E. pose proof (not_same_name n p1 p2 (proj2 Hn) E) as Hp2.
      destruct (IH p1 star n H Hn (signature_tail _ _ _ Hs)) as [(q & Hq & A)|(q & Hq & A & B & C)].
      * left; exists q; split; [right; exact Hq|exact A].
      * right; exists q. refine (conj (or_intror Hq) (conj A (conj B _))). intros x [<-|Hx]; [exact Hp2|exact (C x Hx)].
  - right; exists p2. refine (conj (or_introl eq_refl) (conj Ek (conj H _))).
    intros x [<-|Hx] Hnx; [exact (named_not_star_star _ _ _ Hnx Ek)|].
    pose proof (signature_rank _ _ _ x Hs Hx) as Hr. rewrite Ek in Hr.
    destruct Hnx as [[E|E] _]; rewrite E in Hr; cbn in Hr; lia.
Qed.

(** A name that some call to [ps] uses. *)
Definition takes (ps : list param) (n : N) : Prop := exists p, In p ps /\ (named n p \/ p_kind p = StarStar).

(** A positional-only parameter meets one that can be named: nothing else takes that name. *)
Definition no_capture (ps1 ps2 : list param) : Prop :=
  forall i p1 p2 n, nth_error ps1 i = Some p1 -> nth_error ps2 i = Some p2 -> p_kind p1 = PositionalOnly ->
    p_kind p2 = PositionalOrKeyword -> p_name p2 = Some n -> ~ takes ps1 n.

Lemma accepts_takes : forall ps vs K n, accepts ps (mk_call vs K) -> In n (map fst K) -> takes ps n.
Proof.
  intros ps vs K n [_ B _ _] Hn; cbn [by_name] in B. apply in_map_iff in Hn as ((m & v) & E & Hin); cbn in E; subst m.
  destruct (B n v Hin) as (j & (p & Hp & Hr) & _). exists p; split; [exact (nth_error_In _ _ Hp)|].
  destruct Hr as [Hr|[Hr _]]; [left|right]; exact Hr.
Qed.

Definition starred (ps : list param) : Prop := forall p, In p ps -> p_kind p = Star -> p_type p <> None.

Definition typed_names (ps1 ps2 : list param) (K : list (N * val)) : Prop :=
  has_kind StarStar ps2 -> has_kind KeywordOnly ps1 -> forall n v q, In (n, v) K -> In q ps2 -> named n q ->
    (forall p, In p ps1 -> p_kind p = PositionalOrKeyword -> ~ named n p) -> ok q v.

Lemma positional_phase : forall ps1 ps2 mis1 mis2 prev vs K,
  matches_from ps1 ps2 [] mis1 mis2 prev = true -> signature ps1 -> signature ps2 -> annotated ps1 -> starred ps2 ->
  precise = true \/ (forall p, In p ps1 -> variadic p -> any_type is_any p = false) ->
  no_capture ps1 ps2 -> defaults_kept ps1 ps2 -> NoDup (map fst K) -> typed_names ps1 ps2 K ->
  accepts ps1 (mk_call vs K) -> accepts ps2 (mk_call vs K).
Proof.
  induction ps1 as [|p1 r1 IH]; intros ps2 mis1 mis2 prev vs K H Hs1 Hs2 Hann Hst Htriv Hcap Hdef Hnd Hty Hacc.
  - cbn [ParamsModel.matches_from forallb andb] in H. rewrite forallb_forall in H.
    apply accepts_nil in Hacc as [-> ->]. apply accepts_kw. split; [intros n v []|].
    intros p Hp [Hv Hd]; exfalso. specialize (H p Hp). rewrite Hd in H. apply Hv, is_variadic_iff; exact H.
  - pose proof (signature_tail _ _ _ Hs1) as Hs1'.
    assert (Hann' : annotated r1) by (intros p Hp; apply Hann; right; exact Hp).
    assert (Hp1 : p_type p1 <> None) by (apply Hann; left; reflexivity).
    assert (Htriv' : precise = true \/ (forall p, In p r1 -> variadic p -> any_type is_any p = false)).
    { destruct Htriv as [Htriv|Htriv]; [left; exact Htriv|right]. intros p Hp; apply Htriv; right; exact Hp. }
    assert (Hkw : p_kind p1 = KeywordOnly \/ p_kind p1 = StarStar -> accepts ps2 (mk_call vs K)).
    { intros Hk. pose proof (accepts_keyword_only _ _ _ _ _ _ _ Hs1 Hk Hacc) as ->.
      assert (Hkp : keyword_part (p1 :: r1)).
      { intros p [<-|Hp]; [exact Hk|]. pose proof (signature_rank _ _ _ p Hs1 Hp) as Hr.
        destruct Hk as [Hk|Hk]; rewrite Hk in Hr; destruct (p_kind p); cbn in Hr; try lia; auto. }
      apply accepts_kw. apply accepts_kw in Hacc. apply (keyword_phase (p1 :: r1) ps2 [] mis1 mis2 prev K H); try assumption.
      - intros x [].
      - apply names_signature; exact Hs2.
      - intros Hss. split; [intros n v q _ []|]. intros Hko n v q Hin Hq Hnq. apply (Hty Hss Hko n v q Hin Hq Hnq).
        intros p Hp Hk'. destruct (Hkp p Hp) as [E|E]; rewrite E in Hk'; discriminate. }
    destruct (p_kind p1) eqn:Ek; try (apply Hkw; auto; fail); clear Hkw;
    cbn [ParamsModel.matches_from] in H; rewrite app_nil_r in H;
    (destruct ps2 as [|p2 r2]; cbn [hd_error tl] in H; [rewrite (not_trivial prev p1 r1 [] Htriv) in H; discriminate|]);
    (destruct (p_default p1 && negb (p_default p2 || is_variadic p2)) eqn:Edef; [discriminate|]); rewrite Ek in H;
    pose proof (signature_tail _ _ _ Hs2) as Hs2';
    (assert (Hst' : starred r2) by (intros p Hp; apply Hst; right; exact Hp)).
    + (* positional-only *)
      assert (Hno1 : forall n, ~ named n p1) by (intros n [[E|E] _]; rewrite Ek in E; discriminate).
      assert (Htyn : forall r, (forall x, In x r -> In x (p2 :: r2)) -> typed_names r1 r K).
      { intros r Hr (x & Hx & Hkx) (y & Hy & Hky) n v q Hin Hq Hnq Hpk. apply (Hty (ex_intro _ x (conj (Hr x Hx) Hkx)) (ex_intro _ y (conj (or_intror Hy) Hky)) n v q Hin (Hr q Hq) Hnq).
        intros p [<-|Hp]; [intros E; rewrite Ek in E; discriminate|exact (Hpk p Hp)]. }
      assert (Hdefn : forall r, (forall x, In x r -> In x (p2 :: r2)) -> defaults_kept r1 r).
      { intros r Hr n x y Hx A B C Hy D. apply (Hdef n x y); auto. right; exact Hx. }
      assert (Hpair : positional p2 -> matching p1 p2 = true -> matches_from r1 r2 [] mis1 mis2 prev = true -> accepts (p2 :: r2) (mk_call vs K)).
      { intros Hpos Hm Hrec.
        assert (Hrest : forall ws, accepts r1 (mk_call ws K) -> accepts r2 (mk_call ws K)).
        { intros ws Hws. apply (IH r2 mis1 mis2 prev ws K); try assumption.
          - intros i x y n Hx Hy A B C (z & Hz & D). apply (Hcap (S i) x y n Hx Hy A B C). exists z; split; [right; exact Hz|exact D].
          - apply Hdefn. intros x Hx; right; exact Hx.
          - apply Htyn. intros x Hx; right; exact Hx. }
        assert (Hnotk : forall n, named n p2 -> ~ In n (map fst K)).
        { intros n [Hkn Hnn] Hin. destruct Hpos as [Hpos|Hpos].
          - destruct Hkn as [E|E]; rewrite Hpos in E; discriminate.
          - exact (Hcap 0 p1 p2 n eq_refl eq_refl Ek Hpos Hnn (accepts_takes _ _ _ _ Hacc Hin)). }
        destruct vs as [|v vs].
        - apply accepts_kw. apply accepts_kw in Hacc. apply kw_skip in Hacc as [Hd Hacc].
          + apply kw_skip; [intros [E|E]; destruct Hpos as [E'|E']; rewrite E' in E; discriminate|exact Hnotk|]. split.
            * rewrite Hd in Edef. cbn [andb] in Edef. apply negb_false_iff, orb_true_iff in Edef as [E|E]; [exact E|].
              exfalso. apply is_variadic_iff in E. destruct E as [E|E]; destruct Hpos as [E'|E']; rewrite E' in E; discriminate.
            * apply accepts_kw, Hrest, accepts_kw; exact Hacc.
          + intros [E|E]; rewrite Ek in E; discriminate.
          + intros n Hn; destruct (Hno1 n Hn).
        - apply accepts_position in Hacc as (Hv & Hacc' & _); [|left; exact Ek].
          apply accepts_position; [exact Hpos|]. refine (conj (match_ok p1 p2 v Hm Hp1 Hv) (conj (Hrest vs Hacc') Hnotk)). }
      destruct (p_kind p2) eqn:Ek2; try discriminate; apply andb_true_iff in H as [Hm H].
      * apply Hpair; auto. left; exact Ek2.
      * apply Hpair; auto. right; exact Ek2.
      * assert (Hrest : forall ws, accepts r1 (mk_call ws K) -> accepts (p2 :: r2) (mk_call ws K)).
        { intros ws Hws. apply (IH (p2 :: r2) mis1 mis2 prev ws K); try assumption.
          - intros i x y n Hx Hy _ E _ _. destruct i as [|i]; cbn [nth_error] in Hy; [injection Hy as <-; rewrite Ek2 in E; discriminate|].
            apply nth_error_In in Hy. pose proof (signature_rank _ _ _ y Hs2 Hy) as Hr. rewrite Ek2, E in Hr; cbn in Hr; lia.
          - apply Hdefn; auto.
          - apply Htyn; auto. }
        destruct vs as [|v vs].
        -- apply Hrest. apply accepts_kw. apply accepts_kw in Hacc. apply kw_skip in Hacc as [_ Hacc]; [exact Hacc| |].
           ++ intros [E|E]; rewrite Ek in E; discriminate.
           ++ intros n Hn; destruct (Hno1 n Hn).
        -- apply accepts_position in Hacc as (Hv & Hacc' & _); [|left; exact Ek].
           apply (accepts_star _ _ _ _ _ _ _ Hs2 Ek2). apply Hrest, (accepts_star _ _ _ _ _ _ _ Hs2 Ek2) in Hacc' as [A B].
           split; [constructor; [exact (match_ok p1 p2 v Hm Hp1 Hv)|exact A]|exact B].
    + (* positional or keyword *)
      destruct (p_name p1) as [n|] eqn:En; [|exfalso; exact (has_name _ _ Hs1 p1 (or_introl eq_refl) (or_introl Ek) En)].
      assert (Hn1 : named n p1) by (split; [left; exact Ek|exact En]).
      assert (Hnr1 : forall q, In q r1 -> ~ named n q) by (intros q Hq; exact (signature_named _ _ _ _ _ Hs1 Hq Hn1)).
      assert (Htyn : forall r K', (forall x, In x r -> In x (p2 :: r2)) -> (forall x, In x K' -> In x K) -> ~ In n (map fst K') -> typed_names r1 r K').
      { intros r K' Hr HK Hout (x & Hx & Hkx) (y & Hy & Hky) m v q Hin Hq Hnq Hpk.
        apply (Hty (ex_intro _ x (conj (Hr x Hx) Hkx)) (ex_intro _ y (conj (or_intror Hy) Hky)) m v q (HK _ Hin) (Hr q Hq) Hnq).
        intros p [<-|Hp]; [|exact (Hpk p Hp)]. intros _ Hm. apply Hout. rewrite (named_inj _ _ _ _ Hn1 Hm). apply (in_map fst) in Hin; exact Hin. }
      assert (Hdefn : forall r, (forall x, In x r -> In x (p2 :: r2)) -> defaults_kept r1 r).
      { intros r Hr m x y Hx A B C Hy D. apply (Hdef m x y); auto. right; exact Hx. }
      destruct (p_kind p2) eqn:Ek2; try discriminate.
      * destruct (same_name p1 p2) eqn:Esn; [|discriminate]. apply andb_true_iff in H as [Hm H].
        assert (Hn2 : named n p2) by (apply (same_name_named n p1 p2 En Esn), by_keyword_iff; left; exact Ek2).
        assert (Hnr2 : forall q, In q r2 -> ~ named n q) by (intros q Hq; exact (signature_named _ _ _ _ _ Hs2 Hq Hn2)).
        assert (Hrest : forall ws K', (forall x, In x K' -> In x K) -> NoDup (map fst K') -> ~ In n (map fst K') -> accepts r1 (mk_call ws K') -> accepts r2 (mk_call ws K')).
        { intros ws K' HK Hnd' Hout Hws. apply (IH r2 mis1 mis2 prev ws K'); try assumption.
          - intros i x y m Hx Hy A B C (z & Hz & D). apply (Hcap (S i) x y m Hx Hy A B C). exists z; split; [right; exact Hz|exact D].
          - apply Hdefn. intros x Hx; right; exact Hx.
          - apply Htyn; auto. intros x Hx; right; exact Hx. }
        destruct vs as [|v vs].
        -- apply accepts_kw. apply accepts_kw in Hacc. destruct (in_dec N.eq_dec n (map fst K)) as [Hin|Hout].
           ++ apply in_map_iff in Hin as ((n' & v) & E & Hin); cbn in E; subst n'.
              apply (kw_take ty val fits p1 r1 n v K Hnd Hn1 Hnr1 Hin) in Hacc as [Hv Hacc].
              apply (kw_take ty val fits p2 r2 n v K Hnd Hn2 Hnr2 Hin). split; [exact (match_ok p1 p2 v Hm Hp1 Hv)|].
              apply accepts_kw, Hrest; [apply without_subset|apply without_nodup; exact Hnd| |apply accepts_kw; exact Hacc].
              intros X; apply in_without_fst in X; destruct X as [_ X]; apply X; reflexivity.
           ++ apply kw_skip in Hacc as [Hd Hacc]; [|intros [E|E]; rewrite Ek in E; discriminate|intros m Hm'; rewrite (named_inj _ _ _ _ Hm' Hn1); exact Hout].
              apply kw_skip; [intros [E|E]; rewrite Ek2 in E; discriminate|intros m Hm'; rewrite (named_inj _ _ _ _ Hm' Hn2); exact Hout|].
              split; [|apply accepts_kw, Hrest; auto; apply accepts_kw; exact Hacc].
              rewrite Hd in Edef. cbn [andb] in Edef. apply negb_false_iff, orb_true_iff in Edef as [E|E]; [exact E|].
              exfalso. apply is_variadic_iff in E. destruct E as [E|E]; rewrite Ek2 in E; discriminate.
        -- apply accepts_position in Hacc as (Hv & Hacc' & Hout); [|right; exact Ek].
           apply accepts_position; [right; exact Ek2|]. refine (conj (match_ok p1 p2 v Hm Hp1 Hv) (conj _ _)).
           ++ apply Hrest; auto.
           ++ intros m Hm'; rewrite (named_inj _ _ _ _ Hm' Hn2); exact (Hout n Hn1).
      * apply andb_true_iff in H as [H1 H]. apply andb_true_iff in H1 as [Hm Hkb].
        assert (Hrest : forall ws K', (forall x, In x K' -> In x K) -> NoDup (map fst K') -> ~ In n (map fst K') -> accepts r1 (mk_call ws K') -> accepts (p2 :: r2) (mk_call ws K')).
        { intros ws K' HK Hnd' Hout Hws. apply (IH (p2 :: r2) mis1 mis2 prev ws K'); try assumption.
          - intros i x y m Hx Hy _ E _ _. destruct i as [|i]; cbn [nth_error] in Hy; [injection Hy as <-; rewrite Ek2 in E; discriminate|].
            apply nth_error_In in Hy. pose proof (signature_rank _ _ _ y Hs2 Hy) as Hr. rewrite Ek2, E in Hr; cbn in Hr; lia.
          - apply Hdefn; auto.
          - apply Htyn; auto. }
        destruct vs as [|v vs].
        -- apply accepts_kw in Hacc. destruct (in_dec N.eq_dec n (map fst K)) as [Hin|Hout].
           ++ apply in_map_iff in Hin as ((n' & v) & E & Hin); cbn in E; subst n'.
              apply (kw_take ty val fits p1 r1 n v K Hnd Hn1 Hnr1 Hin) in Hacc as [Hv Hacc].
              apply accepts_kw in Hacc. apply Hrest in Hacc.
              ** apply accepts_kw, kw_star in Hacc; [|exact Ek2]. apply accepts_kw, kw_star; [exact Ek2|].
                 apply (kw_insert r2 n v K Hnd Hin Hacc).
                 destruct (keyword_behind_facts r2 p1 p2 n Hkb Hn1 Hs2') as [(q & Hq & Hnq & Hmq)|(q & Hq & Hkq & Hsame & Hnone)].
                 --- exists q; split; [split; [exact Hq|left; exact Hnq]|exact (match_ok p1 q v Hmq Hp1 Hv)].
                 --- exists q; split; [split; [exact Hq|right; split; [exact Hkq|exact Hnone]]|].
                     pose proof (match_ok p1 p2 v Hm Hp1 Hv) as Hv2. intros t Ht. unfold with_variance in Hsame. rewrite Ht in Hsame.
                     destruct (p_type p2) as [t2|] eqn:Et2; [|exfalso; exact (Hst p2 (or_introl eq_refl) Ek2 Et2)].
                     exact (same_sound t2 t Hsame v (Hv2 t2 Et2)).
              ** apply without_subset.
              ** apply without_nodup; exact Hnd.
              ** intros X; apply in_without_fst in X; destruct X as [_ X]; apply X; reflexivity.
           ++ apply kw_skip in Hacc as [Hd Hacc]; [|intros [E|E]; rewrite Ek in E; discriminate|intros m Hm'; rewrite (named_inj _ _ _ _ Hm' Hn1); exact Hout].
              apply Hrest; auto. apply accepts_kw; exact Hacc.
        -- apply accepts_position in Hacc as (Hv & Hacc' & Hout); [|right; exact Ek].
           apply (accepts_star _ _ _ _ _ _ _ Hs2 Ek2).
           apply Hrest, (accepts_star _ _ _ _ _ _ _ Hs2 Ek2) in Hacc' as [A B]; auto.
           split; [constructor; [exact (match_ok p1 p2 v Hm Hp1 Hv)|exact A]|exact B].
    + (* *args *)
      destruct (p_kind p2) eqn:Ek2; try (rewrite (not_trivial prev p1 r1 (p2 :: r2) Htriv) in H; discriminate).
      apply andb_true_iff in H as [Hm H].
      apply (accepts_star _ _ _ _ _ _ _ Hs1 Ek) in Hacc as [A B]. apply (accepts_star _ _ _ _ _ _ _ Hs2 Ek2). split.
      * rewrite Forall_forall in A |- *. intros v Hv; exact (match_ok p1 p2 v Hm Hp1 (A v Hv)).
      * assert (Hkp : keyword_part r1).
        { intros p Hp. pose proof (signature_rank _ _ _ p Hs1 Hp) as Hr. pose proof (signature_variadic _ _ _ p Hs1 Hp (or_introl Ek)) as Hv.
          rewrite Ek in Hr, Hv. destruct (p_kind p); cbn in Hr; try lia; auto; contradiction. }
        apply (keyword_phase r1 r2 [] mis1 mis2 (Some p1) K H); try assumption.
        -- intros x [].
        -- apply names_signature; exact Hs2'.
        -- intros n x y Hx E F G Hy I'. apply (Hdef n x y); auto; right; assumption.
        -- intros (x & Hx & Hkx). split; [intros n v q _ []|]. intros (y & Hy & Hky) n v q Hin Hq Hnq.
           apply (Hty (ex_intro _ x (conj (or_intror Hx) Hkx)) (ex_intro _ y (conj (or_intror Hy) Hky)) n v q Hin (or_intror Hq) Hnq).
           intros p [<-|Hp] Hk'; [rewrite Ek in Hk'; discriminate|]. destruct (Hkp p Hp) as [E|E]; rewrite E in Hk'; discriminate.
Qed.

(** ** Parameters of [Callable[[A, B], R]] *)

Lemma accepts_no_names : forall ps vs K, (forall p, In p ps -> p_kind p = PositionalOnly) -> accepts ps (mk_call vs K) -> K = [].
Proof.
  intros ps vs K Hps Hacc. destruct K as [|(n & v) K]; [reflexivity|exfalso].
  destruct (accepts_takes ps vs _ n Hacc (or_introl eq_refl)) as (p & Hp & [[[E|E] _]|E]); rewrite (Hps p Hp) in E; discriminate.
Qed.

(** A parameter with a default is followed by such parameters. *)
Definition defaults_last (ps : list param) : Prop :=
  forall i j p q, i < j -> nth_error ps i = Some p -> nth_error ps j = Some q -> p_default p = true -> p_default q = true.

Hypothesis match_complete : forall a b, type_match a b = false -> exists v, fits a v /\ ~ fits b v.
Hypothesis inhabited_types : forall t, exists v, fits t v.

Lemma some_call : forall ps : list param, signature ps -> (forall p, In p ps -> p_kind p = PositionalOnly) -> annotated ps ->
  exists vs, accepts ps (mk_call vs []) /\ length vs = length ps.
Proof.
  induction ps as [|p r IH]; intros Hs Hps Hann.
  - exists []; split; [apply accepts_nil; auto|reflexivity].
  - destruct (IH (signature_tail _ _ _ Hs)) as (vs & Hvs & Hl).
    + intros q Hq; apply Hps; right; exact Hq.
    + intros q Hq; apply Hann; right; exact Hq.
    + destruct (p_type p) as [t|] eqn:E; [|exfalso; exact (Hann p (or_introl eq_refl) E)].
      destruct (inhabited_types t) as (v & Hv). exists (v :: vs). split; [|cbn; rewrite Hl; reflexivity].
      apply accepts_position; [left; apply Hps; left; reflexivity|]. refine (conj _ (conj Hvs (fun n _ Hin => Hin))).
      intros t' Et; rewrite E in Et; injection Et as <-; exact Hv.
Qed.

Lemma callable_exact : forall ps1 ps2 mis1 mis2 prev,
  signature ps1 -> signature ps2 -> (forall p, In p ps1 -> p_kind p = PositionalOnly) -> annotated ps1 -> defaults_last ps1 ->
  (matches_from ps1 ps2 [] mis1 mis2 prev = true <-> forall vs, accepts ps1 (mk_call vs []) -> accepts ps2 (mk_call vs [])).
Proof.
  induction ps1 as [|p1 r1 IH]; intros ps2 mis1 mis2 prev Hs1 Hs2 Hps Hann Hlast.
  - cbn [ParamsModel.matches_from forallb andb]. rewrite forallb_forall. split.
    + intros H vs Hacc. apply accepts_nil in Hacc as [-> _]. apply accepts_kw. split; [intros n v []|].
      intros p Hp [Hv Hd]; exfalso. specialize (H p Hp). rewrite Hd in H. apply Hv, is_variadic_iff; exact H.
    + intros H p Hp. specialize (H [] (proj2 (accepts_nil _ _ _ [] []) (conj eq_refl eq_refl))). apply accepts_kw in H as [_ H].
      destruct (p_default p) eqn:Ed; [reflexivity|]. cbn [orb]. destruct (is_variadic p) eqn:Ev; [reflexivity|].
      destruct (H p Hp) as (n & [] & _). split; [|exact Ed]. intros X. apply is_variadic_iff in X; congruence.
  - pose proof (signature_tail _ _ _ Hs1) as Hs1'.
    assert (Ek : p_kind p1 = PositionalOnly) by (apply Hps; left; reflexivity).
    assert (Hps' : forall p, In p r1 -> p_kind p = PositionalOnly) by (intros p Hp; apply Hps; right; exact Hp).
    assert (Hann' : annotated r1) by (intros p Hp; apply Hann; right; exact Hp).
    assert (Hp1 : p_type p1 <> None) by (apply Hann; left; reflexivity).
    assert (Hlast' : defaults_last r1) by (intros i j p q Hij Hp Hq; exact (Hlast (S i) (S j) p q (proj1 (Nat.succ_lt_mono i j) Hij) Hp Hq)).
    destruct (some_call r1 Hs1' Hps' Hann') as (ws & Hws & _).
    destruct (p_type p1) as [t1|] eqn:Et1; [|congruence]. destruct (inhabited_types t1) as (v1 & Hv1).
    assert (Hok1 : forall v, ok p1 v <-> fits t1 v).
    { intros v; split; [intros X; exact (X t1 Et1)|]. intros X t E; rewrite Et1 in E; injection E as <-; exact X. }
    assert (Hcons : forall v vs, fits t1 v -> accepts r1 (mk_call vs []) -> accepts (p1 :: r1) (mk_call (v :: vs) [])).
    { intros v vs Hv Hvs. apply accepts_position; [left; exact Ek|]. refine (conj (proj2 (Hok1 v) Hv) (conj Hvs (fun n _ Hin => Hin))). }
    assert (Hno1 : forall n, ~ named n p1) by (intros n [[E|E] _]; rewrite Ek in E; discriminate).
    assert (Hempty : accepts (p1 :: r1) (mk_call [] []) -> p_default p1 = true /\ accepts r1 (mk_call [] [])).
    { intros X. apply accepts_kw, kw_skip in X as [A B].
      - split; [exact A|apply accepts_kw; exact B].
      - intros [E|E]; rewrite Ek in E; discriminate.
      - intros n Hn; destruct (Hno1 n Hn). }
    assert (Hfill : p_default p1 = true -> accepts (p1 :: r1) (mk_call [] [])).
    { intros Hd. apply accepts_kw. split; [intros n v []|]. intros p Hp [_ E]. exfalso. apply In_nth_error in Hp as ([|i] & Hp).
      - cbn in Hp; injection Hp as <-; congruence.
      - rewrite (Hlast 0 (S i) p1 p (Nat.lt_0_succ i) eq_refl Hp Hd) in E; discriminate. }
    assert (Hmatch : forall p2, (forall v, fits t1 v -> ok p2 v) <-> matching p1 p2 = true).
    { intros p2; split.
      - intros X. unfold match_, with_variance. rewrite Et1. destruct (p_type p2) as [t2|] eqn:Et2; [|reflexivity].
        destruct (type_match t1 t2) eqn:E; [reflexivity|]. destruct (match_complete t1 t2 E) as (v & A & B).
        exfalso; apply B. exact (X v A t2 Et2).
      - intros X v Hv. apply (match_ok p1 p2 v X); [congruence|exact (proj2 (Hok1 v) Hv)]. }
    cbn [ParamsModel.matches_from]; rewrite app_nil_r, Ek. destruct ps2 as [|p2 r2]; cbn [hd_error tl].
    + rewrite not_trivial.
      * split; [discriminate|]. intros H. specialize (H (v1 :: ws) (Hcons v1 ws Hv1 Hws)). apply accepts_nil in H as [H _]; discriminate.
      * right. intros p Hp [E|E]; rewrite (Hps p Hp) in E; discriminate.
    + pose proof (signature_tail _ _ _ Hs2) as Hs2'.
      assert (Hpair : positional p2 ->
        ((if p_default p1 && negb (p_default p2 || is_variadic p2) then false else matching p1 p2 && matches_from r1 r2 [] mis1 mis2 prev) = true <->
         forall vs, accepts (p1 :: r1) (mk_call vs []) -> accepts (p2 :: r2) (mk_call vs []))).
      { intros Hpos. assert (Hv2 : is_variadic p2 = false).
        { destruct (is_variadic p2) eqn:E; [|reflexivity]. apply is_variadic_iff in E.
          destruct E as [E|E]; destruct Hpos as [E'|E']; rewrite E' in E; discriminate. }
        rewrite Hv2, orb_false_r. specialize (IH r2 mis1 mis2 prev Hs1' Hs2' Hps' Hann' Hlast'). split.
        - intros H vs Hacc. destruct (p_default p1 && negb (p_default p2)) eqn:Edef; [discriminate|].
          apply andb_true_iff in H as [Hm H]. rewrite IH in H. destruct vs as [|v vs].
          + destruct (Hempty Hacc) as [Hd Hacc']. rewrite Hd in Edef; cbn [andb] in Edef. apply negb_false_iff in Edef.
            apply accepts_kw, kw_skip; [intros X; apply is_variadic_iff in X; congruence|intros n _ []|].
            split; [exact Edef|apply accepts_kw, H; exact Hacc'].
          + apply accepts_position in Hacc as (Hv & Hacc' & _); [|left; exact Ek].
            apply accepts_position; [exact Hpos|]. refine (conj _ (conj (H vs Hacc') (fun n _ Hin => Hin))).
            exact (proj2 (Hmatch p2) Hm v (proj1 (Hok1 v) Hv)).
        - intros H.
          assert (Hc : forall v vs, fits t1 v -> accepts r1 (mk_call vs []) -> ok p2 v /\ accepts r2 (mk_call vs [])).
          { intros v vs Hv Hvs. specialize (H (v :: vs) (Hcons v vs Hv Hvs)). apply accepts_position in H as (A & B & _); [auto|exact Hpos]. }
          destruct (p_default p1) eqn:Ed1; cbn [andb].
          + specialize (H [] (Hfill eq_refl)). apply accepts_kw, kw_skip in H as [Hd2 _]; [|intros X; apply is_variadic_iff in X; congruence|intros n _ []].
            rewrite Hd2; cbn [negb]. apply andb_true_iff; split.
            * apply Hmatch. intros v Hv. exact (proj1 (Hc v ws Hv Hws)).
            * apply IH. intros vs Hvs. exact (proj2 (Hc v1 vs Hv1 Hvs)).
          + apply andb_true_iff; split.
            * apply Hmatch. intros v Hv. exact (proj1 (Hc v ws Hv Hws)).
            * apply IH. intros vs Hvs. exact (proj2 (Hc v1 vs Hv1 Hvs)). }
      assert (Hnone : p_kind p2 = KeywordOnly \/ p_kind p2 = StarStar ->
        ~ forall vs, accepts (p1 :: r1) (mk_call vs []) -> accepts (p2 :: r2) (mk_call vs [])).
      { intros Hk H. pose proof (accepts_keyword_only _ _ _ _ _ _ _ Hs2 Hk (H _ (Hcons v1 ws Hv1 Hws))); discriminate. }
      destruct (p_kind p2) eqn:Ek2.
      * apply Hpair; left; exact Ek2.
      * apply Hpair; right; exact Ek2.
      * assert (Ev : is_variadic p2 = true) by (apply is_variadic_iff; left; exact Ek2). rewrite Ev, orb_true_r; cbn [negb]. rewrite andb_false_r.
        specialize (IH (p2 :: r2) mis1 mis2 prev Hs1' Hs2 Hps' Hann' Hlast'). rewrite andb_true_iff, IH. split.
        -- intros [Hm H] vs Hacc. destruct vs as [|v vs]; [apply H; apply Hempty; exact Hacc|].
           apply accepts_position in Hacc as (Hv & Hacc' & _); [|left; exact Ek].
           apply H, (accepts_star _ _ _ _ _ _ _ Hs2 Ek2) in Hacc' as [A B]. apply (accepts_star _ _ _ _ _ _ _ Hs2 Ek2).
           split; [|exact B]. constructor; [|exact A]. exact (proj2 (Hmatch p2) Hm v (proj1 (Hok1 v) Hv)).
        -- intros H.
           assert (Hc : forall v vs, fits t1 v -> accepts r1 (mk_call vs []) -> ok p2 v /\ accepts (p2 :: r2) (mk_call vs [])).
           { intros v vs Hv Hvs. specialize (H (v :: vs) (Hcons v vs Hv Hvs)). apply (accepts_star _ _ _ _ _ _ _ Hs2 Ek2) in H as [A B].
             inversion A as [|? ? A1 A2]; subst. split; [exact A1|]. apply (accepts_star _ _ _ _ _ _ _ Hs2 Ek2); split; assumption. }
           split.
           ++ apply Hmatch. intros v Hv. exact (proj1 (Hc v ws Hv Hws)).
           ++ intros vs Hvs. exact (proj2 (Hc v1 vs Hv1 Hvs)).
      * split; [destruct (_ && _); discriminate|]. intros H; destruct (Hnone (or_introl eq_refl) H).
      * split; [destruct (_ && _); discriminate|]. intros H; destruct (Hnone (or_intror eq_refl) H).
Qed.

End Proofs.

(** ** A function stands for itself *)

Section Reflexive.
Variables (ty : Type) (type_match type_same : ty -> ty -> bool) (is_any : ty -> bool) (precise ignore_names : bool).
Hypothesis match_refl : forall t, type_match t t = true.

Lemma matching_refl : forall p : param ty, match_ type_match p p = true.
Proof. intros p; unfold match_, with_variance. destruct (p_type p) as [t|]; [apply match_refl|reflexivity]. Qed.

Lemma same_name_refl : forall p : param ty, same_name p p = true.
Proof. intros p; unfold same_name. destruct (p_name p); [apply N.eqb_refl|reflexivity]. Qed.

Lemma matches_refl : forall (ps : list (param ty)) prev mis1 mis2, signature ps ->
  matches_from type_match type_same is_any precise ignore_names ps ps [] mis1 mis2 prev = true.
Proof.
  induction ps as [|p r IH]; intros prev mis1 mis2 Hs; [reflexivity|].
  pose proof (signature_tail _ _ _ Hs) as Hs'. cbn [matches_from app hd_error tl].
  assert (Ed : p_default p && negb (p_default p || is_variadic p) = false) by (destruct (p_default p); reflexivity).
  rewrite Ed. destruct (p_kind p) eqn:Ek.
  - rewrite matching_refl. apply IH; exact Hs'.
  - rewrite same_name_refl, matching_refl. apply IH; exact Hs'.
  - rewrite matching_refl. apply IH; exact Hs'.
  - assert (E1 : is_kind Star p = false) by (unfold is_kind; rewrite Ek; reflexivity).
    assert (E2 : is_kind StarStar p = false) by (unfold is_kind; rewrite Ek; reflexivity).
    assert (E3 : by_keyword p = true) by (apply by_keyword_iff; right; exact Ek).
    cbv zeta. rewrite E1, E2. cbn [take_unused find_keyword]. rewrite same_name_refl, E3. cbn [andb].
    rewrite matching_refl. apply IH; exact Hs'.
  - assert (Er : r = []).
    { destruct r as [|x r]; [reflexivity|exfalso].
      pose proof (signature_rank _ _ _ x Hs (or_introl eq_refl)) as Hx; rewrite Ek in Hx; cbn [rank] in Hx.
      apply (signature_variadic _ _ _ x Hs (or_introl eq_refl)); [right; exact Ek|].
      rewrite Ek; destruct (p_kind x); cbn in Hx; try lia; reflexivity. }
    subst r. cbn [match_star_star matches_from forallb]. rewrite Ek, matching_refl. reflexivity.
Qed.

End Reflexive.
