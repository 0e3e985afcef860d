From Coq Require Import String Ascii List Bool Lia Arith Permutation Sorted.
From Verif Require Import OverrideModel OverrideSpec.
Import ListNotations.
Open Scope string_scope.

(** ** Strings *)
Lemma sapp_nil : forall a, a ++ "" = a.
Proof. induction a as [|x a IH]; cbn; [reflexivity|]. now rewrite IH. Qed.

Lemma sapp_assoc : forall a b c, (a ++ b) ++ c = a ++ (b ++ c).
Proof. induction a as [|x a IH]; intros b c; cbn; [reflexivity|]. now rewrite IH. Qed.

Lemma sapp_cases : forall a b c d, a ++ b = c ++ d ->
  (exists e, a = c ++ e /\ d = e ++ b) \/ (exists e, c = a ++ e /\ b = e ++ d).
Proof.
  induction a as [|x a IH]; intros b c d H; cbn in *.
  - right. exists c. auto.
  - destruct c as [|y c]; cbn in *.
    + left. exists (String x a). auto.
    + injection H as -> H. destruct (IH _ _ _ H) as [[e [-> ->]]|[e [-> ->]]].
      * left. exists e. auto.
      * right. exists e. auto.
Qed.

Lemma no_dot_app : forall a b, no_dot (a ++ b) <-> no_dot a /\ no_dot b.
Proof.
  induction a as [|x a IH]; intros b; cbn; [tauto|]. rewrite IH. tauto.
Qed.

Definition dot_or_nil (s : string) : Prop := s = "" \/ exists r, s = "." ++ r.

Fixpoint later (l : list string) : string :=
  match l with [] => "" | c :: r => "." ++ c ++ later r end.

Lemma later_dot : forall l, dot_or_nil (later l).
Proof. destruct l as [|c l]; cbn; [now left|]. right. eexists. reflexivity. Qed.

Lemma dotted_later : forall c l, dotted (c :: l) = c ++ later l.
Proof.
  intros c l. revert c. induction l as [|d l IH]; intros c.
  - cbn. now rewrite sapp_nil.
  - change (dotted (c :: d :: l)) with (c ++ "." ++ dotted (d :: l)). now rewrite IH.
Qed.

Lemma later_app : forall a b, later (a ++ b) = later a ++ later b.
Proof.
  induction a as [|c a IH]; intros b; cbn; [reflexivity|]. now rewrite IH, sapp_assoc.
Qed.

(** Splitting two dot-free heads. *)
Lemma head_eq : forall a b x y, no_dot a -> no_dot b -> dot_or_nil x -> dot_or_nil y ->
  a ++ x = b ++ y -> a = b /\ x = y.
Proof.
  assert (W : forall a b x y, no_dot a -> no_dot b -> dot_or_nil y ->
            (exists e, a = b ++ e /\ y = e ++ x) -> a = b /\ x = y).
  { intros a b x y Ha Hb Hy [e [-> ->]]. destruct e as [|z e].
    - rewrite sapp_nil. auto.
    - exfalso. apply no_dot_app in Ha. destruct Ha as [_ [Hz _]].
      destruct Hy as [Hy|[r Hy]]; cbn in Hy; [discriminate|].
      injection Hy as Hz' _. apply Hz. symmetry. congruence. }
  intros a b x y Ha Hb Hx Hy H. destruct (sapp_cases _ _ _ _ H) as [H1|H1].
  - eapply W; eauto.
  - destruct (W b a y x Hb Ha Hx H1) as [-> ->]. auto.
Qed.

Lemma later_split : forall l w t, Forall no_dot l -> later l = w ++ t -> dot_or_nil w -> dot_or_nil t ->
  exists l1 l2, l = (l1 ++ l2)%list /\ later l1 = w /\ later l2 = t.
Proof.
  induction l as [|c l IH]; intros w t Hl H Hw Ht.
  - destruct w as [|x w]; [|discriminate]. destruct t as [|y t]; [|discriminate].
    exists [], []. auto.
  - inversion Hl as [|? ? Hc Hl']; subst. destruct Hw as [->|[w' ->]].
    + exists [], (c :: l). cbn in H. auto.
    + cbn in H. injection H as H. destruct (sapp_cases _ _ _ _ H) as [[e [E1 E2]]|[e [E1 E2]]].
      * (* c = w' ++ e *)
        destruct e as [|z e].
        -- rewrite sapp_nil in E1. subst w'. cbn in E2. exists [c], l. cbn. rewrite sapp_nil. auto.
        -- exfalso. subst c. apply no_dot_app in Hc. destruct Hc as [_ [Hz _]].
           destruct Ht as [->|[r ->]]; cbn in E2; [discriminate|]. injection E2 as E2 _. auto.
      * (* w' = c ++ e *)
        subst w'. destruct (IH e t Hl' E2) as (l1 & l2 & -> & E3 & E4).
        -- destruct e as [|z e]; [now left|]. right.
           destruct (later_dot l) as [H0|[r H0]]; rewrite H0 in E2; cbn in E2; [discriminate|].
           injection E2 as -> E2. exists e. reflexivity.
        -- exact Ht.
        -- exists (c :: l1), l2. cbn. rewrite E3. auto.
Qed.

(** ** Matching on component lists *)
Inductive seg : list path_part -> list string -> Prop :=
| seg_nil : seg [] []
| seg_part : forall s p l, seg p l -> seg (Part s :: p) (s :: l)
| seg_wild : forall p l1 l2, seg p l2 -> seg (Wildcard :: p) (l1 ++ l2).

Lemma seg_app : forall p1 l1 p2 l2, seg p1 l1 -> seg p2 l2 -> seg (p1 ++ p2) (l1 ++ l2).
Proof.
  intros p1 l1 p2 l2 H. revert p2 l2. induction H as [|s p l H IH|p a b H IH]; intros p2 l2 H2; cbn.
  - exact H2.
  - constructor. auto.
  - rewrite <- app_assoc. constructor. auto.
Qed.

Lemma seg_rev : forall p l, seg p l -> seg (rev p) (rev l).
Proof.
  intros p l H. induction H as [|s p l H IH|p a b H IH]; cbn.
  - constructor.
  - apply seg_app; [exact IH|]. repeat constructor.
  - rewrite rev_app_distr. apply seg_app; [exact IH|].
    rewrite <- (app_nil_r (rev a)). repeat constructor.
Qed.

Definition first_ok (p0 : path_part) (l : list string) : Prop :=
  match p0 with Part s => l = [s] | Wildcard => l <> [] end.

Definition rfull (rp : list path_part) (rc : list string) : Prop :=
  exists rp' p0 rc1 rc2, rp = (rp' ++ [p0])%list /\ rc = (rc1 ++ rc2)%list /\ seg rp' rc1 /\ first_ok p0 rc2.

Lemma rfull_nil_r : forall rp, ~ rfull rp [].
Proof.
  intros rp (rp' & p0 & rc1 & rc2 & -> & E & _ & Hf).
  symmetry in E. apply app_eq_nil in E. destruct E as [_ ->]. destruct p0; cbn in Hf; congruence.
Qed.

Lemma rfull_nil_l : forall rc, ~ rfull [] rc.
Proof.
  intros rc (rp' & p0 & rc1 & rc2 & E & _). symmetry in E. apply app_eq_nil in E. destruct E; discriminate.
Qed.

Lemma rfull_part : forall p rest c rc, rest <> [] ->
  (rfull (Part p :: rest) (c :: rc) <-> c = p /\ rfull rest rc).
Proof.
  intros p rest c rc Hrest. split.
  - intros (rp' & p0 & rc1 & rc2 & E1 & E2 & Hs & Hf).
    destruct rp' as [|q rp'].
    { cbn in E1. injection E1 as E1 E1'. congruence. }
    cbn in E1. injection E1 as E1a E1b. subst q rest. inversion Hs as [|s p' l Hs'|]; subst.
    cbn in E2. injection E2 as E2a E2b. subst. split; [reflexivity|].
    exists rp', p0, l, rc2. auto.
  - intros (-> & rp' & p0 & rc1 & rc2 & -> & -> & Hs & Hf).
    exists (Part p :: rp'), p0, (p :: rc1), rc2. repeat split; auto. constructor. exact Hs.
Qed.

Lemma rfull_wild : forall rest rc, rest <> [] ->
  (rfull (Wildcard :: rest) rc <-> exists a b, rc = (a ++ b)%list /\ rfull rest b).
Proof.
  intros rest rc Hrest. split.
  - intros (rp' & p0 & rc1 & rc2 & E1 & -> & Hs & Hf).
    destruct rp' as [|q rp'].
    { cbn in E1. injection E1 as E1 E1'. congruence. }
    cbn in E1. injection E1 as E1a E1b. subst q rest. inversion Hs as [| |p' a b Hs']; subst.
    exists a, (b ++ rc2)%list. rewrite app_assoc. split; [reflexivity|].
    exists rp', p0, b, rc2. auto.
  - intros (a & b & -> & rp' & p0 & rc1 & rc2 & -> & -> & Hs & Hf).
    exists (Wildcard :: rp'), p0, (a ++ rc1)%list, rc2. rewrite app_assoc. repeat split; auto.
    constructor. exact Hs.
Qed.

Lemma check_spec : forall m re parents name,
  check_wildcard_parents m re name parents = true <->
  re = true \/ exists a n b, (name :: parents = a ++ n :: b)%list /\ m n b = true.
Proof.
  intros m re. induction parents as [|d up IH]; intros name; cbn.
  - destruct (m name []) eqn:E.
    + split; [|auto]. intros _. right. exists [], name, []. auto.
    + split; [auto|]. intros [H|(a & n & b & E2 & H)]; [exact H|].
      destruct a as [|x a]; cbn in E2.
      * injection E2 as -> <-. congruence.
      * injection E2 as _ E2. destruct a; discriminate.
  - destruct (m name (d :: up)) eqn:E.
    + split; [|auto]. intros _. right. exists [], name, (d :: up). auto.
    + rewrite IH. split.
      * intros [H|(a & n & b & E2 & H)]; [auto|]. right. exists (name :: a), n, b. rewrite E2. auto.
      * intros [H|(a & n & b & E2 & H)]; [auto|]. right. destruct a as [|x a]; cbn in E2.
        -- injection E2 as -> <-. congruence.
        -- injection E2 as _ E2. exists a, n, b. auto.
Qed.

Lemma matches_rev_spec : forall rp name parents,
  matches_rev rp name parents = true <-> rfull rp (name :: parents).
Proof.
  induction rp as [|p rest IH]; intros name parents.
  - cbn. split; [discriminate|]. intros H. now apply rfull_nil_l in H.
  - destruct p as [p|].
    + cbn [matches_rev]. rewrite andb_true_iff, String.eqb_eq.
      destruct rest as [|q rest].
      * assert (W : rfull [Part p] (name :: parents) <-> name = p /\ parents = []).
        { split.
          - intros (rp' & p0 & rc1 & rc2 & E1 & E2 & Hs & Hf).
            destruct rp' as [|x [|y rp']]; cbn in E1; try discriminate.
            injection E1 as <-. inversion Hs; subst. cbn in Hf. subst rc2. cbn in E2.
            injection E2 as -> ->. auto.
          - intros [-> ->]. exists [], (Part p), [], [p]. repeat split; auto. constructor. }
        rewrite W. destruct parents as [|d up]; cbn; intuition (auto; congruence).
      * rewrite rfull_part by discriminate. destruct parents as [|d up].
        -- split; [intros [_ H]; discriminate|]. intros [_ H]. now apply rfull_nil_r in H.
        -- rewrite IH. tauto.
    + cbn [matches_rev]. rewrite check_spec. destruct rest as [|q rest].
      * split; [|auto]. intros _. exists [], Wildcard, [], (name :: parents).
        repeat split; [constructor|]. cbn. discriminate.
      * rewrite rfull_wild by discriminate. split.
        -- intros [H|(a & n & b & E & H)]; [discriminate|]. apply IH in H. exists a, (n :: b). auto.
        -- intros (a & b & E & H). right. destruct b as [|n b]; [now apply rfull_nil_r in H|].
           exists a, n, b. split; [exact E|]. now apply IH.
Qed.

(** Forward form. *)
Definition full (p : list path_part) (l : list string) : Prop :=
  exists p0 p' l1 l2, p = p0 :: p' /\ l = (l1 ++ l2)%list /\ first_ok p0 l1 /\ seg p' l2.

Lemma first_ok_rev : forall p0 l, first_ok p0 l -> first_ok p0 (rev l).
Proof.
  intros [s|] l; cbn.
  - intros ->. reflexivity.
  - intros H E. apply H. rewrite <- (rev_involutive l), E. reflexivity.
Qed.

Lemma rfull_full : forall p l, rfull (rev p) (rev l) <-> full p l.
Proof.
  intros p l. split.
  - intros (rp' & p0 & rc1 & rc2 & E1 & E2 & Hs & Hf).
    exists p0, (rev rp'), (rev rc2), (rev rc1).
    repeat split.
    + rewrite <- (rev_involutive p), E1, rev_app_distr. reflexivity.
    + rewrite <- (rev_involutive l), E2, rev_app_distr. reflexivity.
    + now apply first_ok_rev.
    + now apply seg_rev.
  - intros (p0 & p' & l1 & l2 & -> & -> & Hf & Hs).
    exists (rev p'), p0, (rev l2), (rev l1). cbn. rewrite rev_app_distr. repeat split.
    + now apply seg_rev.
    + now apply first_ok_rev.
Qed.

(** ** Regular expressions *)
Lemma later_re_dot : forall c s, denotes (later_re c) s -> dot_or_nil s.
Proof.
  intros c s. unfold later_re. destruct (String.eqb c "*").
  - intros H. inversion H as [| | | |r s' H'|]; subst; [now left|].
    inversion H' as [| | | | |r1 r2 s1 s2 H1 H2]; subst. inversion H1; subst. right. eexists. reflexivity.
  - intros H. inversion H as [| | | | |r1 r2 s1 s2 H1 H2]; subst. inversion H1; subst.
    right. eexists. reflexivity.
Qed.

Lemma later_res_dot : forall cs s, denotes (later_res cs) s -> dot_or_nil s.
Proof.
  induction cs as [|c cs IH]; cbn; intros s H.
  - inversion H; subst. now left.
  - inversion H as [| | | | |r1 r2 s1 s2 H1 H2]; subst. apply later_re_dot in H1.
    destruct H1 as [->|[r ->]]; [now apply IH|]. right. exists (r ++ s2). reflexivity.
Qed.

Lemma seg_denotes : forall cs l, seg (map to_part cs) l -> denotes (later_res cs) (later l).
Proof.
  induction cs as [|c cs IH]; cbn; intros l H.
  - inversion H; subst. constructor.
  - unfold to_part in H. unfold later_re. destruct (String.eqb c "*") eqn:E.
    + inversion H as [| |p l1 l2 H']; subst. rewrite later_app. constructor; [|auto].
      destruct l1 as [|x l1]; [constructor|]. apply d_opt_some.
      cbn [later]. constructor; constructor.
    + inversion H as [|s p l' H'|]; subst. cbn [later]. rewrite <- sapp_assoc.
      constructor; [|auto]. constructor; constructor.
Qed.

Lemma denotes_seg : forall cs, Forall no_dot cs -> forall l, Forall no_dot l ->
  denotes (later_res cs) (later l) -> seg (map to_part cs) l.
Proof.
  induction cs as [|c cs IH]; cbn; intros Hcs l Hl H.
  - inversion H as [E|s E|s E|r E|r s H' E|]; subst. destruct l; [constructor|discriminate].
  - inversion Hcs as [|? ? Hc Hcs']; subst.
    inversion H as [| | | | |r1 r2 s1 s2 H1 H2 Er E]; subst.
    pose proof (later_re_dot _ _ H1) as D1. pose proof (later_res_dot _ _ H2) as D2.
    unfold later_re in H1. unfold to_part. destruct (String.eqb c "*") eqn:Ec.
    + destruct (later_split l s1 s2 Hl (eq_sym E) D1 D2) as (l1 & l2 & -> & E3 & E4).
      constructor. apply IH; auto.
      * apply Forall_app in Hl. tauto.
      * now rewrite E4.
    + inversion H1 as [| | | | |r1 r2 t1 t2 H3 H4]; subst. inversion H3; subst.
      assert (Et : t2 = c) by (inversion H4; reflexivity). subst t2.
      destruct l as [|d l]; [discriminate|]. cbn in E. injection E as E.
      inversion Hl as [|? ? Hd Hl']; subst.
      destruct (head_eq c d s2 (later l) Hc Hd D2 (later_dot l) E) as [-> ->].
      constructor. now apply IH.
Qed.

Lemma dotted_nonnil : forall l1 l2, l1 <> [] -> dotted (l1 ++ l2) = dotted l1 ++ later l2.
Proof.
  intros [|c l1] l2 H; [congruence|]. cbn [app]. rewrite !dotted_later, later_app, sapp_assoc. reflexivity.
Qed.

Lemma full_denotes : forall cs l, Forall no_dot cs -> Forall no_dot l -> l <> [] ->
  (full (map to_part cs) l <-> cs <> [] /\ denotes (compile_glob cs) (dotted l)).
Proof.
  intros cs l Hcs Hl Hne. split.
  - intros (p0 & p' & l1 & l2 & E & -> & Hf & Hs).
    destruct cs as [|c cs]; [discriminate|]. cbn in E. injection E as <- <-. split; [discriminate|].
    cbn [compile_glob].
    assert (Hn1 : l1 <> []).
    { unfold to_part in Hf. destruct (String.eqb c "*"); cbn in Hf; [exact Hf|]. subst. discriminate. }
    rewrite dotted_nonnil by exact Hn1. constructor; [|now apply seg_denotes].
    unfold first_re, to_part in *. destruct (String.eqb c "*"); cbn in Hf; [constructor|].
    subst l1. cbn. constructor.
  - intros [Hcs0 H]. destruct cs as [|c cs]; [congruence|]. clear Hcs0. cbn [compile_glob] in H.
    inversion Hcs as [|? ? Hc Hcs']; subst.
    inversion H as [| | | | |r1 r2 s1 s2 H1 H2 Er E]; subst. clear H.
    destruct l as [|d l]; [congruence|]. clear Hne. rewrite dotted_later in E.
    inversion Hl as [|? ? Hd Hl']; subst.
    pose proof (later_res_dot _ _ H2) as D2.
    exists (to_part c), (map to_part cs). unfold first_re in H1.
    destruct (String.eqb c "*") eqn:Ec.
    + assert (Htp : to_part c = Wildcard) by (unfold to_part; now rewrite Ec).
      (* the whole is s1 ++ s2 with s2 empty or starting with a dot *)
      destruct (sapp_cases _ _ _ _ E) as [[e [E1 E2]]|[e [E1 E2]]].
      * (* s1 = d ++ e *)
        assert (De : dot_or_nil e).
        { destruct e as [|z e]; [now left|]. right.
          destruct (later_dot l) as [H0|[r H0]]; rewrite H0 in E2; cbn in E2; [discriminate|].
          injection E2 as -> E2. exists e. reflexivity. }
        destruct (later_split l e s2 Hl' E2 De D2) as (l1 & l2 & -> & E3 & E4).
        exists (d :: l1), l2. split; [reflexivity|]. split; [reflexivity|].
        split; [rewrite Htp; cbn; discriminate|]. apply denotes_seg; auto.
        -- apply Forall_app in Hl'. tauto.
        -- now rewrite E4.
      * (* d = s1 ++ e *)
        destruct e as [|z e].
        -- cbn in E2. subst s2. exists [d], l. split; [reflexivity|]. split; [reflexivity|].
           split; [rewrite Htp; cbn; discriminate|]. apply denotes_seg; auto.
        -- exfalso. subst d. apply no_dot_app in Hd. destruct Hd as [_ [Hz _]].
           destruct D2 as [->|[r ->]]; cbn in E2; [discriminate|]. injection E2 as E2 _. auto.
    + assert (Et : s1 = c) by (inversion H1; reflexivity). subst s1.
      destruct (head_eq _ _ _ _ Hc Hd D2 (later_dot l) E) as [-> ->].
      exists [d], l. split; [reflexivity|]. split; [reflexivity|].
      split; [unfold to_part; rewrite Ec; reflexivity|]. apply denotes_seg; auto.
Qed.

(** ** Splitting the pattern text *)
Lemma split_on_dotted : forall s, dotted (split_on "." s) = s /\ Forall no_dot (split_on "." s) /\ split_on "." s <> [].
Proof.
  induction s as [|x s [IH1 [IH2 IH3]]].
  - cbn. split; [reflexivity|]. split; [|discriminate]. repeat constructor.
  - cbn [split_on]. destruct (Ascii.eqb_spec x ".") as [->|Hx].
    + destruct (split_on "." s) as [|p ps] eqn:E; [congruence|]. split; [|split].
      * change (dotted ("" :: p :: ps)) with ("." ++ dotted (p :: ps)). rewrite IH1. reflexivity.
      * constructor; [exact I|exact IH2].
      * discriminate.
    + destruct (split_on "." s) as [|p ps] eqn:E; [congruence|]. split; [|split].
      * rewrite dotted_later in *. cbn. now rewrite IH1.
      * inversion IH2; subst. constructor; [|assumption]. cbn. auto.
      * discriminate.
Qed.

Lemma split_on_of_dotted : forall cs, Forall no_dot cs -> cs <> [] -> split_on "." (dotted cs) = cs.
Proof.
  assert (W : forall c t, no_dot c -> split_on "." (c ++ "." ++ t) = c :: split_on "." t).
  { induction c as [|x c IH]; intros t H; cbn [append split_on].
    - reflexivity.
    - destruct H as [Hx Hc]. cbn [append split_on] in *. destruct (Ascii.eqb_spec x "."); [contradiction|].
      cbn [append] in IH. rewrite IH by exact Hc. reflexivity. }
  assert (W1 : forall c, no_dot c -> split_on "." c = [c]).
  { induction c as [|x c IH]; intros H; cbn; [reflexivity|]. destruct H as [Hx Hc].
    destruct (Ascii.eqb_spec x "."); [contradiction|]. now rewrite IH. }
  induction cs as [|c cs IH]; intros H Hn; [congruence|]. inversion H; subst.
  destruct cs as [|d cs]; [now apply W1|].
  change (dotted (c :: d :: cs)) with (c ++ "." ++ dotted (d :: cs)).
  rewrite W by assumption. rewrite IH; [reflexivity|assumption|discriminate].
Qed.

Lemma matches_iff : forall pat name parents,
  Forall no_dot (name :: parents) ->
  (matches_file_path (parse_override pat) name parents = true <->
   denotes (compile_glob (split_on "." pat)) (dotted (rev (name :: parents)))).
Proof.
  intros pat name parents Hn. unfold matches_file_path.
  assert (Hp : o_path (parse_override pat) = map to_part (split_on "." pat)).
  { unfold parse_override. destruct (star_flags _ _ _). reflexivity. }
  rewrite Hp, matches_rev_spec, <- (rev_involutive (name :: parents)), rfull_full, rev_involutive.
  destruct (split_on_dotted pat) as (_ & Hd & Hne).
  rewrite full_denotes.
  - tauto.
  - exact Hd.
  - apply Forall_rev. exact Hn.
  - cbn. intros E. apply app_eq_nil in E. destruct E; discriminate.
Qed.

(** ** Kinds and ranks *)
Definition kind_rank (k : override_kind) : nat :=
  match k with WellStructured => 0 | Unstructured => 1 | ModuleName => 2 end.

Lemma kind_leb_rank : forall a b, kind_leb a b = (kind_rank a <=? kind_rank b)%nat.
Proof. intros [] []; reflexivity. Qed.

Lemma star_flags_spec : forall cs hs hn,
  star_flags (map to_part cs) hs hn =
  (hs || has_star cs,
   hn || star_before_name cs || (hs && existsb (fun d => negb (String.eqb "*" d)) cs)).
Proof.
  assert (EQ : forall a, String.eqb a "*" = String.eqb "*" a) by (intros; apply String.eqb_sym).
  induction cs as [|c cs IH]; intros hs hn; cbn [map star_flags has_star existsb star_before_name].
  - destruct hs, hn; reflexivity.
  - unfold to_part at 1. rewrite EQ. destruct (String.eqb "*" c).
    + cbn [star_flags]. rewrite IH. unfold has_star. cbn. f_equal.
      * destruct hs; reflexivity.
      * destruct hn, hs; cbn; auto; destruct (star_before_name cs), (existsb _ cs); reflexivity.
    + cbn [star_flags]. rewrite IH. unfold has_star. cbn. f_equal.
      destruct hn, hs; cbn; rewrite ?orb_true_r, ?orb_false_r; reflexivity.
Qed.

Lemma kind_is_rank : forall pat, kind_rank (o_kind (parse_override pat)) = rank (split_on "." pat).
Proof.
  intros pat. unfold parse_override, rank. rewrite star_flags_spec. cbn.
  rewrite orb_false_r. destruct (star_before_name (split_on "." pat)), (has_star (split_on "." pat)); reflexivity.
Qed.

(** ** Order of sections *)
Definition srank (s : section) : nat := kind_rank (o_kind (s_module s)).

Lemma insert_perm : forall s l, Permutation (s :: l) (insert_by_kind s l).
Proof.
  induction l as [|t l IH]; cbn; [reflexivity|]. destruct (kind_leb _ _); [reflexivity|].
  rewrite perm_swap. now constructor.
Qed.

Lemma order_perm : forall l, Permutation l (order_overrides_for_priority l).
Proof.
  induction l as [|s l IH]; cbn; [reflexivity|]. rewrite <- insert_perm. now constructor.
Qed.

Lemma insert_sorted : forall s l, StronglySorted (fun a b => srank a <= srank b) l ->
  StronglySorted (fun a b => srank a <= srank b) (insert_by_kind s l).
Proof.
  induction l as [|t l IH]; intros H; cbn.
  - repeat constructor.
  - rewrite kind_leb_rank. fold (srank s) (srank t). destruct (Nat.leb_spec (srank s) (srank t)) as [Hle|Hlt].
    + constructor; [exact H|]. constructor; [exact Hle|].
      inversion H as [|? ? _ Hf]; subst. eapply Forall_impl; [|exact Hf]. cbn. lia.
    + inversion H as [|? ? Hs Hf]; subst. constructor; [now apply IH|].
      apply (Permutation_Forall (insert_perm s l)). constructor; [lia|exact Hf].
Qed.

Lemma order_sorted : forall l, StronglySorted (fun a b => srank a <= srank b) (order_overrides_for_priority l).
Proof. induction l as [|s l IH]; cbn; [constructor|]. now apply insert_sorted. Qed.

(** The sections after [s] in the final order: those of higher rank, and later ones of the same rank. *)
Lemma insert_decomp_new : forall s l, StronglySorted (fun a b => srank a <= srank b) l ->
  exists l1 l2, insert_by_kind s l = (l1 ++ s :: l2)%list /\ l = (l1 ++ l2)%list /\
    forall t, In t l1 -> srank t < srank s.
Proof.
  induction l as [|t l IH]; intros H; cbn.
  - exists [], []. repeat split. intros t [].
  - rewrite kind_leb_rank. fold (srank s) (srank t). destruct (Nat.leb_spec (srank s) (srank t)) as [Hle|Hlt].
    + exists [], (t :: l). repeat split. intros u [].
    + inversion H as [|? ? Hs Hf]; subst. destruct (IH Hs) as (l1 & l2 & E1 & E2 & Hl1).
      exists (t :: l1), l2. cbn. rewrite E1, <- E2. repeat split. intros u [<-|Hu]; [exact Hlt|auto].
Qed.

Lemma order_decomp : forall before s after,
  exists l1 l2, order_overrides_for_priority (before ++ s :: after) = (l1 ++ s :: l2)%list /\
    (forall t, In t l2 -> (In t after /\ srank s <= srank t) \/ (In t before /\ srank s < srank t)).
Proof.
  induction before as [|b before IH]; intros s after; cbn [app].
  - change (order_overrides_for_priority (s :: after)) with (insert_by_kind s (order_overrides_for_priority after)).
    destruct (insert_decomp_new s (order_overrides_for_priority after) (order_sorted after)) as (l1 & l2 & E1 & E2 & _).
    exists l1, l2. split; [exact E1|]. intros t Ht. left. split.
    + apply (Permutation_in (l := order_overrides_for_priority after)).
      * symmetry. apply order_perm.
      * rewrite E2. apply in_or_app. auto.
    + pose proof (order_sorted (s :: after)) as H0.
      change (order_overrides_for_priority (s :: after)) with (insert_by_kind s (order_overrides_for_priority after)) in H0.
      rewrite E1 in H0. clear - H0 Ht. induction l1 as [|x l1 IH]; cbn in H0.
      * inversion H0 as [|? ? _ Hf]; subst. rewrite Forall_forall in Hf. auto.
      * inversion H0; subst. auto.
  - change (order_overrides_for_priority (b :: before ++ s :: after))
      with (insert_by_kind b (order_overrides_for_priority (before ++ s :: after))).
    destruct (IH s after) as (l1 & l2 & E & Hl2). rewrite E.
    assert (W : exists k1 k2, insert_by_kind b (l1 ++ s :: l2) = (k1 ++ s :: k2)%list /\
              (k2 = l2 \/ (srank s < srank b /\ forall t, In t k2 -> t = b \/ In t l2))).
    { clear. induction l1 as [|x l1 IH]; cbn.
      - rewrite kind_leb_rank. fold (srank b) (srank s). destruct (Nat.leb_spec (srank b) (srank s)).
        + exists [b], l2. auto.
        + exists [], (insert_by_kind b l2). split; [reflexivity|]. right. split; [assumption|].
          intros t Ht. apply (Permutation_in (l' := b :: l2)) in Ht; [|symmetry; apply insert_perm].
          destruct Ht as [<-|Ht]; auto.
      - destruct (kind_leb _ _).
        + exists (b :: x :: l1), l2. auto.
        + destruct IH as (k1 & k2 & -> & H). exists (x :: k1), k2. auto. }
    destruct W as (k1 & k2 & -> & Hk). exists k1, k2. split; [reflexivity|]. intros t Ht.
    destruct Hk as [->|[Hsb Hk]].
    + destruct (Hl2 _ Ht) as [H0|[H0 H1]]; [auto|]. right. split; [right|]; assumption.
    + destruct (Hk _ Ht) as [->|Ht'].
      * right. split; [now left|exact Hsb].
      * destruct (Hl2 _ Ht') as [H0|[H0 H1]]; [auto|]. right. split; [right|]; assumption.
Qed.

Lemma apply_overrides_app : forall l1 l2 n ps f,
  apply_overrides (l1 ++ l2) n ps f =
  match apply_overrides l1 n ps f with Some f' => apply_overrides l2 n ps f' | None => None end.
Proof.
  induction l1 as [|s l1 IH]; intros l2 n ps f; cbn; [reflexivity|].
  destruct (matches_file_path _ _ _); [|apply IH]. destruct (apply_to_flags s f); [apply IH|reflexivity].
Qed.

(** ** Option names *)
Lemma strip_prefix_app : forall p s, strip_prefix p (p ++ s) = Some s.
Proof. induction p as [|a p IH]; intros s; cbn; [reflexivity|]. now rewrite Ascii.eqb_refl. Qed.

Lemma strip_prefix_some : forall p s r, strip_prefix p s = Some r -> s = p ++ r.
Proof.
  induction p as [|a p IH]; intros s r H; cbn in *; [congruence|].
  destruct s as [|b s]; [discriminate|]. destruct (Ascii.eqb_spec a b); [|discriminate]. subst.
  now rewrite (IH _ _ H).
Qed.

Lemma find_arm_in : forall name l a, find_arm name l = Some a -> In (name, a) l.
Proof.
  induction l as [|[n a'] l IH]; cbn; intros a H; [discriminate|].
  destruct (String.eqb_spec name n) as [->|]; [left; congruence|right; auto].
Qed.

Lemma find_arm_no : forall x, find_arm ("no_" ++ x) arms = None.
Proof.
  intros x. destruct (find_arm ("no_" ++ x) arms) as [a|] eqn:E; [|reflexivity].
  exfalso. apply find_arm_in in E.
  assert (W : forallb (fun p => match strip_prefix "no_" (fst p) with Some _ => false | None => true end) arms = true)
    by reflexivity.
  rewrite forallb_forall in W. apply W in E. cbn [fst] in E. rewrite strip_prefix_app in E. discriminate.
Qed.

Lemma as_bool_invert : forall v b, as_bool v false = Some b -> as_bool v true = Some (negb b).
Proof.
  intros v b. unfold as_bool. destruct (match v with T_bool _ => _ | _ => _ end) as [r|]; [|discriminate].
  rewrite xorb_false_r, xorb_true_r. congruence.
Qed.
