(** The order of what is found, and the enums made by a call. *)
From Coq Require Import Ascii String List Bool NArith Lia PeanoNat Permutation.
From Verif Require Import EnumModel EnumSpec Enum EnumRun.
Import ListNotations.
Open Scope list_scope.

Lemma gather_nodup : forall minor d, NoDup (map fst (gather minor [] d)).
Proof.
  intros minor d. induction d as [| s d IH] using rev_ind; [constructor |].
  rewrite gather_snoc, map_app. destruct (excluded (name_of s) || bound d (name_of s)) eqn:E.
  - rewrite app_nil_r. exact IH.
  - apply orb_false_iff in E. destruct E as [_ E]. cbn [map fst].
    apply (Permutation_NoDup (Permutation_cons_append _ _)).
    constructor; [| exact IH]. apply unbound_not_found. exact E.
Qed.

Lemma nodup_same : forall (g : list (name * verdict)) n v w, NoDup (map fst g) -> In (n, v) g -> In (n, w) g -> v = w.
Proof.
  induction g as [| [m u] g IH]; intros n v w Hd H1 H2; [destruct H1 |].
  cbn [map fst] in Hd. inversion Hd as [| x l Hnin Hd' E]. subst.
  destruct H1 as [H1 | H1], H2 as [H2 | H2].
  - congruence.
  - injection H1 as -> ->. exfalso. apply Hnin. apply in_map_iff. exists (n, w). split; [reflexivity | exact H2].
  - injection H2 as -> ->. exfalso. apply Hnin. apply in_map_iff. exists (n, v). split; [reflexivity | exact H1].
  - apply (IH n v w Hd' H1 H2).
Qed.

(** An alias comes behind its member. *)
Lemma gather_order : forall minor d g1 k m g2,
  gather minor [] d = g1 ++ (k, IsAlias m) :: g2 -> excluded m = false -> In m (map fst g1).
Proof.
  intros minor d. induction d as [| s d IH] using rev_ind; intros g1 k m g2 H Hx.
  - destruct g1; discriminate.
  - rewrite gather_snoc in H. destruct (excluded (name_of s) || bound d (name_of s)) eqn:E.
    + rewrite app_nil_r in H. apply (IH g1 k m g2 H Hx).
    + destruct g2 as [| x g2 _] using rev_ind.
      * apply app_inj_tail in H. destruct H as [H1 H2]. injection H2 as _ H2.
        subst g1. apply gather_complete; [exact Hx |].
        assert (Hin : In (name_of s, IsAlias m) (gather minor [] (d ++ [s]))).
        { rewrite gather_snoc, E, H2. apply in_or_app. right. left. reflexivity. }
        clear IH. destruct s as [n e | n | n ds v | n ds v | n o | ns]; cbn [judge] in H2; try discriminate.
        -- destruct e as [v | c e | t | o]; cbn [assignment] in H2; try discriminate.
           ++ destruct (knows_nonmember minor); [destruct c |]; discriminate.
           ++ destruct (bound d t) eqn:Hb; [| discriminate]. injection H2 as ->. exact Hb.
        -- destruct (decorated_with_member minor ds); discriminate.
        -- destruct (decorated_with_nonmember minor ds); discriminate.
      * rewrite app_comm_cons, app_assoc in H. apply app_inj_tail in H. destruct H as [H _].
        apply (IH g1 k m g2 H Hx).
Qed.

(** ** What is made, and the first of its values *)
Section Made.
Variable made : list (name * object).
Variable lk : name -> option name.
Hypothesis once : NoDup (map fst made).
Hypothesis placed : forall p q k o, made = p ++ (k, o) :: q ->
  exists m, lk k = Some m /\ lk m = Some m /\ (m = k \/ In (m, o) p).
Hypothesis differ : forall k m o, In (k, o) made -> In (m, o) made -> lk k = Some k -> lk m = Some m -> k = m.

Definition itself (n : name) : bool := match lk n with Some m => same m n | None => false end.

Lemma representative : forall p q k o, made = p ++ (k, o) :: q ->
  exists m, lk k = Some m /\ lk m = Some m /\ In (m, o) (p ++ [(k, o)]).
Proof.
  intros p q k o E. destruct (placed p q k o E) as (m & H1 & H2 & H3). exists m. split; [exact H1 |]. split; [exact H2 |].
  apply in_or_app. destruct H3 as [-> | H3]; [right; left; reflexivity | left; exact H3].
Qed.

Lemma iterated_from : forall q p seen, made = p ++ q ->
  (forall o, In o seen <-> In o (map snd p)) ->
  members_from seen q = filter itself (map fst q).
Proof.
  induction q as [| [k o] q IH]; intros p seen E Hseen; [reflexivity |].
  cbn [members_from map fst filter].
  destruct (placed p q k o E) as (m & Hk & Hm & Hor).
  assert (E' : made = (p ++ [(k, o)]) ++ q) by (rewrite <- app_assoc; exact E).
  destruct (existsb (fun s => if object_dec s o then true else false) seen) eqn:Hex.
  - apply existsb_exists in Hex. destruct Hex as (o' & Hin & Ho). destruct (object_dec o' o) as [-> |]; [| discriminate].
    assert (Hno : itself k = false).
    { unfold itself. rewrite Hk. apply same_false. intros ->. apply Hseen in Hin. apply in_map_iff in Hin.
      destruct Hin as ([j o'] & <- & Hin). cbn [snd] in *. apply in_split in Hin. destruct Hin as (p1 & p2 & Ep).
      assert (Ej : made = p1 ++ (j, o') :: (p2 ++ (k, o') :: q)).
      { rewrite E, Ep, <- app_assoc. reflexivity. }
      destruct (representative p1 _ j o' Ej) as (r & H1 & H2 & H3).
      assert (Hr : In (r, o') p).
      { rewrite Ep. apply in_or_app. apply in_app_or in H3. destruct H3 as [H3 | [H3 | []]]; [left; exact H3 | right; left; exact H3]. }
      assert (r = k).
      { apply (differ r k o'); [rewrite E; apply in_or_app; left; exact Hr | rewrite E; apply in_or_app; right; left; reflexivity | exact H2 | exact Hk]. }
      subst r. pose proof once as Hd. rewrite E, map_app in Hd. cbn [map fst] in Hd. apply NoDup_remove_2 in Hd. apply Hd.
      apply in_or_app. left. apply in_map_iff. exists (k, o'). split; [reflexivity | exact Hr]. }
    rewrite Hno. apply (IH (p ++ [(k, o)]) seen E').
    intro x. rewrite map_app, in_app_iff. cbn [map snd In]. rewrite (Hseen x). split; [intro H; left; exact H |].
    intros [H | [<- | []]]; [exact H | apply Hseen; exact Hin].
  - assert (Hyes : itself k = true).
    { unfold itself. rewrite Hk. apply same_iff. destruct Hor as [-> | Hin]; [reflexivity |]. exfalso.
      assert (Ht : existsb (fun s => if object_dec s o then true else false) seen = true).
      { apply existsb_exists. exists o. split; [apply Hseen; apply in_map_iff; exists (m, o); split; [reflexivity | exact Hin] |].
        destruct (object_dec o o); congruence. }
      congruence. }
    rewrite Hyes. f_equal. apply (IH (p ++ [(k, o)]) (o :: seen) E').
    intro x. rewrite map_app, in_app_iff. cbn [map snd In]. rewrite (Hseen x).
    split; [intros [H | H] | intros [H | [H | []]]]; auto.
Qed.

Lemma find_first : forall (f : name * object -> bool) l x, find f l = Some x ->
  exists p q, l = p ++ x :: q /\ f x = true /\ forall y, In y p -> f y = false.
Proof.
  intros f l. induction l as [| y l IH]; intros x H; [discriminate |]. cbn [find] in H. destruct (f y) eqn:E.
  - injection H as <-. exists [], l. split; [reflexivity |]. split; [exact E | intros z []].
  - destruct (IH x H) as (p & q & -> & Hf & Hp). exists (y :: p), q. split; [reflexivity |]. split; [exact Hf |].
    intros z [<- | Hz]; [exact E | apply Hp; exact Hz].
Qed.

Lemma attribute_found : forall n, In n (map fst made) -> attribute made n = lk n.
Proof.
  intros n Hn. unfold attribute. destruct (find (fun x => same (fst x) n) made) as [[k o] |] eqn:Hf.
  2: { exfalso. apply in_map_iff in Hn. destruct Hn as (x & Hx & Hin). apply (find_none _ _ Hf) in Hin.
       apply same_false in Hin. congruence. }
  apply find_some in Hf. destruct Hf as [Hin Hs]. cbn [fst] in Hs. apply same_iff in Hs. subst k. cbn [snd].
  unfold member_for. destruct (find (fun x => if object_dec (snd x) o then true else false) made) as [[j o'] |] eqn:Hf.
  2: { exfalso. apply (find_none _ _ Hf) in Hin. cbn [snd] in Hin. destruct (object_dec o o); congruence. }
  apply find_first in Hf. destruct Hf as (p & q & E & Ho & Hp). cbn [snd] in Ho.
  destruct (object_dec o' o) as [-> |]; [| discriminate]. cbn [option_map fst].
  destruct (placed p q j o E) as (m & Hj & Hm & Hor).
  destruct Hor as [-> | Hmp]; [| apply Hp in Hmp; cbn [snd] in Hmp; destruct (object_dec o o); congruence].
  apply in_split in Hin. destruct Hin as (p1 & p2 & E1).
  destruct (representative p1 p2 n o E1) as (r & H1 & H2 & H3). rewrite H1. f_equal.
  apply (differ j r o); [rewrite E; apply in_or_app; right; left; reflexivity | | exact Hj | exact H2].
  rewrite E1. apply in_or_app. apply in_app_or in H3. destruct H3 as [H3 | [H3 | []]]; [left; exact H3 | right; left; exact H3].
Qed.

Lemma attribute_missing : forall n, ~ In n (map fst made) -> attribute made n = None.
Proof.
  intros n Hn. unfold attribute. destruct (find (fun x => same (fst x) n) made) as [[k o] |] eqn:Hf; [| reflexivity].
  exfalso. apply find_some in Hf. destruct Hf as [Hin Hs]. cbn [fst] in Hs. apply same_iff in Hs. subst k. apply Hn.
  apply in_map_iff. exists (n, o). split; [reflexivity | exact Hin].
Qed.
End Made.

(** ** The words of a string *)

Definition split_from (part s : name) : list name := filter (fun w => match w with [] => false | _ => true end) (split part s).

Lemma slices_names : forall parts start,
  map fst (slices start parts) = filter (fun w => match w with [] => false | _ => true end) parts.
Proof.
  induction parts as [| [| c w] parts IH]; intro start; cbn [slices filter map fst]; [reflexivity | apply IH |].
  rewrite IH. reflexivity.
Qed.

Lemma split_words : forall s part,
  forallb (fun c => negb (separates c)) part = true ->
  words separates (rev part ++ s) (split_from part s).
Proof.
  assert (Hrev : forall part, forallb (fun c => negb (separates c)) part = true ->
                 forallb (fun c => negb (separates c)) (rev part) = true).
  { intros part H. apply forallb_forall. intros c Hc. apply in_rev in Hc. apply (proj1 (forallb_forall _ _) H c Hc). }
  induction s as [| c s IH]; intros part Hp.
  - rewrite app_nil_r. unfold split_from. cbn [split filter]. destruct (rev part) as [| x l] eqn:E.
    + apply Words_end. reflexivity.
    + rewrite <- (app_nil_r (x :: l)) at 1. apply (Words_word separates [] (x :: l) []); try reflexivity; try discriminate.
      * rewrite <- E. apply Hrev. exact Hp.
      * apply Words_end. reflexivity.
  - unfold split_from. cbn [split]. destruct (separates c) eqn:Hc.
    + cbn [filter]. fold (split_from [] s). specialize (IH [] eq_refl). cbn [rev app] in IH.
      assert (Hw : words separates (c :: s) (split_from [] s)).
      { inversion IH as [gap Hg Es Ew | gap w rest ws Hg Hne Hw Hr Hrest Es Ew].
        - apply (Words_end separates (c :: s)). cbn [forallb]. rewrite Hc. exact Hg.
        - apply (Words_word separates (c :: gap) w rest ws); try assumption. cbn [forallb]. rewrite Hc. exact Hg. }
      destruct (rev part) as [| x l] eqn:E; [exact Hw |].
      apply (Words_word separates [] (x :: l) (c :: s)); try reflexivity; try discriminate.
      * rewrite <- E. apply Hrev. exact Hp.
      * exact Hc.
      * exact Hw.
    + fold (split_from (c :: part) s). replace (rev part ++ c :: s) with (rev (c :: part) ++ s) by (cbn [rev]; rewrite <- app_assoc; reflexivity).
      apply IH. cbn [forallb]. rewrite Hc, Hp. reflexivity.
Qed.

Lemma words_same : forall (f g : ascii -> bool) s ws, (forall c, In c s -> f c = g c) -> words f s ws -> words g s ws.
Proof.
  intros f g s ws Hfg H. induction H as [gap Hg | gap w rest ws Hg Hne Hw Hr Hrest IH].
  - apply Words_end. apply forallb_forall. intros c Hc. rewrite <- Hfg by exact Hc. apply (proj1 (forallb_forall _ _) Hg c Hc).
  - apply Words_word.
    + apply forallb_forall. intros c Hc. rewrite <- Hfg by (apply in_or_app; left; exact Hc). apply (proj1 (forallb_forall _ _) Hg c Hc).
    + exact Hne.
    + apply forallb_forall. intros c Hc. rewrite <- Hfg by (apply in_or_app; right; apply in_or_app; left; exact Hc).
      apply (proj1 (forallb_forall _ _) Hw c Hc).
    + destruct rest as [| c rest]; [exact Logic.I |]. rewrite <- Hfg; [exact Hr |].
      apply in_or_app. right. apply in_or_app. right. left. reflexivity.
    + apply IH. intros c Hc. apply Hfg. apply in_or_app. right. apply in_or_app. right. exact Hc.
Qed.

(** The slices of the names *)
Lemma slice_here : forall (pre w r : name), firstn (List.length w) (skipn (List.length pre) (pre ++ w ++ r)) = w.
Proof.
  intros pre w r. rewrite skipn_app, Nat.sub_diag, skipn_all. cbn [app skipn].
  rewrite firstn_app, Nat.sub_diag, firstn_all. cbn [firstn]. apply app_nil_r.
Qed.

Lemma slices_text : forall s part pre n k,
  In (n, k) (slices (List.length pre) (split part s)) ->
  firstn (List.length n) (skipn k (pre ++ rev part ++ s)) = n.
Proof.
  induction s as [| c s IH]; intros part pre n k H; cbn [split] in H.
  - destruct (rev part) as [| x l]; cbn [slices] in H; [destruct H |].
    destruct H as [[= <- <-] | []]. apply slice_here.
  - destruct (separates c).
    + destruct (rev part) as [| x l] eqn:E; cbn [slices] in H.
      * assert (E1 : pre ++ [] ++ c :: s = (pre ++ [c]) ++ rev [] ++ s) by (rewrite <- app_assoc; reflexivity).
        rewrite E1. apply IH. rewrite app_length. exact H.
      * destruct H as [[= <- <-] | H]; [apply slice_here |].
        assert (E1 : pre ++ (x :: l) ++ c :: s = (pre ++ (x :: l) ++ [c]) ++ rev [] ++ s) by (rewrite <- !app_assoc; reflexivity).
        rewrite E1. apply IH. rewrite !app_length. cbn [List.length] in *. replace (length pre + (S (length l) + 1))%nat with (length pre + S (length l) + 1)%nat by lia. exact H.
    + replace (pre ++ rev part ++ c :: s) with (pre ++ rev (c :: part) ++ s) by (cbn [rev]; rewrite <- !app_assoc; reflexivity).
      apply IH. exact H.
Qed.

Lemma words_clean : forall sep s ws w, words sep s ws -> In w ws -> w <> [] /\ forallb (fun c => negb (sep c)) w = true.
Proof.
  intros sep s ws w H. induction H as [gap Hg | gap v rest ws Hg Hne Hw Hr Hrest IH]; intro Hin; [destruct Hin |].
  destruct Hin as [<- | Hin]; [split; assumption | apply IH; exact Hin].
Qed.

(** A string has one list of words. *)
Lemma gap_word : forall (sep : ascii -> bool) g1 g2 r1 r2,
  forallb sep g1 = true -> forallb sep g2 = true ->
  match r1 with [] => True | c :: _ => sep c = false end -> match r2 with [] => True | c :: _ => sep c = false end ->
  g1 ++ r1 = g2 ++ r2 -> g1 = g2 /\ r1 = r2.
Proof.
  intros sep g1. induction g1 as [| c g1 IH]; intros g2 r1 r2 H1 H2 Hr1 Hr2 E.
  - destruct g2 as [| d g2]; [split; [reflexivity | exact E] |]. exfalso. cbn [app] in E. subst r1.
    cbn [forallb] in H2. cbn in Hr1. rewrite Hr1 in H2. discriminate.
  - destruct g2 as [| d g2].
    + exfalso. cbn [app] in E. subst r2. cbn [forallb] in H1. cbn in Hr2. rewrite Hr2 in H1. discriminate.
    + cbn [app] in E. injection E as -> E. cbn [forallb] in H1, H2. apply andb_true_iff in H1, H2.
      destruct H1 as [_ H1], H2 as [_ H2]. destruct (IH g2 r1 r2 H1 H2 Hr1 Hr2 E) as [-> ->]. split; reflexivity.
Qed.

Lemma words_unique : forall sep s ws, words sep s ws -> forall vs, words sep s vs -> ws = vs.
Proof.
  intros sep s ws H. induction H as [gap Hg | gap w rest ws Hg Hne Hw Hr Hrest IH]; intros vs Hv.
  - inversion Hv as [gap' Hg' Es Ew | gap' w' rest' ws' Hg' Hne' Hw' Hr' Hrest' Es Ew]; [reflexivity |]. exfalso.
    destruct w' as [| c w']; [congruence |]. cbn [forallb] in Hw'. apply andb_true_iff in Hw'. destruct Hw' as [Hc _].
    assert (Hin : In c gap) by (rewrite <- Es; apply in_or_app; right; left; reflexivity).
    rewrite (proj1 (forallb_forall _ _) Hg c Hin) in Hc. discriminate.
  - inversion Hv as [gap' Hg' Es Ew | gap' w' rest' ws' Hg' Hne' Hw' Hr' Hrest' Es Ew].
    + exfalso. destruct w as [| c w]; [congruence |]. cbn [forallb] in Hw. apply andb_true_iff in Hw. destruct Hw as [Hc _].
      assert (Hin : In c (gap ++ (c :: w) ++ rest)) by (apply in_or_app; right; left; reflexivity).
      rewrite (proj1 (forallb_forall _ _) Hg' c Hin) in Hc. discriminate.
    + assert (Hhead : forall v r, v <> [] -> forallb (fun c => negb (sep c)) v = true ->
                match v ++ r with [] => True | c :: _ => sep c = false end).
      { intros [| c v] r Hn Hf; [congruence |]. cbn [app]. cbn [forallb] in Hf. apply andb_true_iff in Hf.
        destruct Hf as [Hf _]. apply negb_true_iff. exact Hf. }
      destruct (gap_word sep gap' gap (w' ++ rest') (w ++ rest) Hg' Hg (Hhead _ _ Hne' Hw') (Hhead _ _ Hne Hw) Es) as [_ E].
      assert (Hstop : forall r, match r with [] => True | c :: _ => sep c = true end ->
                match r with [] => True | c :: _ => negb (sep c) = false end).
      { intros [| c r] Hc; [exact Logic.I |]. rewrite Hc. reflexivity. }
      destruct (gap_word (fun c => negb (sep c)) w' w rest' rest Hw' Hw (Hstop _ Hr') (Hstop _ Hr) E) as [-> ->].
      f_equal. apply IH. exact Hrest'.
Qed.

(** ** Names that are used twice *)
Lemma existsb_same : forall n l, existsb (fun m => same m n) l = true <-> In n l.
Proof. apply mem_iff. Qed.

Lemma add_members_fresh : forall ns have, NoDup (have ++ ns) -> add_members have ns = (have ++ ns, []).
Proof.
  induction ns as [| n ns IH]; intros have H; cbn [add_members].
  - rewrite app_nil_r. reflexivity.
  - destruct (existsb (fun m => same m n) have) eqn:E.
    + exfalso. apply existsb_same in E. apply NoDup_remove_2 in H. apply H. apply in_or_app. left. exact E.
    + rewrite IH; rewrite <- app_assoc; [reflexivity | exact H].
Qed.

Lemma add_members_again : forall ns have, NoDup have -> ~ NoDup (have ++ ns) -> snd (add_members have ns) <> [].
Proof.
  induction ns as [| n ns IH]; intros have Hh H; cbn [add_members].
  - rewrite app_nil_r in H. contradiction.
  - destruct (existsb (fun m => same m n) have) eqn:E.
    + destruct (add_members have ns). discriminate.
    + apply IH.
      * apply (NoDup_Add (Add_app n have [])). rewrite app_nil_r. split; [exact Hh |]. intro Hin.
        apply existsb_same in Hin. congruence.
      * rewrite <- app_assoc. exact H.
Qed.

Lemma set_all_spec : forall minor cls ws v st,
  (forall w, In w ws -> special cls w = false) -> ignored st = [] -> NoDup (member_names st) ->
  (forall n, get st n <> None -> In n (member_names st)) ->
  (NoDup (member_names st ++ ws) -> exists st', set_all minor cls v st ws = Some st' /\ member_names st' = member_names st ++ ws)
  /\ (~ NoDup (member_names st ++ ws) -> set_all minor cls v st ws = None).
Proof.
  intros minor cls ws. induction ws as [| w ws IH]; intros v st Hsp Hi Hd Hg; cbn [set_all].
  - rewrite app_nil_r. split; [intros _; exists st; split; reflexivity | contradiction].
  - rewrite (setitem_ordinary minor cls st w (Plain v) (Hsp w (or_introl eq_refl)) Hi).
    destruct (mem w (member_names st)) eqn:Hm.
    + split; [| reflexivity]. intro H. exfalso. apply mem_iff in Hm. apply NoDup_remove_2 in H. apply H.
      apply in_or_app. left. exact Hm.
    + unfold add_member. destruct (get st w) eqn:Hw.
      * exfalso. assert (H : get st w <> None) by congruence. apply Hg, mem_iff in H. congruence.
      * set (st1 := mk_state ((w, Plain v) :: namespace st) (member_names st ++ [w]) (ignored st)).
        assert (E : member_names st ++ w :: ws = member_names st1 ++ ws) by (unfold st1; cbn [member_names]; rewrite <- app_assoc; reflexivity).
        rewrite E. apply (IH (v + 1)%N st1).
        -- intros x Hx. apply Hsp. right. exact Hx.
        -- exact Hi.
        -- unfold st1. cbn [member_names]. apply (NoDup_Add (Add_app w (member_names st) [])). rewrite app_nil_r.
           split; [exact Hd |]. intro Hin. apply mem_iff in Hin. congruence.
        -- intros n Hn. unfold st1 in *. cbn [member_names]. apply in_or_app.
           change (get (put st w (Plain v)) n <> None) in Hn. rewrite get_put in Hn. destruct (same w n) eqn:Es.
           ++ apply same_iff in Es. subst. right. left. reflexivity.
           ++ left. apply Hg. exact Hn.
Qed.
