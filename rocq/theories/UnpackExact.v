(** Proofs about unpacking tuples: without an issue it succeeds, with one it fails if the lengths are known; and no panics. *)
From Coq Require Import List NArith Bool Lia PeanoNat.
From Verif Require Import TupleModel TupleSpec UnpackModel UnpackSpec UnpackProofs.
Import ListNotations.
Local Open Scope nat_scope.

Lemma target_below t ts : In t ts -> target_size (below t) < target_size (Targets ts).
Proof.
  intros Ht. assert (Hb : target_size (below t) <= target_size t) by (destruct t; cbn; lia). cbn.
  induction ts as [|u ts IH]; [destruct Ht|]. destruct Ht as [->|Ht]; cbn; [lia|]. specialize (IH Ht). lia.
Qed.

Section Exact.
Context {V : Type}.
Variables (iterates list_value : V -> list V -> Prop) (has : type -> V -> Prop) (stands_for : N -> list V -> Prop).
Variables (list_class str_class object_class : N) (items : N -> list type -> class_items) (join union : list type -> type)
          (avoid_implicit_literal : type -> type) (defined : target -> bool).
Hypothesis L : lawful iterates list_value has stands_for list_class str_class object_class items join union avoid_implicit_literal.

Local Notation iter := (iter str_class items).
Local Notation assign_targets := (assign_targets list_class str_class object_class items join union avoid_implicit_literal defined).
Local Notation unpack_starred := (unpack_starred list_class object_class join union avoid_implicit_literal).
Local Notation assign_each := (assign_each list_class object_class join union avoid_implicit_literal defined assign_targets).
Local Notation assign_tuple_target := (assign_tuple_target list_class object_class join union avoid_implicit_literal defined assign_targets).
Local Notation is_tuple := (is_tuple has stands_for).
Local Notation assigned := (assigned iterates list_value).
Local Notation assigned_all := (assigned_all iterates list_value).
Local Notation yields := (yields has stands_for).
Local Notation yields_after := (yields_after has stands_for).

(** The iterator of a tuple, whose items are what the targets need *)
Definition typed (fixed : bool) (ts : list target) (it : iterator) : Prop :=
  match it with
  | Fixed es i => along fixed ts (skipn i es)
  | Unpacked w _ _ => (forall t ty, In t ts -> starred t = false -> In ty (before w ++ after w) -> destructured fixed t ty) /\ (forall t, In (Starred t) ts -> exists n, t = Name n)
  | _ => False
  end.

Lemma tuple_iter_typed fixed ts a : destructured fixed (Targets ts) (Tuple a) -> typed fixed ts (tuple_iter a).
Proof. intros H. inversion H as [|ts' tys Ha|ts' w Hf H1 H2| | | |]; subst; [exact Ha|split; assumption]. Qed.

Lemma assign_targets_tuple ts a bs is :
  assign_targets (Targets ts) (Tuple a) = Some (is, bs) <-> assign_tuple_target ts (tuple_iter a) = Some (is, bs).
Proof.
  change (assign_targets (Targets ts) (Tuple a)) with
    (seq (seq (Some ([], [])) (fun _ => seq (Some ([], [])) (fun _ => match tuple_iter a with Several its => in_sequence (assign_tuple_target ts) its | _ => assign_tuple_target ts (tuple_iter a) end))) (fun _ => Some ([], []))).
  destruct a as [es|t|w]; cbn [tuple_iter seq app];
  match goal with |- context [UnpackModel.assign_tuple_target ?a ?b ?c ?d ?e ?f ?g ?h ?i] => destruct (UnpackModel.assign_tuple_target a b c d e f g h i) as [[is' bs']|] end;
    cbn; rewrite ?app_nil_r; split; intros H; try discriminate; injection H as <- <-; reflexivity.
Qed.

Definition succeeds (t : target) : Prop :=
  forall ty v bts, starred t = false -> destructured false t ty -> fits list_value has stands_for ty v -> assign_targets t ty = Some ([], bts) -> exists bvs, assigned t v bvs.

Lemma unpack_next_typed fixed t ts it it' ty : starred t = false -> typed fixed (t :: ts) it -> unpack_next it = Some (it', ty) -> typed fixed ts it' /\ destructured fixed t ty.
Proof.
  unfold unpack_next, unpack_next_with. intros Hs Ht Hu. destruct it as [x|es i|w i j|its|]; try contradiction.
  - destruct (nth_error es i) as [x|] eqn:E; [|discriminate]. injection Hu as <- <-. cbn [typed] in *. rewrite (nth_skipn _ _ _ E) in Ht.
    inversion Ht as [|t' ts' Hs'|t' ts' ty' tys' Hs' Hd Ha|t' ts' tys' Hl|t' ts' m tys' Hl Hd Ha]; subst; try discriminate. auto.
  - destruct Ht as [H1 H2]. assert (Ht : forall i' j', typed fixed ts (Unpacked w i' j')) by (intros i' j'; split; [intros u uy Hu1; apply H1; right; exact Hu1|intros u Hu1; apply H2; right; exact Hu1]).
    destruct (nth_error (before w) i) as [x|] eqn:E.
    + injection Hu as <- <-. split; [apply Ht|]. apply H1; [left; reflexivity|exact Hs|]. apply in_or_app. left. exact (nth_error_In _ _ E).
    + destruct (nth_error (after w) j) as [x|] eqn:E2; [|discriminate]. injection Hu as <- <-. split; [apply Ht|]. apply H1; [left; reflexivity|exact Hs|]. apply in_or_app. right. exact (nth_error_In _ _ E2).
Qed.

Lemma unpack_starred_typed fixed t ts it it' e ty : typed fixed (Starred t :: ts) it -> unpack_starred it (length ts) (is_targets t) true = Some (it', e, ty) ->
  typed fixed ts it' /\ destructured fixed t (starred_value list_class defined t e ty).
Proof.
  unfold UnpackModel.unpack_starred. destruct it as [x|es i|w i j|its|]; intros Ht Hu; try contradiction.
  - destruct (Nat.ltb_spec (length es) (length ts)) as [|H1]; [discriminate|]. destruct (Nat.ltb_spec (length es - length ts) i) as [|H2]; [discriminate|]. injection Hu as <- _ <-. cbn [typed] in *.
    assert (Hlen : length (skipn i es) = length es - i) by apply skipn_length.
    inversion Ht as [|t' ts' Hs'|t' ts' ty' tys' Hs' Hd Ha|t' ts' tys' Hl|t' ts' m tys' Hl Hd Ha]; subst; try discriminate; [lia|].
    match goal with H : m ++ tys' = skipn i es |- _ => rename H into Hm end. rewrite <- Hm, app_length in Hlen.
    assert (Hk : length es - length ts - i = length m) by lia.
    split.
    + replace (length es - length ts) with (length m + i) by lia. rewrite <- skipn_add, <- Hm, skipn_app, Nat.sub_diag, skipn_all, skipn_O. exact Ha.
    + unfold starred_value. destruct t as [n|t|ts2]; [constructor|inversion Hd|]. cbn [is_targets negb andb]. rewrite andb_false_r. cbn [andb].
      rewrite <- ?Hm, Hk, firstn_app, Nat.sub_diag, firstn_all, firstn_O, app_nil_r. exact Hd.
  - injection Hu as <- _ _. destruct Ht as [H1 H2]. split.
    + split; [intros u uy Hu1; apply H1; right; exact Hu1|intros u Hu1; apply H2; right; exact Hu1].
    + destruct (H2 t (or_introl eq_refl)) as (n & ->). constructor.
Qed.

Lemma succeeds_after ts : Forall (fun t => succeeds (below t)) ts -> existsb starred ts = false ->
  forall a it vs bts, typed false ts it -> yields_after it vs -> length vs = length ts -> assign_each ts a it = Some ([], bts) -> exists bvs, assigned_all ts vs bvs.
Proof.
  induction ts as [|t ts IH]; intros HS Hf a it vs bts Ht Hy Hl He.
  - destruct vs; [|discriminate]. exists []. constructor.
  - destruct vs as [|v vs]; [discriminate|]. cbn in Hf. apply orb_false_iff in Hf. destruct Hf as [Hf1 Hf2].
    rewrite (assign_each_item _ _ _ _ _ _ _ _ _ _ _ _ Hf1) in He. destruct (unpack_next it) as [[it' ty]|] eqn:Eu; [|discriminate].
    apply seq_clean in He. destruct He as (c1 & c2 & H1 & H2 & ->).
    destruct (unpack_next_yields_after _ _ _ _ _ _ _ _ _ _ _ L _ _ _ _ _ Hy Eu) as [Hh Hy'].
    destruct (unpack_next_typed _ _ _ _ _ _ Hf1 Ht Eu) as [Ht' Hty].
    destruct (IH (Forall_inv_tail HS) Hf2 _ _ _ _ Ht' Hy' (eq_add_S _ _ Hl) H2) as (b2 & Hb2).
    pose proof (Forall_inv HS) as HS1. cbn beta in HS1. rewrite (below_self _ Hf1) in HS1.
    destruct (HS1 _ _ _ Hf1 Hty (or_introl Hh) H1) as (b1 & Hb1).
    exists (b1 ++ b2). constructor; assumption.
Qed.

Lemma succeeds_each ts : Forall (fun t => succeeds (below t)) ts -> one_star ts = true ->
  forall a it vs bts, typed false ts it -> yields it vs -> ready ts it -> (existsb starred ts = true -> a = star_after ts) ->
  (if existsb starred ts then star_before ts + star_after ts <= length vs else length vs = length ts) ->
  assign_each ts a it = Some ([], bts) -> exists bvs, assigned_all ts vs bvs.
Proof.
  induction ts as [|t ts IH]; intros HS Ho a it vs bts Ht Hy Hr Hc Hl He.
  - destruct vs; [|discriminate]. exists []. constructor.
  - destruct (starred t) eqn:Est.
    + destruct t as [x|t|ts2]; [discriminate| |discriminate]. specialize (Hc eq_refl). cbn [star_after star_before existsb starred orb] in Hc, Hl, Ho. cbn in Ho. apply negb_true_iff in Ho. subst a.
      rewrite (assign_each_star _ _ _ _ _ _ _ _) in He.
      destruct (unpack_starred it (length ts) (is_targets t) true) as [[[it' e] ty]|] eqn:Eu; [|discriminate].
      apply seq_clean in He. destruct He as (c1 & c2 & H1 & H2 & ->).
      assert (Hlong : long_enough it 0 (length ts)).
      { destruct it; try exact I. cbn in Hr. cbn. destruct Hr as (_ & h2 & h3 & h4). repeat split; auto. }
      set (k := length vs - length ts).
      rewrite <- (firstn_skipn k vs) in Hy.
      assert (Hlen : length (skipn k vs) = length ts) by (rewrite skipn_length; unfold k; lia).
      destruct (list_exists _ _ _ _ _ _ _ _ _ _ _ L (firstn k vs)) as (l & Hlv).
      destruct (unpack_starred_yields _ _ _ _ _ _ _ _ _ _ _ L _ _ _ _ _ _ _ _ _ _ Hy Hlen Hlong Eu Hlv) as (Hfit & Hy' & Hh).
      destruct (unpack_starred_typed _ _ _ _ _ _ _ Ht Eu) as [Ht' Hd].
      destruct (succeeds_after ts (Forall_inv_tail HS) Ho _ _ _ _ Ht' Hy' Hlen H2) as (b2 & Hb2).
      assert (H3 : exists b1, assigned t l b1).
      { destruct t as [n|t|ts2]; [eexists; constructor|inversion Hd|].
        refine (Forall_inv HS _ _ _ eq_refl Hd _ H1). unfold starred_value. cbn [is_targets negb]. rewrite andb_false_r. exact Hfit. }
      destruct H3 as (b1 & Hb1).
      exists (b1 ++ b2). rewrite <- (firstn_skipn k vs). apply (as_star _ _ t l); auto.
    + assert (Hex : existsb starred (t :: ts) = existsb starred ts) by (cbn; rewrite Est; reflexivity).
      assert (Hone : one_star ts = true) by (destruct t; [exact Ho|discriminate|exact Ho]).
      rewrite Hex in Hl, Hc.
      assert (Hsb : star_before (t :: ts) = S (star_before ts)) by (destruct t; [reflexivity|discriminate|reflexivity]).
      assert (Hsa : star_after (t :: ts) = star_after ts) by (destruct t; [reflexivity|discriminate|reflexivity]).
      rewrite Hsb, Hsa in Hl. rewrite Hsa in Hc.
      destruct vs as [|v vs]; [exfalso; destruct (existsb starred ts); cbn in Hl; lia|].
      rewrite (assign_each_item _ _ _ _ _ _ _ _ _ _ _ _ Est) in He. destruct (unpack_next it) as [[it' ty]|] eqn:Eu; [|discriminate].
      apply seq_clean in He. destruct He as (c1 & c2 & H1 & H2 & ->).
      destruct (unpack_next_ready _ _ _ _ _ Est Hr Eu) as [Hr' Hw].
      destruct (unpack_next_yields _ _ _ _ _ _ _ _ _ _ _ L _ _ _ _ _ Hy Eu Hw) as [Hh Hy'].
      destruct (unpack_next_typed _ _ _ _ _ _ Est Ht Eu) as [Ht' Hty].
      assert (Hl' : if existsb starred ts then star_before ts + star_after ts <= length vs else length vs = length ts)
        by (destruct (existsb starred ts); cbn in Hl; lia).
      destruct (IH (Forall_inv_tail HS) Hone _ _ _ _ Ht' Hy' Hr' Hc Hl' H2) as (b2 & Hb2).
      pose proof (Forall_inv HS) as HS1. cbn beta in HS1. rewrite (below_self _ Est) in HS1.
      destruct (HS1 _ _ _ Est Hty (or_introl Hh) H1) as (b1 & Hb1).
      exists (b1 ++ b2). constructor; assumption.
Qed.

Lemma tuple_target_succeeds ts a vs bts : Forall (fun t => succeeds (below t)) ts -> destructured false (Targets ts) (Tuple a) -> is_tuple a vs ->
  assign_tuple_target ts (tuple_iter a) = Some ([], bts) -> exists bvs, assigned_all ts vs bvs.
Proof.
  intros HS Ht Hvs He. apply tuple_iter_typed in Ht.
  assert (Hy := tuple_iter_yields has stands_for _ _ Hvs). pose proof (tuple_iter_fresh a) as Hfr.
  unfold UnpackModel.assign_tuple_target in He. destruct (iterator_len (tuple_iter a)) as [actual|] eqn:El; [|discriminate].
  destruct (targets_len_infos ts) as [sc expected] eqn:Ec.
  destruct (one_star ts) eqn:Eo.
  2:{ exfalso. destruct (count_stars ts 0 0 0) as (_ & _ & Hc). specialize (Hc eq_refl Eo). unfold targets_len_infos in Ec. rewrite Ec in Hc. cbn in Hc.
      cbv zeta in He. apply Nat.ltb_lt in Hc. rewrite Hc in He. destruct (length_issue expected actual); cbn [app] in He;
        apply seq_clean in He; destruct He as (c1 & c2 & H1 & _); discriminate. }
  unfold targets_len_infos in Ec. rewrite (count_spec ts 0 Eo) in Ec. cbv zeta in He.
  assert (Hclean : length_issue expected actual = [] /\ assign_each ts (match expected with WithStar _ k => k | FixedLength _ => 0 end) (tuple_iter a) = Some ([], bts)).
  { destruct (length_issue expected actual ++ _) as [|x is] eqn:Ei in He; [apply app_eq_nil in Ei; split; [exact (proj1 Ei)|exact He]|].
    apply seq_clean in He. destruct He as (c1 & c2 & H1 & _). discriminate. }
  destruct Hclean as [Hi0 He'].
  destruct (existsb starred ts) eqn:Ex; injection Ec as <- <-; cbn [plus] in *.
  + assert (Hr : ready ts (tuple_iter a) /\ star_before ts + star_after ts <= length vs).
    { destruct a as [es|x|w]; cbn [tuple_iter] in *.
      - split; [exact I|]. cbn in El. injection El as <-. cbn in Hvs. rewrite <- (Forall2_len _ _ _ Hvs).
        unfold length_issue in Hi0. rewrite Nat.sub_0_r in Hi0. destruct (length es <? star_before ts + star_after ts) eqn:E; [discriminate|]. apply Nat.ltb_ge in E. exact E.
      - contradiction.
      - cbn in El. injection El as <-. unfold length_issue in Hi0.
        destruct (length (before w) <? star_before ts) eqn:E1; [discriminate|]. destruct (length (after w) <? star_after ts) eqn:E2; [discriminate|].
        apply Nat.ltb_ge in E1, E2. split; [cbn; auto|]. destruct Hvs as (l & m & r & -> & H1 & _ & H2). rewrite !app_length, <- (Forall2_len _ _ _ H1), <- (Forall2_len _ _ _ H2). lia. }
    destruct Hr as [Hr Hlen]. refine (succeeds_each ts HS Eo _ _ _ _ Ht Hy Hr (fun _ => eq_refl) _ He'). rewrite Ex. exact Hlen.
  + destruct a as [es|x|w]; cbn [tuple_iter] in *; [|contradiction|].
    * cbn in El. injection El as <-. cbn in Hvs. refine (succeeds_each ts HS Eo _ _ _ _ Ht Hy I _ _ He'); [rewrite Ex; discriminate|].
      rewrite Ex, <- (Forall2_len _ _ _ Hvs). unfold length_issue in Hi0. rewrite Nat.sub_0_r in Hi0.
      destruct (Nat.eqb_spec (length es) (length ts)) as [E|E]; [exact E|]. destruct (length es <? length ts); discriminate.
    * cbn in El. injection El as <-. discriminate.
Qed.

(** What stands for a tuple is unpacked like it. *)
Lemma iter_tuple fixed ts ty : forall v bts, destructured fixed (Targets ts) ty -> has ty v ->
  (match snd (iter ty) with Several its => in_sequence (assign_tuple_target ts) its | it => assign_tuple_target ts it end) = Some ([], bts) ->
  exists a c, destructured fixed (Targets ts) (Tuple a) /\ has (Tuple a) v /\ assign_tuple_target ts (tuple_iter a) = Some ([], c).
Proof.
  induction ty as [| | |c gs|s|a|tys IH|n b IH|n t IH|n t IH] using type_induction; intros v bts Hd Hv He; inversion Hd; subst.
  - exists (FixedLen tys), bts. auto.
  - exists (WithUnpack w), bts. auto.
  - destruct (has_union _ _ _ _ _ _ _ _ _ _ _ L _ _ Hv) as (t & Ht & Hvt). rewrite Forall_forall in IH. cbn [UnpackModel.iter snd] in He.
    destruct (in_sequence_clean _ _ _ He (snd (iter t))) as (c & Hc & _); [apply (in_map snd), in_map; exact Ht|].
    apply (IH t Ht v c); auto. destruct (snd (iter t)); try exact Hc. discriminate.
  - apply (IH v bts); auto. exact (has_bound _ _ _ _ _ _ _ _ _ _ _ L _ _ _ Hv).
  - apply (IH v bts); auto. exact (has_new_type _ _ _ _ _ _ _ _ _ _ _ L _ _ _ Hv).
  - apply (IH v bts); auto. exact (has_recursive _ _ _ _ _ _ _ _ _ _ _ L _ _ _ Hv).
Qed.

Lemma members_destructured fixed ts ty : destructured fixed (Targets ts) ty -> forall m, In m (members ty) -> destructured fixed (Targets ts) m.
Proof.
  induction ty as [| | |c gs|s|a|tys IH|n b IH|n t IH|n t IH] using type_induction; intros Hd m Hm; try (destruct Hm as [<-|[]]; exact Hd).
  - inversion Hd as [| | |ts' tys' Hf Hall| | |]; subst. cbn [members] in Hm. apply in_flat_map in Hm. destruct Hm as (t & Ht & Hm). rewrite Forall_forall in IH. specialize (Hall t Ht).
    destruct t; try (destruct Hm as [<-|[]]; exact Hall). exact (IH _ Ht Hall m Hm).
  - inversion Hd; subst. apply IH; assumption.
Qed.

Theorem assign_succeeds t : succeeds t.
Proof.
  remember (target_size t) as n eqn:En. assert (Hn : target_size t <= n) by lia. clear En. revert t Hn.
  induction n as [|n IH]; intros t Hn; [destruct t; cbn in Hn; lia|].
  intros ty v bts Hst Hd Hf He. destruct t as [x|t|ts]; [eexists; constructor|discriminate|].
  assert (HS : Forall (fun t => succeeds (below t)) ts) by (apply Forall_forall; intros t Ht; apply IH; pose proof (target_below _ _ Ht); lia).
  destruct Hf as [Hv|(a & vs & -> & Hl & Hvs)].
  - destruct (members_complete _ _ _ _ _ _ _ _ _ _ _ L _ _ Hv) as (m & Hm & Hvm). pose proof (members_destructured _ _ _ Hd _ Hm) as Hdm.
    cbn [UnpackModel.assign_targets] in He. destruct (in_sequence_clean _ _ _ He _ Hm) as (c & Hc & _).
    unfold UnpackModel.assign_member in Hc. apply seq_clean in Hc. destruct Hc as (c1 & c2 & _ & H2 & ->).
    pose proof (iter_tuple false ts m v) as Hi. destruct (iter m) as [is it]. cbn [snd] in Hi. apply seq_clean in H2. destruct H2 as (c3 & c4 & _ & H4 & ->).
    destruct (Hi c4 Hdm Hvm ltac:(destruct it; exact H4)) as (a & c & Hda & Hva & Ha).
    destruct (has_tuple _ _ _ _ _ _ _ _ _ _ _ L _ _ Hva) as (vs & Hit & Hvs).
    destruct (tuple_target_succeeds ts a vs c HS Hda Hvs Ha) as (bvs & Hb). exists bvs. econstructor; eassumption.
  - apply assign_targets_tuple in He. destruct (tuple_target_succeeds ts a vs bts HS Hd Hvs He) as (bvs & Hb). exists bvs.
    econstructor; [exact (list_iterates _ _ _ _ _ _ _ _ _ _ _ L _ _ Hl)|exact Hb].
Qed.

(** The other way around: if the assignment succeeds and the lengths are known, there is no issue. *)
Definition accepts (t : target) : Prop :=
  forall ty v bvs, destructured true t ty -> fits list_value has stands_for ty v -> assigned t v bvs -> exists bts, assign_targets t ty = Some ([], bts).

Lemma accepts_each ts : Forall (fun t => accepts (below t)) ts ->
  forall a es i vs bvs, along true ts (skipn i es) -> Forall2 has (skipn i es) vs -> i <= length es -> (existsb starred ts = true -> a = star_after ts) ->
  assigned_all ts vs bvs -> exists bts, assign_each ts a (Fixed es i) = Some ([], bts).
Proof.
  induction ts as [|t ts IH]; intros HA a es i vs bvs Hes Hvs Hi Hc Ha.
  - exists []. reflexivity.
  - inversion Ha as [|t' v ts' vs' b1 b2 Hs Hav Hr|t' l ms ts' vs' b1 b2 Hs Hl Hlv Hav Hr]; subst.
    + rewrite (assign_each_item _ _ _ _ _ _ _ _ _ _ _ _ Hs).
      destruct (unpack_next (Fixed es i)) as [[it' ty]|] eqn:Eu.
      2:{ exfalso. cbn in Eu. destruct (nth_error es i) as [ty|] eqn:En; [discriminate|]. rewrite (nth_skipn_none _ _ En) in Hvs. inversion Hvs. }
      destruct (unpack_next_typed true _ _ (Fixed es i) _ _ Hs Hes Eu) as [Ht Hd].
      cbn in Eu. destruct (nth_error es i) as [ty0|] eqn:En; [|discriminate]. injection Eu as <- <-.
      assert (Hi' : S i <= length es) by (apply nth_error_Some; rewrite En; discriminate).
      rewrite (nth_skipn _ _ _ En) in Hvs. inversion Hvs as [|? ? ? ? Hh Hvs']; subst.
      pose proof (Forall_inv HA) as HA1. cbn beta in HA1. rewrite (below_self _ Hs) in HA1.
      destruct (HA1 ty0 v b1 Hd (or_introl Hh) Hav) as (c1 & H1).
      assert (Hc' : existsb starred ts = true -> a = star_after ts) by (intros Hst; destruct t as [x|t|ts2]; [|discriminate|]; apply Hc; exact Hst).
      destruct (IH (Forall_inv_tail HA) a es (S i) vs' b2 Ht Hvs' Hi' Hc' Hr) as (c2 & H2).
      rewrite H1. unfold seq. rewrite H2. eexists. reflexivity.
    + specialize (Hc eq_refl). cbn [star_after] in Hc. subst a. rewrite assign_each_star.
      assert (Hlen : length (skipn i es) = length ms + length ts) by (rewrite (Forall2_len _ _ _ Hvs), app_length; lia). rewrite skipn_length in Hlen.
      destruct (unpack_starred (Fixed es i) (length ts) (is_targets t') true) as [[[it' e] ty]|] eqn:Eu.
      2:{ exfalso. unfold UnpackModel.unpack_starred in Eu. destruct (Nat.ltb_spec (length es) (length ts)); [lia|]. destruct (Nat.ltb_spec (length es - length ts) i); [lia|]. discriminate. }
      destruct (unpack_starred_yields _ _ _ _ _ _ _ _ _ _ _ L (Fixed es i) ms vs' _ _ _ _ _ _ l Hvs Hl I Eu Hlv) as (Hf & Hy' & Hh).
      destruct (unpack_starred_typed true _ _ (Fixed es i) _ _ _ Hes Eu) as [Ht Hd].
      assert (Heq : it' = Fixed es (length es - length ts)).
      { unfold UnpackModel.unpack_starred in Eu. destruct (Nat.ltb_spec (length es) (length ts)); [lia|]. destruct (Nat.ltb_spec (length es - length ts) i); [lia|].
        injection Eu as <- _ _. reflexivity. }
      subst it'.
      assert (H1 : exists c1, assign_targets t' (starred_value list_class defined t' e ty) = Some ([], c1)).
      { destruct t' as [x|t2|ts2]; [eexists; reflexivity|inversion Hav|]. refine (Forall_inv HA _ _ _ Hd _ Hav).
        unfold starred_value. cbn [is_targets negb]. rewrite andb_false_r. exact Hf. }
      destruct H1 as (c1 & H1). cbn [UnpackProofs.yields_after UnpackProofs.yields] in Hy'.
      assert (Hc' : existsb starred ts = true -> length ts = star_after ts) by (rewrite Hs; discriminate).
      destruct (IH (Forall_inv_tail HA) (length ts) es (length es - length ts) vs' b2 Ht Hy' ltac:(lia) Hc' Hr) as (c2 & H2).
      rewrite H1. unfold seq. rewrite H2. eexists. reflexivity.
Qed.

Lemma assigned_length ts vs bs : assigned_all ts vs bs -> if existsb starred ts then star_before ts + star_after ts <= length vs else length vs = length ts.
Proof.
  revert vs bs. induction ts as [|t ts IH]; intros vs bs H; inversion H as [|t' v ts' vs' b1 b2 Hs Ha Hr|t' l ms ts' vs' b1 b2 Hs Hl Hlv Ha Hr]; subst; [reflexivity| |].
  - specialize (IH _ _ Hr). cbn [existsb]. rewrite Hs. cbn [orb length].
    assert (Hsb : star_before (t :: ts) = S (star_before ts)) by (destruct t; [reflexivity|discriminate|reflexivity]).
    assert (Hsa : star_after (t :: ts) = star_after ts) by (destruct t; [reflexivity|discriminate|reflexivity]).
    rewrite Hsb, Hsa. destruct (existsb starred ts); lia.
  - cbn. rewrite app_length. lia.
Qed.

(** With known lengths, there is one tuple a type stands for. *)
Lemma one_tuple ts ty : destructured true (Targets ts) ty -> exists es,
  iter ty = ([], Fixed es 0) /\ assign_targets (Targets ts) ty = assign_targets (Targets ts) (Tuple (FixedLen es)) /\ along true ts es /\ (forall v, has ty v -> has (Tuple (FixedLen es)) v) /\
  ((exists a, ty = Tuple a) -> ty = Tuple (FixedLen es)).
Proof.
  induction ty as [| | |c gs|s|a|tys IH|n b IH|n t IH|n t IH] using type_induction; intros Hd; inversion Hd as [|ts' tys' Ha|ts' w Hf| ts' tys' Hf| ts' n' t' Hd'|ts' n' t' Hd'|ts' n' t' Hd']; subst; try discriminate.
  - exists tys'. repeat split; auto.
  - destruct (IH Hd') as (es & H1 & H2 & H3 & H4 & _). exists es. split; [exact H1|]. split.
    + cbn [UnpackModel.assign_targets members]. unfold in_sequence, UnpackModel.assign_member. cbn [UnpackModel.iter]. rewrite H1. reflexivity.
    + split; [exact H3|]. split; [|intros (a & E); discriminate E]. intros v Hv. apply H4. exact (has_bound _ _ _ _ _ _ _ _ _ _ _ L _ _ _ Hv).
  - destruct (IH Hd') as (es & H1 & H2 & H3 & H4 & _). exists es. split; [exact H1|]. split.
    + cbn [UnpackModel.assign_targets members]. unfold in_sequence, UnpackModel.assign_member. cbn [UnpackModel.iter]. rewrite H1. reflexivity.
    + split; [exact H3|]. split; [|intros (a & E); discriminate E]. intros v Hv. apply H4. exact (has_new_type _ _ _ _ _ _ _ _ _ _ _ L _ _ _ Hv).
  - destruct (IH Hd') as (es & H1 & H2 & H3 & H4 & _). exists es. split; [exact H1|]. split; [exact H2|].
    split; [exact H3|]. split; [|intros (a & E); discriminate E]. intros v Hv. apply H4. exact (has_recursive _ _ _ _ _ _ _ _ _ _ _ L _ _ _ Hv).
Qed.

Theorem assign_accepts t : accepts t.
Proof.
  remember (target_size t) as n eqn:En. assert (Hn : target_size t <= n) by lia. clear En. revert t Hn.
  induction n as [|n IH]; intros t Hn; [destruct t; cbn in Hn; lia|].
  intros ty v bvs Hd Hf Ha. destruct t as [x|t|ts]; [eexists; reflexivity|inversion Ha|].
  assert (HA : Forall (fun t => accepts (below t)) ts) by (apply Forall_forall; intros t Ht; apply IH; pose proof (target_below _ _ Ht); lia).
  destruct (one_tuple _ _ Hd) as (es & _ & Heq & Hal & Hhas & Htup). rewrite Heq.
  inversion Ha as [|ts' v' vs bs Hi Hall]; subst.
  assert (Hvs : Forall2 has es vs).
  { destruct Hf as [Hf|(a & ws & E & Hl & Hf)].
    - destruct (has_tuple _ _ _ _ _ _ _ _ _ _ _ L _ _ (Hhas _ Hf)) as (ws & Hw & Htu). rewrite (iterates_once _ _ _ _ _ _ _ _ _ _ _ L _ _ _ Hw Hi). exact Htu.
    - rewrite (Htup (ex_intro _ a E)) in E. injection E as <-.
      rewrite (iterates_once _ _ _ _ _ _ _ _ _ _ _ L _ _ _ (list_iterates _ _ _ _ _ _ _ _ _ _ _ L _ _ Hl) Hi). exact Hf. }
  assert (Hac : forall k, (existsb starred ts = true -> k = star_after ts) -> exists bts, assign_each ts k (Fixed es 0) = Some ([], bts)).
  { intros k Hk. exact (accepts_each ts HA k es 0 vs bvs Hal Hvs (Nat.le_0_l _) Hk Hall). }
  pose proof (assigned_length _ _ _ Hall) as Hlen. pose proof (assigned_one_star _ _ _ _ _ Hall) as Ho. rewrite <- (Forall2_len _ _ _ Hvs) in Hlen.
  enough (exists bts, assign_tuple_target ts (Fixed es 0) = Some ([], bts)) as (bts & Hb) by (exists bts; apply assign_targets_tuple; exact Hb).
  unfold UnpackModel.assign_tuple_target, targets_len_infos. cbn [iterator_len]. change (length es <? 0) with false. cbv iota. rewrite Nat.sub_0_r.
  rewrite (count_spec ts 0 Ho). destruct (existsb starred ts) eqn:Ex; cbn [plus] in *; unfold length_issue.
  + replace (length es <? star_before ts + star_after ts) with false by (symmetry; apply Nat.ltb_ge; exact Hlen). change (1 <? 1) with false. cbn [app]. apply Hac. reflexivity.
  + rewrite Hlen, Nat.eqb_refl. change (1 <? 0) with false. cbn [app]. apply Hac. discriminate.
Qed.

End Exact.

(** No panics *)
Section NoPanic.
Variables (list_class str_class object_class : N) (items : N -> list type -> class_items) (join union : list type -> type)
          (avoid_implicit_literal : type -> type) (defined : target -> bool).

Local Notation iter := (iter str_class items).
Local Notation assign_targets := (assign_targets list_class str_class object_class items join union avoid_implicit_literal defined).
Local Notation unpack_starred := (unpack_starred list_class object_class join union avoid_implicit_literal).
Local Notation assign_each := (assign_each list_class object_class join union avoid_implicit_literal defined assign_targets).
Local Notation assign_tuple_target := (assign_tuple_target list_class object_class join union avoid_implicit_literal defined assign_targets).

Hypothesis F : flat_laws items join union avoid_implicit_literal.

(** The types of an iterator are flat, and it is no union of unions. *)
Definition flat_args (w : with_unpack type) : bool :=
  forallb flat (before w) && match middle w with Many t => flat t | TypeVarTuple _ => true end && forallb flat (after w).

Fixpoint flat_types (it : iterator) : Prop :=
  match it with
  | Items t => flat t = true
  | Fixed es _ => forallb flat es = true
  | Unpacked w _ _ => flat_args w = true
  | Several its => (fix all its := match its with [] => True | it :: its => flat_types it /\ all its end) its
  | AnyItems => True
  end.

Lemma flat_several its : flat_types (Several its) <-> Forall flat_types its.
Proof.
  induction its as [|it its IH]; cbn [flat_types]; [split; [constructor|auto]|]. split.
  - intros [H1 H2]. constructor; [exact H1|]. apply IH. exact H2.
  - intros H. split; [exact (Forall_inv H)|]. apply IH. exact (Forall_inv_tail H).
Qed.

Definition several (it : iterator) : bool := match it with Several _ => true | _ => false end.

Lemma tuple_iter_flat a : flat (Tuple a) = true -> flat_types (tuple_iter a).
Proof. destruct a as [ts|t|[b m a]]; cbn; auto. Qed.

Lemma class_iter_flat c gs : forallb flat gs = true -> flat_types (snd (class_iter items c gs)) /\ several (snd (class_iter items c gs)) = false.
Proof.
  intros Hg. unfold class_iter. pose proof (flat_items _ _ _ _ F c gs Hg) as H. destruct (items c gs) as [a|t|]; cbn [snd].
  - split; [exact (tuple_iter_flat _ H)|]. destruct a; reflexivity.
  - split; [exact H|reflexivity].
  - split; [exact I|reflexivity].
Qed.

Lemma iter_flat t : flat t = true -> flat_types (snd (iter t)).
Proof.
  induction t as [| | |c gs|s|a|ts IH|n b IH|n t IH|n t IH] using type_induction; intros H; cbn [UnpackModel.iter snd]; try exact I; try reflexivity.
  - apply class_iter_flat. exact H.
  - apply (class_iter_flat str_class []). reflexivity.
  - exact (tuple_iter_flat _ H).
  - cbn [flat] in H. apply andb_true_iff in H. destruct H as [H _]. apply flat_several. rewrite map_map. apply Forall_map. rewrite forallb_forall in H. rewrite Forall_forall in *. auto.
  - destruct b as [t|]; [|exact I]. cbn in H. apply andb_true_iff in H. exact (IH (proj1 H)).
  - cbn in H. apply andb_true_iff in H. exact (IH (proj1 H)).
  - exact (IH H).
Qed.

(** How deep the iterators are nested *)
Lemma level_zero t : level t = 0 -> several (snd (iter t)) = false.
Proof.
  induction t as [| | |c gs|s|a|ts IH|n b IH|n t IH|n t IH] using type_induction; intros H; cbn [UnpackModel.iter snd]; try reflexivity.
  - unfold class_iter. destruct (items c gs) as [[]| |]; reflexivity.
  - unfold class_iter. destruct (items str_class []) as [[]| |]; reflexivity.
  - destruct a; reflexivity.
  - discriminate.
  - destruct b; [exact (IH H)|reflexivity].
  - exact (IH H).
  - exact (IH H).
Qed.

Lemma level_one t : level t <= 1 -> match snd (iter t) with Several its => Forall (fun it => several it = false) its | _ => True end.
Proof.
  induction t as [| | |c gs|s|a|ts IH|n b IH|n t IH|n t IH] using type_induction; intros H; cbn [UnpackModel.iter snd]; try exact I.
  - unfold class_iter. destruct (items c gs) as [[]| |]; exact I.
  - unfold class_iter. destruct (items str_class []) as [[]| |]; exact I.
  - destruct a; exact I.
  - cbn [level] in H. rewrite map_map. apply Forall_map. apply Forall_forall. intros t Ht. apply level_zero. clear IH. induction ts as [|u ts IHts]; [destruct Ht|].
    cbn [fold_right] in H. destruct Ht as [->|Ht]; [lia|]. apply IHts; [lia|exact Ht].
  - destruct b; [exact (IH H)|exact I].
  - exact (IH H).
  - exact (IH H).
Qed.

Lemma members_flat t : flat t = true -> forall m, In m (members t) -> flat m = true /\ level m <= 1.
Proof.
  induction t as [| | |c gs|s|a|ts IH|n b IH|n t IH|n t IH] using type_induction; intros H m Hm;
    try (destruct Hm as [<-|[]]; split; [exact H|cbn; lia]).
  - cbn [members] in Hm. apply in_flat_map in Hm. destruct Hm as (t & Ht & Hm). cbn [flat] in H. apply andb_true_iff in H. destruct H as [H1 H2].
    rewrite forallb_forall in H1, H2. rewrite Forall_forall in IH. specialize (H1 t Ht). specialize (H2 t Ht). specialize (IH t Ht H1 m).
    destruct t; try (destruct Hm as [<-|[]]; split; [exact H1|apply Nat.leb_le; exact H2]). exact (IH Hm).
  - destruct Hm as [<-|[]]. split; [exact H|]. destruct b as [t|]; [|cbn; lia]. cbn in H. apply andb_true_iff in H. apply Nat.leb_le. exact (proj2 H).
  - destruct Hm as [<-|[]]. split; [exact H|]. cbn in H. apply andb_true_iff in H. apply Nat.leb_le. exact (proj2 H).
  - exact (IH H m Hm).
Qed.

Definition runs (t : target) : Prop := forall ty, flat ty = true -> assign_targets t ty <> None.

Lemma seq_some a b : a <> None -> b tt <> None -> seq a b <> None.
Proof. unfold seq. destruct a as [[is bs]|]; [|contradiction]. intros _ H. destruct (b tt) as [[is' bs']|]; [discriminate|contradiction]. Qed.

Lemma in_sequence_some {A} (f : A -> result) l : (forall x, In x l -> f x <> None) -> in_sequence f l <> None.
Proof. induction l as [|x l IH]; intros H; [discriminate|]. rewrite in_sequence_cons. apply seq_some; [apply H; left; reflexivity|]. apply IH. intros y Hy. apply H. right. exact Hy. Qed.

(** Enough is left for the targets. *)
Definition enough (ts : list target) (it : iterator) : Prop :=
  match it with
  | Fixed es i => i <= length es /\ if existsb starred ts then star_before ts + star_after ts <= length es - i else length ts = length es - i
  | Unpacked w i j => existsb starred ts = true /\ i + star_before ts <= length (before w) /\ star_after ts <= length (after w) /\ j = 0
  | Several _ => False
  | _ => True
  end.
Definition enough_after (ts : list target) (it : iterator) : Prop :=
  match it with
  | Fixed es i => i + length ts <= length es
  | Unpacked w i j => i = length (before w) /\ j + length ts <= length (after w)
  | Several _ => False
  | _ => True
  end.

Lemma forallb_nth {A} (f : A -> bool) l i x : forallb f l = true -> nth_error l i = Some x -> f x = true.
Proof. intros H E. rewrite forallb_forall in H. apply H. exact (nth_error_In _ _ E). Qed.

Lemma flat_args_parts w : flat_args w = true -> forallb flat (before w) = true /\ forallb flat (after w) = true /\ match middle w with Many t => flat t = true | TypeVarTuple _ => True end.
Proof. unfold flat_args. intros H. apply andb_true_iff in H. destruct H as [H H3]. apply andb_true_iff in H. destruct H as [H1 H2]. repeat split; auto. destruct (middle w); auto. Qed.

Lemma next_some t ts it : enough (t :: ts) it -> starred t = false -> flat_types it ->
  exists it' ty, unpack_next it = Some (it', ty) /\ enough ts it' /\ flat_types it' /\ flat ty = true.
Proof.
  intros He Hs Hf.
  assert (Hsb : star_before (t :: ts) = S (star_before ts)) by (destruct t; [reflexivity|discriminate|reflexivity]).
  assert (Hsa : star_after (t :: ts) = star_after ts) by (destruct t; [reflexivity|discriminate|reflexivity]).
  unfold unpack_next, unpack_next_with. destruct it as [x|es i|w i j|its|].
  - exists (Items x), x. auto.
  - cbn [enough existsb] in He. rewrite Hs, Hsb, Hsa in He. cbn [orb length] in He. destruct He as [Hi He].
    assert (Hlt : i < length es) by (destruct (existsb starred ts); lia).
    destruct (nth_error es i) as [ty|] eqn:En; [|apply nth_error_None in En; lia]. cbn [option_map]. exists (Fixed es (S i)), ty.
    split; [reflexivity|]. split; [split; [lia|]; destruct (existsb starred ts); lia|]. split; [exact Hf|exact (forallb_nth _ _ _ _ Hf En)].
  - cbn [enough existsb] in He. rewrite Hs, Hsb, Hsa in He. destruct He as (He & Hb & Ha & ->).
    destruct (nth_error (before w) i) as [ty|] eqn:En; [|apply nth_error_None in En; lia]. exists (Unpacked w (S i) 0), ty.
    split; [reflexivity|]. split; [cbn; repeat split; auto; lia|]. split; [exact Hf|]. exact (forallb_nth _ _ _ _ (proj1 (flat_args_parts _ Hf)) En).
  - contradiction.
  - exists AnyItems, Any. auto.
Qed.

Lemma next_some_after t ts it : enough_after (t :: ts) it -> flat_types it ->
  exists it' ty, unpack_next it = Some (it', ty) /\ enough_after ts it' /\ flat_types it' /\ flat ty = true.
Proof.
  intros He Hf. unfold unpack_next, unpack_next_with. destruct it as [x|es i|w i j|its|].
  - exists (Items x), x. auto.
  - cbn in He. destruct (nth_error es i) as [ty|] eqn:En; [|apply nth_error_None in En; lia]. cbn [option_map]. exists (Fixed es (S i)), ty.
    split; [reflexivity|]. split; [cbn; lia|]. split; [exact Hf|exact (forallb_nth _ _ _ _ Hf En)].
  - cbn in He. destruct He as [-> He]. rewrite (proj2 (nth_error_None _ _) (le_n _)).
    destruct (nth_error (after w) j) as [ty|] eqn:En; [|apply nth_error_None in En; lia]. cbn [option_map]. exists (Unpacked w (length (before w)) (S j)), ty.
    split; [reflexivity|]. split; [cbn; split; [reflexivity|lia]|]. split; [exact Hf|]. exact (forallb_nth _ _ _ _ (proj1 (proj2 (flat_args_parts _ Hf))) En).
  - contradiction.
  - exists AnyItems, Any. auto.
Qed.

Lemma forallb_part {A} (f : A -> bool) l l' : incl l' l -> forallb f l = true -> forallb f l' = true.
Proof. intros Hi H. rewrite forallb_forall in *. auto. Qed.

Lemma firstn_incl {A} n (l : list A) : incl (firstn n l) l.
Proof. intros x Hx. rewrite <- (firstn_skipn n l). apply in_or_app. left. exact Hx. Qed.
Lemma skipn_incl {A} n (l : list A) : incl (skipn n l) l.
Proof. intros x Hx. rewrite <- (firstn_skipn n l). apply in_or_app. right. exact Hx. Qed.

Lemma starred_some t ts it tt_ : enough (Starred t :: ts) it -> flat_types it -> existsb starred ts = false ->
  exists it' e ty, unpack_starred it (length ts) tt_ true = Some (it', e, ty) /\ enough_after ts it' /\ flat_types it' /\ flat ty = true.
Proof.
  intros He Hf Hs. unfold UnpackModel.unpack_starred, list_of. destruct it as [x|es i|w i j|its|].
  - do 3 eexists. split; [reflexivity|]. repeat split; auto. cbn in *. rewrite Hf. reflexivity.
  - cbn in He. destruct He as [Hi He]. destruct (Nat.ltb_spec (length es) (length ts)); [lia|]. destruct (Nat.ltb_spec (length es - length ts) i); [lia|].
    do 3 eexists. split; [reflexivity|]. split; [cbn; lia|]. split; [exact Hf|].
    assert (Hp : forallb flat (firstn (length es - length ts - i) (skipn i es)) = true).
    { apply (forallb_part _ es); [|exact Hf]. intros x Hx. apply (skipn_incl i), (firstn_incl _ _ _ Hx). }
    destruct tt_; cbn [flat forallb]; [exact Hp|]. rewrite (flat_join _ _ _ _ F); [reflexivity|].
    rewrite forallb_forall. intros x Hx. apply in_map_iff in Hx. destruct Hx as (y & <- & Hy). apply (flat_avoided _ _ _ _ F). rewrite forallb_forall in Hp. auto.
  - cbn in He. destruct He as (_ & Hb & Ha & ->). do 3 eexists. split; [reflexivity|]. split; [cbn; split; [reflexivity|lia]|]. split; [exact Hf|].
    destruct (flat_args_parts _ Hf) as (H1 & H2 & H3). cbn [flat forallb]. destruct (middle w) as [n|ty]; [reflexivity|].
    rewrite (flat_join _ _ _ _ F); [reflexivity|]. rewrite !forallb_app. cbn [forallb]. rewrite H3.
    rewrite (forallb_part _ _ _ (skipn_incl i _) H1), (forallb_part _ _ _ (firstn_incl _ _) H2). reflexivity.
  - contradiction.
  - do 3 eexists. split; [reflexivity|]. repeat split; auto.
Qed.

Lemma each_after_some ts : Forall (fun t => runs (below t)) ts -> existsb starred ts = false -> forall a it, enough_after ts it -> flat_types it -> assign_each ts a it <> None.
Proof.
  induction ts as [|t ts IH]; intros HR Hs a it He Hf; [discriminate|]. cbn in Hs. apply orb_false_iff in Hs. destruct Hs as [Hs1 Hs2].
  rewrite (assign_each_item _ _ _ _ _ _ _ _ _ _ _ _ Hs1). destruct (next_some_after _ _ _ He Hf) as (it' & ty & -> & He' & Hf' & Hty).
  apply seq_some; [|exact (IH (Forall_inv_tail HR) Hs2 _ _ He' Hf')]. pose proof (Forall_inv HR) as Hr. cbv beta in Hr. rewrite (below_self _ Hs1) in Hr. exact (Hr _ Hty).
Qed.

Lemma each_some ts : Forall (fun t => runs (below t)) ts -> one_star ts = true -> forall a it, enough ts it -> flat_types it ->
  (existsb starred ts = true -> a = star_after ts) -> assign_each ts a it <> None.
Proof.
  induction ts as [|t ts IH]; intros HR Ho a it He Hf Hc; [discriminate|]. destruct (starred t) eqn:Hs.
  - destruct t as [x|t|ts2]; [discriminate| |discriminate]. cbn in Ho. apply negb_true_iff in Ho. specialize (Hc eq_refl). cbn in Hc. subst a.
    rewrite assign_each_star. destruct (starred_some _ _ _ (is_targets t) He Hf Ho) as (it' & e & ty & -> & He' & Hf' & Hty).
    apply seq_some; [|exact (each_after_some _ (Forall_inv_tail HR) Ho _ _ He' Hf')].
    apply (Forall_inv HR). unfold starred_value. destruct (e && _ && _); [reflexivity|exact Hty].
  - rewrite (assign_each_item _ _ _ _ _ _ _ _ _ _ _ _ Hs). destruct (next_some _ _ _ He Hs Hf) as (it' & ty & -> & He' & Hf' & Hty).
    apply seq_some.
    + pose proof (Forall_inv HR) as Hr. cbv beta in Hr. rewrite (below_self _ Hs) in Hr. exact (Hr _ Hty).
    + apply (IH (Forall_inv_tail HR)); auto; [destruct t; [exact Ho|discriminate|exact Ho]|]. intros Hst. destruct t; [exact (Hc Hst)|discriminate|exact (Hc Hst)].
Qed.

Lemma tuple_target_some ts it : Forall runs ts -> Forall (fun t => runs (below t)) ts -> fresh it -> flat_types it -> several it = false ->
  (forall es i, it = Fixed es i -> i = 0) -> assign_tuple_target ts it <> None.
Proof.
  intros HR HB Hfr Hf Hse H0. unfold UnpackModel.assign_tuple_target.
  destruct (iterator_len it) as [actual|] eqn:El.
  2:{ destruct it as [x|es i|w i j|its|]; try discriminate. rewrite (H0 es i eq_refl) in El. discriminate. }
  destruct (targets_len_infos ts) as [sc expected] eqn:Ec. cbv zeta.
  destruct (length_issue expected actual ++ (if 1 <? sc then [MultipleStars] else [])) as [|x is] eqn:Ei.
  2:{ apply seq_some; [discriminate|]. apply in_sequence_some. intros t Ht. rewrite Forall_forall in HR. apply (HR t Ht). reflexivity. }
  apply app_eq_nil in Ei. destruct Ei as [Ei Es].
  assert (Ho : one_star ts = true).
  { destruct (one_star ts) eqn:Eo; [reflexivity|]. exfalso. destruct (count_stars ts 0 0 0) as (_ & _ & Hc). specialize (Hc eq_refl Eo). unfold targets_len_infos in Ec. rewrite Ec in Hc.
    cbn in Hc. apply Nat.ltb_lt in Hc. rewrite Hc in Es. discriminate. }
  unfold targets_len_infos in Ec. rewrite (count_spec ts 0 Ho) in Ec.
  apply each_some; [exact HB|exact Ho| |exact Hf|].
  - destruct it as [x|es i|w i j|its|]; try exact I; [| |discriminate].
    + rewrite (H0 es i eq_refl) in *. cbn in El. injection El as <-. rewrite Nat.sub_0_r in Ei. cbn [enough]. rewrite Nat.sub_0_r. split; [lia|].
      destruct (existsb starred ts); injection Ec as _ <-; cbn [plus] in Ei; unfold length_issue in Ei.
      * destruct (length es <? star_before ts + star_after ts) eqn:E; [discriminate|]. apply Nat.ltb_ge in E. exact E.
      * destruct (Nat.eqb_spec (length es) (length ts)) as [E|E]; [symmetry; exact E|]. destruct (length es <? length ts); discriminate.
    + destruct Hfr as [-> ->]. cbn in El. injection El as <-. cbn [enough].
      destruct (existsb starred ts); injection Ec as _ <-; cbn [plus] in Ei; unfold length_issue in Ei; [|discriminate].
      destruct (length (before w) <? star_before ts) eqn:E1; [discriminate|]. destruct (length (after w) <? star_after ts) eqn:E2; [discriminate|].
      apply Nat.ltb_ge in E1, E2. auto.
  - intros Hst. rewrite Hst in Ec. injection Ec as _ <-. reflexivity.
Qed.

(** Fixed iterators start at 0. *)
Fixpoint at_start (it : iterator) : Prop :=
  match it with
  | Fixed _ i => i = 0
  | Several its => (fix all its := match its with [] => True | it :: its => at_start it /\ all its end) its
  | _ => True
  end.

Lemma at_start_several its : at_start (Several its) <-> Forall at_start its.
Proof.
  induction its as [|it its IH]; cbn [at_start]; [split; [constructor|auto]|]. split.
  - intros [H1 H2]. constructor; [exact H1|]. apply IH. exact H2.
  - intros H. split; [exact (Forall_inv H)|]. apply IH. exact (Forall_inv_tail H).
Qed.

Lemma iter_at_start t : at_start (snd (iter t)).
Proof.
  assert (HT : forall a, at_start (tuple_iter a)) by (intros []; cbn; auto).
  induction t as [| | |c gs|s|a|ts IH|n b IH|n t IH|n t IH] using type_induction; cbn [UnpackModel.iter snd]; try exact I.
  - unfold class_iter. destruct (items c gs); cbn [snd]; [apply HT|exact I|exact I].
  - unfold class_iter. destruct (items str_class []); cbn [snd]; [apply HT|exact I|exact I].
  - apply HT.
  - apply at_start_several. rewrite map_map. apply Forall_map. exact IH.
  - destruct b; [exact IH|exact I].
  - exact IH.
  - exact IH.
Qed.

Theorem assign_runs t : runs t.
Proof.
  remember (target_size t) as n eqn:En. assert (Hn : target_size t <= n) by lia. clear En. revert t Hn.
  induction n as [|n IH]; intros t Hn ty Hty; [destruct t; cbn in Hn; lia|]. destruct t as [x|t|ts].
  - discriminate.
  - cbn. apply IH; [cbn in Hn; lia|reflexivity].
  - cbn [UnpackModel.assign_targets]. apply in_sequence_some. intros m Hm. destruct (members_flat _ Hty _ Hm) as [Hfm Hlm].
    assert (HT : forall t, In t ts -> target_size t <= n).
    { intros t Ht. assert (target_size t < target_size (Targets ts)); [|lia].
      cbn. clear - Ht. induction ts as [|u ts IH]; [destruct Ht|]. cbn. destruct Ht as [->|Ht]; [lia|]. specialize (IH Ht). lia. }
    assert (HR : Forall runs ts) by (apply Forall_forall; intros t Ht; apply IH; auto).
    assert (HB : Forall (fun t => runs (below t)) ts).
    { apply Forall_forall. intros t Ht. apply IH. specialize (HT t Ht). destruct t; cbn in *; lia. }
    unfold UnpackModel.assign_member. apply seq_some; [discriminate|].
    pose proof (iter_flat _ Hfm) as H1. pose proof (level_one _ Hlm) as H2. pose proof (iter_fresh str_class items m) as H3. pose proof (iter_at_start m) as H4.
    destruct (iter m) as [is it]. cbn [snd] in *. apply seq_some; [discriminate|].
    assert (Hone : forall it, fresh it -> flat_types it -> several it = false -> at_start it -> assign_tuple_target ts it <> None).
    { intros it' h1 h2 h3 h4. apply tuple_target_some; auto. intros es i ->. exact h4. }
    destruct it as [x|es i|w i j|its|]; try (apply Hone; auto; fail).
    apply flat_several in H1. apply fresh_several in H3. apply at_start_several in H4. rewrite Forall_forall in *.
    apply in_sequence_some. intros it Hit. apply Hone; auto.
Qed.

End NoPanic.
