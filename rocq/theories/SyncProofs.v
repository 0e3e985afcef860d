From Coq Require Import List NArith Arith Bool Lia.
From Verif Require Import TextModel TextProofs LinesSpec LinesModel LinesProofs SyncModel SyncSpec.
Import ListNotations.

(** [L] is the index of [t] below line [v], except that the last entry may be
    stale by one when a line feed was put after a lone carriage return. *)
Definition valid_below (L : list nat) (t : text) (v : option nat) : Prop :=
  match v with
  | None => L = compute_lines t
  | Some v => forall ls, lines_of t ls ->
      v < length ls /\
      forall i, i < v -> exists x, nth_error L i = Some x /\
        (x = line_start ls (S i) \/
         (S i = v /\ x + 1 = line_start ls (S i) /\
          exists s, nth_error ls i = Some (s, [CR; LF])))
  end.

Lemma line_infos_valid L t v ls line s e :
  valid_below L t v -> match v with None => True | Some v => line < v end ->
  lines_of t ls -> nth_error ls line = Some (s, e) ->
  exists r, line_infos L t line = Ok (line_start ls line, s ++ r).
Proof.
  intros Hv Hlt Hl Hn. destruct v as [v|].
  - destruct (Hv ls Hl) as [Hlen Hent].
    destruct (Hent line Hlt) as (x & Hx & Hcase).
    assert (Hst : (if line =? 0 then Some 0 else nth_error L (line - 1)) = Some (line_start ls line)).
    { destruct (Nat.eqb_spec line 0) as [->|Hne]; [reflexivity|].
      destruct (Hent (line - 1) ltac:(lia)) as (y & Hy & Hc).
      rewrite Hy. replace (S (line - 1)) with line in Hc by lia.
      destruct Hc as [->|(Hc & _)]; [reflexivity|lia]. }
    unfold line_infos. rewrite Hx, Hst.
    assert (Hx' : exists r q, s ++ e = (s ++ r) ++ q /\ x - 1 = line_start ls line + bytes (s ++ r)).
    { destruct Hcase as [->|(_ & Hx1 & s' & Hs')].
      - rewrite (line_start_S _ _ _ _ Hn).
        destruct (lines_of_nth_last _ _ Hl _ _ _ Hn) as [_ [[_ He]|[Heq _]]]; [|lia].
        destruct (terminator_split _ He) as (e' & c & -> & _ & _ & Hb).
        exists e', [c]. split; [rewrite <- app_assoc; reflexivity|].
        rewrite Hb, bytes_app. lia.
      - rewrite Hn in Hs'. injection Hs' as -> ->.
        exists [], [CR; LF]. rewrite app_nil_r. split; [reflexivity|].
        rewrite (line_start_S _ _ _ _ Hn) in Hx1. simpl in Hx1.
        change (utf8_len CR) with 1 in Hx1. change (utf8_len LF) with 1 in Hx1. lia. }
    destruct Hx' as (r & q & Hsp & Hx').
    exists r. rewrite Hx'.
    rewrite <- (lines_of_joined _ _ Hl) at 1. rewrite (nth_split_text _ _ _ _ Hn).
    rewrite (app_assoc s e), Hsp, <- app_assoc. unfold line_start at 1 2. rewrite slice_app.
    reflexivity.
  - simpl in Hv. subst L. exists (removelast e). apply line_infos_correct; assumption.
Qed.

Lemma denotes_byte enc t p pre L v :
  valid_below L t v -> match v with None => True | Some v => p_line p < v end ->
  not_astral_eol enc t p -> denotes enc t p pre ->
  line_column_to_safe_byte (Some L) t (input_of enc (p_line p) (p_character p)) = Ok (bytes pre).
Proof.
  intros Hv Hlt Hend (ls & s & e & a & b & Hl & Hn & -> & Hc & ->).
  destruct (line_infos_valid L t v ls (p_line p) (a ++ b) e Hv Hlt Hl Hn) as (r & Hi).
  rewrite bytes_app. change (bytes (joined (firstn (p_line p) ls))) with (line_start ls (p_line p)).
  unfold line_column_to_safe_byte. destruct enc; simpl in *; rewrite Hi, <- app_assoc, Hc; simpl.
  - rewrite Nat.min_l by (rewrite bytes_app; lia).
    unfold is_char_boundary. rewrite drop_bytes_app. simpl.
    rewrite Nat.ltb_irrefl. reflexivity.
  - destruct (utf16_prefix_byte a (b ++ r)) as (o & Hb & Hq1 & Hq2). rewrite Hb. simpl.
    destruct o; [|f_equal; lia]. exfalso.
    destruct (b ++ r) as [|x y] eqn:E; [|discriminate (Hq1 ltac:(discriminate))].
    apply app_eq_nil in E. destruct E as [-> ->].
    specialize (Hq2 eq_refl). symmetry in Hq2. apply Nat.ltb_lt in Hq2.
    rewrite app_nil_r in Hn.
    specialize (Hend eq_refl ls a e Hl Hn Hc).
    rewrite bmp_units16 in Hq2 by assumption. lia.
  - rewrite firstn_app, Nat.sub_diag, firstn_O, app_nil_r, firstn_all.
    rewrite Nat.ltb_irrefl. reflexivity.
Qed.

(** Replacing everything after the first [l] lines. *)
Lemma lines_of_keep_prefix t ls : lines_of t ls ->
  forall l rest, l < length ls ->
  exists ls1, lines_of (joined (firstn l ls) ++ rest) ls1 /\ l < length ls1 /\
    forall i s e, i < l -> nth_error ls i = Some (s, e) ->
      nth_error ls1 i = Some (s, e) \/
      (S i = l /\ e = [CR] /\ nth_error ls1 i = Some (s, [CR; LF])).
Proof.
  induction 1 as [s Hs | s e t ls Hs He Hn Hl IH]; intros l rest Hlt.
  - simpl in Hlt. assert (l = 0) by lia. subst l. simpl.
    destruct (lines_of_exists rest) as [ls1 H1]. exists ls1. split; [assumption|].
    split; [|intros i s' e' Hi; lia].
    pose proof (lines_of_nonempty _ _ H1). destruct ls1; [contradiction|simpl; lia].
  - destruct l as [|l].
    + simpl. destruct (lines_of_exists rest) as [ls1 H1]. exists ls1. split; [assumption|].
      split; [|intros i s' e' Hi; lia].
      pose proof (lines_of_nonempty _ _ H1). destruct ls1; [contradiction|simpl; lia].
    + simpl in Hlt. cbn [firstn joined]. rewrite <- !app_assoc.
      destruct (IH l rest ltac:(lia)) as (ls1 & H1 & H2 & H3).
      destruct (joined (firstn l ls) ++ rest) as [|c r] eqn:E.
      { exists ((s, e) :: ls1). split; [|split].
        - apply lines_more; auto. intros _ r. discriminate.
        - simpl. lia.
        - intros i s' e' Hi Hnth. destruct i as [|i].
          + left. exact Hnth.
          + simpl in Hnth. destruct (H3 i s' e' ltac:(lia) Hnth) as [H|(H & H' & H'')].
            * left. exact H.
            * right. repeat split; auto. }
      destruct (list_eq_dec N.eq_dec e [CR]) as [Ee|Ee];
        [destruct (N.eq_dec c LF) as [->|Hc]|].
      * (* merge: only possible at the seam *)
        assert (l = 0).
        { destruct l as [|l]; [reflexivity|exfalso].
          destruct Hl as [s0 Hs0 | s0 e0 t0 ls0 Hs0 He0 Hn0 Hl0]; [simpl in Hlt; lia|].
          cbn [firstn joined] in E. specialize (Hn Ee).
          destruct s0 as [|c0 s0].
          - destruct He0 as [->|[->| ->]]; simpl in E; try discriminate E.
            exact (Hn t0 eq_refl).
          - simpl in E. injection E as -> E. apply (Hn (s0 ++ e0 ++ t0)). reflexivity. }
        subst l. simpl in E. subst rest. subst e.
        destruct (lines_of_exists r) as [ls2 Hls2].
        exists ((s, [CR; LF]) :: ls2). split; [|split].
        -- apply (lines_more s [CR; LF] r ls2); auto; [right; left; reflexivity|discriminate].
        -- pose proof (lines_of_nonempty _ _ Hls2). destruct ls2; [contradiction|simpl; lia].
        -- intros i s' e' Hi Hnth. assert (i = 0) by lia. subst i. simpl in Hnth.
           injection Hnth as <- <-. right. repeat split.
      * exists ((s, e) :: ls1). split; [|split].
        -- apply lines_more; auto. intros _ r' E'. injection E' as E' _. contradiction.
        -- simpl. lia.
        -- intros i s' e' Hi Hnth. destruct i as [|i].
           ++ left. exact Hnth.
           ++ simpl in Hnth. destruct (H3 i s' e' ltac:(lia) Hnth) as [H|(H & H' & H'')].
              ** left. exact H.
              ** right. repeat split; auto.
      * exists ((s, e) :: ls1). split; [|split].
        -- apply lines_more; auto; intros E'; contradiction.
        -- simpl. lia.
        -- intros i s' e' Hi Hnth. destruct i as [|i].
           ++ left. exact Hnth.
           ++ simpl in Hnth. destruct (H3 i s' e' ltac:(lia) Hnth) as [H|(H & H' & H'')].
              ** left. exact H.
              ** right. repeat split; auto.
Qed.

Lemma line_start_agree ls ls1 : forall l,
  (forall i, i < l -> exists s e, nth_error ls i = Some (s, e) /\ nth_error ls1 i = Some (s, e)) ->
  line_start ls l = line_start ls1 l.
Proof.
  induction l as [|l IH]; intros H; [reflexivity|].
  destruct (H l ltac:(lia)) as (s & e & H1 & H2).
  rewrite (line_start_S _ _ _ _ H1), (line_start_S _ _ _ _ H2).
  rewrite IH; [reflexivity|]. intros i Hi. apply H. lia.
Qed.

Lemma joined_firstn_mono ls a b : a <= b ->
  exists m, joined (firstn b ls) = joined (firstn a ls) ++ m.
Proof.
  intros H. exists (joined (firstn (b - a) (skipn a ls))).
  rewrite <- joined_app. f_equal.
  rewrite <- (firstn_skipn a (firstn b ls)) at 1.
  rewrite firstn_firstn, Nat.min_l by lia. f_equal.
  rewrite skipn_firstn_comm. reflexivity.
Qed.

Lemma lines_of_fun t ls : lines_of t ls -> forall ls', lines_of t ls' -> ls = ls'.
Proof.
  induction 1 as [s Hs | s e t ls Hs He Hn Hl IH]; intros ls' H'.
  - remember s as t0 eqn:E0. destruct H' as [s' Hs'|s' e' t' ls' Hs' He' Hn' Hl']; [subst; reflexivity|].
    exfalso. subst s. destruct Hs as [Ha Hb].
    destruct He' as [->|[->| ->]].
    + apply Ha. apply in_or_app. right. left. reflexivity.
    + apply Hb. apply in_or_app. right. left. reflexivity.
    + apply Hb. apply in_or_app. right. left. reflexivity.
  - remember (s ++ e ++ t) as t0 eqn:E0.
    destruct H' as [s' Hs'|s' e' t' ls' Hs' He' Hn' Hl'].
    + exfalso. subst s'. destruct Hs' as [Ha Hb].
      destruct He as [->|[->| ->]].
      * apply Ha. apply in_or_app. right. left. reflexivity.
      * apply Hb. apply in_or_app. right. left. reflexivity.
      * apply Hb. apply in_or_app. right. left. reflexivity.
    + assert (Hss : s = s').
      { clear IH Hl Hl' Hn Hn'. revert s' Hs' E0. induction s as [|c s IHs]; intros s' Hs' E0.
        - destruct s' as [|c' s']; [reflexivity|]. exfalso.
          simpl in E0. destruct Hs' as [Ha Hb].
          destruct He as [->|[->| ->]]; simpl in E0; injection E0 as E0 _; subst c';
            [apply Ha|apply Hb|apply Hb]; left; reflexivity.
        - destruct s' as [|c' s'].
          + exfalso. destruct Hs as [Ha Hb].
            destruct He' as [->|[->| ->]]; simpl in E0; injection E0 as E0 _; subst c;
              [apply Ha|apply Hb|apply Hb]; left; reflexivity.
          + simpl in E0. injection E0 as -> E0. f_equal. apply IHs; auto.
            * destruct Hs as [Ha Hb]. split; intros ?; [apply Ha|apply Hb]; right; assumption.
            * destruct Hs' as [Ha Hb]. split; intros ?; [apply Ha|apply Hb]; right; assumption. }
      subst s'. apply app_inv_head in E0.
      assert (Het : e = e' /\ t = t').
      { destruct He as [->|[->| ->]]; destruct He' as [->|[->| ->]]; simpl in E0; try discriminate;
          injection E0 as E0; subst; auto.
        - exfalso. exact (Hn' eq_refl _ eq_refl).
        - exfalso. apply (Hn eq_refl _ eq_refl). }
      destruct Het as [-> ->]. f_equal. apply IH. assumption.
Qed.

Lemma width_app enc a b : width enc (a ++ b) = width enc a + width enc b.
Proof.
  destruct enc; simpl.
  - apply bytes_app.
  - apply units16_app.
  - apply app_length.
Qed.

Lemma denotes_ordered enc t a b pre mid :
  denotes enc t a pre -> denotes enc t b (pre ++ mid) ->
  p_line a <= p_line b /\ pos_ltb b a = false.
Proof.
  intros (ls & s & e & p & q & Hl & Hn & -> & Hc & Hpre)
         (ls' & s' & e' & p' & q' & Hl' & Hn' & -> & Hc' & Hpre').
  assert (ls' = ls) by (eapply lines_of_fun; eassumption). subst ls'.
  assert (Hle : p_line a <= p_line b).
  { destruct (le_lt_dec (p_line a) (p_line b)) as [H|Hlt]; [assumption|exfalso].
    destruct (joined_firstn_mono ls (S (p_line b)) (p_line a) Hlt) as [m Hm].
    assert (Hb : bytes pre >= line_start ls (S (p_line b))).
    { rewrite Hpre, Hm, !bytes_app. unfold line_start. lia. }
    rewrite (line_start_S _ _ _ _ Hn') in Hb.
    assert (Hb' : bytes pre <= line_start ls (p_line b) + bytes p').
    { apply (f_equal bytes) in Hpre'. rewrite !bytes_app in Hpre'. unfold line_start. lia. }
    rewrite bytes_app in Hb.
    destruct (lines_of_nth_last _ _ Hl _ _ _ Hn') as [_ [[_ He]|[Heq _]]].
    - destruct (terminator_split _ He) as (? & ? & _ & _ & _ & Hbe). lia.
    - assert (p_line a < length ls) by (apply nth_error_Some; rewrite Hn; discriminate). lia. }
  split; [assumption|].
  unfold pos_ltb. replace (p_line b <? p_line a) with false by (symmetry; apply Nat.ltb_ge; lia).
  destruct (Nat.eqb_spec (p_line b) (p_line a)) as [E|E]; [|reflexivity]. simpl.
  apply Nat.ltb_ge.
  rewrite E in Hpre'. rewrite Hpre in Hpre'. rewrite <- app_assoc in Hpre'.
  apply app_inv_head in Hpre'. rewrite Hc, Hc', <- Hpre', width_app. lia.
Qed.

(** Main simulation. *)
Lemma apply_loop_correct enc t cs t' :
  sync enc (not_astral_eol enc) t cs t' ->
  (forall c, In c cs -> ch_range c <> None) ->
  forall idx bor v,
    (cow_idx idx = None \/ exists L, cow_idx idx = Some L /\ valid_below L t v) ->
    fst (apply_loop enc t idx bor v cs) = Ok t'.
Proof.
  induction 1 as [t | t s cs t' Hsync IH | t a b s cs t' pre mid suf HPa HPb Ht Ha Hb Hsync IH];
    intros Hcs idx bor v Hidx.
  - reflexivity.
  - exfalso. apply (Hcs (mk_change None s)); [left; reflexivity|reflexivity].
  - cbn [apply_loop ch_range ch_text].
    destruct (denotes_ordered _ _ _ _ _ _ Ha Hb) as [Hle Hord]. rewrite Hord.
    set (rebuild := match v with None => false | Some v0 => v0 <=? p_line b end).
    set (idx1 := if rebuild then Owned None else idx).
    (* The lines used are valid for both positions *)
    assert (H1 : exists L w, get_lines (cow_idx idx1) t = L /\ valid_below L t w /\
              match w with None => True | Some w => p_line b < w end).
    { unfold idx1, rebuild. destruct v as [v0|].
      - destruct (Nat.leb_spec v0 (p_line b)).
        + exists (compute_lines t), None. repeat split.
        + destruct Hidx as [Hi|(L & Hi & Hv)].
          * exists (compute_lines t), None. rewrite Hi. repeat split.
          * exists L, (Some v0). rewrite Hi. split; [reflexivity|split; assumption].
      - destruct Hidx as [Hi|(L & Hi & Hv)].
        + exists (compute_lines t), None. rewrite Hi. repeat split.
        + exists L, None. rewrite Hi. split; [reflexivity|split; [assumption|exact I]]. }
    destruct H1 as (L & w & HL & Hv & Hw).
    assert (Hinit : cow_idx (cow_init idx1 t) = Some L)
      by (destruct idx1; simpl in *; rewrite HL; reflexivity).
    assert (HsA : line_column_to_safe_byte (cow_idx idx1) t (input_of enc (p_line a) (p_character a))
                  = Ok (bytes pre)).
    { rewrite <- (denotes_byte enc t a pre L w Hv); auto.
      - unfold line_column_to_safe_byte, line_column_to_byte.
        rewrite HL. reflexivity.
      - destruct w; [lia|exact I]. }
    rewrite HsA.
    assert (HsB : line_column_to_safe_byte (cow_idx (cow_init idx1 t)) t (input_of enc (p_line b) (p_character b))
                  = Ok (bytes pre + bytes mid)).
    { rewrite <- bytes_app, Hinit. apply (denotes_byte enc t b (pre ++ mid) L w); auto. }
    rewrite HsB.
    rewrite Ht at 1. rewrite replace_range_app.
    apply IH.
    + intros c Hc. apply Hcs. right. assumption.
    + right. exists L. split; [assumption|].
      destruct Ha as (ls & s0 & e0 & p & q & Hl & Hn & -> & Hc & Hpre).
      assert (Hlt : p_line a < length ls) by (apply nth_error_Some; rewrite Hn; discriminate).
      destruct (lines_of_keep_prefix _ _ Hl (p_line a) (p ++ s ++ suf) Hlt) as (ls1 & Hl1 & Hlen1 & Hk).
      assert (Ht1 : pre ++ s ++ suf = joined (firstn (p_line a) ls) ++ p ++ s ++ suf)
        by (rewrite Hpre, <- app_assoc; reflexivity).
      intros ls2 Hl2. rewrite Ht1 in Hl2.
      assert (ls2 = ls1) by (eapply lines_of_fun; eassumption). subst ls2.
      split; [assumption|]. intros i Hi.
      (* entry of L for t *)
      assert (HLi : nth_error L i = Some (line_start ls (S i))).
      { destruct w as [w|].
        - destruct (Hv ls Hl) as [_ Hent]. destruct (Hent i ltac:(lia)) as (x & Hx & [->|(Hc' & _)]);
            [exact Hx|lia].
        - simpl in Hv. subst L. rewrite Hv. unfold compute_lines. rewrite (newline_ends_nth _ _ Hl).
          replace (S i <? length ls) with true by (symmetry; apply Nat.ltb_lt; lia). reflexivity. }
      exists (line_start ls (S i)). split; [assumption|].
      destruct (nth_error ls i) as [[si ei]|] eqn:Ei; [|apply nth_error_None in Ei; lia].
      assert (Hbelow : line_start ls i = line_start ls1 i).
      { apply line_start_agree. intros j Hj.
        destruct (nth_error ls j) as [[sj ej]|] eqn:Ej; [|apply nth_error_None in Ej; lia].
        exists sj, ej. split; [reflexivity|].
        destruct (Hk j sj ej ltac:(lia) Ej) as [H|(H & _)]; [assumption|lia]. }
      rewrite (line_start_S _ _ _ _ Ei).
      destruct (Hk i si ei Hi Ei) as [H|(H & -> & H')].
      * left. rewrite (line_start_S _ _ _ _ H). lia.
      * right. split; [assumption|]. rewrite (line_start_S _ _ _ _ H').
        split; [|exists si; assumption]. rewrite Hbelow. simpl.
        change (utf8_len CR) with 1. change (utf8_len LF) with 1. lia.
Qed.

Lemma after_last_full_none cs :
  after_last_full cs = None -> forall c, In c cs -> ch_range c <> None.
Proof.
  induction cs as [|c cs IH]; intros H c' Hin; [destruct Hin|].
  simpl in H. destruct (after_last_full cs) as [x|] eqn:E; [discriminate|].
  destruct (ch_range c) eqn:Er; [|discriminate].
  destruct Hin as [<-|Hin]; [rewrite Er; discriminate|]. apply IH; auto.
Qed.

Lemma after_last_full_some enc P t cs t' : sync enc P t cs t' ->
  forall s r, after_last_full cs = Some (s, r) ->
    sync enc P s r t' /\ (forall c, In c r -> ch_range c <> None).
Proof.
  induction 1 as [t | t s cs t' Hsync IH | t a b s cs t' pre mid suf HPa HPb Ht Ha Hb Hsync IH];
    intros s0 r H; simpl in H.
  - discriminate.
  - destruct (after_last_full cs) as [x|] eqn:E.
    + injection H as ->. apply IH. reflexivity.
    + injection H as <- <-. split; [assumption|]. apply after_last_full_none. assumption.
  - destruct (after_last_full cs) as [x|] eqn:E; [|discriminate].
    injection H as ->. apply IH. reflexivity.
Qed.

Lemma apply_document_changes_correct enc t idx cs t' :
  sync enc (not_astral_eol enc) t cs t' ->
  idx = None \/ (idx = Some (compute_lines t) /\
                 (after_last_full cs = None \/ exists s, after_last_full cs = Some (s, []))) ->
  fst (apply_document_changes enc t idx cs) = Ok t'.
Proof.
  intros Hs Hidx. unfold apply_document_changes.
  destruct (after_last_full cs) as [[s r]|] eqn:E.
  - destruct (after_last_full_some _ _ _ _ _ Hs _ _ E) as [Hs' Hr].
    destruct r as [|c r].
    + simpl. inversion Hs'. reflexivity.
    + apply apply_loop_correct; auto. left. simpl.
      destruct Hidx as [->|[_ [H|[s' H]]]]; [reflexivity|discriminate|discriminate].
  - destruct cs as [|c cs].
    + simpl. inversion Hs. reflexivity.
    + apply apply_loop_correct; auto.
      * apply after_last_full_none. assumption.
      * simpl. destruct Hidx as [->|[-> _]]; [left; reflexivity|].
        right. exists (compute_lines t). split; reflexivity.
Qed.

(** The index of the open file stays an index of its text while ranged changes are applied. *)
Lemma apply_loop_borrowed enc t cs : forall txt idx bor v,
  bor = None \/ bor = Some (compute_lines t) ->
  match idx with
  | Owned _ => True
  | Borrowed i => i = bor /\ (i = None -> txt = t)
  end ->
  snd (apply_loop enc txt idx bor v cs) = None \/
  snd (apply_loop enc txt idx bor v cs) = Some (compute_lines t).
Proof.
  induction cs as [|c cs IH]; intros txt idx bor v Hb Hi; [exact Hb|].
  cbn [apply_loop]. destruct (ch_range c) as [[a b]|]; [|apply IH; assumption].
  destruct (pos_ltb b a); [exact Hb|].
  set (idx1 := if match v with None => false | Some v0 => v0 <=? p_line b end then Owned None else idx).
  assert (Hi1 : match idx1 with Owned _ => True | Borrowed i => i = bor /\ (i = None -> txt = t) end).
  { unfold idx1. destruct (match v with None => false | Some v0 => v0 <=? p_line b end); [exact I|exact Hi]. }
  set (bor1 := match cow_init idx1 txt with Borrowed i => i | Owned _ => bor end).
  assert (Hb1 : bor1 = None \/ bor1 = Some (compute_lines t)).
  { unfold bor1. destruct idx1 as [i|i]; cbn [cow_init]; [|exact Hb].
    destruct Hi1 as [-> Hn]. right. destruct Hb as [->| ->]; cbn [get_lines]; [rewrite (Hn eq_refl)|]; reflexivity. }
  assert (Hi2 : match cow_init idx1 txt with Owned _ => True | Borrowed i => i = bor1 /\ (i = None -> False) end).
  { unfold bor1. destruct idx1 as [i|i]; cbn [cow_init]; [|exact I]. split; [reflexivity|discriminate]. }
  destruct (line_column_to_safe_byte (cow_idx idx1) txt (input_of enc (p_line a) (p_character a))) as [x| |]; try exact Hb1.
  destruct (line_column_to_safe_byte (cow_idx (cow_init idx1 txt)) txt (input_of enc (p_line b) (p_character b))) as [y| |];
    try exact Hb1.
  destruct (replace_range txt x y (ch_text c)); [|exact Hb1].
  apply IH; [exact Hb1|]. clearbody bor1. destruct (cow_init idx1 txt); [|exact I].
  destruct Hi2 as [-> Hn]. split; [reflexivity|]. intros E. destruct (Hn E).
Qed.
