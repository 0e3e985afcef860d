(** Proofs about [LinesModel] against [LinesSpec]. *)
From Coq Require Import List NArith Arith Bool Lia.
From Verif Require Import TextModel TextProofs LinesModel LinesSpec.
Import ListNotations.

Lemma lines_of_nonempty t ls : lines_of t ls -> ls <> [].
Proof. destruct 1; discriminate. Qed.

Lemma lines_of_joined t ls : lines_of t ls -> joined ls = t.
Proof.
  induction 1; simpl.
  - rewrite !app_nil_r. reflexivity.
  - rewrite IHlines_of. reflexivity.
Qed.

Lemma joined_app a b : joined (a ++ b) = joined a ++ joined b.
Proof.
  induction a as [|[s e] a IH]; simpl; [reflexivity|].
  rewrite IH, !app_assoc. reflexivity.
Qed.

(** Every text has a line decomposition. *)
Lemma lines_of_exists t : exists ls, lines_of t ls.
Proof.
  enough (H : forall n t, length t <= n -> exists ls, lines_of t ls)
    by (apply (H (length t)); lia).
  clear t. induction n as [|n IH]; intros t Hn.
  - destruct t; [|simpl in Hn; lia].
    exists [([], [])]. constructor. split; intros [].
  - destruct t as [|c r].
    { exists [([], [])]. constructor. split; intros []. }
    simpl in Hn.
    destruct (N.eq_dec c LF) as [->|HLF].
    { destruct (IH r) as [ls Hls]; [lia|].
      exists (([], [LF]) :: ls).
      apply (lines_more [] [LF] r ls); try assumption.
      - split; intros [].
      - left; reflexivity.
      - discriminate. }
    destruct (N.eq_dec c CR) as [->|HCR].
    { destruct r as [|c' r'].
      { exists [([], [CR]); ([], [])].
        apply (lines_more [] [CR] [] [([], [])]).
        - split; intros [].
        - right; right; reflexivity.
        - intros _ r. discriminate.
        - constructor. split; intros []. }
      destruct (N.eq_dec c' LF) as [->|HLF'].
      { destruct (IH r') as [ls Hls]; [simpl in Hn; lia|].
        exists (([], [CR; LF]) :: ls).
        apply (lines_more [] [CR; LF] r' ls); try assumption.
        - split; intros [].
        - right; left; reflexivity.
        - discriminate. }
      destruct (IH (c' :: r')) as [ls Hls]; [simpl in *; lia|].
      exists (([], [CR]) :: ls).
      apply (lines_more [] [CR] (c' :: r') ls); try assumption.
      - split; intros [].
      - right; right; reflexivity.
      - intros _ r0 E. injection E as E1 E2. contradiction. }
    destruct (IH r) as [ls Hls]; [lia|].
    inversion Hls as [s Hs E1 E2 | s e t' ls' Hs He Hn' Hl E1 E2]; subst.
    + exists [(c :: r, [])]. constructor.
      destruct Hs as [Ha Hb]. split; intros [E|E]; auto.
    + exists ((c :: s, e) :: ls').
      apply (lines_more (c :: s) e t' ls'); try assumption.
      destruct Hs as [Ha Hb]. split; intros [E|E]; auto.
Qed.

Lemma newline_ends_skip s o r :
  no_newline s -> newline_ends o (s ++ r) = newline_ends (o + bytes s) r.
Proof.
  revert o. induction s as [|c s IH]; intros o [HLF HCR].
  - simpl. f_equal. lia.
  - simpl app. cbn [newline_ends].
    destruct (N.eqb_spec c LF) as [->|H1]; [exfalso; apply HLF; left; reflexivity|].
    destruct (N.eqb_spec c CR) as [->|H2]; [exfalso; apply HCR; left; reflexivity|].
    rewrite IH by (split; intros ?; [apply HLF|apply HCR]; right; assumption).
    simpl bytes. f_equal. lia.
Qed.

Lemma newline_ends_term e o t :
  terminator e -> (e = [CR] -> forall r, t <> LF :: r) ->
  newline_ends o (e ++ t) = (o + bytes e) :: newline_ends (o + bytes e) t.
Proof.
  intros [-> | [-> | -> ] ] H.
  - reflexivity.
  - reflexivity.
  - simpl app. cbn [newline_ends].
    replace (N.eqb CR LF) with false by reflexivity.
    rewrite N.eqb_refl.
    destruct t as [|c t]; [reflexivity|].
    destruct (N.eqb_spec c LF) as [->|_]; [|reflexivity].
    exfalso. exact (H eq_refl t eq_refl).
Qed.

Lemma line_start_0 ls : line_start ls 0 = 0.
Proof. reflexivity. Qed.

Lemma line_start_cons s e ls k :
  line_start ((s, e) :: ls) (S k) = bytes s + bytes e + line_start ls k.
Proof. unfold line_start. simpl. rewrite !bytes_app. lia. Qed.

Lemma newline_ends_nth t ls : lines_of t ls -> forall o i,
  nth_error (newline_ends o t) i =
  if S i <? length ls then Some (o + line_start ls (S i)) else None.
Proof.
  induction 1 as [s Hs | s e t ls Hs He Hn Hl IH]; intros o i.
  - replace (newline_ends o s) with (newline_ends o (s ++ [])) by (rewrite app_nil_r; reflexivity).
    rewrite newline_ends_skip by assumption.
    simpl. destruct i; reflexivity.
  - rewrite newline_ends_skip by assumption.
    rewrite newline_ends_term by assumption.
    pose proof (lines_of_nonempty _ _ Hl) as Hne.
    destruct i as [|i].
    + simpl nth_error. destruct ls as [|x ls]; [contradiction|].
      rewrite line_start_cons, line_start_0.
      cbn [length]. replace (1 <? S (S (length ls))) with true by reflexivity.
      f_equal. lia.
    + simpl nth_error. rewrite IH. cbn [length].
      change (S (S i) <? S (length ls)) with (S i <? length ls).
      destruct (S i <? length ls); [|reflexivity].
      rewrite (line_start_cons s e ls (S i)). f_equal. lia.
Qed.

Lemma newline_ends_length t ls : lines_of t ls -> forall o,
  S (length (newline_ends o t)) = length ls.
Proof.
  induction 1 as [s Hs | s e t ls Hs He Hn Hl IH]; intros o.
  - replace (newline_ends o s) with (newline_ends o (s ++ [])) by (rewrite app_nil_r; reflexivity).
    rewrite newline_ends_skip by assumption. reflexivity.
  - rewrite newline_ends_skip by assumption.
    rewrite newline_ends_term by assumption. simpl. rewrite IH. reflexivity.
Qed.

Lemma lines_of_nth_last t ls : lines_of t ls -> forall l s e,
  nth_error ls l = Some (s, e) ->
  no_newline s /\
  ((S l < length ls /\ terminator e) \/ (S l = length ls /\ e = [])).
Proof.
  induction 1 as [s Hs | s e t ls Hs He Hn Hl IH]; intros l s' e' Hnth.
  - destruct l as [|l].
    + simpl in Hnth. injection Hnth as <- <-. split; [assumption|]. right. auto.
    + destruct l; discriminate.
  - destruct l as [|l].
    + simpl in Hnth. injection Hnth as <- <-. split; [assumption|]. left.
      split; [|assumption]. destruct ls; [destruct (lines_of_nonempty _ _ Hl); reflexivity|].
      simpl. lia.
    + simpl in Hnth. destruct (IH _ _ _ Hnth) as [H1 [[H2 H3]|[H2 H3]]]; (split; [assumption|]); simpl.
      * left. split; [lia|assumption].
      * right. split; [lia|assumption].
Qed.

Lemma nth_split_text ls l s e :
  nth_error ls l = Some (s, e) ->
  joined ls = joined (firstn l ls) ++ s ++ e ++ joined (skipn (S l) ls).
Proof.
  intros H.
  rewrite <- (firstn_skipn l ls) at 1. rewrite joined_app. f_equal.
  assert (Hs : skipn l ls = (s, e) :: skipn (S l) ls).
  { revert l H. induction ls as [|x ls IH]; intros l H; [destruct l; discriminate|].
    destruct l as [|l]; simpl in *.
    - injection H as ->. reflexivity.
    - apply IH. assumption. }
  rewrite Hs. reflexivity.
Qed.

Lemma line_start_S ls l s e :
  nth_error ls l = Some (s, e) ->
  line_start ls (S l) = line_start ls l + bytes s + bytes e.
Proof.
  revert l. induction ls as [|[s0 e0] ls IH]; intros l H; [destruct l; discriminate|].
  destruct l as [|l].
  - simpl in H. injection H as -> ->. rewrite line_start_cons, !line_start_0. lia.
  - simpl in H. rewrite !line_start_cons. rewrite (IH _ H). lia.
Qed.

Lemma line_start_mono ls a b : a <= b -> line_start ls a <= line_start ls b.
Proof.
  revert a b. induction ls as [|[s e] ls IH]; intros a b H.
  - unfold line_start. rewrite !firstn_nil. lia.
  - destruct a; [unfold line_start at 1; simpl; lia|].
    destruct b; [lia|]. rewrite !line_start_cons.
    specialize (IH a b ltac:(lia)). lia.
Qed.

(** Characters of a terminator that a column may still count ([line_infos] only strips the last
    byte, on non-Windows builds). *)
Lemma terminator_split e :
  terminator e -> exists e' c, e = e' ++ [c] /\ utf8_len c = 1 /\ removelast e = e' /\ bytes e = bytes e' + 1.
Proof.
  intros [-> | [-> | -> ] ].
  - exists [], LF. repeat split.
  - exists [CR], LF. repeat split.
  - exists [], CR. repeat split.
Qed.

Lemma line_infos_correct t ls l s e :
  lines_of t ls -> nth_error ls l = Some (s, e) ->
  line_infos (compute_lines t) t l = Ok (line_start ls l, s ++ removelast e).
Proof.
  intros Hl Hnth. unfold line_infos, compute_lines.
  rewrite (newline_ends_nth _ _ Hl).
  destruct (lines_of_nth_last _ _ Hl _ _ _ Hnth) as [Hs [[Hlt He]|[Heq He]]].
  - apply Nat.ltb_lt in Hlt as Hlt'. rewrite Hlt'.
    assert (Hst : (if l =? 0 then Some 0 else nth_error (newline_ends 0 t) (l - 1))
                  = Some (line_start ls l)).
    { destruct (Nat.eqb_spec l 0) as [->|Hne].
      - reflexivity.
      - rewrite (newline_ends_nth _ _ Hl).
        replace (S (l - 1)) with l by lia.
        replace (l <? length ls) with true by (symmetry; apply Nat.ltb_lt; lia).
        reflexivity. }
    rewrite Hst.
    destruct (terminator_split e He) as (e' & c & Ee & Hc & Hr & Hb).
    rewrite (line_start_S _ _ _ _ Hnth). rewrite Hr.
    replace (0 + (line_start ls l + bytes s + bytes e) - 1)
      with (line_start ls l + bytes (s ++ e')) by (rewrite bytes_app; lia).
    assert (Ht : t = joined (firstn l ls) ++ (s ++ e') ++ ([c] ++ joined (skipn (S l) ls))).
    { rewrite <- (lines_of_joined _ _ Hl). rewrite (nth_split_text _ _ _ _ Hnth).
      rewrite Ee. rewrite <- !app_assoc. reflexivity. }
    rewrite Ht at 1. unfold line_start. rewrite slice_app. simpl. reflexivity.
  - replace (S l <? length ls) with false by (symmetry; apply Nat.ltb_ge; lia).
    pose proof (newline_ends_length _ _ Hl 0) as Hlen.
    replace (length (newline_ends 0 t) =? l) with true by (symmetry; apply Nat.eqb_eq; lia).
    subst e. simpl removelast. rewrite app_nil_r.
    assert (Ht : t = joined (firstn l ls) ++ s).
    { rewrite <- (lines_of_joined _ _ Hl). rewrite (nth_split_text _ _ _ _ Hnth).
      rewrite skipn_all2 by lia. simpl. rewrite app_nil_r. reflexivity. }
    destruct (newline_ends 0 t) as [|x xs] eqn:E.
    + simpl in Hlen. assert (l = 0) by lia. subst l. simpl in Ht. subst t. reflexivity.
    + rewrite <- E. rewrite (newline_ends_nth _ _ Hl).
      assert (l <> 0) by (simpl in Hlen; lia).
      replace (S (l - 1)) with l by lia.
      replace (l <? length ls) with true by (symmetry; apply Nat.ltb_lt; lia).
      simpl plus. rewrite Ht at 1. unfold line_start. rewrite drop_bytes_app.
      reflexivity.
Qed.

Lemma line_infos_err t ls l :
  lines_of t ls -> length ls <= l -> line_infos (compute_lines t) t l = Err.
Proof.
  intros Hl Hle. unfold line_infos, compute_lines.
  rewrite (newline_ends_nth _ _ Hl).
  replace (S l <? length ls) with false by (symmetry; apply Nat.ltb_ge; lia).
  pose proof (newline_ends_length _ _ Hl 0) as Hlen.
  replace (length (newline_ends 0 t) =? l) with false by (symmetry; apply Nat.eqb_neq; lia).
  reflexivity.
Qed.

Lemma partition_point_spec {A} (f : A -> bool) l n :
  (forall i x, i < n -> nth_error l i = Some x -> f x = true) ->
  (forall x, nth_error l n = Some x -> f x = false) ->
  n <= length l -> partition_point f l = n.
Proof.
  revert n. induction l as [|x l IH]; intros n H1 H2 Hn.
  - simpl in Hn. assert (n = 0) by lia. subst. reflexivity.
  - simpl. destruct n as [|n].
    + rewrite (H2 x eq_refl). reflexivity.
    + rewrite (H1 0 x ltac:(lia) eq_refl). f_equal. apply IH.
      * intros i y Hi Hy. apply (H1 (S i) y); [lia|assumption].
      * intros y Hy. apply H2. assumption.
      * simpl in Hn. lia.
Qed.

Lemma position_line t ls l s e p q :
  lines_of t ls -> nth_error ls l = Some (s, e) -> s ++ e = p ++ q ->
  (q <> [] \/ e = []) ->
  forall idx, get_lines idx t = compute_lines t ->
  position_infos_of idx t (line_start ls l + bytes p)
  = mk_pi l (line_start ls l) (line_start ls l + bytes p).
Proof.
  intros Hl Hnth Hsplit Hq idx Hidx.
  unfold position_infos_of. rewrite Hidx. unfold compute_lines.
  assert (Hlen := newline_ends_length _ _ Hl 0).
  assert (Hlls : l < length ls) by (apply nth_error_Some; rewrite Hnth; discriminate).
  assert (Hb : bytes s + bytes e = bytes p + bytes q)
    by (rewrite <- !bytes_app, Hsplit; reflexivity).
  assert (Hpp : partition_point (fun x => x <=? line_start ls l + bytes p) (newline_ends 0 t) = l).
  { apply partition_point_spec.
    - intros i x Hi Hx. rewrite (newline_ends_nth _ _ Hl) in Hx.
      destruct (S i <? length ls); [|discriminate]. injection Hx as <-.
      apply Nat.leb_le. pose proof (line_start_mono ls (S i) l ltac:(lia)). lia.
    - intros x Hx. rewrite (newline_ends_nth _ _ Hl) in Hx.
      destruct (S l <? length ls) eqn:E; [|discriminate]. injection Hx as <-.
      apply Nat.ltb_lt in E.
      apply Nat.leb_gt. rewrite (line_start_S _ _ _ _ Hnth).
      destruct (lines_of_nth_last _ _ Hl _ _ _ Hnth) as [_ [[_ He]|[Heq _]]]; [|lia].
      destruct Hq as [Hq|Hq].
      + destruct q as [|c q]; [contradiction|]. simpl in Hb.
        pose proof (utf8_len_pos c). lia.
      + subst e. destruct He as [He|[He|He]]; discriminate.
    - lia. }
  rewrite Hpp. f_equal.
  destruct (Nat.eqb_spec l 0) as [->|Hne]; [reflexivity|].
  apply nth_error_nth. rewrite (newline_ends_nth _ _ Hl).
  replace (S (l - 1)) with l by lia.
  apply Nat.ltb_lt in Hlls. rewrite Hlls. reflexivity.
Qed.

Lemma position_line_part t ls l s e p q :
  lines_of t ls -> nth_error ls l = Some (s, e) -> s ++ e = p ++ q ->
  line_part t (mk_pi l (line_start ls l) (line_start ls l + bytes p)) = Some p.
Proof.
  intros Hl Hnth Hsplit. unfold line_part. simpl.
  rewrite <- (lines_of_joined _ _ Hl) at 1. rewrite (nth_split_text _ _ _ _ Hnth).
  rewrite (app_assoc s e), Hsplit, <- app_assoc. unfold line_start. apply slice_app.
Qed.

(** Any prefix of the text lies in exactly one line. *)
Lemma prefix_in_line t ls pre suf :
  lines_of t ls -> t = pre ++ suf ->
  exists l s e p q, nth_error ls l = Some (s, e) /\ s ++ e = p ++ q /\
    (q <> [] \/ e = []) /\ bytes pre = line_start ls l + bytes p.
Proof.
  intros Hl. revert pre suf.
  induction Hl as [s Hs | s e t ls Hs He Hn Hl IH]; intros pre suf E.
  - exists 0, s, [], pre, suf. repeat split; auto. rewrite app_nil_r. assumption.
  - rewrite app_assoc in E.
    destruct (le_lt_dec (length (s ++ e)) (length pre)) as [Hle|Hlt].
    + destruct (app_eq_longer _ _ _ _ E Hle) as (p' & -> & Ht).
      destruct (IH p' suf Ht) as (l & s' & e' & p & q & H1 & H2 & H3 & H4).
      exists (S l), s', e', p, q. repeat split; auto.
      rewrite !bytes_app, line_start_cons. lia.
    + destruct (app_eq_longer _ _ _ _ (eq_sym E) (Nat.lt_le_incl _ _ Hlt)) as (q' & H1 & H2).
      exists 0, s, e, pre, q'. repeat split; auto.
      left. intros ->. rewrite H1, app_nil_r in Hlt. lia.
Qed.

(** ** Columns to bytes *)

Lemma utf16_loop_prefix p q cnt idx n :
  q <> [] ->
  utf16_loop (p ++ q) (cnt + units16 p) cnt idx n = Ok (mk_bpi (idx + bytes p) false).
Proof.
  intros Hq. revert cnt idx n. induction p as [|c p IH]; intros cnt idx n.
  - destruct q as [|c q]; [contradiction|]. simpl.
    rewrite Nat.add_0_r, Nat.eqb_refl, Nat.add_0_r. reflexivity.
  - simpl. pose proof (utf16_len_pos c).
    replace (cnt =? cnt + (utf16_len c + units16 p)) with false
      by (symmetry; apply Nat.eqb_neq; lia).
    replace (cnt + (utf16_len c + units16 p) <? cnt + utf16_len c) with false
      by (symmetry; apply Nat.ltb_ge; lia).
    replace (cnt + (utf16_len c + units16 p)) with (cnt + utf16_len c + units16 p) by lia.
    rewrite IH. do 2 f_equal. lia.
Qed.

Lemma utf16_loop_full p cnt idx n :
  utf16_loop p (cnt + units16 p) cnt idx n
  = Ok (mk_bpi (idx + bytes p) (n + length p <? cnt + units16 p)).
Proof.
  revert cnt idx n. induction p as [|c p IH]; intros cnt idx n.
  - simpl. rewrite !Nat.add_0_r. reflexivity.
  - simpl. pose proof (utf16_len_pos c).
    replace (cnt =? cnt + (utf16_len c + units16 p)) with false
      by (symmetry; apply Nat.eqb_neq; lia).
    replace (cnt + (utf16_len c + units16 p) <? cnt + utf16_len c) with false
      by (symmetry; apply Nat.ltb_ge; lia).
    replace (cnt + (utf16_len c + units16 p)) with (cnt + utf16_len c + units16 p) by lia.
    rewrite IH. do 2 f_equal; [lia|].
    f_equal. lia.
Qed.

Lemma utf16_prefix_byte p q :
  exists b, utf16_to_utf8_byte_offset (p ++ q) (units16 p) = Ok (mk_bpi (bytes p) b)
            /\ (q <> [] -> b = false) /\ (q = [] -> b = (length p <? units16 p)).
Proof.
  unfold utf16_to_utf8_byte_offset. destruct q as [|c q].
  - rewrite app_nil_r. exists (length p <? units16 p).
    pose proof (utf16_loop_full p 0 0 0) as H. simpl in H. rewrite H.
    repeat split; auto. intros H0; contradiction.
  - exists false. pose proof (utf16_loop_prefix p (c :: q) 0 0 0 ltac:(discriminate)) as H.
    simpl in H. rewrite H. repeat split; auto. discriminate.
Qed.

Lemma bmp_units16 p : bmp p -> units16 p = length p.
Proof.
  induction 1 as [|c p Hc Hp IH]; simpl; [reflexivity|].
  rewrite IH. unfold utf16_len. apply N.ltb_lt in Hc. rewrite Hc. reflexivity.
Qed.

Lemma units16_ge_length p : length p <= units16 p.
Proof. induction p as [|c p IH]; simpl; [lia|]. pose proof (utf16_len_pos c). lia. Qed.

Lemma units16_bmp p : units16 p = length p -> bmp p.
Proof.
  induction p as [|c p IH]; intros H; [constructor|].
  simpl in H. pose proof (utf16_len_pos c). pose proof (units16_ge_length p).
  constructor; [|apply IH; lia].
  unfold utf16_len in *. destruct (c <? 65536)%N eqn:E; [apply N.ltb_lt; exact E|lia].
Qed.

Lemma column_to_byte t ls l s e p q idx enc :
  lines_of t ls -> nth_error ls l = Some (s, e) -> s ++ removelast e = p ++ q ->
  get_lines idx t = compute_lines t ->
  exists b,
  line_column_to_byte idx t (input_of enc l (width enc p))
  = Ok (mk_bpi (line_start ls l + bytes p) b)
  /\ (b = true <-> enc = U16 /\ q = [] /\ ~ bmp p).
Proof.
  intros Hl Hnth Hsplit Hidx.
  destruct enc; simpl; rewrite Hidx, (line_infos_correct _ _ _ _ _ Hl Hnth), Hsplit; simpl.
  - rewrite Nat.min_l by (rewrite bytes_app; lia).
    unfold is_char_boundary. rewrite drop_bytes_app.
    exists false. split.
    + do 2 f_equal. apply Nat.ltb_irrefl.
    + split; [discriminate|]. intros [H _]; discriminate.
  - destruct (utf16_prefix_byte p q) as (b & Hb & Hq1 & Hq2). rewrite Hb. simpl.
    exists b. split; [do 2 f_equal; lia|].
    destruct q as [|c q].
    + rewrite (Hq2 eq_refl). split.
      * intros H. apply Nat.ltb_lt in H. split; [reflexivity|]. split; [reflexivity|].
        intros Hbmp. rewrite bmp_units16 in H by assumption. lia.
      * intros (_ & _ & H). apply Nat.ltb_lt.
        pose proof (units16_ge_length p).
        destruct (Nat.eq_dec (units16 p) (length p)) as [E|E]; [|lia].
        exfalso. apply H. apply units16_bmp. assumption.
    + rewrite (Hq1 ltac:(discriminate)). split; [discriminate|].
      intros (_ & H & _). discriminate.
  - rewrite firstn_app, Nat.sub_diag, firstn_O, app_nil_r, firstn_all.
    exists false. split.
    + do 2 f_equal. apply Nat.ltb_irrefl.
    + split; [discriminate|]. intros [H _]; discriminate.
Qed.

(** ** Safety: any accepted position is a character boundary *)

Lemma utf16_loop_boundary s : forall pos cnt idx n r,
  utf16_loop s pos cnt idx n = Ok r ->
  exists p q, s = p ++ q /\ bpi_byte r = idx + bytes p.
Proof.
  induction s as [|c s IH]; intros pos cnt idx n r H; simpl in H.
  - injection H as <-. exists [], []. split; simpl; auto.
  - destruct (Nat.eqb_spec cnt pos) as [->|Hne].
    + injection H as <-. exists [], (c :: s). split; simpl; auto.
    + destruct (pos <? cnt + utf16_len c) eqn:E; [discriminate|].
      destruct (IH _ _ _ _ _ H) as (p & q & -> & H2).
      exists (c :: p), q. split; [reflexivity|]. simpl. lia.
Qed.

Lemma utf16_loop_no_panic s : forall pos cnt idx n,
  utf16_loop s pos cnt idx n <> Panic.
Proof.
  induction s as [|c s IH]; intros pos cnt idx n; simpl; [discriminate|].
  destruct (cnt =? pos); [discriminate|].
  destruct (_ <? _); [discriminate|]. apply IH.
Qed.

(** [line_infos] either fails or returns a segment of the text. *)
Lemma line_infos_cases t l :
  line_infos (compute_lines t) t l = Err \/
  exists a b c, t = a ++ b ++ c /\ line_infos (compute_lines t) t l = Ok (bytes a, b).
Proof.
  destruct (lines_of_exists t) as [ls Hl].
  destruct (nth_error ls l) as [[s e]|] eqn:E.
  - right. exists (joined (firstn l ls)), (s ++ removelast e),
      (skipn (length (removelast e)) e ++ joined (skipn (S l) ls)).
    split.
    + rewrite <- (lines_of_joined _ _ Hl) at 1. rewrite (nth_split_text _ _ _ _ E).
      f_equal. rewrite <- app_assoc. f_equal. rewrite app_assoc. f_equal.
      destruct (lines_of_nth_last _ _ Hl _ _ _ E) as [_ [[_ He]|[_ ->]]]; [|reflexivity].
      destruct He as [-> | [-> | -> ] ]; reflexivity.
    + apply (line_infos_correct _ _ _ _ _ Hl E).
  - left. apply nth_error_None in E. apply (line_infos_err _ _ _ Hl E).
Qed.

Lemma take_prefix {A} n (l : list A) : exists q, l = firstn n l ++ q.
Proof. exists (skipn n l). symmetry. apply firstn_skipn. Qed.

Lemma line_column_to_byte_boundary t idx inp r :
  get_lines idx t = compute_lines t ->
  line_column_to_byte idx t inp = Ok r ->
  exists pre suf, t = pre ++ suf /\ bpi_byte r = bytes pre.
Proof.
  intros Hidx H. destruct inp as [pos|l c|l c|l c]; simpl in H.
  - destruct (is_char_boundary t (Nat.min pos (bytes t))) eqn:E; [|discriminate].
    injection H as <-. apply is_char_boundary_spec in E. destruct E as (p & q & -> & E).
    exists p, q. split; [reflexivity|]. simpl. symmetry. exact E.
  - rewrite Hidx in H.
    destruct (line_infos_cases t l) as [E|(a & b & c0 & Ht & E)]; rewrite E in H; [discriminate|].
    simpl in H. destruct (is_char_boundary b (Nat.min c (bytes b))) eqn:E2; [|discriminate].
    injection H as <-. apply is_char_boundary_spec in E2. destruct E2 as (p & q & -> & E2).
    exists (a ++ p), (q ++ c0). split.
    + rewrite Ht, <- !app_assoc. reflexivity.
    + simpl. rewrite <- E2, bytes_app. reflexivity.
  - rewrite Hidx in H.
    destruct (line_infos_cases t l) as [E|(a & b & c0 & Ht & E)]; rewrite E in H; [discriminate|].
    simpl in H. destruct (utf16_to_utf8_byte_offset b c) as [i| |] eqn:E2; try discriminate.
    simpl in H. injection H as <-.
    destruct (utf16_loop_boundary _ _ _ _ _ _ E2) as (p & q & -> & E3).
    exists (a ++ p), (q ++ c0). split.
    + rewrite Ht, <- !app_assoc. reflexivity.
    + simpl. rewrite E3, bytes_app. lia.
  - rewrite Hidx in H.
    destruct (line_infos_cases t l) as [E|(a & b & c0 & Ht & E)]; rewrite E in H; [discriminate|].
    simpl in H. injection H as <-.
    exists (a ++ firstn c b), (skipn c b ++ c0). split.
    + rewrite Ht, <- !app_assoc. f_equal. rewrite (app_assoc (firstn c b)).
      rewrite firstn_skipn. reflexivity.
    + simpl. rewrite bytes_app. reflexivity.
Qed.

Lemma line_column_to_byte_no_panic t idx inp :
  get_lines idx t = compute_lines t ->
  line_column_to_byte idx t inp <> Panic.
Proof.
  intros Hidx. destruct inp as [pos|l c|l c|l c]; simpl.
  - destruct (is_char_boundary _ _); discriminate.
  - rewrite Hidx. destruct (line_infos_cases t l) as [E|(a & b & c0 & Ht & E)]; rewrite E; simpl; [discriminate|].
    destruct (is_char_boundary _ _); discriminate.
  - rewrite Hidx. destruct (line_infos_cases t l) as [E|(a & b & c0 & Ht & E)]; rewrite E; simpl; [discriminate|].
    pose proof (utf16_loop_no_panic b c 0 0 0) as Hn.
    unfold utf16_to_utf8_byte_offset.
    destruct (utf16_loop b c 0 0 0); simpl; try discriminate. contradiction.
  - rewrite Hidx. destruct (line_infos_cases t l) as [E|(a & b & c0 & Ht & E)]; rewrite E; simpl; discriminate.
Qed.

(** ** Whole-line ranges and line listing *)

Lemma expand_range_correct t ls l1 s1 e1 p1 q1 l2 s2 e2 p2 q2 idx :
  lines_of t ls -> get_lines idx t = compute_lines t ->
  nth_error ls l1 = Some (s1, e1) -> s1 ++ e1 = p1 ++ q1 -> (q1 <> [] \/ e1 = []) ->
  nth_error ls l2 = Some (s2, e2) -> s2 ++ e2 = p2 ++ q2 -> (q2 <> [] \/ e2 = []) ->
  expand_range_to_full_lines idx t (line_start ls l1 + bytes p1) (line_start ls l2 + bytes p2)
  = (line_start ls l1, line_start ls l2 + bytes (s2 ++ removelast e2)).
Proof.
  intros Hl Hidx Hn1 Hs1 Hq1 Hn2 Hs2 Hq2.
  unfold expand_range_to_full_lines.
  rewrite (position_line _ _ _ _ _ _ _ Hl Hn1 Hs1 Hq1 _ Hidx).
  rewrite (position_line _ _ _ _ _ _ _ Hl Hn2 Hs2 Hq2 _ Hidx).
  simpl. f_equal. rewrite Hidx. unfold compute_lines.
  rewrite (newline_ends_nth _ _ Hl).
  destruct (lines_of_nth_last _ _ Hl _ _ _ Hn2) as [_ [[Hlt He]|[Heq He]]].
  - apply Nat.ltb_lt in Hlt. rewrite Hlt. rewrite (line_start_S _ _ _ _ Hn2).
    destruct (terminator_split _ He) as (e' & c & -> & Hc & -> & Hb).
    rewrite Hb, bytes_app. lia.
  - replace (S l2 <? length ls) with false by (symmetry; apply Nat.ltb_ge; lia).
    subst e2. simpl removelast. rewrite app_nil_r.
    rewrite <- (lines_of_joined _ _ Hl), (nth_split_text _ _ _ _ Hn2).
    rewrite skipn_all2 by lia. simpl. rewrite !app_nil_r.
    rewrite bytes_app. reflexivity.
Qed.

(** End offsets (plus the artificial one for an unterminated last line). *)
Fixpoint all_ends (off : nat) (ls : list (text * text)) : list nat :=
  match ls with
  | [] => []
  | [(s, e)] => match s with [] => [] | _ => [off + bytes s + 1] end
  | (s, e) :: r => (off + bytes s + bytes e) :: all_ends (off + bytes s + bytes e) r
  end.

Lemma all_ends_cons off s e x r :
  all_ends off ((s, e) :: x :: r) =
  (off + bytes s + bytes e) :: all_ends (off + bytes s + bytes e) (x :: r).
Proof. reflexivity. Qed.

Lemma listed_cons s e x r :
  listed ((s, e) :: x :: r) = (s ++ removelast e) :: listed (x :: r).
Proof. reflexivity. Qed.

Lemma map_lines_listed pre t ls n :
  lines_of t ls ->
  map_lines (pre ++ t) (bytes pre) (number_from n (all_ends (bytes pre) ls))
  = Ok (number_from n (listed ls)).
Proof.
  intros Hl. revert pre n. induction Hl as [s Hs | s e t ls Hs He Hn Hl IH]; intros pre n.
  - destruct s as [|c s]; [reflexivity|].
    simpl number_from. cbn [map_lines].
    replace (bytes pre + (utf8_len c + bytes s) + 1 - 1) with (bytes pre + bytes (c :: s))
      by (simpl; lia).
    replace (pre ++ c :: s) with (pre ++ (c :: s) ++ []) by (rewrite app_nil_r; reflexivity).
    rewrite slice_app. reflexivity.
  - destruct ls as [|x ls]; [destruct (lines_of_nonempty _ _ Hl); reflexivity|].
    rewrite all_ends_cons, listed_cons. cbn [number_from map_lines].
    destruct (terminator_split e He) as (e' & c & -> & Hc & -> & Hb).
    replace (bytes pre + bytes s + bytes (e' ++ [c]) - 1)
      with (bytes pre + bytes (s ++ e')) by (rewrite Hb, bytes_app; lia).
    replace (pre ++ s ++ (e' ++ [c]) ++ t) with (pre ++ (s ++ e') ++ ([c] ++ t))
      by (rewrite <- !app_assoc; reflexivity).
    rewrite slice_app. cbn [bind or_panic].
    replace (pre ++ (s ++ e') ++ [c] ++ t) with ((pre ++ s ++ e' ++ [c]) ++ t)
      by (rewrite <- !app_assoc; reflexivity).
    replace (bytes pre + bytes s + bytes (e' ++ [c])) with (bytes (pre ++ s ++ e' ++ [c]))
      by (rewrite !bytes_app; lia).
    rewrite IH. reflexivity.
Qed.

Lemma combine_seq {A} (l : list A) n : combine (seq n (length l)) l = number_from n l.
Proof. revert n. induction l as [|x l IH]; intros n; simpl; [reflexivity|]. rewrite IH. reflexivity. Qed.

Lemma skipn_number_from {A} k (l : list A) n :
  skipn k (number_from n l) = number_from (n + k) (skipn k l).
Proof.
  revert n l. induction k as [|k IH]; intros n l.
  - rewrite Nat.add_0_r. reflexivity.
  - destruct l as [|x l]; [reflexivity|]. simpl. rewrite IH. f_equal. lia.
Qed.

Lemma newline_ends_all_ends t ls : lines_of t ls -> forall o,
  (forall s, t = s -> no_newline s -> s <> []) \/ length ls > 1 \/ True ->
  all_ends o ls =
  newline_ends o t ++
  (match rev (newline_ends o t) with
   | last :: _ => if last =? o + bytes t then [] else [o + bytes t + 1]
   | [] => match t with [] => [] | _ => [o + bytes t + 1] end
   end).
Proof.
  intros Hl o _. revert o.
  induction Hl as [s Hs | s e t ls Hs He Hn Hl IH]; intros o.
  - replace (newline_ends o s) with (newline_ends o (s ++ [])) by (rewrite app_nil_r; reflexivity).
    rewrite newline_ends_skip by assumption. simpl.
    destruct s; reflexivity.
  - destruct ls as [|x ls]; [destruct (lines_of_nonempty _ _ Hl); reflexivity|].
    rewrite all_ends_cons.
    rewrite newline_ends_skip, newline_ends_term by assumption.
    rewrite IH. simpl app. f_equal. f_equal.
    rewrite !bytes_app. simpl rev.
    destruct (rev (newline_ends (o + bytes s + bytes e) t)) as [|y ys] eqn:E.
    + simpl app. destruct t as [|c t].
      * simpl. replace (o + bytes s + bytes e =? o + (bytes s + (bytes e + 0))) with true
          by (symmetry; apply Nat.eqb_eq; lia). reflexivity.
      * pose proof (utf8_len_pos c). simpl bytes at 1.
        replace (o + bytes s + bytes e =? o + (bytes s + (bytes e + bytes (c :: t)))) with false
          by (symmetry; apply Nat.eqb_neq; simpl; lia).
        f_equal. simpl bytes. lia.
    + simpl app.
      replace (o + (bytes s + (bytes e + bytes t))) with (o + bytes s + bytes e + bytes t) by lia.
      reflexivity.
Qed.

Lemma number_from_length {A} (l : list A) n : length (number_from n l) = length l.
Proof. revert n. induction l; intros n; simpl; auto. Qed.

Lemma listed_skipn t ls k : lines_of t ls -> k < length ls ->
  exists pre t', t = pre ++ t' /\ bytes pre = line_start ls k /\ lines_of t' (skipn k ls)
   /\ listed (skipn k ls) = skipn k (listed ls)
   /\ all_ends (line_start ls k) (skipn k ls) = skipn k (all_ends 0 ls).
Proof.
  intros Hl.
  enough (H : forall k o, k < length ls ->
    exists pre t', t = pre ++ t' /\ bytes pre = line_start ls k /\ lines_of t' (skipn k ls)
   /\ listed (skipn k ls) = skipn k (listed ls)
   /\ all_ends (o + line_start ls k) (skipn k ls) = skipn k (all_ends o ls)).
  { intros Hk. destruct (H k 0 Hk) as (pre & t' & H'). exists pre, t'. exact H'. }
  clear k.
  induction Hl as [s Hs | s e t ls Hs He Hn Hl IH]; intros k o Hk.
  - simpl in Hk. assert (k = 0) by lia. subst k.
    exists [], s. simpl skipn. rewrite line_start_0, Nat.add_0_r.
    repeat split; auto. constructor; assumption.
  - destruct k as [|k].
    + exists [], (s ++ e ++ t). simpl skipn. rewrite line_start_0, Nat.add_0_r.
      repeat split; auto. apply lines_more; assumption.
    + simpl in Hk. destruct (IH k (o + bytes s + bytes e) ltac:(lia)) as (pre & t' & -> & H1 & H2 & H3 & H4).
      exists (s ++ e ++ pre), t'. rewrite line_start_cons.
      destruct ls as [|x ls]; [simpl in Hk; lia|].
      rewrite listed_cons, all_ends_cons. cbn [skipn].
      repeat split.
      * rewrite <- !app_assoc. reflexivity.
      * rewrite !bytes_app. lia.
      * assumption.
      * assumption.
      * rewrite <- H4. f_equal. lia.
Qed.

Lemma all_ends_length o ls : length (all_ends o ls) = length (listed ls).
Proof.
  revert o. induction ls as [|[s e] ls IH]; intros o; [reflexivity|].
  destruct ls as [|x ls].
  - destruct s; reflexivity.
  - rewrite all_ends_cons, listed_cons. cbn [length]. rewrite IH. reflexivity.
Qed.

Lemma listed_length_le ls : length (listed ls) <= length ls.
Proof.
  induction ls as [|[s e] ls IH]; [simpl; lia|].
  destruct ls as [|x ls].
  - destruct s; simpl; lia.
  - rewrite listed_cons. cbn [length] in *. lia.
Qed.

Lemma numbers_with_lines_correct t ls idx k :
  lines_of t ls -> get_lines idx t = compute_lines t -> t <> [] ->
  numbers_with_lines idx t k = Ok (number_from k (skipn k (listed ls))).
Proof.
  intros Hl Hidx Ht. unfold numbers_with_lines. rewrite Hidx. unfold compute_lines.
  pose proof (newline_ends_all_ends t ls Hl 0 (or_intror (or_intror I))) as Ha.
  simpl plus in Ha.
  replace (match rev (newline_ends 0 t) with
   | [] => match t with [] => [] | _ => [bytes t + 1] end
   | last :: _ => if last =? bytes t then [] else [bytes t + 1] end)
   with (match rev (newline_ends 0 t) with
   | [] => [bytes t + 1]
   | last :: _ => if last =? bytes t then [] else [bytes t + 1] end) in Ha
   by (destruct (rev (newline_ends 0 t)); [destruct t; [contradiction|reflexivity]|reflexivity]).
  rewrite <- Ha.
  rewrite combine_seq, skipn_number_from. simpl plus.
  destruct (le_lt_dec (length ls) k) as [Hle|Hlt].
  - rewrite !skipn_all2; [reflexivity| |].
    + pose proof (listed_length_le ls). lia.
    + rewrite all_ends_length. pose proof (listed_length_le ls). lia.
  - destruct (listed_skipn t ls k Hl Hlt) as (pre & t' & E & H1 & H2 & H3 & H4).
    rewrite <- H3, <- H4.
    assert (Hp : (if k =? 0 then 0 else match nth_error (newline_ends 0 t) (k - 1) with
                 | Some p => p | None => length (newline_ends 0 t) end) = bytes pre).
    { destruct (Nat.eqb_spec k 0) as [->|Hne]; [rewrite H1; reflexivity|].
      rewrite (newline_ends_nth _ _ Hl). replace (S (k - 1)) with k by lia.
      apply Nat.ltb_lt in Hlt. rewrite Hlt. simpl. symmetry. exact H1. }
    rewrite Hp, <- H1, E. apply map_lines_listed. assumption.
Qed.
