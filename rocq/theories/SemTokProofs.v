(** Proofs about semantic tokens. *)
From Coq Require Import NArith Arith List Bool Lia.
From Verif Require Import TextModel TextProofs LinesSpec LinesModel LinesProofs SemTokModel SemTokSpec.
Import ListNotations.

Lemma modifier_bits_spec p :
  exists bits, modifier_bits p = Some bits /\ bits_set bits 0 SUPPORTED_MODIFIERS = mods_of p.
Proof.
  destruct p as [[] [] [] [] [] [] [] []]; eexists; split; try reflexivity.
Qed.

Lemma type_index_spec t : exists i, type_index t = Some i /\ nth_error SUPPORTED_TYPES i = Some t.
Proof. destruct t; eexists; split; reflexivity. Qed.

Definition last_pos (d : list decoded) : option (nat * nat) :=
  match rev d with x :: _ => Some (d_line x, d_char x) | [] => None end.

Lemma decode_snoc l : forall line char ds e,
  decode line char l = Some ds ->
  decode line char (l ++ [e]) =
  let '(pl, pc) := match last_pos ds with Some p => p | None => (line, char) end in
  let line' := pl + delta_line e in
  let char' := if delta_line e =? 0 then pc + delta_start e else delta_start e in
  match nth_error SUPPORTED_TYPES (enc_type e) with
  | Some ty => Some (ds ++ [mk_dec line' char' (enc_length e) ty (bits_set (enc_modifiers e) 0 SUPPORTED_MODIFIERS)])
  | None => None
  end.
Proof.
  induction l as [|x l IH]; intros line char ds e H.
  - injection H as <-. cbn [app decode last_pos rev]. destruct (nth_error SUPPORTED_TYPES (enc_type e)); reflexivity.
  - cbn [app decode] in *. cbv zeta in H.
    destruct (nth_error SUPPORTED_TYPES (enc_type x)) as [ty|]; [|discriminate].
    set (line' := line + delta_line x) in *.
    set (char' := if delta_line x =? 0 then char + delta_start x else delta_start x) in *.
    destruct (decode line' char' l) as [ds'|] eqn:E; [|discriminate]. injection H as <-.
    rewrite (IH _ _ _ e E). unfold last_pos. cbn [rev].
    destruct (rev ds') as [|y r] eqn:Er.
    + cbn [app]. assert (ds' = []) as -> by (rewrite <- (rev_involutive ds'), Er; reflexivity).
      cbn [d_line d_char]. destruct (nth_error SUPPORTED_TYPES (enc_type e)); reflexivity.
    + cbn [app]. destruct (nth_error SUPPORTED_TYPES (enc_type e)); reflexivity.
Qed.

Lemma expected_pos s : d_line (expected s) = s_line s /\ d_char (expected s) = s_char s.
Proof. split; reflexivity. Qed.

(** The builder invariant: what was pushed so far decodes to it and the last position is remembered. *)
Definition inv (b : builder) (done : list source) : Prop :=
  decode 0 0 (data b) = Some (map expected done) /\
  (match rev done with
   | x :: _ => prev_line b = s_line x /\ prev_char b = s_char x /\ data b <> []
   | [] => data b = []
   end).

Lemma push_inv b done s :
  inv b done ->
  (forall x r, rev done = x :: r -> before (s_line x) (s_char x) (s_line s) (s_char s)) ->
  exists b', push b (s_line s) (s_char s) (s_len s) (s_type s) (s_props s) = Some b' /\
             inv b' (done ++ [s]).
Proof.
  intros (Hd & Hl) Hs. unfold push.
  destruct (modifier_bits_spec (s_props s)) as (bits & -> & Hbits).
  destruct (type_index_spec (s_type s)) as (ti & -> & Hti).
  destruct (rev done) as [|x r] eqn:Er.
  - rewrite Hl. eexists. split; [reflexivity|].
    assert (done = []) as -> by (rewrite <- (rev_involutive done), Er; reflexivity).
    split.
    + cbn [data app decode]. cbn [enc_type enc_length enc_modifiers delta_line delta_start].
      rewrite Hti, Hbits. cbn [map app].
      unfold expected. rewrite !Nat.add_0_l. destruct (s_line s =? 0); reflexivity.
    + cbn [app rev prev_line prev_char data]. repeat split. discriminate.
  - destruct Hl as (Hpl & Hpc & Hne). specialize (Hs x r eq_refl). destruct (data b) as [|e0 d0] eqn:Ed; [contradiction|].
    assert (Hlast : last_pos (map expected done) = Some (s_line x, s_char x)).
    { unfold last_pos. rewrite <- map_rev, Er. reflexivity. }
    rewrite Hpl, Hpc. unfold sub_checked.
    assert (Hle : s_line x <= s_line s) by (destruct Hs as [Hs|[Hs _]]; lia).
    apply Nat.leb_le in Hle as Hle'. rewrite Hle'. cbv beta iota.
    assert (Hfin : forall pl pc,
      s_line x + pl = s_line s ->
      (if pl =? 0 then s_char x + pc else pc) = s_char s ->
      inv (mk_builder (s_line s) (s_char s) (data b ++ [mk_enc pl pc (s_len s) ti bits])) (done ++ [s])).
    { intros pl pc H1 H2. split.
      - cbn [data]. rewrite Ed. rewrite (decode_snoc _ _ _ _ _ Hd), Hlast.
        cbn [enc_type enc_length enc_modifiers delta_line delta_start]. rewrite Hti, Hbits.
        cbv zeta. rewrite H1, H2, map_app. reflexivity.
      - rewrite rev_app_distr. cbn [rev app prev_line prev_char data]. repeat split.
        intros H. apply app_eq_nil in H. destruct H. discriminate. }
    rewrite Ed in Hfin.
    destruct (Nat.eqb_spec (s_line s - s_line x) 0) as [E0|E0].
    + assert (Hlc : s_char x <= s_char s) by (destruct Hs as [Hs|[_ Hs]]; lia).
      apply Nat.leb_le in Hlc as Hlc'. rewrite Hlc'. eexists. split; [reflexivity|].
      apply Hfin; [lia|]. rewrite E0. simpl. lia.
    + eexists. split; [reflexivity|]. apply Hfin; [lia|].
      apply Nat.eqb_neq in E0. rewrite E0. reflexivity.
Qed.

Lemma sorted_cons_inv a b r : sorted (a :: b :: r) ->
  before (s_line a) (s_char a) (s_line b) (s_char b) /\ sorted (b :: r).
Proof. intros H; inversion H; subst; split; assumption. Qed.

Lemma pushes_inv ss : forall b done,
  inv b done -> sorted ss ->
  (forall x r s r', rev done = x :: r -> ss = s :: r' -> before (s_line x) (s_char x) (s_line s) (s_char s)) ->
  exists b', pushes b ss = Some b' /\ inv b' (done ++ ss).
Proof.
  induction ss as [|s ss IH]; intros b done Hi Hs Hb.
  - exists b. split; [reflexivity|]. rewrite app_nil_r. exact Hi.
  - destruct (push_inv b done s Hi) as (b' & Hp & Hi').
    { intros x r Hr. exact (Hb x r s ss Hr eq_refl). }
    cbn [pushes]. rewrite Hp.
    destruct (IH b' (done ++ [s]) Hi') as (b2 & Hp2 & Hi2).
    + destruct ss; [constructor|]. apply sorted_cons_inv in Hs. apply Hs.
    + intros x r s' r' Hr ->. rewrite rev_app_distr in Hr. injection Hr as <- _.
      apply sorted_cons_inv in Hs. apply Hs.
    + exists b2. split; [exact Hp2|]. rewrite <- app_assoc in Hi2. exact Hi2.
Qed.

Lemma inv_new : inv new_builder [].
Proof. split; reflexivity. Qed.

(** ** Positions grow with offsets *)

Lemma width_app enc a b : width enc (a ++ b) = width enc a + width enc b.
Proof.
  destruct enc; simpl; [apply bytes_app| |apply app_length].
  induction a as [|c a IH]; [reflexivity|]. simpl. rewrite IH. lia.
Qed.

Lemma bytes_pos (t : text) : t <> [] -> 0 < bytes t.
Proof.
  destruct t as [|c t]; [contradiction|]. intros _. simpl.
  unfold utf8_len. destruct (c <? 128)%N, (c <? 2048)%N, (c <? 65536)%N; lia.
Qed.

Lemma prefix_order (t p q p' q' : text) :
  t = p ++ q -> t = p' ++ q' -> bytes p <= bytes p' -> exists m, p' = p ++ m.
Proof.
  intros -> E. revert p' q' E. induction p as [|c p IH]; intros p' q' E Hb.
  - exists p'. reflexivity.
  - destruct p' as [|c' p'].
    + exfalso. pose proof (bytes_pos (c :: p) ltac:(discriminate)). simpl in *. lia.
    + injection E as <- E. simpl in Hb. destruct (IH p' q' E ltac:(lia)) as (m & ->).
      exists m. reflexivity.
Qed.

Lemma to_position_ok t ls l s e p q idx enc :
  lines_of t ls -> nth_error ls l = Some (s, e) -> s ++ e = p ++ q ->
  (q <> [] \/ e = []) -> get_lines idx t = compute_lines t ->
  to_position enc idx t (line_start ls l + bytes p) = Ok (l, width enc p).
Proof.
  intros Hl Hn Hs Hq Hidx. unfold to_position.
  rewrite (position_line _ _ _ _ _ _ _ Hl Hn Hs Hq _ Hidx).
  pose proof (position_line_part _ _ _ _ _ _ _ Hl Hn Hs) as Hp.
  destruct enc; unfold utf8_bytes_column, utf16_code_units_column, code_points_column.
  - simpl. f_equal. f_equal. lia.
  - rewrite Hp. reflexivity.
  - rewrite Hp. reflexivity.
Qed.

Lemma to_position_mono t idx enc a a' b b' :
  get_lines idx t = compute_lines t ->
  t = a ++ a' -> t = b ++ b' -> bytes a <= bytes b ->
  exists l1 c1 l2 c2,
    to_position enc idx t (bytes a) = Ok (l1, c1) /\
    to_position enc idx t (bytes b) = Ok (l2, c2) /\ before l1 c1 l2 c2.
Proof.
  intros Hidx Ea Eb Hle. destruct (lines_of_exists t) as [ls Hl].
  destruct (prefix_in_line _ _ _ _ Hl Ea) as (l1 & s1 & e1 & p1 & q1 & Hn1 & Hs1 & Hq1 & Hb1).
  destruct (prefix_in_line _ _ _ _ Hl Eb) as (l2 & s2 & e2 & p2 & q2 & Hn2 & Hs2 & Hq2 & Hb2).
  exists l1, (width enc p1), l2, (width enc p2).
  rewrite Hb1, Hb2.
  split; [exact (to_position_ok _ _ _ _ _ _ _ _ _ Hl Hn1 Hs1 Hq1 Hidx)|].
  split; [exact (to_position_ok _ _ _ _ _ _ _ _ _ Hl Hn2 Hs2 Hq2 Hidx)|].
  rewrite Hb1, Hb2 in Hle.
  destruct (Nat.lt_trichotomy l1 l2) as [H|[H|H]].
  - left. exact H.
  - subst l2. rewrite Hn1 in Hn2. injection Hn2 as <- <-. right. split; [reflexivity|].
    destruct (prefix_order _ p1 q1 p2 q2 Hs1 Hs2 ltac:(lia)) as (m & ->).
    rewrite width_app. lia.
  - exfalso. pose proof (line_start_mono ls (S l2) l1 ltac:(lia)) as Hm.
    rewrite (line_start_S _ _ _ _ Hn2) in Hm.
    assert (Hbb : bytes s2 + bytes e2 = bytes p2 + bytes q2)
      by (rewrite <- !bytes_app, Hs2; reflexivity).
    destruct Hq2 as [Hq2|He2].
    + apply bytes_pos in Hq2. lia.
    + (* line l2 has no terminator, so it is the last one *)
      destruct (lines_of_nth_last _ _ Hl _ _ _ Hn2) as (_ & [(_ & Ht)|(Hlast & _)]).
      * subst e2. destruct Ht as [Ht|[Ht|Ht]]; discriminate.
      * assert (l1 < length ls) by (apply nth_error_Some; congruence). lia.
Qed.
