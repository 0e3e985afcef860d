(** Lemmas about UTF-8 byte slicing. *)
From Coq Require Import List NArith Arith Bool Lia.
From Verif Require Import TextModel.
Import ListNotations.

Lemma app_eq_longer {A} (a b c d : list A) :
  a ++ b = c ++ d -> length a <= length c ->
  exists m, c = a ++ m /\ b = m ++ d.
Proof.
  revert c. induction a as [|x a IH]; intros c E Hle.
  - exists c. split; [reflexivity|exact E].
  - destruct c as [|y c]; [simpl in Hle; lia|].
    simpl in E. injection E as -> E. simpl in Hle.
    destruct (IH c E ltac:(lia)) as (m & -> & ->).
    exists m. split; reflexivity.
Qed.

Lemma utf8_len_pos c : 1 <= utf8_len c.
Proof. unfold utf8_len. repeat destruct (_ <? _)%N; lia. Qed.

Lemma utf16_len_pos c : 1 <= utf16_len c.
Proof. unfold utf16_len. destruct (_ <? _)%N; lia. Qed.

Lemma bytes_app p q : bytes (p ++ q) = bytes p + bytes q.
Proof. induction p as [|c p IH]; simpl; [reflexivity|rewrite IH; lia]. Qed.

Lemma units16_app p q : units16 (p ++ q) = units16 p + units16 q.
Proof. induction p as [|c p IH]; simpl; [reflexivity|rewrite IH; lia]. Qed.

Lemma bytes_0 p : bytes p = 0 -> p = [].
Proof. destruct p as [|c p]; [reflexivity|]. simpl. pose proof (utf8_len_pos c). lia. Qed.

Lemma bytes_ge_length p : length p <= bytes p.
Proof. induction p as [|c p IH]; simpl; [lia|]. pose proof (utf8_len_pos c). lia. Qed.

Lemma drop_bytes_0 t : drop_bytes t 0 = Some t.
Proof. destruct t; reflexivity. Qed.

Lemma take_bytes_0 t : take_bytes t 0 = Some [].
Proof. destruct t; reflexivity. Qed.

Lemma drop_bytes_cons c r n :
  0 < n -> drop_bytes (c :: r) n =
           if utf8_len c <=? n then drop_bytes r (n - utf8_len c) else None.
Proof. destruct n; [lia|]. reflexivity. Qed.

Lemma take_bytes_cons c r n :
  0 < n -> take_bytes (c :: r) n =
           if utf8_len c <=? n
           then option_map (cons c) (take_bytes r (n - utf8_len c)) else None.
Proof. destruct n; [lia|]. reflexivity. Qed.

Lemma drop_bytes_app p q : drop_bytes (p ++ q) (bytes p) = Some q.
Proof.
  induction p as [|c p IH]; simpl app; simpl bytes.
  - apply drop_bytes_0.
  - pose proof (utf8_len_pos c).
    rewrite drop_bytes_cons by lia.
    replace (utf8_len c <=? utf8_len c + bytes p) with true
      by (symmetry; apply Nat.leb_le; lia).
    replace (utf8_len c + bytes p - utf8_len c) with (bytes p) by lia.
    exact IH.
Qed.

Lemma take_bytes_app p q : take_bytes (p ++ q) (bytes p) = Some p.
Proof.
  induction p as [|c p IH]; simpl app; simpl bytes.
  - apply take_bytes_0.
  - pose proof (utf8_len_pos c).
    rewrite take_bytes_cons by lia.
    replace (utf8_len c <=? utf8_len c + bytes p) with true
      by (symmetry; apply Nat.leb_le; lia).
    replace (utf8_len c + bytes p - utf8_len c) with (bytes p) by lia.
    rewrite IH. reflexivity.
Qed.

Lemma take_bytes_all p : take_bytes p (bytes p) = Some p.
Proof. rewrite <- (app_nil_r p) at 1. apply take_bytes_app. Qed.

Lemma drop_bytes_inv t : forall n q,
  drop_bytes t n = Some q -> exists p, t = p ++ q /\ bytes p = n.
Proof.
  induction t as [|c t IH]; intros n q H.
  - destruct n; simpl in H; [|discriminate].
    injection H as <-. exists []. split; reflexivity.
  - destruct n as [|n].
    + rewrite drop_bytes_0 in H. injection H as <-. exists []. split; reflexivity.
    + rewrite drop_bytes_cons in H by lia.
      destruct (utf8_len c <=? S n) eqn:E; [|discriminate].
      apply Nat.leb_le in E.
      destruct (IH _ _ H) as (p & -> & Hp).
      exists (c :: p). split; [reflexivity|]. simpl. lia.
Qed.

Lemma take_bytes_inv t : forall n p,
  take_bytes t n = Some p -> exists q, t = p ++ q /\ bytes p = n.
Proof.
  induction t as [|c t IH]; intros n p H.
  - destruct n; simpl in H; [|discriminate].
    injection H as <-. exists []. split; reflexivity.
  - destruct n as [|n].
    + rewrite take_bytes_0 in H. injection H as <-. exists (c :: t). split; reflexivity.
    + rewrite take_bytes_cons in H by lia.
      destruct (utf8_len c <=? S n) eqn:E; [|discriminate].
      apply Nat.leb_le in E.
      destruct (take_bytes t (S n - utf8_len c)) as [p'|] eqn:E2; [|discriminate].
      simpl in H. injection H as <-.
      destruct (IH _ _ E2) as (q & -> & Hp).
      exists q. split; [reflexivity|]. simpl. lia.
Qed.

Lemma bytes_prefix_inj p : forall q p' q',
  p ++ q = p' ++ q' -> bytes p = bytes p' -> p = p' /\ q = q'.
Proof.
  induction p as [|c p IH]; intros q p' q' H Hb.
  - symmetry in Hb. apply bytes_0 in Hb. subst p'. split; [reflexivity|exact H].
  - destruct p' as [|c' p'].
    + simpl in Hb. pose proof (utf8_len_pos c). lia.
    + simpl in H. injection H as -> H. simpl in Hb.
      destruct (IH _ _ _ H) as [-> ->]; [lia|]. split; reflexivity.
Qed.

Lemma slice_app p m q : slice (p ++ m ++ q) (bytes p) (bytes p + bytes m) = Some m.
Proof.
  unfold slice.
  replace (bytes p + bytes m <? bytes p) with false
    by (symmetry; apply Nat.ltb_ge; lia).
  rewrite drop_bytes_app.
  replace (bytes p + bytes m - bytes p) with (bytes m) by lia.
  apply take_bytes_app.
Qed.

Lemma slice_inv t a b m :
  slice t a b = Some m ->
  exists p q, t = p ++ m ++ q /\ bytes p = a /\ a + bytes m = b.
Proof.
  unfold slice. destruct (b <? a) eqn:E; [discriminate|].
  apply Nat.ltb_ge in E.
  destruct (drop_bytes t a) as [r|] eqn:E1; [|discriminate].
  intros H.
  destruct (drop_bytes_inv _ _ _ E1) as (p & -> & Hp).
  destruct (take_bytes_inv _ _ _ H) as (q & -> & Hm).
  exists p, q. split; [reflexivity|]. lia.
Qed.

Lemma is_char_boundary_spec t n :
  is_char_boundary t n = true <-> exists p q, t = p ++ q /\ bytes p = n.
Proof.
  unfold is_char_boundary. split.
  - destruct (drop_bytes t n) as [q|] eqn:E; [|discriminate]. intros _.
    destruct (drop_bytes_inv _ _ _ E) as (p & -> & H). exists p, q. auto.
  - intros (p & q & -> & <-). rewrite drop_bytes_app. reflexivity.
Qed.

Lemma replace_range_app p m q new :
  replace_range (p ++ m ++ q) (bytes p) (bytes p + bytes m) new
  = Some (p ++ new ++ q).
Proof.
  unfold replace_range.
  replace (bytes p + bytes m <? bytes p) with false
    by (symmetry; apply Nat.ltb_ge; lia).
  rewrite take_bytes_app.
  replace (bytes p + bytes m) with (bytes (p ++ m)) by apply bytes_app.
  rewrite app_assoc. rewrite drop_bytes_app. reflexivity.
Qed.
