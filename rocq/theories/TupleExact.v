(** Proofs that the type of an item is not too wide *)
From Coq Require Import List ZArith Bool Lia.
From Verif Require Import TupleModel TupleSpec TupleProofs.
Import ListNotations.
Open Scope Z_scope.

Section Exact.
Context {T V : Type}.
Variables (has : T -> V -> Prop) (stands_for : N -> list V -> Prop).
Variables (object error : T) (union : list T -> T).
Notation is_tuple := (is_tuple has stands_for).
Notation item_at := (item_at object error union).

Hypothesis union_has : forall l v, has (union l) v -> exists t, In t l /\ has t v.

Definition inhabited_types (ts : list T) : Prop := Forall (fun t => exists v, has t v) ts.

(** Every item has a value, and the unpack is of one type. *)
Definition inhabited_args (a : args T) : Prop :=
  match a with
  | FixedLen ts => inhabited_types ts
  | ArbitraryLen t => True
  | WithUnpack w => inhabited_types (before w) /\ inhabited_types (after w) /\ exists t v, middle w = Many t /\ has t v
  end.

Lemma some_values : forall ts, inhabited_types ts -> exists vs, Forall2 has ts vs.
Proof.
  intros ts H. induction H as [|t ts [v Hv] H [vs Hvs]]; [exists []; constructor|]. exists (v :: vs). constructor; assumption.
Qed.

Lemma pick : forall ts n t v, inhabited_types ts -> nth_error ts n = Some t -> has t v -> exists vs, Forall2 has ts vs /\ nth_error vs n = Some v.
Proof.
  intros ts n t v H. revert n. induction H as [|s ts [x Hx] H IH]; intros n Hn Hv; [destruct n; discriminate Hn|]. destruct n as [|n].
  - injection Hn as ->. destruct (some_values ts H) as [vs Hvs]. exists (v :: vs). split; [constructor; assumption|reflexivity].
  - destruct (IH n Hn Hv) as [vs [Hvs Hn']]. exists (x :: vs). split; [constructor; assumption|exact Hn'].
Qed.

Lemma In_firstn_pos : forall {A} n (l : list A) x, In x (firstn n l) -> exists k, (k < n)%nat /\ nth_error l k = Some x.
Proof.
  intros A n; induction n as [|n IH]; intros l x H; [destruct H|]. destruct l as [|y l]; [destruct H|]. destruct H as [->|H].
  - exists O. split; [lia|reflexivity].
  - destruct (IH l x H) as [k [Hk Hn]]. exists (S k). split; [lia|exact Hn].
Qed.

Lemma In_take_last_pos : forall {A} n (l : list A) x, In x (take_last n l) -> exists k, (k < n)%nat /\ (k < length l)%nat /\ nth_error l (length l - 1 - k) = Some x.
Proof.
  intros A n l x H. unfold take_last in H. apply in_rev in H. destruct (In_firstn_pos _ _ _ H) as [k [Hk Hn]]. rewrite nth_rev in Hn.
  destruct (Nat.ltb k (length l)) eqn:E; [|discriminate Hn]. apply Nat.ltb_lt in E. exists k. auto.
Qed.

Lemma nth_parts : forall (l m r : list V),
  (forall n v, nth_error l n = Some v -> nth_error (l ++ m ++ r) n = Some v) /\
  (forall n v, nth_error m n = Some v -> nth_error (l ++ m ++ r) (length l + n) = Some v) /\
  (forall n v, nth_error r n = Some v -> nth_error (l ++ m ++ r) (length l + length m + n) = Some v).
Proof.
  intros l m r. split; [|split]; intros n v H; assert (Hn := H); apply (f_equal (fun o => match o with Some _ => true | None => false end)) in Hn.
  - rewrite nth_error_app1; [exact H|]. apply nth_error_Some. congruence.
  - rewrite nth_error_app2 by lia. replace (length l + n - length l)%nat with n by lia. rewrite nth_error_app1; [exact H|]. apply nth_error_Some. congruence.
  - rewrite nth_error_app2 by lia. rewrite nth_error_app2 by lia. rewrite <- H. f_equal. lia.
Qed.

Lemma Forall_repeat : forall t (v : V) n, has t v -> Forall (has t) (repeat v n).
Proof. intros t v n H. induction n; constructor; assumption. Qed.

Lemma item_at_exact : forall a z t v, inhabited_args a -> item_at a z = ([], Some t) -> has t v ->
  (match a with ArbitraryLen _ => z = 0 | _ => True end) -> exists vs, is_tuple a vs /\ item vs z v.
Proof.
  intros a z t v Ha H Hv Hz. destruct a as [ts|t'|w]; cbn [TupleModel.item_at] in H.
  - assert (E : exists n, nth_error ts n = Some t /\ (z = Z.of_nat n \/ z = Z.of_nat n - Z.of_nat (length ts))).
    { unfold get, len in H. destruct (z <? 0) eqn:Ez; [apply Z.ltb_lt in Ez|apply Z.ltb_ge in Ez].
      - destruct (Z.of_nat (length ts) + z <? 0) eqn:Ey; [discriminate H|apply Z.ltb_ge in Ey].
        destruct (nth_error ts (Z.to_nat (Z.of_nat (length ts) + z))) eqn:En; [|discriminate H]. cbn in H. injection H as ->.
        exists (Z.to_nat (Z.of_nat (length ts) + z)). split; [exact En|right; lia].
      - replace (z <? 0) with false in H by (symmetry; apply Z.ltb_ge; lia).
        destruct (nth_error ts (Z.to_nat z)) eqn:En; [|discriminate H]. cbn in H. injection H as ->. exists (Z.to_nat z). split; [exact En|left; lia]. }
    destruct E as [n [En Hn]]. destruct (pick ts n t v Ha En Hv) as [vs [Hvs Hp]]. exists vs. split; [exact Hvs|]. exists n. split; [exact Hp|].
    rewrite <- (Forall2_len _ _ _ Hvs). exact Hn.
  - injection H as ->. subst z. exists [v]. split; [constructor; [exact Hv|constructor]|]. exists O. auto.
  - destruct Ha as [Hb [Hc [s [x [Hm Hx]]]]]. rewrite Hm in H. destruct (z <? 0) eqn:Ez; [apply Z.ltb_lt in Ez|apply Z.ltb_ge in Ez]; cbv zeta in H.
    + set (k := Z.to_nat (- z - 1)) in H. destruct (Nat.leb (length (after w) + length (before w)) k) eqn:E1; [discriminate H|]. apply Nat.leb_gt in E1.
      destruct (Nat.ltb k (length (after w))) eqn:E2; [apply Nat.ltb_lt in E2|apply Nat.ltb_ge in E2].
      * destruct (nth_error (after w) (length (after w) - k - 1)) as [u|] eqn:En; [|discriminate H]. injection H as ->.
        destruct (pick _ _ _ _ Hc En Hv) as [r [Hr Hp]]. destruct (some_values _ Hb) as [l Hl]. exists (l ++ [] ++ r). split.
        -- exists l, [], r. split; [reflexivity|]. split; [exact Hl|]. rewrite Hm. split; [constructor|exact Hr].
        -- eexists. split; [apply (proj2 (proj2 (nth_parts l [] r))); exact Hp|]. right. rewrite !app_length. cbn [length].
           rewrite <- (Forall2_len _ _ _ Hr). unfold k in *. lia.
      * injection H as <-. apply union_has in Hv. destruct Hv as [u [Hu Hv]]. apply in_app_or in Hu. destruct (some_values _ Hc) as [r Hr].
        assert (Lr := Forall2_len _ _ _ Hr). destruct Hu as [Hu|[->|[]]].
        -- destruct (In_take_last_pos _ _ _ Hu) as [j [Hj1 [Hj2 Hj3]]]. destruct (pick _ _ _ _ Hb Hj3 Hv) as [l [Hl Hp]].
           assert (Ll := Forall2_len _ _ _ Hl). set (m := repeat x (k - length (after w) - j)).
           assert (Lm : length m = (k - length (after w) - j)%nat) by apply repeat_length.
           exists (l ++ m ++ r). split.
           ++ exists l, m, r. split; [reflexivity|]. split; [exact Hl|]. rewrite Hm. split; [apply Forall_repeat; exact Hx|exact Hr].
           ++ eexists. split; [apply (proj1 (nth_parts l m r)); exact Hp|]. right. rewrite !app_length. unfold k in *. lia.
        -- destruct (some_values _ Hb) as [l Hl]. assert (Ll := Forall2_len _ _ _ Hl). set (m := repeat v (S (k - length (after w)))).
           assert (Lm : length m = S (k - length (after w))%nat) by apply repeat_length.
           exists (l ++ m ++ r). split.
           ++ exists l, m, r. split; [reflexivity|]. split; [exact Hl|]. rewrite Hm. split; [apply Forall_repeat; exact Hv|exact Hr].
           ++ eexists. split; [apply (proj1 (proj2 (nth_parts l m r)) O); reflexivity|]. right. rewrite !app_length. unfold k in *. lia.
    + set (k := Z.to_nat z) in H. destruct (Nat.leb (length (before w) + length (after w)) k) eqn:E1; [discriminate H|]. apply Nat.leb_gt in E1.
      destruct (Nat.ltb k (length (before w))) eqn:E2; [apply Nat.ltb_lt in E2|apply Nat.ltb_ge in E2].
      * destruct (nth_error (before w) k) as [u|] eqn:En; [|discriminate H]. injection H as ->.
        destruct (pick _ _ _ _ Hb En Hv) as [l [Hl Hp]]. destruct (some_values _ Hc) as [r Hr]. exists (l ++ [] ++ r). split.
        -- exists l, [], r. split; [reflexivity|]. split; [exact Hl|]. rewrite Hm. split; [constructor|exact Hr].
        -- eexists. split; [apply (proj1 (nth_parts l [] r)); exact Hp|]. left. unfold k. lia.
      * injection H as <-. apply union_has in Hv. destruct Hv as [u [Hu Hv]]. destruct (some_values _ Hb) as [l Hl].
        assert (Ll := Forall2_len _ _ _ Hl). destruct Hu as [->|Hu].
        -- destruct (some_values _ Hc) as [r Hr]. set (m := repeat v (S (k - length (before w)))).
           assert (Hp : nth_error m (k - length (before w)) = Some v).
           { unfold m. assert (G : forall j n, (j < n)%nat -> nth_error (repeat v n) j = Some v).
             { intros j; induction j as [|j IH]; intros [|n] Hn; try lia; [reflexivity|]. apply IH. lia. }
             apply G. lia. }
           exists (l ++ m ++ r). split.
           ++ exists l, m, r. split; [reflexivity|]. split; [exact Hl|]. rewrite Hm. split; [apply Forall_repeat; exact Hv|exact Hr].
           ++ eexists. split; [apply (proj1 (proj2 (nth_parts l m r))); exact Hp|]. left. unfold k in *. lia.
        -- destruct (In_firstn_pos _ _ _ Hu) as [j [Hj1 Hj2]]. destruct (pick _ _ _ _ Hc Hj2 Hv) as [r [Hr Hp]].
           set (m := repeat x (k - length (before w) - j)). assert (Lm : length m = (k - length (before w) - j)%nat) by apply repeat_length.
           exists (l ++ m ++ r). split.
           ++ exists l, m, r. split; [reflexivity|]. split; [exact Hl|]. rewrite Hm. split; [apply Forall_repeat; exact Hx|exact Hr].
           ++ eexists. split; [apply (proj2 (proj2 (nth_parts l m r))); exact Hp|]. left. unfold k in *. lia.
Qed.

(** The shortest tuple *)
Lemma shortest : forall a, (match a with FixedLen ts => inhabited_types ts | ArbitraryLen _ => True
    | WithUnpack w => inhabited_types (before w) /\ inhabited_types (after w) /\ in_middle has stands_for (middle w) [] end) ->
  exists vs, is_tuple a vs /\ match a with FixedLen ts => True | ArbitraryLen _ => True | WithUnpack w => length vs = (length (before w) + length (after w))%nat end.
Proof.
  intros [ts|t|w] H.
  - destruct (some_values ts H) as [vs Hv]. exists vs. auto.
  - exists []. split; [constructor|exact I].
  - destruct H as [Hb [Hc Hm]]. destruct (some_values _ Hb) as [l Hl]. destruct (some_values _ Hc) as [r Hr]. exists (l ++ [] ++ r). split.
    + exists l, [], r. auto.
    + rewrite !app_length, (Forall2_len _ _ _ Hl), (Forall2_len _ _ _ Hr). reflexivity.
Qed.
End Exact.
