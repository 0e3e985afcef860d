From Coq Require Import List Bool Arith Lia.
From Verif Require Import MroModel MroSpec.
Import ListNotations.

(** ** Facts about C3 *)

Lemma heads_app : forall a b, heads (a ++ b) = heads a ++ heads b.
Proof.
  induction a as [|[|h t] a IH]; intros b; cbn; [reflexivity|apply IH|]. now rewrite IH.
Qed.

Lemma heads_in : forall lists h, In h (heads lists) <-> exists t, In (h :: t) lists.
Proof.
  induction lists as [|[|x t] lists IH]; intros h; cbn.
  - split; [contradiction|]. intros [t []].
  - rewrite IH. split; intros [t H]; exists t; auto. destruct H as [H|H]; [discriminate|exact H].
  - rewrite IH. split.
    + intros [->|[t' H]]; eauto.
    + intros [t' [H|H]]; [left; congruence|right; eauto].
Qed.

Lemma in_drop_head : forall h l x, In x (drop_head h l) -> In x l.
Proof. intros h [|y l] x H; cbn in *; [exact H|]. destruct (Nat.eqb y h); cbn in *; auto. Qed.

Lemma drop_head_gone : forall h l, ~ In h (tl l) -> ~ In h (drop_head h l).
Proof.
  intros h [|y l] H; cbn in *; [auto|]. destruct (Nat.eqb_spec y h) as [->|Hne]; [exact H|].
  intros [E|E]; auto.
Qed.

Lemma drop_head_keeps : forall h l x, x <> h -> In x l -> In x (drop_head h l).
Proof.
  intros h [|y l] x Hne H; cbn in *; [exact H|]. destruct (Nat.eqb_spec y h) as [->|Hn2]; [|exact H].
  destruct H as [H|H]; [congruence|exact H].
Qed.

Lemma in_tails_drop : forall h x lists, in_tails x (map (drop_head h) lists) -> in_tails x lists.
Proof.
  intros h x lists (l & Hl & Hx). apply in_map_iff in Hl. destruct Hl as (l0 & <- & Hl0).
  exists l0. split; [exact Hl0|]. destruct l0 as [|y l0]; cbn in *; [exact Hx|].
  destruct (Nat.eqb y h); cbn in Hx; [|exact Hx]. destruct l0; cbn in *; auto.
Qed.

Lemma split_unique : forall (P : nat -> Prop) a1 h1 b1 a2 h2 b2,
  a1 ++ h1 :: b1 = a2 ++ h2 :: b2 ->
  ~ P h1 -> (forall x, In x a1 -> P x) -> ~ P h2 -> (forall x, In x a2 -> P x) -> h1 = h2.
Proof.
  intros P. induction a1 as [|x a1 IH]; intros h1 b1 a2 h2 b2 E N1 H1 N2 H2; destruct a2 as [|y a2]; cbn in E.
  - congruence.
  - injection E as -> _. exfalso. apply N1, H2. now left.
  - injection E as -> _. exfalso. apply N2, H1. now left.
  - injection E as -> E. eapply IH; eauto; intros z Hz; [apply H1|apply H2]; now right.
Qed.

Lemma c3_deterministic : forall lists r1, c3_merge lists r1 -> forall r2, c3_merge lists r2 -> r1 = r2.
Proof.
  intros lists r1 H1. induction H1 as [lists Hd|lists a h b r E N Ha H1 IH]; intros r2 H2.
  - inversion H2 as [|? a' h' b' r' E' N' Ha' H2']; subst; [reflexivity|].
    exfalso. assert (Hin : In h' (heads lists)) by (rewrite E'; apply in_elt).
    apply heads_in in Hin. destruct Hin as [t Ht]. apply Hd in Ht. discriminate.
  - inversion H2 as [? Hd|? a' h' b' r' E' N' Ha' H2']; subst.
    + exfalso. assert (Hin : In h (heads lists)) by (rewrite E; apply in_elt).
      apply heads_in in Hin. destruct Hin as [t Ht]. apply Hd in Ht. discriminate.
    + assert (h = h') by (eapply (split_unique (fun x => in_tails x lists)); [rewrite <- E; exact E'|auto..]).
      subst h'. f_equal. now apply IH.
Qed.

(** Elements, order and uniqueness of a merge. *)
Lemma c3_elements : forall lists r, c3_merge lists r -> forall x, In x r <-> exists l, In l lists /\ In x l.
Proof.
  intros lists r H. induction H as [lists Hd|lists a h b r E N Ha H IH]; intros x.
  - split; [intros []|]. intros (l & Hl & Hx). rewrite (Hd l Hl) in Hx. exact Hx.
  - assert (Hin : In h (heads lists)) by (rewrite E; apply in_elt).
    apply heads_in in Hin. destruct Hin as [t Ht]. cbn. rewrite IH. split.
    + intros [<-|(l & Hl & Hx)].
      * exists (h :: t). split; [exact Ht|now left].
      * apply in_map_iff in Hl. destruct Hl as (l0 & <- & Hl0). exists l0. split; [exact Hl0|].
        eapply in_drop_head; exact Hx.
    + intros (l & Hl & Hx). destruct (Nat.eq_dec x h) as [->|Hne]; [now left|]. right.
      exists (drop_head h l). split; [now apply in_map|]. now apply drop_head_keeps.
Qed.

Lemma c3_nodup : forall lists r, c3_merge lists r -> NoDup r.
Proof.
  intros lists r H. induction H as [lists Hd|lists a h b r E N Ha H IH]; constructor; [|exact IH].
  intros Hin. rewrite (c3_elements _ _ H) in Hin. destruct Hin as (l & Hl & Hx).
  apply in_map_iff in Hl. destruct Hl as (l0 & <- & Hl0). revert Hx. apply drop_head_gone.
  intros Hx. apply N. exists l0. auto.
Qed.

Lemma c3_subsequence : forall lists r, c3_merge lists r -> forall l, In l lists -> subsequence l r.
Proof.
  intros lists r H. induction H as [lists Hd|lists a h b r E N Ha H IH]; intros l Hl.
  - rewrite (Hd l Hl). constructor.
  - specialize (IH (drop_head h l) (in_map _ _ _ Hl)). destruct l as [|x l]; cbn in IH.
    + now apply sub_skip.
    + destruct (Nat.eqb_spec x h) as [->|Hne]; [now apply sub_take|now apply sub_skip].
Qed.

Lemma subsequence_in : forall l r x, subsequence l r -> In x l -> In x r.
Proof.
  intros l r x H. induction H as [|y l r H IH|y l r H IH]; intros Hx; [exact Hx| |right; auto].
  destruct Hx as [->|Hx]; [now left|right; auto].
Qed.

Lemma subsequence_cons : forall x l r, subsequence (x :: l) r -> subsequence l r.
Proof.
  intros x l r. revert x l. induction r as [|y r IH]; intros x l H; inversion H; subst.
  - now apply sub_skip.
  - apply sub_skip. eapply IH. eassumption.
Qed.

Lemma subsequence_nil : forall r, subsequence [] r.
Proof. induction r; constructor; auto. Qed.

Lemma subsequence_tl : forall l r, subsequence l r -> subsequence (tl l) r.
Proof. intros [|x l] r H; cbn; [exact H|]. eapply subsequence_cons; exact H. Qed.

(** A common order guarantees that merging does not get stuck. *)
Lemma good_head_exists : forall r0, NoDup r0 -> forall lists, (forall l, In l lists -> subsequence l r0) ->
  (exists l, In l lists /\ l <> []) -> exists h, In h (heads lists) /\ ~ in_tails h lists.
Proof.
  intros r0 Hn. induction Hn as [|x r0 Hx Hn IH]; intros lists Hs (l & Hl & Hne).
  - specialize (Hs l Hl). inversion Hs; subst. congruence.
  - destruct (in_dec Nat.eq_dec x (concat lists)) as [Hin|Hout].
    + apply in_concat in Hin. destruct Hin as (l0 & Hl0 & Hx0).
      assert (E : exists t, l0 = x :: t).
      { specialize (Hs l0 Hl0). inversion Hs as [|y l1 r1 H1|y l1 r1 H1]; subst; [eauto|].
        exfalso. apply Hx. eapply subsequence_in; eauto. }
      destruct E as [t ->]. exists x. split; [apply heads_in; eauto|].
      intros (l1 & Hl1 & Hx1). apply Hx. specialize (Hs l1 Hl1).
      inversion Hs as [|y l2 r1 H1|y l2 r1 H1]; subst; cbn in Hx1.
      * eapply subsequence_in; eauto.
      * eapply subsequence_in; [apply subsequence_tl; exact H1|exact Hx1].
    + apply IH; [|eauto]. intros l0 Hl0. pose proof (Hs l0 Hl0) as H0.
      inversion H0 as [|y l1 r1 H1|y l1 r1 H1]; subst; [|exact H1].
      exfalso. apply Hout. apply in_concat. exists (x :: l1). split; [exact Hl0|now left].
Qed.

Lemma in_tails_dec : forall h lists, {in_tails h lists} + {~ in_tails h lists}.
Proof.
  intros h lists. destruct (existsb (fun l => existsb (Nat.eqb h) (tl l)) lists) eqn:E.
  - left. apply existsb_exists in E. destruct E as (l & Hl & Hx). apply existsb_exists in Hx.
    destruct Hx as (y & Hy & Ey). apply Nat.eqb_eq in Ey. subst y. exists l. auto.
  - right. intros (l & Hl & Hx). rewrite <- not_true_iff_false in E. apply E.
    apply existsb_exists. exists l. split; [exact Hl|]. apply existsb_exists. exists h.
    split; [exact Hx|apply Nat.eqb_refl].
Qed.

Lemma first_good : forall (P : nat -> Prop) (dec : forall x, {P x} + {~ P x}) hs h, In h hs -> ~ P h ->
  exists a h' b, hs = a ++ h' :: b /\ ~ P h' /\ forall x, In x a -> P x.
Proof.
  intros P dec. induction hs as [|y hs IH]; intros h Hin Hh; [contradiction|].
  destruct (dec y) as [Hy|Hy].
  - destruct Hin as [->|Hin]; [contradiction|]. destruct (IH h Hin Hh) as (a & h' & b & -> & Hn & Ha).
    exists (y :: a), h', b. split; [reflexivity|]. split; [exact Hn|]. intros x [<-|Hx]; auto.
  - exists [], y, hs. split; [reflexivity|]. split; [exact Hy|]. intros x [].
Qed.

Fixpoint size (lists : list (list nat)) : nat := match lists with [] => 0 | l :: rest => length l + size rest end.

Lemma drop_head_length : forall h l, length (drop_head h l) <= length l.
Proof. intros h [|x l]; cbn; [lia|]. destruct (Nat.eqb x h); cbn; lia. Qed.

Lemma size_drop : forall h lists, size (map (drop_head h) lists) <= size lists.
Proof.
  intros h. induction lists as [|l lists IH]; cbn; [lia|]. pose proof (drop_head_length h l). lia.
Qed.

Lemma size_drop_lt : forall h lists, In h (heads lists) -> size (map (drop_head h) lists) < size lists.
Proof.
  intros h. induction lists as [|[|x l] lists IH]; cbn; intros H; [contradiction|auto|].
  pose proof (size_drop h lists). destruct (Nat.eqb_spec x h) as [->|Hne]; cbn; [lia|].
  destruct H as [H|H]; [congruence|]. specialize (IH H). lia.
Qed.

Lemma size_empty : forall lists, size lists = 0 -> forall l, In l lists -> l = [].
Proof.
  induction lists as [|l0 lists IH]; cbn; intros H l Hl; [contradiction|].
  destruct Hl as [->|Hl]; [destruct l; cbn in H; [reflexivity|lia]|]. apply IH; [lia|exact Hl].
Qed.

Lemma c3_exists : forall r0, NoDup r0 -> forall n lists, size lists <= n ->
  (forall l, In l lists -> subsequence l r0) -> exists r, c3_merge lists r.
Proof.
  intros r0 Hn. induction n as [|n IH]; intros lists Hsz Hs.
  - exists []. apply c3_done. apply size_empty. lia.
  - destruct (size lists) eqn:Ez.
    + exists []. apply c3_done. apply size_empty. exact Ez.
    + assert (Hne : exists l, In l lists /\ l <> []).
      { clear -Ez. induction lists as [|[|x l] lists IH]; cbn in Ez; [discriminate| |].
        - destruct (IH Ez) as (l & Hl & Hne). exists l. split; [now right|exact Hne].
        - exists (x :: l). split; [now left|discriminate]. }
      destruct (good_head_exists r0 Hn lists Hs Hne) as (h & Hh & Hnt).
      destruct (first_good (fun x => in_tails x lists) (fun x => in_tails_dec x lists) _ _ Hh Hnt)
        as (a & h' & b & E & Hn' & Ha).
      assert (Hh' : In h' (heads lists)) by (rewrite E; apply in_elt).
      pose proof (size_drop_lt h' lists Hh').
      destruct (IH (map (drop_head h') lists)) as [r Hr].
      * lia.
      * intros l Hl. apply in_map_iff in Hl. destruct Hl as (l0 & <- & Hl0). specialize (Hs l0 Hl0).
        destruct l0 as [|x l0]; cbn; [exact Hs|]. destruct (Nat.eqb x h'); [|exact Hs].
        eapply subsequence_cons; exact Hs.
      * exists (h' :: r). eapply c3_step; eauto.
Qed.

(** Adding the list of the bases changes nothing if the result respects their order. *)
Lemma c3_add_respected : forall lists r, c3_merge lists r -> forall bs, subsequence bs r -> c3_merge (lists ++ [bs]) r.
Proof.
  intros lists r H. pose proof (c3_nodup _ _ H) as Hnd. revert Hnd.
  induction H as [lists Hd|lists a h b r E N Ha H IH]; intros Hnd bs Hs.
  - inversion Hs; subst. apply c3_done. intros l Hl. apply in_app_or in Hl. destruct Hl as [Hl|[<-|[]]]; auto.
  - inversion Hnd as [|? ? Hh Hnd']; subst.
    assert (Hnb : ~ In h (tl bs) /\ subsequence (drop_head h bs) r).
    { inversion Hs as [|y l r' H1|y l r' H1]; subst; cbn.
      - rewrite Nat.eqb_refl. split; [|exact H1]. intros Hx. apply Hh. eapply subsequence_in; eauto.
      - assert (Hnin : ~ In h bs) by (intros Hx; apply Hh; eapply subsequence_in; eauto).
        split; [intros Hx; apply Hnin; destruct bs; cbn in *; auto|].
        destruct bs as [|z bs]; cbn; [exact H1|]. destruct (Nat.eqb_spec z h) as [->|_]; [|exact H1].
        exfalso. apply Hnin. now left. }
    destruct Hnb as [Hnt Hs'].
    eapply c3_step with (before := a) (after := b ++ heads [bs]).
    + rewrite heads_app, E, <- app_assoc. reflexivity.
    + intros (l & Hl & Hx). apply in_app_or in Hl. destruct Hl as [Hl|[<-|[]]]; [|contradiction].
      apply N. exists l. auto.
    + intros h' Hh'. destruct (Ha h' Hh') as (l & Hl & Hx). exists l. split; [apply in_or_app; auto|exact Hx].
    + rewrite map_app. cbn [map]. apply IH; assumption.
Qed.

Lemma c3_forget : forall lists bs r, c3_merge (lists ++ [bs]) r -> exists r', c3_merge lists r'.
Proof.
  intros lists bs r H. apply (c3_exists r (c3_nodup _ _ H) (size lists)); [lia|].
  intros l Hl. apply (c3_subsequence _ _ H). apply in_or_app. auto.
Qed.

(** A base list of a single class that is the head of one of the lists (or already merged) changes nothing. *)
Lemma c3_single_base : forall lists r, c3_merge lists r -> forall b, In b (heads lists) -> c3_merge (lists ++ [[b]]) r.
Proof.
  intros lists r H b Hb. apply c3_add_respected; [exact H|].
  apply heads_in in Hb. destruct Hb as [t Ht]. pose proof (c3_subsequence _ _ H _ Ht) as Hs.
  clear -Hs. remember (b :: t) as l eqn:E. revert b t E. induction Hs as [|x l r H IH|x l r H IH]; intros b t E.
  - discriminate.
  - injection E as -> ->. apply sub_take. apply subsequence_nil.
  - apply sub_skip. eapply IH; exact E.
Qed.

(** ** object at the end of all linearizations *)
Definition with_object (l : list nat) : list nat := l ++ [0].

Lemma in_tails_object : forall x l1 l2, x <> 0 ->
  (in_tails x (map with_object l1 ++ l2) <-> in_tails x (l1 ++ l2)).
Proof.
  intros x l1 l2 Hx. split; intros (l & Hl & Ht); apply in_app_or in Hl.
  - destruct Hl as [Hl|Hl].
    + apply in_map_iff in Hl. destruct Hl as (l0 & <- & Hl0). exists l0. split; [apply in_or_app; auto|].
      destruct l0 as [|y l0]; cbn in *; [contradiction|]. apply in_app_or in Ht.
      destruct Ht as [Ht|[Ht|[]]]; [exact Ht|congruence].
    + exists l. split; [apply in_or_app; auto|exact Ht].
  - destruct Hl as [Hl|Hl].
    + exists (with_object l). split; [apply in_or_app; left; now apply in_map|].
      destruct l as [|y l]; cbn in *; [contradiction|]. apply in_or_app. auto.
    + exists l. split; [apply in_or_app; auto|exact Ht].
Qed.

Lemma heads_object : forall l1, Forall (fun l => ~ In 0 l) l1 ->
  filter (fun x => negb (Nat.eqb x 0)) (heads (map with_object l1)) = heads l1.
Proof.
  induction l1 as [|[|x l] l1 IH]; intros H; cbn; [reflexivity| |]; inversion H as [|? ? H0 H1]; subst.
  - now apply IH.
  - destruct (Nat.eqb_spec x 0) as [->|Hx]; [exfalso; apply H0; now left|]. cbn. now rewrite IH.
Qed.

Lemma heads_no_object : forall l2, Forall (fun l => ~ In 0 l) l2 ->
  filter (fun x => negb (Nat.eqb x 0)) (heads l2) = heads l2.
Proof.
  induction l2 as [|[|x l] l2 IH]; intros H; cbn; [reflexivity| |]; inversion H as [|? ? H0 H1]; subst.
  - now apply IH.
  - destruct (Nat.eqb_spec x 0) as [->|Hx]; [exfalso; apply H0; now left|]. cbn. now rewrite IH.
Qed.

Lemma drop_head_object : forall h l, h <> 0 -> drop_head h (with_object l) = with_object (drop_head h l).
Proof.
  intros h [|x l] Hh; cbn.
  - destruct h; [congruence|reflexivity].
  - destruct (Nat.eqb x h); reflexivity.
Qed.

Lemma map_drop_object : forall h l1, h <> 0 ->
  map (drop_head h) (map with_object l1) = map with_object (map (drop_head h) l1).
Proof. intros h l1 Hh. rewrite !map_map. apply map_ext. intros l. now apply drop_head_object. Qed.

Lemma Forall_drop : forall h l1, Forall (fun l => ~ In 0 l) l1 -> Forall (fun l => ~ In 0 l) (map (drop_head h) l1).
Proof.
  intros h l1 H. induction H as [|l l1 Hl H IH]; cbn; constructor; [|exact IH].
  intros Hx. apply Hl. eapply in_drop_head; exact Hx.
Qed.

Definition covered (l1 l2 : list (list nat)) : Prop := forall l x, In l l2 -> In x l -> exists l', In l' l1 /\ In x l'.

Lemma covered_drop : forall h l1 l2, ~ in_tails h (l1 ++ l2) -> covered l1 l2 ->
  covered (map (drop_head h) l1) (map (drop_head h) l2).
Proof.
  intros h l1 l2 Hn Hc l x Hl Hx. apply in_map_iff in Hl. destruct Hl as (l0 & <- & Hl0).
  assert (Hne : x <> h).
  { intros ->. revert Hx. apply drop_head_gone. intros Ht. apply Hn. exists l0. split; [apply in_or_app; auto|exact Ht]. }
  destruct (Hc l0 x Hl0 (in_drop_head _ _ _ Hx)) as (l' & Hl' & Hx').
  exists (drop_head h l'). split; [now apply in_map|]. now apply drop_head_keeps.
Qed.

Lemma filter_split : forall (p : nat -> bool) L a h b, filter p L = a ++ h :: b ->
  exists A B, L = A ++ h :: B /\ filter p A = a.
Proof.
  intros p. induction L as [|x L IH]; intros a h b E; cbn in E.
  - destruct a; discriminate.
  - destruct (p x) eqn:Ep.
    + destruct a as [|y a]; cbn in E.
      * injection E as -> E. exists [], L. auto.
      * injection E as -> E. destruct (IH a h b E) as (A & B & -> & EA).
        exists (y :: A), B. cbn. rewrite Ep, EA. auto.
    + destruct (IH a h b E) as (A & B & -> & EA). exists (x :: A), B. cbn. rewrite Ep. auto.
Qed.

Lemma c3_object : forall L r', c3_merge L r' -> forall l1 l2, L = map with_object l1 ++ l2 -> l1 <> [] ->
  Forall (fun l => ~ In 0 l) l1 -> Forall (fun l => ~ In 0 l) l2 -> covered l1 l2 ->
  exists r, r' = r ++ [0] /\ c3_merge (l1 ++ l2) r.
Proof.
  intros L r' H. induction H as [L Hd|L a h b r' E N Ha H IH]; intros l1 l2 -> Hne H1 H2 Hc.
  - exfalso. destruct l1 as [|l l1]; [congruence|].
    specialize (Hd (with_object l)). cbn in Hd. assert (W : with_object l = []) by auto.
    destruct l; discriminate.
  - destruct (Nat.eq_dec h 0) as [->|Hh].
    + assert (Hempty : forall l, In l l1 -> l = []).
      { intros [|x l] Hl; [reflexivity|]. exfalso. apply N. exists (with_object (x :: l)). split.
        - apply in_or_app. left. now apply in_map.
        - cbn. apply in_or_app. right. now left. }
      assert (Hempty2 : forall l, In l l2 -> l = []).
      { intros [|x l] Hl; [reflexivity|]. exfalso.
        destruct (Hc (x :: l) x Hl (or_introl eq_refl)) as (l' & Hl' & Hx). rewrite (Hempty _ Hl') in Hx. contradiction. }
      exists []. split.
      * assert (Hd : c3_merge (map (drop_head 0) (map with_object l1 ++ l2)) []).
        { apply c3_done. intros l Hl. apply in_map_iff in Hl. destruct Hl as (l0 & <- & Hl0).
          apply in_app_or in Hl0. destruct Hl0 as [Hl0|Hl0].
          - apply in_map_iff in Hl0. destruct Hl0 as (l3 & <- & Hl3). rewrite (Hempty _ Hl3). reflexivity.
          - rewrite (Hempty2 _ Hl0). reflexivity. }
        rewrite (c3_deterministic _ _ H _ Hd). reflexivity.
      * apply c3_done. intros l Hl. apply in_app_or in Hl. destruct Hl; auto.
    + assert (N' : ~ in_tails h (l1 ++ l2)) by (rewrite <- in_tails_object by exact Hh; exact N).
      destruct (IH (map (drop_head h) l1) (map (drop_head h) l2)) as (r & -> & Hr).
      * rewrite map_app, map_drop_object by exact Hh. reflexivity.
      * destruct l1; [congruence|discriminate].
      * now apply Forall_drop.
      * now apply Forall_drop.
      * now apply covered_drop.
      * exists (h :: r). split; [reflexivity|].
        assert (Ef : heads (l1 ++ l2) = filter (fun x => negb (Nat.eqb x 0)) a ++ h :: filter (fun x => negb (Nat.eqb x 0)) b).
        { rewrite heads_app, <- (heads_object l1 H1), <- (heads_no_object l2 H2), <- filter_app, <- heads_app, E, filter_app.
          cbn. destruct (Nat.eqb_spec h 0); [contradiction|reflexivity]. }
        eapply c3_step; [exact Ef|exact N'| |now rewrite map_app].
        intros h' Hh'. apply filter_In in Hh'. destruct Hh' as [Hin Hnz].
        apply negb_true_iff, Nat.eqb_neq in Hnz. rewrite <- in_tails_object by exact Hnz. now apply Ha.
Qed.

Lemma c3_object_back : forall L r, c3_merge L r -> forall l1 l2, L = l1 ++ l2 -> l1 <> [] ->
  Forall (fun l => ~ In 0 l) l1 -> Forall (fun l => ~ In 0 l) l2 -> covered l1 l2 ->
  c3_merge (map with_object l1 ++ l2) (r ++ [0]).
Proof.
  intros L r H. induction H as [L Hd|L a h b r E N Ha H IH]; intros l1 l2 -> Hne H1 H2 Hc.
  - cbn. destruct l1 as [|l0 l1]; [congruence|].
    assert (E1 : forall l, In l (l0 :: l1) -> with_object l = [0]).
    { intros l Hl. rewrite (Hd l); [reflexivity|]. apply in_or_app. auto. }
    assert (Hnt : forall x, ~ in_tails x (map with_object (l0 :: l1) ++ l2)).
    { intros x (l & Hl & Hx). apply in_app_or in Hl. destruct Hl as [Hl|Hl].
      - apply in_map_iff in Hl. destruct Hl as (l3 & <- & Hl3). rewrite (E1 l3 Hl3) in Hx. contradiction.
      - rewrite (Hd l) in Hx; [contradiction|]. apply in_or_app. auto. }
    eapply c3_step with (before := []) (after := heads (map with_object l1 ++ l2)).
    + cbn [map app]. rewrite (E1 l0) by now left. reflexivity.
    + apply Hnt.
    + intros h' [].
    + apply c3_done. intros l Hl. apply in_map_iff in Hl. destruct Hl as (l3 & <- & Hl3).
      apply in_app_or in Hl3. destruct Hl3 as [Hl3|Hl3].
      * apply in_map_iff in Hl3. destruct Hl3 as (l4 & <- & Hl4). rewrite (E1 l4 Hl4). reflexivity.
      * rewrite (Hd l3); [reflexivity|]. apply in_or_app. auto.
  - assert (Hin : In h (heads (l1 ++ l2))) by (rewrite E; apply in_elt).
    apply heads_in in Hin. destruct Hin as [t Ht].
    assert (Hh : h <> 0).
    { intros ->. apply in_app_or in Ht. rewrite Forall_forall in H1, H2.
      destruct Ht as [Ht|Ht]; [apply (H1 _ Ht)|apply (H2 _ Ht)]; now left. }
    assert (Hne1 : exists l x, In l l1 /\ In x l).
    { apply in_app_or in Ht. destruct Ht as [Ht|Ht].
      - exists (h :: t), h. split; [exact Ht|now left].
      - destruct (Hc _ h Ht (or_introl eq_refl)) as (l' & Hl' & Hx). eauto. }
    rewrite heads_app, <- (heads_object l1 H1), <- (heads_no_object l2 H2), <- filter_app, <- heads_app in E.
    destruct (filter_split _ _ _ _ _ E) as (A & B & EL & EA).
    cbn [app]. eapply c3_step with (before := A) (after := B); [exact EL| | |].
    + rewrite in_tails_object by exact Hh. exact N.
    + intros h' Hh'. destruct (Nat.eq_dec h' 0) as [->|Hnz].
      * destruct Hne1 as (l & x & Hl & Hx). exists (with_object l). split.
        -- apply in_or_app. left. now apply in_map.
        -- destruct l as [|y l]; [contradiction|]. cbn. apply in_or_app. right. now left.
      * rewrite in_tails_object by exact Hnz. apply Ha. rewrite <- EA. apply filter_In.
        split; [exact Hh'|]. now apply negb_true_iff, Nat.eqb_neq.
    + rewrite map_app, map_drop_object by exact Hh. apply IH.
      * now rewrite map_app.
      * destruct l1; [congruence|discriminate].
      * now apply Forall_drop.
      * now apply Forall_drop.
      * now apply covered_drop.
Qed.

(** ** The model *)
Definition raw (its : list iter) : list (list id) := map rest its.

Lemma conflicts_spec : forall its c, conflicts its c = true <-> in_tails c (raw its).
Proof.
  intros its c. unfold conflicts, in_tails, raw. rewrite existsb_exists. split.
  - intros (it & Hi & Hx). apply existsb_exists in Hx. destruct Hx as (y & Hy & Ey). apply Nat.eqb_eq in Ey. subst y.
    exists (rest it). split; [now apply in_map|exact Hy].
  - intros (l & Hl & Hx). apply in_map_iff in Hl. destruct Hl as (it & <- & Hi). exists it. split; [exact Hi|].
    apply existsb_exists. exists c. split; [exact Hx|apply Nat.eqb_refl].
Qed.

Lemma find_candidate_some : forall all us had i c b, find_candidate all us had = (Some (i, c), b) ->
  exists a d, heads (raw us) = a ++ c :: d /\ ~ in_tails c (raw all) /\ (forall x, In x a -> in_tails x (raw all)) /\
    exists it, In it us /\ taken it = i /\ exists t, rest it = c :: t.
Proof.
  intros all. induction us as [|it us IH]; intros had i c b H; cbn in H; [discriminate|].
  cbn [raw map heads]. destruct (rest it) as [|x t] eqn:Er.
  - destruct (IH _ _ _ _ H) as (a & d & E & N & Ha & it' & Hi & Hr). exists a, d. repeat split; auto.
    exists it'. split; [now right|exact Hr].
  - destruct (conflicts all x) eqn:Ec.
    + destruct (IH _ _ _ _ H) as (a & d & E & N & Ha & it' & Hi & Hr). exists (x :: a), d.
      split; [cbn; now rewrite <- E|]. split; [exact N|]. split.
      * intros y [<-|Hy]; [now apply conflicts_spec|auto].
      * exists it'. split; [now right|exact Hr].
    + injection H as <- <- _. exists [], (heads (map rest us)). split; [reflexivity|]. split.
      * intros Hx. apply conflicts_spec in Hx. congruence.
      * split; [intros y []|]. exists it. split; [now left|]. split; [reflexivity|]. eauto.
Qed.

Lemma find_candidate_none : forall all us had b, find_candidate all us had = (None, b) ->
  (forall x, In x (heads (raw us)) -> in_tails x (raw all)) /\
  (b = false -> had = false /\ heads (raw us) = []) /\ (heads (raw us) <> [] \/ had = true -> b = true).
Proof.
  intros all. induction us as [|it us IH]; intros had b H; cbn in H.
  - injection H as <-. cbn. repeat split; auto; try (intros; contradiction). intros [H|H]; [congruence|exact H].
  - cbn [raw map heads]. destruct (rest it) as [|x t] eqn:Er.
    + apply IH in H. exact H.
    + destruct (conflicts all x) eqn:Ec; [|discriminate].
      apply IH in H. destruct H as (H1 & H2 & H3). split; [|split].
      * intros y [<-|Hy]; [now apply conflicts_spec|now apply H1].
      * intros ->. destruct (H2 eq_refl). discriminate.
      * intros _. apply H3. now right.
Qed.

Lemma raw_next_if : forall c its, raw (map fst (map (next_if c) its)) = map (drop_head c) (raw its).
Proof.
  intros c. induction its as [|it its IH]; cbn; [reflexivity|].
  cbn [raw] in IH. unfold raw in *. rewrite IH. f_equal. unfold next_if.
  destruct (rest it) as [|x t] eqn:E; cbn; [now rewrite E|]. destruct (Nat.eqb x c); cbn; [reflexivity|now rewrite E].
Qed.

Lemma total_size : forall its, total its = size (raw its).
Proof. induction its as [|it its IH]; cbn; [reflexivity|]. unfold total in IH. now rewrite IH. Qed.

Lemma next_if_length : forall c its, length (map fst (map (next_if c) its)) = length its.
Proof. intros. now rewrite !map_length. Qed.

Lemma take_first_spec : forall its e its', take_first its = Some (e, its') ->
  size (raw its') < size (raw its) /\ length its' = length its.
Proof.
  induction its as [|it its IH]; intros e its' H; cbn in H; [discriminate|].
  destruct (rest it) as [|x t] eqn:E.
  - destruct (take_first its) as [[e0 r0]|] eqn:E2; [|discriminate]. injection H as <- <-.
    destruct (IH _ _ eq_refl) as [H1 H2]. unfold raw in *. cbn [map size length] in *. rewrite E. cbn [length]. lia.
  - injection H as <- <-. unfold raw. cbn [map size rest length]. rewrite E. cbn [length]. lia.
Qed.

Lemma take_first_none : forall its, take_first its = None -> heads (raw its) = [].
Proof.
  induction its as [|it its IH]; intros H; cbn in *; [reflexivity|].
  destruct (rest it); [|discriminate]. destruct (take_first its) as [[e r]|]; [discriminate|]. now apply IH.
Qed.

Lemma raw_firstn : forall n its, heads (raw (firstn n its)) = [] \/ exists x, In x (heads (raw (firstn n its))).
Proof. intros n its. destruct (heads _) as [|x l]; [now left|]. right. exists x. now left. Qed.

Lemma heads_firstn : forall n its x, In x (heads (raw (firstn n its))) -> In x (heads (raw its)).
Proof.
  intros n its x H. rewrite <- (firstn_skipn n its). unfold raw in *. rewrite map_app, heads_app. apply in_or_app. auto.
Qed.

(** The loop always ends with a result. *)
Lemma outer_total : forall fuel its allowed mro lin, total its < fuel -> outer fuel its allowed mro lin <> None.
Proof.
  induction fuel as [|k IH]; intros its allowed mro lin Hf; [lia|]. cbn [outer].
  destruct (find_candidate its (firstn (Nat.min allowed (length its)) its) false) as [[[i c]|] b] eqn:E.
  - destruct (find_candidate_some _ _ _ _ _ _ E) as (a & d & Eh & _).
    assert (Hin : In c (heads (raw its))).
    { apply (heads_firstn (Nat.min allowed (length its))). rewrite Eh. apply in_elt. }
    assert (Hlt : total (map fst (map (next_if c) its)) < k).
    { rewrite total_size, raw_next_if. pose proof (size_drop_lt c (raw its) Hin). rewrite total_size in Hf. lia. }
    destruct (Nat.eqb c object); now apply IH.
  - destruct b; [|discriminate].
    destruct (take_first its) as [[[i x] its']|] eqn:Et.
    + destruct (take_first_spec _ _ _ Et) as [Hlt _]. rewrite <- !total_size in Hlt.
      destruct (mem_id x mro && negb (Nat.eqb x object)); apply IH; lia.
    + exfalso. apply take_first_none in Et.
      destruct (find_candidate_none _ _ _ _ E) as (H1 & H2 & H3).
      assert (Hh : heads (raw (firstn (Nat.min allowed (length its)) its)) = []).
      { destruct (raw_firstn (Nat.min allowed (length its)) its) as [H|[x Hx]]; [exact H|].
        apply heads_firstn in Hx. rewrite Et in Hx. contradiction. }
      assert (W : forall us, heads (raw us) = [] -> forall all, find_candidate all us false = (None, false)).
      { clear. induction us as [|it us IH]; intros H all; cbn in *; [reflexivity|].
        destruct (rest it); [now apply IH|discriminate]. }
      rewrite (W _ Hh) in E. discriminate.
Qed.

Lemma outer_false : forall fuel its allowed mro m b, outer fuel its allowed mro false = Some (m, b) -> b = false.
Proof.
  induction fuel as [|k IH]; intros its allowed mro m b H; [discriminate|]. cbn [outer] in H.
  destruct (find_candidate its _ false) as [[[i c]|] [|]].
  - destruct (Nat.eqb c object); eapply IH; exact H.
  - destruct (Nat.eqb c object); eapply IH; exact H.
  - destruct (take_first its) as [[[i x] its']|]; [|discriminate].
    destruct (mem_id x mro && negb (Nat.eqb x object)); eapply IH; exact H.
  - now injection H as <- <-.
Qed.

Definition no_object (r : list id) : list id := filter (fun x => negb (Nat.eqb x object)) r.

(** All iterators usable: the loop is the merge of the iterators. *)
Lemma outer_merge : forall fuel its allowed mro lin, total its < fuel -> length its <= allowed ->
  forall r, c3_merge (raw its) r -> outer fuel its allowed mro lin = Some (rev mro ++ no_object r, lin).
Proof.
  induction fuel as [|k IH]; intros its allowed mro lin Hf Ha r Hr; [lia|]. cbn [outer].
  assert (Hall : firstn (Nat.min allowed (length its)) its = its).
  { rewrite Nat.min_r by exact Ha. apply firstn_all. }
  rewrite Hall. destruct (find_candidate its its false) as [[[i c]|] b] eqn:E.
  - destruct (find_candidate_some _ _ _ _ _ _ E) as (a & d & Eh & N & Hb & _).
    inversion Hr as [lists Hd|lists a' h' b' r' E' N' Ha' H']; subst.
    + exfalso. assert (Hin : In c (heads (raw its))) by (rewrite Eh; apply in_elt).
      apply heads_in in Hin. destruct Hin as [t Ht]. apply Hd in Ht. discriminate.
    + assert (h' = c).
      { eapply (split_unique (fun x => in_tails x (raw its))); [rewrite <- E'; exact Eh|auto..]. }
      subst h'.
      assert (Hin : In c (heads (raw its))) by (rewrite Eh; apply in_elt).
      assert (Hlt : total (map fst (map (next_if c) its)) < k).
      { rewrite total_size, raw_next_if. pose proof (size_drop_lt c (raw its) Hin). rewrite total_size in Hf. lia. }
      rewrite <- raw_next_if in H'. cbn [no_object filter]. fold (no_object r').
      destruct (Nat.eqb c object) eqn:Eo; cbn [negb].
      * apply IH; auto. rewrite next_if_length. lia.
      * rewrite (IH _ _ (c :: mro) lin Hlt) with (r := r'); [|rewrite next_if_length; lia|exact H'].
        cbn [rev]. rewrite <- app_assoc. reflexivity.
  - destruct (find_candidate_none _ _ _ _ E) as (H1 & H2 & H3).
    inversion Hr as [lists Hd|lists a' h' b' r' E' N' Ha' H']; subst.
    + destruct b.
      * exfalso. assert (W : heads (raw its) = []).
        { destruct (heads (raw its)) as [|x l] eqn:Eh; [reflexivity|]. exfalso.
          assert (Hin : In x (heads (raw its))) by (rewrite Eh; now left).
          apply heads_in in Hin. destruct Hin as [t Ht]. apply Hd in Ht. discriminate. }
        assert (W2 : forall us all, heads (raw us) = [] -> find_candidate all us false = (None, false)).
        { clear. induction us as [|it us IH]; intros all H; cbn in *; [reflexivity|].
          destruct (rest it); [now apply IH|discriminate]. }
        rewrite (W2 _ _ W) in E. discriminate.
      * cbn. now rewrite app_nil_r.
    + exfalso. apply N'. apply H1. rewrite E'. apply in_elt.
Qed.

Lemma outer_merge_back : forall fuel its allowed mro lin m, length its <= allowed ->
  outer fuel its allowed mro lin = Some (m, true) ->
  lin = true /\ exists r, c3_merge (raw its) r /\ m = rev mro ++ no_object r.
Proof.
  induction fuel as [|k IH]; intros its allowed mro lin m Ha H; [discriminate|]. cbn [outer] in H.
  assert (Hall : firstn (Nat.min allowed (length its)) its = its).
  { rewrite Nat.min_r by exact Ha. apply firstn_all. }
  rewrite Hall in H. destruct (find_candidate its its false) as [[[i c]|] b] eqn:E.
  - destruct (find_candidate_some _ _ _ _ _ _ E) as (a & d & Eh & N & Hb & _).
    assert (G : lin = true /\ exists r, c3_merge (raw (map fst (map (next_if c) its))) r /\
                m = rev mro ++ no_object (c :: r)).
    { destruct (Nat.eqb c object) eqn:Eo.
      - apply IH in H; [|rewrite next_if_length; lia]. destruct H as [-> [r [Hr ->]]].
        split; [reflexivity|]. exists r. split; [exact Hr|]. unfold no_object. cbn [filter]. rewrite Eo. reflexivity.
      - apply IH in H; [|rewrite next_if_length; lia]. destruct H as [-> [r [Hr ->]]].
        split; [reflexivity|]. exists r. split; [exact Hr|]. unfold no_object. cbn [filter rev]. rewrite Eo. cbn [negb].
        rewrite <- app_assoc. reflexivity. }
    destruct G as [-> [r [Hr ->]]]. split; [reflexivity|]. exists (c :: r). split; [|reflexivity].
    eapply c3_step; [exact Eh|exact N|exact Hb|]. now rewrite <- raw_next_if.
  - destruct (find_candidate_none _ _ _ _ E) as (H1 & H2 & H3). destruct b.
    + destruct (take_first its) as [[[i x] its']|]; [|discriminate].
      destruct (mem_id x mro && negb (Nat.eqb x object)); apply outer_false in H; discriminate.
    + injection H as <- ->. split; [reflexivity|]. exists []. split; [|cbn; now rewrite app_nil_r].
      apply c3_done. intros l Hl. destruct l as [|x l]; [reflexivity|]. exfalso.
      destruct (H2 eq_refl) as [_ Hh]. assert (Hin : In x (heads (raw its))) by (apply heads_in; eauto).
      rewrite Hh in Hin. contradiction.
Qed.

(** The lists that are merged. *)
Definition base_lists (stored : id -> list id) (bases : list id) : list (list id) :=
  map (fun b => b :: stored b) bases.

Lemma raw_base_iterators : forall stored bases, raw (base_iterators stored bases) = base_lists stored bases.
Proof. intros. unfold raw, base_iterators, base_lists. rewrite map_map. reflexivity. Qed.

Lemma growth_first : forall stored bases c,
  fold_right (fun p n => snd p + n) 0 (map (next_if c) (base_iterators stored bases)) = length bases.
Proof. intros stored bases c. induction bases as [|b bs IH]; cbn; [reflexivity|]. unfold base_iterators in IH. now rewrite IH. Qed.

(** What the code computes: the merge of the base lists without the list of the bases, provided that the first base has
    no conflict. *)
Lemma linearize_iff : forall stored bases m,
  linearize_mro stored bases = Some (m, true) <->
  object_not_last bases = false /\
  (forall b, hd_error bases = Some b -> ~ in_tails b (base_lists stored bases)) /\
  exists r, c3_merge (base_lists stored bases) r /\ m = no_object r.
Proof.
  intros stored bases m. unfold linearize_mro. set (its := base_iterators stored bases).
  destruct bases as [|b bs].
  - cbn. split.
    + intros H. injection H as <-. split; [reflexivity|]. split; [discriminate|]. exists []. split; [|reflexivity].
      apply c3_done. intros l [].
    + intros (_ & _ & r & Hr & ->). inversion Hr as [|lists a h c r' E]; subst; [reflexivity|].
      cbn in E. destruct a; discriminate.
  - assert (Hraw : raw its = base_lists stored (b :: bs)) by apply raw_base_iterators.
    assert (Hlen : length its = S (length bs)) by (unfold its, base_iterators; now rewrite map_length).
    assert (Hfirst : firstn (Nat.min 1 (length its)) its = [mk_iter 0 (b :: stored b)]).
    { rewrite Hlen. destruct bs; reflexivity. }
    assert (Hstep : conflicts its b = false ->
      outer (S (total its)) its 1 [] (negb (object_not_last (b :: bs))) =
      outer (total its) (map fst (map (next_if b) its)) (1 + S (length bs) + (if Nat.eqb b object then 0 else 1))
        (if Nat.eqb b object then [] else [b]) (negb (object_not_last (b :: bs)))).
    { intros Ec. cbn [outer]. rewrite Hfirst. cbn [find_candidate rest taken]. rewrite Ec. cbn [Nat.eqb].
      unfold its. rewrite growth_first. cbn [length].
      destruct (Nat.eqb b object); [|reflexivity]. now rewrite Nat.add_0_r. }
    assert (Hlt : total (map fst (map (next_if b) its)) < total its).
    { rewrite !total_size, raw_next_if. apply size_drop_lt. rewrite Hraw. cbn. now left. }
    assert (Hlen2 : length (map fst (map (next_if b) its)) <= 1 + S (length bs) + (if Nat.eqb b object then 0 else 1)).
    { rewrite next_if_length, Hlen. lia. }
    destruct (conflicts its b) eqn:Ec.
    + split.
      * intros H. exfalso. cbn [outer] in H. rewrite Hfirst in H. cbn [find_candidate rest] in H. rewrite Ec in H.
        destruct (take_first its) as [[[i x] its']|]; [|discriminate].
        destruct (mem_id x [] && negb (Nat.eqb x object)); apply outer_false in H; discriminate.
      * intros (_ & Hn & _). exfalso. apply (Hn b eq_refl). rewrite <- Hraw. now apply conflicts_spec.
    + rewrite (Hstep eq_refl). clear Hstep.
      assert (Hnt : ~ in_tails b (base_lists stored (b :: bs))).
      { rewrite <- Hraw. intros Hx. apply conflicts_spec in Hx. congruence. }
      assert (Hmk : forall r, c3_merge (raw (map fst (map (next_if b) its))) r ->
                    c3_merge (base_lists stored (b :: bs)) (b :: r)).
      { intros r Hr. rewrite raw_next_if, Hraw in Hr.
        eapply c3_step with (before := []); [reflexivity|exact Hnt|intros h' []|exact Hr]. }
      split.
      * intros H. apply outer_merge_back in H; [|exact Hlen2]. destruct H as [Hl [r [Hr ->]]].
        split; [now apply negb_true_iff in Hl|]. split; [intros b0 Hb0; injection Hb0 as <-; exact Hnt|].
        exists (b :: r). split; [now apply Hmk|]. unfold no_object. cbn [filter]. destruct (Nat.eqb b object); reflexivity.
      * intros (Ho & _ & r & Hr & ->). rewrite Ho. cbn [negb].
        inversion Hr as [lists Hd|lists a h c r' E N' Ha' H']; subst.
        { exfalso. specialize (Hd (b :: stored b)). cbn in Hd. discriminate Hd. now left. }
        cbn in E. destruct a as [|x a].
        2:{ exfalso. cbn in E. injection E as <- _. apply Hnt. apply Ha'. now left. }
        cbn in E. injection E as -> _.
        rewrite (outer_merge (total its) _ _ _ true Hlt Hlen2 r').
        -- unfold no_object. cbn [filter]. destruct (Nat.eqb h object); reflexivity.
        -- rewrite raw_next_if, Hraw. exact H'.
Qed.

(** ** Without object *)
Definition lists_of (stored : id -> list id) (bases : list id) : list (list id) :=
  map (fun b => match b with 0 => [] | _ => b :: stored b end) bases.

Lemma no_object_id : forall l, ~ In 0 l -> no_object l = l.
Proof.
  induction l as [|x l IH]; intros H; cbn; [reflexivity|]. unfold object. destruct (Nat.eqb_spec x 0) as [->|Hx].
  - exfalso. apply H. now left.
  - cbn. f_equal. apply IH. intros Hi. apply H. now right.
Qed.

Lemma no_object_in : forall l x, In x (no_object l) <-> In x l /\ x <> 0.
Proof. intros l x. unfold no_object, object. rewrite filter_In, negb_true_iff, Nat.eqb_neq. reflexivity. Qed.

Lemma c3_same_step : forall A B r, c3_merge A r -> heads A = heads B -> (forall x, in_tails x A <-> in_tails x B) ->
  forall h r0, r = h :: r0 -> (forall r', c3_merge (map (drop_head h) A) r' -> c3_merge (map (drop_head h) B) r') ->
  c3_merge B r.
Proof.
  intros A B r H Eh Et h r0 -> Hs. inversion H as [|? a h' b r' E N Ha H']; subst.
  eapply c3_step; [rewrite <- Eh; exact E|rewrite <- Et; exact N| |apply Hs; exact H'].
  intros x Hx. apply Et. auto.
Qed.

(** Empty lists do not matter. *)
Lemma heads_drop_empty : forall A B, heads (A ++ [] :: B) = heads (A ++ B).
Proof. intros A B. now rewrite !heads_app. Qed.

Lemma in_tails_empty : forall A B x, in_tails x (A ++ [] :: B) <-> in_tails x (A ++ B).
Proof.
  intros A B x. split; intros (l & Hl & Hx); exists l; (split; [|exact Hx]).
  - apply in_app_or in Hl. destruct Hl as [Hl|[<-|Hl]]; [apply in_or_app; auto|contradiction|apply in_or_app; auto].
  - apply in_app_or in Hl. apply in_or_app. destruct Hl; [auto|right; now right].
Qed.

Lemma c3_empty : forall L r, c3_merge L r -> forall A B, L = A ++ [] :: B -> c3_merge (A ++ B) r.
Proof.
  intros L r H. induction H as [L Hd|L a h b r E N Ha H IH]; intros A B ->.
  - apply c3_done. intros l Hl. apply Hd. apply in_app_or in Hl. apply in_or_app. destruct Hl; [auto|right; now right].
  - rewrite heads_drop_empty in E. eapply c3_step; [exact E|rewrite <- in_tails_empty; exact N| |].
    + intros x Hx. rewrite <- in_tails_empty. auto.
    + rewrite map_app. apply IH. now rewrite map_app.
Qed.

Lemma c3_empty_back : forall L r, c3_merge L r -> forall A B, L = A ++ B -> c3_merge (A ++ [] :: B) r.
Proof.
  intros L r H. induction H as [L Hd|L a h b r E N Ha H IH]; intros A B ->.
  - apply c3_done. intros l Hl. apply in_app_or in Hl. destruct Hl as [Hl|[<-|Hl]]; [|reflexivity|]; apply Hd, in_or_app; auto.
  - rewrite <- heads_drop_empty in E. eapply c3_step; [exact E|rewrite in_tails_empty; exact N| |].
    + intros x Hx. rewrite in_tails_empty. auto.
    + rewrite map_app. cbn [map drop_head]. apply IH. now rewrite map_app.
Qed.

(** A last list with just object. *)
Lemma c3_last_object : forall L r', c3_merge L r' -> forall A, L = A ++ [[0]] -> Forall (fun l => ~ In 0 l) A ->
  exists r, r' = r ++ [0] /\ c3_merge A r.
Proof.
  intros L r' H. induction H as [L Hd|L a h b r' E N Ha H IH]; intros A -> HA.
  - exfalso. assert (W : [0] = @nil nat) by (apply Hd, in_or_app; right; now left). discriminate.
  - assert (HnA : forall h t, In (h :: t) A -> h <> 0).
    { rewrite Forall_forall in HA. intros h0 t Ht ->. apply (HA _ Ht). now left. }
    rewrite heads_app in E. cbn in E. destruct (Nat.eq_dec h 0) as [->|Hh].
    + assert (Ea : a = heads A).
      { clear - E HnA. assert (Hn : ~ In 0 (heads A)).
        { intros Hx. apply heads_in in Hx. destruct Hx as [t Ht]. now apply (HnA 0 t). }
        revert a E Hn. induction (heads A) as [|x l IH]; intros a E Hn; destruct a as [|y a]; cbn in E.
        - reflexivity.
        - injection E as _ E. destruct a; discriminate.
        - injection E as -> _. exfalso. apply Hn. now left.
        - injection E as -> E. f_equal. apply IH; [exact E|]. intros Hx. apply Hn. now right. }
      subst a. assert (Hemp : forall l, In l A -> l = []).
      { intros [|x l] Hl; [reflexivity|]. exfalso.
        rewrite map_app in H. cbn in H.
        inversion H as [? Hd|? a' h' b' r0 E' N' Ha' H']; subst.
        - specialize (Hd (drop_head 0 (x :: l))). cbn in Hd. pose proof (HnA _ _ Hl) as Hx.
          destruct (Nat.eqb_spec x 0); [contradiction|]. 
          assert (W : x :: l = []) by (apply Hd, in_or_app; left; apply in_map_iff; exists (x :: l); cbn;
            destruct (Nat.eqb_spec x 0); [contradiction|auto]). discriminate.
        - apply N'. assert (Hin : In h' (heads (map (drop_head 0) A))).
          { rewrite heads_app in E'. cbn in E'. rewrite app_nil_r in E'. rewrite E'. apply in_elt. }
          apply heads_in in Hin. destruct Hin as [t Ht]. apply in_map_iff in Ht. destruct Ht as (l0 & El0 & Hl0).
          destruct l0 as [|y l0]; [discriminate|]. cbn in El0. pose proof (HnA _ _ Hl0) as Hy.
          destruct (Nat.eqb_spec y 0); [contradiction|]. injection El0 as -> ->.
          assert (Hi : In h' (heads A)) by (apply heads_in; eauto). destruct (Ha h' Hi) as (l1 & Hl1 & Hx1).
          exists (drop_head 0 l1). apply in_app_or in Hl1. destruct Hl1 as [Hl1|[<-|[]]]; [|contradiction].
          split; [apply in_or_app; left; now apply in_map|]. destruct l1 as [|z l1]; [contradiction|]. cbn.
          pose proof (HnA _ _ Hl1). destruct (Nat.eqb_spec z 0); [contradiction|exact Hx1]. }
      exists []. split; [|now apply c3_done].
      assert (Hd : c3_merge (map (drop_head 0) (A ++ [[0]])) []).
      { apply c3_done. intros l Hl. apply in_map_iff in Hl. destruct Hl as (l0 & <- & Hl0). apply in_app_or in Hl0.
        destruct Hl0 as [Hl0|[<-|[]]]; [rewrite (Hemp _ Hl0); reflexivity|reflexivity]. }
      now rewrite (c3_deterministic _ _ H _ Hd).
    + destruct (IH (map (drop_head h) A)) as (r & -> & Hr).
      * rewrite map_app. cbn. destruct h; [contradiction|reflexivity].
      * now apply Forall_drop.
      * exists (h :: r). split; [reflexivity|].
        assert (Eb : exists b', heads A = a ++ h :: b').
        { clear - E Hh. revert a E. induction (heads A) as [|x l IH]; intros a E; destruct a as [|y a]; cbn in E.
          - injection E as E _. congruence.
          - injection E as _ E. destruct a; discriminate.
          - injection E as -> _. exists l. reflexivity.
          - injection E as -> E. destruct (IH _ E) as [b' ->]. exists b'. reflexivity. }
        destruct Eb as [b' Eb]. eapply c3_step; [exact Eb| | |exact Hr].
        -- intros (l & Hl & Hx). apply N. exists l. split; [apply in_or_app; auto|exact Hx].
        -- intros x Hx. destruct (Ha x Hx) as (l & Hl & Hxl). apply in_app_or in Hl.
           destruct Hl as [Hl|[<-|[]]]; [|contradiction]. exists l. auto.
Qed.

Lemma c3_last_object_back : forall A r, c3_merge A r -> Forall (fun l => ~ In 0 l) A -> c3_merge (A ++ [[0]]) (r ++ [0]).
Proof.
  intros A r H. induction H as [A Hd|A a h b r E N Ha H IH]; intros HA.
  - cbn. assert (Hh : heads (A ++ [[0]]) = [] ++ 0 :: []).
    { rewrite heads_app. cbn. destruct (heads A) as [|x l] eqn:E; [reflexivity|]. exfalso.
      assert (Hi : In x (heads A)) by (rewrite E; now left). apply heads_in in Hi. destruct Hi as [t Ht].
      apply Hd in Ht. discriminate. }
    eapply c3_step; [exact Hh| |intros x []|].
    + intros (l & Hl & Hx). apply in_app_or in Hl. destruct Hl as [Hl|[<-|[]]]; [rewrite (Hd _ Hl) in Hx|]; contradiction.
    + apply c3_done. intros l Hl. apply in_map_iff in Hl. destruct Hl as (l0 & <- & Hl0). apply in_app_or in Hl0.
      destruct Hl0 as [Hl0|[<-|[]]]; [rewrite (Hd _ Hl0); reflexivity|reflexivity].
  - assert (Hh : h <> 0).
    { assert (Hi : In h (heads A)) by (rewrite E; apply in_elt). apply heads_in in Hi. destruct Hi as [t Ht].
      rewrite Forall_forall in HA. intros ->. apply (HA _ Ht). now left. }
    cbn. eapply c3_step with (before := a) (after := b ++ [0]).
    + rewrite heads_app, E, <- app_assoc. reflexivity.
    + intros (l & Hl & Hx). apply in_app_or in Hl. destruct Hl as [Hl|[<-|[]]]; [|contradiction]. apply N. exists l. auto.
    + intros x Hx. destruct (Ha x Hx) as (l & Hl & Hxl). exists l. split; [apply in_or_app; auto|exact Hxl].
    + rewrite map_app. cbn. destruct h; [contradiction|]. apply IH. now apply Forall_drop.
Qed.

Lemma object_last_split : forall bases, object_not_last bases = false ->
  ~ In 0 bases \/ exists bs, bases = bs ++ [0] /\ ~ In 0 bs.
Proof.
  induction bases as [|b bs IH]; intros H; cbn in H; [left; auto|].
  unfold object in H. destruct (Nat.eqb_spec b 0) as [->|Hb].
  - destruct bs; [|discriminate]. right. exists []. auto.
  - destruct (IH H) as [Hn|(bs' & -> & Hn)].
    + left. intros [E|E]; auto.
    + right. exists (b :: bs'). split; [reflexivity|]. intros [E|E]; auto.
Qed.

Lemma object_not_last_none : forall bases, ~ In 0 bases -> object_not_last bases = false.
Proof.
  induction bases as [|b bs IH]; intros H; cbn; [reflexivity|]. unfold object. destruct (Nat.eqb_spec b 0) as [->|_].
  - exfalso. apply H. now left.
  - apply IH. intros Hi. apply H. now right.
Qed.

Lemma object_not_last_end : forall bases, ~ In 0 bases -> object_not_last (bases ++ [0]) = false.
Proof.
  induction bases as [|b bs IH]; intros H; cbn; [reflexivity|]. unfold object. destruct (Nat.eqb_spec b 0) as [->|_].
  - exfalso. apply H. now left.
  - apply IH. intros Hi. apply H. now right.
Qed.

Section OneClass.
  Variable stored : id -> list id.
  Hypothesis no_obj : forall b, ~ In 0 (stored b).

  Definition full_of (b : nat) : list nat := whole b (stored b).

  Lemma base_lists_no_object : forall bs, ~ In 0 bs -> base_lists stored bs = lists_of stored bs.
  Proof.
    intros bs H. unfold base_lists, lists_of. apply map_ext_in. intros [|b] Hb; [contradiction|reflexivity].
  Qed.

  Lemma lists_of_no_object : forall bs, Forall (fun l => ~ In 0 l) (lists_of stored bs).
  Proof.
    intros bs. apply Forall_forall. intros l Hl. apply in_map_iff in Hl. destruct Hl as ([|b] & <- & Hb); [auto|].
    intros [E|E]; [discriminate|]. apply (no_obj _ E).
  Qed.

  Lemma full_lists : forall bs, map full_of bs = map with_object (lists_of stored bs).
  Proof. intros bs. unfold lists_of. rewrite map_map. apply map_ext. intros [|b]; reflexivity. Qed.

  Lemma lists_of_covered : forall bs, ~ In 0 bs -> covered (lists_of stored bs) [bs].
  Proof.
    intros bs Hn l x [<-|[]] Hx. exists (match x with 0 => [] | _ => x :: stored x end). split.
    - unfold lists_of. apply in_map_iff. exists x. auto.
    - destruct x; [contradiction|now left].
  Qed.

  (** Python's merge for bases without object. *)
  Lemma python_no_object : forall bs r, ~ In 0 bs -> bs <> [] ->
    (python_mro full_of bs r <-> exists m, r = m ++ [0] /\ c3_merge (lists_of stored bs ++ [bs]) m).
  Proof.
    intros bs r Hn Hne. unfold python_mro. rewrite full_lists.
    assert (Hl : lists_of stored bs <> []) by (destruct bs; [congruence|discriminate]).
    assert (H2 : Forall (fun l => ~ In 0 l) [bs]) by (constructor; auto).
    split.
    - intros H. eapply c3_object; eauto using lists_of_no_object, lists_of_covered.
    - intros (m & -> & H). eapply c3_object_back; eauto using lists_of_no_object, lists_of_covered.
  Qed.

  Lemma lists_of_app : forall a b, lists_of stored (a ++ b) = lists_of stored a ++ lists_of stored b.
  Proof. intros. unfold lists_of. apply map_app. Qed.

  (** Python's merge for bases with object at the end. *)
  Lemma python_object_last : forall bs r, ~ In 0 bs ->
    (python_mro full_of (bs ++ [0]) r <-> exists m, r = m ++ [0] /\ c3_merge (lists_of stored bs ++ [bs]) m).
  Proof.
    intros bs r Hn. unfold python_mro. rewrite full_lists.
    assert (E : map with_object (lists_of stored (bs ++ [0])) ++ [bs ++ [0]] =
                map with_object (lists_of stored bs ++ [[]] ++ [bs]) ++ []).
    { rewrite lists_of_app, !map_app. cbn. rewrite app_nil_r, <- app_assoc. reflexivity. }
    rewrite E.
    assert (Hl : lists_of stored bs ++ [[]] ++ [bs] <> []) by (destruct bs; discriminate).
    assert (H1 : Forall (fun l => ~ In 0 l) (lists_of stored bs ++ [[]] ++ [bs])).
    { apply Forall_app. split; [apply lists_of_no_object|]. constructor; [auto|]. constructor; auto. }
    assert (Hc : covered (lists_of stored bs ++ [[]] ++ [bs]) []) by (intros l x []).
    split.
    - intros H. destruct (c3_object _ _ H _ _ eq_refl Hl H1 (Forall_nil _) Hc) as (m & -> & Hm).
      exists m. split; [reflexivity|]. rewrite app_nil_r in Hm. apply (c3_empty _ _ Hm (lists_of stored bs) [bs] eq_refl).
    - intros (m & -> & H). apply (c3_object_back (lists_of stored bs ++ [[]] ++ [bs]) m); auto.
      + apply (c3_empty_back _ _ H); reflexivity.
      + now rewrite app_nil_r.
  Qed.

  (** The model for bases without object, or with object at the end. *)
  Lemma in_tails_app_object : forall A x, in_tails x (A ++ [[0]]) <-> in_tails x A.
  Proof.
    intros A x. split; intros (l & Hl & Hx).
    - apply in_app_or in Hl. destruct Hl as [Hl|[<-|[]]]; [|contradiction]. exists l. auto.
    - exists l. split; [apply in_or_app; auto|exact Hx].
  Qed.

  Lemma zuban_iff : forall bases bs m, ~ In 0 bs -> bases = bs \/ bases = bs ++ [0] -> stored 0 = [] ->
    (linearize_mro stored bases = Some (m, true) <->
     (forall b, hd_error bs = Some b -> ~ in_tails b (lists_of stored bs)) /\ c3_merge (lists_of stored bs) m).
  Proof.
    intros bases bs m Hn Hb H0. rewrite linearize_iff. pose proof (lists_of_no_object bs) as Hno.
    assert (Hzero : forall r, c3_merge (lists_of stored bs) r -> ~ In 0 r).
    { intros r Hr Hi. rewrite (c3_elements _ _ Hr) in Hi. destruct Hi as (l & Hl & Hx).
      rewrite Forall_forall in Hno. exact (Hno l Hl Hx). }
    destruct Hb as [->| ->].
    - rewrite base_lists_no_object by exact Hn. split.
      + intros (_ & Hh & r & Hr & ->). split; [exact Hh|]. rewrite no_object_id; [exact Hr|auto].
      + intros (Hh & Hm). split; [now apply object_not_last_none|]. split; [exact Hh|]. exists m. split; [exact Hm|].
        symmetry. apply no_object_id. auto.
    - assert (E : base_lists stored (bs ++ [0]) = lists_of stored bs ++ [[0]]).
      { rewrite <- (base_lists_no_object bs Hn). unfold base_lists. rewrite map_app. cbn. now rewrite H0. }
      rewrite E. split.
      + intros (_ & Hh & r & Hr & ->). split.
        * intros b Hb. rewrite <- in_tails_app_object. apply Hh. destruct bs; [discriminate|exact Hb].
        * destruct (c3_last_object _ _ Hr _ eq_refl Hno) as (r0 & -> & Hr0).
          unfold no_object. rewrite filter_app. cbn. rewrite app_nil_r. fold (no_object r0).
          rewrite no_object_id; auto.
      + intros (Hh & Hm). split; [now apply object_not_last_end|]. split.
        * intros b Hb. rewrite in_tails_app_object. destruct bs as [|b0 bs]; [|now apply Hh].
          cbn in *. intros (l & [] & _).
        * exists (m ++ [0]). split; [now apply c3_last_object_back|]. unfold no_object. rewrite filter_app. cbn.
          rewrite app_nil_r. symmetry. apply no_object_id. auto.
  Qed.

  (** Python refuses object before another base. *)
  Lemma sub_pair_absurd : forall (r : list nat) x y, NoDup r -> subsequence [x; y] r -> subsequence [y; x] r -> False.
  Proof.
    induction r as [|z r IH]; intros x y Hnd H1 H2; [inversion H1|]. inversion Hnd as [|? ? Hz Hnd']; subst.
    inversion H1 as [|? ? ? H1'|? ? ? H1']; subst; inversion H2 as [|? ? ? H2'|? ? ? H2']; subst.
    - apply Hz. eapply subsequence_in; [exact H1'|now left].
    - apply Hz. eapply subsequence_in; [exact H2'|]. right. now left.
    - apply Hz. eapply subsequence_in; [exact H1'|]. right. now left.
    - eapply IH; eauto.
  Qed.

  Lemma subsequence_trans : forall b c, subsequence b c -> forall a, subsequence a b -> subsequence a c.
  Proof.
    intros b c H. induction H as [|x b c H IH|x b c H IH]; intros a Ha.
    - exact Ha.
    - inversion Ha; subst; [apply sub_take|apply sub_skip]; auto.
    - apply sub_skip. auto.
  Qed.

  Lemma pair_in : forall a x b y c, subsequence [x; y] (a ++ x :: b ++ y :: c).
  Proof.
    intros a x b y c. induction a as [|z a IH]; cbn; [|now apply sub_skip]. apply sub_take.
    induction b as [|z b IH]; cbn; [apply sub_take, subsequence_nil|now apply sub_skip].
  Qed.

  Lemma python_object_position : forall bases r, python_mro full_of bases r -> object_not_last bases = false.
  Proof.
    intros bases r H. destruct (object_not_last bases) eqn:E; [|reflexivity]. exfalso.
    assert (S : exists a y c, bases = a ++ 0 :: y :: c).
    { clear H. induction bases as [|b bs IH]; cbn in E; [discriminate|]. unfold object in E.
      destruct (Nat.eqb_spec b 0) as [->|Hb].
      - destruct bs as [|y c]; [discriminate|]. exists [], y, c. reflexivity.
      - destruct (IH E) as (a & y & c & ->). exists (b :: a), y, c. reflexivity. }
    destruct S as (a & y & c & ->). pose proof (c3_nodup _ _ H) as Hnd.
    assert (S1 : subsequence [0; y] r).
    { eapply subsequence_trans; [apply (c3_subsequence _ _ H); apply in_or_app; right; now left|].
      apply (pair_in a 0 [] y c). }
    destruct y as [|y].
    - clear - S1 Hnd. revert S1. induction Hnd as [|z r Hz Hnd IH]; intros S1; [inversion S1|].
      inversion S1 as [|? ? ? S2|? ? ? S2]; subst; [|auto]. apply Hz. eapply subsequence_in; [exact S2|now left].
    - assert (S2 : subsequence [S y; 0] r).
      { eapply subsequence_trans; [apply (c3_subsequence _ _ H (full_of (S y)))|apply (pair_in [] (S y) (stored (S y)) 0 [])].
        apply in_or_app. left. apply in_map. apply in_or_app. right. right. now left. }
      eapply sub_pair_absurd; eauto.
  Qed.

  (** In Python's merge the first base comes first. *)
  Lemma first_base_free : forall b bs r, c3_merge (lists_of stored (b :: bs) ++ [b :: bs]) r -> b <> 0 ->
    ~ in_tails b (lists_of stored (b :: bs) ++ [b :: bs]) /\ exists r', r = b :: r'.
  Proof.
    intros b bs r H Hb. remember (lists_of stored (b :: bs) ++ [b :: bs]) as L eqn:EL.
    assert (Eh : exists hs, heads L = b :: hs /\ forall h, In h hs -> h = b \/ In h bs).
    { subst L. rewrite heads_app. cbn. destruct b; [congruence|]. cbn.
      eexists. split; [reflexivity|]. intros h Hi. apply in_app_or in Hi. destruct Hi as [Hi|[<-|[]]]; [|now left].
      right. apply heads_in in Hi. destruct Hi as [t Ht]. apply in_map_iff in Ht. destruct Ht as ([|x] & Ex & Hx); [discriminate|].
      now injection Ex as <- _. }
    destruct Eh as (hs & Eh & Hhs).
    inversion H as [? Hd|? a h d r' E N Ha H']; subst.
    - exfalso. assert (W : b :: bs = []) by (apply Hd, in_or_app; right; now left). discriminate.
    - rewrite Eh in E. destruct a as [|x a]; cbn in E.
      + injection E as -> _. split; [exact N|eauto].
      + injection E as <- E. exfalso. assert (Hh : In h hs) by (rewrite E; apply in_elt).
        destruct (Hhs h Hh) as [->|Hin]; [apply N, Ha; now left|].
        apply N. exists (b :: bs). split; [apply in_or_app; right; now left|exact Hin].
  Qed.
End OneClass.

(** The bases Python sees. *)
Definition effective (bases : list nat) : list nat := match bases with [] => [0] | _ => bases end.

Section OneClassTheorems.
  Variable stored : id -> list id.
  Hypothesis no_obj : forall b, ~ In 0 (stored b).
  Hypothesis stored_object : stored 0 = [].
  Let full := full_of stored.

  (** The normal form of a list of bases. *)
  Lemma python_normal : forall bases r, python_mro full (effective bases) r ->
    exists bs m, ~ In 0 bs /\ (bases = bs \/ bases = bs ++ [0]) /\ r = m ++ [0] /\ c3_merge (lists_of stored bs ++ [bs]) m.
  Proof.
    intros bases r H. pose proof (python_object_position stored bases) as Hp. unfold effective in H.
    destruct bases as [|b bs].
    - apply (python_object_last stored no_obj [] r) in H; [|auto]. destruct H as (m & -> & Hm).
      exists [], m. split; [intros []|]. split; [now left|]. split; [reflexivity|exact Hm].
    - destruct (object_last_split _ (Hp r H)) as [Hn|(bs' & E & Hn)].
      + apply python_no_object in H; [|exact no_obj|exact Hn|discriminate]. destruct H as (m & -> & Hm).
        exists (b :: bs), m. auto.
      + rewrite E in H. apply python_object_last in H; [|exact no_obj|exact Hn]. destruct H as (m & -> & Hm).
        exists bs', m. auto.
  Qed.

  Lemma python_back : forall bases bs m, ~ In 0 bs -> bases = bs \/ bases = bs ++ [0] ->
    c3_merge (lists_of stored bs ++ [bs]) m -> python_mro full (effective bases) (m ++ [0]).
  Proof.
    intros bases bs m Hn [->| ->] Hm.
    - destruct bs as [|b bs].
      + apply (python_object_last stored no_obj []); [auto|]. eauto.
      + apply python_no_object; [exact no_obj|exact Hn|discriminate|]. eauto.
    - unfold effective. assert (E : match bs ++ [0] with [] => [0] | _ :: _ => bs ++ [0] end = bs ++ [0]) by (destruct bs; reflexivity).
      rewrite E. apply python_object_last; [exact no_obj|exact Hn|]. eauto.
  Qed.

  (** A class that Python accepts is accepted. *)
  Lemma valid_accepted : forall bases r, python_mro full (effective bases) r ->
    exists m, linearize_mro stored bases = Some (m, true).
  Proof.
    intros bases r H. destruct (python_normal _ _ H) as (bs & m & Hn & Hb & -> & Hm).
    destruct (c3_forget _ _ _ Hm) as [m' Hm']. exists m'. apply (zuban_iff stored no_obj _ bs); auto.
    split; [|exact Hm']. intros b E. destruct bs as [|b0 bs]; [discriminate|]. injection E as ->.
    assert (Hb0 : b <> 0) by (intros ->; apply Hn; now left).
    destruct (first_base_free _ _ _ _ Hm Hb0) as [Hf _]. intros (l & Hl & Hx). apply Hf. exists l.
    split; [apply in_or_app; auto|exact Hx].
  Qed.

  (** An accepted class whose result keeps the order of the bases is accepted by Python with the same result. *)
  Lemma ordered_agrees : forall bases m, linearize_mro stored bases = Some (m, true) -> subsequence bases (m ++ [0]) ->
    python_mro full (effective bases) (m ++ [0]).
  Proof.
    intros bases m H Hs. assert (Ho : object_not_last bases = false) by (apply linearize_iff in H; tauto).
    assert (S : exists bs, ~ In 0 bs /\ (bases = bs \/ bases = bs ++ [0])).
    { destruct (object_last_split _ Ho) as [Hn|(bs & E & Hn)]; [exists bases|exists bs]; auto. }
    destruct S as (bs & Hn & Hb). pose proof H as H'. apply (zuban_iff stored no_obj bases bs m Hn Hb stored_object) in H'.
    destruct H' as [_ Hm]. apply (python_back bases bs m Hn Hb). apply c3_add_respected; [exact Hm|].
    assert (Hs' : subsequence bs (m ++ [0])).
    { destruct Hb as [->| ->]; [exact Hs|]. eapply subsequence_trans; [exact Hs|].
      clear. induction bs; cbn; [apply subsequence_nil|now apply sub_take]. }
    clear - Hs' Hn. revert m Hs'. induction bs as [|b bs IH]; intros m Hs; [apply subsequence_nil|].
    induction m as [|x m IHm]; cbn in Hs.
    - exfalso. inversion Hs as [|? ? ? H1|? ? ? H1]; subst; [apply Hn; now left|inversion H1].
    - inversion Hs as [|? ? ? H1|? ? ? H1]; subst.
      + apply sub_take. apply IH; [|exact H1]. intros Hi. apply Hn. now right.
      + apply sub_skip. auto.
  Qed.

  (** With at most two different bases the order is kept. *)
  Lemma two_ordered : forall bases m, length bases <= 2 -> NoDup bases -> linearize_mro stored bases = Some (m, true) ->
    subsequence bases (m ++ [0]).
  Proof.
    intros bases m Hl Hnd H. assert (Ho : object_not_last bases = false) by (apply linearize_iff in H; tauto).
    assert (S : exists bs, ~ In 0 bs /\ (bases = bs \/ bases = bs ++ [0])).
    { destruct (object_last_split _ Ho) as [Hn|(bs & E & Hn)]; [exists bases|exists bs]; auto. }
    destruct S as (bs & Hn & Hb). pose proof H as H'. apply (zuban_iff stored no_obj bases bs m Hn Hb stored_object) in H'.
    destruct H' as [Hf Hm].
    assert (Hs : subsequence bs m).
    { destruct bs as [|b [|b2 [|b3 bs]]].
      - apply subsequence_nil.
      - assert (Hin : In b m).
        { apply (c3_elements _ _ Hm). exists (match b with 0 => [] | _ => b :: stored b end).
          split; [now left|]. destruct b; [exfalso; apply Hn; now left|now left]. }
        apply in_split in Hin. destruct Hin as (l1 & l2 & ->). clear. induction l1; cbn; [apply sub_take, subsequence_nil|now apply sub_skip].
      - assert (Hb0 : b <> 0) by (intros ->; apply Hn; now left).
        assert (Hb2 : b2 <> 0) by (intros ->; apply Hn; right; now left).
        assert (Hne : b <> b2).
        { destruct Hb as [Hb|Hb]; rewrite Hb in Hnd; inversion Hnd as [|? ? Hx _]; subst; intros ->; apply Hx; now left. }
        inversion Hm as [? Hd|? a h c r E N Ha Hr]; subst.
        + exfalso. assert (W : b :: stored b = []).
          { apply Hd. cbn. left. destruct b; [congruence|reflexivity]. } discriminate.
        + cbn in E. destruct b as [|b]; [congruence|]. cbn in E. destruct a as [|x a]; cbn in E.
          * injection E as <- _. apply sub_take.
            assert (Hin : In b2 (S b :: r)).
            { apply (c3_elements _ _ Hm). exists (match b2 with 0 => [] | _ => b2 :: stored b2 end).
              split; [right; now left|]. destruct b2; [congruence|now left]. }
            destruct Hin as [E|Hin]; [congruence|]. apply in_split in Hin. destruct Hin as (l1 & l2 & ->).
            clear. induction l1; cbn; [apply sub_take, subsequence_nil|now apply sub_skip].
          * injection E as <- _. exfalso. apply (Hf (S b) eq_refl). apply Ha. now left.
      - exfalso. destruct Hb as [->| ->]; cbn in Hl; [|rewrite app_length in Hl; cbn in Hl]; lia. }
    destruct Hb as [->| ->].
    - clear - Hs. induction Hs; cbn; [apply subsequence_nil|now apply sub_take|now apply sub_skip].
    - clear - Hs. induction Hs; cbn; [apply sub_take, sub_nil|now apply sub_take|now apply sub_skip].
  Qed.

  Lemma accepted_iff_python : forall bases m, length bases <= 2 -> NoDup bases ->
    (linearize_mro stored bases = Some (m, true) <-> python_mro full (effective bases) (m ++ [0])).
  Proof.
    intros bases m Hl Hnd. split.
    - intros H. apply ordered_agrees; [exact H|]. now apply two_ordered.
    - intros H. destruct (valid_accepted _ _ H) as [m' Hm'].
      pose proof (ordered_agrees _ _ Hm' (two_ordered _ _ Hl Hnd Hm')) as H'.
      pose proof (c3_deterministic _ _ H _ H') as E. apply app_inv_tail in E. now subst m'.
  Qed.

  Lemma mro_no_object : forall bases m b, linearize_mro stored bases = Some (m, b) -> ~ In 0 m.
  Proof.
    intros bases m b H. unfold linearize_mro in H.
    assert (G : forall fuel its allowed mro lin, ~ In 0 mro -> outer fuel its allowed mro lin = Some (m, b) -> ~ In 0 m).
    { clear. induction fuel as [|k IH]; intros its allowed mro lin Hm H; [discriminate|]. cbn [outer] in H.
      destruct (find_candidate its _ false) as [[[i c]|] [|]].
      1,2: destruct (Nat.eqb c object) eqn:Ec; [eapply IH; eauto|]; apply Nat.eqb_neq in Ec;
        eapply IH; [|exact H]; intros [E|E]; auto.
      - destruct (take_first its) as [[[i x] its']|]; [|discriminate].
        destruct (mem_id x mro && negb (Nat.eqb x object)) eqn:E; [|eapply IH; eauto].
        eapply IH; [|exact H]. apply andb_true_iff in E. destruct E as [_ E]. apply negb_true_iff, Nat.eqb_neq in E.
        intros [E2|E2]; auto.
      - injection H as <- _. rewrite <- in_rev. exact Hm. }
    eapply G; [|exact H]. intros [].
  Qed.
End OneClassTheorems.

(** ** Programs *)
Lemma distinct_bases_spec : forall bases acc, NoDup acc ->
  (forall bs, distinct_bases acc bases = (bs, true) -> bs = rev acc ++ bases /\ NoDup (acc ++ bases)) /\
  (NoDup (acc ++ bases) -> distinct_bases acc bases = (rev acc ++ bases, true)).
Proof.
  induction bases as [|b bases IH]; intros acc Ha; cbn.
  - rewrite !app_nil_r. split; [|reflexivity]. intros bs H. injection H as <-. auto.
  - assert (Hmem : mem_id b acc = true <-> In b acc).
    { unfold mem_id. rewrite existsb_exists. split.
      - intros (x & Hx & E). apply Nat.eqb_eq in E. now subst.
      - intros Hx. exists b. split; [exact Hx|apply Nat.eqb_refl]. }
    destruct (mem_id b acc) eqn:E.
    + assert (Hin : In b acc) by now apply Hmem. split.
      * intros bs H. destruct (distinct_bases acc bases); discriminate.
      * intros Hnd. exfalso. apply NoDup_remove_2 in Hnd. apply Hnd. apply in_or_app. auto.
    + assert (Hn : ~ In b acc) by (intros Hx; apply Hmem in Hx; discriminate).
      destruct (IH (b :: acc)) as [H1 H2]; [now constructor|]. cbn in H1, H2. split.
      * intros bs H. destruct (H1 bs H) as [-> Hnd]. rewrite <- app_assoc. split; [reflexivity|].
        inversion Hnd as [|? ? Hx Hnd']; subst. now apply NoDup_Add with (a := b) (l := acc ++ bases); [apply Add_app|].
      * intros Hnd. rewrite H2; [now rewrite <- app_assoc|].
        apply NoDup_remove in Hnd. destruct Hnd as [Hnd Hx]. now constructor.
Qed.

Lemma distinct_bases_subset : forall bases acc b, In b (fst (distinct_bases acc bases)) -> In b acc \/ In b bases.
Proof.
  induction bases as [|x bases IH]; intros acc b H; cbn in H.
  - rewrite <- in_rev in H. auto.
  - destruct (mem_id x acc).
    + cbn in H. apply IH in H. destruct H; [auto|right; now right].
    + apply IH in H. destruct H as [[->|H]|H]; [right; now left|auto|right; now right].
Qed.

Lemma class_table_app : forall defs bases, class_table (defs ++ [bases]) = define_class (class_table defs) bases.
Proof. intros. unfold class_table. now rewrite fold_left_app. Qed.

Lemma define_class_app : forall table bases, exists e, define_class table bases = table ++ [e].
Proof. intros. unfold define_class. destruct (distinct_bases [] bases). eauto. Qed.

Lemma class_table_length : forall defs, length (class_table defs) = S (length defs).
Proof.
  intros defs. induction defs as [|bases defs IH] using rev_ind; [reflexivity|].
  rewrite class_table_app. destruct (define_class_app (class_table defs) bases) as [e ->].
  rewrite !app_length, IH. cbn. lia.
Qed.

Lemma class_table_object : forall defs, nth_error (class_table defs) 0 = Some ([], true).
Proof.
  intros defs. induction defs as [|bases defs IH] using rev_ind; [reflexivity|].
  rewrite class_table_app. destruct (define_class_app (class_table defs) bases) as [e ->].
  rewrite nth_error_app1; [exact IH|]. rewrite class_table_length. lia.
Qed.

Lemma define_class_entry : forall table bases bs d, distinct_bases [] bases = (bs, d) ->
  exists m lin, linearize_mro (stored_in table) bs = Some (m, lin) /\ define_class table bases = table ++ [(m, d && lin)].
Proof.
  intros table bases bs d E. unfold define_class. rewrite E.
  destruct (linearize_mro (stored_in table) bs) as [[m lin]|] eqn:El; [eauto|].
  exfalso. revert El. unfold linearize_mro. apply outer_total. lia.
Qed.

Lemma stored_no_object : forall defs b, ~ In 0 (stored_in (class_table defs) b).
Proof.
  intros defs. induction defs as [|bases defs IH] using rev_ind; intros b H.
  - unfold stored_in in H. cbn in H. destruct b as [|[|b]]; exact H.
  - rewrite class_table_app in H. destruct (distinct_bases [] bases) as [bs d] eqn:Ed.
    destruct (define_class_entry (class_table defs) bases bs d Ed) as (m & lin & El & Et). rewrite Et in H.
    unfold stored_in in H. destruct (Nat.lt_trichotomy b (length (class_table defs))) as [Hlt|[->|Hgt]].
    + rewrite app_nth1 in H by exact Hlt. exact (IH b H).
    + rewrite app_nth2, Nat.sub_diag in H by lia. cbn in H. revert H. eapply mro_no_object; exact El.
    + rewrite nth_overflow in H; [exact H|]. rewrite app_length. cbn. lia.
Qed.

Lemma stored_in_object : forall defs, stored_in (class_table defs) 0 = [].
Proof.
  intros defs. unfold stored_in. pose proof (class_table_object defs) as H. apply (nth_error_nth _ _ ([], true)) in H.
  now rewrite H.
Qed.

Lemma c3_ext : forall f g bases r, (forall b, In b bases -> f b = g b) -> python_mro f bases r -> python_mro g bases r.
Proof. intros f g bases r H. unfold python_mro. now rewrite (map_ext_in f g bases H). Qed.

Lemma stored_in_app : forall table e k, k < length table -> stored_in (table ++ [e]) k = stored_in table k.
Proof. intros table e k H. unfold stored_in. now rewrite app_nth1. Qed.

Lemma stored_in_last : forall table e, stored_in (table ++ [e]) (length table) = fst e.
Proof. intros table e. unfold stored_in. rewrite app_nth2, Nat.sub_diag by lia. reflexivity. Qed.

Lemma class_table_prefix : forall more defs, exists t, class_table (defs ++ more) = class_table defs ++ t.
Proof.
  induction more as [|bases more IH] using rev_ind; intros defs.
  - exists []. now rewrite !app_nil_r.
  - destruct (IH defs) as [t E]. rewrite app_assoc, class_table_app, E.
    destruct (define_class_app (class_table defs ++ t) bases) as [e ->]. exists (t ++ [e]). now rewrite app_assoc.
Qed.

Lemma linearize_ext : forall f g bases, (forall b, In b bases -> f b = g b) -> linearize_mro f bases = linearize_mro g bases.
Proof.
  intros f g bases H. unfold linearize_mro.
  assert (E : base_iterators f bases = base_iterators g bases).
  { unfold base_iterators. apply map_ext_in. intros b Hb. now rewrite (H b Hb). }
  now rewrite E.
Qed.

(** The entry of one class in terms of the whole table. *)
Lemma class_entry : forall defs k bases, well_scoped defs -> nth_error defs k = Some bases ->
  exists bs d m lin, distinct_bases [] bases = (bs, d) /\ linearize_mro (stored_in (class_table defs)) bs = Some (m, lin) /\
    nth_error (class_table defs) (S k) = Some (m, d && lin).
Proof.
  intros defs k bases Hw Hk. destruct (nth_error_split defs k Hk) as (d1 & d2 & E & Hlen).
  destruct (distinct_bases [] bases) as [bs d] eqn:Ed.
  destruct (define_class_entry (class_table d1) bases bs d Ed) as (m & lin & El & Et).
  exists bs, d, m, lin. split; [reflexivity|].
  assert (Etab : exists t, class_table defs = (class_table d1 ++ [(m, d && lin)]) ++ t).
  { assert (E2 : defs = (d1 ++ [bases]) ++ d2) by (rewrite E, <- app_assoc; reflexivity).
    destruct (class_table_prefix d2 (d1 ++ [bases])) as [t Ht]. exists t. rewrite E2. eapply eq_trans; [exact Ht|].
    now rewrite class_table_app, Et. }
  destruct Etab as [t Etab]. split.
  - rewrite <- El. apply linearize_ext. intros b Hb. unfold stored_in. rewrite Etab, <- app_assoc.
    rewrite app_nth1; [reflexivity|]. rewrite class_table_length.
    assert (Hin : In b bases).
    { pose proof (distinct_bases_subset bases [] b) as Hs. rewrite Ed in Hs. destruct (Hs Hb) as [[]|]; assumption. }
    pose proof (Hw k bases b Hk Hin). lia.
  - rewrite Etab. rewrite nth_error_app1 by (rewrite app_length, class_table_length; cbn; lia).
    rewrite nth_error_app2 by (rewrite class_table_length; lia). rewrite class_table_length, Hlen, Nat.sub_diag. reflexivity.
Qed.

Lemma subsequence_nodup : forall l r, subsequence l r -> NoDup r -> NoDup l.
Proof.
  intros l r H. induction H as [|x l r H IH|x l r H IH]; intros Hn; inversion Hn as [|? ? Hx Hn']; subst; auto.
  constructor; [|auto]. intros Hi. apply Hx. eapply subsequence_in; eauto.
Qed.

Lemma python_nodup : forall full bases r, python_mro full bases r -> NoDup bases.
Proof.
  intros full bases r H. eapply subsequence_nodup; [|exact (c3_nodup _ _ H)].
  apply (c3_subsequence _ _ H). apply in_or_app. right. now left.
Qed.

Lemma effective_nodup : forall bases, NoDup (effective bases) -> NoDup bases.
Proof. intros [|b bs] H; [constructor|exact H]. Qed.

Lemma distinct_true : forall bases, NoDup bases -> distinct_bases [] bases = (bases, true).
Proof. intros bases H. apply (proj2 (distinct_bases_spec bases [] (NoDup_nil _)) H). Qed.

(** ** Programs agree with Python *)
Definition agree (defs table : list (list nat)) : Prop :=
  length table = S (length defs) /\
  forall k, k <= length defs -> nth k table [] = whole k (stored_in (class_table defs) k).

Definition orderly (defs : list (list nat)) : Prop := forall k bases, nth_error defs k = Some bases ->
  length bases <= 2 \/ subsequence bases (stored_in (class_table defs) (S k) ++ [0]).

Lemma orderly_prefix : forall defs bases, orderly (defs ++ [bases]) -> orderly defs.
Proof.
  intros defs bases H k bs Hk.
  assert (Hlt : k < length defs) by (apply nth_error_Some; congruence).
  destruct (H k bs) as [H1|H1]; [now rewrite nth_error_app1|now left|]. right.
  rewrite class_table_app in H1. destruct (define_class_app (class_table defs) bases) as [e E]. rewrite E in H1.
  rewrite stored_in_app in H1; [exact H1|]. rewrite class_table_length. lia.
Qed.

Lemma agree_app : forall defs table bases m e, agree defs table ->
  define_class (class_table defs) bases = class_table defs ++ [e] -> fst e = m ->
  agree (defs ++ [bases]) (table ++ [length table :: m ++ [0]]).
Proof.
  intros defs table bases m e [Hl Ha] E Em. split; [rewrite !app_length; cbn; lia|].
  intros k Hk. rewrite class_table_app, E. rewrite app_length in Hk. cbn in Hk.
  destruct (Nat.eq_dec k (S (length defs))) as [->|Hne].
  - rewrite app_nth2, Hl, Nat.sub_diag by lia. cbn [nth].
    assert (E3 : stored_in (class_table defs ++ [e]) (S (length defs)) = fst e).
    { rewrite <- class_table_length. apply stored_in_last. }
    rewrite E3, Em. reflexivity.
  - rewrite app_nth1 by lia. rewrite stored_in_app by (rewrite class_table_length; lia). apply Ha. lia.
Qed.

Lemma agree_full : forall defs table b, agree defs table -> b < length table ->
  nth b table [] = full_of (stored_in (class_table defs)) b.
Proof. intros defs table b [Hl Ha] Hb. unfold full_of. apply Ha. lia. Qed.

Lemma effective_in : forall bases b (n : nat), 0 < n -> (forall b, In b bases -> b < n) -> In b (effective bases) -> b < n.
Proof. intros [|x bs] b n Hn H Hb; [destruct Hb as [<-|[]]; exact Hn|auto]. Qed.

Lemma program_python : forall defs table, python_accepts defs table -> orderly defs ->
  well_scoped defs /\ (forall e, In e (class_table defs) -> snd e = true) /\ agree defs table.
Proof.
  intros defs table H. induction H as [|defs table bases r H IH Hb Hr]; intros Ho.
  - split; [|split].
    + intros k bases b Hk. destruct k; discriminate.
    + intros e [<-|[]]. reflexivity.
    + split; [reflexivity|]. intros k Hk. assert (k = 0) by (cbn in Hk; lia). subst k. reflexivity.
  - destruct (IH (orderly_prefix _ _ Ho)) as (Hw & Hacc & Hag). pose proof Hag as [Hl Ha].
    change (match bases with [] => [0] | _ :: _ => bases end) with (effective bases) in Hr.
    assert (Hr' : python_mro (full_of (stored_in (class_table defs))) (effective bases) r).
    { eapply c3_ext; [|exact Hr]. intros b Hbe. apply agree_full; [exact Hag|]. eapply effective_in; [|exact Hb|exact Hbe]. lia. }
    pose proof (effective_nodup _ (python_nodup _ _ _ Hr)) as Hnd.
    destruct (valid_accepted _ (stored_no_object defs) (stored_in_object defs) _ _ Hr') as [m Hm].
    destruct (define_class_entry (class_table defs) bases _ _ (distinct_true _ Hnd)) as (m' & lin & El & Et).
    rewrite Hm in El. injection El as <- <-. cbn [andb] in Et.
    assert (Hsub : subsequence bases (m ++ [0])).
    { destruct (Ho (length defs) bases) as [H2|H2].
      - rewrite nth_error_app2, Nat.sub_diag by lia. reflexivity.
      - eapply two_ordered; eauto using stored_no_object, stored_in_object.
      - rewrite class_table_app, Et in H2.
        replace (S (length defs)) with (length (class_table defs)) in H2 by apply class_table_length.
        rewrite stored_in_last in H2. exact H2. }
    pose proof (ordered_agrees _ (stored_no_object defs) (stored_in_object defs) _ _ Hm Hsub) as Hp.
    rewrite (c3_deterministic _ _ Hr' _ Hp). split; [|split].
    + intros k bs b Hk Hbb. destruct (Nat.lt_ge_cases k (length defs)) as [Hlt|Hge].
      * rewrite nth_error_app1 in Hk by exact Hlt. eapply Hw; eauto.
      * rewrite nth_error_app2 in Hk by exact Hge. destruct (k - length defs) as [|j] eqn:Ej.
        -- injection Hk as <-. specialize (Hb b Hbb). lia.
        -- destruct j; discriminate.
    + intros e He. rewrite class_table_app, Et in He. apply in_app_or in He. destruct He as [He|[<-|[]]]; auto.
    + eapply agree_app; eauto.
Qed.

Lemma well_scoped_prefix : forall defs bases, well_scoped (defs ++ [bases]) -> well_scoped defs.
Proof.
  intros defs bases H k bs b Hk. apply H. rewrite nth_error_app1; [exact Hk|]. apply nth_error_Some. congruence.
Qed.

Lemma program_accepted : forall defs, well_scoped defs -> (forall e, In e (class_table defs) -> snd e = true) ->
  orderly defs -> exists table, python_accepts defs table /\ agree defs table.
Proof.
  intros defs. induction defs as [|bases defs IH] using rev_ind; intros Hw Hacc Ho.
  - exists [[0]]. split; [constructor|]. split; [reflexivity|]. intros k Hk. assert (k = 0) by (cbn in Hk; lia). subst k. reflexivity.
  - destruct (distinct_bases [] bases) as [bs d] eqn:Ed.
    destruct (define_class_entry (class_table defs) bases bs d Ed) as (m & lin & El & Et).
    rewrite class_table_app, Et in Hacc.
    destruct IH as (table & Hp & Hag).
    + eapply well_scoped_prefix; exact Hw.
    + intros e He. apply Hacc, in_or_app. auto.
    + eapply orderly_prefix; exact Ho.
    + assert (Hd : d && lin = true) by (apply (Hacc (m, d && lin)), in_or_app; right; now left).
      apply andb_true_iff in Hd. destruct Hd as [-> ->].
      destruct (proj1 (distinct_bases_spec bases [] (NoDup_nil _)) bs Ed) as [E Hnd]. cbn in E, Hnd. subst bs.
      assert (Hsub : subsequence bases (m ++ [0])).
      { destruct (Ho (length defs) bases) as [H2|H2].
        - rewrite nth_error_app2, Nat.sub_diag by lia. reflexivity.
        - eapply two_ordered; eauto using stored_no_object, stored_in_object.
        - rewrite class_table_app, Et in H2.
          replace (S (length defs)) with (length (class_table defs)) in H2 by apply class_table_length.
          rewrite stored_in_last in H2. exact H2. }
      pose proof (ordered_agrees _ (stored_no_object defs) (stored_in_object defs) _ _ El Hsub) as Hr.
      assert (Hb : forall b, In b bases -> b < length table).
      { intros b Hb. destruct Hag as [Hl _]. rewrite Hl. apply Nat.lt_succ_r. eapply (Hw (length defs)); [|exact Hb].
        rewrite nth_error_app2, Nat.sub_diag by lia. reflexivity. }
      exists (table ++ [length table :: m ++ [0]]). split.
      * apply pa_class; [exact Hp|exact Hb|]. eapply c3_ext; [|exact Hr]. intros b Hbe. symmetry. apply agree_full; [exact Hag|].
        eapply effective_in; [|exact Hb|exact Hbe]. destruct Hag as [Hl _]. lia.
      * eapply agree_app; eauto.
Qed.

(** ** Ancestors *)
Lemma ancestor_first : forall defs c a, ancestor defs c a ->
  exists k bases b, c = S k /\ nth_error defs k = Some bases /\ In b bases /\ (a = b \/ ancestor defs b a).
Proof.
  intros defs c a H. induction H as [k bases b Hk Hb|c b a H1 IH1 H2 IH2].
  - exists k, bases, b. auto.
  - destruct IH1 as (k & bases & b' & -> & Hk & Hb & [->|Hx]).
    + exists k, bases, b'. auto.
    + exists k, bases, b'. split; [reflexivity|]. split; [exact Hk|]. split; [exact Hb|]. right. eapply anc_more; eauto.
Qed.

Definition fine (defs : list (list nat)) (c : nat) : Prop := exists m, nth_error (class_table defs) c = Some (m, true).

Lemma ancestors_once : forall defs, well_scoped defs -> forall c m, nth_error (class_table defs) c = Some (m, true) ->
  (forall a, ancestor defs c a -> fine defs a) ->
  NoDup m /\ forall a, In a m <-> a <> 0 /\ ancestor defs c a.
Proof.
  intros defs Hw. induction c as [c IH] using lt_wf_ind. intros m Hc Hf. destruct c as [|k].
  - rewrite class_table_object in Hc. injection Hc as <-. split; [constructor|]. intros a. split; [intros []|].
    intros [_ Ha]. apply ancestor_first in Ha. destruct Ha as (k & bases & b & E & _). discriminate.
  - assert (Hk : k < length defs).
    { assert (S k < length (class_table defs)) by (apply nth_error_Some; congruence). rewrite class_table_length in *. lia. }
    destruct (nth_error defs k) as [bases|] eqn:Ek; [|apply nth_error_Some in Hk; congruence].
    destruct (class_entry defs k bases Hw Ek) as (bs & d & m' & lin & Ed & El & Et).
    rewrite Et in Hc. assert (m' = m) by congruence. subst m'. assert (Hdl : d && lin = true) by congruence.
    apply andb_true_iff in Hdl. destruct Hdl as [-> ->].
    destruct (proj1 (distinct_bases_spec bases [] (NoDup_nil _)) bs Ed) as [E _]. cbn in E. subst bs.
    apply linearize_iff in El. destruct El as (_ & _ & r & Hr & ->). split.
    + apply NoDup_filter. exact (c3_nodup _ _ Hr).
    + intros a. rewrite no_object_in, (c3_elements _ _ Hr).
      assert (Hbase : forall b, In b bases -> forall x, In x (stored_in (class_table defs) b) <-> x <> 0 /\ ancestor defs b x).
      { intros b Hb x. pose proof (Hw k bases b Ek Hb) as Hlt.
        destruct (Hf b) as [mb Hmb]; [eapply anc_base; eauto|].
        assert (Es : stored_in (class_table defs) b = mb).
        { unfold stored_in. now rewrite (nth_error_nth _ _ _ Hmb). }
        rewrite Es. apply (IH b); [lia|exact Hmb|]. intros y Hy. apply Hf. eapply anc_more; [eapply anc_base; eauto|exact Hy]. }
      split.
      * intros ((l & Hl & Hx) & Hne). split; [exact Hne|]. apply in_map_iff in Hl. destruct Hl as (b & <- & Hb).
        destruct Hx as [<-|Hx]; [eapply anc_base; eauto|].
        apply (Hbase b Hb) in Hx. eapply anc_more; [eapply anc_base; eauto|tauto].
      * intros (Hne & Ha). split; [|exact Hne]. apply ancestor_first in Ha.
        destruct Ha as (k' & bases' & b & E & Hk' & Hb & Hab). injection E as <-. rewrite Ek in Hk'.
        assert (bases' = bases) by congruence. subst bases'.
        exists (b :: stored_in (class_table defs) b). split; [apply in_map_iff; exists b; auto|].
        destruct Hab as [->|Hab]; [now left|]. right. apply (Hbase b Hb). auto.
Qed.

(** ** Classes with inconsistent bases *)
Lemma in_raw_next_if : forall c its l x, In l (raw (map fst (map (next_if c) its))) -> In x l ->
  exists l', In l' (raw its) /\ In x l'.
Proof.
  intros c its l x Hl Hx. rewrite raw_next_if in Hl. apply in_map_iff in Hl. destruct Hl as (l0 & <- & Hl0).
  exists l0. split; [exact Hl0|]. eapply in_drop_head; exact Hx.
Qed.

Lemma take_first_in : forall its i x its', take_first its = Some ((i, x), its') ->
  (exists l, In l (raw its) /\ In x l) /\
  forall l y, In l (raw its') -> In y l -> exists l', In l' (raw its) /\ In y l'.
Proof.
  induction its as [|it its IH]; intros i x its' H; cbn in H; [discriminate|].
  destruct (rest it) as [|z t] eqn:E.
  - destruct (take_first its) as [[[i0 x0] r0]|] eqn:E2; [|discriminate]. injection H as <- <- <-.
    destruct (IH _ _ _ eq_refl) as [(l & Hl & Hx) H2]. split.
    + exists l. split; [right; exact Hl|exact Hx].
    + intros l0 y Hl0 Hy. cbn in Hl0. destruct Hl0 as [<-|Hl0]; [rewrite E in Hy; contradiction|].
      destruct (H2 l0 y Hl0 Hy) as (l' & Hl' & Hy'). exists l'. split; [right; exact Hl'|exact Hy'].
  - injection H as <- <- <-. split.
    + exists (z :: t). split; [left; exact E|now left].
    + intros l0 y Hl0 Hy. cbn in Hl0. destruct Hl0 as [<-|Hl0].
      * exists (z :: t). split; [left; exact E|now right].
      * exists l0. split; [right; exact Hl0|exact Hy].
Qed.

Lemma outer_invariant : forall fuel its allowed mro lin m b,
  NoDup mro -> (forall l x, In l (raw its) -> In x l -> ~ In x mro) ->
  outer fuel its allowed mro lin = Some (m, b) ->
  NoDup m /\ forall x, In x m -> In x mro \/ exists l, In l (raw its) /\ In x l.
Proof.
  induction fuel as [|k IH]; intros its allowed mro lin m b Hnd Hdis H; [discriminate|]. cbn [outer] in H.
  destruct (find_candidate its (firstn (Nat.min allowed (length its)) its) false) as [[[i c]|] h] eqn:E.
  - destruct (find_candidate_some _ _ _ _ _ _ E) as (a & d & Eh & N & _ & it & Hit & _ & t & Et).
    assert (Hc : In (c :: t) (raw its)).
    { rewrite <- Et. apply in_map. rewrite <- (firstn_skipn (Nat.min allowed (length its)) its). apply in_or_app. now left. }
    assert (Hgone : forall l, In l (raw (map fst (map (next_if c) its))) -> ~ In c l).
    { intros l Hl. rewrite raw_next_if in Hl. apply in_map_iff in Hl. destruct Hl as (l0 & <- & Hl0).
      apply drop_head_gone. intros Hx. apply N. exists l0. auto. }
    assert (Hdis' : forall l x, In l (raw (map fst (map (next_if c) its))) -> In x l -> ~ In x mro).
    { intros l x Hl Hx. destruct (in_raw_next_if _ _ _ _ Hl Hx) as (l' & Hl' & Hx'). eapply Hdis; eauto. }
    destruct (Nat.eqb c object).
    + destruct (IH _ _ _ _ _ _ Hnd Hdis' H) as [H1 H2]. split; [exact H1|]. intros x Hx.
      destruct (H2 x Hx) as [Hm|(l & Hl & Hxl)]; [now left|]. right. eapply in_raw_next_if; eauto.
    + assert (Hnd2 : NoDup (c :: mro)) by (constructor; [apply (Hdis (c :: t)); [exact Hc|now left]|exact Hnd]).
      apply IH in H; [destruct H as [H1 H2]|exact Hnd2|].
      2:{ intros l x Hl Hx [<-|Hm]; [exact (Hgone l Hl Hx)|exact (Hdis' l x Hl Hx Hm)]. }
      split; [exact H1|]. intros x Hx. destruct (H2 x Hx) as [[<-|Hm]|(l & Hl & Hxl)].
      * right. exists (c :: t). split; [exact Hc|now left].
      * now left.
      * right. eapply in_raw_next_if; eauto.
  - destruct h.
    + destruct (take_first its) as [[[i x] its']|] eqn:Et; [|discriminate].
      destruct (take_first_in _ _ _ _ Et) as [(l & Hl & Hx) Hsub].
      assert (Hm : mem_id x mro = false).
      { unfold mem_id. apply not_true_iff_false. intros Hm. apply existsb_exists in Hm. destruct Hm as (y & Hy & Ey).
        apply Nat.eqb_eq in Ey. subst y. exact (Hdis l x Hl Hx Hy). }
      rewrite Hm in H. cbn [andb] in H. apply IH in H; [destruct H as [H1 H2]|exact Hnd|].
      2:{ intros l0 y Hl0 Hy. destruct (Hsub l0 y Hl0 Hy) as (l' & Hl' & Hy'). eapply Hdis; eauto. }
      split; [exact H1|]. intros y Hy. destruct (H2 y Hy) as [Hy'|(l0 & Hl0 & Hy0)]; [now left|]. right. eapply Hsub; eauto.
    + injection H as <- <-. split; [apply NoDup_rev; exact Hnd|]. intros x Hx. left. now apply in_rev.
Qed.

Lemma linearize_sound : forall stored bases m b, linearize_mro stored bases = Some (m, b) ->
  NoDup m /\ forall x, In x m -> exists c, In c bases /\ (x = c \/ In x (stored c)).
Proof.
  intros stored bases m b H. unfold linearize_mro in H. apply outer_invariant in H.
  - destruct H as [H1 H2]. split; [exact H1|]. intros x Hx. destruct (H2 x Hx) as [[]|(l & Hl & Hxl)].
    rewrite raw_base_iterators in Hl. apply in_map_iff in Hl. destruct Hl as (c & <- & Hc). exists c.
    split; [exact Hc|]. destruct Hxl as [<-|Hxl]; auto.
  - constructor.
  - intros l x _ _ [].
Qed.

Lemma program_sound : forall defs, well_scoped defs -> forall c m b, nth_error (class_table defs) c = Some (m, b) ->
  NoDup m /\ forall a, In a m -> a <> 0 /\ ancestor defs c a.
Proof.
  intros defs Hw. induction c as [c IH] using lt_wf_ind. intros m f Hc. destruct c as [|k].
  - rewrite class_table_object in Hc. injection Hc as <- _. split; [constructor|]. intros a [].
  - assert (Hk : k < length defs).
    { assert (S k < length (class_table defs)) by (apply nth_error_Some; congruence). rewrite class_table_length in *. lia. }
    destruct (nth_error defs k) as [bases|] eqn:Ek; [|apply nth_error_Some in Hk; congruence].
    destruct (class_entry defs k bases Hw Ek) as (bs & d & m' & lin & Ed & El & Et).
    rewrite Et in Hc. assert (m' = m) by congruence. subst m'.
    pose proof (mro_no_object _ _ _ _ El) as Hno. apply linearize_sound in El. destruct El as [H1 H2].
    split; [exact H1|]. intros a Ha. split; [intros ->; contradiction|].
    destruct (H2 a Ha) as (b & Hb & Hab).
    assert (Hin : In b bases).
    { pose proof (distinct_bases_subset bases [] b) as Hs. rewrite Ed in Hs. destruct (Hs Hb) as [[]|]; assumption. }
    destruct Hab as [->|Hab]; [eapply anc_base; eauto|].
    pose proof (Hw k bases b Ek Hin) as Hlt. unfold stored_in in Hab.
    destruct (nth_error (class_table defs) b) as [[mb fb]|] eqn:Eb.
    + rewrite (nth_error_nth _ _ _ Eb) in Hab. destruct (IH b ltac:(lia) mb fb Eb) as [_ H3].
      eapply anc_more; [eapply anc_base; eauto|]. now apply H3.
    + exfalso. apply nth_error_None in Eb. rewrite class_table_length in Eb. lia.
Qed.
