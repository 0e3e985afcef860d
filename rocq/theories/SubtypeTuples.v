(** Proofs about tuples with [*tuple[T, ...]] *)
From Coq Require Import List NArith Bool Lia.
From Verif Require Import TupleModel TupleSpec SubtypeModel SubtypeSpec SubtypeProofs SubtypeSound.
Import ListNotations.
Open Scope N_scope.

Section Tuples.
Context {V : Type}.
Variables (p : program) (w : world V) (env : N -> V -> Prop).
Hypothesis Hp : proper p.
Hypothesis Hw : lawful p w env.
Notation has := (has w env).
Notation fine := (fine p None).

(** The tuple types that are compared, and that they do not expect more items than there are *)
Definition comparable (a1 a2 : args type) : Prop :=
  match a1, a2 with
  | WithUnpack (mk_unpack b1 (Many t1) a1), FixedLen ts => Forall fine b1 /\ fine t1 /\ Forall fine a1 /\ Forall fine ts
  | WithUnpack (mk_unpack b1 (Many t1) a1), WithUnpack (mk_unpack b2 (Many t2) a2) =>
      Forall fine b1 /\ fine t1 /\ Forall fine a1 /\ Forall fine b2 /\ fine t2 /\ Forall fine a2 /\
      (length b1 <= length b2)%nat /\ (length a1 <= length a2)%nat
  | ArbitraryLen t1, WithUnpack (mk_unpack b2 (Many t2) a2) => fine t1 /\ Forall fine b2 /\ fine t2 /\ Forall fine a2
  | _, _ => False
  end.

Variable fuel : nat.

Lemma item_sound : forall r t1 t2, matches (run p fuel) Covariant r t1 t2 = Some Yes -> fine t1 -> fine t2 -> within (has t2) (has t1).
Proof. intros r t1 t2 H H1 H2. exact (run_sound p w env Hp Hw fuel _ H H1 (fine_is_value p None t2 H2)). Qed.

Lemma against_sound : forall r t1 ts vs, against (run p fuel) Covariant r t1 ts = Some Yes -> fine t1 -> Forall fine ts ->
  Forall2 (fun (s : V -> Prop) x => s x) (map has ts) vs -> Forall (has t1) vs.
Proof.
  intros r t1 ts vs H H1 H2. apply each_yes in H. revert vs H. induction H2 as [|t ts Ht H2 IH]; intros vs H Hv.
  - inversion Hv. constructor.
  - cbn [map] in Hv. inversion Hv as [|s y l ys Hy Hys]; subst. constructor; [exact (item_sound _ _ _ (Forall_inv H) H1 Ht _ Hy)|exact (IH _ (Forall_inv_tail H) Hys)].
Qed.

Lemma pairs_sound : forall r l m k, each (item_matches (run p fuel) Covariant r) (pairs l (m ++ k)) = Some Yes -> length l = length m ->
  Forall fine l -> Forall fine m -> Forall2 within (map has m) (map has l).
Proof.
  intros r l m k H. apply each_yes in H. revert m H. induction l as [|t l IH]; intros [|s m] H Hl H1 H2; try discriminate Hl; [constructor|].
  constructor; [exact (item_sound _ _ _ (Forall_inv H) (Forall_inv H1) (Forall_inv H2))|]. injection Hl as Hl.
  exact (IH m (Forall_inv_tail H) Hl (Forall_inv_tail H1) (Forall_inv_tail H2)).
Qed.

Lemma within_rev : forall (l m : list (V -> Prop)), Forall2 within l m -> Forall2 within (rev l) (rev m).
Proof. intros l m H. induction H; [constructor|]. cbn [rev]. apply Forall2_app; [assumption|]. constructor; [assumption|constructor]. Qed.

Lemma pairs_sound_back : forall r l m k, each (item_matches (run p fuel) Covariant r) (pairs (rev l) (rev (k ++ m))) = Some Yes -> length l = length m ->
  Forall fine l -> Forall fine m -> Forall2 within (map has m) (map has l).
Proof.
  intros r l m k H Hl H1 H2. rewrite rev_app_distr in H. assert (G := pairs_sound r _ _ _ H ltac:(rewrite !rev_length; exact Hl) (Forall_rev H1) (Forall_rev H2)).
  apply within_rev in G. rewrite !map_rev, !rev_involutive in G. exact G.
Qed.

Lemma split_first : forall {A} n (l : list A), (n <= length l)%nat -> exists x y, l = x ++ y /\ length x = n.
Proof. intros A n l H. exists (firstn n l), (skipn n l). split; [symmetry; apply firstn_skipn|]. rewrite firstn_length. lia. Qed.

Lemma split_last : forall {A} n (l : list A), (n <= length l)%nat -> exists x y, l = x ++ y /\ length y = n.
Proof. intros A n l H. exists (firstn (length l - n) l), (skipn (length l - n) l). split; [symmetry; apply firstn_skipn|]. rewrite skipn_length. lia. Qed.

Lemma rest_split : forall {A} (l m k : list A), length l = length m -> rest l (m ++ k) = k.
Proof. intros A l m k H. unfold rest. rewrite H, skipn_app, skipn_all, PeanoNat.Nat.sub_diag. reflexivity. Qed.

Lemma rest_split_back : forall {A} (l m k : list A), length l = length m -> rev (rest l (rev (k ++ m))) = k.
Proof.
  intros A l m k H. rewrite rev_app_distr, rest_split; [apply rev_involutive|]. rewrite rev_length. exact H.
Qed.

Lemma tuples_sound : forall r a1 a2, comparable a1 a2 -> match_tuple (run p fuel) Covariant r a1 a2 = Some Yes -> within (has (Tuple a2)) (has (Tuple a1)).
Proof.
  intros r a1 a2 Hc H x Hx. destruct a1 as [ts1|t1|[b1 [n1|t1] a1]]; destruct a2 as [ts2|t2|[b2 [n2|t2] a2]]; try destruct Hc; cbn [match_tuple] in H.
  - destruct H1 as [Hb2 [Ht2 Ha2]]. unfold match_arbitrary_len_vs_unpack in H. cbn [before middle after] in H. apply both_yes in H. destruct H as [H Ha]. apply both_yes in H.
    destruct H as [Hb Hm]. destruct Hx as [vs [Hv [l [m [k [-> [Hl [Hm' Hk]]]]]]]]. exists (l ++ m ++ k). split; [exact Hv|]. cbn. rewrite !Forall_app.
    split; [exact (against_sound _ _ _ _ Hb H0 Hb2 Hl)|]. split; [|exact (against_sound _ _ _ _ Ha H0 Ha2 Hk)].
    exact (Forall_impl _ (item_sound _ _ _ Hm H0 Ht2) Hm').
  - destruct H1 as [Ht1 [Ha1 Hts]]. cbn [match_unpack before middle after] in H. apply then_yes in H. destruct H as [m [Hm H]].
    destruct (Nat.ltb _ _) eqn:E; [discriminate H|]. apply PeanoNat.Nat.ltb_ge in E. apply both_yes in H. destruct H as [Em H]. injection Em as ->.
    apply both_yes in Hm. destruct Hm as [Mb Ma].
    destruct (split_first (length b1) ts2 ltac:(lia)) as [x1 [y [-> Lx]]]. rewrite app_length in E. destruct (split_last (length a1) y ltac:(lia)) as [x2 [x3 [-> Lz]]].
    rewrite !(rest_split b1 x1) in * by lia. rewrite (rest_split_back a1 x3) in H by lia.
    apply Forall_app in Hts. destruct Hts as [F1 Hts]. apply Forall_app in Hts. destruct Hts as [F2 F3].
    assert (W1 := pairs_sound _ _ _ _ Mb ltac:(lia) H0 F1). assert (W3 := pairs_sound_back _ _ _ _ Ma ltac:(lia) Ha1 F3).
    destruct Hx as [vs [Hv Hs]]. exists vs. split; [exact Hv|]. cbn in Hs |- *. rewrite !map_app in Hs. apply Forall2_app_inv_l in Hs.
    destruct Hs as [v1 [vs' [S1 [Hs ->]]]]. apply Forall2_app_inv_l in Hs. destruct Hs as [v2 [v3 [S2 [S3 ->]]]].
    exists v1, v2, v3. split; [reflexivity|]. split; [exact (items_within _ _ _ W1 S1)|]. split; [exact (against_sound _ _ _ _ H Ht1 F2 S2)|exact (items_within _ _ _ W3 S3)].
  - destruct H1 as [Ht1 [Ha1 [Hb2 [Ht2 [Ha2 [Lb La]]]]]]. cbn [match_unpack before middle after] in H. apply then_yes in H. destruct H as [m [Hm H]].
    apply both_yes in H. destruct H as [H M2]. apply both_yes in H. destruct H as [H M3]. apply both_yes in H. destruct H as [Em M1]. injection Em as ->.
    apply both_yes in Hm. destruct Hm as [Mb Ma].
    destruct (split_first (length b1) b2 Lb) as [x1 [x2 [-> Lx]]]. destruct (split_last (length a1) a2 La) as [x4 [x5 [-> Lz]]].
    rewrite (rest_split b1 x1) in M1 by lia. rewrite (rest_split_back a1 x5) in M3 by lia.
    apply Forall_app in Hb2. destruct Hb2 as [F1 F2]. apply Forall_app in Ha2. destruct Ha2 as [F4 F5].
    assert (W1 := pairs_sound _ _ _ _ Mb ltac:(lia) H0 F1). assert (W5 := pairs_sound_back _ _ _ _ Ma ltac:(lia) Ha1 F5).
    destruct Hx as [vs [Hv [l [m [k [-> [Hl [Hm Hk]]]]]]]]. exists (l ++ m ++ k). split; [exact Hv|].
    cbn [before middle after] in Hl, Hm, Hk. rewrite map_app in Hl, Hk. apply Forall2_app_inv_l in Hl. destruct Hl as [v1 [v2 [S1 [S2 ->]]]].
    apply Forall2_app_inv_l in Hk. destruct Hk as [v4 [v5 [S4 [S5 ->]]]]. exists v1, (v2 ++ m ++ v4), v5.
    split; [rewrite <- !app_assoc; reflexivity|]. split; [exact (items_within _ _ _ W1 S1)|]. split; [|exact (items_within _ _ _ W5 S5)].
    cbn. rewrite !Forall_app. split; [exact (against_sound _ _ _ _ M1 Ht1 F2 S2)|]. split; [|exact (against_sound _ _ _ _ M3 Ht1 F4 S4)].
    exact (Forall_impl _ (item_sound _ _ _ M2 Ht1 Ht2) Hm).
Qed.
End Tuples.

(** The question about two tuples is that about their items. *)
Lemma tuple_question : forall p fuel r a1 a2, run p (S fuel) (Matches Covariant r (Tuple a1) (Tuple a2)) = Some Yes ->
  match_tuple (run p fuel) Covariant r a1 a2 = Some Yes.
Proof.
  intros p fuel r a1 a2 H. cbn [run respond] in H. unfold super_type_of in H. cbn [looks_at_mro negb mro match_mro matches_internal] in H.
  destruct (match_tuple (run p fuel) Covariant r a1 a2) as [[s o|]|]; [|reflexivity|discriminate H]. cbn in H. discriminate H.
Qed.
