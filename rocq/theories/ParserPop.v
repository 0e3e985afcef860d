(** The steps of the parser that end nodes. *)
From Coq Require Import List Arith NArith Bool Lia.
From Verif Require Import TreeModel TreeSpec TreeProofs BacktrackModel ParserModel ParserSpec ParserTree ParserInv.
Import ListNotations.


Lemma in_order_spans : forall l a, in_order a l -> ordered a (map token_span l).
Proof. induction l as [|t l IH]; intros a H; [exact I|]. cbn in *. destruct H. auto. Qed.

Lemma update_at : forall {A} (a : list A) x b f, update (a ++ x :: b) (length a) f = Done (a ++ f x :: b).
Proof.
  intros A a x b f. unfold update. rewrite nth_error_app2 by lia. rewrite Nat.sub_diag. cbn [nth_error].
  rewrite firstn_app, Nat.sub_diag, firstn_all. cbn [firstn]. rewrite app_nil_r. rewrite skipn_app, skipn_all2 by lia.
  replace (S (length a) - length a) with 1 by lia. reflexivity.
Qed.

Lemma insert_at : forall {A} (a : list A) x b, insert (a ++ b) (length a) x = a ++ x :: b.
Proof.
  intros A a x b. unfold insert. rewrite firstn_app, Nat.sub_diag, firstn_all. cbn [firstn]. rewrite app_nil_r.
  rewrite skipn_app, skipn_all2 by lia. rewrite Nat.sub_diag. reflexivity.
Qed.

Lemma nth_at : forall {A} (a : list A) x b, nth_error (a ++ x :: b) (length a) = Some x.
Proof. intros A a x b. rewrite nth_error_app2 by lia. rewrite Nat.sub_diag. reflexivity. Qed.

(** [update_tree_node_position] with the node in its place. *)
Lemma position_at : forall a x b s ns', s_index s = length a -> update_tree_node_position (a ++ x :: b) s = Done ns' ->
  start_index x <= end_ (last (x :: b) x) /\ ns' = a ++ set_length (end_ (last (x :: b) x) - start_index x) x :: b.
Proof.
  intros a x b s ns' I H. unfold update_tree_node_position in H.
  assert (L : last (a ++ x :: b) (mk_node 0 0 0 0) = last (x :: b) x).
  { destruct (exists_last (l := x :: b)) as (i & y & E); [discriminate|]. rewrite E. rewrite app_assoc, !last_last. reflexivity. }
  destruct (a ++ x :: b) as [|q r] eqn:Q; [destruct a; discriminate|]. rewrite <- Q in *. rewrite L, I, nth_at in H. cbn [unwrap bind] in H.
  destruct (start_index x <=? end_ (last (x :: b) x)) eqn:C; cbn [assert bind] in H; [|discriminate]. apply Nat.leb_le in C. split; [exact C|].
  rewrite update_at in H. injection H as <-. reflexivity.
Qed.

Section Pop.
  Variable g : grammar.
  Variable all : list token.
  Variable base : nat.
  Local Notation om := (may_be_omitted g).
  Definition all_spans : list (nat * nat) := map token_span all.
  Definition all_starts : list nat := map t_start all.
  Hypothesis Order : in_order 0 all.
  Local Notation desc := (desc g all_starts base).
  Local Notation frame_ok := (frame_ok all_starts).

  Lemma spans_ordered : forall ns k, spans ns = firstn k all_spans -> ordered 0 (spans ns).
  Proof.
    intros ns k ->. pose proof (in_order_spans all 0 Order) as O. fold all_spans in O. rewrite <- (firstn_skipn k all_spans) in O. apply ordered_app in O. tauto.
  Qed.

  Lemma start_at : forall a b k s l r, spans (a ++ b) = firstn k all_spans -> spans b = (s, l) :: r -> nth_error all_starts (length (spans a)) = Some s.
  Proof.
    intros a b k s l r H E. rewrite spans_app, E in H.
    assert (N : nth_error (firstn k all_spans) (length (spans a)) = Some (s, l)) by (rewrite <- H; apply nth_at).
    assert (K : length (spans a) < k).
    { destruct (le_lt_dec k (length (spans a))) as [C|C]; [|exact C]. rewrite (proj2 (nth_error_None _ _)) in N; [discriminate|]. rewrite firstn_length. lia. }
    rewrite nth_firstn in N by exact K. unfold all_spans in N. rewrite nth_error_map in N. unfold all_starts. rewrite nth_error_map.
    destruct (nth_error all (length (spans a))) as [t|]; [|discriminate]. cbn in *. unfold token_span in N. congruence.
  Qed.

  Lemma own_no_spans : forall top f fs, frame_ok top f fs -> spans (own_nodes f) = [].
  Proof.
    intros top f fs (_ & F & _). unfold own_nodes. destruct (f_own f) as [[[ty st] l]|]; [|reflexivity]. destruct (F ty st l eq_refl) as [Ty _].
    unfold spans. cbn [filter]. unfold is_leaf. cbn [type_]. rewrite node_no_leaf by exact Ty. reflexivity.
  Qed.

  Definition complete (f : frame) : Prop :=
    match f_own f, f_cs f with
    | Some (_, s, l), c :: r => s + l = end_of (last (c :: r) c)
    | _, _ => True
    end.

  Lemma fine_children_last : forall c r d, Forall fine (c :: r) -> end_ (last (flat_children (c :: r)) d) = end_of (last (c :: r) c).
  Proof.
    intros c r d F. destruct (exists_last (l := c :: r)) as (i & x & E); [discriminate|]. rewrite E in *. rewrite last_last, children_snoc.
    apply Forall_app in F. destruct F as [_ F]. inversion F; subst. destruct (exists_last (flatten_nonempty true x)) as (j & y & Ej).
    rewrite Ej, app_assoc, last_last. rewrite <- (fine_last_node x ltac:(assumption) true d), Ej, last_last. reflexivity.
  Qed.

  Lemma last_behind : forall {A} (x : A) l d, l <> [] -> last (x :: l) d = last l d.
  Proof. intros A x l d H. destruct (exists_last H) as (i & y & ->). rewrite app_comm_cons, !last_last. reflexivity. Qed.

  Lemma children_nonempty : forall c r, flat_children (c :: r) <> [].
  Proof. intros c r H. pose proof (flat_children_length (c :: r)) as L. rewrite H, sizes_cons in L. pose proof (size_pos c). cbn in L. lia. Qed.

  (** The length of the node of a frame is written. *)
  Lemma position_frame : forall n f fs ns', frame_ok true f fs -> (f_own f = None -> length (f_cs f) = 1) -> s_index n = length (under fs) ->
    update_tree_node_position (content (f :: fs)) n = Done ns' ->
    exists f', ns' = content (f' :: fs) /\ similar f f' /\ frame_ok true f' fs /\ complete f' /\ f_cs f' = f_cs f.
  Proof.
    intros n f fs ns' Fok One I H. pose proof Fok as (F1 & F2 & F3 & F4). cbn [content] in H. destruct (f_own f) as [[[ty st] l]|] eqn:O.
    - assert (E : own_nodes f = [mk_node 0 ty st l]) by (unfold own_nodes; rewrite O; reflexivity). rewrite E in H. cbn [app] in H.
      destruct (position_at _ _ _ _ _ I H) as [Le ->]. unfold set_length. cbn [next_node_offset type_ start_index] in *.
      set (E' := end_ (last (mk_node 0 ty st l :: flat_children (f_cs f)) (mk_node 0 ty st l))) in *.
      exists (mk_frame (Some (ty, st, E' - st)) (f_cs f)). refine (conj _ (conj _ (conj _ (conj _ eq_refl)))).
      + reflexivity.
      + unfold similar. cbn [f_own f_cs]. rewrite O. repeat split; auto; discriminate.
      + refine (conj F1 (conj _ (conj _ F4))); cbn [f_own f_cs]; [|discriminate]. intros ty' st' l' X. injection X as <- <- _. apply (F2 ty st l). reflexivity.
      + unfold complete. cbn [f_own f_cs]. destruct (f_cs f) as [|c r] eqn:C; [exact Logic.I|].
        rewrite <- (fine_children_last c r (mk_node 0 ty st l) F1). unfold E' in *. rewrite last_behind in * by apply children_nonempty. lia.
    - specialize (One eq_refl). destruct (f_cs f) as [|t [|t2 r]] eqn:C; cbn in One; try lia.
      assert (E : own_nodes f = []) by (unfold own_nodes; rewrite O; reflexivity). rewrite E in H. cbn [app flat_children] in H. rewrite app_nil_r in H.
      destruct (flatten_head true t) as (q & Q & _). rewrite Q in H. destruct (position_at _ _ _ _ _ I H) as [Le ->].
      assert (L : forall d, end_ (last (mk_node 0 (type_of t) (start_of t) (end_of t - start_of t) :: q) d) = end_of t) by (intros d; rewrite <- Q; inversion F1; subst; apply fine_last_node; assumption).
      rewrite L in *. cbn [start_index] in *. exists f. refine (conj _ (conj _ (conj Fok (conj _ C)))).
      + cbn [content]. rewrite E, C. cbn [app flat_children]. rewrite app_nil_r, Q. unfold set_length. cbn. reflexivity.
      + unfold similar. repeat split; auto.
      + unfold complete. rewrite O. exact Logic.I.
  Qed.

  (** The node of a frame is marked as failed. *)
  Lemma failed_frame : forall n f fs ns', frame_ok true f fs -> (f_own f = None -> length (f_cs f) = 1) -> complete f -> s_index n = length (under fs) ->
    update (content (f :: fs)) (s_index n) (fun n => set_type (set_error_bit (type_ n)) n) = Done ns' ->
    exists f', ns' = content (f' :: fs) /\ similar f f' /\ frame_ok true f' fs /\ complete f' /\ length (f_cs f') = length (f_cs f).
  Proof.
    intros n f fs ns' Fok One Co I H. pose proof Fok as (F1 & F2 & F3 & F4). cbn [content] in H. rewrite I in H. destruct (f_own f) as [[[ty st] l]|] eqn:O.
    - assert (E : own_nodes f = [mk_node 0 ty st l]) by (unfold own_nodes; rewrite O; reflexivity). rewrite E in H. cbn [app] in H. rewrite update_at in H. injection H as <-.
      exists (mk_frame (Some (set_error_bit ty, st, l)) (f_cs f)). refine (conj _ (conj _ (conj _ (conj _ eq_refl)))).
      + reflexivity.
      + unfold similar. cbn [f_own f_cs]. rewrite O. repeat split; auto; discriminate.
      + refine (conj F1 (conj _ (conj _ F4))); cbn [f_own f_cs]; [|discriminate]. intros ty' st' l' X. injection X as <- <- _. destruct (F2 ty st l) as [A B]; [reflexivity|]. split; [|exact B]. apply error_bit_node. exact A.
      + unfold complete in *. cbn [f_own f_cs]. rewrite O in Co. exact Co.
    - specialize (One eq_refl). destruct (f_cs f) as [|t [|t2 r]] eqn:C; cbn in One; try lia.
      assert (E : own_nodes f = []) by (unfold own_nodes; rewrite O; reflexivity). rewrite E in H. cbn [app flat_children] in H. rewrite app_nil_r in H.
      destruct (flatten_head true t) as (q & Q & Q'). rewrite Q in H. rewrite update_at in H. injection H as <-.
      exists (mk_frame None [failed t]). inversion F1; subst. refine (conj _ (conj _ (conj _ (conj _ eq_refl)))).
      + cbn [content f_cs flat_children]. unfold own_nodes. cbn [f_own app]. rewrite app_nil_r, Q'. reflexivity.
      + unfold similar. cbn [f_own f_cs]. rewrite O, C. refine (conj (conj (fun x => x) (fun x => x)) (conj eq_refl (conj _ _))); intros [|[|k]]; cbn [firstn]; try reflexivity.
        * rewrite !sizes_cons, failed_size. reflexivity.
        * rewrite !sizes_cons, failed_size. reflexivity.
        * cbn [flat_map]. rewrite failed_leaves. reflexivity.
        * cbn [flat_map]. rewrite failed_leaves. reflexivity.
      + refine (conj _ (conj _ (conj _ _))); cbn [f_own f_cs]; [|discriminate|intros _; exact (F3 eq_refl)|discriminate]. constructor; [apply failed_fine; assumption|constructor].
      + exact Logic.I.
  Qed.

  (** The array at the end. *)
  Definition result (ns : list node) : Prop :=
    exists ty c cs, (32768 <= ty)%N /\ Forall fine (c :: cs) /\ ns = array (Node ty 0 (end_of (last (c :: cs) c)) (c :: cs)).
  Definition shape (st : list stack_node) (ns : list node) : Prop :=
    match st with
    | [] => spans ns <> [] -> result ns
    | _ => exists fs, desc true st fs /\ ns = content fs /\ calm st fs
    end.

  Lemma content_spans : forall top f fs, frame_ok top f fs -> spans (content (f :: fs)) = spans (under fs) ++ flat_map leaves (f_cs f).
  Proof.
    intros top f fs F. cbn [content]. rewrite !spans_app, (own_no_spans _ _ _ F). cbn [app]. rewrite spans_children; [reflexivity|].
    destruct F as [F _]. rewrite Forall_forall in *. intros x X. apply fine_proper. auto.
  Qed.

  (** The innermost node is complete and is popped. *)
  Lemma pop_shape : forall n st f fs k, desc true (n :: st) (f :: fs) -> complete f -> Forall zero fs -> spans (content (f :: fs)) = firstn k all_spans ->
    shape st (content (f :: fs)).
  Proof.
    intros n st f fs k D Co Z Sp. inversion D as [|t1 n1 f1 s1 fs1 D1 F1 No1 M1 I1 R1|t1 n1 m1 f1 s1 fs1 D1 S1 No1 Vi1 R1]; subst.
    - destruct st as [|m st].
      + inversion D1; subst. unfold shape. intros Ne. destruct F1 as (Fi & Fo & Fn & _). destruct (f_own f) as [[[ty s] l]|] eqn:O; [|elim (Fn eq_refl); reflexivity].
        destruct (Fo ty s l eq_refl) as (Ty & St & _). specialize (St eq_refl). subst s.
        destruct (f_cs f) as [|c r] eqn:C.
        * elim Ne. cbn [content]. unfold own_nodes. rewrite O, C. cbn. unfold spans. cbn [filter]. unfold is_leaf. cbn [type_]. rewrite node_no_leaf by exact Ty. reflexivity.
        * exists ty, c, r. refine (conj Ty (conj Fi _)). unfold array. rewrite flatten_node. cbn [content under app]. unfold own_nodes. rewrite O, C. cbn [app].
          unfold complete in Co. rewrite O, C in Co. cbn [plus] in Co. rewrite Co. reflexivity.
      + destruct (desc_nonempty _ _ _ _ _ _ _ D1) as (f2 & fs2 & ->). pose proof F1 as (Fi & Fo & Fn & Fc). specialize (Fc eq_refl ltac:(discriminate)).
        assert (T : exists t, fine t /\ content (f :: f2 :: fs2) = content (add f2 t :: fs2)).
        { rewrite content_spans with (top := true) in Sp by exact F1. destruct (f_cs f) as [|c r] eqn:C; [contradiction|]. destruct (f_own f) as [[[ty s] l]|] eqn:O.
          - exists (Node ty s l (c :: r)). destruct (Fo ty s l eq_refl) as (Ty & _ & St). specialize (St ltac:(discriminate)). inversion Fi as [|x y Fcc Frr]; subst.
            destruct (fine_first c Fcc) as (l1 & r1 & E1). split.
            + constructor; auto.
              * assert (St' : nth_error all_starts (length (spans (under (f2 :: fs2)))) = Some (start_of c)).
                { apply (start_at (under (f2 :: fs2)) (flat_children (c :: r)) k (start_of c) l1 (r1 ++ flat_map leaves r)).
                  - rewrite spans_app, spans_children; [exact Sp|]. rewrite Forall_forall in *. intros x X. apply fine_proper. auto.
                  - rewrite spans_children; [cbn [flat_map]; rewrite E1; reflexivity|]. rewrite Forall_forall in *. intros x X. apply fine_proper. auto. }
                congruence.
              * unfold complete in Co. rewrite O, C in Co. exact Co.
            + rewrite content_add, flatten_node. cbn [content]. unfold own_nodes at 1. rewrite O, C. reflexivity.
          - destruct (desc_node _ _ _ _ _ _ _ _ D) as (_ & No & _). destruct (No O) as [_ Ki]. unfold kids in Ki. rewrite C in Ki. cbn in Ki. destruct r as [|c2 r]; [|cbn in Ki; lia].
            exists c. inversion Fi; subst. split; [assumption|]. rewrite content_add. cbn [content]. unfold own_nodes at 1. rewrite O, C. cbn [app flat_children]. rewrite app_nil_r. reflexivity. }
        destruct T as (t & Ft & E). unfold shape. exists (add f2 t :: fs2). rewrite E. refine (conj (grow _ _ _ _ _ _ _ D1 Ft) (conj eq_refl _)).
        inversion Z as [|x y Z1 Z2]; subst. split; [intros _; exact Z1|exact Z2].
    - unfold shape. exists (f :: fs). refine (conj D1 (conj eq_refl _)). split; [intros E; congruence|exact Z].
  Qed.

  Lemma desc_one : forall n st f fs, desc true (n :: st) (f :: fs) -> f_own f = None -> length (f_cs f) = 1.
  Proof. intros n st f fs D O. destruct (desc_node _ _ _ _ _ _ _ _ D) as (_ & No & _). destruct (No O) as [_ Ki]. unfold kids in Ki. lia. Qed.

  Lemma similar_spans : forall f f' fs, similar f f' -> frame_ok true f fs -> frame_ok true f' fs -> spans (content (f' :: fs)) = spans (content (f :: fs)).
  Proof.
    intros f f' fs (_ & L & _ & S) F F'. rewrite !content_spans with (top := true) by assumption. specialize (S (length (f_cs f))). rewrite firstn_all in S.
    rewrite L, firstn_all in S. rewrite S. reflexivity.
  Qed.

  (** A node is ended: its length is written. *)
  Lemma position_pop : forall n st fs k ns', desc true (n :: st) fs -> calm (n :: st) fs -> s_mode n = LL -> spans (content fs) = firstn k all_spans ->
    update_tree_node_position (content fs) n = Done ns' -> shape st ns' /\ spans ns' = firstn k all_spans.
  Proof.
    intros n st fs k ns' D Ca M Sp H. destruct (desc_nonempty _ _ _ _ _ _ _ D) as (f & fs' & ->). destruct Ca as [_ Z].
    assert (F : frame_ok true f fs') by (eapply desc_frame; [exact D|reflexivity]).
    assert (I : s_index n = length (under fs')).
    { inversion D as [|t1 n1 f1 s1 fs1 D1 F1 No1 M1 I1 R1|t1 n1 m1 f1 s1 fs1 D1 S1 No1 Vi1 R1]; subst; [exact I1|]. destruct Vi1 as [_ V]. rewrite M in V. tauto. }
    destruct (position_frame n f fs' ns' F (desc_one _ _ _ _ D) I H) as (f' & -> & Sim & F' & Co & _).
    pose proof (similar_spans _ _ _ Sim F F') as S. rewrite <- S in Sp. split; [|exact Sp].
    apply (pop_shape n st f' fs' k); auto. eapply similar_desc; eauto.
  Qed.

  (** A node is popped and marked. *)
  Lemma failed_pop : forall n st fs k ns', desc true (n :: st) fs -> calm (n :: st) fs -> spans (content fs) = firstn k all_spans ->
    pop_failed g (content fs) n = Done (ns', false) -> shape st ns' /\ spans ns' = firstn k all_spans.
  Proof.
    intros n st fs k ns' D Ca Sp H. destruct (desc_nonempty _ _ _ _ _ _ _ D) as (f & fs' & ->). destruct Ca as [_ Z].
    assert (F : frame_ok true f fs') by (eapply desc_frame; [exact D|reflexivity]). unfold pop_failed in H.
    destruct (nth_error (content (f :: fs')) (s_index n)) as [x|] eqn:X; cbn [unwrap bind] in H; [|discriminate].
    destruct (update_tree_node_position (content (f :: fs')) n) as [ns1| |] eqn:U; cbn [bind] in H; try discriminate.
    destruct (update ns1 (s_index n) _) as [ns2| |] eqn:V; cbn [bind] in H; try discriminate. injection H as <- Odd.
    assert (I : s_index n = length (under fs') \/ misplaced g n = true /\ s_index n <> length (under fs')).
    { destruct (Nat.eq_dec (s_index n) (length (under fs'))) as [I|I]; [left; exact I|]. right. split; [|exact I].
      inversion D as [|t1 n1 f1 s1 fs1 D1 F1 No1 M1 I1 R1|t1 n1 m1 f1 s1 fs1 D1 S1 No1 Vi1 R1]; subst; [contradiction|]. destruct Vi1 as [_ W].
      unfold misplaced. destruct (s_mode n) as [|b id|b id p q]; cbn [point_of]; [destruct W; contradiction| |];
        destruct W as ([W|[W W']] & _); try contradiction; rewrite W, W', Nat.eqb_refl; reflexivity. }
    destruct I as [I|[Mi I]].
    - destruct (position_frame n f fs' ns1 F (desc_one _ _ _ _ D) I U) as (f1 & -> & Sim1 & F1 & Co1 & E1).
      assert (One : f_own f1 = None -> length (f_cs f1) = 1). { intros O. rewrite E1. apply (desc_one _ _ _ _ D). apply (proj1 Sim1). exact O. }
      destruct (failed_frame n f1 fs' ns2 F1 One Co1 I V) as (f2 & -> & Sim2 & F2 & Co2 & _).
      pose proof (similar_spans _ _ _ Sim1 F F1) as S1. pose proof (similar_spans _ _ _ Sim2 F1 F2) as S2. rewrite <- S1, <- S2 in Sp. split; [|exact Sp].
      apply (pop_shape n st f2 fs' k); auto. eapply similar_desc; [eapply similar_desc; [exact D|exact Sim1|exact F1]|exact Sim2|exact F2].
    - rewrite Mi in Odd. cbn [andb] in Odd. apply negb_false_iff, Nat.eqb_eq in Odd.
      inversion D as [|t1 n1 f1 s1 fs1 D1 F1 No1 M1 I1 R1|t1 n1 m1 f1 s1 fs1 D1 S1 No1 Vi1 R1]; subst; [contradiction|].
      assert (P : exists b, s_index n = b_nodes b /\ point_ok base true false b f fs').
      { destruct Vi1 as [_ W]. destruct (s_mode n) as [|b id|b id p q]; [destruct W; contradiction| |]; destruct W as ([W|[W W']] & P & _); try contradiction; exists b; rewrite W' in P; auto. }
      destruct P as (b & Ib & (n0 & mat & P1 & P2 & P3 & P4 & _)). destruct mat; [|destruct (P3 eq_refl); discriminate].
      specialize (P2 eq_refl). unfold kids in P1. destruct (children_split (f_cs f) n0 ltac:(lia)) as (c & r & _ & E1 & E2 & _).
      destruct (flatten_head (match r with [] => true | _ => false end) c) as (q & Q & Q').
      assert (Li : s_index n = length (under fs' ++ own_nodes f ++ flat_init (firstn n0 (f_cs f)))).
      { rewrite !app_length, flat_init_length, own_length, Ib, P4. destruct (f_own f); [lia|contradiction]. }
      set (x' := mk_node _ _ _ _) in Q. set (b' := q ++ flat_children r).
      assert (Cf : content (f :: fs') = (under fs' ++ own_nodes f ++ flat_init (firstn n0 (f_cs f))) ++ x' :: b').
      { cbn [content]. rewrite E2. cbn [flat_children]. rewrite Q. cbn [app]. fold b'. rewrite <- !app_assoc. reflexivity. }
      rewrite Cf in X, U. rewrite Li, nth_at in X. injection X as <-.
      destruct (position_at _ _ _ _ _ Li U) as [Le ->].
      assert (La : last (content (f :: fs')) x' = last (x' :: b') x').
      { rewrite Cf. destruct (exists_last (l := x' :: b')) as (i & y & Ey); [discriminate|]. rewrite Ey. rewrite app_assoc, !last_last. reflexivity. }
      cbn [content] in La. rewrite La in Odd. rewrite <- Odd in V. replace (start_index x' + length_ x' - start_index x') with (length_ x') in V by lia.
      rewrite Li, update_at in V. cbv beta in V. injection V as <-.
      assert (Fc : Forall fine (f_cs f)) by (destruct F; assumption).
      assert (Ec : f_cs f = firstn n0 (f_cs f) ++ c :: r) by (rewrite <- E1, firstn_skipn; reflexivity).
      set (f2 := mk_frame (f_own f) (firstn n0 (f_cs f) ++ failed c :: r)).
      assert (Sim : similar f f2).
      { unfold similar, f2. cbn [f_own f_cs]. refine (conj (conj (fun x => x) (fun x => x)) (conj _ (conj _ _))).
        - rewrite Ec at 1. rewrite !app_length. reflexivity.
        - intros j. rewrite Ec at 1. rewrite !firstn_app. rewrite !sizes_app. f_equal. destruct (j - length (firstn n0 (f_cs f))) as [|j']; [reflexivity|]. cbn [firstn]. rewrite !sizes_cons, failed_size. reflexivity.
        - intros j. rewrite Ec at 1. rewrite !firstn_app. rewrite !flat_map_app. f_equal. destruct (j - length (firstn n0 (f_cs f))) as [|j']; [reflexivity|]. cbn [firstn flat_map]. rewrite failed_leaves. reflexivity. }
      assert (F2 : frame_ok true f2 fs').
      { destruct F as (G1 & G2 & G3 & G4). refine (conj _ (conj G2 (conj G3 _))).
        - unfold f2. cbn [f_cs]. rewrite Ec in G1. apply Forall_app in G1. destruct G1 as [G1 G1']. inversion G1'; subst. apply Forall_app. split; [exact G1|]. constructor; [apply failed_fine|]; assumption.
        - intros _ _. unfold f2. cbn [f_cs]. destruct (firstn n0 (f_cs f)); discriminate. }
      assert (Cn : content (f2 :: fs') = (under fs' ++ own_nodes f ++ flat_init (firstn n0 (f_cs f))) ++ set_type (set_error_bit (type_ (set_length (length_ x') x'))) (set_length (length_ x') x') :: b').
      { unfold f2. cbn [content f_cs]. unfold own_nodes at 1. cbn [f_own]. fold (own_nodes f). rewrite flat_split. rewrite Q'. cbn [app]. fold b'. rewrite <- !app_assoc. unfold x'. reflexivity. }
      match goal with |- shape _ ?a /\ _ => change a with ((under fs' ++ own_nodes f ++ flat_init (firstn n0 (f_cs f))) ++ set_type (set_error_bit (type_ (set_length (length_ x') x'))) (set_length (length_ x') x') :: b') end. rewrite <- Cn. rewrite <- (similar_spans _ _ _ Sim F F2) in Sp. split; [|exact Sp].
      unfold shape. exists (f2 :: fs'). refine (conj _ (conj eq_refl _)); [eapply similar_desc; eauto|]. split; [intros E; congruence|exact Z].
  Qed.
End Pop.
