(** A node that was parsed before is used again. *)
From Coq Require Import List Arith NArith Bool Lia.
From Verif Require Import TreeModel TreeSpec TreeProofs BacktrackModel ParserModel ParserSpec ParserTree ParserInv ParserPop ParserTok ParserPlan.
Import ListNotations.

(** Searching. *)
Lemma find_from_some : forall ns ty st i j, find_from ns ty st i = Some j -> exists k x, j = i + k /\ nth_error ns k = Some x /\ type_ x = ty.
Proof.
  induction ns as [|n ns IH]; intros ty st i j H; cbn [find_from] in H; [discriminate|]. destruct (negb (start_index n =? st)); [discriminate|].
  destruct (N.eqb (type_ n) ty) eqn:E.
  - injection H as <-. apply N.eqb_eq in E. exists 0, n. cbn. repeat split; auto.
  - destruct (IH _ _ _ _ H) as (k & x & -> & N & T). exists (S k), x. cbn. repeat split; auto.
Qed.

Lemma tree_find : forall t, fine t -> forall b l nth x, nth_error (flatten b t ++ l) nth = Some x -> is_leaf x = false -> existsb is_leaf (firstn nth (flatten b t ++ l)) = false ->
  exists pre b' t' more, flatten b t ++ l = pre ++ flatten b' t' ++ more /\ length pre = nth /\ fine t'.
Proof.
  intros t. induction t as [ty s l0|ty s l0 cs IH] using tree_ind'; intros F b l nth x N Lx Ex.
  - exfalso. inversion F; subst. cbn [flatten app] in *. assert (T : is_leaf (mk_node (if b then 0 else 1) ty s l0) = true) by (unfold is_leaf; cbn; apply N.ltb_lt; assumption). destruct nth as [|nth].
    + cbn in N. injection N as <-. rewrite T in Lx. discriminate.
    + cbn [firstn existsb] in Ex. rewrite T in Ex. discriminate.
  - destruct nth as [|nth].
    + exists [], b, (Node ty s l0 cs), l. auto.
    + inversion F as [|ty1 s1 l1 c cs1 Ty Fa St En]; subst. inversion IH as [|x1 y1 IHc _]; subst. inversion Fa as [|x1 y1 Fc _]; subst.
      rewrite flatten_node in *. cbn [app flat_children] in *. rewrite <- app_assoc in *. cbn [nth_error] in N. cbn [firstn existsb] in Ex. apply orb_false_iff in Ex. destruct Ex as [_ Ex].
      destruct (IHc Fc _ _ _ _ N Lx Ex) as (pre & b' & t' & more & E & L & F'). rewrite E. eexists (_ :: pre), b', t', more. cbn. rewrite L. auto.
Qed.

Lemma row_find : forall r, row r -> forall nth x, nth_error r nth = Some x -> is_leaf x = false -> length_ x <> 0 -> existsb is_leaf (firstn nth r) = false ->
  exists pre b t more, r = pre ++ flatten b t ++ more /\ length pre = nth /\ fine t.
Proof.
  intros r R. induction R as [|ty s l Ty R IH|b t l Ft R IH]; intros nth x N Lx Nz Ex.
  - destruct nth; discriminate.
  - destruct nth as [|nth]; cbn [nth_error firstn existsb] in *; [injection N as <-; elim Nz; reflexivity|]. apply orb_false_iff in Ex. destruct Ex as [_ Ex].
    destruct (IH _ _ N Lx Nz Ex) as (pre & b' & t' & more & E & L & F'). rewrite E. eexists (_ :: pre), b', t', more. cbn. rewrite L. auto.
  - apply (tree_find t Ft b l nth x); auto.
Qed.

Lemma last_leaf_end : forall fuel ns pre cs more i, Forall proper cs -> cs <> [] -> ns = pre ++ flat_children cs ++ more -> last_leaf_from fuel ns (length pre) = Done i ->
  S i = length pre + sizes cs.
Proof.
  induction fuel as [|fuel IH]; intros ns pre cs more i P Ne E H; [discriminate|]. destruct cs as [|c cs]; [contradiction|]. inversion P as [|x y Pc Pcs]; subst x y. cbn [last_leaf_from] in H.
  destruct cs as [|c2 cs].
  - cbn [flat_children] in E. rewrite app_nil_r in E. destruct c as [ty s l|ty s l ks].
    + inversion Pc; subst. cbn [flatten app] in H. rewrite nth_at in H. cbn [unwrap bind next_node_offset] in H. cbn [Nat.ltb Nat.leb] in H.
      unfold is_leaf in H. cbn [type_] in H. rewrite (proj2 (N.ltb_lt _ _)) in H by assumption. injection H as <-. rewrite sizes_cons. cbn. lia.
    + inversion Pc as [|ty1 s1 l1 ks1 Ty Nk Pk]; subst. rewrite flatten_node in H. cbn [app] in H. rewrite nth_at in H. cbn [unwrap bind next_node_offset] in H. cbn [Nat.ltb Nat.leb] in H.
      unfold is_leaf in H. cbn [type_] in H. rewrite node_no_leaf in H by assumption.
      set (h := mk_node 0 ty s l) in *. replace (S (length pre)) with (length (pre ++ [h])) in H by (rewrite app_length; cbn; lia).
      apply (IH _ (pre ++ [h]) ks more i Pk Nk) in H; [|rewrite <- app_assoc; reflexivity]. rewrite app_length in H. cbn [length] in H. rewrite H, sizes_cons. cbn [size]. unfold sizes at 2. cbn. unfold sizes. lia.
  - change (flat_children (c :: c2 :: cs)) with (flatten false c ++ flat_children (c2 :: cs)) in E. destruct (flatten_head false c) as (q & Q & _).
    assert (N : nth_error ns (length pre) = Some (mk_node (size c) (type_of c) (start_of c) (end_of c - start_of c))).
    { rewrite E, Q. cbn [app]. apply nth_at. }
    rewrite N in H. cbn [unwrap bind next_node_offset] in H. pose proof (size_pos c). replace (0 <? size c) with true in H by (symmetry; apply Nat.ltb_lt; lia).
    replace (length pre + size c) with (length (pre ++ flatten false c)) in H by (rewrite app_length, flatten_length; reflexivity).
    apply (IH _ (pre ++ flatten false c) (c2 :: cs) more i Pcs ltac:(discriminate)) in H; [|rewrite E, <- !app_assoc; reflexivity].
    rewrite app_length, flatten_length in H. rewrite sizes_cons. lia.
Qed.

Section Reuse.
  Variable g : grammar.
  Variable all : list token.
  Hypothesis Order : in_order 0 all.
  Hypothesis Tab : tables_ok g.
  Local Notation om := (may_be_omitted g).
  Local Notation desc := (desc g (all_starts all)).
  Local Notation frame_ok := (frame_ok (all_starts all)).
  Local Notation tk_ok := (tk_ok all).

  (** The pushes: the nodes of the array that they take, then the found one. *)
  Lemma reuse_pushes_step : forall init p base n rest f fs ns J y ys t ty0 s0 l0 cs index token_index k stk ns',
    desc base false (n :: rest) (f :: fs) -> Forall zero (f :: fs) -> index = length (under (f :: fs)) -> s_latest n = index -> s_recording n = true -> s_stale n = false ->
    ns = under (f :: fs) ++ J ++ y :: ys -> length J = length (filter (takes_node g) init) ->
    length (spans (under (f :: fs))) = base + token_index -> spans (under (f :: fs)) ++ leaves t = firstn k (all_spans all) ->
    pushes_ok g (om (s_state n)) (init ++ [p]) -> p_mode p = Own -> Forall (fun q => is_own (p_mode q) = false -> om (p_next q) = false) init ->
    t = Node ty0 s0 l0 cs -> fine t -> ys = flat_children cs -> (om (p_next p) = true -> y :: ys = flatten true t) ->
    reuse_pushes g (init ++ [p]) (n :: rest) ns index token_index s0 = Done (stk, ns') ->
    exists fs', desc base true stk fs' /\ ns' = content fs' /\ Forall zero fs' /\ spans ns' = spans (under (f :: fs)) ++ leaves t.
  Proof.
    induction init as [|p0 init IH]; intros p base n rest f fs ns J y ys t ty0 s0 l0 cs index token_index k stk ns' D Ze Ei La Re St En LJ Sq Sp Po Pm Al Et Ft Ey Om H.
    - cbn [app reuse_pushes] in H. rewrite Pm in H. destruct J as [|j J]; [|discriminate LJ]. cbn [app] in En. destruct Po as (Ty & _ & _).
      rewrite Et in Ft. inversion Ft as [|ty1 s1 l1 c cs1 Ty0 Fa Es El]. rewrite <- Et in Ft.
      assert (Sta : nth_error (all_starts all) (length (spans (under (f :: fs)))) = Some s0).
      { destruct (fine_first t Ft) as (l2 & r2 & E2). apply (start_at all (under (f :: fs)) (flatten true t) k s0 l2 r2).
        - rewrite spans_app, spans_flatten by (apply fine_proper; exact Ft). exact Sp.
        - rewrite spans_flatten by (apply fine_proper; exact Ft). rewrite E2, Et. reflexivity. }
      destruct (om (p_next p)) eqn:Op; cbn [bind] in H.
      + injection H as <- <-. set (fp := mk_frame None [t]). exists (fp :: f :: fs). refine (conj _ (conj _ (conj _ _))).
        * apply desc_base; auto; [| |exact (fun _ => eq_refl)].
          -- refine (conj _ (conj _ (conj _ _))); unfold fp; cbn [f_own f_cs]; try discriminate. constructor; auto.
          -- refine (conj Ty (conj _ (conj _ _))); cbn [s_state s_stale]; try discriminate. auto.
        * rewrite En. change (content (fp :: f :: fs)) with (under (f :: fs) ++ flatten true t ++ []). rewrite app_nil_r, Om by reflexivity. reflexivity.
        * constructor; [|exact Ze]. intros a b c0 E. discriminate E.
        * rewrite En, Om, spans_app, spans_flatten by (try reflexivity; apply fine_proper; exact Ft). reflexivity.
      + rewrite En, Ei, update_at in H. cbn [bind] in H. injection H as <- <-. set (fp := mk_frame (Some (p_type p, s0, 0)) cs). exists (fp :: f :: fs). refine (conj _ (conj _ (conj _ _))).
        * apply desc_base; auto; [| |exact (fun _ => eq_refl)].
          -- refine (conj _ (conj _ (conj _ _))); unfold fp; cbn [f_own f_cs]; try discriminate.
             ++ congruence.
             ++ intros a b c0 E. injection E as <- <- <-. refine (conj Ty (conj _ _)); [discriminate|]. intros _. exact Sta.
             ++ intros _ _ E. rewrite E in *. congruence.
          -- refine (conj Ty (conj _ (conj _ _))); cbn [s_state s_stale]; try discriminate.
        * change (content (fp :: f :: fs)) with (under (f :: fs) ++ own_nodes fp ++ flat_children cs). rewrite Ey. reflexivity.
        * constructor; [|exact Ze]. intros a b c0 E. injection E as _ _ <-. reflexivity.
        * rewrite spans_app. f_equal. unfold spans. cbn [filter]. unfold is_leaf at 1. cbn [type_]. rewrite node_no_leaf by exact Ty. fold (spans ys). rewrite Ey, Et. apply spans_children.
          assert (Fcs : Forall fine cs) by congruence. rewrite Forall_forall in *. intros x X. apply fine_proper. auto.
    - cbn [app reuse_pushes] in H. cbn [app] in Po. destruct Po as (Ty & Po & Pr). inversion Al as [|x1 y1 Al1 Al2]; subst x1 y1.
      assert (Ns : match init ++ [p] with [] => true | _ => false end = false) by (destruct init; reflexivity). rewrite Ns in H.
      assert (Sta : nth_error (all_starts all) (length (spans (under (f :: fs)))) = Some s0).
      { destruct (fine_first t Ft) as (l2 & r2 & E2). apply (start_at all (under (f :: fs)) (flatten true t) k s0 l2 r2).
        - rewrite spans_app, spans_flatten by (apply fine_proper; exact Ft). exact Sp.
        - rewrite spans_flatten by (apply fine_proper; exact Ft). rewrite E2, Et. reflexivity. }
      destruct (p_mode p0) as [|id] eqn:Pm0.
      + assert (Tn : takes_node g p0 = negb (om (p_next p0))) by (unfold takes_node; rewrite Pm0; reflexivity). cbn [filter] in LJ. rewrite Tn in LJ.
        set (f2 := mk_frame (if om (p_next p0) then None else Some (p_type p0, s0, 0)) []).
        assert (S2 : spans (under (f2 :: f :: fs)) = spans (under (f :: fs))).
        { change (under (f2 :: f :: fs)) with (under (f :: fs) ++ own_nodes f2 ++ []). rewrite app_nil_r, spans_app. unfold f2, own_nodes. cbn [f_own]. destruct (om (p_next p0)); [apply app_nil_r|].
          unfold spans at 2. cbn [filter]. unfold is_leaf. cbn [type_]. rewrite node_no_leaf by exact Ty. apply app_nil_r. }
        assert (H' : exists J', ns = under (f :: fs) ++ (if om (p_next p0) then [] else match J with j :: _ => [j] | [] => [] end) ++ J' ++ y :: ys /\ length J' = length (filter (takes_node g) init) /\
          reuse_pushes g (init ++ [p]) (mk_stack_node (p_type p0) index (length (under (f2 :: f :: fs))) (p_next p0) 1 LL true false :: n :: rest) (under (f2 :: f :: fs) ++ J' ++ y :: ys) (length (under (f2 :: f :: fs))) token_index s0 = Done (stk, ns')).
        { destruct (om (p_next p0)) eqn:Op; cbn [negb bind] in *.
          - exists J. refine (conj En (conj LJ _)). unfold f2. change (under (mk_frame None [] :: f :: fs)) with (under (f :: fs) ++ [] ++ []). rewrite !app_nil_r, <- Ei, <- En. exact H.
          - destruct J as [|j J]; [discriminate LJ|]. exists J. cbn [length] in LJ. refine (conj _ (conj _ _)); [rewrite En; reflexivity|injection LJ as LJ; exact LJ|].
            rewrite En, Ei in H. cbn [app] in H. rewrite update_at in H. cbn [bind] in H.
            unfold f2. change (under (mk_frame (Some (p_type p0, s0, 0)) [] :: f :: fs)) with (under (f :: fs) ++ [mk_node 0 (p_type p0) s0 0] ++ []). rewrite app_nil_r, app_length, Nat.add_1_r, <- app_assoc, Ei. exact H. }
        destruct H' as (J' & _ & LJ' & H').
        apply (IH p base _ (n :: rest) f2 (f :: fs) _ J' y ys t ty0 s0 l0 cs _ token_index k) in H'; auto.
        * rewrite S2 in H'. exact H'.
        * apply desc_base; auto; [| |exact (fun _ => eq_refl)].
          -- refine (conj _ (conj _ (conj _ _))); unfold f2; cbn [f_own f_cs]; try discriminate; [constructor|]. intros a b c0 E. destruct (om (p_next p0)); [discriminate|]. injection E as <- <- <-.
             refine (conj Ty (conj _ _)); [discriminate|]. intros _. exact Sta.
          -- refine (conj Ty (conj _ (conj _ _))); cbn [s_state s_stale s_latest s_count]; [|discriminate|].
             ++ unfold f2, kids. cbn [f_own f_cs length]. destruct (om (p_next p0)); [auto|discriminate].
             ++ intros _. split; [reflexivity|]. intros E. unfold f2. rewrite E. cbn [f_own]. split; [reflexivity|]. intros C. elim C. reflexivity.
        * constructor; [|exact Ze]. unfold zero, f2. cbn [f_own]. destruct (om (p_next p0)); [discriminate|]. intros a b c0 E. injection E as _ _ <-. reflexivity.
        * rewrite S2. exact Sq.
        * rewrite S2. exact Sp.
      + specialize (Al1 eq_refl). assert (Tn : takes_node g p0 = false) by (unfold takes_node; rewrite Pm0; reflexivity). cbn [filter] in LJ. rewrite Tn in LJ. destruct Po as [Po1 Po2].
        pose proof (desc_node _ _ _ _ _ _ _ _ D) as (N1 & N2 & N3 & N4).
        assert (Own : f_own f <> None) by (intros O; destruct (N2 O) as [X _]; congruence).
        pose proof (desc_frame _ _ _ _ _ _ D f fs eq_refl) as Fok.
        apply (IH p base _ (set_stale true n :: rest) f fs ns J y ys t ty0 s0 l0 cs _ token_index k) in H; auto.
        apply desc_virtual; auto; [apply (desc_stale g all base false n rest (f :: fs) D)| | |exact (fun _ => eq_refl)].
        * refine (conj Ty (conj _ (conj _ _))); cbn [s_state s_stale s_latest s_count].
          -- intros O. elim (Own O).
          -- intros _. exact Al1.
          -- intros _. split; [exact Ei|]. rewrite Al1. discriminate.
        * split; [cbn; congruence|]. cbn [s_mode]. unfold alt_ok. cbn [s_index s_state s_latest s_recording b_nodes set_stale]. refine (conj _ (conj _ (conj La (conj (le_n _) (conj eq_refl _))))); [right; auto| |congruence].
          exists (length (f_cs f)), true. cbn [b_nodes b_token b_children]. rewrite firstn_all. unfold kids. refine (conj _ (conj _ (conj _ (conj _ (conj _ _))))).
          -- lia.
          -- intros _. exact Own.
          -- discriminate.
          -- rewrite Ei. cbn [under]. rewrite !app_length, flat_init_length, own_length. destruct (f_own f); [lia|contradiction].
          -- rewrite <- Sq. cbn [under]. rewrite !spans_app, (own_no_spans _ _ _ _ Fok), spans_init; [rewrite app_length; reflexivity|]. destruct Fok as [Fi _]. rewrite Forall_forall in *. intros x X. apply fine_proper. auto.
          -- congruence.
  Qed.

  Lemma reuse_step : forall base k pos fr above node rest fs0 b id first valid pushes needed nth leaf ns t l o st',
    desc base true (above ++ node :: rest) fs0 -> ns = content fs0 -> has_point node b id -> Forall zero fs0 ->
    spans ns = firstn k (all_spans all) -> k <= pos -> k <= length all -> tk_ok base pos fr t -> reusable (alternatives g id) = Some (pushes, needed) ->
    find_matching_node (skipn (b_nodes b) ns) (p_type (last pushes (mk_push 0 0 Own))) = Done (Some nth) -> last_leaf_if_proper_nonterminal ns (b_nodes b + nth) = Done (Some leaf) ->
    reuse g (mk_state (node :: rest) ns t l o) b id (LastAlt b id first valid) pushes needed nth leaf = Done st' -> odd st' = false ->
    exists pos', good g all base pos' (stack st') (nodes st') /\ tk_ok base pos' false (tk st') /\ tk_recording token (tk st') = true /\ lost st' = false /\ o = false /\ pos' <= length all.
  Proof.
    intros base k pos fr above node rest fs0 b id first valid pushes needed nth leaf ns t l o st' D En Hp Ze Sp K K' Tk Ru Fm Ll H Od.
    pose proof Sp as Sp0. rewrite En in Sp0.
    destruct (at_point g all _ _ _ _ _ _ _ _ D Hp Ze Sp0) as (top & m & sub & f & fs & n0 & mat & -> & Dm & Stm & No & Omm & Rec & A & L & P2 & P3 & P4 & P5 & P6 & Zb & (z & Ez & Rz) & Fi & Bl & Sb & Q).
    pose proof A as (A1 & _ & A2 & A3 & A4 & A5).
    pose proof (alternatives_ok g Tab id) as (_ & _ & _ & _ & _ & _ & _ & Rok). destruct (Rok _ _ Ru) as (init & p & Ep & Pm & Nd & Po & Al). clear Rok.
    set (U := under (back f n0 mat :: fs)) in *. rewrite <- En in Ez, Fi.
    assert (Sk : skipn (b_nodes b) ns = z) by (rewrite Ez, <- Bl, skipn_app, skipn_all, Nat.sub_diag; reflexivity).
    rewrite Sk in Fm. rewrite Ep, last_last in Fm. unfold find_matching_node in Fm. destruct z as [|z0 z1]; [discriminate|]. assert (Fm' : find_from (z0 :: z1) (p_type p) (start_index z0) 0 = Some nth) by congruence. clear Fm. rename Fm' into Fm. set (z := z0 :: z1) in *.
    destruct (find_from_some _ _ _ _ _ Fm) as (k0 & x & Ek & Nx & Tx). cbn in Ek. subst k0.
    assert (Nn : nth_error ns (b_nodes b + nth) = Some x) by (rewrite Ez, nth_error_app2 by lia; rewrite Bl; replace (b_nodes b + nth - b_nodes b) with nth by lia; exact Nx).
    unfold last_leaf_if_proper_nonterminal in Ll. rewrite Nn in Ll. cbn [unwrap bind] in Ll. destruct (length_ x =? 0) eqn:Lx; [discriminate|]. apply Nat.eqb_neq in Lx.
    destruct (last_leaf_from (S (length ns)) ns (S (b_nodes b + nth))) as [i| |] eqn:Lf; cbn [bind] in Ll; try discriminate. injection Ll as ->.
    unfold reuse in H. cbn [stack nodes tk odd] in H. rewrite Nn in H. cbn [unwrap bind] in H.
    destruct (nth_error ns leaf) as [lf|] eqn:Nl; cbn [unwrap bind] in H; [|discriminate].
    destruct (tk_recording token t) eqn:Re; cbn [assert bind] in H; [|discriminate]. destruct (length_ lf =? 0) eqn:Zl; cbn [negb assert bind] in H; [discriminate|]. apply Nat.eqb_neq in Zl.
    destruct (reset_to_last_leaf token t_start t_len t (start_index lf) (length_ lf)) as [t'|] eqn:Rt; cbn [unwrap bind] in H; [|discriminate].
    match type of H with bind ?e _ = _ => destruct e as [[stk ns']| |] eqn:Rp; cbn [bind fst snd] in H; try discriminate end.
    injection H as <-. cbn [stack nodes tk lost odd] in *. rewrite Ep, last_last in Od. apply orb_false_iff in Od. destruct Od as [Odo Od]. rewrite !orb_false_iff in Od. destruct Od as (((O1 & O2) & O3) & O4).
    apply negb_false_iff, Nat.eqb_eq in O1. rewrite A5 in O2. rewrite Sk in O3.
    assert (Typ : (32768 <= p_type p)%N).
    { rewrite Ep in Po. clear - Po. revert Po. generalize (om (pl_next (fallback (alternatives g id)))). induction init as [|q init IH]; intros o0 Po; cbn [app pushes_ok] in Po; [tauto|]. destruct Po as (_ & _ & Po). apply (IH _ Po). }
    assert (Xl : is_leaf x = false) by (unfold is_leaf; rewrite Tx; apply node_no_leaf, Typ).
    destruct (row_find z Rz nth x Nx Xl Lx O3) as (pre & b' & tr & more & Ezz & Lpre & Ft).
    destruct (flatten_head b' tr) as (ys & Qf & _). set (h := mk_node (if b' then 0 else size tr) (type_of tr) (start_of tr) (end_of tr - start_of tr)) in *.
    assert (Ex : x = h). { rewrite Ezz, Qf in Nx. rewrite <- Lpre in Nx. cbn [app] in Nx. rewrite nth_at in Nx. congruence. }
    assert (Nd' : exists ty0 s0 l0 cs, tr = Node ty0 s0 l0 cs).
    { destruct tr as [ty0 s0 l0|ty0 s0 l0 cs]; [|eauto]. exfalso. inversion Ft; subst. unfold is_leaf, h in Xl. cbn [type_ type_of] in Xl. rewrite (proj2 (N.ltb_lt _ _)) in Xl by assumption. discriminate. }
    destruct Nd' as (ty0 & s0 & l0 & cs & Etr).
    assert (Eys : ys = flat_children cs) by (rewrite Etr in Qf; rewrite flatten_node in Qf; injection Qf; auto).
    assert (Pcs : Forall fine cs /\ cs <> []) by (rewrite Etr in Ft; inversion Ft; subst; split; [assumption|discriminate]). destruct Pcs as [Pcs Ncs].
    assert (Ppcs : Forall proper cs) by (rewrite Forall_forall in *; intros y Y; apply fine_proper; auto).
    assert (Szt : size tr = S (sizes cs)) by (rewrite Etr; reflexivity).
    assert (Ens : ns = U ++ pre ++ h :: flat_children cs ++ more) by (rewrite Ez, Ezz, Qf, Eys; reflexivity).
    assert (Li : S leaf = b_nodes b + nth + size tr).
    { assert (Lf' : last_leaf_from (S (length ns)) ns (length (U ++ pre ++ [h])) = Done leaf) by (rewrite !app_length, Bl, Lpre; cbn [length]; replace (b_nodes b + (nth + 1)) with (S (b_nodes b + nth)) by lia; exact Lf).
      apply (last_leaf_end _ ns (U ++ pre ++ [h]) cs more leaf Ppcs Ncs) in Lf'; [|rewrite Ens, <- !app_assoc; reflexivity]. rewrite !app_length, Bl, Lpre in Lf'. cbn [length] in Lf'. lia. }
    assert (Cut : firstn (S leaf) ns = U ++ pre ++ flatten b' tr).
    { rewrite Ez, Ezz. rewrite Li. replace (b_nodes b + nth + size tr) with (length (U ++ pre ++ flatten b' tr)) by (rewrite !app_length, flatten_length; lia).
      rewrite !app_assoc. rewrite firstn_app, Nat.sub_diag, firstn_all. cbn [firstn]. apply app_nil_r. }
    rewrite Cut in Rp.
    assert (Spre : spans pre = []).
    { rewrite Ezz in O3. rewrite <- Lpre in O3. rewrite firstn_app, Nat.sub_diag, firstn_all in O3. cbn [firstn] in O3. rewrite app_nil_r in O3. clear - O3. unfold spans.
      induction pre as [|a pre IH]; [reflexivity|]. cbn [existsb filter] in *. apply orb_false_iff in O3. destruct O3 as [E O3]. rewrite E. apply IH. exact O3. }
    assert (Lsb : length (spans U) = base + b_token b).
    { rewrite Sb, firstn_length. unfold all_spans. rewrite map_length. lia. }
    set (kk := base + b_token b + length (leaves tr)).
    assert (Spt : spans U ++ leaves tr = firstn kk (all_spans all)).
    { pose proof Sp as Sp1. rewrite Ez, Ezz in Sp1. rewrite !spans_app, Spre, spans_flatten in Sp1 by (apply fine_proper; exact Ft). cbn [app] in Sp1. rewrite app_assoc in Sp1.
      assert (E : firstn (length (spans U ++ leaves tr)) ((spans U ++ leaves tr) ++ spans more) = spans U ++ leaves tr) by (rewrite firstn_app, Nat.sub_diag, firstn_all; cbn [firstn]; apply app_nil_r).
      rewrite <- E, Sp1, firstn_firstn. apply (f_equal (@length _)) in Sp1. rewrite app_length, firstn_length in Sp1.
      rewrite app_length, Lsb in *. fold kk in Sp1. fold kk. f_equal. lia. }
    assert (Kk : kk <= k).
    { pose proof Sp as Sp1. rewrite Ez, Ezz in Sp1. rewrite !spans_app, Spre, spans_flatten in Sp1 by (apply fine_proper; exact Ft). apply (f_equal (@length _)) in Sp1. rewrite !app_length, firstn_length, Lsb in Sp1. cbn [length] in Sp1. unfold kk. lia. }
    (* The token of the last leaf. *)
    destruct (fine_last tr Ft) as (sl & ll & rl & Elv & Esl).
    assert (Lfs : start_index lf = sl /\ length_ lf = ll /\ is_leaf lf = true).
    { assert (Fo : nth_error (flatten b' tr) (size tr - 1) = Some lf).
      { pose proof (size_pos tr). rewrite <- (nth_firstn ns (S leaf) leaf ltac:(lia)), Cut in Nl. rewrite app_assoc, nth_error_app2 in Nl; rewrite app_length in *; [|lia]. replace (leaf - (length U + length pre)) with (size tr - 1) in Nl by lia. exact Nl. }
      pose proof (last_is_leaf tr (fine_proper _ Ft) b' lf Fo) as E2.
      destruct (exists_last (flatten_nonempty b' tr)) as (i1 & y1 & E1).
      assert (Ey : y1 = lf).
      { pose proof (flatten_length tr b') as Le. rewrite E1, app_length in Le. cbn in Le. rewrite E1 in Fo. replace (size tr - 1) with (length i1) in Fo by lia. rewrite nth_at in Fo. congruence. }
      subst y1.
      assert (Sf : spans (flatten b' tr) = spans i1 ++ [(start_index lf, length_ lf)]) by (rewrite E1, spans_app; unfold spans at 2; cbn [filter]; rewrite E2; reflexivity).
      rewrite spans_flatten in Sf by (apply fine_proper; exact Ft). rewrite Elv in Sf. apply app_inj_tail in Sf. destruct Sf as [_ Sf]. injection Sf as -> ->. auto. }
    destruct Lfs as (Ls1 & Ls2 & _).
    assert (Ntl : exists tk0, nth_error all (kk - 1) = Some tk0 /\ t_start tk0 = sl /\ t_len tk0 = ll).
    { assert (Nk : nth_error (firstn kk (all_spans all)) (kk - 1) = Some (sl, ll)).
      { rewrite <- Spt, Elv, app_assoc. replace (kk - 1) with (length (spans U ++ rl)); [apply nth_at|]. unfold kk. rewrite Elv, !app_length, Lsb. cbn. lia. }
      rewrite nth_firstn in Nk by (unfold kk; rewrite Elv, app_length; cbn; lia). unfold all_spans in Nk. rewrite nth_error_map in Nk. destruct (nth_error all (kk - 1)) as [tk0|]; [|discriminate]. exists tk0. cbn in Nk. unfold token_span in Nk. injection Nk as <- <-. auto. }
    destruct Ntl as (tk0 & Nt0 & T1 & T2).
    assert (Tk' : tk_ok base kk false t' /\ tk_recording token t' = true).
    { assert (0 < length (leaves tr)) by (rewrite Elv, app_length; cbn; lia).
      replace kk with (S (kk - 1)) by (unfold kk; lia). apply (tk_leaf all Order base pos fr t (kk - 1) tk0 t' Tk Re); [unfold kk; lia|unfold kk in *; lia|exact Nt0|congruence|].
      rewrite T1, T2, <- Ls1, <- Ls2. exact Rt. }
    (* The array before the pushes. *)
    set (tos := set_stale false (set_state (pl_next (fallback (alternatives g id))) (set_mode (LastAlt b id first valid) node))) in *.
    assert (Ex0 : start_index x = s0) by (rewrite Ex; unfold h; cbn [start_index]; rewrite Etr; reflexivity). rewrite Ex0 in Rp.
    assert (Arr : exists J, length J = needed /\ firstn (b_nodes b) (U ++ pre ++ flatten b' tr) ++ repeat (mk_node 0 0 s0 0) (needed - nth) ++ skipn (b_nodes b + (nth - needed)) (U ++ pre ++ flatten b' tr) = U ++ J ++ h :: ys).
    { exists (repeat (mk_node 0 0 s0 0) (needed - nth) ++ skipn (nth - needed) pre). split; [rewrite app_length, repeat_length, skipn_length; lia|].
      rewrite <- Bl at 1. rewrite firstn_app, Nat.sub_diag, firstn_all. cbn [firstn]. rewrite app_nil_r. f_equal. rewrite <- app_assoc. f_equal.
      rewrite skipn_app. rewrite skipn_all2 by lia. cbn [app]. rewrite Bl. replace (b_nodes b + (nth - needed) - b_nodes b) with (nth - needed) by lia. rewrite skipn_app. rewrite Qf.
      replace (nth - needed - length pre) with 0 by lia. reflexivity. }
    destruct Arr as (J & LJ & Arr). rewrite Arr in Rp. clear Arr. rewrite Ep in Rp.
    assert (Lim : forall m' st', m :: sub = m' :: st' -> s_stale m' = true /\ limited (length (under fs) + (if mat then 1 else 0) + sizes (firstn n0 (f_cs f))) m' /\ (mat = false -> om (s_state m') = true)).
    { intros m' st0 E. injection E as <- <-. refine (conj Stm (conj _ _)).
      - apply (limited_beneath _ _ _ _ _ _ _ _ Dm). lia.
      - intros E. rewrite Omm. apply P3. exact E. }
    assert (Dt : desc base false (tos :: m :: sub) (back f n0 mat :: fs)).
    { apply desc_virtual.
      - apply (shrink g _ base top (m :: sub) f fs n0 mat Dm Lim L P2). intros E. apply P3. exact E.
      - exact Stm.
      - destruct No as (N1 & N2 & N3 & N4). refine (conj N1 (conj _ (conj _ _))); cbn [s_state tos set_state s_stale set_stale s_latest s_count set_mode].
        + rewrite A5. unfold back at 1. cbn [f_own]. destruct mat; [intros E; elim (P2 eq_refl E)|]. intros _. destruct (P3 eq_refl) as [-> Oo]. split; [exact Oo|reflexivity].
        + rewrite A5. exact N3.
        + intros _. split; [unfold latest_ok; cbn [s_latest tos set_stale set_state set_mode]; fold U; lia|]. rewrite A5. intros Oo. specialize (P6 Oo). rewrite Oo in O2. cbn [andb] in O2. apply negb_false_iff, Nat.eqb_eq in O2. rewrite O2. unfold back. cbn [f_own]. destruct mat.
          * split; [intros E; elim (P2 eq_refl E)|]. intros _. destruct (b_children b); [destruct P6 as [P6 _]; discriminate (P6 eq_refl)|lia].
          * destruct P6 as [_ P6]. rewrite (P6 eq_refl). split; [reflexivity|]. intros E. elim E. reflexivity.
      - split; cbn [s_state tos set_state s_stale set_stale s_latest s_count set_mode s_mode]; [rewrite A5; exact Omm|].
        unfold alt_ok. cbn [s_state tos set_state s_stale set_stale s_latest s_count set_mode s_mode s_index s_recording]. rewrite A5.
        refine (conj A1 (conj _ (conj A2 (conj A3 (conj A4 eq_refl))))).
        exists n0, mat. unfold kids, back. cbn [f_cs f_own]. rewrite firstn_firstn, Nat.min_id, firstn_length_le by exact L. refine (conj _ (conj _ (conj P3 (conj P4 (conj P5 P6))))); [lia|].
        intros ->. auto.
      - exact Rec. }
    eapply (reuse_pushes_step init p base tos (m :: sub) (back f n0 mat) fs _ J h ys tr ty0 s0 l0 cs (b_nodes b) (b_token b) kk) in Rp; auto.
    - destruct Rp as (fs' & R1 & R2 & R3 & R4). exists kk. refine (conj _ (conj (proj1 Tk') (conj (proj2 Tk') (conj eq_refl (conj Odo _))))); [|lia].
      exists fs'. refine (conj R1 (conj R2 (conj _ _))).
      + unfold calm. destruct stk as [|n1 stk]; [exact Logic.I|]. destruct fs' as [|f1 fs']; [exact Logic.I|]. inversion R3 as [|x1 y1 Z1 Z2]. split; [intros _; exact Z1|exact Z2].
      + rewrite R4. fold U. exact Spt.
    - congruence.
    - cbn [tos set_stale s_state set_state]. rewrite <- Ep. exact Po.
    - intros Oo. assert (O5 : om (p_next p) && negb (next_node_offset x =? 0) = false) by (destruct p; exact O4). clear O4. rename O5 into O4. rewrite Oo in O4. cbn [andb] in O4. apply negb_false_iff, Nat.eqb_eq in O4. rewrite Ex in O4. unfold h in O4. cbn [next_node_offset] in O4. destruct b'; [rewrite <- Qf; reflexivity|]. pose proof (size_pos tr). lia.
  Qed.
End Reuse.
