(** The parser: the invariant along the whole run. *)
From Coq Require Import List Arith NArith Bool Lia.
From Verif Require Import TreeModel TreeSpec TreeProofs BacktrackModel ParserModel ParserSpec ParserTree ParserInv ParserPop ParserTok ParserPlan ParserReuse.
Import ListNotations.

(** Once something odd happened it stays known. *)
Section Odd.
  Variable g : grammar.
  Definition stays (st st' : state) : Prop := odd st' = false -> odd st = false.

  Lemma apply_plan_stays : forall st p tok st', apply_plan g st p tok = Done st' -> stays st st'.
  Proof.
    intros st p tok st' H Od. unfold apply_plan in H. destruct (stack st) as [|tos rest]; [discriminate|]. destruct (negative g (pl_next p)); [injection H as <-; exact Od|].
    match type of H with bind ?e _ = _ => destruct e as [[[tos1 ns1] odd1]| |]; cbn [bind] in H; try discriminate end.
    destruct (calculate_previous_next_node _ _) as [a b]. destruct (apply_pushes _ _ _ _ _ _ _ _) as [[[a1 a2] a3] a4]. injection H as <-. cbn [odd] in Od. rewrite !orb_false_iff in Od. tauto.
  Qed.
  Lemma apply_plan_stack : forall st p tok st', apply_plan g st p tok = Done st' -> stack st' <> [].
  Proof.
    intros st p tok st' H. unfold apply_plan in H. destruct (stack st) as [|tos rest]; [discriminate|]. destruct (negative g (pl_next p)); [injection H as <-; discriminate|].
    match type of H with bind ?e _ = _ => destruct e as [[[tos1 ns1] odd1]| |]; cbn [bind] in H; try discriminate end.
    destruct (calculate_previous_next_node _ _) as [a b]. destruct (apply_pushes _ _ _ _ _ _ _ _) as [[[a1 a2] a3] a4]. injection H as <-. discriminate.
  Qed.

  Lemma end_of_node_stays : forall st st', end_of_node g st = Done st' -> odd st' = odd st /\ lost st' = lost st.
  Proof.
    intros st st' H. unfold end_of_node in H. destruct (stack st) as [|tos rest]; [discriminate|]. destruct (s_mode tos).
    - destruct (assert _); cbn [bind] in H; try discriminate. destruct (update_tree_node_position _ _); cbn [bind] in H; try discriminate. injection H as <-. auto.
    - destruct rest as [|n rest]; [discriminate|]. destruct (assert _); cbn [bind] in H; try discriminate. injection H as <-. auto.
    - destruct rest as [|n rest]; [discriminate|]. destruct (assert _); cbn [bind] in H; try discriminate. injection H as <-. auto.
  Qed.

  Lemma reset_stays : forall st b st' tok, reset st b = Done (st', tok) -> odd st' = odd st.
  Proof.
    intros st b st' tok H. unfold reset in H. destruct (stack st) as [|tos rest]; [discriminate|]. destruct (BacktrackModel.next _ _) as [[x|] t]; [|discriminate]. injection H as <- <-. reflexivity.
  Qed.

  Lemma reuse_stays : forall st b id m ps nd nth leaf st', reuse g st b id m ps nd nth leaf = Done st' -> stays st st'.
  Proof.
    intros st b id m ps nd nth leaf st' H Od. unfold reuse in H. destruct (stack st) as [|tos rest]; [discriminate|].
    destruct (nth_error (nodes st) (b_nodes b + nth)); cbn [unwrap bind] in H; [|discriminate]. destruct (nth_error (nodes st) leaf); cbn [unwrap bind] in H; [|discriminate].
    destruct (assert _); cbn [bind] in H; try discriminate. destruct (assert _); cbn [bind] in H; try discriminate. destruct (reset_to_last_leaf _ _ _ _ _ _); cbn [unwrap bind] in H; [|discriminate].
    destruct (reuse_pushes _ _ _ _ _ _ _) as [[q1 q2]| |]; cbn [bind] in H; try discriminate. injection H as <-. cbn [odd] in Od. apply orb_false_iff in Od. tauto.
  Qed.

  Lemma recover_stays : forall suffix st above again st', (forall s s', again s = Done s' -> stays s s') -> recover g st above suffix again = Done st' -> stays st st'.
  Proof.
    induction suffix as [|node rest IH]; intros st above again st' Ag H Od; cbn [recover] in H; [discriminate|].
    assert (Co : (if does_error_recovery g (s_type node)
                  then r <- pop_all_failed g (above ++ [node]) (nodes st) ;; again (mk_state rest (fst r) (tk st) (lost st) (odd st || snd r || lost st))
                  else recover g st (above ++ [node]) rest again) = Done st' -> odd st = false).
    { intros C. destruct (does_error_recovery g (s_type node)).
      - destruct (pop_all_failed g _ _) as [[a b]| |]; cbn [bind] in C; try discriminate. apply Ag in C. specialize (C Od). cbn [odd] in C. rewrite !orb_false_iff in C. tauto.
      - apply (IH _ _ _ _ Ag C Od). }
    destruct (s_mode node) as [|b id|b id first valid]; [auto| |].
    - destruct (nodes st) as [|n0 ns0] eqn:En; cbn [bind] in H; [discriminate|]. rewrite <- En in *.
      assert (Fb : forall m, (r <- reset (mk_state (node :: rest) (nodes st) (tk st) (lost st) (odd st)) b ;;
        let (st0, tok) := (r : state * token) in
        match stack st0 with
        | [] => Panic
        | tos :: rest0 => apply_plan g (mk_state (set_stale false (set_mode m tos) :: rest0) (nodes st0) (tk st0) (lost st0) (odd st0)) (fallback (alternatives g id)) tok
        end) = Done st' -> odd st = false).
      { intros m F. destruct (reset _ b) as [[st0 tok]| |] eqn:R; cbn [bind] in F; try discriminate. apply reset_stays in R. cbn [odd] in R. rewrite <- R. destruct (stack st0); [discriminate|]. apply apply_plan_stays in F. apply (F Od). }
      destruct (reusable (alternatives g id)) as [[ps nd]|]; [|apply (Fb _ H)].
      destruct (assert _); cbn [bind] in H; try discriminate. destruct (find_matching_node _ _) as [[nth|]| |]; cbn [bind] in H; try discriminate; [|apply (Fb _ H)].
      destruct (last_leaf_if_proper_nonterminal _ _) as [[leaf|]| |]; cbn [bind] in H; try discriminate; [|apply (IH _ _ _ _ Ag H Od)].
      apply reuse_stays in H. apply (H Od).
    - destruct (nodes st) as [|n0 ns0] eqn:En; cbn [bind] in H; [discriminate|]. rewrite <- En in *. destruct (_ || _) in H; [|auto].
      destruct (reset _ b) as [[st0 tok]| |] eqn:R; cbn [bind] in H; try discriminate. apply reset_stays in R. cbn [odd] in R. destruct (stack st0) as [|x [|n r]]; try discriminate.
      destruct (apply_plan g _ _ _) as [st1| |] eqn:A; cbn [bind] in H; try discriminate. apply apply_plan_stays in A. destruct (stack st1) as [|tos r1]; [discriminate|].
      assert (Od1 : odd st1 = false) by (injection H as <-; destruct (s_recording tos); exact Od). specialize (A Od1). cbn [odd] in A. apply orb_false_iff in A. destruct A as [A _]. congruence.
  Qed.

  Lemma error_recovery_stays : forall st tok again st', (forall s s', again s = Done s' -> stays s s') -> error_recovery g st tok again = Done st' -> stays st st'.
  Proof.
    intros st tok again st' Ag H Od. unfold error_recovery in H. destruct (stack st) as [|tos rest] eqn:E; [discriminate|].
    assert (R : recover g (mk_state (tos :: rest) (nodes st) (tk st) (lost st) (odd st || s_stale tos)) [] (tos :: rest) again = Done st' -> odd st = false).
    { intros R. apply recover_stays in R; [|exact Ag]. specialize (R Od). cbn [odd] in R. apply orb_false_iff in R. tauto. }
    destruct (towards_error g (s_state tos)) as [nt|]; [|auto]. destruct tok as [tok|]; [|auto]. destruct (calculate_previous_next_node _ _) as [a b]. injection H as <-. cbn [odd] in Od. apply orb_false_iff in Od. tauto.
  Qed.

  Lemma apply_transition_stays : forall fuel st tok st', apply_transition g fuel st tok = Done st' -> stays st st'.
  Proof.
    induction fuel as [|fuel IH]; intros st tok st' H Od; cbn [apply_transition] in H; [discriminate|]. destruct (stack st) as [|tos rest]; [discriminate|].
    destruct (lookup g (s_state tos) (t_type tok)) as [p|].
    - assert (A : apply_plan g st p tok = Done st' -> odd st = false) by (intros A; apply apply_plan_stays in A; apply (A Od)).
      destruct (pl_mode p); auto. apply IH in H. apply (H Od).
    - destruct (is_final g (s_state tos)).
      + destruct (end_of_node g st) as [st1| |] eqn:E; cbn [bind] in H; try discriminate. apply IH in H. apply end_of_node_stays in E. destruct E as [E _]. rewrite <- E. apply (H Od).
      + apply error_recovery_stays in H; [apply (H Od)|]. intros s s' A. apply IH in A. exact A.
  Qed.

  Lemma parse_loop_stays : forall fuel st st', parse_loop g fuel st = Done st' -> stays st st'.
  Proof.
    induction fuel as [|fuel IH]; intros st st' H Od; cbn [parse_loop] in H; [discriminate|]. destruct (BacktrackModel.next token (tk st)) as [[tok|] t].
    - destruct (apply_transition g fuel _ tok) as [st1| |] eqn:A; cbn [bind] in H; try discriminate. apply IH in H. apply apply_transition_stays in A. apply (A (H Od)).
    - cbn [stack] in H. destruct (stack st) as [|tos rest]; [discriminate|].
      match type of H with bind ?e _ = _ => destruct e as [st1| |] eqn:E; cbn [bind] in H; try discriminate end.
      assert (Od1 : odd st1 = false) by (destruct (stack st1); [injection H as <-; exact Od|apply IH in H; apply (H Od)]).
      destruct (is_final g (s_state tos)); [apply end_of_node_stays in E; destruct E as [E _]; cbn [odd] in E; congruence|].
      apply error_recovery_stays in E; [apply (E Od1)|]. intros s s' Q. injection Q as ->. intros X. exact X.
  Qed.
End Odd.

Section Parse.
  Variable g : grammar.
  Variable all : list token.
  Hypothesis Order : in_order 0 all.
  Hypothesis Types : Forall (fun t => (t_type t < 32768)%N) all.
  Hypothesis Tab : tables_ok g.
  Local Notation om := (may_be_omitted g).
  Local Notation desc := (desc g (all_starts all)).
  Local Notation frame_ok := (frame_ok (all_starts all)).
  Local Notation tk_ok := (tk_ok all).
  Local Notation shape := (shape g all).

  (** [k]: the leaves; [pos]: the tokens that were read; [cur]: how many of them have to be leaves. *)
  Definition holds (base k pos : nat) (fr : bool) (cur : nat) (st : state) : Prop :=
    shape base (stack st) (nodes st) /\ spans (nodes st) = firstn k (all_spans all) /\ k <= length all /\ tk_ok base pos fr (tk st) /\
    (marked (stack st) = true -> tk_recording token (tk st) = true) /\ k <= cur /\ (lost st = false -> k = cur) /\
    (lost st = true -> match stack st with tos :: _ => negative g (s_state tos) = true | [] => False end).
  Definition idle (st : state) : Prop := exists base k pos fr, holds base k pos fr pos st.

  Lemma tk_pos : forall base pos fr t, tk_ok base pos fr t -> pos <= length all.
  Proof. intros base pos fr t (high & _ & L & Lp & _). lia. Qed.

  Lemma after_idle : forall base pos st, after g all base pos (stack st) (nodes st) (tk st) -> lost st = false -> idle st.
  Proof.
    intros base pos st ((fs & D & En & Ca & Sp) & Tk & Ma) Lo. exists base, pos, pos, true. pose proof (tk_pos _ _ _ _ Tk).
    refine (conj _ (conj Sp (conj H (conj Tk (conj Ma (conj (le_n _) (conj (fun _ => eq_refl) _))))))).
    - unfold ParserPop.shape. destruct (stack st); [|exists fs; auto]. inversion D; subst. rewrite En. intros X. elim X. reflexivity.
    - congruence.
  Qed.

  Lemma set_state_desc : forall base top n st fs s, desc base top (n :: st) fs -> om s = om (s_state n) -> desc base top (set_state s n :: st) fs.
  Proof.
    intros base top n st fs s D E. inversion D as [|t1 n1 f2 s1 fs1 D1 F1 No1 M1 I1 R1|t1 n1 m1 f2 s1 fs1 D1 S1 No1 Vi1 R1]; subst.
    - apply desc_base; auto. unfold node_ok in *. cbn [s_type s_state set_state s_stale s_count s_latest]. rewrite E. exact No1.
    - apply desc_virtual; auto.
      + unfold node_ok in *. cbn [s_type s_state set_state s_stale s_count s_latest]. rewrite E. exact No1.
      + unfold virtual_ok, alt_ok in *. cbn [s_type s_state set_state s_stale s_count s_latest s_mode s_index s_recording]. rewrite E. exact Vi1.
  Qed.

  Lemma pop_all : forall popped rest base k ns ns', shape base (popped ++ rest) ns -> spans ns = firstn k (all_spans all) ->
    pop_all_failed g popped ns = Done (ns', false) -> shape base rest ns' /\ spans ns' = firstn k (all_spans all).
  Proof.
    induction popped as [|s popped IH]; intros rest base k ns ns' Sh Sp H; cbn [pop_all_failed] in H.
    - injection H as <-. auto.
    - destruct (pop_failed g ns s) as [[ns1 o1]| |] eqn:P; cbn [bind fst snd] in H; try discriminate. destruct (pop_all_failed g popped ns1) as [[ns2 o2]| |] eqn:Q; cbn [bind fst snd] in H; try discriminate.
      injection H as <- O. apply orb_false_iff in O. destruct O as [-> ->]. cbn [app ParserPop.shape] in Sh. destruct Sh as (fs & D & -> & Ca).
      destruct (failed_pop g all base _ _ _ _ _ D Ca Sp P) as [Sh' Sp']. apply (IH rest base k ns1 ns2 Sh' Sp' Q).
  Qed.

  Lemma marked_suffix : forall a b, marked b = true -> marked (a ++ b) = true.
  Proof. intros a b H. unfold marked in *. rewrite existsb_app, H. apply orb_true_r. Qed.

  Lemma good_stack : forall base k st ns, good g all base k st ns -> shape base st ns /\ spans ns = firstn k (all_spans all).
  Proof.
    intros base k st ns (fs & D & En & Ca & Sp). split; [|exact Sp]. unfold ParserPop.shape. destruct st; [|exists fs; auto]. inversion D; subst. intros X. elim X. reflexivity.
  Qed.

  Lemma reuse_pushes_stack : forall ps rest ns i ti s stk ns', reuse_pushes g ps rest ns i ti s = Done (stk, ns') -> rest <> [] -> stk <> [].
  Proof.
    induction ps as [|p ps IH]; intros rest ns i ti s stk ns' H Ne; cbn [reuse_pushes] in H; [injection H as <- _; exact Ne|]. destruct (p_mode p).
    - match type of H with bind ?e _ = _ => destruct e as [[a b]| |]; cbn [bind] in H; try discriminate end. apply IH in H; [exact H|discriminate].
    - apply IH in H; [exact H|discriminate].
  Qed.
  Lemma reuse_stack : forall st b id m ps nd nth leaf st', reuse g st b id m ps nd nth leaf = Done st' -> stack st' <> [].
  Proof.
    intros st b id m ps nd nth leaf st' H. unfold reuse in H. destruct (stack st) as [|tos rest]; [discriminate|].
    destruct (nth_error (nodes st) (b_nodes b + nth)); cbn [unwrap bind] in H; [|discriminate]. destruct (nth_error (nodes st) leaf); cbn [unwrap bind] in H; [|discriminate].
    destruct (assert _); cbn [bind] in H; try discriminate. destruct (assert _); cbn [bind] in H; try discriminate. destruct (reset_to_last_leaf _ _ _ _ _ _); cbn [unwrap bind] in H; [|discriminate].
    destruct (reuse_pushes _ _ _ _ _ _ _) as [[q1 q2]| |] eqn:R; cbn [bind] in H; try discriminate. injection H as <-. cbn [stack fst]. apply reuse_pushes_stack in R; [exact R|discriminate].
  Qed.

  (** The loop over the stack: either the parser is at an earlier place, or nodes are popped and it goes on. *)
  Lemma recover_holds : forall suffix above base k pos fr cur st again st' fs, stack st = above ++ suffix -> desc base true (above ++ suffix) fs -> nodes st = content fs -> Forall zero fs ->
    spans (nodes st) = firstn k (all_spans all) -> k <= length all -> tk_ok base pos fr (tk st) -> (marked (stack st) = true -> tk_recording token (tk st) = true) ->
    k <= cur -> cur <= pos -> (lost st = false -> k = cur) -> (forall s s', again s = Done s' -> stays s s') ->
    recover g st above suffix again = Done st' -> odd st' = false ->
    (idle st' /\ stack st' <> []) \/ exists st1, again st1 = Done st' /\ holds base k pos fr cur st1 /\ tk st1 = tk st /\ lost st1 = false.
  Proof.
    induction suffix as [|node rest IH]; intros above base k pos fr cur st again st' fs Es D En Ze Sp K Tk Ma Kc Kp Lo Ag H Od; cbn [recover] in H; [discriminate|].
    assert (Sh : shape base ((above ++ [node]) ++ rest) (nodes st)).
    { rewrite <- app_assoc. cbn [app]. unfold ParserPop.shape. destruct (above ++ node :: rest) as [|x r] eqn:X; [destruct above; discriminate|]. exists fs. refine (conj D (conj En _)). unfold calm. destruct fs as [|f fs]; [exact Logic.I|]. inversion Ze; subst. auto. }
    assert (Next : recover g st (above ++ [node]) rest again = Done st' -> (idle st' /\ stack st' <> []) \/ exists st1, again st1 = Done st' /\ holds base k pos fr cur st1 /\ tk st1 = tk st /\ lost st1 = false).
    { intros N. apply (IH (above ++ [node]) base k pos fr cur st again st' fs); auto; rewrite <- app_assoc; assumption. }
    assert (Co : (if does_error_recovery g (s_type node)
                  then r <- pop_all_failed g (above ++ [node]) (nodes st) ;; again (mk_state rest (fst r) (tk st) (lost st) (odd st || snd r || lost st))
                  else recover g st (above ++ [node]) rest again) = Done st' ->
      (idle st' /\ stack st' <> []) \/ exists st1, again st1 = Done st' /\ holds base k pos fr cur st1 /\ tk st1 = tk st /\ lost st1 = false).
    { intros C. destruct (does_error_recovery g (s_type node)); [|auto]. destruct (pop_all_failed g (above ++ [node]) (nodes st)) as [[ns1 o1]| |] eqn:P; cbn [bind fst snd] in C; try discriminate.
      right. exists (mk_state rest ns1 (tk st) (lost st) (odd st || o1 || lost st)). pose proof (Ag _ _ C Od) as O1. cbn [odd] in O1. rewrite !orb_false_iff in O1. destruct O1 as [[O1 ->] O3].
      destruct (pop_all (above ++ [node]) rest base k (nodes st) ns1 Sh Sp P) as [Sh' Sp']. refine (conj C (conj _ (conj eq_refl O3))).
      refine (conj Sh' (conj Sp' (conj K (conj Tk (conj _ (conj Kc (conj Lo _))))))); cbn [stack nodes tk lost].
      - intros M. apply Ma. rewrite Es. apply marked_suffix. unfold marked in *. cbn [existsb]. rewrite M. apply orb_true_r.
      - congruence. }
    assert (Re : is_ll (s_mode node) = false -> tk_recording token (tk st) = true).
    { intros E. apply Ma. rewrite Es. apply marked_suffix. unfold marked. cbn [existsb]. rewrite E. reflexivity. }
    destruct (s_mode node) as [|b id|b id first valid] eqn:Mo; [auto| |].
    - specialize (Re eq_refl). assert (Hp : has_point node b id) by (left; exact Mo).
      destruct (nodes st) as [|x0 ns0] eqn:En0; cbn [bind] in H; [discriminate|]. rewrite <- En0 in *.
      set (first := start_index (last (nodes st) x0)) in *. set (valid := match above with [] => true | _ => false end) in *.
      assert (Fb : (r <- reset (mk_state (node :: rest) (nodes st) (tk st) (lost st) (odd st)) b ;;
        let (st0, tok) := (r : state * token) in
        match stack st0 with
        | [] => Panic
        | tos :: rest0 => apply_plan g (mk_state (set_stale false (set_mode (LastAlt b id first valid) tos) :: rest0) (nodes st0) (tk st0) (lost st0) (odd st0)) (fallback (alternatives g id)) tok
        end) = Done st' -> idle st' /\ stack st' <> []).
      { intros F. destruct (fallback_step g all Tab base k pos fr above node rest fs b id first valid (nodes st) (tk st) (lost st) (odd st) st' D En Hp Ze Sp ltac:(lia) Tk Re F Od) as (base' & pos' & Af & Lo' & _).
        split; [apply (after_idle _ _ _ Af Lo')|]. destruct (reset _ b) as [[st0 tok]| |]; cbn [bind] in F; try discriminate. destruct (stack st0); [discriminate|]. apply (apply_plan_stack _ _ _ _ _ F). }
      destruct (reusable (alternatives g id)) as [[ps nd]|] eqn:Ru; [|left; apply (Fb H)].
      destruct (assert _); cbn [bind] in H; try discriminate. destruct (find_matching_node _ _) as [[nth|]| |] eqn:Fm; cbn [bind] in H; try discriminate; [|left; apply (Fb H)].
      destruct (last_leaf_if_proper_nonterminal _ _) as [[leaf|]| |] eqn:Ll; cbn [bind] in H; try discriminate; [|apply (Next H)].
      left. split; [|apply (reuse_stack _ _ _ _ _ _ _ _ _ H)].
      destruct (reuse_step g all Order Tab base k pos fr above node rest fs b id first valid ps nd nth leaf (nodes st) (tk st) (lost st) (odd st) st' D En Hp Ze Sp ltac:(lia) K Tk Ru Fm Ll H Od) as (pos' & Go & Tk' & Re' & Lo' & _ & Lp).
      destruct (good_stack _ _ _ _ Go) as [Sh' Sp']. exists base, pos', pos', false. refine (conj Sh' (conj Sp' (conj Lp (conj Tk' (conj (fun _ => Re') (conj (le_n _) (conj (fun _ => eq_refl) _))))))). congruence.
    - specialize (Re eq_refl). assert (Hp : has_point node b id) by (right; eauto).
      destruct (nodes st) as [|x0 ns0] eqn:En0; cbn [bind] in H; [discriminate|]. rewrite <- En0 in *.
      destruct (_ || _) in H; [|auto]. left.
      destruct (reset _ b) as [[st0 tok]| |] eqn:R; cbn [bind] in H; try discriminate.
      destruct rest as [|n rest].
      { exfalso. unfold reset in R. cbn [stack] in R. destruct (BacktrackModel.next _ _) as [[x|] t]; [|discriminate]. injection R as <- <-. cbn [stack] in H. discriminate. }
      assert (Es0 : exists x, stack st0 = x :: n :: rest).
      { unfold reset in R. cbn [stack] in R. destruct (BacktrackModel.next _ _) as [[x|] t]; [|discriminate]. injection R as <- <-. cbn [stack]. eauto. }
      destruct Es0 as (x & Es0). rewrite Es0 in H.
      destruct (apply_plan g _ _ tok) as [st1| |] eqn:A; cbn [bind] in H; try discriminate. destruct (stack st1) as [|tos r1] eqn:Es1; [discriminate|].
      assert (Od1 : odd st1 = false) by (injection H as <-; destruct (s_recording tos); exact Od).
      destruct (replay_step g all Tab base k pos fr above node n rest fs b id (nodes st) (tk st) (lost st) (odd st) st1 D En Hp Ze Sp ltac:(lia) Tk Re) as (base' & pos' & Af & Lo' & _).
      { rewrite R. cbn [bind]. exact A. }
      { exact Od1. }
      injection H as <-. destruct (s_recording tos) eqn:Rc.
      + split; [apply (after_idle _ _ _ Af Lo')|]. rewrite Es1. discriminate.
      + split; [|cbn [stack]; discriminate]. destruct Af as (Go & Tk' & _). apply (after_idle base' pos'); [|exact Lo']. cbn [stack nodes tk]. rewrite <- Es1. refine (conj Go (conj (tk_stop _ _ _ _ _ Tk') _)).
        intros M. destruct Go as (fs1 & D1 & _). rewrite (unmarked _ _ _ _ _ _ D1 tos r1 Es1 Rc) in M. discriminate.
  Qed.

  Lemma stale_latest : forall base top n st fs l c, desc base top (n :: st) fs -> s_stale n = true -> s_latest n <= l -> desc base top (set_latest l (set_count c n) :: st) fs.
  Proof.
    intros base top n st fs l c D St L. inversion D as [|t1 n1 f2 s1 fs1 D1 F1 No1 M1 I1 R1|t1 n1 m1 f2 s1 fs1 D1 S1 No1 Vi1 R1]; subst.
    - apply desc_base; auto. destruct No1 as (N1 & N2 & N3 & N4). refine (conj N1 (conj N2 (conj N3 _))). cbn. congruence.
    - apply desc_virtual; auto.
      + destruct No1 as (N1 & N2 & N3 & N4). refine (conj N1 (conj N2 (conj N3 _))). cbn. congruence.
      + unfold virtual_ok, alt_ok in *. cbn [s_type s_state set_latest set_count s_stale s_count s_latest s_mode s_index s_recording]. destruct Vi1 as [V0 V]. split; [exact V0|].
        destruct (s_mode n) as [|b id|b id x y]; [exact V| |]; destruct V as (V1 & V2 & V3 & V4 & V5); refine (conj V1 (conj V2 (conj V3 (conj _ V5)))); lia.
  Qed.

  Lemma end_holds : forall base k pos fr cur st st' tos rest, holds base k pos fr cur st -> stack st = tos :: rest -> is_final g (s_state tos) = true -> end_of_node g st = Done st' ->
    holds base k pos fr cur st' /\ lost st' = false.
  Proof.
    intros base k pos fr cur st st' tos rest (Sh & Sp & K & Tk & Ma & Kc & Lo & Lo2) Es Fi H.
    assert (L : lost st = false).
    { destruct (lost st); [|reflexivity]. specialize (Lo2 eq_refl). rewrite Es in Lo2. destruct (negative_ok g Tab _ Lo2) as [X _]. congruence. }
    destruct (end_of_node_stays _ _ _ H) as [_ El]. rewrite L in El. split; [|exact El].
    unfold end_of_node in H. rewrite Es in *. cbn [ParserPop.shape] in Sh. destruct Sh as (fs & D & En & Ca).
    assert (Alt : forall b id, (s_mode tos = Alt b id \/ exists x y, s_mode tos = LastAlt b id x y) -> match rest with
      | [] => Panic
      | n :: rest =>
        let n := set_latest (s_latest tos) (set_count (s_count tos) n) in
        _ <- assert (is_final g (s_state n)) ;;
        Done (mk_state (n :: rest) (nodes st) (if s_recording n then tk st else BacktrackModel.stop token (tk st)) (lost st) (odd st))
      end = Done st' -> holds base k pos fr cur st').
    { intros b id Mo C. destruct rest as [|n rest]; [discriminate|]. clear H. cbv zeta in C. destruct (assert _); cbn [bind] in C; try discriminate. injection C as <-.
      inversion D as [|t1 n1 f2 s1 fs1 D1 F1 No1 M1 I1 R1|t1 n1 m1 f2 s1 fs1 D1 S1 No1 Vi1 R1]; subst.
      { destruct Mo as [Mo|(x & y & Mo)]; congruence. }
      assert (A : alt_ok g base true tos n f2 fs1 b id) by (destruct Vi1 as [_ V]; destruct Mo as [Mo|(x & y & Mo)]; rewrite Mo in V; exact V).
      destruct A as (_ & _ & A2 & A3 & _).
      assert (D' : desc base true (set_latest (s_latest tos) (set_count (s_count tos) n) :: rest) (f2 :: fs1)) by (apply stale_latest; auto; lia).
      assert (Mk : marked (set_latest (s_latest tos) (set_count (s_count tos) n) :: rest) = true -> s_recording n = true /\ tk_recording token (tk st) = true).
      { intros M. split.
        - destruct (s_recording n) eqn:Rn; [reflexivity|]. rewrite (unmarked _ _ _ _ _ _ D' _ _ eq_refl Rn) in M. discriminate.
        - apply Ma. unfold marked in *. cbn [existsb] in *. cbn [set_latest set_count s_mode] in M. rewrite M. apply orb_true_r. }
      refine (conj _ (conj Sp (conj K (conj _ (conj _ (conj Kc (conj Lo _))))))); cbn [stack nodes tk lost].
      - cbn [ParserPop.shape]. exists (f2 :: fs1). refine (conj D' (conj En _)). destruct Ca as [_ Ca]. split; [cbn; congruence|exact Ca].
      - cbn [set_latest set_count s_recording]. destruct (s_recording n); [exact Tk|apply tk_stop; exact Tk].
      - intros M. destruct (Mk M) as [Mk1 Mk2]. cbn [set_latest set_count s_recording]. rewrite Mk1. exact Mk2.
      - congruence. }
    destruct (s_mode tos) as [|b id|b id x y] eqn:Mo; [|apply (Alt b id); eauto|apply (Alt b id); eauto].
    destruct (assert _); cbn [bind] in H; try discriminate. destruct (update_tree_node_position (nodes st) tos) as [ns1| |] eqn:U; cbn [bind] in H; try discriminate. injection H as <-.
    rewrite En in U, Sp. destruct (position_pop g all base _ _ _ k _ D Ca Mo Sp U) as [Sh' Sp'].
    refine (conj Sh' (conj Sp' (conj K (conj Tk (conj _ (conj Kc (conj Lo _))))))); cbn [stack nodes tk lost].
    - intros M. apply Ma. unfold marked in *. cbn [existsb]. rewrite M. apply orb_true_r.
    - congruence.
  Qed.

  Lemma good_of_shape : forall base k tos rest ns, shape base (tos :: rest) ns -> spans ns = firstn k (all_spans all) -> good g all base k (tos :: rest) ns.
  Proof. intros base k tos rest ns (fs & D & En & Ca) Sp. exists fs. auto. Qed.

  (** A token that does not fit: either it is in an error node or [recover]. *)
  Lemma error_holds : forall base k pos fr cur st otok again st', holds base k pos fr cur st -> cur <= pos ->
    (forall tok, otok = Some tok -> cur = pos - 1 /\ fr = true /\ 0 < pos /\ nth_error all (pos - 1) = Some tok) -> (forall s s', again s = Done s' -> stays s s') ->
    error_recovery g st otok again = Done st' -> odd st' = false ->
    (idle st' /\ stack st' <> []) \/ exists st1, again st1 = Done st' /\ holds base k pos fr cur st1 /\ lost st1 = false.
  Proof.
    intros base k pos fr cur st otok again st' Ho Cp Ot Ag H Od. pose proof Ho as (Sh & Sp & K & Tk & Ma & Kc & Lo & Lo2).
    unfold error_recovery in H. destruct (stack st) as [|tos rest] eqn:Es; [discriminate|]. cbn [ParserPop.shape] in Sh. destruct Sh as (fs & D & En & Ca).
    assert (Rec : recover g (mk_state (tos :: rest) (nodes st) (tk st) (lost st) (odd st || s_stale tos)) [] (tos :: rest) again = Done st' ->
      (idle st' /\ stack st' <> []) \/ exists st1, again st1 = Done st' /\ holds base k pos fr cur st1 /\ lost st1 = false).
    { intros R. pose proof (recover_stays _ _ _ _ _ _ Ag R Od) as O1. cbn [odd] in O1. apply orb_false_iff in O1. destruct O1 as [_ St].
      assert (Ze : Forall zero fs). { destruct (desc_nonempty _ _ _ _ _ _ _ D) as (f & fs' & ->). destruct Ca as [Ca1 Ca2]. constructor; auto. }
      destruct (recover_holds (tos :: rest) [] base k pos fr cur (mk_state (tos :: rest) (nodes st) (tk st) (lost st) (odd st || s_stale tos)) again st' fs eq_refl D En Ze Sp K Tk Ma Kc Cp Lo Ag R Od) as [X|(st1 & X1 & X2 & _ & X3)]; [left; exact X|right; eauto]. }
    destruct (towards_error g (s_state tos)) as [nt|] eqn:Te; [|auto]. destruct otok as [tok|]; [|auto]. left.
    destruct (Ot tok eq_refl) as (Ec & -> & Pos & Nt).
    assert (L : lost st = false).
    { destruct (lost st); [|reflexivity]. specialize (Lo2 eq_refl). destruct (negative_ok g Tab _ Lo2) as (_ & X & _). congruence. }
    specialize (Lo L). destruct (desc_nonempty _ _ _ _ _ _ _ D) as (f & fs' & ->).
    destruct (errors_ok g Tab _ _ Te) as [Ty Om]. pose proof (desc_node _ _ _ _ _ _ _ _ D) as (N1 & N2 & N3 & N4).
    assert (Own : f_own f <> None) by (intros O; destruct (N2 O) as [X _]; congruence).
    assert (St : s_stale tos = false). { destruct (calculate_previous_next_node _ _) as [a b]. injection H as <-. cbn [odd] in Od. apply orb_false_iff in Od. tauto. }
    destruct (N4 St) as [N5 _].
    assert (Cal : calculate_previous_next_node (nodes st) (s_latest tos) = (under (f :: fs'), length (under (f :: fs')))).
    { rewrite En. unfold latest_ok in N5. destruct (f_cs f) as [|c r] eqn:C.
      - rewrite N5. unfold calculate_previous_next_node. cbn [Nat.eqb negb andb]. cbn [content under]. rewrite C. reflexivity.
      - rewrite N5. apply calc_top; [apply (last_child_pos _ _ _ _ _ _ D)|congruence]. }
    rewrite Cal in H. injection H as <-. split; [|discriminate].
    set (t := Node (set_error_bit nt) (t_start tok) (t_len tok) [Leaf (set_error_bit (t_type tok)) (t_start tok) (t_len tok)]).
    assert (Tt : (t_type tok < 32768)%N) by (rewrite Forall_forall in Types; apply Types; apply (nth_error_In _ _ Nt)).
    assert (Ft : fine t) by (constructor; [apply error_bit_node; exact Ty|constructor; [constructor; apply error_bit_leaf; exact Tt|constructor]|reflexivity|reflexivity]).
    assert (D1 : desc base false (set_latest (length (under (f :: fs'))) tos :: rest) (f :: fs')).
    { apply (retop g all base tos rest f fs' f); auto.
      - unfold same_node. cbn. auto.
      - cbn. congruence.
      - apply frame_weaken. apply (desc_frame _ _ _ _ _ _ D f fs' eq_refl). }
    apply (after_idle base pos); [|exact L]. cbn [stack nodes tk].
    refine (conj _ (conj Tk Ma)). exists (add f t :: fs'). refine (conj (grow _ _ _ _ _ _ _ D1 Ft) (conj _ (conj _ _))).
    - rewrite content_add. reflexivity.
    - destruct Ca as [Ca1 Ca2]. split; [intros _; apply (Ca1 St)|exact Ca2].
    - change (spans (under (f :: fs') ++ flatten true t) = firstn pos (all_spans all)). rewrite spans_app, spans_flatten by (apply fine_proper; exact Ft).
      rewrite (spans_under g all _ _ _ _ D), <- En, Sp, Lo, Ec. cbn [leaves flat_map app t].
      assert (X : nth_error (all_spans all) (pos - 1) = Some (t_start tok, t_len tok)) by (unfold all_spans; rewrite nth_error_map, Nt; reflexivity).
      replace pos with (S (pos - 1)) at 2 by lia. revert X. generalize (all_spans all) as l. generalize (pos - 1) as j. clear. induction j as [|j IH]; intros [|a l] X; cbn in *; try discriminate.
      + injection X as ->. reflexivity.
      + f_equal. apply IH. exact X.
  Qed.

  (** One token. *)
  Lemma transition_holds : forall fuel base k pos st tok st', holds base k pos true (pos - 1) st -> 0 < pos -> nth_error all (pos - 1) = Some tok ->
    apply_transition g fuel st tok = Done st' -> odd st' = false -> idle st' /\ stack st' <> [].
  Proof.
    induction fuel as [|fuel IH]; intros base k pos st tok st' Ho Pos Nt H Od; cbn [apply_transition] in H; [discriminate|].
    pose proof Ho as (Sh & Sp & K & Tk & Ma & Kc & Lo & Lo2). destruct (stack st) as [|tos rest] eqn:Es; [discriminate|].
    destruct (lookup g (s_state tos) (t_type tok)) as [p|] eqn:Lk.
    - assert (L : lost st = false).
      { destruct (lost st); [|reflexivity]. specialize (Lo2 eq_refl). destruct (negative_ok g Tab _ Lo2) as (_ & _ & X). rewrite X in Lk. discriminate. }
      specialize (Lo L). destruct (plans_ok g Tab _ _ _ Lk) as [Pl Om]. cbn [ParserPop.shape] in Sh. destruct Sh as (fs & D & En & Ca).
      assert (Plan : apply_plan g st p tok = Done st' -> idle st' /\ stack st' <> []).
      { intros A. split; [|apply (apply_plan_stack _ _ _ _ _ A)]. destruct (negative g (pl_next p)) eqn:Ne.
        - unfold apply_plan in A. rewrite Es, Ne in A. injection A as <-. exists base, k, pos, true.
          refine (conj _ (conj Sp (conj K (conj Tk (conj Ma (conj _ (conj _ _))))))); cbn [stack nodes tk lost]; [|lia|discriminate|intros _; exact Ne].
          cbn [ParserPop.shape]. exists fs. refine (conj (set_state_desc _ _ _ _ _ _ D Om) (conj En _)). exact Ca.
        - assert (Go : good g all base (pos - 1) (tos :: rest) (nodes st)) by (exists fs; rewrite <- Lo; auto).
          assert (Rd : read all base pos (tos :: rest) (tk st) tok) by (unfold read; auto).
          destruct (pl_mode p) eqn:Mo.
          + destruct (ll_step g all base pos st tos rest p tok st' Es Go Rd Pl Om Ne ltac:(congruence) A Od) as (base' & Af & Lo' & _). apply (after_idle base' pos st' Af). congruence.
          + destruct (lr_step g all base pos st tos rest p tok st' Es Go Rd Pl Om Ne Mo A Od) as (base' & Af & Lo' & _). apply (after_idle base' pos st' Af). congruence.
          + destruct (ll_step g all base pos st tos rest p tok st' Es Go Rd Pl Om Ne ltac:(congruence) A Od) as (base' & Af & Lo' & _). apply (after_idle base' pos st' Af). congruence. }
      destruct (pl_mode p) eqn:Mo; auto.
      apply (IH base k pos _ tok st') in H; auto. refine (conj _ (conj Sp (conj K (conj Tk (conj Ma (conj Kc (conj (fun _ => Lo) _))))))); cbn [stack nodes tk lost]; [|congruence].
      cbn [ParserPop.shape]. exists fs. refine (conj (set_state_desc _ _ _ _ _ _ D Om) (conj En _)). exact Ca.
    - destruct (is_final g (s_state tos)) eqn:Fi.
      + destruct (end_of_node g st) as [st1| |] eqn:E; cbn [bind] in H; try discriminate. destruct (end_holds _ _ _ _ _ _ _ _ _ Ho Es Fi E) as [Ho' _]. apply (IH base k pos st1 tok st' Ho' Pos Nt H Od).
      + destruct (error_holds base k pos true (pos - 1) st (Some tok) (fun st0 => apply_transition g fuel st0 tok) st' Ho ltac:(lia)) as [X|(st1 & X1 & X2 & X3)]; auto.
        * intros tok' E. injection E as <-. auto.
        * intros s s' A. apply apply_transition_stays in A. exact A.
        * apply (IH base k pos st1 tok st' X2 Pos Nt X1 Od).
  Qed.

  Lemma loop_holds : forall fuel st st', idle st -> parse_loop g fuel st = Done st' -> odd st' = false ->
    (spans (nodes st') <> [] -> result (nodes st')) /\ spans (nodes st') = all_spans all.
  Proof.
    induction fuel as [|fuel IH]; intros st st' (base & k & pos & fr & Ho) H Od; cbn [parse_loop] in H; [discriminate|].
    pose proof Ho as (Sh & Sp & K & Tk & Ma & Kc & Lo & Lo2).
    destruct (BacktrackModel.next token (tk st)) as [[tok|] t] eqn:N.
    - destruct (tk_next_some all base pos fr _ _ _ Tk N) as (Nt & Tk' & Re). destruct (apply_transition g fuel _ tok) as [st1| |] eqn:A; cbn [bind] in H; try discriminate.
      assert (Od1 : odd st1 = false) by (apply parse_loop_stays in H; apply (H Od)).
      assert (Ho' : holds base k (S pos) true (S pos - 1) (mk_state (stack st) (nodes st) t (lost st) (odd st))).
      { replace (S pos - 1) with pos by lia. refine (conj Sh (conj Sp (conj K (conj Tk' (conj _ (conj Kc (conj Lo Lo2))))))). cbn [stack tk]. rewrite Re. exact Ma. }
      destruct (transition_holds fuel base k (S pos) _ tok st1 Ho' ltac:(lia)) as [Id _]; auto.
      + replace (S pos - 1) with pos by lia. exact Nt.
      + apply (IH st1 st' Id H Od).
    - destruct (tk_next_none all base pos fr _ _ Tk N) as (Ep & Tk' & Re). cbn [stack] in H. destruct (stack st) as [|tos rest] eqn:Es; [discriminate|].
      set (st0 := mk_state (tos :: rest) (nodes st) t (lost st) (odd st)) in *.
      assert (Ho' : holds base k pos false pos st0).
      { refine (conj Sh (conj Sp (conj K (conj Tk' (conj _ (conj Kc (conj Lo Lo2))))))). unfold st0. cbn [stack tk]. rewrite Re. exact Ma. }
      match type of H with bind ?e _ = _ => destruct e as [st1| |] eqn:E; cbn [bind] in H; try discriminate end.
      assert (Od1 : odd st1 = false) by (destruct (stack st1); [injection H as <-; exact Od|apply parse_loop_stays in H; apply (H Od)]).
      assert (X : (idle st1 /\ stack st1 <> []) \/ (holds base k pos false pos st1 /\ lost st1 = false)).
      { destruct (is_final g (s_state tos)) eqn:Fi.
        - right. apply (end_holds base k pos false pos st0 st1 tos rest Ho' eq_refl Fi E).
        - destruct (error_holds base k pos false pos st0 None (fun st : state => Done st) st1 Ho' (le_n _)) as [X|(st2 & X1 & X2 & X3)]; auto.
          + discriminate.
          + intros s s' Q. injection Q as ->. intros X. exact X.
          + injection X1 as ->. auto. }
      destruct (stack st1) as [|x r] eqn:Es1.
      + injection H as <-. destruct X as [[_ X]|[(Sh1 & Sp1 & _ & _ & _ & _ & Lo1 & _) L1]]; [contradiction|]. rewrite Es1 in Sh1. cbn [ParserPop.shape] in Sh1. split; [exact Sh1|].
        rewrite Sp1, (Lo1 L1), Ep. unfold all_spans. rewrite <- (map_length token_span all). apply firstn_all.
      + apply (IH st1 st'); auto. destruct X as [[X _]|[X _]]; [exact X|]. exists base, k, pos, false. exact X.
  Qed.

  Lemma parse_tree : forall fuel start first st, all <> [] -> om first = false -> (32768 <= start)%N -> parse g fuel start first all = Done st -> odd st = false ->
    exists t hi, nodes st = array t /\ proper t /\ placed 0 t hi /\ leaves t = map token_span all.
  Proof.
    intros fuel start first st Ne Om Ty H Od. unfold parse in H.
    assert (Id : idle (initial g start first all)).
    { exists 0, 0, 0, false. unfold initial. rewrite Om. set (f := mk_frame (Some (start, 0, 0)) []). refine (conj _ (conj _ (conj _ (conj _ (conj _ (conj _ (conj _ _))))))); cbn [stack nodes tk lost]; try discriminate; try lia.
      - cbn [ParserPop.shape]. exists [f]. refine (conj _ (conj eq_refl _)).
        + apply desc_base; auto; [constructor| | |exact Logic.I].
          * refine (conj _ (conj _ (conj _ _))); unfold f; cbn [f_own f_cs]; try discriminate; [constructor| |].
            -- intros ty s l E. injection E as <- <- <-. refine (conj Ty (conj (fun _ => eq_refl) _)). intros X. elim X. reflexivity.
            -- intros _ X. elim X. reflexivity.
          * refine (conj Ty (conj _ (conj _ _))); cbn [s_state s_stale s_latest]; unfold f; cbn [f_own]; try discriminate; auto. intros _. split; [reflexivity|]. congruence.
        + split; [|constructor]. intros _ ty s l E. unfold f in E. cbn [f_own] in E. injection E as _ _ <-. reflexivity.
      - unfold spans. cbn [filter]. unfold is_leaf. cbn [type_]. rewrite node_no_leaf by exact Ty. reflexivity.
      - apply tk_new. }
    destruct (loop_holds fuel _ st Id H Od) as [R S].
    assert (Sn : spans (nodes st) <> []) by (rewrite S; unfold all_spans; destruct all; [contradiction|discriminate]).
    destruct (R Sn) as (ty & c & cs & Tc & Fc & E). exists (Node ty 0 (end_of (last (c :: cs) c)) (c :: cs)).
    assert (P : proper (Node ty 0 (end_of (last (c :: cs) c)) (c :: cs))).
    { constructor; [exact Tc|discriminate|]. rewrite Forall_forall in *. intros x X. apply fine_proper. auto. }
    assert (Lv : leaves (Node ty 0 (end_of (last (c :: cs) c)) (c :: cs)) = map token_span all).
    { rewrite <- (spans_flatten _ P true). change (flatten true (Node ty 0 (end_of (last (c :: cs) c)) (c :: cs))) with (array (Node ty 0 (end_of (last (c :: cs) c)) (c :: cs))). rewrite <- E. exact S. }
    exists (end_of (last (c :: cs) c)). refine (conj E (conj P (conj _ Lv))).
    apply (root_placed c cs 0 ty Fc). cbn [leaves] in Lv. rewrite Lv. apply in_order_spans. exact Order.
  Qed.
End Parse.
