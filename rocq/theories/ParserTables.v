(** Tables that are given as lists, and a check of them; reading a tree back from an array; tables without conflicts. *)
From Coq Require Import List Arith NArith Bool Lia.
From Verif Require Import TreeModel TreeSpec TreeProofs BacktrackModel ParserModel ParserSpec ParserTree ParserInv ParserPop ParserProofs.
Import ListNotations.

(** A state: crates/parsa/src/automaton.rs:92-107 [struct DFAState], with the plans of [RuleAutomaton] by the types of the tokens. *)
Record entry := mk_entry { e_final : bool; e_omitted : bool; e_negative : bool; e_error : option N; e_plans : list (N * plan) }.
Record tables := mk_tables { t_entries : list entry; t_alternatives : list alternative; t_errors : list N }.

Definition no_entry : entry := mk_entry false false false None [].
Definition entry_of (t : tables) (s : nat) : entry := nth s (t_entries t) no_entry.
Definition plan_for (l : list (N * plan)) (ty : N) : option plan :=
  match find (fun p => N.eqb (fst p) ty) l with Some p => Some (snd p) | None => None end.
Definition no_alternative (t : tables) : alternative :=
  let p := mk_plan [] (length (t_entries t)) 0 PlanLL in mk_alternative p p None.
Definition grammar_of (t : tables) : grammar :=
  mk_grammar (fun s ty => plan_for (e_plans (entry_of t s)) ty) (fun s => e_final (entry_of t s)) (fun s => e_omitted (entry_of t s))
    (fun s => e_negative (entry_of t s)) (fun s => e_error (entry_of t s)) (fun id => nth id (t_alternatives t) (no_alternative t))
    (fun ty => existsb (N.eqb ty) (t_errors t)).

Section Check.
  Variable g : grammar.
  Local Notation om := (may_be_omitted g).

  Fixpoint check_pushes (o : bool) (ps : list push) : bool :=
    match ps with
    | [] => true
    | p :: ps =>
        (32768 <=? p_type p)%N &&
        match p_mode p with
        | Own => true
        | Alternative id => Bool.eqb (om (p_next p)) o && Bool.eqb (om (pl_next (fallback (alternatives g id)))) o
        end && check_pushes (om (p_next p)) ps
    end.
  Definition check_plan (p : plan) : bool := (pl_type p <? 32768)%N && check_pushes (om (pl_next p)) (pl_pushes p).
  Definition check_reusable (o : bool) (pushes : list push) (needed : nat) : bool :=
    match pushes with
    | [] => false
    | _ =>
        let init := removelast pushes in
        is_own (p_mode (last pushes (mk_push 0 0 Own))) && (needed =? length (filter (takes_node g) init)) && check_pushes o pushes &&
        forallb (fun q => is_own (p_mode q) || negb (om (p_next q))) init
    end.
  Definition is_plain_mode (m : plan_mode) : bool := match m with PlanLL => true | _ => false end.
  Definition check_alternative (a : alternative) : bool :=
    check_plan (fallback a) && check_plan (replay a) && Bool.eqb (om (pl_next (replay a))) (om (pl_next (fallback a))) &&
    is_plain_mode (pl_mode (fallback a)) && is_plain_mode (pl_mode (replay a)) &&
    negb (negative g (pl_next (fallback a))) && negb (negative g (pl_next (replay a))) &&
    match reusable a with None => true | Some (pushes, needed) => check_reusable (om (pl_next (fallback a))) pushes needed end.
  Definition check_entry (e : entry) : bool :=
    forallb (fun p => check_plan (snd p) && Bool.eqb (om (pl_next (snd p))) (e_omitted e)) (e_plans e) &&
    match e_error e with None => true | Some n => (32768 <=? n)%N && negb (e_omitted e) end &&
    (negb (e_negative e) || negb (e_final e) && match e_error e with None => true | _ => false end && match e_plans e with [] => true | _ => false end).

  Lemma check_pushes_ok : forall ps o, check_pushes o ps = true -> pushes_ok g o ps.
  Proof.
    induction ps as [|p ps IH]; intros o H; cbn [check_pushes pushes_ok] in *; [exact Logic.I|]. rewrite !andb_true_iff in H. destruct H as [[A B] C].
    apply N.leb_le in A. refine (conj A (conj _ (IH _ C))). destruct (p_mode p); [exact Logic.I|]. apply andb_true_iff in B. destruct B as [B1 B2]. apply eqb_prop in B1, B2. auto.
  Qed.
  Lemma check_plan_ok : forall p, check_plan p = true -> plan_ok g p.
  Proof. intros p H. unfold check_plan in H. apply andb_true_iff in H. destruct H as [A B]. apply N.ltb_lt in A. split; [exact A|apply check_pushes_ok; exact B]. Qed.
  Lemma check_reusable_ok : forall o ps n, check_reusable o ps n = true -> reusable_ok g o ps n.
  Proof.
    intros o ps n H. unfold check_reusable in H. destruct ps as [|q ps]; [discriminate|]. set (l := q :: ps) in *. rewrite !andb_true_iff in H. destruct H as [[[A B] C] D].
    exists (removelast l), (last l (mk_push 0 0 Own)). apply Nat.eqb_eq in B. refine (conj _ (conj _ (conj B (conj (check_pushes_ok _ _ C) _)))).
    - apply app_removelast_last. discriminate.
    - destruct (p_mode (last l (mk_push 0 0 Own))); [reflexivity|discriminate].
    - rewrite forallb_forall in D. apply Forall_forall. intros x X O. specialize (D x X). rewrite O in D. cbn in D. apply negb_true_iff in D. exact D.
  Qed.
End Check.

Definition check_tables (t : tables) : bool :=
  forallb (check_entry (grammar_of t)) (t_entries t) && forallb (check_alternative (grammar_of t)) (t_alternatives t).

Lemma entry_cases : forall t s, entry_of t s = no_entry \/ In (entry_of t s) (t_entries t).
Proof. intros t s. unfold entry_of. destruct (nth_in_or_default s (t_entries t) no_entry); auto. Qed.

Lemma check_tables_ok : forall t, check_tables t = true -> tables_ok (grammar_of t).
Proof.
  intros t H. unfold check_tables in H. apply andb_true_iff in H. destruct H as [E A]. rewrite forallb_forall in E, A. set (g := grammar_of t) in *.
  assert (En : forall s, check_entry g (entry_of t s) = true) by (intros s; destruct (entry_cases t s) as [->|I]; [reflexivity|auto]).
  assert (Al : forall id, check_alternative g (alternatives g id) = true).
  { intros id. cbn [g grammar_of alternatives]. destruct (nth_in_or_default id (t_alternatives t) (no_alternative t)) as [I|D]; [auto|]. rewrite D.
    assert (X : entry_of t (length (t_entries t)) = no_entry) by (unfold entry_of; apply nth_overflow; auto).
    unfold check_alternative, no_alternative, check_plan. cbn [fallback replay reusable pl_type pl_next pl_pushes pl_mode check_pushes g grammar_of may_be_omitted negative]. rewrite X. reflexivity. }
  constructor.
  - intros s ty p L. specialize (En s). unfold check_entry in En. rewrite !andb_true_iff in En. destruct En as [[En _] _]. rewrite forallb_forall in En.
    cbn [g grammar_of lookup] in L. unfold plan_for in L. destruct (find _ (e_plans (entry_of t s))) as [q|] eqn:F; [|discriminate]. injection L as <-. apply find_some in F. destruct F as [F _].
    specialize (En q F). apply andb_true_iff in En. destruct En as [P O]. apply eqb_prop in O. split; [apply check_plan_ok; exact P|exact O].
  - intros id a. specialize (Al id). fold a in Al. unfold check_alternative in Al. rewrite !andb_true_iff in Al. destruct Al as [[[[[[[A1 A2] A3] A4] A5] A6] A7] A8].
    apply eqb_prop in A3. apply negb_true_iff in A6, A7. refine (conj (check_plan_ok _ _ A1) (conj (check_plan_ok _ _ A2) (conj A3 (conj _ (conj _ (conj A6 (conj A7 _))))))).
    + destruct (pl_mode (fallback a)); [reflexivity|discriminate|discriminate].
    + destruct (pl_mode (replay a)); [reflexivity|discriminate|discriminate].
    + intros ps n R. rewrite R in A8. apply check_reusable_ok. exact A8.
  - intros s e X. specialize (En s). unfold check_entry in En. cbn [g grammar_of towards_error] in X. rewrite X in En. rewrite !andb_true_iff in En. destruct En as [[_ [B C]] _].
    apply N.leb_le in B. apply negb_true_iff in C. auto.
  - intros s N. specialize (En s). unfold check_entry in En. cbn [g grammar_of negative] in N. rewrite N in En. cbn [negb orb] in En. rewrite !andb_true_iff in En. destruct En as [_ [[B C] D]].
    apply negb_true_iff in B. refine (conj B (conj _ _)).
    + cbn [g grammar_of towards_error]. destruct (e_error (entry_of t s)); [discriminate|reflexivity].
    + intros ty. cbn [g grammar_of lookup]. destruct (e_plans (entry_of t s)); [reflexivity|discriminate].
Qed.

(** The only tree that an array can stand for. *)
Fixpoint rebuild (fuel : nat) (ns : list node) : option (tree * list node) :=
  match fuel, ns with
  | S fuel, n :: ns =>
      if is_leaf n then Some (Leaf (type_ n) (start_index n) (length_ n), ns)
      else match rebuild_children fuel ns with
           | Some (cs, r) => Some (Node (type_ n) (start_index n) (length_ n) cs, r)
           | None => None
           end
  | _, _ => None
  end
with rebuild_children (fuel : nat) (ns : list node) : option (list tree * list node) :=
  match fuel, ns with
  | S fuel, n :: _ =>
      match rebuild fuel ns with
      | Some (c, r) =>
          if next_node_offset n =? 0 then Some ([c], r)
          else match rebuild_children fuel r with Some (cs, r) => Some (c :: cs, r) | None => None end
      | None => None
      end
  | _, _ => None
  end.

Lemma rebuild_mono : forall f ns x, rebuild f ns = Some x -> forall f', f <= f' -> rebuild f' ns = Some x
with rebuild_children_mono : forall f ns x, rebuild_children f ns = Some x -> forall f', f <= f' -> rebuild_children f' ns = Some x.
Proof.
  - destruct f as [|f]; intros ns x H f' L; [discriminate|]. destruct f' as [|f']; [lia|]. cbn [rebuild] in *. destruct ns as [|n ns]; [discriminate|]. destruct (is_leaf n); [exact H|].
    destruct (rebuild_children f ns) as [q|] eqn:Q; [|discriminate]. rewrite (rebuild_children_mono f ns q Q f') by lia. exact H.
  - destruct f as [|f]; intros ns x H f' L; [discriminate|]. destruct f' as [|f']; [lia|]. cbn [rebuild_children] in *. destruct ns as [|n ns]; [discriminate|].
    destruct (rebuild f (n :: ns)) as [[c r]|] eqn:Q; [|discriminate]. rewrite (rebuild_mono f (n :: ns) (c, r) Q f') by lia. destruct (next_node_offset n =? 0); [exact H|].
    destruct (rebuild_children f r) as [q2|] eqn:Q2; [|discriminate]. rewrite (rebuild_children_mono f r q2 Q2 f') by lia. exact H.
Qed.

Lemma rebuild_flatten : forall t, proper t -> forall b r, rebuild (2 * size t - 1) (flatten b t ++ r) = Some (t, r).
Proof.
  induction t as [ty s l|ty s l cs IH] using tree_ind'; intros P b r; inversion P as [a1 a2 a3 Ty|a1 a2 a3 a4 Ty Ne Ps]; subst.
  - cbn. unfold is_leaf. cbn [type_]. apply N.ltb_lt in Ty. rewrite Ty. reflexivity.
  - assert (C : rebuild_children (2 * sizes cs) (flat_children cs ++ r) = Some (cs, r)).
    { clear P Ty. induction cs as [|c cs IHcs]; [contradiction|]. inversion IH as [|x y Ic Ics]; subst. inversion Ps as [|x y Pc Pcs]; subst. cbn [flat_children]. rewrite <- app_assoc.
      set (b' := match cs with [] => true | _ :: _ => false end). specialize (Ic Pc b' (flat_children cs ++ r)).
      destruct (head_of c b') as (n & Hn & Ho & _). destruct (flatten b' c) as [|n' ns'] eqn:Fl; [discriminate|]. injection Hn as ->.
      pose proof (size_pos c). rewrite sizes_cons. replace (2 * (size c + sizes cs)) with (S (2 * size c - 1 + 2 * sizes cs)) by lia. cbn [rebuild_children app] in *.
      rewrite (rebuild_mono _ _ _ Ic (2 * size c - 1 + 2 * sizes cs)) by lia. rewrite Ho.
      destruct cs as [|c2 cs]; [reflexivity|]. unfold b'. destruct (size c =? 0) eqn:Z; [apply Nat.eqb_eq in Z; lia|].
      rewrite (rebuild_children_mono _ _ _ (IHcs Ics ltac:(discriminate) Pcs) (2 * size c - 1 + 2 * sizes (c2 :: cs))) by lia. reflexivity. }
    rewrite flatten_node. change (size (Node ty s l cs)) with (S (sizes cs)). replace (2 * S (sizes cs) - 1) with (S (2 * sizes cs)) by lia.
    cbn [app rebuild]. unfold is_leaf. cbn [type_ start_index length_]. rewrite node_no_leaf by exact Ty. rewrite C. reflexivity.
Qed.

Definition no_tree (ns : list node) : Prop := forall t, proper t -> ns <> array t.
Lemma rebuild_none : forall ns, match rebuild (2 * length ns - 1) ns with Some (_, []) => False | _ => True end -> no_tree ns.
Proof.
  intros ns H t P E. pose proof (rebuild_flatten t P true []) as F. rewrite app_nil_r, <- (flatten_length t true) in F. fold (array t) in F. rewrite <- E in F. rewrite F in H. exact H.
Qed.

(** Tables without conflicts and negative lookaheads, whose start rule is not left recursive: nothing odd can happen. *)
Record plain_tables (g : grammar) (first : nat) (own : nat -> Prop) : Prop := mk_plain {
  plain_pushes : forall s t p, lookup g s t = Some p -> forallb (fun q => is_own (p_mode q)) (pl_pushes p) = true;
  plain_negative : forall s, negative g s = false;
  plain_first : own first;
  plain_next : forall s t p, own s -> lookup g s t = Some p -> own (pl_next p) /\ pl_mode p <> PlanLeftRecursive }.

Section Plain.
  Variable g : grammar.
  Variable own : nat -> Prop.
  Variable first : nat.
  Hypothesis Plain : plain_tables g first own.

  Definition plain_node (n : stack_node) : Prop := s_mode n = LL /\ s_stale n = false /\ (s_index n = 0 -> own (s_state n)).
  Definition plain_state (st : state) : Prop := Forall plain_node (stack st) /\ nodes st <> [] /\ lost st = false /\ odd st = false.

  Lemma plain_misplaced : forall n, plain_node n -> misplaced g n = false.
  Proof. intros n (M & _). unfold misplaced. rewrite M. reflexivity. Qed.

  Lemma update_ne : forall {A} (l : list A) i f l', update l i f = Done l' -> l' <> [].
  Proof. intros A l i f l' H. unfold update in H. destruct (nth_error l i); [|discriminate]. injection H as <-. destruct (firstn i l); discriminate. Qed.
  Lemma position_ne : forall ns s ns', update_tree_node_position ns s = Done ns' -> ns' <> [].
  Proof.
    intros ns s ns' H. unfold update_tree_node_position in H. destruct ns; [discriminate|]. destruct (nth_error _ _); cbn [unwrap bind] in H; [|discriminate].
    destruct (assert _); cbn [bind] in H; try discriminate. apply (update_ne _ _ _ _ H).
  Qed.
  Lemma insert_ne : forall {A} (l : list A) i x, insert l i x <> [].
  Proof. intros A l i x. unfold insert. destruct (firstn i l); discriminate. Qed.
  Lemma calc_ne : forall ns i, ns <> [] -> fst (calculate_previous_next_node ns i) <> [].
  Proof.
    intros ns i H. unfold calculate_previous_next_node. cbn [fst]. destruct (_ && _) eqn:E; [|exact H]. apply andb_true_iff in E. destruct E as [_ E]. apply Nat.ltb_lt in E.
    destruct (skipn i ns) eqn:K; [assert (X : length (skipn i ns) = 0) by (rewrite K; reflexivity); rewrite skipn_length in X; lia|]. destruct (firstn i ns); discriminate.
  Qed.

  Lemma pushes_plain : forall ps tos rest ns t rc tok tos' rest' ns' t', forallb (fun q => is_own (p_mode q)) ps = true -> Forall plain_node (tos :: rest) -> ns <> [] ->
    apply_pushes g ps tos rest ns t rc tok = (tos', rest', ns', t') -> Forall plain_node (tos' :: rest').
  Proof.
    induction ps as [|p ps IH]; intros tos rest ns t rc tok tos' rest' ns' t' O F N H; cbn [apply_pushes] in H.
    - injection H as <- <- _ _. exact F.
    - cbn [forallb] in O. apply andb_true_iff in O. destruct O as [O1 O2]. destruct (p_mode p); [|discriminate]. inversion F as [|x y Ft Fr]; subst. apply IH in H; auto.
      + constructor; [|constructor; auto]. split; [reflexivity|split; [reflexivity|]]. cbn [s_index]. intros X. destruct ns; [contradiction|discriminate].
      + destruct (may_be_omitted g (p_next p)); [exact N|destruct ns; discriminate].
  Qed.

  Lemma apply_plan_plain : forall st p tok st' tos rest, stack st = tos :: rest -> plain_state st -> forallb (fun q => is_own (p_mode q)) (pl_pushes p) = true ->
    (s_index tos = 0 -> own (pl_next p) /\ pl_mode p <> PlanLeftRecursive) -> apply_plan g st p tok = Done st' -> plain_state st'.
  Proof.
    intros st p tok st' tos rest Es (F & N & L & O) Pu Ow H. unfold apply_plan in H. rewrite Es in *. rewrite (plain_negative g first own Plain) in H. inversion F as [|x y Ft Fr]; subst.
    destruct Ft as (Fm & Fs & Fo). cbn [set_state s_index s_mode s_stale s_count s_type s_recording] in H.
    match type of H with bind ?e _ = _ => destruct e as [[[tos1 ns1] odd1]| |] eqn:E; cbn [bind] in H; try discriminate end.
    assert (X : plain_node tos1 /\ ns1 <> [] /\ odd1 = false).
    { rewrite Fm in E. destruct (pl_mode p) eqn:Mo.
      - destruct (_ && _) in E.
        + destruct (nth_error (nodes st) (s_index tos)); cbn [unwrap bind] in E; [|discriminate]. injection E as <- <- <-. cbn [point_of]. rewrite Fs.
          refine (conj (conj Fm (conj Fs _)) (conj (insert_ne _ _ _) eq_refl)). cbn. intros Z. apply Ow. exact Z.
        + injection E as <- <- <-. refine (conj (conj Fm (conj Fs _)) (conj N Fs)). cbn. intros Z. apply Ow. exact Z.
      - destruct (s_index tos =? 0) eqn:Z; [apply Nat.eqb_eq in Z; destruct (Ow Z) as [_ X]; congruence|]. cbn [orb is_ll negb andb] in E.
        match type of E with bind ?e _ = _ => destruct e as [ns2| |] eqn:U; cbn [bind] in E; try discriminate end. destruct (nth_error ns2 _); cbn [unwrap bind] in E; [|discriminate].
        injection E as <- <- <-. refine (conj (conj eq_refl (conj eq_refl _)) (conj (insert_ne _ _ _) eq_refl)). cbn. intros Z'. apply Nat.eqb_neq in Z. contradiction.
      - destruct (_ && _) in E.
        + destruct (nth_error (nodes st) (s_index tos)); cbn [unwrap bind] in E; [|discriminate]. injection E as <- <- <-. cbn [point_of]. rewrite Fs.
          refine (conj (conj Fm (conj Fs _)) (conj (insert_ne _ _ _) eq_refl)). cbn. intros Z. apply Ow. exact Z.
        + injection E as <- <- <-. refine (conj (conj Fm (conj Fs _)) (conj N Fs)). cbn. intros Z. apply Ow. exact Z. }
    destruct X as (X1 & X2 & ->). pose proof (calc_ne ns1 (s_latest tos1) X2) as Cn. destruct (calculate_previous_next_node ns1 (s_latest tos1)) as [ns2 la]. cbn [fst] in Cn.
    destruct (apply_pushes _ _ _ _ _ _ _ _) as [[[tos2 rest2] ns3] t2] eqn:A. injection H as <-.
    assert (Fp : Forall plain_node (set_latest la tos1 :: rest)) by (constructor; [|exact Fr]; destruct X1 as (Y1 & Y2 & Y3); split; [exact Y1|split; [exact Y2|exact Y3]]).
    apply (pushes_plain _ _ _ _ _ _ _ _ _ _ _ Pu Fp Cn) in A. inversion A as [|x y At Ar]; subst.
    refine (conj _ (conj _ (conj L _))); cbn [stack nodes odd].
    - constructor; [|exact Ar]. destruct At as (Y1 & Y2 & Y3). split; [exact Y1|split; [exact Y2|exact Y3]].
    - destruct ns3; discriminate.
    - rewrite O. cbn [orb]. unfold misplaced, set_state. cbn [s_mode point_of]. rewrite Fm. reflexivity.
  Qed.

  Lemma pop_failed_plain : forall popped ns ns' o, Forall plain_node popped -> ns <> [] -> pop_all_failed g popped ns = Done (ns', o) -> ns' <> [] /\ o = false.
  Proof.
    induction popped as [|s popped IH]; intros ns ns' o F N H; cbn [pop_all_failed] in H; [injection H as <- <-; auto|]. inversion F as [|x y Fs Fp]; subst.
    unfold pop_failed in H. rewrite (plain_misplaced _ Fs) in H. cbn [andb] in H.
    destruct (nth_error ns (s_index s)); cbn [unwrap bind] in H; [|discriminate]. destruct (update_tree_node_position ns s) as [ns1| |]; cbn [bind] in H; try discriminate.
    destruct (update ns1 _ _) as [ns2| |] eqn:U; cbn [bind fst snd] in H; try discriminate. destruct (pop_all_failed g popped ns2) as [[ns3 o3]| |] eqn:P; cbn [bind fst snd] in H; try discriminate.
    injection H as <- <-. apply (IH ns2 ns3 o3 Fp (update_ne _ _ _ _ U) P).
  Qed.

  Lemma recover_plain : forall suffix above st again st', Forall plain_node (above ++ suffix) -> nodes st <> [] -> lost st = false -> odd st = false ->
    (forall s s', plain_state s -> again s = Done s' -> plain_state s') -> recover g st above suffix again = Done st' -> plain_state st'.
  Proof.
    induction suffix as [|node rest IH]; intros above st again st' F N L O Ag H; cbn [recover] in H; [discriminate|].
    assert (Fn : plain_node node) by (rewrite Forall_forall in F; apply F; apply in_elt). destruct Fn as (Mo & _). rewrite Mo in H.
    change (node :: rest) with ([node] ++ rest) in F. rewrite app_assoc in F. destruct (does_error_recovery g (s_type node)); [|apply (IH (above ++ [node]) st again st' F N L O Ag H)].
    apply Forall_app in F. destruct F as [F1 F2]. destruct (pop_all_failed g _ _) as [[ns o]| |] eqn:P; cbn [bind fst snd] in H; try discriminate.
    destruct (pop_failed_plain _ _ _ _ F1 N P) as [N' ->]. rewrite L, O in H. refine (Ag _ _ _ H). exact (conj F2 (conj N' (conj eq_refl eq_refl))).
  Qed.

  Lemma error_plain : forall st tok again st', plain_state st -> (forall s s', plain_state s -> again s = Done s' -> plain_state s') -> error_recovery g st tok again = Done st' -> plain_state st'.
  Proof.
    intros st tok again st' (F & N & L & O) Ag H. unfold error_recovery in H. destruct (stack st) as [|tos rest] eqn:Es; [discriminate|]. inversion F as [|x y Ft Fr]; subst. pose proof Ft as (Fm & Fs & Fo). rewrite Fs, O in H.
    assert (R : recover g (mk_state (tos :: rest) (nodes st) (tk st) (lost st) (false || false)) [] (tos :: rest) again = Done st' -> plain_state st') by (intros R; refine (recover_plain _ _ _ _ _ _ _ _ _ Ag R); auto).
    destruct (towards_error g (s_state tos)) as [nt|]; [|auto]. destruct tok as [tok|]; [|auto]. destruct (calculate_previous_next_node _ _) as [ns la]. injection H as <-.
    refine (conj _ (conj _ (conj L eq_refl))); cbn [stack nodes]; [constructor; auto|destruct ns; discriminate].
  Qed.

  Lemma end_plain : forall st st', plain_state st -> end_of_node g st = Done st' -> plain_state st'.
  Proof.
    intros st st' (F & N & L & O) H. unfold end_of_node in H. destruct (stack st) as [|tos rest] eqn:Es; [discriminate|]. inversion F as [|x y Ft Fr]; subst. destruct Ft as (Fm & _). rewrite Fm in H.
    destruct (assert _); cbn [bind] in H; try discriminate. destruct (update_tree_node_position _ _) as [ns| |] eqn:U; cbn [bind] in H; try discriminate. injection H as <-.
    exact (conj Fr (conj (position_ne _ _ _ U) (conj L O))).
  Qed.

  Lemma transition_plain : forall fuel st tok st', plain_state st -> apply_transition g fuel st tok = Done st' -> plain_state st'.
  Proof.
    induction fuel as [|fuel IH]; intros st tok st' P H; cbn [apply_transition] in H; [discriminate|]. destruct (stack st) as [|tos rest] eqn:Es; [discriminate|].
    destruct (lookup g (s_state tos) (t_type tok)) as [p|] eqn:Lk.
    - pose proof (plain_pushes g first own Plain _ _ _ Lk) as Pu. pose proof P as (F & N & L & O). rewrite Es in F. inversion F as [|x y Ft Fr]; subst. pose proof Ft as (Fm & Fs & Fo).
      assert (Ow : s_index tos = 0 -> own (pl_next p) /\ pl_mode p <> PlanLeftRecursive) by (intros Z; apply (plain_next g first own Plain _ _ _ (Fo Z) Lk)).
      destruct (pl_mode p) eqn:Mo.
      + apply (apply_plan_plain _ _ _ _ _ _ Es P Pu ltac:(rewrite Mo; exact Ow) H).
      + apply (apply_plan_plain _ _ _ _ _ _ Es P Pu ltac:(rewrite Mo; exact Ow) H).
      + refine (IH _ _ _ _ H). refine (conj _ (conj N (conj L O))). cbn [stack]. constructor; [|exact Fr]. refine (conj Fm (conj Fs _)). cbn. intros Z. apply (Ow Z).
    - destruct (is_final g (s_state tos)).
      + destruct (end_of_node g st) as [st1| |] eqn:E; cbn [bind] in H; try discriminate. apply (IH _ _ _ (end_plain _ _ P E) H).
      + apply (error_plain _ _ _ _ P) in H; [exact H|]. intros s s' Ps A. apply (IH _ _ _ Ps A).
  Qed.

  Lemma loop_plain : forall fuel st st', plain_state st -> parse_loop g fuel st = Done st' -> odd st' = false.
  Proof.
    induction fuel as [|fuel IH]; intros st st' P H; cbn [parse_loop] in H; [discriminate|]. destruct (BacktrackModel.next token (tk st)) as [[tok|] t].
    - destruct (apply_transition g fuel _ tok) as [st1| |] eqn:A; cbn [bind] in H; try discriminate. apply transition_plain in A; [|exact P]. apply (IH _ _ A H).
    - cbn [stack] in H. destruct (stack st) as [|tos rest] eqn:Es; [discriminate|].
      match type of H with bind ?e _ = _ => destruct e as [st1| |] eqn:E; cbn [bind] in H; try discriminate end.
      assert (P1 : plain_state st1).
      { assert (P0 : plain_state (mk_state (tos :: rest) (nodes st) t (lost st) (odd st))) by (rewrite <- Es; exact P).
        destruct (is_final g (s_state tos)); [apply (end_plain _ _ P0 E)|]. apply (error_plain _ _ _ _ P0) in E; [exact E|]. intros s s' Ps Q. injection Q as <-. exact Ps. }
      destruct (stack st1); [injection H as <-; apply P1|apply (IH _ _ P1 H)].
  Qed.

  Lemma parse_plain : forall fuel start tokens st, may_be_omitted g first = false -> parse g fuel start first tokens = Done st -> odd st = false.
  Proof.
    intros fuel start tokens st Om H. apply (loop_plain fuel (initial g start first tokens) st); [|exact H]. unfold initial. rewrite Om.
    refine (conj _ (conj _ (conj eq_refl eq_refl))); cbn [stack nodes]; [|discriminate]. constructor; [|constructor]. refine (conj eq_refl (conj eq_refl _)). intros _. apply (plain_first g first own Plain).
  Qed.
End Plain.
