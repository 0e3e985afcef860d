(** The steps of the parser that add nodes. *)
From Coq Require Import List Arith NArith Bool Lia.
From Verif Require Import TreeModel TreeSpec TreeProofs BacktrackModel ParserModel ParserSpec ParserTree ParserInv ParserPop ParserTok.
Import ListNotations.

Section Plan.
  Variable g : grammar.
  Variable all : list token.
  Hypothesis Order : in_order 0 all.
  Local Notation om := (may_be_omitted g).
  Local Notation desc := (desc g (all_starts all)).
  Local Notation frame_ok := (frame_ok (all_starts all)).
  Local Notation tk_ok := (tk_ok all).

  (** Without alternatives nothing depends on the buffer. *)
  Lemma desc_rebase : forall base base' top st fs, desc base top st fs -> marked st = false -> desc base' top st fs.
  Proof.
    intros base base' top st fs H. induction H as [top|top n f st fs H IH F N M I R|top n m f st fs H IH S N V R]; intros U.
    - constructor.
    - unfold marked in U. cbn [existsb] in U. apply orb_false_iff in U. constructor; auto. apply IH. apply U.
    - unfold marked in U. cbn [existsb] in U. apply orb_false_iff in U. destruct U as [U1 U2]. apply desc_virtual; auto.
      destruct V as [V0 V]. split; [exact V0|]. destruct (s_mode n); try discriminate. exact V.
  Qed.

  Lemma desc_stale : forall base top n st fs, desc base top (n :: st) fs -> desc base top (set_stale true n :: st) fs.
  Proof.
    intros base top n st fs H. inversion H as [|t1 n1 f1 s1 fs1 D1 F1 No1 M1 I1 R1|t1 n1 m1 f1 s1 fs1 D1 S1 No1 Vi1 R1]; subst.
    - apply desc_base; auto. destruct No1 as (N1 & N2 & N3 & N4). refine (conj N1 (conj N2 (conj N3 _))). discriminate.
    - apply desc_virtual; auto. destruct No1 as (N1 & N2 & N3 & N4). refine (conj N1 (conj N2 (conj N3 _))). discriminate.
  Qed.

  (** The frame has, or gets, its own node, and it can get one more child. *)
  Lemma reopen : forall base top st f fs f1, desc base top st (f :: fs) -> (forall m st', st = m :: st' -> s_stale m = true) ->
    f_own f1 <> None -> f_cs f1 = f_cs f -> frame_ok false f1 fs -> desc base false st (f1 :: fs).
  Proof.
    intros base top st f fs f1 H. remember (f :: fs) as gs eqn:Eg. revert f fs Eg.
    induction H as [top|top n f0 st fs0 H IH F N M I R|top n m f0 st fs0 H IH S N V R]; intros f fs Eg St Own Cs Fok; [discriminate| |]; injection Eg as -> ->.
    - apply desc_base; auto. destruct N as (N1 & N2 & N3 & N4). specialize (St n st eq_refl). refine (conj N1 (conj _ (conj N3 _))); [intros E; elim (Own E)|intros E; congruence].
    - specialize (St n (m :: st) eq_refl). apply desc_virtual; auto.
      + apply (IH f fs); auto. intros m' st' E. injection E as <- <-. exact S.
      + destruct N as (N1 & N2 & N3 & N4). refine (conj N1 (conj _ (conj N3 _))); [intros E; elim (Own E)|intros E; congruence].
      + destruct V as [V0 V]. split; [exact V0|].
        assert (K : forall b id, alt_ok g base top n m f fs b id -> alt_ok g base false n m f1 fs b id).
        { intros b id (A1 & (n0 & mat & P1 & P2 & P3 & P4 & P5 & P6) & A2). refine (conj A1 (conj _ A2)). exists n0, mat. unfold kids in *. rewrite Cs.
          refine (conj _ (conj (fun _ => Own) (conj P3 (conj P4 (conj P5 P6))))). destruct top; lia. }
        destruct (s_mode n); auto.
  Qed.

  Definition same_node (a b : stack_node) : Prop :=
    s_type a = s_type b /\ s_index a = s_index b /\ s_mode a = s_mode b /\ s_recording a = s_recording b /\ om (s_state a) = om (s_state b).

  Lemma retop : forall base tos rest f fs f1 tos1, desc base true (tos :: rest) (f :: fs) -> same_node tos1 tos -> s_stale tos1 = false ->
    s_latest tos1 = length (under (f1 :: fs)) -> (om (s_state tos1) = true -> 2 <= s_count tos1) -> f_own f1 <> None -> f_cs f1 = f_cs f -> frame_ok false f1 fs ->
    desc base false (tos1 :: rest) (f1 :: fs).
  Proof.
    intros base tos rest f fs f1 tos1 D (E1 & E2 & E3 & E4 & E5) St La Co Own Cs Fok.
    assert (No : forall n, node_ok g true n f fs -> s_type tos1 = s_type n -> om (s_state tos1) = om (s_state n) -> node_ok g false tos1 f1 fs).
    { intros n (N1 & N2 & N3 & N4) T O. refine (conj _ (conj _ (conj _ _))).
      - rewrite T. exact N1.
      - intros E. elim (Own E).
      - rewrite O. exact N3.
      - intros _. split; [exact La|]. intros E. split; [intros C; elim (Own C)|auto]. }
    inversion D as [|t1 n1 f2 s1 fs1 D1 F1 No1 M1 I1 R1|t1 n1 m1 f2 s1 fs1 D1 S1 No1 Vi1 R1]; subst.
    - apply desc_base; eauto; try congruence. unfold rec_ok in *. rewrite E4. exact R1.
    - apply desc_virtual; eauto.
      + apply (reopen base true (m1 :: s1) f fs f1 D1); auto. intros m st' X. injection X as <- <-. exact S1.
      + destruct Vi1 as [V0 V]. split; [congruence|]. rewrite E3.
        assert (K : forall b id, alt_ok g base true tos m1 f fs b id -> alt_ok g base false tos1 m1 f1 fs b id).
        { intros b id (A1 & (n0 & mat & P1 & P2 & P3 & P4 & P5 & P6) & A2 & A3 & A4 & A5). unfold alt_ok. rewrite E2, E4, E5. refine (conj A1 (conj _ (conj A2 (conj _ (conj A4 A5))))).
          - exists n0, mat. unfold kids in *. rewrite Cs. refine (conj _ (conj (fun _ => Own) (conj P3 (conj P4 (conj P5 P6))))). lia.
          - rewrite La, P4. cbn [under]. rewrite !app_length, flat_init_length, own_length, Cs. pose proof (sizes_firstn_mono (f_cs f) n0 (length (f_cs f))) as Q. rewrite firstn_all in Q. unfold kids in P1.
            destruct (f_own f1); [|contradiction]. destruct mat; lia. }
        destruct (s_mode tos); auto. rewrite E2. exact V.
      + unfold rec_ok in *. rewrite E4. exact R1.
  Qed.

  Lemma under_pos : forall base top st fs, desc base top st fs -> fs <> [] -> 0 < length (under fs).
  Proof.
    intros base top st fs H. induction H as [top|top n f st fs H IH F N M I R|top n m f st fs H IH S N V R]; intros Ne; [contradiction| |auto].
    cbn [under]. rewrite !app_length, own_length. destruct (f_own f) as [x|] eqn:O; [lia|]. destruct F as (_ & _ & F & _). specialize (IH (F O)). lia.
  Qed.

  Lemma flatten_offset : forall t, exists h r, flatten true t = h :: r /\ flatten false t = set_offset (size t) h :: r.
  Proof. intros [ty s l|ty s l cs]; [exists (mk_node 0 ty s l), []; auto|]. rewrite !flatten_node. eexists. eexists. split; reflexivity. Qed.

  Lemma last_child_pos : forall base st f fs, desc base true st (f :: fs) -> last_child f fs <> 0.
  Proof.
    intros base st f fs D. unfold last_child. rewrite own_length. destruct (f_own f) eqn:O; [lia|]. pose proof (desc_frame _ _ _ _ _ _ D f fs eq_refl) as (_ & _ & F & _). specialize (F O).
    assert (0 < length (under fs)); [|lia]. remember (f :: fs) as gs. induction D as [|top n f0 st fs0 D IH F0 N M I R|top n m f0 st fs0 D IH S N V R]; [discriminate| |auto].
    injection Heqgs as -> ->. apply (under_pos base false st fs D F).
  Qed.

  Lemma calc_top : forall f fs, last_child f fs <> 0 -> f_cs f <> [] ->
    calculate_previous_next_node (content (f :: fs)) (last_child f fs) = (under (f :: fs), length (under (f :: fs))).
  Proof.
    intros f fs P Ne. destruct (exists_last Ne) as (i & t & E). unfold calculate_previous_next_node.
    set (pre := under fs ++ own_nodes f ++ flat_init i).
    assert (C : content (f :: fs) = pre ++ flatten true t) by (cbn [content]; rewrite E, children_snoc; unfold pre; rewrite <- !app_assoc; reflexivity).
    assert (U : under (f :: fs) = pre ++ flatten false t) by (cbn [under]; rewrite E, flat_init_snoc; unfold pre; rewrite <- !app_assoc; reflexivity).
    assert (L : last_child f fs = length pre) by (unfold last_child, pre; rewrite E, removelast_last, !app_length, flat_init_length; lia).
    rewrite C, U, L in *. rewrite !app_length, !flatten_length. rewrite (proj2 (Nat.eqb_neq _ _) P). pose proof (size_pos t).
    replace (length pre <? length pre + size t) with true by (symmetry; apply Nat.ltb_lt; lia). cbn [negb andb].
    f_equal. rewrite firstn_app, Nat.sub_diag, firstn_all. cbn [firstn]. rewrite app_nil_r. rewrite skipn_app, skipn_all2, Nat.sub_diag by lia. cbn [app skipn].
    destruct (flatten_offset t) as (h & r & E1 & E2). rewrite E1, E2. replace (length pre + size t - length pre) with (size t) by lia. reflexivity.
  Qed.

  (** A token becomes a leaf, after the pushes. *)
  Lemma pushes_step : forall ps base tos rest f fs ns t tok pos recording tos' rest' ns' t',
    desc base false (set_count (S (s_count tos)) tos :: rest) (f :: fs) -> ns = under (f :: fs) -> spans ns = firstn (pos - 1) (all_spans all) ->
    tk_ok base pos true t -> nth_error all (pos - 1) = Some tok -> pushes_ok g (om (s_state tos)) ps ->
    (marked (tos :: rest) = true -> tk_recording token t = true) -> s_stale tos = false -> Forall zero (f :: fs) ->
    (match ps with q :: _ => is_own (p_mode q) = false -> s_index tos = length (under fs) | [] => True end) -> (s_recording tos = true -> recording = true) ->
    apply_pushes g ps tos rest ns t recording tok = (tos', rest', ns', t') ->
    exists base' f' fs', desc base' false (set_count (S (s_count tos')) tos' :: rest') (f' :: fs') /\ ns' = under (f' :: fs') /\ spans ns' = spans ns /\
      tk_ok base' pos true t' /\ (marked (tos' :: rest') = true -> tk_recording token t' = true) /\ s_stale tos' = false /\ Forall zero (f' :: fs').
  Proof.
    induction ps as [|p ps IH]; intros base tos rest f fs ns t tok pos recording tos' rest' ns' t' D En Sp Tk Nt Po Ma St Ze Ix Rec H; cbn [apply_pushes] in H.
    - injection H as <- <- <- <-. exists base, f, fs. auto 10.
    - destruct Po as (Ty & Po & Pr). destruct (p_mode p) as [|id] eqn:Pm.
      + set (tos0 := set_count (S (s_count tos)) tos) in *. set (o := om (p_next p)) in *.
        set (f2 := mk_frame (if o then None else Some (p_type p, t_start tok, 0)) []).
        assert (Un : (if o then ns else ns ++ [mk_node 0 (p_type p) (t_start tok) 0]) = under (f2 :: f :: fs)).
        { change (under (f2 :: f :: fs)) with (under (f :: fs) ++ own_nodes f2 ++ []). rewrite app_nil_r, <- En. unfold f2, own_nodes. destruct o; cbn [f_own]; [rewrite app_nil_r|]; reflexivity. }
        assert (Sp2 : spans (if o then ns else ns ++ [mk_node 0 (p_type p) (t_start tok) 0]) = spans ns).
        { destruct o; [reflexivity|]. rewrite spans_app. unfold spans at 2. cbn [filter]. unfold is_leaf. cbn [type_]. rewrite node_no_leaf by exact Ty. cbn. apply app_nil_r. }
        assert (Ls : length (spans ns) = pos - 1).
        { rewrite Sp, firstn_length. unfold all_spans. rewrite map_length. assert (pos - 1 < length all) by (apply nth_error_Some; congruence). lia. }
        apply (IH base) with (f := f2) (fs := f :: fs) (pos := pos) (tok := tok) in H; auto.
        * destruct H as (base' & f' & fs' & H1 & H2 & H3 & H4). exists base', f', fs'. rewrite Sp2 in H3. auto.
        * apply desc_base; auto.
          -- refine (conj _ (conj _ (conj _ _))); unfold f2; cbn [f_own f_cs].
             ++ constructor.
             ++ intros ty s l E. destruct o; [discriminate|]. injection E as <- <- <-. refine (conj Ty (conj _ _)); [discriminate|]. intros _. rewrite <- En, Ls. unfold all_starts. rewrite nth_error_map, Nt. reflexivity.
             ++ discriminate.
             ++ discriminate.
          -- refine (conj Ty (conj _ (conj _ _))); cbn [set_count s_state s_stale s_latest s_count].
             ++ unfold f2, kids. cbn [f_own f_cs length]. fold o. destruct o; [auto|discriminate].
             ++ discriminate.
             ++ intros _. split; [unfold latest_ok; cbn [s_latest]; rewrite Un; reflexivity|]. fold o. intros E. unfold f2. rewrite E. cbn [f_own]. split; [reflexivity|intros C; contradiction].
          -- cbn. rewrite En. reflexivity.
        * rewrite Sp2. exact Sp.
        * constructor; [|exact Ze]. unfold zero, f2. cbn [f_own]. destruct o; [discriminate|]. intros ty s l E. injection E as _ _ <-. reflexivity.
        * destruct ps; [exact Logic.I|]. intros _. cbn [s_index]. rewrite En. reflexivity.
      + specialize (Ix ltac:(reflexivity)). cbn [set_count s_count s_index] in H.
        destruct (BacktrackModel.start token t tok) as [t1 ti] eqn:Es. destruct (tk_start all base pos t tok t1 ti Tk Nt Es) as (base' & B1 & B2 & B3 & B4).
        replace (S (s_count tos) - 1) with (s_count tos) in H by lia.
        set (tos0 := set_count (S (s_count tos)) tos) in *.
        assert (Ls : length (spans ns) = pos - 1).
        { rewrite Sp, firstn_length. unfold all_spans. rewrite map_length. assert (pos - 1 < length all) by (apply nth_error_Some; congruence). lia. }
        assert (D' : desc base' false (tos0 :: rest) (f :: fs)).
        { destruct (marked (tos0 :: rest)) eqn:Mk; [rewrite B1; [exact D|]; apply Ma; exact Mk|]. apply (desc_rebase base); assumption. }
        pose proof (desc_node _ _ _ _ _ _ _ _ D) as (N1 & N2 & N3 & N4). destruct (N4 St) as [N5 N6]. cbn [tos0 set_count s_state s_count s_latest] in N2, N3, N5, N6.
        destruct Po as [Po1 Po2].
        pose proof (desc_frame _ _ _ _ _ _ D f fs eq_refl) as Fok.
        assert (Spu : length (spans ns) = length (spans (under fs)) + length (flat_map leaves (f_cs f))).
        { rewrite En. cbn [under]. rewrite !spans_app, (own_no_spans _ _ _ _ Fok), spans_init; [rewrite app_length; reflexivity|]. destruct Fok as [Fi _]. rewrite Forall_forall in *. intros x X. apply fine_proper. auto. }
        apply (IH base') with (f := f) (fs := fs) (pos := pos) (tok := tok) in H; auto.
        * apply desc_virtual.
          -- apply desc_stale. exact D'.
          -- reflexivity.
          -- refine (conj Ty (conj _ (conj _ _))); cbn [set_count s_state s_stale s_latest s_count].
             ++ rewrite Po1. exact N2.
             ++ rewrite Po1. exact N3.
             ++ intros _. split; [unfold latest_ok in *; cbn [s_latest]; rewrite En; reflexivity|]. rewrite Po1. exact N6.
          -- split; [cbn; congruence|]. cbn [set_count s_mode]. unfold alt_ok. cbn [set_count s_index s_state s_latest s_recording set_stale tos0 b_nodes]. refine (conj _ (conj _ (conj _ (conj _ (conj eq_refl _))))).
             ++ left. exact Ix.
             ++ exists (length (f_cs f)), (match f_own f with None => false | _ => true end). unfold kids. cbn [b_nodes b_token b_children]. rewrite firstn_all. refine (conj _ (conj _ (conj _ (conj _ (conj _ _))))).
                ** lia.
                ** destruct (f_own f); congruence.
                ** intros E. destruct (f_own f) eqn:O; [discriminate|]. destruct (N2 eq_refl) as [N7 N8]. unfold kids in N8. rewrite Po1. split; [lia|exact N7].
                ** rewrite En. cbn [under]. rewrite !app_length, flat_init_length, own_length. destruct (f_own f); lia.
                ** rewrite B4, <- Ls. exact Spu.
                ** rewrite Po1. intros E. destruct (N6 E) as [N7 N8]. destruct (f_own f) eqn:O; split; intros C; try discriminate; try reflexivity.
                   --- specialize (N8 ltac:(discriminate)). lia.
                   --- specialize (N7 eq_refl). lia.
             ++ change (s_latest tos) with (s_latest tos0). rewrite N5, En. reflexivity.
             ++ lia.
             ++ congruence.
          -- intros _. reflexivity.
        * destruct ps; [exact Logic.I|]. intros _. cbn [s_index]. exact Ix.
  Qed.

  (** The state after a step: [k] leaves. *)
  Definition good (base k : nat) (st : list stack_node) (ns : list node) : Prop :=
    exists fs, desc base true st fs /\ ns = content fs /\ calm st fs /\ spans ns = firstn k (all_spans all).

  Definition after (base pos : nat) (st : list stack_node) (ns : list node) (t : tokenizer token) : Prop :=
    good base pos st ns /\ tk_ok base pos true t /\ (marked st = true -> tk_recording token t = true).

  Lemma child_step : forall ps base tos rest f fs ns t tok pos recording tos' rest' ns' t' ty,
    desc base false (set_count (S (s_count tos)) tos :: rest) (f :: fs) -> ns = under (f :: fs) -> spans ns = firstn (pos - 1) (all_spans all) ->
    tk_ok base pos true t -> nth_error all (pos - 1) = Some tok -> pushes_ok g (om (s_state tos)) ps ->
    (marked (tos :: rest) = true -> tk_recording token t = true) -> s_stale tos = false -> Forall zero (f :: fs) ->
    (match ps with q :: _ => is_own (p_mode q) = false -> s_index tos = length (under fs) | [] => True end) -> (s_recording tos = true -> recording = true) ->
    (ty < 32768)%N -> 0 < pos ->
    apply_pushes g ps tos rest ns t recording tok = (tos', rest', ns', t') ->
    exists base', after base' pos (set_count (S (s_count tos')) tos' :: rest') (ns' ++ [mk_node 0 ty (t_start tok) (t_len tok)]) t'.
  Proof.
    intros ps base tos rest f fs ns t tok pos recording tos' rest' ns' t' ty D En Sp Tk Nt Po Ma St Ze Ix Rec Ty P H.
    destruct (pushes_step _ _ _ _ _ _ _ _ _ _ _ _ _ _ _ D En Sp Tk Nt Po Ma St Ze Ix Rec H) as (base' & f' & fs' & D' & E' & S' & T' & M' & St' & Z').
    exists base'. refine (conj _ (conj T' M')). exists (add f' (Leaf ty (t_start tok) (t_len tok)) :: fs'). refine (conj _ (conj _ (conj _ _))).
    - apply grow; [exact D'|constructor; exact Ty].
    - rewrite content_add, E'. reflexivity.
    - inversion Z' as [|a b Z1 Z2]; subst. split; [intros _; exact Z1|exact Z2].
    - rewrite spans_app, S', Sp. unfold spans. cbn [filter]. unfold is_leaf. cbn [type_]. rewrite (proj2 (N.ltb_lt _ _) Ty). cbn [map span_of start_index length_].
      assert (X : nth_error (all_spans all) (pos - 1) = Some (t_start tok, t_len tok)) by (unfold all_spans; rewrite nth_error_map, Nt; reflexivity).
      replace pos with (S (pos - 1)) at 2 by lia. revert X. generalize (all_spans all) as l. generalize (pos - 1) as k. clear. induction k as [|k IH]; intros [|a l] X; cbn in *; try discriminate.
      + injection X as ->. reflexivity.
      + f_equal. apply IH. exact X.
  Qed.

  Lemma plan_tail : forall base pos p tok tos rest ns f fs t l o st',
    calculate_previous_next_node ns (s_latest tos) = (under (f :: fs), length (under (f :: fs))) ->
    desc base false (set_count (S (s_count tos)) (set_latest (length (under (f :: fs))) tos) :: rest) (f :: fs) ->
    spans (under (f :: fs)) = firstn (pos - 1) (all_spans all) -> tk_ok base pos true t -> nth_error all (pos - 1) = Some tok -> 0 < pos ->
    (marked (tos :: rest) = true -> tk_recording token t = true) -> s_stale tos = false -> Forall zero (f :: fs) -> plan_ok g p -> om (s_state tos) = om (pl_next p) ->
    (match pl_pushes p with q :: _ => is_own (p_mode q) = false -> s_index tos = length (under fs) | [] => True end) ->
    (let (ns, latest) := calculate_previous_next_node ns (s_latest tos) in
     let '(tos, rest, ns, t) := apply_pushes g (pl_pushes p) (set_latest latest tos) rest ns t (s_recording tos) tok in
     Done (mk_state (set_count (S (s_count tos)) tos :: rest) (ns ++ [mk_node 0 (pl_type p) (t_start tok) (t_len tok)]) t l o)) = Done st' ->
    exists base', after base' pos (stack st') (nodes st') (tk st') /\ lost st' = l /\ odd st' = o.
  Proof.
    intros base pos p tok tos rest ns f fs t l o st' Ca D Sp Tk Nt Pos Ma St Ze [Ty Po] Om Ix H. rewrite Ca in H.
    destruct (apply_pushes g (pl_pushes p) (set_latest (length (under (f :: fs))) tos) rest (under (f :: fs)) t (s_recording tos) tok) as [[[tos' rest'] ns'] t'] eqn:A.
    injection H as <-. cbn [stack nodes tk lost odd].
    rewrite <- Om in Po.
    destruct (child_step _ base _ rest f fs _ t tok pos (s_recording tos) tos' rest' ns' t' (pl_type p) D eq_refl Sp Tk Nt Po Ma St Ze Ix ltac:(auto) Ty Pos A) as (base' & Af).
    exists base'. auto.
  Qed.

  Lemma desc_index : forall base top n st f fs, desc base top (n :: st) (f :: fs) -> misplaced g n = false -> s_index n = length (under fs).
  Proof.
    intros base top n st f fs D Mi. inversion D as [|t1 n1 f1 s1 fs1 D1 F1 No1 M1 I1 R1|t1 n1 m1 f1 s1 fs1 D1 S1 No1 Vi1 R1]; subst; [exact I1|].
    destruct Vi1 as [_ V]. unfold misplaced in Mi. destruct (s_mode n) as [|b id|b id x y]; cbn [point_of] in Mi; [tauto| |];
      destruct V as ([V|[V V']] & _); try exact V; rewrite V, V', Nat.eqb_refl in Mi; discriminate.
  Qed.

  Lemma misplaced_same : forall n n', s_index n = s_index n' -> s_mode n = s_mode n' -> om (s_state n) = om (s_state n') -> misplaced g n = misplaced g n'.
  Proof. intros n n' E1 E2 E3. unfold misplaced. rewrite E1, E2, E3. reflexivity. Qed.

  Lemma omitted_placed : forall n, om (s_state n) = true -> misplaced g n = false.
  Proof. intros n E. unfold misplaced. rewrite E. destruct (point_of (s_mode n)); [apply andb_false_r|reflexivity]. Qed.

  Lemma same_desc : forall base n n' st f fs, desc base false (n :: st) (f :: fs) -> same_node n' n -> s_stale n' = false -> s_latest n' = length (under (f :: fs)) ->
    (om (s_state n') = true -> (f_own f = None -> s_count n' = 1) /\ (f_own f <> None -> 2 <= s_count n')) -> desc base false (n' :: st) (f :: fs).
  Proof.
    intros base n n' st f fs D (E1 & E2 & E3 & E4 & E5) St La Co.
    assert (No : node_ok g false n' f fs).
    { destruct (desc_node _ _ _ _ _ _ _ _ D) as (N1 & N2 & N3 & N4). unfold node_ok. rewrite E1, E5. refine (conj N1 (conj N2 (conj N3 _))). intros _. split; [exact La|]. rewrite <- E5. exact Co. }
    inversion D as [|t1 n1 f2 s1 fs1 D1 F1 No1 M1 I1 R1|t1 n1 m1 f2 s1 fs1 D1 S1 No1 Vi1 R1]; subst.
    - apply desc_base; auto; try congruence. unfold rec_ok in *. rewrite E4. exact R1.
    - apply desc_virtual; auto.
      + destruct Vi1 as [V0 V]. split; [congruence|]. rewrite E3.
        assert (K : forall b id, alt_ok g base false n m1 f fs b id -> alt_ok g base false n' m1 f fs b id).
        { intros b id (A1 & (n0 & mat & P1 & P2 & P3 & P4 & P5 & P6) & A2 & A3 & A4 & A5). unfold alt_ok. rewrite E2, E4, E5. refine (conj A1 (conj _ (conj A2 (conj _ (conj A4 A5))))).
          - exists n0, mat. auto 10.
          - rewrite La, P4. cbn [under]. rewrite !app_length, flat_init_length, own_length. pose proof (sizes_firstn_mono (f_cs f) n0 (length (f_cs f))) as Q. rewrite firstn_all in Q. unfold kids in P1.
            destruct mat; [|lia]. specialize (P2 eq_refl). destruct (f_own f); [|contradiction]. lia. }
        destruct (s_mode n); auto. rewrite E2. exact V.
      + unfold rec_ok in *. rewrite E4. exact R1.
  Qed.

  Lemma frame_weaken : forall f fs, frame_ok true f fs -> frame_ok false f fs.
  Proof. intros f fs (F1 & F2 & F3 & F4). refine (conj F1 (conj F2 (conj F3 _))). discriminate. Qed.

  Lemma spans_under : forall base st f fs, desc base true st (f :: fs) -> spans (under (f :: fs)) = spans (content (f :: fs)).
  Proof.
    intros base st f fs D. pose proof (desc_frame _ _ _ _ _ _ D f fs eq_refl) as F. rewrite (content_spans _ _ _ _ F). cbn [under]. rewrite !spans_app, (own_no_spans _ _ _ _ F).
    rewrite spans_init; [reflexivity|]. destruct F as [F _]. rewrite Forall_forall in *. intros x X. apply fine_proper. auto.
  Qed.

  (** The tokenizer has just read a token. *)
  Definition read (base pos : nat) (stk : list stack_node) (t : tokenizer token) (tok : token) : Prop :=
    tk_ok base pos true t /\ nth_error all (pos - 1) = Some tok /\ 0 < pos /\ (marked stk = true -> tk_recording token t = true).

  Lemma pushes_index : forall (b : bool) p (P : Prop), b && match pl_pushes p with q :: _ => negb (is_own (p_mode q)) | [] => false end = false -> (b = false -> P) ->
    match pl_pushes p with q :: _ => is_own (p_mode q) = false -> P | [] => True end.
  Proof. intros b p P H K. destruct (pl_pushes p) as [|q r]; [exact Logic.I|]. intros E. rewrite E in H. cbn in H. rewrite andb_true_r in H. auto. Qed.

  Lemma ll_step : forall base pos st tos rest p tok st', stack st = tos :: rest -> good base (pos - 1) (tos :: rest) (nodes st) -> read base pos (tos :: rest) (tk st) tok ->
    plan_ok g p -> om (pl_next p) = om (s_state tos) -> negative g (pl_next p) = false -> pl_mode p <> PlanLeftRecursive ->
    apply_plan g st p tok = Done st' -> odd st' = false ->
    exists base', after base' pos (stack st') (nodes st') (tk st') /\ lost st' = lost st /\ odd st = false.
  Proof.
    intros base pos st tos rest p tok st' Es (fs0 & D & En & Ca & Sp) (Tk & Nt & Pos & Ma) Pl Om Ne Mo H Od.
    destruct (desc_nonempty _ _ _ _ _ _ _ D) as (f & fs & ->). unfold apply_plan in H. rewrite Es, Ne in H.
    replace (match pl_mode p with PlanLeftRecursive => true | _ => false end) with false in H by (destruct (pl_mode p); congruence).
    pose proof (desc_frame _ _ _ _ _ _ D f fs eq_refl) as Fok.
    pose proof (desc_node _ _ _ _ _ _ _ _ D) as (N1 & N2 & N3 & N4).
    assert (Mi : misplaced g (set_state (pl_next p) tos) = misplaced g tos) by (apply misplaced_same; auto).
    rewrite Mi in H. cbn [set_state s_count s_mode s_index s_type s_stale] in H.
    destruct (om (pl_next p) && (s_count tos =? 1)) eqn:Ins.
    - apply andb_true_iff in Ins. destruct Ins as [O1 C1]. apply Nat.eqb_eq in C1. rewrite Om in O1.
      assert (Ix : s_index tos = length (under fs)) by (apply (desc_index _ _ _ _ _ _ D), omitted_placed, O1).
      destruct (nth_error (nodes st) (s_index tos)) as [x|] eqn:X; cbn [unwrap bind] in H; [|discriminate].
      assert (Odd : s_stale tos = false /\ misplaced g tos && match pl_pushes p with q :: _ => negb (is_own (p_mode q)) | [] => false end = false /\ odd st = false).
      { destruct (calculate_previous_next_node _ _) as [a b]. destruct (apply_pushes _ _ _ _ _ _ _ _) as [[[a1 a2] a3] a4]. injection H as <-. cbn [odd] in Od. apply orb_false_iff in Od. destruct Od as [Od Od2]. apply orb_false_iff in Od. destruct Od as [Od3 Od]. apply orb_false_iff in Od. tauto. }
      destruct Odd as (St & Odp & Odst). destruct (N4 St) as [N5 N6]. specialize (N6 O1). destruct N6 as [N6 N7].
      destruct (f_own f) as [w|] eqn:O; [specialize (N7 ltac:(discriminate)); lia|]. destruct (N2 eq_refl) as [_ Ki]. unfold kids in Ki.
      destruct (f_cs f) as [|c [|c2 r]] eqn:C; cbn in Ki; try lia.
      pose proof Fok as (F1 & F2 & F3 & F4). rewrite C in F1. inversion F1 as [|x1 y1 Fc _]; subst x1 y1. specialize (F3 O).
      destruct (flatten_head true c) as (q & Q & _).
      assert (Ec : nodes st = under fs ++ flatten true c) by (rewrite En; cbn [content]; unfold own_nodes; rewrite O, C; cbn [app flat_children]; rewrite app_nil_r; reflexivity).
      assert (Xs : start_index x = start_of c). { rewrite Ec, Q, Ix, nth_at in X. injection X as <-. reflexivity. }
      set (f1 := mk_frame (Some (s_type tos, start_of c, 0)) [c]).
      assert (In : insert (nodes st) (s_index tos) (mk_node 0 (s_type tos) (start_index x) 0) = content (f1 :: fs)).
      { rewrite Ec, Ix, insert_at, Xs. cbn [content]. unfold f1, own_nodes. cbn [f_own f_cs flat_children app]. rewrite app_nil_r. reflexivity. }
      rewrite In in H.
      assert (Fok1 : frame_ok false f1 fs).
      { refine (conj _ (conj _ (conj _ _))); unfold f1; cbn [f_own f_cs]; try discriminate; [constructor; auto|]. intros ty s l E. injection E as <- <- <-. refine (conj N1 (conj _ _)); [intros E; contradiction|]. intros _.
        destruct (fine_first c Fc) as (l1 & r1 & E1). apply (start_at all (under fs) (flatten true c) (pos - 1) (start_of c) l1 r1).
        - rewrite <- Ec. exact Sp.
        - rewrite spans_flatten by (apply fine_proper; exact Fc). exact E1. }
      assert (La : last_child f1 fs = S (length (under fs))) by (unfold last_child, f1, own_nodes; cbn; lia).
      eapply plan_tail with (f := f1) (fs := fs) (base := base) (pos := pos) in H.
      + destruct H as (base' & Af & E1 & E2). exists base'. rewrite E1. auto.
      + cbn [set_latest s_latest]. rewrite Ix, <- La. apply calc_top; [rewrite La; discriminate|discriminate].
      + apply (retop base tos rest f fs f1); auto; cbn.
        * unfold same_node. cbn. auto.
        * intros _. lia.
        * discriminate.
      + rewrite <- Sp, Ec. cbn [under]. unfold own_nodes, f1. cbn [f_own f_cs flat_init]. rewrite app_nil_r, !spans_app. f_equal.
        unfold spans at 1. cbn [filter]. unfold is_leaf at 1. cbn [type_]. rewrite node_no_leaf by exact N1. cbn [map app]. rewrite !spans_flatten by (apply fine_proper; exact Fc). reflexivity.
      + exact Tk.
      + exact Nt.
      + exact Pos.
      + exact Ma.
      + exact St.
      + destruct Ca as [_ Ca]. constructor; [|exact Ca]. intros ty s l E. injection E as _ _ <-. reflexivity.
      + exact Pl.
      + reflexivity.
      + apply (pushes_index _ _ _ Odp). intros _. exact Ix.
    - cbn [bind] in H.
      assert (Odd : s_stale tos = false /\ misplaced g tos && match pl_pushes p with q :: _ => negb (is_own (p_mode q)) | [] => false end = false /\ odd st = false).
      { destruct (calculate_previous_next_node _ _) as [a b]. destruct (apply_pushes _ _ _ _ _ _ _ _) as [[[a1 a2] a3] a4]. injection H as <-. cbn [odd] in Od. apply orb_false_iff in Od. destruct Od as [Od Od2]. apply orb_false_iff in Od. tauto. }
      destruct Odd as (St & Odp & Odst). destruct (N4 St) as [N5 N6].
      assert (Own : f_own f <> None).
      { intros O. destruct (N2 O) as [O1 _]. destruct (N6 O1) as [N7 _]. rewrite Om, O1, (N7 O) in Ins. discriminate. }
      eapply plan_tail with (f := f) (fs := fs) (base := base) (pos := pos) in H.
      + destruct H as (base' & Af & E1 & E2). exists base'. rewrite E1. auto.
      + cbn [set_state s_latest]. rewrite En. unfold latest_ok in N5. destruct (f_cs f) as [|c r] eqn:C.
        * rewrite N5. unfold calculate_previous_next_node. cbn [Nat.eqb negb andb]. cbn [content under]. rewrite C. reflexivity.
        * rewrite N5. apply calc_top; [apply (last_child_pos _ _ _ _ D)|congruence].
      + apply (retop base tos rest f fs f); auto.
        * unfold same_node. cbn. auto.
        * cbn. rewrite Om. intros O1. destruct (N6 O1) as [_ N7]. specialize (N7 Own). lia.
        * apply frame_weaken, Fok.
      + rewrite (spans_under _ _ _ _ D), <- En. exact Sp.
      + exact Tk.
      + exact Nt.
      + exact Pos.
      + exact Ma.
      + exact St.
      + destruct Ca as [Ca1 Ca2]. constructor; auto.
      + exact Pl.
      + reflexivity.
      + apply (pushes_index _ _ _ Odp). intros E. apply (desc_index _ _ _ _ _ _ D E).
  Qed.

  (** A complete frame is a tree. *)
  Lemma frame_tree : forall f fs k, frame_ok true f fs -> fs <> [] -> complete f -> (f_own f = None -> length (f_cs f) = 1) ->
    spans (content (f :: fs)) = firstn k (all_spans all) -> exists t, fine t /\ content (f :: fs) = under fs ++ flatten true t.
  Proof.
    intros f fs k F1 Nf Co One Sp. pose proof F1 as (Fi & Fo & Fn & Fc). specialize (Fc eq_refl Nf).
    rewrite content_spans with (top := true) (all := all) in Sp by exact F1. destruct (f_cs f) as [|c r] eqn:C; [contradiction|]. destruct (f_own f) as [[[ty s] l]|] eqn:O.
    - exists (Node ty s l (c :: r)). destruct (Fo ty s l eq_refl) as (Ty & _ & St). specialize (St Nf). inversion Fi as [|x y Fcc Frr]; subst.
      destruct (fine_first c Fcc) as (l1 & r1 & E1). split.
      + constructor; auto.
        * assert (St' : nth_error (all_starts all) (length (spans (under fs))) = Some (start_of c)).
          { apply (start_at all (under fs) (flat_children (c :: r)) k (start_of c) l1 (r1 ++ flat_map leaves r)).
            - rewrite spans_app, spans_children; [exact Sp|]. rewrite Forall_forall in *. intros x X. apply fine_proper. auto.
            - rewrite spans_children; [cbn [flat_map]; rewrite E1; reflexivity|]. rewrite Forall_forall in *. intros x X. apply fine_proper. auto. }
          congruence.
        * unfold complete in Co. rewrite O, C in Co. exact Co.
      + rewrite flatten_node. cbn [content]. unfold own_nodes at 1. rewrite O, C. reflexivity.
    - specialize (One eq_refl). cbn in One. destruct r as [|c2 r]; [|cbn in One; lia].
      exists c. inversion Fi; subst. split; [assumption|]. cbn [content]. unfold own_nodes at 1. rewrite O, C. cbn [app flat_children]. rewrite app_nil_r. reflexivity.
  Qed.

  Lemma lr_step : forall base pos st tos rest p tok st', stack st = tos :: rest -> good base (pos - 1) (tos :: rest) (nodes st) -> read base pos (tos :: rest) (tk st) tok ->
    plan_ok g p -> om (pl_next p) = om (s_state tos) -> negative g (pl_next p) = false -> pl_mode p = PlanLeftRecursive ->
    apply_plan g st p tok = Done st' -> odd st' = false ->
    exists base', after base' pos (stack st') (nodes st') (tk st') /\ lost st' = lost st /\ odd st = false.
  Proof.
    intros base pos st tos rest p tok st' Es (fs0 & D & En & Ca & Sp) (Tk & Nt & Pos & Ma) Pl Om Ne Mo H Od.
    destruct (desc_nonempty _ _ _ _ _ _ _ D) as (f & fs & ->). unfold apply_plan in H. rewrite Es, Ne, Mo in H.
    pose proof (desc_frame _ _ _ _ _ _ D f fs eq_refl) as Fok.
    pose proof (desc_node _ _ _ _ _ _ _ _ D) as (N1 & N2 & N3 & N4).
    assert (Mi : misplaced g (set_state (pl_next p) tos) = misplaced g tos) by (apply misplaced_same; auto).
    rewrite Mi in H.
    destruct (update_tree_node_position (nodes st) (set_state (pl_next p) tos)) as [ns1| |] eqn:U; cbn [bind] in H; try discriminate.
    cbn [set_state s_count s_mode s_index s_type s_stale] in H.
    destruct (nth_error ns1 (s_index tos)) as [x|] eqn:X; cbn [unwrap bind] in H; [|discriminate].
    set (is_odd := (s_index tos =? 0) || negb (is_ll (s_mode tos)) && (misplaced g tos || match rest with [] => true | n :: _ => negb (is_ll (s_mode n)) end)) in H.
    set (is_odd' := misplaced g tos && match pl_pushes p with q :: _ => negb (is_own (p_mode q)) | [] => false end) in H.
    assert (Odd : is_odd = false /\ odd st = false).
    { destruct (calculate_previous_next_node _ _) as [a b]. destruct (apply_pushes _ _ _ _ _ _ _ _) as [[[a1 a2] a3] a4]. injection H as <-. cbn [odd] in Od. apply orb_false_iff in Od. destruct Od as [Od Od2]. apply orb_false_iff in Od. tauto. }
    destruct Odd as (Odp & Odst). unfold is_odd in Odp. apply orb_false_iff in Odp. destruct Odp as [Z Odp]. apply Nat.eqb_neq in Z.
    assert (Mis : misplaced g tos = false).
    { unfold misplaced. unfold misplaced in Odp. destruct (s_mode tos); cbn [is_ll negb andb point_of] in *; [reflexivity| |]; apply orb_false_iff in Odp; tauto. }
    assert (Ix : s_index tos = length (under fs)) by apply (desc_index _ _ _ _ _ _ D Mis).
    assert (Nf : fs <> []) by (intros ->; cbn in Ix; contradiction).
    rewrite En in U. destruct (position_frame all _ f fs ns1 Fok (desc_one _ _ _ _ _ _ _ D) Ix U) as (f' & -> & Sim & Fok' & Co & Cs).
    assert (Sp' : spans (content (f' :: fs)) = firstn (pos - 1) (all_spans all)) by (rewrite (similar_spans _ _ _ _ Sim Fok Fok'), <- En; exact Sp).
    assert (One : f_own f' = None -> length (f_cs f') = 1) by (intros O; rewrite Cs; apply (desc_one _ _ _ _ _ _ _ D), Sim, O).
    destruct (frame_tree f' fs (pos - 1) Fok' Nf Co One Sp') as (t & Ft & Ec).
    destruct (flatten_head true t) as (q & Q & _).
    assert (Xs : start_index x = start_of t). { rewrite Ec, Q, Ix, nth_at in X. injection X as <-. reflexivity. }
    set (f1 := mk_frame (Some (s_type tos, start_of t, 0)) [t]).
    assert (In : insert (content (f' :: fs)) (s_index tos) (mk_node 0 (s_type tos) (start_index x) 0) = content (f1 :: fs)).
    { rewrite Ec, Ix, insert_at, Xs. cbn [content]. unfold f1, own_nodes. cbn [f_own f_cs flat_children app]. rewrite app_nil_r. reflexivity. }
    rewrite In in H.
    assert (Fok1 : frame_ok false f1 fs).
    { refine (conj _ (conj _ (conj _ _))); unfold f1; cbn [f_own f_cs]; try discriminate; [constructor; auto|]. intros ty s l E. injection E as <- <- <-. refine (conj N1 (conj _ _)); [intros E; contradiction|]. intros _.
      destruct (fine_first t Ft) as (l1 & r1 & E1). apply (start_at all (under fs) (flatten true t) (pos - 1) (start_of t) l1 r1).
      - rewrite <- Ec. exact Sp'.
      - rewrite spans_flatten by (apply fine_proper; exact Ft). exact E1. }
    assert (La : last_child f1 fs = S (length (under fs))) by (unfold last_child, f1, own_nodes; cbn; lia).
    eapply plan_tail with (f := f1) (fs := fs) (base := base) (pos := pos) in H.
    + destruct H as (base' & Af & E1 & E2). exists base'. rewrite E1. auto.
    + cbn [set_latest set_mode set_stale set_count s_latest s_index set_state]. rewrite Ix, <- La. apply calc_top; [rewrite La; discriminate|discriminate].
    + set (tos1 := set_count _ _).
      assert (No : node_ok g false tos1 f1 fs).
      { refine (conj N1 (conj _ (conj _ _))); [discriminate|intros E; contradiction|]. intros _. split; [reflexivity|]. intros _. split; [discriminate|]. intros _. cbn. lia. }
      inversion D as [|t1 n1 f2 s1 fs1 D1 F1 No1 M1 I1 R1|t1 n1 m1 f2 s1 fs1 D1 S1 No1 Vi1 R1]; subst.
      * apply desc_base; auto.
      * assert (Lm : s_mode m1 = LL).
        { destruct Vi1 as [_ V]. destruct (s_mode tos) as [|b id|b id y z]; [tauto| |]; cbn [is_ll negb andb] in Odp; apply orb_false_iff in Odp; destruct Odp as [_ Odp]; destruct (s_mode m1); cbn in Odp; try discriminate; reflexivity. }
        apply desc_virtual; auto.
        -- apply (replace_frame _ _ _ true (m1 :: s1) f fs f1 D1); auto; [|discriminate]. intros m' st0 E. injection E as <- <-. auto.
        -- split; [cbn; rewrite Om; destruct Vi1; assumption|]. cbn. auto.
    + rewrite <- Sp', Ec. cbn [under]. unfold own_nodes, f1. cbn [f_own f_cs flat_init]. rewrite app_nil_r, !spans_app. f_equal.
      unfold spans at 1. cbn [filter]. unfold is_leaf at 1. cbn [type_]. rewrite node_no_leaf by exact N1. cbn [map app]. rewrite !spans_flatten by (apply fine_proper; exact Ft). reflexivity.
    + exact Tk.
    + exact Nt.
    + exact Pos.
    + intros E. apply Ma. unfold marked in *. cbn [existsb] in *. cbn [set_stale set_mode s_mode is_ll negb orb] in E. rewrite E. apply orb_true_r.
    + reflexivity.
    + destruct Ca as [_ Ca]. constructor; [|exact Ca]. intros ty s l E. injection E as _ _ <-. reflexivity.
    + exact Pl.
    + reflexivity.
    + destruct (pl_pushes p); [exact Logic.I|]. intros _. exact Ix.
  Qed.

  (** What is behind a point: nodes that are not finished, and finished trees. *)
  Inductive row : list node -> Prop :=
  | row_nil : row []
  | row_own ty s l : (32768 <= ty)%N -> row l -> row (mk_node 0 ty s 0 :: l)
  | row_tree b t l : fine t -> row l -> row (flatten b t ++ l).

  Lemma row_app : forall a b, row a -> row b -> row (a ++ b).
  Proof. intros a b A B. induction A; [exact B|constructor; auto|rewrite <- app_assoc; constructor; auto]. Qed.
  Lemma row_init : forall cs, Forall fine cs -> row (flat_init cs).
  Proof. intros cs F. induction F; [constructor|]. cbn [flat_init]. apply row_tree; auto. Qed.
  Lemma row_children : forall cs, Forall fine cs -> row (flat_children cs).
  Proof. intros cs F. induction F; [constructor|]. cbn [flat_children]. apply row_tree; auto. Qed.
  Definition plain (f : frame) : Prop := Forall fine (f_cs f) /\ forall ty st l, f_own f = Some (ty, st, l) -> (32768 <= ty)%N /\ l = 0.
  Lemma row_owned : forall f, plain f -> row (own_nodes f).
  Proof. intros f [_ P]. unfold own_nodes. destruct (f_own f) as [[[ty st] l]|]; [|constructor]. destruct (P _ _ _ eq_refl) as [T ->]. constructor; [exact T|constructor]. Qed.

  Lemma desc_plain : forall base top st fs, desc base top st fs -> Forall zero fs -> Forall plain fs.
  Proof.
    intros base top st fs D. induction D as [|top n f0 st fs0 D IH F0 N M I R|top n m f0 st fs0 D IH S N V R]; intros Z; [constructor| |auto].
    inversion Z as [|x y Z1 Z2]; subst. constructor; [|auto]. destruct F0 as (F1 & F2 & _). split; [exact F1|]. intros ty s l E. split; [apply (F2 ty s l E)|apply (Z1 _ _ _ E)].
  Qed.

  Lemma under_row : forall fs, Forall plain fs -> row (under fs).
  Proof. intros fs P. induction P as [|f fs Pf P IH]; [constructor|]. cbn [under]. apply row_app; [exact IH|]. apply row_app; [apply row_owned; exact Pf|]. apply row_init. apply Pf. Qed.
  Lemma under_more : forall ups f fs, Forall plain (ups ++ f :: fs) -> exists z, under (ups ++ f :: fs) = under (f :: fs) ++ z /\ row z.
  Proof.
    induction ups as [|u ups IH]; intros f fs P; [exists []; rewrite app_nil_r; split; [reflexivity|constructor]|]. cbn [app] in P. inversion P as [|x y Pu P']; subst. destruct (IH f fs P') as (z & E & Rz).
    exists (z ++ own_nodes u ++ flat_init (f_cs u)). cbn [app]. change (under (u :: ups ++ f :: fs)) with (under (ups ++ f :: fs) ++ own_nodes u ++ flat_init (f_cs u)). rewrite E, <- app_assoc. split; [reflexivity|].
    apply row_app; [exact Rz|]. apply row_app; [apply row_owned; exact Pu|]. apply row_init. apply Pu.
  Qed.

  Lemma behind_point : forall ups f fs n0 (mat : bool), Forall plain (ups ++ f :: fs) -> n0 < kids (match ups with [] => true | _ => false end) f -> (mat = true -> f_own f <> None) -> (mat = false -> n0 = 0) ->
    exists z, content (ups ++ f :: fs) = under (back f n0 mat :: fs) ++ z /\ row z.
  Proof.
    intros ups f fs n0 mat P Hn Hm Hm'. pose proof P as Pf. apply Forall_app in Pf. destruct Pf as [_ Pf]. inversion Pf as [|x y Pf1 Pf2]; subst.
    destruct ups as [|u ups].
    - cbn [app content]. unfold kids in Hn. destruct mat.
      + destruct (children_split (f_cs f) n0 ltac:(lia)) as (c & r & z & E1 & E2 & _). exists (flat_children (c :: r)). rewrite E2. cbn [under]. unfold back, own_nodes. cbn [f_own f_cs]. rewrite <- !app_assoc. split; [reflexivity|].
        apply row_children. destruct Pf1 as [Fi _]. rewrite <- (firstn_skipn n0 (f_cs f)), E1 in Fi. apply Forall_app in Fi. tauto.
      + rewrite Hm' by reflexivity. exists (own_nodes f ++ flat_children (f_cs f)). cbn [under]. unfold back at 1. unfold own_nodes at 2. cbn [f_own f_cs firstn flat_init app]. rewrite app_nil_r. split; [reflexivity|].
        apply row_app; [apply row_owned; exact Pf1|apply row_children, Pf1].
    - cbn [app] in P. inversion P as [|x y Pu P']; subst. destruct (under_more ups f fs P') as (z0 & E & Rz0).
      assert (R1 : row (z0 ++ own_nodes u ++ flat_children (f_cs u))) by (apply row_app; [exact Rz0|]; apply row_app; [apply row_owned; exact Pu|apply row_children, Pu]).
      assert (E1 : content ((u :: ups) ++ f :: fs) = under (f :: fs) ++ (z0 ++ own_nodes u ++ flat_children (f_cs u))) by (cbn [app content]; rewrite E, <- !app_assoc; reflexivity).
      revert R1 E1. generalize (z0 ++ own_nodes u ++ flat_children (f_cs u)) as z. intros z R1 E1. rewrite E1. cbn [under]. destruct mat.
      + exists (flat_init (skipn n0 (f_cs f)) ++ z). unfold back, own_nodes. cbn [f_own f_cs]. rewrite <- (firstn_skipn n0 (f_cs f)) at 1. rewrite flat_init_app, <- !app_assoc. split; [reflexivity|].
        apply row_app; [|exact R1]. apply row_init. destruct Pf1 as [Fi _]. rewrite <- (firstn_skipn n0 (f_cs f)) in Fi. apply Forall_app in Fi. tauto.
      + rewrite Hm' by reflexivity. exists (own_nodes f ++ flat_init (f_cs f) ++ z). unfold back at 1. unfold own_nodes at 2. cbn [f_own f_cs firstn flat_init app]. rewrite app_nil_r, <- !app_assoc. split; [reflexivity|].
        apply row_app; [apply row_owned; exact Pf1|]. apply row_app; [apply row_init, Pf1|exact R1].
  Qed.

  (** A node of the stack with an alternative: the array and the tokens before its point. *)
  Definition has_point (n : stack_node) (b : point) (id : nat) : Prop :=
    s_mode n = Alt b id \/ exists first valid, s_mode n = LastAlt b id first valid.

  Lemma at_point : forall base k above node rest fs0 b id, desc base true (above ++ node :: rest) fs0 -> has_point node b id -> Forall zero fs0 ->
    spans (content fs0) = firstn k (all_spans all) ->
    exists top m st f fs n0 (mat : bool), rest = m :: st /\ desc base top (m :: st) (f :: fs) /\ s_stale m = true /\ node_ok g top node f fs /\ om (s_state m) = om (s_state node) /\ rec_ok node rest /\
      alt_ok g base top node m f fs b id /\ n0 <= length (f_cs f) /\ (mat = true -> f_own f <> None) /\ (mat = false -> n0 = 0 /\ om (s_state node) = true) /\
      b_nodes b = length (under fs) + (if mat then 1 else 0) + sizes (firstn n0 (f_cs f)) /\
      base + b_token b = length (spans (under fs)) + length (flat_map leaves (firstn n0 (f_cs f))) /\ (om (s_state node) = true -> (b_children b = 0 <-> mat = false)) /\
      Forall zero (back f n0 mat :: fs) /\ (exists z, content fs0 = under (back f n0 mat :: fs) ++ z /\ row z) /\
      firstn (b_nodes b) (content fs0) = under (back f n0 mat :: fs) /\ length (under (back f n0 mat :: fs)) = b_nodes b /\
      spans (under (back f n0 mat :: fs)) = firstn (base + b_token b) (all_spans all) /\ base + b_token b <= k.
  Proof.
    intros base k above node rest fs0 b id D Hp Ze Sp. destruct (cut _ _ _ _ _ _ _ _ D) as (ups & f & fs & -> & Dn).
    set (top := match ups with [] => true | _ => false end) in *.
    inversion Dn as [|t1 n1 f1 s1 fs1 D1 F1 No1 M1 I1 R1|t1 n1 m1 f1 s1 fs1 D1 S1 No1 Vi1 R1]; subst.
    { destruct Hp as [E|(x & y & E)]; congruence. }
    assert (A : alt_ok g base top node m1 f fs b id) by (destruct Vi1 as [_ V]; destruct Hp as [E|(x & y & E)]; rewrite E in V; exact V).
    destruct Vi1 as [V0 _]. pose proof A as (A1 & (n0 & mat & P1 & P2 & P3 & P4 & P5 & P6) & A2).
    exists top, m1, s1, f, fs, n0, mat. pose proof (desc_frame _ _ _ _ _ _ Dn f fs eq_refl) as Fok.
    assert (L : n0 <= length (f_cs f)) by (unfold kids in P1; destruct top; lia).
    assert (P3' : mat = false -> n0 = 0) by (intros E; apply P3 in E; tauto).
    destruct (behind_point ups f fs n0 mat (desc_plain _ _ _ _ D Ze) P1 P2 P3') as (z & Ez & Rz).
    pose proof (back_length f fs n0 mat P2) as Bl. rewrite <- P4 in Bl.
    assert (Zf : Forall zero (f :: fs)) by (apply Forall_app in Ze; tauto).
    assert (Sb : length (spans (under (back f n0 mat :: fs))) = base + b_token b).
    { rewrite P5. cbn [under]. rewrite !spans_app.
      assert (E : spans (own_nodes (back f n0 mat)) = []).
      { pose proof (own_no_spans _ _ _ _ Fok) as E. unfold back, own_nodes in *. cbn [f_own]. destruct mat; [exact E|reflexivity]. }
      rewrite E, spans_init; [cbn [app back f_cs]; rewrite app_length; reflexivity|]. unfold back. cbn [f_cs]. destruct Fok as [Fi _]. rewrite <- (firstn_skipn n0 (f_cs f)) in Fi. apply Forall_app in Fi. destruct Fi as [Fi _].
      rewrite Forall_forall in *. intros x X. apply fine_proper. auto. }
    rewrite Ez, spans_app in Sp.
    refine (conj eq_refl (conj D1 (conj S1 (conj No1 (conj V0 (conj R1 (conj A (conj L (conj P2 (conj P3 (conj P4 (conj P5 (conj P6 (conj _ (conj _ (conj _ (conj Bl (conj _ _)))))))))))))))))).
    - inversion Zf as [|x y Z1 Z2]; subst. constructor; [|exact Z2]. unfold zero, back in *. cbn [f_own]. destruct mat; [exact Z1|discriminate].
    - exists z. auto.
    - rewrite Ez. rewrite <- Bl. rewrite firstn_app, Nat.sub_diag, firstn_all. cbn [firstn]. apply app_nil_r.
    - rewrite <- Sb. rewrite <- (firstn_all (spans (under (back f n0 mat :: fs)))) at 1. 
      assert (E : firstn (length (spans (under (back f n0 mat :: fs)))) (spans (under (back f n0 mat :: fs)) ++ spans z) = spans (under (back f n0 mat :: fs))) by (rewrite firstn_app, Nat.sub_diag, firstn_all; cbn [firstn]; apply app_nil_r).
      rewrite firstn_all. rewrite <- E at 1. rewrite Sp, firstn_firstn. f_equal. apply Nat.min_l.
      apply (f_equal (@length _)) in Sp. rewrite app_length, firstn_length in Sp. lia.
    - rewrite <- Sb. apply (f_equal (@length _)) in Sp. rewrite app_length, firstn_length in Sp. lia.
  Qed.

  (** The tokenizer goes back to a point. *)
  Lemma reset_step : forall base k pos fr ns t l o b node rest st tok, tk_ok base pos fr t -> tk_recording token t = true -> base + b_token b <= k -> k <= pos ->
    reset (mk_state (node :: rest) ns t l o) b = Done (st, tok) ->
    exists t', st = mk_state (set_count (b_children b) node :: rest) (firstn (b_nodes b) ns) t' false o /\
      tk_ok base (S (base + b_token b)) true t' /\ nth_error all (base + b_token b) = Some tok /\ tk_recording token t' = true.
  Proof.
    intros base k pos fr ns t l o b node rest st tok Tk Re Q K H. unfold reset in H. cbn [stack nodes tk odd] in H.
    destruct (BacktrackModel.next token (BacktrackModel.reset token t (b_token b))) as [[tok'|] t'] eqn:N; [|discriminate]. injection H as <- <-. exists t'. split; [reflexivity|].
    pose proof (tk_reset all base pos fr t (base + b_token b) Tk Re ltac:(lia) ltac:(lia)) as T. replace (base + b_token b - base) with (b_token b) in T by lia.
    destruct (tk_next_some all base (base + b_token b) false _ _ _ T N) as (E1 & E2 & E3). refine (conj E2 (conj E1 _)). rewrite E3. exact Re.
  Qed.

  Hypothesis Tab : tables_ok g.

  Lemma calc_beyond : forall ns i, length ns <= i -> calculate_previous_next_node ns i = (ns, length ns).
  Proof.
    intros ns i H. unfold calculate_previous_next_node. replace (i <? length ns) with false by (symmetry; apply Nat.ltb_ge; exact H). rewrite andb_false_r. reflexivity.
  Qed.

  Lemma limited_beneath : forall base top m st fs K, desc base top (m :: st) fs -> s_latest m <= K -> limited K m.
  Proof.
    intros base top m st fs K D L. unfold limited. inversion D as [|t1 n2 f1 s1 fs1 D1 F1 No1 M1 I1 R1|t1 n2 m1 f1 s1 fs1 D1 S1 No1 Vi1 R1]; subst; [rewrite M1; exact Logic.I|].
    destruct Vi1 as [_ Vi1]. destruct (s_mode m) as [|b1 id1|b1 id1 x1 y1]; cbn [point_of]; [exact Logic.I| |]; destruct Vi1 as (_ & _ & _ & W & _); lia.
  Qed.

  Lemma fallback_step : forall base k pos fr above node rest fs0 b id first valid ns t l o st', desc base true (above ++ node :: rest) fs0 -> ns = content fs0 -> has_point node b id -> Forall zero fs0 ->
    spans ns = firstn k (all_spans all) -> k <= pos -> tk_ok base pos fr t -> tk_recording token t = true ->
    (r <- reset (mk_state (node :: rest) ns t l o) b ;;
     let (st, tok) := (r : state * token) in
     match stack st with
     | [] => Panic
     | tos :: rest =>
         apply_plan g (mk_state (set_stale false (set_mode (LastAlt b id first valid) tos) :: rest) (nodes st) (tk st) (lost st) (odd st)) (fallback (alternatives g id)) tok
     end) = Done st' -> odd st' = false ->
    exists base' pos', after base' pos' (stack st') (nodes st') (tk st') /\ lost st' = false /\ o = false.
  Proof.
    intros base k pos fr above node rest fs0 b id first valid ns t l o st' D En Hp Ze Sp K Tk Re H Od. rewrite En in Sp.
    destruct (at_point _ _ _ _ _ _ _ _ D Hp Ze Sp) as (top & m & sub & f & fs & n0 & mat & -> & Dm & Stm & No & Omm & Rec & A & L & P2 & P3 & P4 & P5 & P6 & Zb & _ & Fi & Bl & Sb & Q).
    destruct (reset _ b) as [[st tok]| |] eqn:R; cbn [bind] in H; try discriminate.
    destruct (reset_step _ _ _ _ _ _ _ _ _ _ _ _ _ Tk Re Q K R) as (t' & -> & Tk' & Nt & Re'). cbn [stack nodes tk lost odd] in H. rewrite En, Fi in H.
    pose proof (alternatives_ok g Tab id) as (Pl & _ & _ & Mo & _ & Ne & _).
    pose proof A as (A1 & _ & A2 & A3 & A4 & A5).
    unfold apply_plan in H. cbn [stack nodes tk lost odd] in H. rewrite Ne, Mo in H. cbn [set_state set_stale set_mode set_count s_count s_mode s_index s_type s_stale] in H.
    set (p := fallback (alternatives g id)) in *.
    match type of H with context [misplaced g ?n] => set (n1 := n) in H end.
    assert (Mi : misplaced g n1 = misplaced g node).
    { unfold misplaced, n1. cbn [set_state set_stale set_mode set_count s_mode point_of s_index s_state]. rewrite A5. destruct Hp as [E|(x & y & E)]; rewrite E; reflexivity. }
    rewrite Mi in H.
    destruct (om (pl_next p) && (b_children b =? 1)) eqn:Ins.
    - exfalso. apply andb_true_iff in Ins. destruct Ins as [_ I1]. apply Nat.eqb_eq in I1. cbn [point_of] in H. rewrite I1 in H. cbn [Nat.eqb negb] in H.
      destruct (nth_error _ _) as [x|]; cbn [unwrap bind] in H; [|discriminate]. destruct (calculate_previous_next_node _ _) as [a c]. destruct (apply_pushes _ _ _ _ _ _ _ _) as [[[a1 a2] a3] a4].
      injection H as <-. cbn [odd] in Od. rewrite !orb_false_iff in Od. intuition discriminate.
    - cbn [bind] in H.
      assert (Odd : misplaced g node && match pl_pushes p with q :: _ => negb (is_own (p_mode q)) | [] => false end = false /\ o = false).
      { destruct (calculate_previous_next_node _ _) as [a c]. destruct (apply_pushes _ _ _ _ _ _ _ _) as [[[a1 a2] a3] a4]. injection H as <-. cbn [odd] in Od. apply orb_false_iff in Od. destruct Od as [Od Od2]. apply orb_false_iff in Od. tauto. }
      destruct Odd as [Odp Odo].
      assert (Lim : forall m' st', m :: sub = m' :: st' -> s_stale m' = true /\ limited (length (under fs) + (if mat then 1 else 0) + sizes (firstn n0 (f_cs f))) m' /\ (mat = false -> om (s_state m') = true)).
      { intros m' st0 E. injection E as <- <-. refine (conj Stm (conj _ _)).
        - apply (limited_beneath _ _ _ _ _ _ Dm). lia.
        - intros E. rewrite Omm. apply P3. exact E. }
      eapply plan_tail with (f := back f n0 mat) (fs := fs) (base := base) (pos := S (base + b_token b)) in H.
      + destruct H as (base' & Af & E1 & E2). exists base', (S (base + b_token b)). rewrite E1. auto.
      + apply calc_beyond. rewrite Bl. exact A3.
      + apply desc_virtual.
        * apply (shrink g _ base top (m :: sub) f fs n0 mat Dm Lim L P2). intros E. apply P3. exact E.
        * exact Stm.
        * destruct No as (N1 & N2 & N3 & N4). refine (conj N1 (conj _ (conj _ _))); cbn [set_count set_latest s_state n1 set_state s_stale set_stale s_latest s_count set_mode].
          -- rewrite A5. unfold back at 1. cbn [f_own]. destruct mat; [intros E; elim (P2 eq_refl E)|]. intros _. destruct (P3 eq_refl) as [-> O1]. split; [exact O1|reflexivity].
          -- rewrite A5. exact N3.
          -- intros _. split; [reflexivity|]. rewrite A5. intros O1. specialize (P6 O1). unfold back. cbn [f_own]. destruct mat.
             ++ split; [intros E; elim (P2 eq_refl E)|]. intros _. rewrite A5, O1 in Ins. cbn in Ins. apply Nat.eqb_neq in Ins. destruct (b_children b) as [|[|j]]; [destruct P6 as [P6 _]; discriminate (P6 eq_refl)|lia|lia].
             ++ destruct P6 as [_ P6]. rewrite (P6 eq_refl). split; [reflexivity|]. intros E. elim E. reflexivity.
        * split; cbn [set_count set_latest s_state n1 set_state s_stale set_stale s_latest s_count set_mode s_mode]; [rewrite A5; exact Omm|].
          unfold alt_ok. cbn [set_count set_latest s_state n1 set_state s_stale set_stale s_latest s_count set_mode s_mode s_index s_recording]. fold p. rewrite A5.
          refine (conj A1 (conj _ (conj A2 (conj _ (conj A4 eq_refl))))); [|lia].
          exists n0, mat. unfold kids, back. cbn [f_cs f_own]. rewrite firstn_firstn, Nat.min_id, firstn_length_le by exact L. refine (conj _ (conj _ (conj P3 (conj P4 (conj P5 P6))))); [lia|].
          intros ->. auto.
        * exact Rec.
      + replace (S (base + b_token b) - 1) with (base + b_token b) by lia. exact Sb.
      + exact Tk'.
      + replace (S (base + b_token b) - 1) with (base + b_token b) by lia. exact Nt.
      + lia.
      + auto.
      + reflexivity.
      + exact Zb.
      + exact Pl.
      + reflexivity.
      + apply (pushes_index _ _ _ Odp). cbn. intros E. unfold misplaced in E. destruct A1 as [A1|[A1 A1']]; [exact A1|]. destruct Hp as [X|(x & y & X)]; rewrite X in E; cbn [point_of] in E; rewrite A1, A1', Nat.eqb_refl in E; discriminate.
  Qed.

  Lemma replay_step : forall base k pos fr above node n rest fs0 b id ns t l o st', desc base true (above ++ node :: n :: rest) fs0 -> ns = content fs0 -> has_point node b id -> Forall zero fs0 ->
    spans ns = firstn k (all_spans all) -> k <= pos -> tk_ok base pos fr t -> tk_recording token t = true ->
    (r <- reset (mk_state (node :: n :: rest) ns t l o) b ;;
     let (st, tok) := (r : state * token) in
     apply_plan g (mk_state (set_stale false (set_count 0 n) :: rest) (nodes st) (tk st) (lost st)
       (odd st || (may_be_omitted g (pl_next (replay (alternatives g id))) && negb (b_children b =? 0)))) (replay (alternatives g id)) tok) = Done st' -> odd st' = false ->
    exists base' pos', after base' pos' (stack st') (nodes st') (tk st') /\ lost st' = false /\ o = false.
  Proof.
    intros base k pos fr above node n rest fs0 b id ns t l o st' D En Hp Ze Sp K Tk Re H Od. rewrite En in Sp.
    destruct (at_point _ _ _ _ _ _ _ _ D Hp Ze Sp) as (top & m & sub & f & fs & n0 & mat & Er & Dm & Stm & No & Omm & Rec & A & L & P2 & P3 & P4 & P5 & P6 & Zb & _ & Fi & Bl & Sb & Q).
    injection Er as <- <-.
    destruct (reset _ b) as [[st tok]| |] eqn:R; cbn [bind] in H; try discriminate.
    destruct (reset_step _ _ _ _ _ _ _ _ _ _ _ _ _ Tk Re Q K R) as (t' & -> & Tk' & Nt & Re'). cbn [stack nodes tk lost odd] in H. rewrite En, Fi in H.
    pose proof (alternatives_ok g Tab id) as (_ & Pl & Omr & _ & Mo & _ & Ne & _).
    pose proof A as (A1 & _ & A2 & A3 & A4 & A5). rewrite A5 in Omr.
    unfold apply_plan in H. cbn [stack nodes tk lost odd] in H. rewrite Ne, Mo in H. cbn [set_state set_stale set_mode set_count s_count s_mode s_index s_type s_stale Nat.eqb] in H.
    rewrite andb_false_r in H. cbn [bind] in H.
    set (p := replay (alternatives g id)) in *. match type of H with context [misplaced g ?n] => set (n1 := n) in H end.
    assert (Mi : misplaced g n1 = misplaced g n).
    { apply misplaced_same; auto. cbn. rewrite Omr, Omm. reflexivity. }
    rewrite Mi in H.
    assert (Odd : misplaced g n && match pl_pushes p with q :: _ => negb (is_own (p_mode q)) | [] => false end = false /\ o = false /\ om (pl_next p) && negb (b_children b =? 0) = false).
    { destruct (calculate_previous_next_node _ _) as [a c]. destruct (apply_pushes _ _ _ _ _ _ _ _) as [[[a1 a2] a3] a4]. injection H as <-. cbn [odd] in Od. rewrite !orb_false_iff in Od. tauto. }
    destruct Odd as (Odp & Odo & Odc).
    assert (Lim : forall m' st', n :: rest = m' :: st' -> s_stale m' = true /\ limited (length (under fs) + (if mat then 1 else 0) + sizes (firstn n0 (f_cs f))) m' /\ (mat = false -> om (s_state m') = true)).
    { intros m' st0 E. injection E as <- <-. refine (conj Stm (conj _ _)).
      - apply (limited_beneath _ _ _ _ _ _ Dm). lia.
      - intros E. rewrite Omm. apply P3. exact E. }
    pose proof (shrink g _ base top (n :: rest) f fs n0 mat Dm Lim L P2 (fun E => proj1 (P3 E))) as Ds.
    eapply plan_tail with (f := back f n0 mat) (fs := fs) (base := base) (pos := S (base + b_token b)) in H.
    + destruct H as (base' & Af & E1 & E2). exists base', (S (base + b_token b)). rewrite E1. auto.
    + apply calc_beyond. rewrite Bl. cbn. lia.
    + apply (same_desc base n); auto.
      * unfold same_node. cbn. rewrite Omr, Omm. auto.
      * cbn. rewrite Omr. intros O1. specialize (P6 O1). rewrite Omr, O1 in Odc. cbn in Odc. apply negb_false_iff, Nat.eqb_eq in Odc. apply P6 in Odc. unfold back. rewrite Odc. cbn [f_own]. split; [reflexivity|]. intros E. elim E. reflexivity.
    + replace (S (base + b_token b) - 1) with (base + b_token b) by lia. exact Sb.
    + exact Tk'.
    + replace (S (base + b_token b) - 1) with (base + b_token b) by lia. exact Nt.
    + lia.
    + auto.
    + reflexivity.
    + exact Zb.
    + exact Pl.
    + reflexivity.
    + apply (pushes_index _ _ _ Odp). cbn. intros E. apply (desc_index _ _ _ _ _ _ Dm E).
  Qed.
End Plan.
