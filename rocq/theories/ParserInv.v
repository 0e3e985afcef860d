(** The invariant of the parser: how the stack describes the unfinished tree in the array of nodes. *)
From Coq Require Import List Arith NArith Bool Lia.
From Verif Require Import TreeModel TreeSpec TreeProofs BacktrackModel ParserModel ParserSpec ParserTree.
Import ListNotations.

(** A node that is not finished: its own place in the array, unless it may be omitted and has one child, and the finished children. *)
Record frame := mk_frame { f_own : option (N * nat * nat); f_cs : list tree }.
Definition own_nodes (f : frame) : list node := match f_own f with Some (ty, st, l) => [mk_node 0 ty st l] | None => [] end.
(** Frames, the innermost first.  [under]: there is something behind them; [content]: there is not. *)
Fixpoint under (fs : list frame) : list node :=
  match fs with [] => [] | f :: fs => under fs ++ own_nodes f ++ flat_init (f_cs f) end.
Definition content (fs : list frame) : list node :=
  match fs with [] => [] | f :: fs => under fs ++ own_nodes f ++ flat_children (f_cs f) end.
Definition kids (top : bool) (f : frame) : nat := length (f_cs f) + (if top then 0 else 1).
Definition add (f : frame) (t : tree) : frame := mk_frame (f_own f) (f_cs f ++ [t]).
Definition last_child (f : frame) (fs : list frame) : nat := length (under fs) + length (own_nodes f) + sizes (removelast (f_cs f)).

Section Inv.
  Variable g : grammar.
  (** Where the tokens start. *)
  Variable starts : list nat.
  (** The number of the first token in the buffer of the tokenizer. *)
  Variable base : nat.
  Local Notation om := (may_be_omitted g).

  Definition frame_ok (top : bool) (f : frame) (fs : list frame) : Prop :=
    Forall fine (f_cs f) /\
    (forall ty st l, f_own f = Some (ty, st, l) -> (32768 <= ty)%N /\ (fs = [] -> st = 0) /\
       (fs <> [] -> nth_error starts (length (spans (under fs))) = Some st)) /\
    (f_own f = None -> fs <> []) /\
    (top = true -> fs <> [] -> f_cs f <> []).

  Definition latest_ok (top : bool) (n : stack_node) (f : frame) (fs : list frame) : Prop :=
    if top then match f_cs f with [] => s_latest n = 0 | _ => s_latest n = last_child f fs end
    else s_latest n = length (under (f :: fs)).

  Definition node_ok (top : bool) (n : stack_node) (f : frame) (fs : list frame) : Prop :=
    (32768 <= s_type n)%N /\
    (f_own f = None -> om (s_state n) = true /\ kids top f = 1) /\
    (fs = [] -> om (s_state n) = false) /\
    (s_stale n = false -> latest_ok top n f fs /\ (om (s_state n) = true -> (f_own f = None -> s_count n = 1) /\ (f_own f <> None -> 2 <= s_count n))).

  Definition point_ok (top : bool) (o : bool) (b : point) (f : frame) (fs : list frame) : Prop :=
    exists (n0 : nat) (mat : bool),
      n0 < kids top f /\ (mat = true -> f_own f <> None) /\ (mat = false -> n0 = 0 /\ o = true) /\
      b_nodes b = length (under fs) + (if mat then 1 else 0) + sizes (firstn n0 (f_cs f)) /\
      base + b_token b = length (spans (under fs)) + length (flat_map leaves (firstn n0 (f_cs f))) /\
      (o = true -> (b_children b = 0 <-> mat = false)).

  Definition alt_ok (top : bool) (n m : stack_node) (f : frame) (fs : list frame) (b : point) (id : nat) : Prop :=
    (s_index n = length (under fs) \/ s_index n = b_nodes b /\ om (s_state n) = false) /\
    point_ok top (om (s_state n)) b f fs /\ s_latest m = b_nodes b /\ b_nodes b <= s_latest n /\ s_recording n = true /\
    om (pl_next (fallback (alternatives g id))) = om (s_state n).

  Definition virtual_ok (top : bool) (n m : stack_node) (f : frame) (fs : list frame) : Prop :=
    om (s_state m) = om (s_state n) /\
    match s_mode n with
    | LL => s_index n = length (under fs) /\ s_mode m = LL
    | Alt b id => alt_ok top n m f fs b id
    | LastAlt b id _ _ => alt_ok top n m f fs b id
    end.

  Definition rec_ok (n : stack_node) (st : list stack_node) : Prop :=
    match st with m :: _ => s_recording m = true -> s_recording n = true | [] => True end.

  Inductive desc : bool -> list stack_node -> list frame -> Prop :=
  | desc_nil top : desc top [] []
  | desc_base top n f st fs : desc false st fs -> frame_ok top f fs -> node_ok top n f fs -> s_mode n = LL ->
      s_index n = length (under fs) -> rec_ok n st -> desc top (n :: st) (f :: fs)
  | desc_virtual top n m f st fs : desc top (m :: st) (f :: fs) -> s_stale m = true -> node_ok top n f fs ->
      virtual_ok top n m f fs -> rec_ok n (m :: st) -> desc top (n :: m :: st) (f :: fs).

  Definition zero (f : frame) : Prop := forall ty st l, f_own f = Some (ty, st, l) -> l = 0.
  Definition calm (st : list stack_node) (fs : list frame) : Prop :=
    match st, fs with
    | n :: _, f :: fs => (s_stale n = false -> zero f) /\ Forall zero fs
    | _, _ => True
    end.

  Definition marked (st : list stack_node) : bool := existsb (fun n => negb (is_ll (s_mode n))) st.

  Lemma desc_frame : forall top st fs, desc top st fs -> forall f fs', fs = f :: fs' -> frame_ok top f fs'.
  Proof.
    intros top st fs H. induction H as [top|top n f0 st fs0 H IH F N M I R|top n m f0 st fs0 H IH S N V R]; intros f fs' E.
    - discriminate.
    - injection E as <- <-. exact F.
    - apply IH. exact E.
  Qed.

  Lemma desc_node : forall top n st f fs, desc top (n :: st) (f :: fs) -> node_ok top n f fs.
  Proof. intros top n st f fs H. inversion H; subst; assumption. Qed.

  Lemma desc_nonempty : forall top n st fs, desc top (n :: st) fs -> exists f fs', fs = f :: fs'.
  Proof. intros top n st fs H. inversion H; subst; eauto. Qed.

  Lemma unmarked : forall top st fs, desc top st fs -> forall n st', st = n :: st' -> s_recording n = false -> marked st = false.
  Proof.
    intros top st fs H. induction H as [top|top n f0 st fs0 H IH F N M I R|top n m f0 st fs0 H IH S N V R]; intros n' st' E Rec.
    - discriminate.
    - injection E as <- <-. unfold marked. cbn [existsb]. rewrite M. cbn [is_ll negb orb].
      destruct st as [|m st]; [reflexivity|]. apply (IH m st eq_refl). unfold rec_ok in R. destruct (s_recording m); [|reflexivity]. rewrite R in Rec by reflexivity. discriminate.
    - injection E as <- <-. unfold marked. cbn [existsb]. destruct V as [_ V].
      assert (Rm : s_recording m = false) by (unfold rec_ok in R; destruct (s_recording m); [|reflexivity]; rewrite R in Rec by reflexivity; discriminate).
      specialize (IH m st eq_refl Rm). unfold marked in IH. cbn [existsb] in IH. rewrite IH.
      destruct (s_mode n) as [|b id|b id x y]; [reflexivity| |]; destruct V as (_ & _ & _ & _ & V & _); congruence.
  Qed.

  Lemma flat_init_app : forall a b, flat_init (a ++ b) = flat_init a ++ flat_init b.
  Proof. induction a as [|c a IH]; intros b; [reflexivity|]. cbn [app flat_init]. rewrite IH, app_assoc. reflexivity. Qed.

  Lemma children_snoc : forall a c, flat_children (a ++ [c]) = flat_init a ++ flatten true c.
  Proof. intros a c. rewrite flat_split. cbn [flat_children]. rewrite app_nil_r. reflexivity. Qed.

  Lemma content_add : forall f t fs, content (add f t :: fs) = under (f :: fs) ++ flatten true t.
  Proof. intros f t fs. unfold content, add. cbn [f_cs under]. unfold own_nodes. cbn [f_own]. rewrite children_snoc, <- !app_assoc. reflexivity. Qed.

  Lemma last_child_add : forall f t fs, last_child (add f t) fs = length (under (f :: fs)).
  Proof.
    intros f t fs. unfold last_child, add. cbn [f_cs under]. unfold own_nodes. cbn [f_own]. rewrite removelast_last, !app_length, flat_init_length. lia.
  Qed.

  Lemma firstn_add : forall {A} n (l : list A) x, n <= length l -> firstn n (l ++ [x]) = firstn n l.
  Proof. intros A n l x H. rewrite firstn_app. replace (n - length l) with 0 by lia. cbn. apply app_nil_r. Qed.

  (** The child in progress is finished. *)
  Lemma grow : forall st f fs t, desc false st (f :: fs) -> fine t -> desc true st (add f t :: fs).
  Proof.
    intros st f fs t H Ft. remember false as top eqn:Et. remember (f :: fs) as gs eqn:Eg. revert Et f fs Eg.
    induction H as [top|top n f0 st fs0 H IH F N M I R|top n m f0 st fs0 H IH S N V R]; intros Et f fs Eg; [discriminate| |]; subst top; injection Eg as -> ->.
    - apply desc_base; auto.
      + destruct F as (F1 & F2 & F3 & F4). refine (conj _ (conj _ (conj _ _))).
        * apply Forall_app. auto.
        * exact F2.
        * exact F3.
        * intros _ _ C. cbn [add f_cs] in C. destruct (f_cs f); discriminate.
      + destruct N as (N1 & N2 & N3 & N4). refine (conj N1 (conj _ (conj N3 _))).
        * intros E. destruct (N2 E) as [N5 N6]. split; [exact N5|]. unfold kids, add in *. cbn [f_cs]. rewrite app_length. cbn. lia.
        * intros E. destruct (N4 E) as [N5 N6]. split; [|exact N6]. unfold latest_ok in *. rewrite last_child_add.
          destruct (f_cs (add f t)) eqn:C; [cbn [add f_cs] in C; destruct (f_cs f); discriminate|exact N5].
    - apply desc_virtual; auto.
      + destruct N as (N1 & N2 & N3 & N4). refine (conj N1 (conj _ (conj N3 _))).
        * intros E. destruct (N2 E) as [N5 N6]. split; [exact N5|]. unfold kids, add in *. cbn [f_cs]. rewrite app_length. cbn. lia.
        * intros E. destruct (N4 E) as [N5 N6]. split; [|exact N6]. unfold latest_ok in *. rewrite last_child_add.
          destruct (f_cs (add f t)) eqn:C; [cbn [add f_cs] in C; destruct (f_cs f); discriminate|exact N5].
      + destruct V as [V0 V]. split; [exact V0|].
        assert (K : forall b id, alt_ok false n m f fs b id -> alt_ok true n m (add f t) fs b id).
        { intros b id (A1 & (n0 & mat & P1 & P2 & P3 & P4 & P5 & P6) & A2). refine (conj A1 (conj _ A2)).
          exists n0, mat. unfold kids, add in *. cbn [f_cs f_own] in *. rewrite firstn_add by lia. rewrite app_length. cbn [length].
          refine (conj _ (conj P2 (conj P3 (conj P4 (conj P5 P6))))). lia. }
        destruct (s_mode n); auto.
  Qed.

  (** Frames with children of the same sizes and leaves. *)
  Definition similar (f f' : frame) : Prop :=
    (f_own f = None <-> f_own f' = None) /\ length (f_cs f) = length (f_cs f') /\
    (forall n, sizes (firstn n (f_cs f)) = sizes (firstn n (f_cs f'))) /\
    (forall n, flat_map leaves (firstn n (f_cs f)) = flat_map leaves (firstn n (f_cs f'))).

  Lemma own_length : forall f, length (own_nodes f) = match f_own f with None => 0 | _ => 1 end.
  Proof. intros [[[[? ?] ?]|] ?]; reflexivity. Qed.

  Lemma similar_own : forall f f', similar f f' -> length (own_nodes f) = length (own_nodes f').
  Proof.
    intros f f' (H & _). rewrite !own_length. destruct (f_own f), (f_own f'); try reflexivity; exfalso.
    - destruct H as [_ H]. discriminate (H eq_refl).
    - destruct H as [H _]. discriminate (H eq_refl).
  Qed.

  Lemma sizes_all : forall f f', similar f f' -> sizes (f_cs f) = sizes (f_cs f').
  Proof. intros f f' (_ & L & S & _). specialize (S (length (f_cs f))). rewrite firstn_all in S. rewrite L, firstn_all in S. exact S. Qed.

  Lemma removelast_sizes : forall f f', similar f f' -> sizes (removelast (f_cs f)) = sizes (removelast (f_cs f')).
  Proof.
    intros f f' (_ & L & S & _). rewrite !removelast_firstn_len. rewrite <- L. apply S.
  Qed.

  Lemma similar_desc : forall top st f fs f', desc top st (f :: fs) -> similar f f' -> frame_ok top f' fs -> desc top st (f' :: fs).
  Proof.
    intros top st f fs f' H Sim Fok. remember (f :: fs) as gs eqn:Eg. revert f fs Eg Sim Fok.
    induction H as [top|top n f0 st fs0 H IH F N M I R|top n m f0 st fs0 H IH S N V R]; intros f fs Eg Sim Fok; [discriminate| |]; injection Eg as -> ->.
    - apply desc_base; auto. destruct N as (N1 & N2 & N3 & N4). destruct (Sim) as (S1 & S2 & S3 & S4). refine (conj N1 (conj _ (conj N3 _))).
      + intros E. destruct (N2 (proj2 S1 E)) as [N5 N6]. split; [exact N5|]. unfold kids in *. rewrite <- S2. exact N6.
      + intros E. destruct (N4 E) as [N5 N6]. split; [|intros O; destruct (N6 O) as [N7 N8]; split; intros C; [apply N7, S1, C|apply N8; intros X; apply C, S1, X]]. unfold latest_ok in *. destruct top.
        * destruct (f_cs f) as [|a r] eqn:C1, (f_cs f') as [|a' r'] eqn:C2; try discriminate; [exact N5|]. unfold last_child in *. rewrite <- (similar_own _ _ Sim), <- (removelast_sizes _ _ Sim). exact N5.
        * cbn [under] in *. rewrite !app_length, flat_init_length in *. rewrite <- (similar_own _ _ Sim), <- (sizes_all _ _ Sim). exact N5.
    - apply desc_virtual; [apply (IH f fs eq_refl Sim Fok)|exact S| | |exact R].
      + destruct N as (N1 & N2 & N3 & N4). destruct (Sim) as (S1 & S2 & S3 & S4). refine (conj N1 (conj _ (conj N3 _))).
        * intros E. destruct (N2 (proj2 S1 E)) as [N5 N6]. split; [exact N5|]. unfold kids in *. rewrite <- S2. exact N6.
        * intros E. destruct (N4 E) as [N5 N6]. split; [|intros O; destruct (N6 O) as [N7 N8]; split; intros C; [apply N7, S1, C|apply N8; intros X; apply C, S1, X]]. unfold latest_ok in *. destruct top.
          -- destruct (f_cs f) as [|a r] eqn:C1, (f_cs f') as [|a' r'] eqn:C2; try discriminate; [exact N5|]. unfold last_child in *. rewrite <- (similar_own _ _ Sim), <- (removelast_sizes _ _ Sim). exact N5.
          -- cbn [under] in *. rewrite !app_length, flat_init_length in *. rewrite <- (similar_own _ _ Sim), <- (sizes_all _ _ Sim). exact N5.
      + destruct (Sim) as (S1 & S2 & S3 & S4). destruct V as [V0 V]. split; [exact V0|].
        assert (K : forall b id, alt_ok top n m f fs b id -> alt_ok top n m f' fs b id).
        { intros b id (A1 & (n0 & mat & P1 & P2 & P3 & P4 & P5 & P6) & A2). refine (conj A1 (conj _ A2)).
          exists n0, mat. unfold kids in *. rewrite <- S3, <- S4, <- S2. refine (conj P1 (conj _ (conj P3 (conj P4 (conj P5 P6))))).
          intros E C. apply (P2 E). apply S1. exact C. }
        destruct (s_mode n); auto.
  Qed.

  (** The frame as it was at a point. *)
  Definition back (f : frame) (n0 : nat) (mat : bool) : frame := mk_frame (if mat then f_own f else None) (firstn n0 (f_cs f)).

  Lemma sizes_firstn_mono : forall cs a b, a <= b -> sizes (firstn a cs) <= sizes (firstn b cs).
  Proof.
    induction cs as [|c cs IH]; intros a b H; [rewrite !firstn_nil; lia|]. destruct a as [|a]; [unfold sizes at 1; cbn; lia|]. destruct b as [|b]; [lia|].
    cbn [firstn]. rewrite !sizes_cons. specialize (IH a b). lia.
  Qed.
  Lemma sizes_firstn_strict : forall cs a b, a < b -> a < length cs -> sizes (firstn a cs) < sizes (firstn b cs).
  Proof.
    induction cs as [|c cs IH]; intros a b H L; [cbn in L; lia|]. destruct b as [|b]; [lia|]. cbn [firstn]. rewrite sizes_cons. pose proof (size_pos c).
    destruct a as [|a]; [unfold sizes at 1; cbn; lia|]. cbn [firstn]. rewrite sizes_cons. specialize (IH a b). cbn in L. lia.
  Qed.

  Definition limited (K : nat) (n : stack_node) : Prop := match point_of (s_mode n) with Some b => b_nodes b <= K | None => True end.

  Lemma shrink : forall top st f fs n0 (mat : bool), desc top st (f :: fs) -> (forall m st', st = m :: st' -> s_stale m = true /\ limited (length (under fs) + (if mat then 1 else 0) + sizes (firstn n0 (f_cs f))) m /\ (mat = false -> om (s_state m) = true)) ->
    n0 <= length (f_cs f) -> (mat = true -> f_own f <> None) -> (mat = false -> n0 = 0) -> desc false st (back f n0 mat :: fs).
  Proof.
    intros top st f fs n0 mat H. remember (f :: fs) as gs eqn:Eg. revert f fs Eg.
    induction H as [top|top n f0 st fs0 H IH F N M I R|top n m f0 st fs0 H IH S N V R]; intros f fs Eg Top L Mat NoMat; [discriminate| |]; injection Eg as -> ->.
    - destruct (Top n st eq_refl) as (St & Li & Om). destruct N as (N1 & N2 & N3 & N4). apply desc_base; auto.
      + destruct F as (F1 & F2 & F3 & F4). refine (conj _ (conj _ (conj _ _))).
        * unfold back. cbn [f_cs]. rewrite <- (firstn_skipn n0 (f_cs f)) in F1. apply Forall_app in F1. tauto.
        * unfold back. cbn [f_own]. destruct mat; [exact F2|discriminate].
        * unfold back. cbn [f_own]. destruct mat; [exact F3|]. intros _ E. specialize (N3 E). specialize (Om eq_refl). congruence.
        * discriminate.
      + refine (conj N1 (conj _ (conj N3 _))).
        * unfold back. cbn [f_own]. destruct mat; [intros E; elim (Mat eq_refl E)|]. intros _. split; [auto|]. rewrite NoMat by reflexivity. reflexivity.
        * intros E. congruence.
    - destruct (Top n (m :: st) eq_refl) as (St & Li & Om). destruct N as (N1 & N2 & N3 & N4).
      assert (Sub : desc false (m :: st) (back f n0 mat :: fs)).
      { apply IH; auto. intros m0 st' E. injection E as <- <-. destruct V as [V0 V]. refine (conj S (conj _ _)); [|rewrite V0; exact Om].
        unfold limited in *. destruct (s_mode n) as [|b id|b id x y]; cbn [point_of] in Li.
        - destruct V as [_ V]. rewrite V. exact Logic.I.
        - destruct V as (V1 & V2 & V3 & V4 & V5). inversion H as [|t1 n1 f1 s1 fs1 D1 F1 No1 M1 I1 R1|t1 n1 m1 f1 s1 fs1 D1 S1 No1 Vi1 R1]; subst; [rewrite M1; exact Logic.I|].
          destruct Vi1 as [_ Vi1]. destruct (s_mode m) as [|b1 id1|b1 id1 x1 y1]; cbn [point_of]; [exact Logic.I| |]; destruct Vi1 as (_ & _ & _ & W & _); lia.
        - destruct V as (V1 & V2 & V3 & V4 & V5). inversion H as [|t1 n1 f1 s1 fs1 D1 F1 No1 M1 I1 R1|t1 n1 m1 f1 s1 fs1 D1 S1 No1 Vi1 R1]; subst; [rewrite M1; exact Logic.I|].
          destruct Vi1 as [_ Vi1]. destruct (s_mode m) as [|b1 id1|b1 id1 x1 y1]; cbn [point_of]; [exact Logic.I| |]; destruct Vi1 as (_ & _ & _ & W & _); lia. }
      apply desc_virtual; auto.
      + refine (conj N1 (conj _ (conj N3 _))).
        * unfold back. cbn [f_own]. destruct mat; [intros E; elim (Mat eq_refl E)|]. intros _. split; [auto|]. rewrite NoMat by reflexivity. reflexivity.
        * intros E. congruence.
      + destruct V as [V0 V]. split; [exact V0|].
        assert (K : forall b id, b_nodes b <= length (under fs) + (if mat then 1 else 0) + sizes (firstn n0 (f_cs f)) -> alt_ok top n m f fs b id -> alt_ok false n m (back f n0 mat) fs b id).
        { intros b id Lb (A1 & (n1 & mat1 & P1 & P2 & P3 & P4 & P5 & P6) & A2). refine (conj A1 (conj _ A2)).
          assert (Mm : mat1 = true -> mat = true).
          { intros E. destruct mat; [reflexivity|]. rewrite E in P4. rewrite NoMat in Lb by reflexivity. cbn in Lb. lia. }
          assert (Ln : n1 <= n0).
          { destruct mat1; [|destruct (P3 eq_refl); lia]. rewrite Mm in Lb by reflexivity. destruct (le_lt_dec n1 n0) as [|C]; [assumption|].
            unfold kids in P1. pose proof (sizes_firstn_strict (f_cs f) n0 n1 C) as Q. destruct top; lia. }
          exists n1, mat1. unfold back, kids. cbn [f_cs f_own]. rewrite firstn_firstn. rewrite Nat.min_l by exact Ln. rewrite firstn_length_le by exact L.
          refine (conj _ (conj _ (conj P3 (conj P4 (conj P5 P6))))); [lia|]. intros E. rewrite (Mm E). auto. }
        unfold limited in Li. destruct (s_mode n); cbn [point_of] in Li; auto.
  Qed.

  (** Left recursion: everything beneath in the same frame is LL, and the frame gets its own node and one child. *)
  Lemma replace_frame : forall top st f fs f', desc top st (f :: fs) -> (forall m st', st = m :: st' -> s_stale m = true /\ s_mode m = LL) ->
    frame_ok false f' fs -> f_own f' <> None -> desc false st (f' :: fs).
  Proof.
    intros top st f fs f' H. remember (f :: fs) as gs eqn:Eg. revert f fs Eg.
    induction H as [top|top n f0 st fs0 H IH F N M I R|top n m f0 st fs0 H IH S N V R]; intros f fs Eg Top Fok Own; [discriminate| |]; injection Eg as -> ->.
    - destruct (Top n st eq_refl) as (St & _). destruct N as (N1 & N2 & N3 & N4). apply desc_base; auto.
      refine (conj N1 (conj _ (conj N3 _))); [intros E; elim (Own E)|intros E; congruence].
    - destruct (Top n (m :: st) eq_refl) as (St & Mo). destruct N as (N1 & N2 & N3 & N4). destruct V as [V0 V]. rewrite Mo in V. destruct V as [V1 V2].
      apply desc_virtual; auto.
      + apply (IH f); auto. intros m' st' E. injection E as <- <-. auto.
      + refine (conj N1 (conj _ (conj N3 _))); [intros E; elim (Own E)|intros E; congruence].
      + split; [exact V0|]. rewrite Mo. auto.
  Qed.

  Lemma cut : forall above top node rest fs, desc top (above ++ node :: rest) fs ->
    exists ups f fs', fs = ups ++ f :: fs' /\ desc (match ups with [] => top | _ => false end) (node :: rest) (f :: fs').
  Proof.
    induction above as [|a above IH]; intros top node rest fs H.
    - destruct (desc_nonempty _ _ _ _ H) as (f & fs' & ->). exists [], f, fs'. auto.
    - cbn [app] in H. inversion H as [|t1 n1 f1 s1 fs1 D1 F1 No1 M1 I1 R1|t1 n1 m1 f1 s1 fs1 D1 S1 No1 Vi1 R1]; subst.
      + destruct (IH false node rest fs1 D1) as (ups & f & fs' & -> & D). exists (f1 :: ups), f, fs'. split; [reflexivity|]. destruct ups; exact D.
      + match goal with E : m1 :: s1 = _ |- _ => rewrite E in D1 end. apply (IH top node rest _ D1).
  Qed.

  Lemma content_ups : forall ups f fs, ups <> [] -> exists z, content (ups ++ f :: fs) = under (f :: fs) ++ z.
  Proof.
    assert (U : forall ups f fs, exists z, under (ups ++ f :: fs) = under (f :: fs) ++ z).
    { induction ups as [|u ups IH]; intros f fs; [exists []; rewrite app_nil_r; reflexivity|]. destruct (IH f fs) as [z E].
      exists (z ++ own_nodes u ++ flat_init (f_cs u)). cbn [app]. change (under (u :: ups ++ f :: fs)) with (under (ups ++ f :: fs) ++ own_nodes u ++ flat_init (f_cs u)). rewrite E, <- app_assoc. reflexivity. }
    intros [|u ups] f fs H; [contradiction|]. destruct (U ups f fs) as [z E]. exists (z ++ own_nodes u ++ flat_children (f_cs u)). cbn [app content]. rewrite E, <- app_assoc. reflexivity.
  Qed.

  Lemma children_split : forall cs n0, n0 < length cs -> exists c r z, skipn n0 cs = c :: r /\ flat_children cs = flat_init (firstn n0 cs) ++ flat_children (c :: r) /\ z = flat_children (c :: r).
  Proof.
    intros cs n0 H. destruct (skipn n0 cs) as [|c r] eqn:E.
    - exfalso. pose proof (skipn_length n0 cs) as L. rewrite E in L. cbn in L. lia.
    - exists c, r, (flat_children (c :: r)). refine (conj eq_refl (conj _ eq_refl)). rewrite <- (firstn_skipn n0 cs) at 1. rewrite E. rewrite flat_split. reflexivity.
  Qed.

  (** What is in the array before a point. *)
  Lemma before_point : forall ups f fs n0 (mat : bool), n0 < kids (match ups with [] => true | _ => false end) f -> (mat = true -> f_own f <> None) -> (mat = false -> n0 = 0) ->
    exists z, content (ups ++ f :: fs) = under (back f n0 mat :: fs) ++ z.
  Proof.
    intros ups f fs n0 mat Hn Hm Hm'. destruct ups as [|u ups].
    - cbn [app content]. unfold kids in Hn. destruct mat.
      + destruct (children_split (f_cs f) n0 ltac:(lia)) as (c & r & z & E1 & E2 & _). exists (flat_children (c :: r)). rewrite E2. cbn [under]. unfold back, own_nodes. cbn [f_own f_cs]. rewrite <- !app_assoc. reflexivity.
      + rewrite Hm' by reflexivity. exists (own_nodes f ++ flat_children (f_cs f)). cbn [under]. unfold back at 1. unfold own_nodes at 2. cbn [f_own f_cs firstn flat_init app]. rewrite app_nil_r. reflexivity.
    - destruct (content_ups (u :: ups) f fs ltac:(discriminate)) as [z E]. rewrite E. cbn [under]. destruct mat.
      + exists (flat_init (skipn n0 (f_cs f)) ++ z). unfold back, own_nodes. cbn [f_own f_cs]. rewrite <- (firstn_skipn n0 (f_cs f)) at 1. rewrite flat_init_app, <- !app_assoc. reflexivity.
      + rewrite Hm' by reflexivity. exists (own_nodes f ++ flat_init (f_cs f) ++ z). unfold back at 1. unfold own_nodes at 2. cbn [f_own f_cs firstn flat_init app]. rewrite app_nil_r, <- !app_assoc. reflexivity.
  Qed.

  Lemma back_length : forall f fs n0 (mat : bool), (mat = true -> f_own f <> None) -> length (under (back f n0 mat :: fs)) = length (under fs) + (if mat then 1 else 0) + sizes (firstn n0 (f_cs f)).
  Proof.
    intros f fs n0 mat H. cbn [under]. rewrite !app_length, flat_init_length, own_length. unfold back. cbn [f_own f_cs]. destruct mat; [|lia].
    destruct (f_own f); [lia|]. elim (H eq_refl). reflexivity.
  Qed.
End Inv.
