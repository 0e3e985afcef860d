(** The tokenizer that can go back refines the position of the specification. *)
From Coq Require Import List Arith Bool Lia.
From Verif Require Import BacktrackModel BacktrackSpec.
Import ListNotations.

Section Proofs.
  Variable T : Type.
  Variable start_index length_ : T -> nat.
  Variable all : list T.

  Notation step := (step T start_index length_).
  Notation run := (run T start_index length_).

  (** The recorded tokens are a part of all tokens. *)
  Record buffered (s : tokenizer T) (r : reader) (ms : list nat) (base : nat) : Prop := mk_buffered {
    b_tokens : tk_tokens _ s = firstn (high r - base) (skipn base all);
    b_base : base <= pos r;
    b_pos : pos r <= high r;
    b_some : base < high r;
    b_next : tk_next _ s = pos r - base \/
             just_read r = false /\ pos r = length all /\ high r = length all /\ pos r - base <= tk_next _ s;
    b_read : just_read r = true -> base < pos r;
    b_marks : Forall2 (fun i m => m = base + i /\ m < high r) ms (marks r);
    b_since : forall p, since r = Some p -> base <= p
  }.

  Record sim (c : client T) (r : reader) : Prop := mk_sim {
    s_rest : tk_rest _ (c_state _ c) = skipn (high r) all;
    s_high : high r <= length all;
    s_last : c_last _ c = if just_read r then nth_error all (pos r - 1) else None;
    s_read : just_read r = true -> 0 < pos r <= length all;
    s_rec : tk_recording _ (c_state _ c) = match since r with Some _ => true | None => false end;
    s_marks : since r = None -> c_marks _ c = [] /\ marks r = [];
    s_buffer : tk_tokens _ (c_state _ c) = [] /\ high r = pos r /\ since r = None
               \/ exists base, buffered (c_state _ c) r (c_marks _ c) base
  }.

  Lemma nth_window_any : forall (l : list T) n b k, k < n -> nth_error (firstn n (skipn b l)) k = nth_error l (b + k).
  Proof.
    intros l n b k L. revert l. induction b as [|b IH]; intros l.
    - cbn [skipn Nat.add]. revert k n L. induction l as [|y l IH]; intros k n L; [destruct n, k; reflexivity|].
      destruct n as [|n]; [lia|]. destruct k as [|k]; [reflexivity|]. cbn. apply IH. lia.
    - destruct l as [|y l]; [cbn [skipn]; rewrite firstn_nil; destruct k; reflexivity|]. cbn. apply IH.
  Qed.

  Lemma nth_window : forall n b k, k < n -> nth_error (firstn n (skipn b all)) k = nth_error all (b + k).
  Proof. intros n b k. apply nth_window_any. Qed.

  Lemma window_length : forall n b, b + n <= length all -> length (firstn n (skipn b all)) = n.
  Proof. intros n b L. rewrite firstn_length, skipn_length. lia. Qed.

  Lemma nth_skipn_head : forall k, nth_error all k = match skipn k all with [] => None | t :: _ => Some t end.
  Proof.
    intros k. revert k. induction all as [|x l IH]; intros [|k]; try reflexivity. cbn. apply IH.
  Qed.

  Lemma skipn_cons : forall k t, nth_error all k = Some t -> skipn k all = t :: skipn (S k) all.
  Proof.
    intros k t. revert k. induction all as [|x l IH]; intros [|k] E; try discriminate; [injection E as ->; reflexivity|]. cbn in E.
    cbn [skipn]. rewrite (IH k E). reflexivity.
  Qed.

  Lemma window_snoc : forall n b t, nth_error all (b + n) = Some t -> firstn n (skipn b all) ++ [t] = firstn (S n) (skipn b all).
  Proof.
    intros n b t. revert b. assert (G : forall (l : list T) n, nth_error l n = Some t -> firstn n l ++ [t] = firstn (S n) l).
    { induction l as [|x l IH]; intros [|m] E; try discriminate; [injection E as ->; reflexivity|]. cbn in E. cbn [firstn app]. rewrite (IH m E). reflexivity. }
    intros b E. apply G. rewrite <- E. clear. revert b. induction all as [|x l IH]; intros [|b]; cbn; try reflexivity; [destruct n; reflexivity|]. apply IH.
  Qed.

  (** ** Finding the leaf *)

  Lemma last_match_spec : forall (l : list T) i a n j,
    (exists t, nth_error l j = Some t /\ start_index t = a /\ length_ t = n) ->
    (forall k, j < k -> ~ exists t, nth_error l k = Some t /\ start_index t = a /\ length_ t = n) ->
    last_match T start_index length_ l i a n = Some (i + j).
  Proof.
    induction l as [|x l IH]; intros i a n j (t & E & A & N) H; [destruct j; discriminate|]. cbn [last_match]. destruct j as [|j].
    - injection E as ->. assert (L : last_match T start_index length_ l (S i) a n = None).
      { assert (G : forall i, last_match T start_index length_ l i a n = None); [|apply G].
        assert (H' : forall k, ~ exists t, nth_error l k = Some t /\ start_index t = a /\ length_ t = n) by (intros k; apply (H (S k)); lia).
        clear - H'. induction l as [|y l IH]; intros i; [reflexivity|]. cbn. rewrite IH by (intros k; apply (H' (S k))).
        destruct (Nat.eqb_spec (start_index y) a) as [E1|]; [|reflexivity]. destruct (Nat.eqb_spec (length_ y) n) as [E2|]; [|reflexivity].
        exfalso. apply (H' 0). exists y. auto. }
      rewrite L, A, N, !Nat.eqb_refl. cbn. f_equal. lia.
    - cbn in E. rewrite (IH (S i) a n j).
      + f_equal. lia.
      + exists t. auto.
      + intros k K. apply (H (S k)). lia.
  Qed.

  (** ** The simulation *)

  Lemma tokens_nonempty : forall s r ms base, high r <= length all -> buffered s r ms base -> exists x l, tk_tokens _ s = x :: l.
  Proof.
    intros s r ms base H B. assert (L := window_length (high r - base) base). rewrite <- (b_tokens _ _ _ _ B) in L.
    assert (X := b_some _ _ _ _ B). destruct (tk_tokens _ s) as [|x l]; [cbn in L; lia|eauto].
  Qed.

  Ltac fields := cbn [c_state c_last c_marks tk_rest tk_tokens tk_next tk_recording pos high just_read marks since].

  Lemma marks_weaken : forall base h h' is ms, h <= h' ->
    Forall2 (fun i m => m = base + i /\ m < h) is ms -> Forall2 (fun i m => m = base + i /\ m < h') is ms.
  Proof. intros base h h' is ms L F. induction F as [|i m is ms [-> M] F IH]; constructor; [split; [reflexivity|lia]|exact IH]. Qed.

  Lemma sim_step : forall c r o r' out, sim c r -> moves T start_index length_ all r o r' out ->
    exists c' t, step c o = Some (c', t) /\ out = match t with Some t => [t] | None => [] end /\ sim c' r'.
  Proof.
    intros [[rest toks nx rec] last ms] r o r' out [S1 S2 S3 S4 S5 SM S6] M. cbn [c_state c_last c_marks tk_rest tk_tokens tk_next tk_recording] in *.
    destruct M as [r t N|r N|r J|r k m K|r a l j p Si P H A U|r].
    - (* a token *)
      cbn [BacktrackModel.step c_state c_marks]. unfold next. cbn [tk_rest tk_tokens tk_next tk_recording].
      assert (Lt : pos r < length all) by (apply nth_error_Some; congruence).
      destruct S6 as [(E1 & E2 & E3)|[base B]].
      + subst toks. rewrite S1, E2, (skipn_cons _ _ N). eexists. eexists. split; [reflexivity|]. split; [reflexivity|].
        constructor; fields; try lia.
        * f_equal. lia.
        * rewrite <- N. f_equal. lia.
        * exact S5.
        * exact SM.
        * left. repeat split; try assumption. lia.
      + destruct (tokens_nonempty _ _ _ _ S2 B) as (x & l & E). cbn in E. rewrite E, <- E. destruct B as [B1 B2 B3 B4 B5 B6 B7 B8]. cbn in B1, B5.
        assert (B5' : nx = pos r - base) by (destruct B5 as [B5|B5]; lia). clear B5. subst nx.
        destruct (Nat.eq_dec (pos r) (high r)) as [Q|Q].
        * assert (F : nth_error toks (pos r - base) = None) by (apply nth_error_None; rewrite B1, window_length; lia).
          rewrite F, S1, <- Q, (skipn_cons _ _ N). destruct rec.
          -- eexists. eexists. split; [reflexivity|]. split; [reflexivity|].
             constructor; fields; try lia.
             ++ f_equal. lia.
             ++ rewrite <- N. f_equal. lia.
             ++ exact S5.
             ++ exact SM.
             ++ right. exists base. constructor; fields; try lia.
                ** rewrite B1. replace (Nat.max (pos r) (S (pos r)) - base) with (S (high r - base)) by lia.
                   apply window_snoc. rewrite <- N. f_equal. lia.
                ** apply marks_weaken with (high r); [lia|exact B7].
                ** exact B8.
          -- eexists. eexists. split; [reflexivity|]. split; [reflexivity|].
             destruct (since r) eqn:Si; [discriminate|].
             constructor; fields; try lia.
             ++ f_equal. lia.
             ++ rewrite <- N. f_equal. lia.
             ++ exact SM.
             ++ left. repeat split; try reflexivity. lia.
        * rewrite B1, nth_window by lia. replace (base + (pos r - base)) with (pos r) by lia. rewrite N. rewrite <- B1.
          eexists. eexists. split; [reflexivity|]. split; [reflexivity|].
          constructor; fields; try lia.
          -- replace (Nat.max (high r) (S (pos r))) with (high r) by lia. exact S1.
          -- rewrite <- N. f_equal. lia.
          -- exact S5.
          -- exact SM.
          -- right. exists base. constructor; fields; try lia.
             ++ replace (Nat.max (high r) (S (pos r))) with (high r) by lia. exact B1.
             ++ apply marks_weaken with (high r); [lia|exact B7].
             ++ exact B8.
    - (* the end *)
      cbn [BacktrackModel.step c_state c_marks]. unfold next. cbn [tk_rest tk_tokens tk_next tk_recording].
      assert (Le : length all <= pos r) by (apply nth_error_None; exact N).
      destruct S6 as [(E1 & E2 & E3)|[base B]].
      + subst toks. rewrite S1, E2, skipn_all2 by exact Le. eexists. eexists. split; [reflexivity|]. split; [reflexivity|].
        constructor; fields; try assumption; try discriminate; try reflexivity; try lia.
        * rewrite skipn_all2 by lia. reflexivity.
        * left. auto.
      + destruct (tokens_nonempty _ _ _ _ S2 B) as (x & l & E). cbn in E. rewrite E, <- E. destruct B as [B1 B2 B3 B4 B5 B6 B7 B8]. cbn in B1, B5.
        assert (Q : pos r = length all /\ high r = length all) by lia. destruct Q as [Q1 Q2].
        assert (F : nth_error toks nx = None) by (apply nth_error_None; rewrite B1, window_length; lia).
        rewrite F. assert (Nil : rest = []) by (rewrite S1; apply skipn_all2; lia). rewrite Nil. destruct rec.
        * eexists. eexists. split; [reflexivity|]. split; [reflexivity|]. rewrite app_nil_r.
          constructor; fields; try assumption; try discriminate; try reflexivity; try lia.
          -- rewrite skipn_all2 by lia. reflexivity.
          -- right. exists base. constructor; fields; try assumption; try discriminate. right. repeat apply conj; try assumption; try reflexivity. lia.
        * eexists. eexists. split; [reflexivity|]. split; [reflexivity|]. destruct (since r) eqn:Si; [discriminate|].
          constructor; fields; try assumption; try discriminate; try reflexivity; try lia.
          -- rewrite skipn_all2 by lia. reflexivity.
          -- left. repeat apply conj; try reflexivity. lia.
    - (* start *)
      cbn [BacktrackModel.step c_state c_last c_marks]. rewrite J in S3. assert (S4' := S4 J).
      assert (exists t, nth_error all (pos r - 1) = Some t) as [t Et].
      { destruct (nth_error all (pos r - 1)) eqn:X; [eauto|]. apply nth_error_None in X. lia. }
      rewrite Et in S3. subst last. unfold start. cbn [tk_rest tk_tokens tk_next tk_recording].
      destruct S6 as [(E1 & E2 & E3)|[base B]].
      + subst toks. eexists. eexists. split; [reflexivity|]. split; [reflexivity|]. destruct (SM E3) as [M1 M2]. rewrite E3, M2. subst ms.
        constructor; fields; try assumption.
        * symmetry. exact Et.
        * intros _. exact S4'.
        * reflexivity.
        * discriminate.
        * right. exists (pos r - 1). constructor; fields; try lia.
          -- rewrite E2. replace (pos r - (pos r - 1)) with 1 by lia. rewrite (skipn_cons _ _ Et). reflexivity.
          -- repeat constructor; lia.
          -- intros p X. injection X as <-. lia.
      + destruct (tokens_nonempty _ _ _ _ S2 B) as (x & l & E). cbn in E. rewrite E, <- E. destruct B as [B1 B2 B3 B4 B5 B6 B7 B8]. cbn in B1, B5.
        destruct B5 as [B5|(X & _)]; [|congruence]. specialize (B6 J).
        eexists. eexists. split; [reflexivity|]. split; [reflexivity|].
        constructor; fields; try assumption.
        * symmetry. exact Et.
        * intros _. exact S4'.
        * destruct (since r); reflexivity.
        * destruct (since r); discriminate.
        * right. exists base. constructor; fields; try lia; try assumption.
          -- apply Forall2_app; [exact B7|]. repeat constructor; lia.
          -- intros p X. destruct (since r) as [q|]; injection X as <-; [apply B8; reflexivity|lia].
    - (* reset *)
      cbn [BacktrackModel.step c_state c_last c_marks]. destruct S6 as [(E1 & E2 & E3)|[base B]].
      + destruct (SM E3) as [_ M2]. rewrite M2 in K. destruct k; discriminate.
      + destruct B as [B1 B2 B3 B4 B5 B6 B7 B8]. cbn in B1.
        assert (exists i, nth_error ms k = Some i /\ m = base + i /\ m < high r) as (i & Ei & -> & Im).
        { clear - B7 K. revert k K. induction B7 as [|i m' is ms [-> Q] F IH]; intros [|k] K; try discriminate.
          - injection K as <-. exists i. cbn. auto.
          - exact (IH k K). }
        rewrite Ei. eexists. eexists. split; [reflexivity|]. split; [reflexivity|]. unfold reset. cbn [tk_rest tk_tokens tk_next tk_recording].
        constructor; fields; try assumption; try discriminate; try reflexivity; try lia.
        right. exists base. constructor; fields; try lia; try assumption; try discriminate.
    - (* the last leaf *)
      cbn [BacktrackModel.step c_state c_last c_marks tk_recording]. rewrite Si in S5. subst rec.
      destruct S6 as [(E1 & E2 & E3)|[base B]]; [congruence|]. destruct B as [B1 B2 B3 B4 B5 B6 B7 B8]. cbn in B1.
      assert (Pb := B8 p Si).
      unfold reset_to_last_leaf. cbn [tk_tokens]. rewrite (last_match_spec toks 0 a l (j - base)).
      + eexists. eexists. split; [reflexivity|]. split; [reflexivity|]. unfold reset. cbn [tk_rest tk_tokens tk_next tk_recording].
        constructor; fields; try assumption; try discriminate; try reflexivity; try lia.
        * rewrite Si. reflexivity.
        * right. exists base. constructor; fields; try lia; try assumption; try discriminate.
      + destruct A as (t & At & A). exists t. split; [|exact A]. rewrite B1, nth_window by lia. rewrite <- At. f_equal. lia.
      + intros k Kj (t & Et & X). assert (Kl : k < high r - base).
        { assert (k < length toks) by (apply nth_error_Some; congruence). rewrite B1, window_length in H0; lia. }
        apply (U (base + k)); [lia|lia|]. exists t. split; [|exact X]. rewrite B1, nth_window in Et by lia. exact Et.
    - (* stop *)
      cbn [BacktrackModel.step c_state c_last c_marks]. unfold stop. cbn [tk_rest tk_tokens tk_next tk_recording].
      eexists. eexists. split; [reflexivity|]. split; [reflexivity|]. constructor; fields; try assumption; auto.
      destruct S6 as [(E1 & E2 & E3)|[base [B1 B2 B3 B4 B5 B6 B7 B8]]]; [left; auto|]. right. exists base. constructor; fields; try assumption.
      + constructor.
      + discriminate.
  Qed.

  Lemma sim_run : forall ops c r r' outs, sim c r -> reads T start_index length_ all r ops r' outs ->
    exists c', run c ops = Some (c', outs) /\ sim c' r'.
  Proof.
    intros ops c r r' outs S R. revert c S. induction R as [r|r o r1 out ops r2 outs M R IH]; intros c S; [exists c; auto|].
    destruct (sim_step c r o r1 out S M) as (c1 & t & E & -> & S1). destruct (IH c1 S1) as (c2 & E2 & S2).
    exists c2. cbn [BacktrackModel.run]. rewrite E, E2. auto.
  Qed.

  Lemma sim_start : sim (begin T all) at_start.
  Proof. constructor; cbn; auto; try lia; try discriminate. Qed.
End Proofs.
