(** Lemmas about the message loop. *)
From Coq Require Import ZArith List Bool Lia.
From Verif Require Import ServerModel ServerSpec.
Import ListNotations.

Lemma answered_app {R} (a b : list (output R)) : answered (a ++ b) = answered a ++ answered b.
Proof. induction a as [|[i r|i c|] a IH]; cbn; rewrite ?IH; reflexivity. Qed.

Lemma responses_app {R} (a b : list (output R)) : responses (a ++ b) = responses a ++ responses b.
Proof. induction a as [|[i r|i c|] a IH]; cbn; rewrite ?IH; reflexivity. Qed.

Lemma answered_responses {R} (a : list (output R)) : answered (responses a) = answered a.
Proof. induction a as [|[i r|i c|] a IH]; cbn; rewrite ?IH; reflexivity. Qed.

Section P.
  Variables S P R : Type.
  Notation dispatch := (dispatch S P R).
  Notation prescribed := (@prescribed S P R).

  Lemma dispatch_none hs s : dispatch hs s None = (s, [], Fine).
  Proof. induction hs as [|h hs IH]; cbn; [reflexivity|]. rewrite IH. reflexivity. Qed.

  Lemma hook_responses s o : snd (run_panic_hook S R s) = o -> responses o = [].
  Proof. unfold run_panic_hook. destruct (hook S s); cbn; intros <-; reflexivity. Qed.

  (** The dispatch chain: one prescribed response, or an unwinding for which InternalError is prescribed. *)
  Lemma dispatch_prescribed hs0 hs1 hs s id m p s' o c :
    hs0 = hs1 ++ hs -> (forall h, In h hs1 -> h_method _ _ _ h <> m) ->
    shutdown_requested S s = false ->
    dispatch hs s (Some (id, m, p)) = (s', o, c) ->
    (c = Fine -> exists r, o = [r] /\ prescribed hs0 false (proj S s) id m p r) /\
    (c = Unwound -> o = [] /\ prescribed hs0 false (proj S s) id m p (Resp_err id InternalError)).
  Proof.
    revert hs1. induction hs as [|h hs IH]; intros hs1 E Hno Hsh Hd.
    - cbn in Hd. injection Hd as <- <- <-. split; [|discriminate]. intros _.
      exists (Resp_err id MethodNotFound). split; [reflexivity|].
      apply Pre_unknown; [reflexivity|]. rewrite E, app_nil_r. exact Hno.
    - cbn [ServerModel.dispatch] in Hd. unfold on_sync_mut in Hd.
      destruct (Nat.eqb m (h_method _ _ _ h)) eqn:Em.
      + apply Nat.eqb_eq in Em. destruct (h_parse _ _ _ h p) as [p'|] eqn:Ep.
        * unfold run_handler in Hd. destruct (h_run _ _ _ h (proj S s) p') as [x oc] eqn:Er.
          destruct (result_to_response R id oc) as [r|] eqn:Err.
          -- rewrite dispatch_none in Hd. injection Hd as <- <- <-. split; [|discriminate]. intros _.
             exists r. split; [reflexivity|].
             eapply Pre_run; eauto. rewrite Er. cbn [snd].
             destruct oc; cbn in Err; congruence.
          -- injection Hd as <- <- <-. split; [discriminate|]. intros _. split; [reflexivity|].
             eapply Pre_run; eauto. rewrite Er. cbn [snd].
             destruct oc; cbn in Err; congruence.
        * rewrite dispatch_none in Hd. injection Hd as <- <- <-. split; [|discriminate]. intros _.
          exists (Resp_err id InvalidParams). split; [reflexivity|]. eapply Pre_params; eauto.
      + apply Nat.eqb_neq in Em.
        destruct (ServerModel.dispatch S P R hs s (Some (id, m, p))) as [[s1 o1] c1] eqn:Ed.
        cbn in Hd. injection Hd as <- <- <-.
        apply (IH (hs1 ++ [h])); [rewrite <- app_assoc; exact E| |exact Hsh|exact eq_refl].
        intros h' [Hin|[<-|[]]] % in_app_or; [apply Hno, Hin|congruence].
  Qed.

  Lemma dispatch_flag hs s q s' o c :
    dispatch hs s q = (s', o, c) -> shutdown_requested S s = true -> shutdown_requested S s' = true.
  Proof.
    revert s q s' o c. induction hs as [|h hs IH]; intros s q s' o c Hd Hs.
    - destruct q as [[[? ?] ?]|]; cbn in Hd; injection Hd as <- <- <-; exact Hs.
    - cbn [ServerModel.dispatch] in Hd. unfold on_sync_mut, run_handler in Hd.
      destruct q as [[[id m] p]|].
      + destruct (Nat.eqb m (h_method _ _ _ h)).
        * destruct (h_parse _ _ _ h p) as [p'|].
          -- destruct (h_run _ _ _ h (proj S s) p') as [x oc].
             destruct (result_to_response R id oc).
             ++ rewrite dispatch_none in Hd. injection Hd as <- <- <-. cbn. rewrite Hs. reflexivity.
             ++ injection Hd as <- <- <-. cbn. rewrite Hs. reflexivity.
          -- rewrite dispatch_none in Hd. injection Hd as <- <- <-. exact Hs.
        * destruct (ServerModel.dispatch S P R hs s (Some (id, m, p))) as [[s1 o1] c1] eqn:Ed.
          injection Hd as <- <- <-. eapply IH; eauto.
      + destruct (ServerModel.dispatch S P R hs s None) as [[s1 o1] c1] eqn:Ed.
        injection Hd as <- <- <-. eapply IH; eauto.
  Qed.

  Lemma ndispatch_flag nhs s m p s' c :
    ndispatch S P nhs s m p = (s', c) -> shutdown_requested S s' = shutdown_requested S s.
  Proof.
    induction nhs as [|h nhs IH]; cbn; [congruence|].
    destruct (Nat.eqb m (n_method _ _ h)); [|exact IH].
    destruct (n_parse _ _ h p) as [p'|]; [|congruence].
    destruct (n_run _ _ h (proj S s) p') as [x b]. intros H. injection H as <- <-. reflexivity.
  Qed.

  Lemma hook_flag s : shutdown_requested S (fst (run_panic_hook S R s)) = shutdown_requested S s.
  Proof. unfold run_panic_hook. destruct (hook S s); reflexivity. Qed.

  Variable handlers : list (handler S P R).
  Variable nhandlers : list (nhandler S P).
  Variable exit_method : nat.
  Variable recover : S -> S.
  Variable after : S -> S * bool.
  Notation on_msg := (on_lsp_message S P R handlers nhandlers exit_method recover).
  Notation loop := (event_loop S P R handlers nhandlers exit_method recover after).

  Lemma on_request_msg s id m p s' o ex :
    on_msg s (Request id m p) = (s', o, ex) ->
    ex = false /\
    exists r, responses o = [r] /\ answered o = [id] /\
              prescribed handlers (shutdown_requested S s) (proj S s) id m p r.
  Proof.
    unfold on_lsp_message. unfold on_request.
    destruct (shutdown_requested S s) eqn:Es.
    - intros H. injection H as <- <- <-. split; [reflexivity|].
      eexists. split; [reflexivity|]. split; [reflexivity|]. apply Pre_shutdown. reflexivity.
    - destruct (dispatch handlers s (Some (id, m, p))) as [[s1 o1] c1] eqn:Ed.
      destruct (dispatch_prescribed handlers [] handlers s id m p s1 o1 c1 eq_refl (fun _ F => match F with end) Es Ed)
        as [Hf Hu].
      destruct c1.
      + intros H. injection H as <- <- <-. split; [reflexivity|].
        destruct (Hf eq_refl) as (r & -> & Hr). exists r.
        assert (Hid : match r with Resp_ok i _ | Resp_err i _ => i = id | Show_panic => False end).
        { destruct Hr as [| | |hs1 h hs2 p' r ? ? ? ? ? Hr]; try reflexivity.
          destruct (snd (h_run _ _ _ h (proj S s) p')); subst r; reflexivity. }
        destruct r; cbn; [subst|subst|destruct Hid]; repeat split; assumption.
      + destruct (run_panic_hook S R s1) as [s2 o2] eqn:Eh.
        intros H. injection H as <- <- <-. split; [reflexivity|].
        destruct (Hu eq_refl) as (-> & Hr). eexists.
        assert (H2 : responses o2 = []) by (apply (hook_responses s1); rewrite Eh; reflexivity).
        rewrite !responses_app, !answered_app, <- (answered_responses o2), H2. cbn. repeat split. exact Hr.
  Qed.

  Lemma on_other_msg s msg s' o ex :
    requests [msg] = [] -> on_msg s msg = (s', o, ex) -> responses o = [].
  Proof.
    intros Hq. unfold on_lsp_message. destruct msg as [id m p|m p|id]; [discriminate| |].
    - destruct (Nat.eqb m exit_method).
      + intros H. injection H as <- <- <-. reflexivity.
      + destruct (ndispatch S P nhandlers s m p) as [s1 c1]. destruct c1.
        * intros H. injection H as <- <- <-. reflexivity.
        * destruct (run_panic_hook S R s1) as [s2 o2] eqn:Eh. intros H. injection H as <- <- <-. cbn.
          rewrite responses_app. rewrite (hook_responses s1); [reflexivity|rewrite Eh; reflexivity].
    - intros H. injection H as <- <- <-. reflexivity.
  Qed.

  Lemma on_msg_flag s msg s' o ex :
    on_msg s msg = (s', o, ex) -> shutdown_requested S s = true -> shutdown_requested S s' = true.
  Proof.
    intros H Hs. unfold on_lsp_message in H. destruct msg as [id m p|m p|id].
    - unfold on_request in H. rewrite Hs in H. injection H as <- <- <-. exact Hs.
    - destruct (Nat.eqb m exit_method).
      + injection H as <- <- <-. exact Hs.
      + destruct (ndispatch S P nhandlers s m p) as [s1 c1] eqn:En. apply ndispatch_flag in En.
        destruct c1.
        * injection H as <- <- <-. congruence.
        * pose proof (hook_flag s1) as Hf. destruct (run_panic_hook S R s1) as [s2 o2].
          cbn in Hf. injection H as <- <- <-. cbn. congruence.
    - injection H as <- <- <-. exact Hs.
  Qed.

  Lemma on_exit s msg s' o ex :
    on_msg s msg = (s', o, ex) ->
    ex = match msg with Notification m _ => Nat.eqb m exit_method | _ => false end.
  Proof.
    intros H. destruct msg as [id m p|m p|id].
    - apply on_request_msg in H. apply H.
    - unfold on_lsp_message in H. destruct (Nat.eqb m exit_method) eqn:E.
      + congruence.
      + destruct (ndispatch S P nhandlers s m p) as [s1 c1]. destruct c1.
        * congruence.
        * destruct (run_panic_hook S R s1). congruence.
    - unfold on_lsp_message in H. congruence.
  Qed.

  Lemma loop_answered msgs : forall s taken outs s',
    loop s msgs = (taken, outs, s') ->
    answered outs = requests taken /\ exists rest, msgs = taken ++ rest.
  Proof.
    induction msgs as [|msg msgs IH]; intros s taken outs s' H.
    - cbn in H. injection H as <- <- <-. split; [reflexivity|]. exists []. reflexivity.
    - cbn [event_loop] in H. destruct (on_msg s msg) as [[s1 o1] ex] eqn:Em.
      assert (Ha : answered o1 = requests [msg]).
      { destruct msg as [id m p|m p|id].
        - apply on_request_msg in Em. destruct Em as (_ & r & _ & -> & _). reflexivity.
        - rewrite <- answered_responses. apply on_other_msg in Em; [rewrite Em|]; reflexivity.
        - rewrite <- answered_responses. apply on_other_msg in Em; [rewrite Em|]; reflexivity. }
      assert (Hcons : forall l, requests (msg :: l) = requests [msg] ++ requests l)
        by (intros l; destruct msg; reflexivity).
      destruct ex.
      + injection H as <- <- <-. split; [exact Ha|]. exists msgs. reflexivity.
      + destruct (after (proj S s1)) as [x dead]. destruct dead.
        * set (s2 := mk_state x (shutdown_requested S s1) (hook S s1)) in H.
          injection H as <- <- <-. split; [|exists msgs; reflexivity].
          rewrite answered_app, Ha, <- (answered_responses (snd _)), (hook_responses s2 _ eq_refl).
          cbn [answered]. rewrite app_nil_r. reflexivity.
        * destruct (loop (mk_state x (shutdown_requested S s1) (hook S s1)) msgs) as [[t2 o2] s3] eqn:El.
          injection H as <- <- <-. apply IH in El. destruct El as (Hi & rest & ->).
          rewrite answered_app, Ha, Hi, (Hcons t2). split; [reflexivity|]. exists rest. reflexivity.
  Qed.

  Lemma loop_shutdown msgs : forall s taken outs s',
    shutdown_requested S s = true -> loop s msgs = (taken, outs, s') ->
    responses outs = map (fun id => Resp_err id InvalidRequest) (requests taken).
  Proof.
    induction msgs as [|msg msgs IH]; intros s taken outs s' Hs H.
    - cbn in H. injection H as <- <- <-. reflexivity.
    - cbn [event_loop] in H. destruct (on_msg s msg) as [[s1 o1] ex] eqn:Em.
      assert (Ha : responses o1 = map (fun id => Resp_err id InvalidRequest) (requests [msg])).
      { destruct msg as [id m p|m p|id].
        - unfold on_lsp_message, on_request in Em. rewrite Hs in Em. injection Em as <- <- <-. reflexivity.
        - apply on_other_msg in Em; [rewrite Em|]; reflexivity.
        - apply on_other_msg in Em; [rewrite Em|]; reflexivity. }
      assert (Hcons : forall l, requests (msg :: l) = requests [msg] ++ requests l)
        by (intros l; destruct msg; reflexivity).
      assert (Hs1 : shutdown_requested S s1 = true) by (eapply on_msg_flag; eauto).
      destruct ex.
      + injection H as <- <- <-. exact Ha.
      + destruct (after (proj S s1)) as [x dead]. destruct dead.
        * set (s2 := mk_state x (shutdown_requested S s1) (hook S s1)) in H.
          injection H as <- <- <-.
          rewrite responses_app, Ha, (hook_responses s2 _ eq_refl), app_nil_r. reflexivity.
        * destruct (loop (mk_state x (shutdown_requested S s1) (hook S s1)) msgs) as [[t2 o2] s3] eqn:El.
          injection H as <- <- <-. apply IH in El; [|exact Hs1].
          rewrite responses_app, Ha, El, (Hcons t2), map_app. reflexivity.
  Qed.

  Lemma loop_all msgs : forall s taken outs s',
    (forall x, snd (after x) = false) ->
    (forall m p, In (Notification m p) msgs -> m <> exit_method) ->
    loop s msgs = (taken, outs, s') -> taken = msgs.
  Proof.
    induction msgs as [|msg msgs IH]; intros s taken outs s' Haf Hex H.
    - cbn in H. congruence.
    - cbn [event_loop] in H. destruct (on_msg s msg) as [[s1 o1] ex] eqn:Em.
      pose proof (on_exit _ _ _ _ _ Em) as Hx.
      assert (ex = false) as ->.
      { rewrite Hx. destruct msg as [id m p|m p|id]; try reflexivity.
        apply PeanoNat.Nat.eqb_neq. apply (Hex m p). left. reflexivity. }
      pose proof (Haf (proj S s1)) as Hd. destruct (after (proj S s1)) as [x dead]. cbn in Hd. subst dead.
      destruct (loop (mk_state x (shutdown_requested S s1) (hook S s1)) msgs) as [[t2 o2] s3] eqn:El.
      injection H as <- <- <-. f_equal. eapply IH; eauto. intros m p Hin. apply (Hex m p). right. exact Hin.
  Qed.

  (** Splitting a run after some messages. *)
  Lemma loop_app m1 : forall m2 s outs s',
    loop s m1 = (m1, outs, s') ->
    (forall m p, In (Notification m p) m1 -> m <> exit_method) ->
    (forall x, snd (after x) = false) ->
    loop s (m1 ++ m2) =
      (m1 ++ fst (fst (loop s' m2)), outs ++ snd (fst (loop s' m2)), snd (loop s' m2)).
  Proof.
    induction m1 as [|msg m1 IH]; intros m2 s outs s' H Hex Haf.
    - cbn in H. injection H as <- <-. cbn. destruct (loop s m2) as [[a b] c]. reflexivity.
    - cbn [app event_loop] in H |- *. destruct (on_msg s msg) as [[s1 o1] ex] eqn:Em.
      pose proof (on_exit _ _ _ _ _ Em) as Hx.
      assert (ex = false) as ->.
      { rewrite Hx. destruct msg as [id m p|m p|id]; try reflexivity.
        apply PeanoNat.Nat.eqb_neq. apply (Hex m p). left. reflexivity. }
      pose proof (Haf (proj S s1)) as Hd. destruct (after (proj S s1)) as [x dead]. cbn in Hd. subst dead.
      destruct (loop (mk_state x (shutdown_requested S s1) (hook S s1)) m1) as [[t2 o2] s3] eqn:El.
      injection H as Ht Ho Hs'. subst t2 outs s3.
      rewrite (IH m2 _ _ _ El).
      + cbn. rewrite app_assoc. reflexivity.
      + intros m p Hin. apply (Hex m p). right. exact Hin.
      + exact Haf.
  Qed.

  (** A shutdown request sets the flag. *)
  Lemma shutdown_sets s id m p hs1 h hs2 p' s' o ex :
    handlers = hs1 ++ h :: hs2 -> (forall h, In h hs1 -> h_method _ _ _ h <> m) ->
    h_method _ _ _ h = m -> h_is_shutdown _ _ _ h = true -> h_parse _ _ _ h p = Some p' ->
    on_msg s (Request id m p) = (s', o, ex) -> shutdown_requested S s' = true.
  Proof.
    intros Eh Hno Hm Hsd Hp. unfold on_lsp_message, on_request.
    destruct (shutdown_requested S s) eqn:Es; [congruence|].
    destruct (dispatch handlers s (Some (id, m, p))) as [[s1 o1] c1] eqn:Ed.
    assert (Hs1 : shutdown_requested S s1 = true).
    { rewrite Eh in Ed. clear Eh. revert s1 o1 c1 Ed. induction hs1 as [|h1 hs1 IH]; intros s1 o1 c1 Ed.
      - cbn [app ServerModel.dispatch] in Ed. unfold on_sync_mut in Ed.
        rewrite Hm, PeanoNat.Nat.eqb_refl, Hp in Ed.
        unfold run_handler in Ed. destruct (h_run _ _ _ h (proj S s) p') as [x oc].
        rewrite Hsd, orb_true_r in Ed.
        destruct (result_to_response R id oc).
        + rewrite dispatch_none in Ed. injection Ed as <- <- <-. reflexivity.
        + injection Ed as <- <- <-. reflexivity.
      - cbn [app ServerModel.dispatch] in Ed. unfold on_sync_mut in Ed.
        destruct (Nat.eqb m (h_method _ _ _ h1)) eqn:E1.
        { apply PeanoNat.Nat.eqb_eq in E1. exfalso. apply (Hno h1 (or_introl eq_refl)). congruence. }
        destruct (ServerModel.dispatch S P R (hs1 ++ h :: hs2) s (Some (id, m, p))) as [[s2 o2] c2] eqn:E2.
        injection Ed as <- <- <-. apply (IH (fun h' H' => Hno h' (or_intror H')) s2 o2 c2). reflexivity. }
    destruct c1.
    - intros H. injection H as <- <- <-. exact Hs1.
    - pose proof (hook_flag s1) as Hf. destruct (run_panic_hook S R s1) as [s2 o2]. cbn in Hf.
      intros H. injection H as <- <- <-. cbn. congruence.
  Qed.
End P.
