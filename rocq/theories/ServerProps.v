(** C09, C47: the message loop of the language server. *)
From Coq Require Import ZArith List Bool Lia.
From Verif Require Import ServerModel ServerSpec ServerProofs.
Import ListNotations.

Section Props.
  Variables S P R : Type.
  Variable handlers : list (handler S P R).
  Variable nhandlers : list (nhandler S P).
  Variable exit_method : nat.
  Variable recover : S -> S.
  Variable after : S -> S * bool.
  Notation on_msg := (on_lsp_message S P R handlers nhandlers exit_method recover).
  Notation loop := (event_loop S P R handlers nhandlers exit_method recover after).

  (** C09: whatever the handlers do, the ids answered are the ids of the requests taken from the client, in the same
      order; hence every id is answered as often as it was received. *)
  Theorem C09_exactly_one_response s msgs taken outs s' :
    loop s msgs = (taken, outs, s') ->
    answered outs = requests taken /\
    (forall id, count id (answered outs) = count id (requests taken)) /\
    (exists rest, msgs = taken ++ rest).
  Proof.
    intros H. apply loop_answered in H. destruct H as (Ha & Hr).
    repeat split; [exact Ha|intros id; rewrite Ha; reflexivity|exact Hr].
  Qed.

  (** C09: as long as the work between messages does not panic, nothing before an [exit] is left unanswered. *)
  Theorem C09_nothing_skipped s msgs taken outs s' :
    (forall x, snd (after x) = false) ->
    (forall m p, In (Notification m p) msgs -> m <> exit_method) ->
    loop s msgs = (taken, outs, s') ->
    taken = msgs /\ answered outs = requests msgs.
  Proof.
    intros Ha He H. pose proof (loop_all _ _ _ _ _ _ _ _ _ _ _ _ _ Ha He H) as ->.
    split; [reflexivity|]. apply loop_answered in H. apply H.
  Qed.

  (** C09: the single response to a request is the one the protocol prescribes (result, the error of the handler,
      unknown method, invalid parameters, refused after shutdown, internal error on panic), and a request never ends
      the loop. *)
  Theorem C09_prescribed_response s id m p s' o ex :
    on_msg s (Request id m p) = (s', o, ex) ->
    ex = false /\ exists r, responses o = [r] /\ prescribed handlers (shutdown_requested S s) (proj S s) id m p r.
  Proof.
    intros H. apply on_request_msg in H. destruct H as (He & r & Hr & _ & Hp). split; [exact He|].
    exists r. split; assumption.
  Qed.

  (** C09: after a shutdown request (even one whose handler panicked), every later request is refused. *)
  Theorem C09_refused_after_shutdown s msgs1 id m p msgs2 hs1 h hs2 p' taken outs s' :
    (forall x, snd (after x) = false) ->
    (forall m p, In (Notification m p) msgs1 -> m <> exit_method) ->
    handlers = hs1 ++ h :: hs2 -> (forall h, In h hs1 -> h_method _ _ _ h <> m) ->
    h_method _ _ _ h = m -> h_is_shutdown _ _ _ h = true -> h_parse _ _ _ h p = Some p' ->
    loop s (msgs1 ++ Request id m p :: msgs2) = (taken, outs, s') ->
    exists outs1 outs2 taken2,
      outs = outs1 ++ outs2 /\ taken = msgs1 ++ Request id m p :: taken2 /\
      answered outs1 = requests (msgs1 ++ [Request id m p]) /\
      responses outs2 = map (fun id => Resp_err id InvalidRequest) (requests taken2).
  Proof.
    intros Haf Hex Eh Hno Hm Hsd Hp Hl.
    change (Request id m p :: msgs2) with ([Request id m p] ++ msgs2) in Hl. rewrite app_assoc in Hl.
    destruct (loop s (msgs1 ++ [Request id m p])) as [[t1 o1] s1] eqn:E1.
    assert (Hex' : forall m0 p0, In (Notification m0 p0) (msgs1 ++ [Request id m p]) -> m0 <> exit_method).
    { intros m0 p0 [Hi|[Hi|[]]] % in_app_or; [apply (Hex _ _ Hi)|discriminate]. }
    pose proof (loop_all _ _ _ _ _ _ _ _ _ _ _ _ _ Haf Hex' E1) as ->.
    rewrite (loop_app _ _ _ _ _ _ _ _ _ _ _ _ _ E1 Hex' Haf) in Hl.
    destruct (loop s1 msgs2) as [[t2 o2] s2] eqn:E2. cbn in Hl. injection Hl as <- <- <-.
    exists o1, o2, t2. split; [reflexivity|]. rewrite <- app_assoc. split; [reflexivity|].
    split; [apply (loop_answered _ _ _ _ _ _ _ _ _ _ _ _ _ E1)|].
    eapply loop_shutdown; [|exact E2].
    destruct (loop s msgs1) as [[t0 o0] s0] eqn:E0.
    pose proof (loop_all _ _ _ _ _ _ _ _ _ _ _ _ _ Haf Hex E0) as ->.
    rewrite (loop_app _ _ _ _ _ _ _ _ _ _ _ _ _ E0 Hex Haf) in E1. cbn [event_loop] in E1.
    destruct (on_msg s0 (Request id m p)) as [[s3 o3] ex] eqn:E3.
    pose proof (shutdown_sets _ _ _ _ _ _ _ _ _ _ _ _ _ _ _ _ _ _ Eh Hno Hm Hsd Hp E3) as Hf.
    apply on_request_msg in E3. destruct E3 as (-> & _).
    pose proof (Haf (proj S s3)) as Hd. destruct (after (proj S s3)) as [x dead]. cbn in Hd. subst dead.
    cbn in E1. injection E1 as _ <-. exact Hf.
  Qed.

  (** C09: the [exit] notification ends the loop: no later message is looked at. *)
  Theorem C09_exit_ends msgs1 p msgs2 : forall s taken outs s',
    loop s (msgs1 ++ Notification exit_method p :: msgs2) = (taken, outs, s') ->
    exists rest, msgs1 ++ [Notification exit_method p] = taken ++ rest.
  Proof.
    induction msgs1 as [|msg msgs1 IH]; intros s taken outs s' H; cbn [app event_loop] in H.
    - destruct (on_msg s (Notification exit_method p)) as [[s1 o1] ex] eqn:Em.
      pose proof (on_exit _ _ _ _ _ _ _ _ _ _ _ _ Em) as Hx. cbn in Hx.
      rewrite PeanoNat.Nat.eqb_refl in Hx. subst ex. injection H as <- <- <-. exists []. reflexivity.
    - destruct (on_msg s msg) as [[s1 o1] ex]. destruct ex.
      + injection H as <- <- <-. exists (msgs1 ++ [Notification exit_method p]). reflexivity.
      + destruct (after (proj S s1)) as [x dead]. destruct dead.
        * injection H as <- <- <-. exists (msgs1 ++ [Notification exit_method p]). reflexivity.
        * match type of H with context [loop ?s2 ?ms] => destruct (loop s2 ms) as [[t2 o2] s3] eqn:El end.
          injection H as <- <- <-. destruct (IH _ _ _ _ El) as (rest & Hr).
          exists rest. cbn. rewrite Hr. reflexivity.
  Qed.
End Props.

(** A concrete server: the project state counts handled requests; method 1 answers, 2 fails with an LSP error, 3 with
    another error, 4 panics, 5 is shutdown, registered twice as in the code; parameters below 10 are valid. *)
Definition ex_handler (m : nat) (r : outcome nat) (sd : bool) : handler nat nat nat :=
  mk_handler m (fun p => if Nat.ltb p 10 then Some p else None) (fun s p => (s + p, r)) sd.
Definition ex_handlers :=
  [ex_handler 1 (H_ok 7) false; ex_handler 2 (H_lsp (-5)%Z 0) false; ex_handler 3 (H_err 0) false;
   ex_handler 4 H_panic false; ex_handler 5 (H_ok 0) true; ex_handler 5 (H_ok 0) true].
Definition ex_nhandlers : list (nhandler nat nat) :=
  [mk_nhandler 20 (fun p => if Nat.ltb p 10 then Some p else None) (fun s p => (s + p, Nat.eqb p 9))].
Definition ex_msgs : list (message nat) :=
  [Request 100 1 3; Notification 20 1; Request 101 2 3; Request 102 3 3; Notification 20 9;
   Request 103 4 3; Request 104 1 50; Request 105 77 0; Response 4; Request 106 5 0; Request 107 1 3;
   Notification 21 0; Request 108 1 1].
Definition ex_run after msgs :=
  event_loop nat nat nat ex_handlers ex_nhandlers 21 (fun _ => 0) after (mk_state 0 false true) msgs.

Example C09_example :
  let '(taken, outs, _) := ex_run (fun x => (x, false)) ex_msgs in
  length taken = 12 /\
  outs = [Resp_ok 100 7; Resp_err 101 (-5)%Z; Resp_err 102 InternalError; Show_panic;
          Resp_err 103 InternalError; Resp_err 104 InvalidParams; Resp_err 105 MethodNotFound;
          Resp_ok 106 0; Resp_err 107 InvalidRequest].
Proof. vm_compute. split; reflexivity. Qed.

(** Finding: the work between two messages (publishing diagnostics, loading the project, watcher events) runs outside
    [catch_unwind]; a panic there ends the process and pending requests stay unanswered. *)
Theorem C09_answer_all_sent_refuted :
  exists (after : nat -> nat * bool) (msgs : list (message nat)),
    (forall m p, In (Notification m p) msgs -> m <> 21) /\
    let '(taken, outs, _) := ex_run after msgs in
    count 2 (requests msgs) = 1 /\ count 2 (answered outs) = 0.
Proof.
  exists (fun x => (x, Nat.eqb x 5)), [Notification 20 5; Request 2 1 1]. split.
  - intros m p [E|[E|[]]]; congruence.
  - vm_compute. split; reflexivity.
Qed.

(** C47 (crashes are reported): the first panic shows a message to the client... *)
Theorem C47_first_crash_reported_partial {S P R} hs nhs ex rc (s : state S) (msg : message P) s' o e :
  hook S s = true ->
  on_lsp_message S P R hs nhs ex rc s msg = (s', o, e) ->
  hook S s' = true \/ panic_reports o = 1.
Proof.
  intros Hh H.
  assert (Hd : forall l s0 q s1 o1 c, dispatch S P R l s0 q = (s1, o1, c) -> hook S s1 = hook S s0).
  { induction l as [|h l IH]; intros s0 q s1 o1 c Hd.
    - destruct q as [[[? ?] ?]|]; cbn in Hd; injection Hd as <- <- <-; reflexivity.
    - cbn [dispatch] in Hd. unfold on_sync_mut, run_handler in Hd. destruct q as [[[id m] p]|].
      + destruct (Nat.eqb m (h_method _ _ _ h)).
        * destruct (h_parse _ _ _ h p) as [p'|].
          -- destruct (h_run _ _ _ h (proj S s0) p') as [x oc].
             destruct (result_to_response R id oc).
             ++ rewrite dispatch_none in Hd. injection Hd as <- <- <-. reflexivity.
             ++ injection Hd as <- <- <-. reflexivity.
          -- rewrite dispatch_none in Hd. injection Hd as <- <- <-. reflexivity.
        * destruct (dispatch S P R l s0 (Some (id, m, p))) as [[s2 o2] c2] eqn:E2.
          injection Hd as <- <- <-. eapply IH; exact E2.
      + rewrite dispatch_none in Hd. injection Hd as <- <- <-. reflexivity. }
  assert (Hr : forall a b : list (output R), panic_reports (a ++ b) = panic_reports a + panic_reports b).
  { induction a as [|[] a IH]; intros b; cbn; rewrite ?IH; reflexivity. }
  unfold on_lsp_message in H. destruct msg as [id m p|m p|id].
  - unfold on_request in H. destruct (shutdown_requested S s).
    + injection H as <- <- <-. left. exact Hh.
    + destruct (dispatch S P R hs s (Some (id, m, p))) as [[s1 o1] c1] eqn:E1.
      pose proof (Hd _ _ _ _ _ _ E1) as Hk. destruct c1.
      * injection H as <- <- <-. left. congruence.
      * unfold run_panic_hook in H. rewrite Hk, Hh in H. injection H as <- <- <-. right.
        assert (Ho : panic_reports o1 = 0).
        { clear - E1. revert E1. generalize (Some (id, m, p)). revert s1 o1. generalize Unwound.
          revert s. induction hs as [|h l IH]; intros s c s1 o1 q Hd.
          - destruct q as [[[? ?] ?]|]; cbn in Hd; injection Hd as <- <- <-; reflexivity.
          - cbn [dispatch] in Hd. unfold on_sync_mut, run_handler in Hd. destruct q as [[[i n] q]|].
            + destruct (Nat.eqb n (h_method _ _ _ h)).
              * destruct (h_parse _ _ _ h q) as [p'|].
                -- destruct (h_run _ _ _ h (proj S s) p') as [x oc].
                   destruct (result_to_response R i oc) eqn:Er.
                   ++ rewrite dispatch_none in Hd. injection Hd as <- <- <-.
                      destruct oc; cbn in Er; try discriminate; injection Er as <-; reflexivity.
                   ++ injection Hd as <- <- <-. reflexivity.
                -- rewrite dispatch_none in Hd. injection Hd as <- <- <-. reflexivity.
              * destruct (dispatch S P R l s (Some (i, n, q))) as [[s2 o2] c2] eqn:E2.
                injection Hd as <- <- <-. cbn. eapply IH; exact E2.
            + rewrite dispatch_none in Hd. injection Hd as <- <- <-. reflexivity. }
        rewrite !Hr, Ho. reflexivity.
  - destruct (Nat.eqb m ex).
    + injection H as <- <- <-. left. exact Hh.
    + destruct (ndispatch S P nhs s m p) as [s1 c1] eqn:En.
      assert (Hk : hook S s1 = hook S s).
      { revert En. clear. induction nhs as [|h l IH]; cbn; [congruence|].
        destruct (Nat.eqb m (n_method _ _ h)); [|exact IH].
        destruct (n_parse _ _ h p) as [p'|]; [|congruence].
        destruct (n_run _ _ h (proj S s) p') as [x b]. intros H. injection H as <- <-. reflexivity. }
      destruct c1.
      * injection H as <- <- <-. left. congruence.
      * unfold run_panic_hook in H. rewrite Hk, Hh in H. injection H as <- <- <-. right. reflexivity.
  - injection H as <- <- <-. left. exact Hh.
Qed.

(** ... but the hook is removed from its cell by that first panic: the second crash of a notification handler is not
    reported to the client at all. *)
Theorem C47_every_crash_reported_refuted :
  exists msgs : list (message nat),
    (* both messages crash their handler *)
    (forall x, In x msgs -> x = Notification 20 9) /\ length msgs = 2 /\
    (forall s, snd (n_run _ _ (hd (mk_nhandler 0 Some (fun s _ => (s, false))) ex_nhandlers) s 9) = true) /\
    let '(taken, outs, _) := ex_run (fun x => (x, false)) msgs in
    taken = msgs /\ panic_reports outs = 1.
Proof.
  exists [Notification 20 9; Notification 20 9]. repeat split.
  intros x [<-|[<-|[]]]; reflexivity.
Qed.

Print Assumptions C09_exactly_one_response.
Print Assumptions C09_nothing_skipped.
Print Assumptions C09_prescribed_response.
Print Assumptions C09_refused_after_shutdown.
Print Assumptions C09_exit_ends.
Print Assumptions C09_answer_all_sent_refuted.
Print Assumptions C47_first_crash_reported_partial.
Print Assumptions C47_every_crash_reported_refuted.
