(** C19: the tokenizer that can go back. *)
From Coq Require Import List Arith Bool Lia.
From Verif Require Import BacktrackModel BacktrackSpec BacktrackProofs.
Import ListNotations.

(** Every history of reading, starting, going back and stopping that the specification allows runs without a panic and
    gives exactly the tokens at the positions of the specification. *)
Theorem C19_replays_exactly : forall T start_index length_ all ops r outs,
  reads T start_index length_ all at_start ops r outs ->
  exists c, run T start_index length_ (begin T all) ops = Some (c, outs).
Proof.
  intros T si le all ops r outs R. destruct (sim_run T si le all ops (begin T all) at_start r outs (sim_start T all) R) as (c & E & _). exists c. exact E.
Qed.
Print Assumptions C19_replays_exactly.

(** Hence, wherever the history ends, what is read afterwards is the rest of the file: nothing is lost or duplicated. *)
Theorem C19_rest_is_complete : forall T start_index length_ all ops r outs,
  reads T start_index length_ all at_start ops r outs ->
  exists c, run T start_index length_ (begin T all) (ops ++ repeat Next (length all - pos r))
            = Some (c, outs ++ map Some (skipn (pos r) all)).
Proof.
  intros T si le all ops r outs R. assert (G : exists r', reads T si le all r (repeat Next (length all - pos r)) r' (map Some (skipn (pos r) all))).
  { clear R. remember (length all - pos r) as n eqn:N. revert r N. induction n as [|n IH]; intros r N.
    - exists r. rewrite skipn_all2 by lia. constructor.
    - assert (exists t, nth_error all (pos r) = Some t) as [t Et].
      { destruct (nth_error all (pos r)) eqn:X; [eauto|]. apply nth_error_None in X. lia. }
      destruct (IH (mk_reader (S (pos r)) (Nat.max (high r) (S (pos r))) true (marks r) (since r))) as [r' Hr']; [cbn; lia|].
      exists r'. rewrite (skipn_cons _ _ _ _ Et). cbn [repeat map]. change (Some t :: map Some (skipn (S (pos r)) all)) with ([Some t] ++ map Some (skipn (S (pos r)) all)).
      econstructor; [apply moves_next; exact Et|exact Hr']. }
  destruct G as [r' G]. assert (A : forall r0 o1 r1 out1, reads T si le all r0 o1 r1 out1 -> forall o2 r2 out2, reads T si le all r1 o2 r2 out2 -> reads T si le all r0 (o1 ++ o2) r2 (out1 ++ out2)).
  { intros r0 o1 r1 out1 H. induction H as [r0|r0 o r1 out os r2 outs' M H IH]; intros o2 r3 out2 H2; [exact H2|]. rewrite <- app_assoc. cbn [app]. econstructor; [exact M|exact (IH _ _ _ H2)]. }
  exact (C19_replays_exactly T si le all _ _ _ (A _ _ _ _ R _ _ _ G)).
Qed.
Print Assumptions C19_rest_is_complete.

(** Five tokens of length one; two nested starts, back to the inner one, then behind the token at 1, then to the outer one; stop and start
    again in the middle of what was recorded. *)
Definition ops1 : list op :=
  [Next; Start; Next; Next; Start; Next; Reset 1; Next; ResetLeaf 1 1; Next; Reset 0; Next; Next; Stop; Start; Next; Next; Next; Reset 0; Next].

Lemma reads_step : forall r o r1 out ops r2 outs all_outs, moves nat (fun t => t) (fun _ => 1) [0; 1; 2; 3; 4] r o r1 out ->
  all_outs = out ++ outs -> reads nat (fun t => t) (fun _ => 1) [0; 1; 2; 3; 4] r1 ops r2 outs ->
  reads nat (fun t => t) (fun _ => 1) [0; 1; 2; 3; 4] r (o :: ops) r2 all_outs.
Proof. intros r o r1 out ops r2 outs all_outs M -> R. econstructor; eassumption. Qed.

Example C19_example :
  let outs := [Some 0; Some 1; Some 2; Some 3; Some 2; Some 2; Some 0; Some 1; Some 2; Some 3; Some 4; Some 1] in
  exists c r, run nat (fun t => t) (fun _ => 1) (begin nat [0; 1; 2; 3; 4]) ops1 = Some (c, outs) /\
  reads nat (fun t => t) (fun _ => 1) [0; 1; 2; 3; 4] at_start ops1 r outs.
Proof.
  cbn zeta. do 2 eexists. split; [vm_compute; reflexivity|]. unfold ops1.
  Ltac go t := eapply reads_step; [t|cbn; reflexivity|cbn].
  go ltac:(apply moves_next; reflexivity). go ltac:(apply moves_start; reflexivity).
  do 2 go ltac:(apply moves_next; reflexivity). go ltac:(apply moves_start; reflexivity).
  go ltac:(apply moves_next; reflexivity). go ltac:(apply moves_reset; reflexivity). go ltac:(apply moves_next; reflexivity).
  go ltac:(apply moves_leaf with (j := 1) (p := 0); [reflexivity|lia|cbn; lia|exists 1; repeat split|
           intros i I1 I2 (t & E & A & _); cbn in I2; destruct i as [|[|[|[|i]]]]; cbn in E; try lia; injection E as <-; lia]).
  go ltac:(apply moves_next; reflexivity). go ltac:(apply moves_reset; reflexivity).
  do 2 go ltac:(apply moves_next; reflexivity). go ltac:(apply moves_stop). go ltac:(apply moves_start; reflexivity).
  do 3 go ltac:(apply moves_next; reflexivity). go ltac:(apply moves_reset; reflexivity). go ltac:(apply moves_next; reflexivity).
  apply reads_nil.
Qed.
