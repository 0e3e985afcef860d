(** C33: what the server knows about an open notebook. *)
From Coq Require Import List Permutation Bool Arith Lia.
From Verif Require Import NotebookModel NotebookSpec NotebookProofs.
Import ListNotations.

Definition distinct (nb : option (list (nat * nat))) : Prop := match nb with Some l => NoDup (map fst l) | None => True end.

Lemma session_any : forall P nb ns nb', session P nb ns nb' -> forall s, knows s nb -> distinct nb ->
  exists s', handle_all s ns = (Done, s') /\ knows s' nb'.
Proof.
  intros P nb ns nb' S. induction S as [nb|nb n nb1 r nb2 Pn Sn _ IH]; intros s K N; [exists s; split; [reflexivity|exact K]|].
  destruct (handle_spec nb n nb1 s Sn K N) as (s1 & E & K1 & N1 & _). destruct (IH s1 K1 N1) as (s2 & E2 & K2).
  exists s2. cbn [handle_all]. rewrite E. split; assumption.
Qed.

(** Whatever the client does (open, insert, remove and replace cells anywhere, edit any cells, close and open again):
    nothing fails, and the server has the same cells in the same order with the same texts, and no others. *)
Theorem C33_cells_and_texts : forall ns nb, session (fun _ _ => True) None ns nb ->
  exists s, handle_all initial ns = (Done, s) /\ knows s nb.
Proof. intros ns nb S. apply (session_any _ _ _ _ S); [split; reflexivity|exact I]. Qed.

Lemma session_end : forall nb ns nb', session at_the_end nb ns nb' -> forall s, knows s nb -> distinct nb ->
  (forall l, nb = Some l -> chained s (map fst l)) ->
  exists s', handle_all s ns = (Done, s') /\ forall l, nb' = Some l -> chained s' (map fst l).
Proof.
  intros nb ns nb' S. induction S as [nb|nb n nb1 r nb2 Pn Sn _ IH]; intros s K N Ch; [exists s; split; [reflexivity|exact Ch]|].
  destruct (handle_spec nb n nb1 s Sn K N) as (s1 & E & K1 & N1 & C1). destruct (IH s1 K1 N1) as (s2 & E2 & C2).
  - intros l ->. apply C1; [exact Pn|]. destruct nb as [l'|]; [exact (Ch l' eq_refl)|exact I].
  - exists s2. cbn [handle_all]. rewrite E. split; assumption.
Qed.

(** Partial: only if no cell follows the replaced ones, in all structural changes, every cell is linked to the one before. *)
Theorem C33_parents_partial : forall ns l, session at_the_end None ns (Some l) ->
  exists s, handle_all initial ns = (Done, s) /\ chained s (map fst l).
Proof.
  intros ns l S. destruct (session_end _ _ _ S initial) as (s & E & C).
  - split; reflexivity.
  - exact I.
  - discriminate.
  - exists s. split; [exact E|exact (C l eq_refl)].
Qed.

(** In general: whenever a cell follows the replaced ones, it is linked to itself, so names in it are looked up in a loop. *)
Theorem C33_parents_refuted : forall ns before old after new st u c,
  session (fun _ _ => True) None ns (Some (before ++ old ++ (u, c) :: after)) ->
  restructures (before ++ old ++ (u, c) :: after) (Some st) (before ++ new ++ (u, c) :: after) ->
  st_start st = length before -> st_delete st = length old ->
  exists s, handle_all initial (ns ++ [Change (Some st) []]) = (Done, s) /\
    knows s (Some (before ++ new ++ (u, c) :: after)) /\
    exists d, docs s u = Some d /\ d_parent d = Some u.
Proof.
  intros ns bef old aft new st u c S R S1 S2.
  assert (exists s, handle_all initial ns = (Done, s) /\ knows s (Some (bef ++ old ++ (u, c) :: aft)) /\ distinct (Some (bef ++ old ++ (u, c) :: aft))) as (s & E & K & N).
  { assert (G : forall P nb ns nb', session P nb ns nb' -> forall s, knows s nb -> distinct nb -> exists s', handle_all s ns = (Done, s') /\ knows s' nb' /\ distinct nb').
    { clear. intros P nb ns nb' S. induction S as [nb|nb n nb1 r nb2 Pn Sn _ IH]; intros s K N; [exists s; auto|].
      destruct (handle_spec nb n nb1 s Sn K N) as (s1 & E & K1 & N1 & _). destruct (IH s1 K1 N1) as (s2 & E2 & K2).
      exists s2. cbn [handle_all]. rewrite E. split; assumption. }
    apply (G _ _ _ _ S); [split; reflexivity|exact I]. }
  destruct (splice_spec _ st _ R s N K) as (s1 & A & K1 & _ & Len).
  destruct (update_child_spec s1 _ (st_start st + match st_cells st with Some l => length l | None => 0 end) K1) as (s2 & B & K2 & _).
  exists s2. assert (H : handle s (Change (Some st) []) = (Done, s2)).
  { cbn [handle]. unfold did_change. rewrite A, B. reflexivity. }
  split; [|split; [exact K2|]].
  - assert (G : forall ns s0 s, handle_all s0 ns = (Done, s) -> handle_all s0 (ns ++ [Change (Some st) []]) = handle_all s [Change (Some st) []]).
    { clear. induction ns as [|n ns IH]; intros s0 s E; [injection E as ->; reflexivity|]. cbn [handle_all app] in *.
      destruct (handle s0 n) as [[] s']; try discriminate. apply IH. exact E. }
    rewrite (G _ _ _ E). cbn [handle_all]. rewrite H. reflexivity.
  - rewrite !app_length in Len. cbn [length] in Len.
    assert (Pos : st_start st + match st_cells st with Some l => length l | None => 0 end = length (bef ++ new)) by (rewrite app_length; lia).
    unfold update_child in B. rewrite Pos in B. destruct K1 as (C1 & T1 & _). rewrite C1 in B. rewrite nth_error_map, app_assoc, nth_error_app2, Nat.sub_diag in B by lia.
    cbn [nth_error option_map fst] in B. destruct (T1 u c) as (d & D & Dc); [apply in_or_app; right; apply in_or_app; right; left; reflexivity|].
    rewrite D in B. unfold store_with_parent in B. rewrite D in B. injection B as <-.
    destruct (store_self s1 u (d_code d) (Some u)) as (y & Y1 & _ & Y3). eauto.
Qed.

Lemma close_failed : forall us s, fst (close_cells s us Failed) = Failed.
Proof. induction us as [|u us IH]; intros s; [reflexivity|]. cbn [close_cells]. destruct (docs s u); apply IH. Qed.

Lemma set_none : forall s u v, docs s v = None -> docs (set_doc s u None) v = None.
Proof. intros s u v H. rewrite docs_set. destruct (v =? u); [reflexivity|exact H]. Qed.

Lemma close_unknown : forall us s r u, In u us -> docs s u = None -> fst (close_cells s us r) = Failed.
Proof.
  induction us as [|v us IH]; intros s r u I D; [destruct I|]. cbn [close_cells]. destruct (docs s v) as [d|] eqn:V.
  - destruct I as [->|I]; [congruence|]. apply (IH _ _ u I). apply set_none. exact D.
  - apply close_failed.
Qed.

Lemma close_gone : forall us s r u, In u us \/ docs s u = None -> docs (snd (close_cells s us r)) u = None.
Proof.
  induction us as [|v us IH]; intros s r u H; [destruct H as [[]|H]; exact H|]. cbn [close_cells]. destruct (docs s v) as [d|] eqn:V; apply IH.
  - destruct H as [[->|H]|H]; [right; rewrite docs_set, Nat.eqb_refl; reflexivity|left; exact H|right; apply set_none; exact H].
  - destruct H as [[->|H]|H]; auto.
Qed.

(** Closing a cell that is not open is reported, whatever else is closed; no cell stays open. *)
Theorem C33_unknown_cell_reported : forall s us, (exists u, In u us /\ docs s u = None) ->
  exists s', handle s (Close us) = (Failed, s') /\ cells s' = None /\ forall u, In u us -> docs s' u = None.
Proof.
  intros s us (u & I & D). cbn [handle]. unfold did_close. assert (A := close_unknown us s Done u I D). assert (B := close_gone us s Done).
  destruct (close_cells s us Done) as [o s1]. cbn [fst snd] in A, B. subst o. exists (mk_state None (docs s1)). split; [reflexivity|].
  split; [reflexivity|]. intros v J. apply B. left. exact J.
Qed.

(** Two cells are opened, a third is appended, the second is edited and then replaced together with the third. *)
Definition sample : list notification :=
  [ Open [(Code, 1); (Code, 2)] [(2, 20); (1, 10)];
    Change (Some (mk_structure 2 0 (Some [(Code, 3)]) (Some [(3, 30)]) None)) [];
    Change None [(2, 21)];
    Change (Some (mk_structure 1 2 (Some [(Code, 4)]) (Some [(4, 40)]) (Some [3; 2]))) [(4, 41); (1, 11)] ].

Example sample_session : session at_the_end None sample (Some [(1, 11); (4, 41)]).
Proof.
  assert (P : Permutation [(2, 20); (1, 10)] [(1, 10); (2, 20)]) by apply perm_swap.
  apply (session_cons _ None _ (Some [(1, 10); (2, 20)])); [exact I| |].
  { refine (sends_open [(1, 10); (2, 20)] _ _ P). repeat (constructor; [cbn; intuition discriminate|]). constructor. }
  apply (session_cons _ _ _ (Some [(1, 10); (2, 20); (3, 30)])); [reflexivity| |].
  { apply (sends_change _ _ [(1, 10); (2, 20); (3, 30)]); [|constructor].
    apply (restructures_splice [(1, 10); (2, 20)] [] [] [(3, 30)]); try reflexivity.
    - repeat (constructor; [cbn; intuition discriminate|]). constructor.
    - intros u _ [].
    - left. split; [reflexivity|]. exists [(3, 30)]. split; reflexivity.
    - right. split; reflexivity. }
  apply (session_cons _ _ _ (Some [(1, 10); (2, 21); (3, 30)])); [exact I| |].
  { apply (sends_change _ _ [(1, 10); (2, 20); (3, 30)]); [constructor|]. apply edits_one; [cbn; tauto|]. apply edits_none. }
  apply (session_cons _ _ _ (Some [(1, 11); (4, 41)])); [reflexivity| |constructor].
  apply (sends_change _ _ [(1, 10); (4, 40)]).
  - apply (restructures_splice [(1, 10)] [(2, 21); (3, 30)] [] [(4, 40)]); try reflexivity.
    + repeat (constructor; [cbn; intuition discriminate|]). constructor.
    + intros u [<-|[]]. cbn. intuition discriminate.
    + left. split; [reflexivity|]. exists [(4, 40)]. split; reflexivity.
    + left. exists [3; 2]. split; [reflexivity|]. apply perm_swap.
  - apply edits_one; [cbn; tauto|]. apply edits_one; [cbn; tauto|]. apply edits_none.
Qed.

Example sample_result : exists s, handle_all initial sample = (Done, s) /\ cells s = Some [1; 4] /\
  docs s 1 = Some (mk_doc 11 None) /\ docs s 4 = Some (mk_doc 41 (Some 1)) /\ docs s 2 = None.
Proof. eexists. split; [reflexivity|]. cbn. auto. Qed.

(** A cell is inserted before the second one: that one becomes its own parent. *)
Example inserted_before : exists s,
  handle_all initial [ Open [(Code, 1); (Code, 2)] [(1, 10); (2, 20)];
                       Change (Some (mk_structure 1 0 (Some [(Code, 3)]) (Some [(3, 30)]) None)) [] ] = (Done, s) /\
  cells s = Some [1; 3; 2] /\ docs s 3 = Some (mk_doc 30 (Some 1)) /\ docs s 2 = Some (mk_doc 20 (Some 2)).
Proof. eexists. split; [reflexivity|]. cbn. auto. Qed.

(** The texts between the code count as cells: a client that sent them would not get its notebook opened. *)
Example markdown_cells_fail :
  fst (handle_all initial [ Open [(Markdown, 1); (Code, 3)] [(1, 10); (3, 30)] ]) = Failed.
Proof. reflexivity. Qed.

Print Assumptions C33_cells_and_texts.
Print Assumptions C33_parents_partial.
Print Assumptions C33_unknown_cell_reported.
Print Assumptions C33_parents_refuted.
