(** C05, C43, C44: cache entries. *)
From Coq Require Import Arith NArith List Bool Lia.
From Verif Require Import PointModel PointSpec PointProofs.
Import ListNotations.
Open Scope N_scope.

(** C05 (partial): whatever way an entry was created and updated, every field reads back as the
    value stored last.  Missing from the full statement: updates that take back the
    flow / global / finished flag (refuted below). *)
Theorem C05_read_back_partial m us e :
  in_range m -> history keeps_flags m us e ->
  exists p0, create m = Some p0 /\
  let p := run_updates p0 us in
  calculated p = true /\ calculating p = false /\
  get_kind p = Some (payload_kind (e_payload e)) /\
  get_locality p = Some (e_locality e) /\
  node_index p = e_node e /\
  needs_flow_analysis p = e_flow e /\
  in_global_scope p = e_global e /\
  match e_payload e with
  | P_redirect f | P_file f => file_index p = f
  | P_complex i => complex_index p = i
  | P_specific s =>
      get_specific p = Some s /\
      (is_function_state s = true -> function_was_checked p = e_checked e) /\
      (is_partial s = true -> get_partial_flags p = e_partial e)
  end.
Proof.
  intros Hr Hh. destruct (history_rep m us e Hr Hh) as (p0 & Hc & Hp).
  exists p0. split; [exact Hc|]. cbv zeta.
  split; [exact (rep_calculated _ _ Hp)|].
  split; [exact (rep_not_calculating _ _ Hp)|].
  split; [exact (rep_kind _ _ Hp)|].
  split; [exact (rep_locality _ _ Hp)|].
  split; [exact (proj1 Hp)|].
  split; [exact (rep_flow _ _ Hp)|].
  split; [exact (rep_global _ _ Hp)|].
  destruct (e_payload e) as [f|f|i|s] eqn:Ep.
  - unfold file_index. rewrite (rep_rest _ _ Hp), Ep; [reflexivity|congruence].
  - unfold file_index. rewrite (rep_rest _ _ Hp), Ep; [reflexivity|congruence].
  - unfold complex_index. rewrite (rep_rest _ _ Hp), Ep; [reflexivity|congruence].
  - split; [exact (rep_specific _ _ Hp s Ep)|].
    split; [exact (rep_checked _ _ Hp s Ep)|exact (rep_partial _ _ Hp s Ep)].
Qed.

Example C05_case :
  in_range (M_specific S_PartialList L_File) /\
  history keeps_flags (M_specific S_PartialList L_File)
    [U_flow true; U_partial (mk_pf true false false); U_partial (mk_pf false true true); U_global true]
    (mk_entry (P_specific S_PartialList) L_File 0 true true false (mk_pf false true true)).
Proof.
  split; [exact I|].
  pose (m := M_specific S_PartialList L_File).
  pose proof (history_made keeps_flags m) as H0.
  assert (Hp : forall e f, e_payload e = P_specific S_PartialList -> applicable e (U_partial f))
    by (intros e f E; exists S_PartialList; split; [exact E|reflexivity]).
  pose proof (history_update keeps_flags m [] _ (U_flow true) H0 I (fun _ => eq_refl)) as H1.
  pose proof (history_update keeps_flags m _ _ (U_partial (mk_pf true false false)) H1
                (Hp (updated (made m) (U_flow true)) _ eq_refl) (fun H => H)) as H2.
  pose proof (history_update keeps_flags m _ _ (U_partial (mk_pf false true true)) H2
                (Hp (updated (updated (made m) (U_flow true)) (U_partial (mk_pf true false false))) _ eq_refl)
                (fun _ => eq_refl)) as H3.
  exact (history_update keeps_flags m _ _ (U_global true) H3 I (fun _ => eq_refl)).
Qed.

(** A link test answers exactly whether the entry is a redirect to that node of that file. *)
Theorem C05_redirect_test m us e f n :
  in_range m -> history keeps_flags m us e -> f < 2 ^ 23 ->
  exists p0, create m = Some p0 /\
  (maybe_redirect_to (run_updates p0 us) f n = true <-> e_payload e = P_redirect f /\ e_node e = n).
Proof.
  intros Hr Hh Hf. destruct (history_rep m us e Hr Hh) as (p0 & Hc & Hp).
  exists p0. split; [exact Hc|]. exact (rep_redirect_to _ _ Hp f n Hf).
Qed.

(** Entries that are not there yet or being computed are never mistaken for results. *)
Theorem C05_pending_entries :
  calculated new_uncalculated = false /\ calculating new_uncalculated = false /\
  calculated new_calculating = false /\ calculating new_calculating = true.
Proof. repeat split; reflexivity. Qed.

(** The full statement (any value can be stored at any time) is false: the flags are sticky. *)
Theorem C05_clear_finished_refuted :
  exists m us e p0,
    in_range m /\ history (fun _ _ => True) m us e /\ create m = Some p0 /\
    finished (e_partial e) = false /\ finished (get_partial_flags (run_updates p0 us)) = true.
Proof.
  exists (M_specific S_PartialList L_File),
    [U_partial (mk_pf false false true); U_partial (mk_pf false false false)],
    (mk_entry (P_specific S_PartialList) L_File 0 false false false (mk_pf false false false)).
  eexists. split; [exact I|]. split; [|split; [reflexivity|split; reflexivity]].
  pose (m := M_specific S_PartialList L_File).
  assert (Hp : forall e f, e_payload e = P_specific S_PartialList -> applicable e (U_partial f))
    by (intros e f E; exists S_PartialList; split; [exact E|reflexivity]).
  pose proof (history_update (fun _ _ => True) m [] _ (U_partial (mk_pf false false true))
                (history_made _ m) (Hp (made m) _ eq_refl) I) as H1.
  exact (history_update (fun _ _ => True) m _ _ (U_partial (mk_pf false false false)) H1
           (Hp (updated (made m) (U_partial (mk_pf false false true))) _ eq_refl) I).
Qed.

Theorem C05_clear_flow_refuted :
  exists m us e p0,
    in_range m /\ history (fun _ _ => True) m us e /\ create m = Some p0 /\
    e_flow e = false /\ needs_flow_analysis (run_updates p0 us) = true.
Proof.
  exists (M_redirect 5 7 L_File), [U_flow true; U_flow false],
    (mk_entry (P_redirect 5) L_File 7 false false false no_partial).
  eexists. split; [reflexivity|]. split; [|split; [reflexivity|split; reflexivity]].
  pose (m := M_redirect 5 7 L_File).
  pose proof (history_update (fun _ _ => True) m [] _ (U_flow true) (history_made _ m) I I) as H1.
  exact (history_update (fun _ _ => True) m _ _ (U_flow false) H1 I I).
Qed.

(** Outside the documented range the (release) code silently stores something else: the range is
    only checked for complex indices. *)
Theorem C05_large_file_index_refuted :
  exists f, f < 2 ^ 32 /\
    get_kind (new_redirect f 0 L_File) = Some K_FileReference /\
    file_index (new_redirect f 0 L_File) <> f.
Proof. exists (2 ^ 23). repeat split; vm_compute; congruence. Qed.

Theorem C05_complex_index_checked i l : new_complex_point i l = None <-> 2 ^ 23 <= i.
Proof.
  unfold new_complex_point. change REST_MASK with (2 ^ 23 - 1).
  destruct (N.leb_spec i (2 ^ 23 - 1)); split; intros; try discriminate; try reflexivity; lia.
Qed.

(** C43: when a file is invalidated, each cached entry of a dependent file that refers to it or
    has to be rechecked anyway is dropped, all other entries are untouched. *)
Theorem C43_invalidation f ps ms :
  Forall2 (fun p '(m, us, e) =>
             in_range m /\ history keeps_flags m us e /\
             exists p0, create m = Some p0 /\ p = run_updates p0 us) ps ms ->
  length (invalidate_references_to f ps) = length ps /\
  forall i p m us e,
    nth_error ps i = Some p -> nth_error ms i = Some (m, us, e) ->
    ((e_locality e = L_DirectExtern /\ (exists g, f = Some g /\ refers_to e g)) \/
     recheck_always (e_locality e) ->
     nth_error (invalidate_references_to f ps) i = Some new_uncalculated) /\
    (~ recheck_always (e_locality e) ->
     (e_locality e = L_DirectExtern -> exists g, refers_to e g /\ f <> Some g) ->
     nth_error (invalidate_references_to f ps) i = Some p).
Proof.
  intros Hall. split; [apply map_length|]. intros i p m us e Hp Hm.
  assert (Hrep : rep p e).
  { revert i Hp Hm. induction Hall as [|p1 x ps' ms' Hx Hall IH]; intros [|i] Hp Hm; simpl in *; try discriminate.
    - injection Hp as ->. injection Hm as ->. destruct Hx as (Hr & Hh & p0 & Hc & ->).
      destruct (history_rep _ _ _ Hr Hh) as (p0' & Hc' & Hp'). rewrite Hc in Hc'. injection Hc' as <-.
      exact Hp'.
    - exact (IH i Hp Hm). }
  unfold invalidate_references_to. split.
  - intros Hd. rewrite (map_nth_error _ i ps Hp). f_equal. exact (invalidate_cell_drops f p e Hrep Hd).
  - intros Hn Hd. rewrite (map_nth_error _ i ps Hp). f_equal. exact (invalidate_cell_keeps f p e Hrep Hn Hd).
Qed.

Example C43_case :
  invalidate_references_to (Some 5)
    [new_redirect 5 7 L_DirectExtern; new_redirect 6 7 L_DirectExtern; new_specific S_String L_File;
     new_specific S_String L_Todo]
  = [new_uncalculated; new_redirect 6 7 L_DirectExtern; new_specific S_String L_File; new_uncalculated].
Proof. reflexivity. Qed.

(** C44: restoring a backup brings back exactly the saved range, whatever was written in between. *)
Theorem C44_backup ps start stop saved ps' :
  backup ps start stop = Some (start, saved) -> length ps' = length ps ->
  forall i, nth_error (reset_from_backup ps' start saved) i =
            if (Nat.leb start i && Nat.ltb i stop)%nat then nth_error ps i else nth_error ps' i.
Proof.
  unfold backup. intros Hb Hl i.
  destruct (Nat.leb_spec start stop) as [H1|H1]; [|discriminate].
  destruct (Nat.leb_spec stop (length ps)) as [H2|H2]; [|discriminate].
  cbn [andb] in Hb. injection Hb as <-.
  assert (Hlen : length (firstn (stop - start) (skipn start ps)) = (stop - start)%nat).
  { rewrite firstn_length, skipn_length. lia. }
  rewrite reset_from_backup_nth by (rewrite Hlen; lia). rewrite Hlen.
  replace (start + (stop - start))%nat with stop by lia.
  destruct (Nat.leb_spec start i); destruct (Nat.ltb_spec i stop); cbn [andb]; try reflexivity.
  assert (E : forall (l : list point) k j, (j < k)%nat -> nth_error (firstn k l) j = nth_error l j).
  { intros l k. revert l. induction k as [|k IH]; intros l j Hj; [lia|].
    destruct l; [reflexivity|]. destruct j; [reflexivity|]. simpl. apply IH. lia. }
  rewrite E by lia.
  assert (E2 : forall (l : list point) k j, nth_error (skipn k l) j = nth_error l (k + j)).
  { intros l k. revert l. induction k as [|k IH]; intros l j; [reflexivity|].
    destruct l; [destruct j; reflexivity|]. simpl. apply IH. }
  rewrite E2. f_equal. lia.
Qed.

Example C44_case :
  exists saved, backup [new_uncalculated; new_redirect 5 7 L_File; new_calculating] 1 3 = Some (1%nat, saved).
Proof. eexists. reflexivity. Qed.

Print Assumptions C05_read_back_partial.
Print Assumptions C05_redirect_test.
Print Assumptions C05_pending_entries.
Print Assumptions C05_clear_finished_refuted.
Print Assumptions C05_clear_flow_refuted.
Print Assumptions C05_large_file_index_refuted.
Print Assumptions C05_complex_index_checked.
Print Assumptions C43_invalidation.
Print Assumptions C44_backup.
