(** C13, the part of the virtual file system: who registered for a file or for something missing is told. *)
From Coq Require Import List Bool Arith Lia.
From Verif Require Import VfsModel VfsSpec VfsProofs VfsTreeProofs VfsStateProofs VfsNotifyProofs.
Import ListNotations.

(** After any history: if file [i] is registered at or below [p], and an event says that at [p] there is now something of
    another kind (a file, a directory or nothing), then [i] is invalidated (or the whole database is). *)
Theorem C13_event_reaches_partial : forall ignored d0 ops s d p r n i db s',
  run ignored (start ignored d0) ops = Some s ->
  registered_at s (p ++ r) i ->
  p <> [] -> node_at p (v_tree s) = Some n -> other_kind d p n -> ignored (last p 0) = false ->
  mem_find (v_mem s) p = None ->
  step ignored s (d, Changed p) = Some (db, s') ->
  db = true \/ exists new c, v_log s' = v_log s ++ new /\ In (Refs c i) new.
Proof.
  intros ignored d0 ops s d p r n i db s' H R P N K V M S.
  assert (G := run_good ignored ops (start ignored d0) s (fun _ => None) (start_good ignored d0) H).
  exact (event_told ignored s d p r i n db s' (b_bound _ _ _ (g_base _ _ G)) R P N K V M S).
Qed.
Print Assumptions C13_event_reaches_partial.

(** The importing file is registered by [add_missing_entry_callback] if nothing is there ... *)
Theorem C13_missing_registers : forall ignored s d w i db s',
  w <> [] -> dirs_read w (v_tree s) ->
  match node_at w (v_tree s) with None | Some (NMissing _) => True | _ => False end ->
  step ignored s (d, Missing w i) = Some (db, s') -> registered_at s' w i.
Proof.
  intros ignored s d w i db s' W D N H. cbn in H. destruct (add_missing_registers w i (v_tree s) (v_heap s) W D N) as [v [A B]].
  destruct (add_missing w i (v_tree s) (v_heap s)) as [t h]. injection H as _ <-. unfold registered_at. cbn [v_tree fst] in *.
  rewrite A. exact B.
Qed.
Print Assumptions C13_missing_registers.

(** ... and by [add_invalidation] if the file is found and its index belongs to the entry. *)
Theorem C13_file_registers_partial : forall ignored d0 ops s d w i db s' e j,
  run ignored (start ignored d0) ops = Some s ->
  step ignored s (d, Depend w i) = Some (db, s') ->
  node_at w (v_tree s') = Some (NFile e) -> idx_of (v_heap s') e = Some j -> f_entry (get_file (v_files s') j) = e ->
  registered_at s' w i.
Proof.
  intros ignored d0 ops s d w i db s' e j H S N X F.
  assert (G := run_good ignored ops (start ignored d0) s (fun _ => None) (start_good ignored d0) H).
  unfold registered_at. rewrite N. split; [|exists j; auto].
  cbn in S. unfold depend in S. destruct (search_path ignored d [] w (v_tree s) (v_heap s)) as [[t h] o] eqn:E.
  destruct (search_path_grown ignored _ _ _ _ _ _ _ _ E (b_bound _ _ _ (g_base _ _ G))) as [Gr L].
  assert (Bd := grown_bounded _ _ _ _ _ Gr (b_bound _ _ _ (g_base _ _ G))).
  injection S as _ <-. cbn [v_tree v_heap] in *.
  apply node_lookup in N. rewrite N in L. subst o. unfold inv_of, get_entry. rewrite nth_set_nth.
  - rewrite Nat.eqb_refl. cbn. apply has_add.
  - exact (Bd w e N).
Qed.
Print Assumptions C13_file_registers_partial.

Definition none_ignored : name -> bool := fun _ => false.
(** Two files, 3 and 1/2; in the second disk there is the directory 4 with the file 5, and 1 is gone. *)
Definition disk0 : disk := DDir [(1, DDir [(2, DFile 10)]); (3, DFile 20)].
Definition disk1 : disk := DDir [(3, DFile 20); (4, DDir [(5, DFile 30)])].

Definition imports : list (disk * op) :=
  [(disk0, Load [3]); (disk0, Missing [4] 0); (disk0, Touch [1; 2]); (disk0, Depend [1; 2] 0); (disk0, Missing [1; 6] 0)].

Example C13_event_reaches_example : exists s s1 s2,
  run none_ignored (start none_ignored disk0) imports = Some s /\
  (registered_at s [4] 0 /\ registered_at s [1; 2] 0 /\ registered_at s [1; 6] 0) /\
  step none_ignored s (disk1, Changed [4]) = Some (false, s1) /\ v_log s1 = [Refs None 0] /\
  step none_ignored s (disk1, Changed [1]) = Some (false, s2) /\ v_log s2 = [Refs (Some 1) 0; Refs None 0].
Proof.
  do 3 eexists. split; [vm_compute; reflexivity|]. split.
  - vm_compute. repeat split; auto. exists 1. auto.
  - split; [vm_compute; reflexivity|]. split; [vm_compute; reflexivity|]. split; vm_compute; reflexivity.
Qed.

(** What is missing: the absence of a module is registered at a file of that name without a suffix, if there is one (for
    example a script).  If nobody ever loaded that file, the registration is lost when the file is replaced by a package. *)
Theorem C13_script_replaced_refuted : exists d0 ops s d p i s',
  run none_ignored (start none_ignored d0) ops = Some s /\ In (d0, Missing p i) ops /\
  (exists e l, node_at p (v_tree s) = Some (NFile e) /\ inv_of (v_heap s) e = InvSome l /\ In i l) /\
  disk_at d p = Some (DDir [(7, DFile 70)]) /\
  step none_ignored s (d, Changed p) = Some (false, s') /\ v_log s' = v_log s.
Proof.
  exists (DDir [(3, DFile 20); (4, DFile 40)]), [(DDir [(3, DFile 20); (4, DFile 40)], Load [3]); (DDir [(3, DFile 20); (4, DFile 40)], Missing [4] 0)].
  eexists. exists (DDir [(3, DFile 20); (4, DDir [(7, DFile 70)])]), [4], 0. eexists.
  split; [vm_compute; reflexivity|]. split; [right; left; reflexivity|]. split.
  - eexists. eexists. split; [vm_compute; reflexivity|]. split; [vm_compute; reflexivity|left; reflexivity].
  - split; [vm_compute; reflexivity|]. split; vm_compute; reflexivity.
Qed.
Print Assumptions C13_script_replaced_refuted.
