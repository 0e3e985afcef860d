(** C10 and C11: open documents and invalidation. *)
From Coq Require Import List Bool Arith Lia.
From Verif Require Import VfsModel VfsSpec VfsProofs VfsTreeProofs VfsStateProofs VfsEventProofs.
Import ListNotations.

(** ** C10 *)

(** While a document is open, the last content that the editor sent is used, whatever is on the disk, now ([d]) and at
    every time of the history.  Missing: histories in which the code panics, or in which an event of the operating
    system invalidates the whole database (see the refutations below). *)
Theorem C10_open_document_partial : forall ignored d0 ops s d p c,
  run ignored (start ignored d0) ops = Some s ->
  buffer p (map told_of ops) None = Some c ->
  snd (load ignored d s p) = Some c.
Proof.
  intros ignored d0 ops s d p c H B. apply (good_load_open ignored s (fun p => buffer p (map told_of ops) None)).
  - apply (run_good ignored ops (start ignored d0) s (fun _ => None)); [apply start_good|exact H].
  - exact B.
Qed.
Print Assumptions C10_open_document_partial.

(** As soon as it is closed, the content on the disk is used. *)
Theorem C10_closed_document : forall ignored d0 ops s d p c db s',
  run ignored (start ignored d0) ops = Some s ->
  buffer p (map told_of ops) None = Some c ->
  step ignored s (d, Close p) = Some (db, s') ->
  snd (load ignored d s' p) = read_file d p.
Proof.
  intros ignored d0 ops s d p c db s' H B C.
  assert (G := run_good ignored ops (start ignored d0) s (fun _ => None) (start_good ignored d0) H).
  cbn in C. assert (O := g_open _ _ G p). cbn beta in O. rewrite B in O. destruct O as (i & e & M & _). rewrite M in C.
  exact (close_load ignored s _ d p c db s' G B C).
Qed.
Print Assumptions C10_closed_document.

(** If it is not open, an event for the path makes the content on the disk known, provided that what is above is known to
    be directories (otherwise there was no event for those yet). *)
Theorem C10_disk_event : forall ignored d0 ops s d p s',
  run ignored (start ignored d0) ops = Some s ->
  buffer p (map told_of ops) None = None ->
  (forall n, In n p -> ignored n = false) -> dirs_above p (v_tree s) ->
  step ignored s (d, Changed p) = Some (false, s') ->
  snd (load ignored d s' p) = read_file d p.
Proof.
  intros ignored d0 ops s d p s' H B V D C.
  assert (G := run_good ignored ops (start ignored d0) s (fun _ => None) (start_good ignored d0) H).
  exact (changed_load ignored s _ d p s' G B V D C).
Qed.
Print Assumptions C10_disk_event.

Definition nothing_ignored : name -> bool := fun _ => false.
Definition d0 : disk := DDir [(1, DDir [(2, DFile 10); (4, DFile 40)]); (3, DFile 20)].
Definition d1 : disk := DDir [(3, DFile 21)].
Definition d2 : disk := DDir [(1, DFile 50); (3, DFile 20)].

(** An open document in a directory that is deleted; it is changed and closed after the directory is there again. *)
Definition history : list (disk * op) :=
  [(d0, Load [3]); (d0, Load [1; 2]); (d0, Store [1; 2] 11); (d0, Touch [1; 4]); (d0, Depend [1; 2] 0); (d1, Changed [1]);
   (d1, Store [1; 2] 12); (d1, Changed [3]); (d0, Changed [1]); (d0, Missing [1; 5] 0)].

Example C10_open_document_example : exists s,
  run nothing_ignored (start nothing_ignored d0) history = Some s /\
  buffer [1; 2] (map told_of history) None = Some 12 /\
  snd (load nothing_ignored d1 s [1; 2]) = Some 12 /\
  snd (load nothing_ignored d1 s [3]) = Some 21.
Proof. eexists. split; [vm_compute; reflexivity|]. repeat apply conj; vm_compute; reflexivity. Qed.

Example C10_closed_document_example : exists s s1 s2,
  run nothing_ignored (start nothing_ignored d0) history = Some s /\
  step nothing_ignored s (d0, Close [1; 2]) = Some (false, s1) /\ snd (load nothing_ignored d0 s1 [1; 2]) = Some 10 /\
  step nothing_ignored s (d1, Close [1; 2]) = Some (false, s2) /\ snd (load nothing_ignored d1 s2 [1; 2]) = None.
Proof. do 3 eexists. split; [vm_compute; reflexivity|]. repeat apply conj; vm_compute; reflexivity. Qed.

Example C10_disk_event_example : exists s s1,
  run nothing_ignored (start nothing_ignored d0) [(d0, Load [3]); (d0, Store [1; 2] 11)] = Some s /\
  dirs_above [3] (v_tree s) /\ snd (load nothing_ignored d1 s [3]) = Some 20 /\
  step nothing_ignored s (d1, Changed [3]) = Some (false, s1) /\ snd (load nothing_ignored d1 s1 [3]) = Some 21.
Proof. do 2 eexists. split; [vm_compute; reflexivity|]. repeat apply conj; vm_compute; reflexivity. Qed.

(** The full statement is false.  A directory with an open document is replaced by a file: the server panics. *)
Theorem C10_directory_becomes_file_refuted : exists d0 ops s d p q c,
  run nothing_ignored (start nothing_ignored d0) ops = Some s /\
  buffer q (map told_of ops) None = Some c /\
  step nothing_ignored s (d, Changed p) = None.
Proof.
  exists d0, [(d0, Store [1; 2] 11)]. eexists. exists d2, [1], [1; 2], 11.
  split; [vm_compute; reflexivity|]. split; vm_compute; reflexivity.
Qed.
Print Assumptions C10_directory_becomes_file_refuted.

(** So it does if the editor opens a document for a path that is a directory. *)
Theorem C10_document_for_directory_refuted : exists d p c,
  step nothing_ignored (start nothing_ignored d) (d, Store p c) = None.
Proof. exists d0, [1], 11. vm_compute. reflexivity. Qed.
Print Assumptions C10_document_for_directory_refuted.

(** A directory is deleted that has an open document and a file that everything depends on: the open document is gone. *)
Theorem C10_lost_document_refuted : exists d0 ops s d p s' q c,
  run nothing_ignored (start nothing_ignored d0) ops = Some s /\
  step nothing_ignored s (d, Changed p) = Some (true, s') /\
  buffer q (map told_of (ops ++ [(d, Changed p)])) None = Some c /\
  snd (load nothing_ignored d s' q) = None.
Proof.
  exists d0, [(d0, LoadBase [1; 4]); (d0, Store [1; 2] 11)]. eexists. exists d1, [1]. eexists. exists [1; 2], 11.
  split; [vm_compute; reflexivity|]. split; [vm_compute; reflexivity|]. split; vm_compute; reflexivity.
Qed.
Print Assumptions C10_lost_document_refuted.

(** ** C11 *)

(** Changing a file terminates (for cyclic dependencies, too), and exactly the files that depend on it are invalidated;
    exactly the open ones of them are reported.  The dependencies are taken away (they come back when the files are
    analysed again) from exactly these files.  The whole database is invalidated iff the file or a dependent one is one
    that everything depends on; all the open files are reported then. *)
Theorem C11_exactly_the_dependents : forall s i,
  let R := registered (v_files s) (v_heap s) in
  exists db s' new,
    invalidate_and_unload_file s i = Some (db, s') /\ v_log s' = v_log s ++ new /\
    (db = true <-> exists j, (j = i \/ depends R i j) /\ everything (v_files s) (v_heap s) j) /\
    (db = false ->
       (forall c j, In (Refs c j) new <-> c = Some i /\ depends R i j) /\
       (forall p, In (Notify p) new <-> exists j, depends R i j /\ f_path (get_file (v_files s) j) = p /\
                                                 mem_find (v_mem s) p <> None) /\
       (forall j, j = i \/ depends R i j -> inv_of (v_heap s') (f_entry (get_file (v_files s) j)) = InvSome []) /\
       (forall e, (forall j, j = i \/ depends R i j -> f_entry (get_file (v_files s) j) <> e) ->
          get_entry (v_heap s') e = get_entry (v_heap s) e)) /\
    (db = true -> forall p k, mem_find (v_mem s) p = Some k -> In (Notify p) new).
Proof. exact unload_post. Qed.
Print Assumptions C11_exactly_the_dependents.

(** The editor changes an open document: every file that depends on it is invalidated.  Missing: the entry of the file
    must be the one in the tree (see the refutation). *)
Theorem C11_edit_partial : forall ignored d0 ops d s p c i db s',
  run ignored (start ignored d0) ops = Some s ->
  mem_find (v_mem s) p = Some i -> buffer p (map told_of ops) None <> Some c ->
  lookup p (v_tree s) = Some (f_entry (get_file (v_files s) i)) ->
  store_in_memory_file ignored d s p c = Some (db, s') -> db = false ->
  forall j, depends (registered (v_files s) (v_heap s)) i j ->
  exists new, v_log s' = v_log s ++ new /\ In (Refs (Some i) j) new.
Proof.
  intros ignored d0 ops d s p c i db s' Hr M N L H Hdb j D.
  assert (G := run_good ignored ops (start ignored d0) s (fun _ => None) (start_good ignored d0) Hr). unfold store_in_memory_file in H.
  destruct (ensure_file ignored d [] p (v_tree s) (v_heap s)) as [[[[t h] e] inv]|] eqn:E; [|discriminate].
  destruct (ensure_file_grown ignored _ _ _ _ _ _ _ _ _ E (b_bound _ _ _ (g_base _ _ G))) as [Gr Le].
  rewrite M in H. cbn [v_files] in H.
  destruct (good_mem _ _ _ _ G M) as (c0 & e0 & B0 & L0 & X0 & C0 & I0 & P0). rewrite C0 in H.
  destruct (Nat.eqb c0 c) eqn:Ec; [apply Nat.eqb_eq in Ec; congruence|].
  set (s1 := mk_vfs t h (v_files s) (v_mem s) (v_log s ++ [Notify p])) in *.
  destruct (unload_post s1 i) as [db1 [s2 [new [U [Lg [_ [Fs _]]]]]]]. rewrite U in H. cbn zeta in H.
  match type of H with context [run_invalidate ?S _ _] => set (s3 := S) in H end.
  destruct (run_invalidate_post s3 (Some i) inv) as [db3 [h3 [new3 [R _]]]]. rewrite R in H. injection H as H <-.
  assert (db1 = false) by (destruct db1; [cbn in H; congruence|reflexivity]). subst db1.
  exists ([Notify p] ++ new ++ new3). cbn. rewrite Lg. unfold s1. cbn. rewrite <- !app_assoc. split; [reflexivity|].
  right. apply in_or_app. left. destruct (Fs eq_refl) as [A _]. apply A. split; [reflexivity|].
  assert (Reg : forall a b, registered (v_files s) (v_heap s) a b -> registered (v_files s1) (v_heap s1) a b).
  { intros a b [l [El Ib]]. exists l. split; [|exact Ib]. unfold s1. cbn. rewrite <- El. unfold inv_of.
    destruct (le_lt_dec (length (v_heap s)) (f_entry (get_file (v_files s) a))) as [Q|Q].
    - exfalso. unfold inv_of, get_entry in El. rewrite nth_overflow in El by exact Q. cbn in El. injection El as <-. destruct Ib.
    - rewrite (g_same _ _ _ _ _ Gr) by exact Q. reflexivity. }
  destruct D as [k [K R1]]. exists k. split; [apply Reg; exact K|].
  apply (reach_mono (registered (v_files s) (v_heap s)) (registered (v_files s1) (v_heap s1)) [k] [k]); [exact Reg| |exact R1].
  intros a Ha. apply reach_in. exact Ha.
Qed.
Print Assumptions C11_edit_partial.

Example C11_edit_example : exists s s' ,
  run nothing_ignored (start nothing_ignored d0) [(d0, Load [3]); (d0, Store [1; 2] 11); (d0, Depend [1; 2] 0)] = Some s /\
  lookup [1; 2] (v_tree s) = Some (f_entry (get_file (v_files s) 1)) /\ mem_find (v_mem s) [1; 2] = Some 1 /\
  store_in_memory_file nothing_ignored d0 s [1; 2] 12 = Some (false, s') /\ v_log s' = v_log s ++ [Notify [1; 2]; Refs (Some 1) 0].
Proof. do 2 eexists. split; [vm_compute; reflexivity|]. repeat apply conj; vm_compute; reflexivity. Qed.

(** Three files that depend on each other in a circle and a fourth one; the third one is open. *)
Definition circle : vfs :=
  mk_vfs [] [mk_entry (Some 0) (InvSome [1]); mk_entry (Some 1) (InvSome [2; 1]); mk_entry (Some 2) (InvSome [0]); mk_entry (Some 3) (InvSome [1])]
    [mk_file [1] 0 (Some 10); mk_file [2] 1 (Some 20); mk_file [3] 2 (Some 30); mk_file [4] 3 (Some 40)] [([3], 2)] [].

Example C11_exactly_the_dependents_example : exists s',
  invalidate_and_unload_file circle 0 = Some (false, s') /\
  v_log s' = [Refs (Some 0) 1; Refs (Some 0) 2; Refs (Some 0) 0; Notify [3]; Refs (Some 0) 1] /\
  get_entry (v_heap s') 3 = get_entry (v_heap circle) 3.
Proof. eexists. split; [vm_compute; reflexivity|]. split; vm_compute; reflexivity. Qed.

(** A directory with an open document is deleted.  File 0 imports the document again, but is not invalidated when the
    document is changed: the file index still has the old entry. *)
Theorem C11_deleted_directory_refuted : exists d0 ops s p c i j e l s' new d,
  run nothing_ignored (start nothing_ignored d0) ops = Some s /\
  mem_find (v_mem s) p = Some i /\ buffer p (map told_of ops) None <> Some c /\
  lookup p (v_tree s) = Some e /\ inv_of (v_heap s) e = InvSome l /\ In j l /\
  step nothing_ignored s (d, Store p c) = Some (false, s') /\
  v_log s' = v_log s ++ new /\ (forall x, ~ In (Refs x j) new).
Proof.
  exists d0, [(d0, Load [3]); (d0, Store [1; 2] 11); (d0, Depend [1; 2] 0); (d1, Changed [1]); (d1, Depend [1; 2] 0)].
  eexists. exists [1; 2], 12, 1, 0. eexists. eexists. eexists. exists [Notify [1; 2]], d1.
  split; [vm_compute; reflexivity|]. split; [vm_compute; reflexivity|]. split; [vm_compute; discriminate|].
  split; [vm_compute; reflexivity|]. split; [vm_compute; reflexivity|]. split; [left; reflexivity|].
  split; [vm_compute; reflexivity|]. split; [vm_compute; reflexivity|]. intros x [H|[]]. discriminate.
Qed.
Print Assumptions C11_deleted_directory_refuted.
