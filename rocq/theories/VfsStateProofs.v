(** Proofs about histories of open documents and disk events (C10). *)
From Coq Require Import List Bool Arith Lia.
From Verif Require Import VfsModel VfsSpec VfsProofs VfsTreeProofs.
Import ListNotations.

Local Arguments get_file : simpl never.
Local Arguments get_entry : simpl never.
Local Arguments set_code : simpl never.
Local Arguments idx_of : simpl never.

(** The heap has the same file indices. *)
Definition same_idx (h h' : list entry) : Prop := length h' = length h /\ forall e, idx_of h' e = idx_of h e.

Lemma same_idx_refl : forall h, same_idx h h.
Proof. split; auto. Qed.

Lemma same_idx_trans : forall a b c, same_idx a b -> same_idx b c -> same_idx a c.
Proof. intros a b c [L1 H1] [L2 H2]. split; [congruence|]. intro e. congruence. Qed.

Lemma shrunk_same_idx : forall h h', shrunk h h' -> same_idx h h'.
Proof. intros h h' [L [I _]]. split; auto. Qed.

Lemma run_invalidate_frame : forall s ch inv db s', run_invalidate s ch inv = Some (db, s') ->
  v_tree s' = v_tree s /\ v_files s' = v_files s /\ v_mem s' = v_mem s /\ same_idx (v_heap s) (v_heap s').
Proof.
  intros s ch inv db s' H. destruct (run_invalidate_post s ch inv) as [db1 [h [new [E P]]]]. rewrite E in H.
  injection H as <- <-. cbn. repeat split; auto; destruct inv as [|l]; cbn in P.
  - destruct P as [_ [-> _]]. reflexivity.
  - apply shrunk_same_idx. apply (post_shrunk _ _ _ _ _ _ _ _ P).
  - destruct P as [_ [-> _]]. reflexivity.
  - apply shrunk_same_idx. apply (post_shrunk _ _ _ _ _ _ _ _ P).
Qed.

Lemma run_invalidate_total : forall s ch inv, run_invalidate s ch inv <> None.
Proof. intros s ch inv. destruct (run_invalidate_post s ch inv) as [db [h [new [E _]]]]. rewrite E. discriminate. Qed.

Lemma unload_frame : forall s i db s', invalidate_and_unload_file s i = Some (db, s') ->
  v_tree s' = v_tree s /\ v_files s' = set_code (v_files s) i None /\ v_mem s' = v_mem s /\ same_idx (v_heap s) (v_heap s').
Proof.
  intros s i db s' H. unfold invalidate_and_unload_file in H.
  set (e := f_entry (get_file (set_code (v_files s) i None) i)) in H.
  assert (S1 := shrunk_same_idx _ _ (take_shrunk (v_heap s) e)).
  destruct (take_inv (v_heap s) e) as [taken h]. apply run_invalidate_frame in H. cbn in *.
  destruct H as (A & B & C & D). repeat split; auto; eapply same_idx_trans; eauto.
Qed.

Lemma set_code_length : forall fs i c, length (set_code fs i c) = length fs.
Proof. intros. unfold set_code. apply set_nth_length. Qed.

Lemma set_code_code : forall fs i c j, i < length fs ->
  f_code (get_file (set_code fs i c) j) = if Nat.eqb j i then c else f_code (get_file fs j).
Proof.
  intros fs i c j H. unfold set_code, get_file. rewrite nth_set_nth by exact H. destruct (Nat.eqb_spec j i); reflexivity.
Qed.

Lemma set_code_code_other : forall fs i c j, j <> i -> f_code (get_file (set_code fs i c) j) = f_code (get_file fs j).
Proof. intros fs i c j H. unfold set_code, get_file. rewrite nth_set_nth_other by exact H. reflexivity. Qed.

(** ** The invariant *)

(** The part about tree, heap and files. *)
Record base (t : list (name * node)) (h : list entry) (fs : list file) : Prop := {
  b_bound : bounded t h;
  b_inj : injective t;
  b_path : forall q e i, lookup q t = Some e -> idx_of h e = Some i -> i < length fs /\ f_path (get_file fs i) = q }.

Lemma base_grown : forall N t h t' h' fs, base t h fs -> grown N t h t' h' -> base t' h' fs.
Proof.
  intros N t h t' h' fs [B I P] G. constructor.
  - eapply grown_bounded; eauto.
  - eapply grown_injective; eauto.
  - intros q e i L X. destruct (g_new _ _ _ _ _ G q e L) as [K|[_ [K _]]]; [|congruence].
    apply P with e; [exact K|]. unfold idx_of in *. rewrite (g_same _ _ _ _ _ G) in X; [exact X|]. apply B with q. exact K.
Qed.

Lemma base_idx : forall t h h' fs, base t h fs -> same_idx h h' -> base t h' fs.
Proof.
  intros t h h' fs [B I P] [L X]. constructor; auto.
  - intros q e H. rewrite L. apply B with q. exact H.
  - intros q e i H K. apply P with e; [exact H|]. rewrite <- X. exact K.
Qed.

Lemma base_files : forall t h fs fs', base t h fs -> length fs <= length fs' ->
  (forall i, i < length fs -> f_path (get_file fs' i) = f_path (get_file fs i)) -> base t h fs'.
Proof.
  intros t h fs fs' [B I P] L F. constructor; auto. intros q e i H K. destruct (P q e i H K) as [A C].
  split; [lia|]. rewrite F by exact A. exact C.
Qed.

Lemma base_tree : forall t t' h fs, base t h fs -> (forall q e, lookup q t' = Some e -> lookup q t = Some e) -> base t' h fs.
Proof.
  intros t t' h fs [B I P] F. constructor.
  - intros q e H. apply B with q. auto.
  - intros q1 q2 e H1 H2. apply I with e; auto.
  - intros q e i H K. apply P with e; auto.
Qed.

(** A path is open, with this content. *)
Definition shown (s : vfs) (p : path) (c : content) : Prop :=
  exists i e, mem_find (v_mem s) p = Some i /\ lookup p (v_tree s) = Some e /\ idx_of (v_heap s) e = Some i /\
              f_code (get_file (v_files s) i) = Some c.

Record good (s : vfs) (B : path -> option content) : Prop := {
  g_base : base (v_tree s) (v_heap s) (v_files s);
  g_keys : keys_nodup (v_mem s);
  g_open : forall p, match B p with Some c => shown s p c | None => mem_find (v_mem s) p = None end }.

Lemma good_mem : forall s B p i, good s B -> mem_find (v_mem s) p = Some i ->
  exists c e, B p = Some c /\ lookup p (v_tree s) = Some e /\ idx_of (v_heap s) e = Some i /\
              f_code (get_file (v_files s) i) = Some c /\ i < length (v_files s) /\ f_path (get_file (v_files s) i) = p.
Proof.
  intros s B p i G H. assert (K := g_open _ _ G p). destruct (B p) as [c|]; [|congruence].
  destruct K as (j & e & A & L & X & C). rewrite H in A. injection A as <-. exists c, e.
  destruct (b_path _ _ _ (g_base _ _ G) p e i L X). auto 10.
Qed.

(** The same index is not used for two open paths. *)
Lemma good_mem_inj : forall s B p q i, good s B -> mem_find (v_mem s) p = Some i -> mem_find (v_mem s) q = Some i -> p = q.
Proof.
  intros s B p q i G H K. destruct (good_mem _ _ _ _ G H) as (c & e & _ & _ & _ & _ & _ & E).
  destruct (good_mem _ _ _ _ G K) as (c' & e' & _ & _ & _ & _ & _ & E'). congruence.
Qed.

(** How the invariant is kept: nothing changes for the paths that are open. *)
Lemma good_keep : forall s s' B,
  good s B -> v_mem s' = v_mem s -> base (v_tree s') (v_heap s') (v_files s') ->
  (forall q e i, mem_find (v_mem s) q = Some i -> lookup q (v_tree s) = Some e -> idx_of (v_heap s) e = Some i ->
     lookup q (v_tree s') = Some e /\ idx_of (v_heap s') e = Some i /\
     f_code (get_file (v_files s') i) = f_code (get_file (v_files s) i)) ->
  good s' B.
Proof.
  intros s s' B G M Bs K. constructor; [exact Bs|rewrite M; apply (g_keys _ _ G)|].
  intros p. assert (O := g_open _ _ G p). destruct (B p) as [c|]; [|congruence].
  destruct O as (i & e & A & L & X & C). destruct (K p e i A L X) as (L' & X' & C').
  exists i, e. rewrite M. repeat split; auto. congruence.
Qed.

Lemma grown_keeps : forall N t h t' h' q e, bounded t h -> grown N t h t' h' -> lookup q t = Some e ->
  lookup q t' = Some e /\ idx_of h' e = idx_of h e.
Proof.
  intros N t h t' h' q e B G L. split; [apply (g_keep _ _ _ _ _ G); exact L|].
  unfold idx_of. rewrite (g_same _ _ _ _ _ G); [reflexivity|]. apply B with q. exact L.
Qed.

Section Ignored.
  Variable ignored : name -> bool.

  Lemma start_good : forall d, good (start ignored d) (fun _ => None).
  Proof.
    intros d. unfold start. destruct (read_dir ignored d [] []) as [t h] eqn:E. assert (G := read_dir_grown ignored _ _ _ _ _ E).
    assert (B0 : bounded [] []) by (intros q e; rewrite lookup_nil_tree; discriminate).
    assert (Base : base [] [] []).
    { constructor; [exact B0| |]; intros q e; rewrite lookup_nil_tree; discriminate. }
    constructor; cbn.
    - eapply base_grown; eauto.
    - constructor.
    - reflexivity.
  Qed.

  (** The state after the tree grew. *)
  Lemma good_grown : forall N s t h log B, good s B -> grown N (v_tree s) (v_heap s) t h ->
    good (mk_vfs t h (v_files s) (v_mem s) log) B.
  Proof.
    intros N s t h log B G Gr. apply good_keep with s; cbn; auto.
    - eapply base_grown; [apply (g_base _ _ G)|exact Gr].
    - intros q e i _ L X. destruct (grown_keeps _ _ _ _ _ q e (b_bound _ _ _ (g_base _ _ G)) Gr L) as [A C].
      repeat split; auto. congruence.
  Qed.

  (** A new index for the entry at a path that is not open. *)
  Lemma with_added_good : forall s p e c B s' i, good s B -> lookup p (v_tree s) = Some e ->
    with_added_file s p e c = (s', i) ->
    good s' B /\ v_tree s' = v_tree s /\ v_mem s' = v_mem s /\ idx_of (v_heap s') e = Some i /\ i < length (v_files s') /\
    length (v_heap s') = length (v_heap s) /\
    f_path (get_file (v_files s') i) = p /\
    (idx_of (v_heap s) e = None -> f_code (get_file (v_files s') i) = c).
  Proof.
    intros s p e c B s' i G L H. unfold with_added_file in H. fold (idx_of (v_heap s) e) in H.
    assert (Bs := g_base _ _ G). assert (Lt : e < length (v_heap s)) by (apply (b_bound _ _ _ Bs) with p; exact L).
    destruct (idx_of (v_heap s) e) as [j|] eqn:X.
    - injection H as <- <-. cbn. destruct (b_path _ _ _ Bs p e j L X) as [J P].
      assert (Pres : forall fs', (fs' = set_code (v_files s) j c \/ fs' = v_files s) ->
                f_path (get_file fs' j) = p /\ length fs' = length (v_files s) /\
                (forall k, f_path (get_file fs' k) = f_path (get_file (v_files s) k))).
      { intros fs' [-> | ->].
        - split; [rewrite get_set_code_path; exact P|]. split; [apply set_code_length|]. intro k. apply get_set_code_path.
        - auto. }
      assert (Cs : match f_code (get_file (v_files s) j) with Some _ => v_files s | None => set_code (v_files s) j c end = set_code (v_files s) j c
                \/ match f_code (get_file (v_files s) j) with Some _ => v_files s | None => set_code (v_files s) j c end = v_files s)
        by (destruct (f_code (get_file (v_files s) j)); auto).
      destruct (Pres _ Cs) as (P1 & P2 & P3).
      split; [|repeat split; auto; try lia; try congruence].
      apply good_keep with s; cbn; auto.
      + apply base_files with (v_files s); auto. lia.
      + intros q e' i' M L' X'. repeat split; auto.
        destruct (good_mem _ _ _ _ G M) as (c' & e'' & _ & _ & _ & C' & _ & _).
        destruct (f_code (get_file (v_files s) j)) as [x|] eqn:Cj; [reflexivity|].
        rewrite set_code_code_other; [reflexivity|]. intros ->. congruence.
    - injection H as <- <-. cbn.
      assert (Xe : idx_of (set_nth e (mk_entry (Some (length (v_files s))) (e_inv (get_entry (v_heap s) e))) (v_heap s)) e = Some (length (v_files s))).
      { unfold idx_of, get_entry. rewrite nth_set_nth by exact Lt. rewrite Nat.eqb_refl. reflexivity. }
      rewrite set_nth_length, app_length. cbn [length].
      assert (Gf : get_file (v_files s ++ [mk_file p e c]) (length (v_files s)) = mk_file p e c).
      { unfold get_file. rewrite app_nth2 by lia. rewrite Nat.sub_diag. reflexivity. }
      assert (Go : forall k, k < length (v_files s) -> get_file (v_files s ++ [mk_file p e c]) k = get_file (v_files s) k).
      { intros k K. unfold get_file. apply app_nth1. exact K. }
      assert (Xo : forall e', e' <> e -> idx_of (set_nth e (mk_entry (Some (length (v_files s))) (e_inv (get_entry (v_heap s) e))) (v_heap s)) e' = idx_of (v_heap s) e').
      { intros e' K. unfold idx_of, get_entry. rewrite nth_set_nth_other by exact K. reflexivity. }
      split; [|rewrite Gf; repeat split; auto; lia].
      apply good_keep with s; cbn; auto.
      + destruct Bs as [Bb Bi Bp]. constructor.
        * intros q e' H. rewrite set_nth_length. apply Bb with q. exact H.
        * exact Bi.
        * intros q e' i' L' X'. rewrite app_length. cbn [length]. destruct (Nat.eq_dec e' e) as [->|K].
          -- rewrite Xe in X'. injection X' as <-. rewrite Gf. split; [lia|]. cbn. apply Bi with e; assumption.
          -- rewrite Xo in X' by exact K. destruct (Bp q e' i' L' X') as [A C]. split; [lia|]. rewrite Go by exact A. exact C.
      + intros q e' i' M L' X'. assert (e' <> e) by congruence. rewrite Xo by assumption.
        destruct (good_mem _ _ _ _ G M) as (c' & e'' & _ & _ & _ & C' & K & _). rewrite Go by exact K. auto.
  Qed.

  Lemma load_entry_good : forall d s p e B s' r, good s B -> lookup p (v_tree s) = Some e ->
    load_entry d s p e = (s', r) -> good s' B /\ v_tree s' = v_tree s /\ length (v_heap s') = length (v_heap s).
  Proof.
    intros d s p e B s' r G L H. unfold load_entry in H. fold (idx_of (v_heap s) e) in H.
    destruct (idx_of (v_heap s) e) as [i|] eqn:X.
    - destruct (f_code (get_file (v_files s) i)) as [c|] eqn:C; [injection H as <- <-; auto|].
      destruct (read_file d _) as [c|]; injection H as <- <-; [|auto]. split; [|auto].
      apply good_keep with s; cbn; auto.
      + apply base_files with (v_files s); [apply (g_base _ _ G)|rewrite set_code_length; lia|intros; apply get_set_code_path].
      + intros q e' i' M L' X'. repeat split; auto. apply set_code_code_other. intros ->.
        destruct (good_mem _ _ _ _ G M) as (c' & e'' & _ & _ & _ & C' & _ & _). congruence.
    - destruct (read_file d p) as [c|]; [|injection H as <- <-; auto].
      destruct (with_added_file s p e (Some c)) as [s1 i] eqn:W. injection H as <- <-.
      destruct (with_added_good _ _ _ _ _ _ _ G L W) as (A & T & _ & _ & _ & Ln & _). auto.
  Qed.

  Lemma load_good : forall d s p B, good s B -> good (fst (load ignored d s p)) B.
  Proof.
    intros d s p B G. unfold load. destruct (search_path ignored d [] p (v_tree s) (v_heap s)) as [[t h] e] eqn:E.
    destruct (search_path_grown ignored _ _ _ _ _ _ _ _ E (b_bound _ _ _ (g_base _ _ G))) as [Gr L].
    assert (G1 := good_grown _ _ _ _ (v_log s) _ G Gr).
    destruct e as [e|]; [|exact G1].
    destruct (load_entry d _ p e) as [s1 r] eqn:E1. cbn. eapply (load_entry_good d _ p e); [exact G1|exact L|exact E1].
  Qed.

  (** Only invalidations change. *)
  Lemma good_idx : forall s h log B, good s B -> same_idx (v_heap s) h -> good (mk_vfs (v_tree s) h (v_files s) (v_mem s) log) B.
  Proof.
    intros s h log B G [L X]. apply good_keep with s; cbn; auto.
    - apply base_idx with (v_heap s); [apply (g_base _ _ G)|split; auto].
    - intros q e i _ Lk I. rewrite X. auto.
  Qed.

  Lemma set_inv_idx : forall h e v, same_idx h (set_nth e (mk_entry (e_index (get_entry h e)) v) h).
  Proof. intros. split; [apply set_nth_length|]. intros e'. apply idx_set_inv. Qed.

  Lemma load_base_good : forall d s p B, good s B -> good (load_base ignored d s p) B.
  Proof.
    intros d s p B G. unfold load_base. destruct (search_path ignored d [] p (v_tree s) (v_heap s)) as [[t h] e] eqn:E.
    destruct (search_path_grown ignored _ _ _ _ _ _ _ _ E (b_bound _ _ _ (g_base _ _ G))) as [Gr L].
    assert (G1 := good_grown _ _ _ _ (v_log s) _ G Gr).
    destruct e as [e|]; [|exact G1].
    destruct (load_entry d _ p e) as [s1 r] eqn:E1. cbn [fst].
    destruct (load_entry_good d _ p e _ _ _ G1 L E1) as (G2 & _).
    destruct (e_index (get_entry h e)); [exact G2|]. destruct (read_file d p); [|exact G2].
    apply good_idx; [exact G2|]. apply set_inv_idx.
  Qed.

  Lemma touch_good : forall d s p B, good s B -> good (touch ignored d s p) B.
  Proof.
    intros d s p B G. unfold touch. destruct (search_path ignored d [] p (v_tree s) (v_heap s)) as [[t h] e] eqn:E.
    destruct (search_path_grown ignored _ _ _ _ _ _ _ _ E (b_bound _ _ _ (g_base _ _ G))) as [Gr L].
    assert (G1 := good_grown _ _ _ _ (v_log s) _ G Gr).
    destruct e as [e|]; [|exact G1].
    destruct (with_added_file _ p e None) as [s1 i] eqn:W. cbn. eapply (with_added_good _ p e); [exact G1|exact L|exact W].
  Qed.

  Lemma depend_good : forall d s p i B, good s B -> good (depend ignored d s p i) B.
  Proof.
    intros d s p i B G. unfold depend. destruct (search_path ignored d [] p (v_tree s) (v_heap s)) as [[t h] e] eqn:E.
    destruct (search_path_grown ignored _ _ _ _ _ _ _ _ E (b_bound _ _ _ (g_base _ _ G))) as [Gr L].
    assert (G1 := good_grown _ _ _ _ (v_log s) _ G Gr).
    destruct e as [e|]; [|exact G1].
    apply (good_idx _ _ (v_log s) _ G1). apply set_inv_idx.
  Qed.

  Lemma missing_good : forall s p i B t h, good s B -> add_missing p i (v_tree s) (v_heap s) = (t, h) ->
    good (mk_vfs t h (v_files s) (v_mem s) (v_log s)) B.
  Proof.
    intros s p i B t h G E. destruct (add_missing_same _ _ _ _ _ _ E) as (A & L & X).
    apply good_keep with s; cbn; auto.
    - apply base_tree with (v_tree s); [|intros q e; rewrite A; auto].
      apply base_idx with (v_heap s); [apply (g_base _ _ G)|split; auto].
    - intros q e k _ Lk Ik. rewrite A, X. auto.
  Qed.

  (** ** The editor *)

  Definition put (B : path -> option content) (p : path) (c : option content) : path -> option content :=
    fun q => if path_eqb q p then c else B q.

  Lemma run_invalidate_good : forall s ch inv db s' B, good s B -> run_invalidate s ch inv = Some (db, s') -> good s' B.
  Proof.
    intros s ch inv db s' B G H. apply run_invalidate_frame in H. destruct H as (T & F & M & X).
    destruct s' as [t h f m l]. cbn in *. subst. apply good_idx; assumption.
  Qed.

  Lemma store_good : forall d s p c db s' B, good s B -> store_in_memory_file ignored d s p c = Some (db, s') ->
    good s' (put B p (Some c)).
  Proof.
    intros d s p c db s' B G H. unfold store_in_memory_file in H.
    destruct (ensure_file ignored d [] p (v_tree s) (v_heap s)) as [[[[t h] e] inv]|] eqn:E; [|discriminate].
    destruct (ensure_file_grown ignored _ _ _ _ _ _ _ _ _ E (b_bound _ _ _ (g_base _ _ G))) as [Gr L].
    assert (G1 := good_grown _ _ _ _ (v_log s ++ [Notify p]) _ G Gr).
    assert (Base1 := g_base _ _ G1). cbn in Base1.
    fold (idx_of h e) in H.
    (* the case of a file that has an index *)
    assert (Known : forall i mem, idx_of h e = Some i ->
      (forall q, mem_find mem q = if path_eqb q p then Some i else mem_find (v_mem s) q) -> keys_nodup mem ->
      forall s1, v_tree s1 = t -> v_mem s1 = mem -> same_idx h (v_heap s1) ->
        length (v_files s1) = length (v_files s) ->
        (forall k, f_path (get_file (v_files s1) k) = f_path (get_file (v_files s) k)) ->
        (forall k, k <> i -> f_code (get_file (v_files s1) k) = f_code (get_file (v_files s) k)) ->
        f_code (get_file (v_files s1) i) = Some c -> good s1 (put B p (Some c))).
    { intros i mem X Hm Hn s1 T1 M1 H1 L1 P1 C1 Ci. constructor.
      - rewrite T1. apply base_files with (v_files s); [apply base_idx with h; assumption|lia|auto].
      - rewrite M1. exact Hn.
      - intros q. unfold put. destruct (path_eqb_spec q p) as [->|N].
        + exists i, e. rewrite M1, Hm, T1. destruct (path_eqb_spec p p); [|congruence].
          repeat split; auto. destruct H1 as [_ H1]. rewrite H1. exact X.
        + assert (O := g_open _ _ G1 q). destruct (B q) as [c'|]; cbn in O.
          * destruct O as (j & e' & A & L' & X' & C'). cbn in *. exists j, e'. rewrite M1, Hm, T1.
            destruct (path_eqb_spec q p); [congruence|]. repeat split; auto.
            -- destruct H1 as [_ H1]. rewrite H1. exact X'.
            -- rewrite C1; [exact C'|]. intros ->.
               destruct (b_path _ _ _ Base1 q e' i L' X') as [_ Q1]. destruct (b_path _ _ _ Base1 p e i L X) as [_ Q2]. congruence.
          * rewrite M1, Hm. destruct (path_eqb_spec q p); [congruence|exact O]. }
    assert (Idx : forall i, mem_find (v_mem s) p = Some i -> idx_of h e = Some i).
    { intros i M. destruct (good_mem _ _ _ _ G1 M) as (c' & e' & _ & L' & X' & _). cbn in *. congruence. }
    (* what is done with the index *)
    assert (Store : forall i mem, idx_of h e = Some i ->
      (forall q, mem_find mem q = if path_eqb q p then Some i else mem_find (v_mem s) q) -> keys_nodup mem ->
      (if match f_code (get_file (v_files s) i) with Some c' => Nat.eqb c' c | None => false end
       then Some (false, mk_vfs t h (v_files s) mem (v_log s ++ [Notify p]))
       else
         match invalidate_and_unload_file (mk_vfs t h (v_files s) mem (v_log s ++ [Notify p])) i with
         | None => None
         | Some (db, s) =>
             let en := get_entry (v_heap s) e in
             let h := if db then set_nth e (mk_entry (e_index en) InvDb) (v_heap s) else v_heap s in
             let s := mk_vfs (v_tree s) h (set_nth i (mk_file p e (Some c)) (v_files s)) (v_mem s) (v_log s) in
             match run_invalidate s (Some i) inv with
             | None => None
             | Some (db', s) => Some (db || db', s)
             end
         end) = Some (db, s') -> good s' (put B p (Some c))).
    { intros i mem X Hm Hn K. destruct (b_path _ _ _ Base1 p e i L X) as [Li Pi].
      destruct (f_code (get_file (v_files s) i)) as [c'|] eqn:Ci.
      1: destruct (Nat.eqb_spec c' c) as [->|Nc].
      1: { injection K as <- <-. apply (Known i mem X Hm Hn); cbn; auto. apply same_idx_refl. }
      all: destruct (invalidate_and_unload_file _ i) as [[db1 s1]|] eqn:U; [|discriminate]; cbn zeta in K.
      all: match type of K with context [run_invalidate ?S _ _] => set (s2 := S) in K end.
      all: destruct (run_invalidate s2 (Some i) inv) as [[db2 s3]|] eqn:R; [|discriminate].
      all: injection K as <- <-; apply run_invalidate_frame in R; destruct R as (R1 & R2 & R3 & R4).
      all: apply unload_frame in U; cbn in U; destruct U as (U1 & U2 & U3 & U4).
      all: assert (Lf : i < length (set_code (v_files s) i None)) by (rewrite set_code_length; exact Li).
      all: apply (Known i mem X Hm Hn); [rewrite R1; exact U1|rewrite R3; exact U3| | | | |].
      1,6: eapply same_idx_trans; [exact U4|]; eapply same_idx_trans; [|exact R4]; unfold s2; cbn; destruct db1;
          [apply set_inv_idx|apply same_idx_refl].
      1,5: rewrite R2; unfold s2; cbn; rewrite U2, set_nth_length, set_code_length; reflexivity.
      1,4: intros k; rewrite R2; unfold s2; cbn; rewrite U2; unfold get_file at 1; rewrite nth_set_nth by exact Lf;
           destruct (Nat.eqb_spec k i) as [->|Nk]; [cbn; congruence|]; fold (get_file (set_code (v_files s) i None) k); apply get_set_code_path.
      1,3: intros k Nk; rewrite R2; unfold s2; cbn; rewrite U2; unfold get_file at 1; rewrite nth_set_nth_other by exact Nk;
           fold (get_file (set_code (v_files s) i None) k); apply set_code_code_other; exact Nk.
      all: rewrite R2; unfold s2; cbn; rewrite U2; unfold get_file; rewrite nth_set_nth by exact Lf; rewrite Nat.eqb_refl; reflexivity. }
    destruct (mem_find (v_mem s) p) as [i|] eqn:M.
    - apply (Store i (v_mem s)); [apply Idx; reflexivity| |apply (g_keys _ _ G)|exact H].
      intros q. destruct (path_eqb_spec q p) as [->|]; [exact M|reflexivity].
    - destruct (idx_of h e) as [i|] eqn:X.
      + apply (Store i (mem_insert (v_mem s) p i)); [reflexivity| |apply mem_insert_nodup; apply (g_keys _ _ G)|exact H].
        intros q. apply mem_find_insert.
      + match type of H with context [with_added_file ?S _ _ _] => set (s1 := S) in H end.
        destruct (with_added_file s1 p e (Some c)) as [s2 i] eqn:W.
        destruct (with_added_good s1 p e (Some c) _ _ _ G1 L W) as (G2 & T2 & M2 & X2 & L2 & _ & P2 & C2).
        match type of H with run_invalidate ?S _ _ = _ => set (s3 := S) in H end.
        apply run_invalidate_good with s3 (Some i) inv db; [|exact H].
        constructor; cbn.
        * apply (g_base _ _ G2).
        * apply mem_insert_nodup. apply (g_keys _ _ G2).
        * intros q. unfold put. destruct (path_eqb_spec q p) as [->|N].
          -- exists i, e. cbn. rewrite mem_find_insert, T2. destruct (path_eqb_spec p p); [|congruence].
             repeat split; auto.
          -- assert (O := g_open _ _ G2 q). destruct (B q) as [c'|].
             ++ destruct O as (j & e' & A & L' & X' & C'). exists j, e'. cbn. rewrite mem_find_insert.
                destruct (path_eqb_spec q p); [congruence|]. auto.
             ++ rewrite mem_find_insert. destruct (path_eqb_spec q p); [congruence|exact O].
  Qed.

  Lemma close_good : forall d s p db s' B, good s B -> close_in_memory_file d s p = Some (db, s') ->
    good s' (put B p None) /\
    (forall c e i, mem_find (v_mem s) p = Some i -> lookup p (v_tree s) = Some e -> read_file d p = Some c ->
        lookup p (v_tree s') = Some e /\ idx_of (v_heap s') e = Some i /\ f_code (get_file (v_files s') i) = Some c) /\
    (read_file d p = None -> v_tree s' = unload_file p (v_tree s)).
  Proof.
    intros d s p db s' B G H. unfold close_in_memory_file in H.
    destruct (mem_find (v_mem s) p) as [i|] eqn:M; [|discriminate].
    destruct (good_mem _ _ _ _ G M) as (c0 & e0 & B0 & L0 & X0 & C0 & I0 & P0).
    assert (Known : forall s1, v_mem s1 = mem_remove (v_mem s) p -> same_idx (v_heap s) (v_heap s1) ->
        (forall q, q <> p -> lookup q (v_tree s1) = lookup q (v_tree s)) ->
        (forall q e, lookup q (v_tree s1) = Some e -> lookup q (v_tree s) = Some e) ->
        length (v_files s1) = length (v_files s) ->
        (forall k, f_path (get_file (v_files s1) k) = f_path (get_file (v_files s) k)) ->
        (forall k, k <> i -> f_code (get_file (v_files s1) k) = f_code (get_file (v_files s) k)) ->
        good s1 (put B p None)).
    { intros s1 M1 H1 T1 T2 L1 P1 C1. constructor.
      - apply base_tree with (v_tree s); [|exact T2]. apply base_files with (v_files s); [|lia|auto].
        apply base_idx with (v_heap s); [apply (g_base _ _ G)|exact H1].
      - rewrite M1. apply mem_remove_nodup. apply (g_keys _ _ G).
      - intros q. unfold put. rewrite M1. destruct (path_eqb_spec q p) as [->|N].
        + rewrite mem_find_remove. destruct (path_eqb_spec p p); [reflexivity|congruence].
        + assert (O := g_open _ _ G q). destruct (B q) as [c|].
          * destruct O as (j & e & A & L & X & C). exists j, e. rewrite M1, mem_find_remove, T1 by exact N.
            destruct (path_eqb_spec q p); [congruence|]. destruct H1 as [_ H1]. rewrite H1.
            repeat split; auto. rewrite C1; [exact C|]. intros ->. apply N. apply (good_mem_inj _ _ _ _ _ G A M).
          * rewrite mem_find_remove. destruct (path_eqb_spec q p); [congruence|exact O]. }
    destruct (read_file d p) as [c|] eqn:R.
    - cbn in H. rewrite C0 in H.
      destruct (Nat.eqb c c0) eqn:Ec; [apply Nat.eqb_eq in Ec; subst c|].
      + injection H as <- <-. split; [|split].
        * apply Known; cbn; auto. apply same_idx_refl.
        * intros c1 e i' M' L' R'. cbn. injection M' as <-. injection R' as <-.
          assert (e = e0) by congruence. subst e. auto.
        * discriminate.
      + destruct (invalidate_and_unload_file _ i) as [[db1 s1]|] eqn:U; [|discriminate]. injection H as <- <-.
        apply unload_frame in U. cbn in U. destruct U as (U1 & U2 & U3 & U4).
        split; [|split].
        * apply Known; cbn; rewrite ?U1, ?U2, ?U3; auto.
          -- rewrite !set_code_length. reflexivity.
          -- intros k. rewrite !get_set_code_path. reflexivity.
          -- intros k Nk. rewrite !set_code_code_other by exact Nk. reflexivity.
        * intros c1 e i' M' L' R'. cbn. injection M' as <-. injection R' as <-. rewrite U1, U2.
          assert (e = e0) by congruence. subst e. destruct U4 as [_ U4]. rewrite U4. repeat split; auto.
          rewrite set_code_code by (rewrite set_code_length; exact I0). rewrite Nat.eqb_refl. reflexivity.
        * discriminate.
    - apply unload_frame in H. cbn in H. destruct H as (U1 & U2 & U3 & U4). split; [|split].
      + apply Known; rewrite ?U1, ?U2, ?U3; auto.
        * intros q N. rewrite lookup_unload. destruct (path_eqb_spec q p); [congruence|reflexivity].
        * intros q e. rewrite lookup_unload. destruct (path_eqb_spec q p); [discriminate|auto].
        * apply set_code_length.
        * intros k. apply get_set_code_path.
        * intros k Nk. apply set_code_code_other. exact Nk.
      + discriminate.
      + intros _. exact U1.
  Qed.

  (** ** Events *)

  (** The invariant while entries of open files are missing in the tree: those in [todo]. *)
  Record almost (s : vfs) (B : path -> option content) (todo : list (path * nat)) : Prop := {
    a_base : base (v_tree s) (v_heap s) (v_files s);
    a_keys : keys_nodup (v_mem s);
    a_todo : forall q i, In (q, i) todo -> mem_find (v_mem s) q = Some i;
    a_entry : forall q i e, mem_find (v_mem s) q = Some i -> lookup q (v_tree s) = Some e ->
      idx_of (v_heap s) e = None \/ idx_of (v_heap s) e = Some i;
    a_file : forall q i, mem_find (v_mem s) q = Some i -> i < length (v_files s) /\ f_path (get_file (v_files s) i) = q;
    a_open : forall p, match B p with
      | Some c => exists i, mem_find (v_mem s) p = Some i /\ f_code (get_file (v_files s) i) = Some c /\
          (In (p, i) todo \/ exists e, lookup p (v_tree s) = Some e /\ idx_of (v_heap s) e = Some i)
      | None => mem_find (v_mem s) p = None end }.

  Lemma almost_done : forall s B, almost s B [] -> good s B.
  Proof.
    intros s B A. constructor; [apply (a_base _ _ _ A)|apply (a_keys _ _ _ A)|].
    intros p. assert (O := a_open _ _ _ A p). destruct (B p) as [c|]; [|exact O].
    destruct O as (i & M & C & [[]|[e [L X]]]). exists i, e. auto.
  Qed.

  (** Just the heap and codes of files that are not open change. *)
  Lemma almost_frame : forall s s' B todo, almost s B todo ->
    v_tree s' = v_tree s -> v_mem s' = v_mem s -> same_idx (v_heap s) (v_heap s') ->
    length (v_files s') = length (v_files s) ->
    (forall k, f_path (get_file (v_files s') k) = f_path (get_file (v_files s) k)) ->
    (forall q k, mem_find (v_mem s) q = Some k -> f_code (get_file (v_files s') k) = f_code (get_file (v_files s) k)) ->
    almost s' B todo.
  Proof.
    intros s s' B todo A T M X L P C. destruct A as [A1 A2 A3 A4 A5 A6]. destruct X as [X1 X2].
    constructor; rewrite ?T, ?M; auto.
    - apply base_files with (v_files s); [|lia|auto]. apply base_idx with (v_heap s); [exact A1|split; auto].
    - intros q i e Hm Hl. rewrite X2. eapply A4; eauto.
    - intros q i Hm. rewrite L, P. auto.
    - intros p. assert (O := A6 p). destruct (B p) as [c|]; [|exact O]. destruct O as (i & O1 & O2 & O3).
      exists i. split; [exact O1|]. split; [rewrite C with (q := p); auto|].
      destruct O3 as [O3|[e [O3 O4]]]; [left; exact O3|right; exists e; rewrite X2; auto].
  Qed.

  Lemma unload_all_almost : forall l s s' B todo, almost s B todo ->
    (forall i q, In i l -> mem_find (v_mem s) q <> Some i) ->
    unload_all s l = Some (false, s') ->
    almost s' B todo /\ v_tree s' = v_tree s /\ v_mem s' = v_mem s /\ same_idx (v_heap s) (v_heap s').
  Proof.
    induction l as [|i r IH]; intros s s' B todo A N H; cbn in H.
    - injection H as <-. auto using same_idx_refl.
    - destruct (invalidate_and_unload_file s i) as [[[|] s1]|] eqn:U; try discriminate.
      apply unload_frame in U. destruct U as (U1 & U2 & U3 & U4).
      assert (A1 : almost s1 B todo).
      { apply almost_frame with s; auto.
        - rewrite U2. apply set_code_length.
        - intros k. rewrite U2. apply get_set_code_path.
        - intros q k M. rewrite U2. apply set_code_code_other. intros ->. apply (N i q); [left; reflexivity|exact M]. }
      destruct (IH s1 s' B todo A1) as (A2 & T2 & M2 & X2); [|exact H|].
      + intros k q K. rewrite U3. apply N. right. exact K.
      + split; [exact A2|]. split; [congruence|]. split; [congruence|]. eapply same_idx_trans; eauto.
  Qed.

  Lemma invalidate_all_almost : forall l s s' B todo, almost s B todo ->
    invalidate_all s l = Some (false, s') ->
    almost s' B todo /\ v_tree s' = v_tree s /\ v_mem s' = v_mem s /\ v_files s' = v_files s /\ same_idx (v_heap s) (v_heap s').
  Proof.
    induction l as [|i r IH]; intros s s' B todo A H; cbn in H.
    - injection H as <-. auto using same_idx_refl.
    - unfold run_invalidate_index in H.
      destruct (run_invalidate s None (InvSome [i])) as [[[|] s1]|] eqn:U; try discriminate.
      apply run_invalidate_frame in U. destruct U as (U1 & U2 & U3 & U4).
      assert (A1 : almost s1 B todo) by (apply almost_frame with s; auto; rewrite U2; auto).
      destruct (IH s1 s' B todo A1 H) as (A2 & T2 & M2 & F2 & X2).
      split; [exact A2|]. split; [congruence|]. split; [congruence|]. split; [congruence|]. eapply same_idx_trans; eauto.
  Qed.

  Lemma ensure_all_almost : forall d todo s s' B, almost s B todo -> ensure_all ignored d s todo = Some s' ->
    almost s' B [] /\ v_mem s' = v_mem s /\ v_files s' = v_files s.
  Proof.
    intros d. induction todo as [|[p i] r IH]; intros s s' B A H; cbn in H.
    - injection H as <-. auto.
    - destruct (ensure_file ignored d [] p (v_tree s) (v_heap s)) as [[[[t h] e] inv]|] eqn:E; [|discriminate].
      assert (Bs := a_base _ _ _ A).
      destruct (ensure_file_grown ignored _ _ _ _ _ _ _ _ _ E (b_bound _ _ _ Bs)) as [Gr L].
      assert (Bs1 := base_grown _ _ _ _ _ _ Bs Gr).
      assert (Mp : mem_find (v_mem s) p = Some i) by (apply (a_todo _ _ _ A); left; reflexivity).
      destruct (a_file _ _ _ A p i Mp) as [Li Pi].
      assert (Le : e < length h) by (apply (b_bound _ _ _ Bs1) with p; exact L).
      (* what is known about the entry *)
      assert (Ie : idx_of h e = None \/ idx_of h e = Some i).
      { destruct (g_new _ _ _ _ _ Gr p e L) as [K|[_ [K _]]]; [|left; exact K].
        destruct (grown_keeps _ _ _ _ _ p e (b_bound _ _ _ Bs) Gr K) as [_ X]. rewrite X. apply (a_entry _ _ _ A p i e Mp K). }
      fold (idx_of h e) in H.
      set (h2 := match idx_of h e with Some _ => h | None => set_nth e (mk_entry (Some i) (e_inv (get_entry h e))) h end) in H.
      assert (Hi : idx_of h2 e = Some i).
      { unfold h2. destruct Ie as [Ie|Ie]; rewrite Ie; [|exact Ie]. unfold idx_of, get_entry. rewrite nth_set_nth by exact Le.
        rewrite Nat.eqb_refl. reflexivity. }
      assert (Ho : forall e', e' <> e -> idx_of h2 e' = idx_of h e').
      { intros e' K. unfold h2. destruct (idx_of h e); [reflexivity|]. unfold idx_of, get_entry. rewrite nth_set_nth_other by exact K. reflexivity. }
      assert (Hl : length h2 = length h) by (unfold h2; destruct (idx_of h e); [reflexivity|apply set_nth_length]).
      apply IH with (B := B) in H; [exact H|]. clear IH H. constructor; cbn.
      + destruct Bs1 as [Bb Bi Bp]. constructor; auto.
        * intros q e' K. rewrite Hl. apply Bb with q. exact K.
        * intros q e' k K X. destruct (Nat.eq_dec e' e) as [->|Ne].
          -- rewrite Hi in X. injection X as <-. assert (q = p) by (apply Bi with e; assumption). subst q. auto.
          -- rewrite Ho in X by exact Ne. apply Bp with e'; assumption.
      + apply (a_keys _ _ _ A).
      + intros q k K. apply (a_todo _ _ _ A). right. exact K.
      + intros q k e' M K. destruct (Nat.eq_dec e' e) as [->|Ne].
        * assert (q = p) by (apply (b_inj _ _ _ Bs1) with e; assumption). subst q. right. congruence.
        * rewrite Ho by exact Ne. destruct (g_new _ _ _ _ _ Gr q e' K) as [K1|[_ [K1 _]]]; [|left; exact K1].
          destruct (grown_keeps _ _ _ _ _ q e' (b_bound _ _ _ Bs) Gr K1) as [_ X]. rewrite X. apply (a_entry _ _ _ A q k e' M K1).
      + apply (a_file _ _ _ A).
      + intros q. assert (O := a_open _ _ _ A q). destruct (B q) as [c|]; [|exact O].
        destruct O as (k & O1 & O2 & O3). exists k. split; [exact O1|]. split; [exact O2|].
        destruct O3 as [[O3|O3]|[e' [O3 O4]]].
        * injection O3 as -> ->. right. exists e. auto.
        * left. exact O3.
        * right. destruct (grown_keeps _ _ _ _ _ q e' (b_bound _ _ _ Bs) Gr O3) as [K1 K2]. exists e'. split; [exact K1|].
          destruct (Nat.eq_dec e' e) as [->|Ne]; [|rewrite Ho by exact Ne; congruence].
          assert (q = p) by (apply (b_inj _ _ _ Bs1) with e; assumption). subst q. congruence.
  Qed.

  Lemma classify_spec : forall s es unloads invalid opened, classify s es = (unloads, invalid, opened) ->
    keys_nodup (v_mem s) ->
    (forall i q, In i unloads -> mem_find (v_mem s) q <> Some i) /\
    (forall q i, In (q, i) opened -> mem_find (v_mem s) q = Some i) /\
    (forall e i q, In e es -> idx_of (v_heap s) e = Some i -> mem_find (v_mem s) q = Some i ->
       exists q', In (q', i) opened).
  Proof.
    intros s. induction es as [|e r IH]; intros unloads invalid opened H K.
    - cbn in H. injection H as <- <- <-. repeat split; try (intros; contradiction).
    - cbn [classify fold_right] in H. fold (classify s r) in H. destruct (classify s r) as [[u v] o] eqn:E.
      destruct (IH u v o eq_refl K) as (A & Bo & C). fold (idx_of (v_heap s) e) in H.
      destruct (idx_of (v_heap s) e) as [i|] eqn:X.
      + destruct (mem_path (v_mem s) i) as [p|] eqn:P; injection H as <- <- <-.
        * assert (Mp := mem_path_some _ _ _ K P). split; [exact A|]. split.
          -- intros q k [Q|Q]; [injection Q as <- <-; exact Mp|apply Bo; exact Q].
          -- intros e' k q [<-|He] Xe M; [exists p; left; congruence|].
             destruct (C e' k q He Xe M) as [q' Q]. exists q'. right. exact Q.
        * split; [|split; [exact Bo|]].
          -- intros k q [<-|Hk]; [apply mem_path_none; exact P|apply A; exact Hk].
          -- intros e' k q [<-|He] Xe M; [exfalso; assert (k = i) by congruence; subst k; exact (mem_path_none _ _ _ P M)|].
             apply (C e' k q); assumption.
      + injection H as <- <- <-. split; [exact A|]. split; [exact Bo|].
        intros e' k q [<-|He] Xe M; [congruence|]. apply (C e' k q); assumption.
  Qed.

  Lemma idx_app : forall h e, idx_of (h ++ [mk_entry None (InvSome [])]) e = idx_of h e.
  Proof.
    intros h e. unfold idx_of, get_entry. destruct (le_lt_dec (length h) e) as [L|L].
    - rewrite (nth_overflow h) by exact L. rewrite app_nth2 by exact L. destruct (e - length h) as [|[|k]]; reflexivity.
    - rewrite app_nth1 by exact L. reflexivity.
  Qed.

  Lemma changed_almost : forall d s p t h old B es missing unloads invalid opened,
    good s B -> replace_at ignored d s p p (v_tree s) = (t, h, old) ->
    (match old with Some n => walk n | None => ([], []) end) = (es, missing) ->
    classify (mk_vfs t h (v_files s) (v_mem s) (v_log s)) es = (unloads, invalid, opened) ->
    almost (mk_vfs t h (v_files s) (v_mem s) (v_log s)) B opened /\
    (forall i q, In i unloads -> mem_find (v_mem s) q <> Some i).
  Proof.
    intros d s p t h old B es missing unloads invalid opened G R W C.
    assert (Bs := g_base _ _ G). apply replace_at_spec in R. destruct R as (Rh & Rk & Rn).
    apply classify_spec in C; [|apply (g_keys _ _ G)]. cbn in C. destruct C as (C1 & C2 & C3). split; [|exact C1].
    assert (X : forall e, idx_of h e = idx_of (v_heap s) e) by (destruct Rh as [-> | ->]; [reflexivity|apply idx_app]).
    assert (Lh : length (v_heap s) <= length h) by (destruct Rh as [-> | ->]; [lia|rewrite app_length; lia]).
    constructor; cbn.
    - destruct Bs as [Bb Bi Bp]. constructor.
      + intros q e H. destruct (Rn q e H) as [K|[-> [-> ->]]]; [apply Bb in K; lia|rewrite app_length; cbn; lia].
      + intros q1 q2 e H1 H2. destruct (Rn q1 e H1) as [K1|[-> [E1 _]]], (Rn q2 e H2) as [K2|[-> [E2 _]]].
        * apply Bi with e; assumption.
        * apply Bb in K1. lia.
        * apply Bb in K2. lia.
        * reflexivity.
      + intros q e i H I. rewrite X in I. destruct (Rn q e H) as [K|[_ [-> _]]]; [apply Bp with e; assumption|].
        exfalso. unfold idx_of, get_entry in I. rewrite nth_overflow in I by lia. discriminate.
    - apply (g_keys _ _ G).
    - exact C2.
    - intros q i e M H. rewrite X. destruct (Rn q e H) as [K|[_ [-> _]]].
      + right. destruct (good_mem _ _ _ _ G M) as (c & e' & _ & L' & X' & _). congruence.
      + left. unfold idx_of, get_entry. rewrite nth_overflow by lia. reflexivity.
    - intros q i M. destruct (good_mem _ _ _ _ G M) as (c & e' & _ & _ & _ & _ & A & D). auto.
    - intros q. assert (O := g_open _ _ G q). destruct (B q) as [c|]; [|exact O].
      destruct O as (i & e & M & L & I & Cd). exists i. split; [exact M|]. split; [exact Cd|].
      destruct (Rk q e L) as [K|[x [-> Hx]]].
      + right. exists e. rewrite X. auto.
      + left. rewrite W in Hx. cbn in Hx. destruct (C3 e i q Hx) as [q' Q]; [rewrite X; exact I|exact M|].
        assert (q' = q) by (apply (good_mem_inj _ _ _ _ _ G (C2 _ _ Q) M)). subst q'. exact Q.
  Qed.

  Lemma changed_good : forall d s p s' B, good s B -> invalidate_path ignored d s p = Some (false, s') -> good s' B.
  Proof.
    intros d s p s' B G H. unfold invalidate_path in H.
    destruct (mem_find (v_mem s) p) as [i|] eqn:M; [injection H as <-; exact G|].
    destruct (replace_at ignored d s p p (v_tree s)) as [[t h] old] eqn:R.
    destruct (match old with Some n => walk n | None => ([], []) end) as [es missing] eqn:W.
    destruct (classify (mk_vfs t h (v_files s) (v_mem s) (v_log s)) es) as [[u v] o] eqn:C.
    destruct (changed_almost _ _ _ _ _ _ _ _ _ _ _ _ G R W C) as [A U].
    destruct (existsb _ missing); [discriminate|].
    destruct (unload_all _ u) as [[[|] s1]|] eqn:E1; try discriminate.
    destruct (unload_all_almost _ _ _ _ _ A U E1) as (A1 & _).
    destruct (invalidate_all s1 _) as [[[|] s2]|] eqn:E2; try discriminate.
    destruct (invalidate_all_almost _ _ _ _ _ A1 E2) as (A2 & _).
    destruct (ensure_all ignored d s2 o) as [s3|] eqn:E3; [|discriminate]. injection H as <-.
    destruct (ensure_all_almost _ _ _ _ _ A2 E3) as (A3 & _). apply almost_done. exact A3.
  Qed.

  (** ** Histories *)

  Definition told_of (o : disk * op) : told :=
    match snd o with Store p c => Said p c | Close p => Closed p | _ => Other end.

  Lemma good_ext : forall s B B', (forall p, B p = B' p) -> good s B -> good s B'.
  Proof. intros s B B' E [A C D]. constructor; auto. intros p. rewrite <- E. apply D. Qed.

  Lemma step_good : forall s o db s' B, good s B -> step ignored s o = Some (db, s') ->
    (match snd o with Changed _ => db | _ => false end) = false ->
    good s' (fun p => buffer p [told_of o] (B p)).
  Proof.
    intros s [d o] db s' B G H Ndb. destruct o as [p c|p|p|p|p|p|p i|p i]; cbn in H; unfold told_of; cbn.
    - apply store_good with (B := B) in H; [|exact G]. eapply good_ext; [|exact H]. intros q. unfold put, path_eqb.
      destruct (list_eq_dec Nat.eq_dec q p) as [E1|E1], (list_eq_dec Nat.eq_dec p q) as [E2|E2]; try reflexivity; exfalso; auto.
    - destruct (mem_find (v_mem s) p) as [i|] eqn:M.
      + apply close_good with (B := B) in H; [|exact G]. destruct H as [H _]. eapply good_ext; [|exact H]. intros q. unfold put, path_eqb.
        destruct (list_eq_dec Nat.eq_dec q p) as [E1|E1], (list_eq_dec Nat.eq_dec p q) as [E2|E2]; try reflexivity; exfalso; auto.
      + injection H as <- <-. eapply good_ext; [|exact G]. intros q. destruct (list_eq_dec Nat.eq_dec p q) as [<-|N]; [|reflexivity].
        assert (O := g_open _ _ G p). destruct (B p) as [c|]; [|reflexivity]. destruct O as (j & e & O & _). congruence.
    - cbn in Ndb. subst db. apply changed_good with (B := B) in H; [|exact G]. exact H.
    - injection H as <- <-. apply load_good. exact G.
    - injection H as <- <-. apply load_base_good. exact G.
    - injection H as <- <-. apply touch_good. exact G.
    - injection H as <- <-. apply depend_good. exact G.
    - destruct (add_missing p i (v_tree s) (v_heap s)) as [t h] eqn:E. injection H as <- <-. eapply missing_good; eauto.
  Qed.

  Lemma buffer_app : forall p a b acc, buffer p (a ++ b) acc = buffer p b (buffer p a acc).
  Proof. intros p a. induction a as [|[q c|q|] r IH]; intros b acc; cbn; auto. Qed.

  Lemma run_good : forall ops s s' B, good s B -> run ignored s ops = Some s' ->
    good s' (fun p => buffer p (map told_of ops) (B p)).
  Proof.
    induction ops as [|o r IH]; intros s s' B G H; cbn in H.
    - injection H as <-. exact G.
    - destruct (step ignored s o) as [[db s1]|] eqn:E; [|discriminate].
      destruct (match snd o with Changed _ => db | _ => false end) eqn:Ndb; [discriminate|].
      assert (G1 := step_good _ _ _ _ _ G E Ndb). specialize (IH s1 s' _ G1 H). eapply good_ext; [|exact IH]. intros p.
      cbn [map]. change (told_of o :: map told_of r) with ([told_of o] ++ map told_of r). rewrite buffer_app. reflexivity.
  Qed.

  (** What is loaded for an open path. *)
  Lemma good_load_open : forall s B d p c, good s B -> B p = Some c -> snd (load ignored d s p) = Some c.
  Proof.
    intros s B d p c G H. assert (O := g_open _ _ G p). rewrite H in O. destruct O as (i & e & M & L & X & C).
    unfold load. destruct (search_path ignored d [] p (v_tree s) (v_heap s)) as [[t h] e'] eqn:E.
    destruct (search_path_grown ignored _ _ _ _ _ _ _ _ E (b_bound _ _ _ (g_base _ _ G))) as [Gr L'].
    destruct (grown_keeps _ _ _ _ _ p e (b_bound _ _ _ (g_base _ _ G)) Gr L) as [K1 K2].
    rewrite K1 in L'. subst e'. unfold load_entry. cbn [v_heap v_files]. fold (idx_of h e). rewrite K2, X, C. cbn. exact C.
  Qed.

  (** ** After closing *)

  Lemma search_unloaded : forall d p here es h e, lookup p es = Some e ->
    snd (search_path ignored d here p (unload_file p es) h) = None.
  Proof.
    intros d. induction p as [|n [|m r] IH]; intros here es h e L; [discriminate| |].
    - cbn in *. destruct (find n es) as [[e'|s|i]|] eqn:F; try discriminate. rewrite find_remove, Nat.eqb_refl. reflexivity.
    - rewrite lookup_cons in L. destruct (find n es) as [[e'|[s|]|i]|] eqn:F; try discriminate.
      change (unload_file (n :: m :: r) es) with
        (match find n es with Some (NDir (Some sub)) => insert n (NDir (Some (unload_file (m :: r) sub))) es | _ => es end).
      rewrite F, search_path_cons, find_insert, Nat.eqb_refl. cbn [dir_entries].
      specialize (IH (here ++ [n]) s h e L). destruct (search_path ignored d (here ++ [n]) (m :: r) _ h) as [[t h'] e'].
      exact IH.
  Qed.

  Lemma close_load : forall s B d p c db s', good s B -> B p = Some c -> close_in_memory_file d s p = Some (db, s') ->
    snd (load ignored d s' p) = read_file d p.
  Proof.
    intros s B d p c db s' G H K. assert (O := g_open _ _ G p). rewrite H in O. destruct O as (i & e & M & L & X & C).
    destruct (close_good _ _ _ _ _ _ G K) as (G' & K1 & K2).
    unfold load. destruct (search_path ignored d [] p (v_tree s') (v_heap s')) as [[t h] e'] eqn:E.
    destruct (read_file d p) as [c'|] eqn:R.
    - destruct (K1 c' e i M L eq_refl) as (A1 & A2 & A3).
      destruct (search_path_grown ignored _ _ _ _ _ _ _ _ E (b_bound _ _ _ (g_base _ _ G'))) as [Gr L'].
      destruct (grown_keeps _ _ _ _ _ p e (b_bound _ _ _ (g_base _ _ G')) Gr A1) as [Q1 Q2].
      rewrite Q1 in L'. subst e'. unfold load_entry. cbn [v_heap v_files]. fold (idx_of h e). rewrite Q2, A2, A3. cbn. exact A3.
    - rewrite (K2 eq_refl) in E. assert (S := search_unloaded d p [] (v_tree s) (v_heap s') e L). rewrite E in S. cbn in S. subst e'.
      reflexivity.
  Qed.
End Ignored.
