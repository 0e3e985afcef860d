(** Proofs about events for files that are not open (C10). *)
From Coq Require Import List Bool Arith Lia.
From Verif Require Import VfsModel VfsSpec VfsProofs VfsTreeProofs VfsStateProofs.
Import ListNotations.

Local Arguments get_file : simpl never.
Local Arguments get_entry : simpl never.
Local Arguments set_code : simpl never.
Local Arguments idx_of : simpl never.

(** Everything above a path is a directory, as far as we know. *)
Fixpoint dirs_above (p : path) (es : list (name * node)) : Prop :=
  match p with
  | [] => False
  | [_] => True
  | n :: r => match find n es with
              | Some (NDir (Some sub)) => dirs_above r sub
              | Some (NDir None) => True
              | _ => False
              end
  end.

(** A file that is on the disk will be found. *)
Fixpoint findable (p : path) (es : list (name * node)) : Prop :=
  match p with
  | [] => False
  | [n] => exists e, find n es = Some (NFile e)
  | n :: r => match find n es with
              | Some (NDir (Some sub)) => findable r sub
              | Some (NDir None) => True
              | _ => False
              end
  end.

Lemma findable_cons : forall n m r es, findable (n :: m :: r) es = match find n es with
              | Some (NDir (Some sub)) => findable (m :: r) sub
              | Some (NDir None) => True
              | _ => False
              end.
Proof. reflexivity. Qed.

Lemma dirs_above_cons : forall n m r es, dirs_above (n :: m :: r) es = match find n es with
              | Some (NDir (Some sub)) => dirs_above (m :: r) sub
              | Some (NDir None) => True
              | _ => False
              end.
Proof. reflexivity. Qed.

Section Ignored.
  Variable ignored : name -> bool.

  Definition visible (p : path) : Prop := forall n, In n p -> ignored n = false.

  Lemma read_dir_findable : forall d here p h l h', read_dir ignored d here h = (l, h') ->
    p <> [] -> visible p -> read_file d (here ++ p) <> None -> findable p l.
  Proof.
    intros d here p h l h' H Np V R. unfold read_file in R. rewrite disk_at_app in R. unfold read_dir in H.
    destruct (disk_at d here) as [[c|es]|] eqn:E.
    - destruct p; [congruence|]. cbn in R. congruence.
    - destruct (list_dir_listing ignored _ _ _ _ H) as (_ & _ & _ & _ & _ & F & _).
      destruct p as [|n [|m r]]; [congruence| |].
      + cbn in R. specialize (F n (V n (or_introl eq_refl))). cbn. destruct (find n es) as [[c|ch]|]; [exact F| |]; congruence.
      + rewrite findable_cons. specialize (F n (V n (or_introl eq_refl))).
        change (disk_at (DDir es) (n :: m :: r)) with (match find n es with Some d' => disk_at d' (m :: r) | None => None end) in R.
        destruct (find n es) as [[c|ch]|]; [cbn in R; congruence| |congruence]. rewrite F. exact I.
    - congruence.
  Qed.

  Lemma visible_tail : forall n p, visible (n :: p) -> visible p.
  Proof. intros n p V k K. apply V. right. exact K. Qed.

  Lemma replace_at_findable : forall d s full p es t h old, replace_at ignored d s full p es = (t, h, old) ->
    dirs_above p es -> visible p -> read_file d full <> None -> findable p t.
  Proof.
    intros d s full. induction p as [|n [|m r] IH]; intros es t h old H D V R; [destruct D| |].
    - cbn in H. unfold replace_entry in H. unfold read_file in R.
      destruct (disk_at d full) as [[c|ch]|] eqn:E; [|congruence|congruence].
      assert (Un : unnecessary d full (find n es) = false).
      { unfold unnecessary. rewrite E. destruct (find n es) as [[| |]|]; reflexivity. }
      rewrite Un in H. unfold read_entry in H. rewrite E, (V n (or_introl eq_refl)) in H.
      cbn. destruct (find n es) as [o|] eqn:F.
      + destruct (matches_current d s o _) eqn:M; injection H as <- <- <-.
        * unfold matches_current in M. destruct o as [e|x|x]; try discriminate. exists e. exact F.
        * eexists. rewrite find_insert, Nat.eqb_refl. reflexivity.
      + injection H as <- <- <-. eexists. rewrite find_insert, Nat.eqb_refl. reflexivity.
    - rewrite replace_at_cons in H. rewrite dirs_above_cons in D. rewrite findable_cons.
      destruct (find n es) as [[e|[sub|]|i]|] eqn:F; try contradiction.
      + destruct (replace_at ignored d s full (m :: r) sub) as [[sub1 h1] old1] eqn:E. injection H as <- <- <-.
        rewrite find_insert, Nat.eqb_refl. apply (IH _ _ _ _ E D); [apply visible_tail with n; exact V|exact R].
      + injection H as <- <- <-. rewrite F. exact I.
  Qed.

  (** Other changes of the tree keep that. *)
  Lemma ensure_file_findable : forall d q here es h t h' e inv p,
    ensure_file ignored d here q es h = Some (t, h', e, inv) ->
    findable p es -> visible p -> read_file d (here ++ p) <> None -> findable p t.
  Proof.
    intros d. induction q as [|k [|k' q'] IH]; intros here es h t h' e inv p H Fp V R; [discriminate| |].
    - cbn in H.
      assert (Ins : match find k es with Some (NFile _) => False | Some (NDir _) => False | _ => True end ->
                    findable p (insert k (NFile (length h)) es)).
      { intros K. destruct p as [|n [|m r]]; [destruct Fp| |].
        - cbn in *. rewrite find_insert. destruct (Nat.eqb_spec n k) as [->|]; [eauto|exact Fp].
        - rewrite findable_cons in *. rewrite find_insert. destruct (Nat.eqb_spec n k) as [->|]; [|exact Fp].
          destruct (find k es) as [[| |]|]; contradiction. }
      destruct (find k es) as [[e'|sub|i]|] eqn:F; [| discriminate | |]; injection H as <- <- <- <-; auto.
    - rewrite ensure_file_cons in H.
      assert (Main : forall sub sub1 h1 t' h'' e' inv',
        (forall x, find k es = Some x -> x = NDir sub \/ exists i, x = NMissing i) ->
        dir_entries ignored d (here ++ [k]) sub h = (sub1, h1) ->
        ensure_file ignored d (here ++ [k]) (k' :: q') sub1 h1 = Some (t', h'', e', inv') ->
        findable p (insert k (NDir (Some t')) es)).
      { intros sub sub1 h1 t' h'' e' inv' Fx Ed He. destruct p as [|n [|m r]]; [destruct Fp| |].
        - cbn in *. rewrite find_insert. destruct (Nat.eqb_spec n k) as [->|]; [|exact Fp].
          destruct Fp as [e0 Fp]. destruct (Fx _ Fp) as [X|[i X]]; discriminate.
        - rewrite findable_cons in *. rewrite find_insert. destruct (Nat.eqb_spec n k) as [->|]; [|exact Fp].
          destruct (find k es) as [x|]; [|contradiction]. destruct (Fx x eq_refl) as [->|[i ->]]; [|contradiction].
          rewrite <- app_cons_assoc in R. apply visible_tail in V.
          eapply IH; [exact He| |exact V|exact R].
          destruct sub as [sub|]; cbn in Ed.
          + injection Ed as <- <-. exact Fp.
          + eapply read_dir_findable; [exact Ed|discriminate|exact V|exact R]. }
      destruct (find k es) as [[e0|sub|i]|] eqn:F.
      + discriminate.
      + destruct (dir_entries ignored d (here ++ [k]) sub h) as [sub1 h1] eqn:Ed.
        destruct (ensure_file ignored d (here ++ [k]) (k' :: q') sub1 h1) as [[[[t' h''] e'] inv']|] eqn:He; [|discriminate].
        injection H as <- <- <- <-. apply (Main sub sub1 h1 t' h'' e' inv'); auto.
        intros x X. left. congruence.
      + destruct (read_dir ignored d (here ++ [k]) h) as [sub1 h1] eqn:Ed.
        destruct (ensure_file ignored d (here ++ [k]) (k' :: q') sub1 h1) as [[[[t' h''] e'] inv']|] eqn:He; [|discriminate].
        injection H as <- <- <- <-. apply (Main None sub1 h1 t' h'' e' inv'); auto.
        intros x X. right. exists i. congruence.
      + destruct (read_dir ignored d (here ++ [k]) h) as [sub1 h1] eqn:Ed.
        destruct (ensure_file ignored d (here ++ [k]) (k' :: q') sub1 h1) as [[[[t' h''] e'] inv']|] eqn:He; [|discriminate].
        injection H as <- <- <- <-. apply (Main None sub1 h1 t' h'' e' inv'); auto.
        intros x X. discriminate.
  Qed.

  Lemma search_finds : forall d p here es h, findable p es -> visible p -> read_file d (here ++ p) <> None ->
    snd (search_path ignored d here p es h) <> None.
  Proof.
    intros d. induction p as [|n [|m r] IH]; intros here es h F V R; [destruct F| |].
    - cbn in *. destruct F as [e F]. rewrite F. discriminate.
    - rewrite findable_cons in F. rewrite search_path_cons. rewrite <- app_cons_assoc in R. assert (V' := visible_tail _ _ V).
      destruct (find n es) as [[e|sub|i]|]; try contradiction.
      destruct (dir_entries ignored d (here ++ [n]) sub h) as [sub1 h1] eqn:Ed.
      assert (F1 : findable (m :: r) sub1).
      { destruct sub as [sub|]; cbn in Ed.
        - injection Ed as <- <-. exact F.
        - eapply read_dir_findable; [exact Ed|discriminate|exact V'|exact R]. }
      specialize (IH (here ++ [n]) sub1 h1 F1 V' R).
      destruct (search_path ignored d (here ++ [n]) (m :: r) sub1 h1) as [[t h2] e]. exact IH.
  Qed.

  (** The entry after an event: a new one, or the code is what is on the disk. *)
  Lemma replace_at_entry : forall d s full p es t h old e, replace_at ignored d s full p es = (t, h, old) ->
    bounded es (v_heap s) ->
    lookup p t = Some e ->
    idx_of h e = None \/
    (old = None /\ lookup p es = Some e /\
     exists i, idx_of h e = Some i /\ f_code (get_file (v_files s) i) = read_file d (f_path (get_file (v_files s) i))).
  Proof.
    intros d s full. induction p as [|n [|m r] IH]; intros es t h old e H B L; [discriminate| |].
    - cbn in H. unfold replace_entry in H.
      assert (X : forall h', h' = v_heap s \/ h' = v_heap s ++ [mk_entry None (InvSome [])] -> forall e, idx_of h' e = idx_of (v_heap s) e).
      { intros h' [-> | ->] e'; [reflexivity|apply idx_app]. }
      destruct (unnecessary d full (find n es)) eqn:Un.
      + exfalso. injection H as <- <- <-. unfold unnecessary in Un. cbn in L. destruct (find n es) as [[| |]|]; discriminate.
      + destruct (read_entry ignored d full n (v_heap s)) as [x h1] eqn:Er. apply read_entry_heap in Er. destruct Er as (Rh & Rf & Rn).
        assert (Ins : forall y, x = Some y -> lookup [n] (insert n y es) = Some e -> idx_of h1 e = None).
        { intros y Hy K. cbn in K. rewrite find_insert, Nat.eqb_refl in K. destruct y as [e'|z|z]; try discriminate.
          injection K as ->. destruct (Rf e Hy) as [-> _]. rewrite (X _ Rh). unfold idx_of, get_entry. rewrite nth_overflow by lia. reflexivity. }
        destruct x as [new|].
        * destruct (find n es) as [o|] eqn:F.
          -- destruct (matches_current d s o new) eqn:M; injection H as <- <- <-.
             ++ right. split; [reflexivity|]. split; [exact L|]. cbn in L. rewrite F in L.
                destruct o as [e'|z|z]; try discriminate. injection L as ->.
                unfold matches_current in M. destruct new as [e'|z|z]; try discriminate. fold (idx_of (v_heap s) e) in M.
                destruct (idx_of (v_heap s) e) as [i|] eqn:Xi; [|discriminate]. exists i. split; [rewrite (X _ Rh); exact Xi|].
                destruct (f_code (get_file (v_files s) i)) as [a|]; [|discriminate].
                destruct (read_file d (f_path (get_file (v_files s) i))) as [b|]; [|discriminate].
                apply Nat.eqb_eq in M. congruence.
             ++ left. apply (Ins new eq_refl). exact L.
          -- injection H as <- <- <-. left. apply (Ins new eq_refl). exact L.
        * destruct (find n es) as [[e'|z|z]|] eqn:F; injection H as <- <- <-; cbn in L; rewrite ?find_remove, ?Nat.eqb_refl, ?F in L; discriminate.
    - rewrite replace_at_cons in H. destruct (find n es) as [[e'|[sub|]|i]|] eqn:F;
        try (injection H as <- <- <-; rewrite lookup_cons, F in L; discriminate).
      destruct (replace_at ignored d s full (m :: r) sub) as [[sub1 h1] old1] eqn:E. injection H as <- <- <-.
      rewrite lookup_cons, find_insert, Nat.eqb_refl in L.
      assert (Bs : bounded sub (v_heap s)).
      { assert (K := bounded_sub n es (v_heap s) B). unfold sub_of in K. rewrite F in K. exact K. }
      destruct (IH _ _ _ _ e E Bs L) as [K|[K1 [K2 K3]]]; [left; exact K|].
      right. split; [exact K1|]. split; [|exact K3]. rewrite lookup_cons, F. exact K2.
  Qed.

  Lemma ensure_all_fresh : forall d p todo s s' B, almost s B todo ->
    mem_find (v_mem s) p = None ->
    (forall e, lookup p (v_tree s) = Some e -> idx_of (v_heap s) e = None) ->
    ensure_all ignored d s todo = Some s' ->
    forall e, lookup p (v_tree s') = Some e -> idx_of (v_heap s') e = None.
  Proof.
    intros d p. induction todo as [|[q i] r IH]; intros s s' B A M K H.
    - cbn in H. injection H as <-. exact K.
    - assert (A' := A). assert (H' := H). cbn in H.
      destruct (ensure_file ignored d [] q (v_tree s) (v_heap s)) as [[[[t h] e1] inv]|] eqn:E; [|discriminate].
      assert (Bs := a_base _ _ _ A).
      destruct (ensure_file_grown ignored _ _ _ _ _ _ _ _ _ E (b_bound _ _ _ Bs)) as [Gr L].
      assert (Bs1 := base_grown _ _ _ _ _ _ Bs Gr).
      fold (idx_of h e1) in H.
      set (h2 := match idx_of h e1 with Some _ => h | None => set_nth e1 (mk_entry (Some i) (e_inv (get_entry h e1))) h end) in H.
      assert (Mq : mem_find (v_mem s) q = Some i) by (apply (a_todo _ _ _ A); left; reflexivity).
      assert (Le : e1 < length h) by (apply (b_bound _ _ _ Bs1) with q; exact L).
      assert (A2 : almost (mk_vfs t h2 (v_files s) (v_mem s) (v_log s ++ [Notify q])) B r).
      { (* one step of [ensure_all_almost] *)
        assert (Ie : idx_of h e1 = None \/ idx_of h e1 = Some i).
        { destruct (g_new _ _ _ _ _ Gr q e1 L) as [Q|[_ [Q _]]]; [|left; exact Q].
          destruct (grown_keeps _ _ _ _ _ q e1 (b_bound _ _ _ Bs) Gr Q) as [_ X]. rewrite X. apply (a_entry _ _ _ A q i e1 Mq Q). }
        assert (Hi : idx_of h2 e1 = Some i).
        { unfold h2. destruct Ie as [Ie|Ie]; rewrite Ie; [|exact Ie]. unfold idx_of, get_entry. rewrite nth_set_nth by exact Le.
          rewrite Nat.eqb_refl. reflexivity. }
        assert (Ho : forall e', e' <> e1 -> idx_of h2 e' = idx_of h e').
        { intros e' Q. unfold h2. destruct (idx_of h e1); [reflexivity|]. unfold idx_of, get_entry. rewrite nth_set_nth_other by exact Q. reflexivity. }
        assert (Hl : length h2 = length h) by (unfold h2; destruct (idx_of h e1); [reflexivity|apply set_nth_length]).
        destruct (a_file _ _ _ A q i Mq) as [Li Pi].
        constructor; cbn.
        + destruct Bs1 as [Bb Bi Bp]. constructor; auto.
          * intros q1 e' Q. rewrite Hl. apply Bb with q1. exact Q.
          * intros q1 e' k Q X. destruct (Nat.eq_dec e' e1) as [->|Ne].
            -- rewrite Hi in X. injection X as <-. assert (q1 = q) by (apply Bi with e1; assumption). subst q1. auto.
            -- rewrite Ho in X by exact Ne. apply Bp with e'; assumption.
        + apply (a_keys _ _ _ A).
        + intros q1 k Q. apply (a_todo _ _ _ A). right. exact Q.
        + intros q1 k e' M1 Q. destruct (Nat.eq_dec e' e1) as [->|Ne].
          * assert (q1 = q) by (apply (b_inj _ _ _ Bs1) with e1; assumption). subst q1. right. congruence.
          * rewrite Ho by exact Ne. destruct (g_new _ _ _ _ _ Gr q1 e' Q) as [K1|[_ [K1 _]]]; [|left; exact K1].
            destruct (grown_keeps _ _ _ _ _ q1 e' (b_bound _ _ _ Bs) Gr K1) as [_ X]. rewrite X. apply (a_entry _ _ _ A q1 k e' M1 K1).
        + apply (a_file _ _ _ A).
        + intros q1. assert (O := a_open _ _ _ A q1). destruct (B q1) as [c|]; [|exact O].
          destruct O as (k & O1 & O2 & O3). exists k. split; [exact O1|]. split; [exact O2|].
          destruct O3 as [[O3|O3]|[e' [O3 O4]]].
          * injection O3 as -> ->. right. exists e1. auto.
          * left. exact O3.
          * right. destruct (grown_keeps _ _ _ _ _ q1 e' (b_bound _ _ _ Bs) Gr O3) as [K1 K2]. exists e'. split; [exact K1|].
            destruct (Nat.eq_dec e' e1) as [->|Ne]; [|rewrite Ho by exact Ne; congruence].
            assert (q1 = q) by (apply (b_inj _ _ _ Bs1) with e1; assumption). subst q1. congruence. }
      apply (IH _ s' B A2); cbn; [exact M| |exact H].
      intros e Q. assert (Ne : e <> e1).
      { intros ->. assert (p = q) by (apply (b_inj _ _ _ Bs1) with e1; assumption). congruence. }
      assert (Xe : idx_of h2 e = idx_of h e).
      { unfold h2. destruct (idx_of h e1); [reflexivity|]. unfold idx_of, get_entry. rewrite nth_set_nth_other by exact Ne. reflexivity. }
      rewrite Xe. destruct (g_new _ _ _ _ _ Gr p e Q) as [Q1|[_ [Q1 _]]]; [|exact Q1].
      destruct (grown_keeps _ _ _ _ _ p e (b_bound _ _ _ Bs) Gr Q1) as [_ X]. rewrite X. apply K. exact Q1.
  Qed.

  Lemma ensure_all_findable : forall d p todo s s', ensure_all ignored d s todo = Some s' ->
    findable p (v_tree s) -> visible p -> read_file d p <> None -> findable p (v_tree s').
  Proof.
    intros d p. induction todo as [|[q i] r IH]; intros s s' H F V R; cbn in H.
    - injection H as <-. exact F.
    - destruct (ensure_file ignored d [] q (v_tree s) (v_heap s)) as [[[[t h] e1] inv]|] eqn:E; [|discriminate].
      apply IH in H; auto. cbn. eapply ensure_file_findable; eauto.
  Qed.

  (** What is loaded if the entry is new or the file is as on the disk. *)
  Lemma load_current : forall s B d p, good s B -> visible p ->
    (read_file d p <> None -> findable p (v_tree s)) ->
    (forall e, lookup p (v_tree s) = Some e -> idx_of (v_heap s) e = None \/
       exists i, idx_of (v_heap s) e = Some i /\
         (f_code (get_file (v_files s) i) = None \/ f_code (get_file (v_files s) i) = read_file d p)) ->
    snd (load ignored d s p) = read_file d p.
  Proof.
    intros s B d p G V F K. unfold load.
    destruct (search_path ignored d [] p (v_tree s) (v_heap s)) as [[t h] e] eqn:E.
    assert (Bs := g_base _ _ G).
    destruct (search_path_grown ignored _ _ _ _ _ _ _ _ E (b_bound _ _ _ Bs)) as [Gr L].
    destruct e as [e|].
    - assert (K' : idx_of h e = None \/ exists i, idx_of h e = Some i /\ f_path (get_file (v_files s) i) = p /\ i < length (v_files s) /\
         (f_code (get_file (v_files s) i) = None \/ f_code (get_file (v_files s) i) = read_file d p)).
      { destruct (g_new _ _ _ _ _ Gr p e L) as [Q|[_ [Q _]]]; [|left; exact Q].
        destruct (grown_keeps _ _ _ _ _ p e (b_bound _ _ _ Bs) Gr Q) as [_ X]. rewrite X.
        destruct (K e Q) as [Ki|[i [Ki Kc]]]; [left; exact Ki|]. right. exists i. destruct (b_path _ _ _ Bs p e i Q Ki). auto. }
      unfold load_entry. cbn [v_heap v_files]. fold (idx_of h e).
      destruct K' as [K'|[i (Xi & Pi & Li & Ci)]].
      + rewrite K'. destruct (read_file d p) as [c|]; [|reflexivity]. unfold with_added_file. cbn [v_heap v_files].
        fold (idx_of h e). rewrite K'. cbn. unfold get_file. rewrite app_nth2 by lia. rewrite Nat.sub_diag. reflexivity.
      + rewrite Xi, Pi. destruct (f_code (get_file (v_files s) i)) as [c|] eqn:Cc.
        * destruct Ci as [Ci|Ci]; [discriminate|]. cbn. congruence.
        * destruct (read_file d p) as [c|]; [|reflexivity]. cbn. rewrite set_code_code by exact Li. rewrite Nat.eqb_refl. reflexivity.
    - destruct (read_file d p) as [c|] eqn:R; [|reflexivity]. exfalso.
      assert (N : read_file d ([] ++ p) <> None) by (cbn; congruence).
      assert (S := search_finds d p [] (v_tree s) (v_heap s) (F ltac:(congruence)) V N). rewrite E in S. cbn in S. congruence.
  Qed.

  Theorem changed_load : forall s B d p s', good s B -> B p = None -> visible p -> dirs_above p (v_tree s) ->
    invalidate_path ignored d s p = Some (false, s') ->
    snd (load ignored d s' p) = read_file d p.
  Proof.
    intros s B d p s' G NB V D H. assert (G' := changed_good ignored _ _ _ _ _ G H).
    assert (M : mem_find (v_mem s) p = None) by (assert (O := g_open _ _ G p); rewrite NB in O; exact O).
    unfold invalidate_path in H. rewrite M in H.
    destruct (replace_at ignored d s p p (v_tree s)) as [[t h] old] eqn:R.
    destruct (match old with Some n => walk n | None => ([], []) end) as [es missing] eqn:W.
    destruct (classify (mk_vfs t h (v_files s) (v_mem s) (v_log s)) es) as [[u v] o] eqn:C.
    destruct (changed_almost ignored _ _ _ _ _ _ _ _ _ _ _ _ G R W C) as [A U].
    destruct (existsb _ missing) eqn:Db; [discriminate|].
    destruct (unload_all _ u) as [[[|] s1]|] eqn:E1; try discriminate.
    destruct (unload_all_almost _ _ _ _ _ A U E1) as (A1 & T1 & M1 & X1). cbn in T1, M1, X1.
    destruct (invalidate_all s1 _) as [[[|] s2]|] eqn:E2; try discriminate.
    destruct (invalidate_all_almost _ _ _ _ _ A1 E2) as (A2 & T2 & M2 & F2 & X2).
    destruct (ensure_all ignored d s2 o) as [s3|] eqn:E3; [|discriminate]. injection H as <-.
    apply (load_current s3 B); [exact G'|exact V| |].
    - intros N. apply (ensure_all_findable d p o s2 s3 E3); auto. rewrite T2, T1.
      apply (replace_at_findable d s p p (v_tree s) t h old R D V N).
    - intros e L.
      destruct old as [on|].
      + left. apply (ensure_all_fresh d p o s2 s3 B A2); auto; [congruence|].
        intros e' L'. rewrite T2, T1 in L'.
        destruct (replace_at_entry d s p p (v_tree s) t h _ e' R (b_bound _ _ _ (g_base _ _ G)) L') as [K|[K _]]; [|discriminate].
        destruct X1 as [_ X1]. destruct X2 as [_ X2]. rewrite X2, X1. exact K.
      + injection W as <- <-. cbn in C. injection C as <- <- <-. cbn in E1. injection E1 as <-. cbn in E2. injection E2 as <-.
        cbn in E3. injection E3 as <-. cbn in *.
        destruct (replace_at_entry d s p p (v_tree s) t h _ e R (b_bound _ _ _ (g_base _ _ G)) L) as [K|[_ [K1 [i [K2 K3]]]]]; [left; exact K|].
        right. exists i. split; [exact K2|]. right. rewrite K3. f_equal.
        destruct (b_path _ _ _ (g_base _ _ G') p e i L K2) as [_ P]. exact P.
  Qed.
End Ignored.
