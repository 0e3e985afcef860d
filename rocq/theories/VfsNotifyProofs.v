(** Who registered for something that is missing, or for a file, is told about it. *)
From Coq Require Import List Bool Arith Lia.
From Verif Require Import VfsModel VfsSpec VfsProofs VfsTreeProofs VfsStateProofs.
Import ListNotations.

Local Arguments get_file : simpl never.
Local Arguments get_entry : simpl never.
Local Arguments set_code : simpl never.

(** What the tree has at a path. *)
Fixpoint node_at (p : path) (es : list (name * node)) : option node :=
  match p with
  | [] => None
  | [n] => find n es
  | n :: r => match find n es with Some (NDir (Some sub)) => node_at r sub | _ => None end
  end.

Lemma node_at_cons : forall n m r es, node_at (n :: m :: r) es =
  match find n es with Some (NDir (Some sub)) => node_at (m :: r) sub | _ => None end.
Proof. reflexivity. Qed.

Lemma node_at_app : forall p r es x, p <> [] -> r <> [] -> node_at (p ++ r) es = Some x ->
  exists sub, node_at p es = Some (NDir (Some sub)) /\ node_at r sub = Some x.
Proof.
  induction p as [|n p IH]; intros r es x P R H; [congruence|]. destruct p as [|m p].
  - destruct r as [|k r]; [congruence|]. cbn [app] in H. rewrite node_at_cons in H. cbn.
    destruct (find n es) as [[e|[sub|]|v]|]; try discriminate. exists sub. auto.
  - cbn [app] in H. rewrite node_at_cons in H. rewrite node_at_cons.
    destruct (find n es) as [[e|[sub|]|v]|]; try discriminate. apply IH; [discriminate|exact R|exact H].
Qed.

Lemma find_in_list : forall A n (l : list (name * A)) x, find n l = Some x -> In (n, x) l.
Proof.
  intros A n l x H. unfold find in H. destruct (List.find (fun p => Nat.eqb (fst p) n) l) as [[k v]|] eqn:E; [|discriminate].
  injection H as <-. apply find_some in E. destruct E as [E F]. cbn in F. apply Nat.eqb_eq in F. subst k. exact E.
Qed.

Lemma walk_cons_snd : forall k y r, snd (walk (NDir (Some ((k, y) :: r)))) = snd (walk y) ++ snd (walk (NDir (Some r))).
Proof.
  intros k y r. cbn [walk]. destruct (walk y) as [a b].
  match goal with |- snd (let (_, _) := ?G in _) = _ => destruct G as [c d] end.
  reflexivity.
Qed.

Lemma walk_go_snd : forall es n x, In (n, x) es -> forall v, In v (snd (walk x)) -> In v (snd (walk (NDir (Some es)))).
Proof.
  induction es as [|[k y] r IH]; intros n x Hin v Hv; [destruct Hin|]. rewrite walk_cons_snd. apply in_or_app.
  destruct Hin as [E|Hin]; [injection E as <- <-; left; exact Hv|]. right. apply IH with n x; assumption.
Qed.

Lemma node_walk : forall p es x, node_at p es = Some x ->
  (forall e, In e (fst (walk x)) -> In e (fst (walk (NDir (Some es))))) /\
  (forall v, In v (snd (walk x)) -> In v (snd (walk (NDir (Some es))))).
Proof.
  induction p as [|n p IH]; intros es x H; [discriminate|]. destruct p as [|m p].
  - cbn in H. apply find_in_list in H. split; [intros e He; exact (walk_go _ _ _ H e He)|intros v Hv; exact (walk_go_snd _ _ _ H v Hv)].
  - rewrite node_at_cons in H. destruct (find n es) as [[e|[sub|]|v]|] eqn:F; try discriminate.
    apply find_in_list in F. destruct (IH sub x H) as [A B]. split.
    + intros e He. exact (walk_go _ _ _ F e (A e He)).
    + intros v Hv. exact (walk_go_snd _ _ _ F v (B v Hv)).
Qed.

(** What is removed together with a path. *)
Lemma node_below : forall p r es x n, p <> [] -> node_at (p ++ r) es = Some x -> node_at p es = Some n ->
  (forall e, In e (fst (walk x)) -> In e (fst (walk n))) /\ (forall v, In v (snd (walk x)) -> In v (snd (walk n))).
Proof.
  intros p r es x n P H N. destruct r as [|m r].
  - rewrite app_nil_r in H. assert (x = n) by congruence. subst x. split; auto.
  - destruct (node_at_app p (m :: r) es x P) as [sub [A B]]; [discriminate|exact H|].
    assert (n = NDir (Some sub)) by congruence. subst n. exact (node_walk _ _ _ B).
Qed.

Section Notify.
  Variable ignored : name -> bool.

  (** The disk has something else than the tree: a file, a directory or nothing. *)
  Definition other_kind (d : disk) (p : path) (n : node) : Prop :=
    match n, disk_at d p with
    | NFile _, Some (DFile _) | NDir _, Some (DDir _) | NMissing _, None => False
    | _, _ => True
    end.

  Lemma replace_at_old : forall d s full p es n, node_at p es = Some n -> other_kind d full n -> ignored (last p 0) = false ->
    exists t h, replace_at ignored d s full p es = (t, h, Some n).
  Proof.
    intros d s full. induction p as [|a p IH]; intros es n N K V; [discriminate|]. destruct p as [|b p].
    - cbn in N, V. cbn [replace_at]. unfold replace_entry, unnecessary, read_entry. rewrite N, V.
      unfold other_kind in K. destruct n as [e|sub|v]; destruct (disk_at d full) as [[c|ds]|]; try contradiction; cbn; eauto.
    - rewrite node_at_cons in N. rewrite replace_at_cons.
      destruct (find a es) as [[e|[sub|]|v]|]; try discriminate.
      destruct (IH sub n N K V) as [t [h E]]. rewrite E. eauto.
  Qed.

  (** ** The invalidation of several files *)

  Definition has (i : nat) (v : invs) : Prop := match v with InvDb => True | InvSome l => In i l end.

  (** [i] was told since the log was [log0], or it still is registered in the entry [e]. *)
  Definition pending (log0 : list event) (e i : nat) (s : vfs) : Prop :=
    exists new, v_log s = log0 ++ new /\ ((exists c, In (Refs c i) new) \/ has i (inv_of (v_heap s) e)).
  Definition told_since (log0 : list event) (i : nat) (s : vfs) : Prop :=
    exists new c, v_log s = log0 ++ new /\ In (Refs c i) new.

  Lemma told_pending : forall log0 e i s, told_since log0 i s -> pending log0 e i s.
  Proof. intros log0 e i s [new [c [E H]]]. exists new. eauto. Qed.

  Lemma told_more : forall log0 i s s' new, told_since log0 i s -> v_log s' = v_log s ++ new -> told_since log0 i s'.
  Proof.
    intros log0 i s s' new [n [c [E H]]] L. exists (n ++ new), c. split; [rewrite L, E, app_assoc; reflexivity|].
    apply in_or_app. left. exact H.
  Qed.

  Lemma some_entry : forall fs ch e (new : list event),
    (exists x, In (Refs ch x) new /\ f_entry (get_file fs x) = e) \/ (forall x, In (Refs ch x) new -> f_entry (get_file fs x) <> e).
  Proof.
    intros fs ch e new. induction new as [|ev r IH]; [right; intros x []|].
    destruct IH as [[x [A B]]|IH]; [left; exists x; split; [right; exact A|exact B]|].
    destruct ev as [c x|p].
    - assert (D : {c = ch} + {c <> ch}) by (destruct c, ch; try (right; congruence); [destruct (Nat.eq_dec n n0); [left; congruence|right; congruence]|left; reflexivity]).
      destruct D as [->|D]; [|right; intros y [Y|Y]; [congruence|apply IH; exact Y]].
      destruct (Nat.eq_dec (f_entry (get_file fs x)) e) as [F|F]; [left; exists x; split; [left; reflexivity|exact F]|].
      right. intros y [Y|Y]; [injection Y as <-; exact F|apply IH; exact Y].
    - right. intros y [Y|Y]; [discriminate|apply IH; exact Y].
  Qed.

  (** The common part of unloading and invalidating a file. *)
  Definition keeps (s s' : vfs) (a : nat) : Prop :=
    (forall j, f_entry (get_file (v_files s') j) = f_entry (get_file (v_files s) j)) /\
    exists new, v_log s' = v_log s ++ new /\
      forall e i, has i (inv_of (v_heap s) e) ->
        (exists c, In (Refs c i) new) \/ has i (inv_of (v_heap s') e) /\ f_entry (get_file (v_files s) a) <> e.

  Lemma unload_keeps : forall s a s', invalidate_and_unload_file s a = Some (false, s') -> keeps s s' a.
  Proof.
    intros s a s' H. destruct (unload_post s a) as [db [s1 [new [E [L [D [F _]]]]]]]. rewrite E in H. injection H as -> ->.
    destruct (F eq_refl) as [R [_ [_ S]]]. split.
    - intros j. destruct (unload_frame _ _ _ _ E) as [_ [Fs _]]. rewrite Fs. apply get_set_code_entry.
    - exists new. split; [exact L|]. intros e i H.
      destruct (Nat.eq_dec (f_entry (get_file (v_files s) a)) e) as [Q|Q].
      + (* the entry of the file itself *)
        unfold has in H. destruct (inv_of (v_heap s) e) as [|l] eqn:El.
        * exfalso. assert (false = true); [|discriminate]. apply D. exists a. split; [left; reflexivity|]. unfold everything. rewrite Q. exact El.
        * left. exists (Some a). apply R. split; [reflexivity|]. exists i. split; [exists l; rewrite Q; auto|]. apply reach_in. left. reflexivity.
      + destruct (some_entry (v_files s) (Some a) e new) as [[x [X Ex]]|N].
        * apply R in X. destruct X as [_ X]. unfold has in H. destruct (inv_of (v_heap s) e) as [|l] eqn:El.
          -- exfalso. assert (false = true); [|discriminate]. apply D. exists x. split; [right; exact X|]. unfold everything. rewrite Ex. exact El.
          -- left. exists (Some a). apply R. split; [reflexivity|]. destruct X as [k [K X]]. exists k. split; [exact K|].
             apply reach_step with x; [exact X|]. exists l. rewrite Ex. auto.
        * right. split; [|exact Q]. unfold inv_of in *. rewrite S; [exact H|]. intros j [->|J]; [exact Q|]. apply N. apply R. auto.
  Qed.

  Lemma invalidate_index_keeps : forall s a s', run_invalidate_index s None a = Some (false, s') -> keeps s s' a.
  Proof.
    intros s a s' H. unfold run_invalidate_index in H. destruct (run_invalidate_post s None (InvSome [a])) as [db [h [new [E P]]]].
    rewrite E in H. injection H as -> <-. cbn in P. split; [reflexivity|]. exists new. cbn. split; [reflexivity|].
    intros e i H. destruct (some_entry (v_files s) None e new) as [[x [X Ex]]|N].
    - destruct (post_closed _ _ _ _ _ _ _ _ P eq_refl x X) as [[m [Em M]] _]. rewrite Ex in Em. left. exists None. apply M.
      unfold has in H. rewrite Em in H. exact H.
    - right. split.
      + unfold inv_of in *. rewrite (post_same _ _ _ _ _ _ _ _ P eq_refl e N). exact H.
      + apply N. apply (post_all _ _ _ _ _ _ _ _ P eq_refl). left. reflexivity.
  Qed.

  Lemma keeps_pending : forall s s' a log0 e i, keeps s s' a -> pending log0 e i s ->
    pending log0 e i s' /\ (f_entry (get_file (v_files s) a) = e -> told_since log0 i s').
  Proof.
    intros s s' a log0 e i [_ [new [L K]]] [new0 [L0 [[c C]|C]]].
    - assert (T : told_since log0 i s').
      { exists (new0 ++ new), c. split; [rewrite L, L0, app_assoc; reflexivity|]. apply in_or_app. left. exact C. }
      split; [apply told_pending; exact T|intros _; exact T].
    - destruct (K e i C) as [[c N]|[N Q]].
      + assert (T : told_since log0 i s').
        { exists (new0 ++ new), c. split; [rewrite L, L0, app_assoc; reflexivity|]. apply in_or_app. right. exact N. }
        split; [apply told_pending; exact T|intros _; exact T].
      + split; [|congruence]. exists (new0 ++ new). split; [rewrite L, L0, app_assoc; reflexivity|]. right. exact N.
  Qed.

  Lemma unload_all_pending : forall l s s' log0 e i, unload_all s l = Some (false, s') -> pending log0 e i s ->
    pending log0 e i s' /\ (forall j, f_entry (get_file (v_files s') j) = f_entry (get_file (v_files s) j)) /\
    (exists new, v_log s' = v_log s ++ new) /\
    ((exists a, In a l /\ f_entry (get_file (v_files s) a) = e) -> told_since log0 i s').
  Proof.
    induction l as [|a l IH]; intros s s' log0 e i H P.
    - cbn in H. injection H as <-. repeat split; [exact P|exists []; rewrite app_nil_r; reflexivity|]. intros [a [[] _]].
    - cbn in H. destruct (invalidate_and_unload_file s a) as [[[|] s1]|] eqn:E; try discriminate.
      assert (K := unload_keeps _ _ _ E). destruct (keeps_pending _ _ _ _ _ _ K P) as [P1 T1].
      destruct (IH s1 s' log0 e i H P1) as [P2 [F2 [[new2 L2] T2]]]. destruct K as [F1 [new1 [L1 _]]].
      repeat split.
      + exact P2.
      + intros j. rewrite F2. apply F1.
      + exists (new1 ++ new2). rewrite L2, L1, app_assoc. reflexivity.
      + intros [b [[<-|B] Eb]].
        * apply told_more with s1 new2; [apply T1; exact Eb|exact L2].
        * apply T2. exists b. rewrite F1. auto.
  Qed.

  Lemma unload_all_log : forall l s s', unload_all s l = Some (false, s') -> exists new, v_log s' = v_log s ++ new.
  Proof.
    induction l as [|a l IH]; intros s s' U; cbn in U.
    - injection U as <-. exists []. rewrite app_nil_r. reflexivity.
    - destruct (invalidate_and_unload_file s a) as [[[|] s5]|] eqn:E; try discriminate.
      destruct (unload_keeps _ _ _ E) as [_ [new5 [L5 _]]]. destruct (IH _ _ U) as [new6 L6].
      exists (new5 ++ new6). rewrite L6, L5, app_assoc. reflexivity.
  Qed.

  Lemma invalidate_all_pending : forall l s s' log0 e i, invalidate_all s l = Some (false, s') -> pending log0 e i s ->
    pending log0 e i s' /\ (forall j, f_entry (get_file (v_files s') j) = f_entry (get_file (v_files s) j)) /\
    (exists new, v_log s' = v_log s ++ new) /\
    ((exists a, In a l /\ f_entry (get_file (v_files s) a) = e) -> told_since log0 i s').
  Proof.
    induction l as [|a l IH]; intros s s' log0 e i H P.
    - cbn in H. injection H as <-. repeat split; [exact P|exists []; rewrite app_nil_r; reflexivity|]. intros [a [[] _]].
    - cbn in H. destruct (run_invalidate_index s None a) as [[[|] s1]|] eqn:E; try discriminate.
      assert (K := invalidate_index_keeps _ _ _ E). destruct (keeps_pending _ _ _ _ _ _ K P) as [P1 T1].
      destruct (IH s1 s' log0 e i H P1) as [P2 [F2 [[new2 L2] T2]]]. destruct K as [F1 [new1 [L1 _]]].
      repeat split.
      + exact P2.
      + intros j. rewrite F2. apply F1.
      + exists (new1 ++ new2). rewrite L2, L1, app_assoc. reflexivity.
      + intros [b [[<-|B] Eb]].
        * apply told_more with s1 new2; [apply T1; exact Eb|exact L2].
        * apply T2. exists b. rewrite F1. auto.
  Qed.

  (** The files in the list themselves are told, too. *)
  Lemma invalidate_all_told : forall l s s' i, invalidate_all s l = Some (false, s') -> In i l -> told_since (v_log s) i s'.
  Proof.
    induction l as [|a l IH]; intros s s' i H I; [destruct I|]. cbn in H.
    destruct (run_invalidate_index s None a) as [[[|] s1]|] eqn:E; try discriminate.
    unfold run_invalidate_index in E. destruct (run_invalidate_post s None (InvSome [a])) as [db [h [new [E1 P]]]].
    rewrite E1 in E. injection E as -> <-. cbn in P. destruct I as [<-|I].
    - assert (Q : pending (v_log s) 0 a (mk_vfs (v_tree s) h (v_files s) (v_mem s) (v_log s ++ new))).
      { exists new. cbn. split; [reflexivity|]. left. exists None. apply (post_all _ _ _ _ _ _ _ _ P eq_refl). left. reflexivity. }
      destruct (invalidate_all_pending l _ s' _ _ _ H Q) as [_ [_ [[new2 L2] _]]]. cbn in L2.
      exists (new ++ new2), None. split; [rewrite L2, app_assoc; reflexivity|]. apply in_or_app. left.
      apply (post_all _ _ _ _ _ _ _ _ P eq_refl). left. reflexivity.
    - destruct (IH _ _ _ H I) as [new2 [c [L2 C]]]. cbn in L2. exists (new ++ new2), c.
      split; [rewrite L2, app_assoc; reflexivity|]. apply in_or_app. right. exact C.
  Qed.

  Lemma ensure_all_log : forall d l s s', ensure_all ignored d s l = Some s' -> exists new, v_log s' = v_log s ++ new.
  Proof.
    intros d. induction l as [|[p i] l IH]; intros s s' H; cbn in H.
    - injection H as <-. exists []. rewrite app_nil_r. reflexivity.
    - destruct (ensure_file ignored d [] p (v_tree s) (v_heap s)) as [[[[t h] e] v]|]; [|discriminate].
      destruct (IH _ _ H) as [new L]. cbn in L. exists (Notify p :: new). rewrite L, <- app_assoc. reflexivity.
  Qed.

  Lemma classify_in : forall s es e a unloads invalid opened, classify s es = (unloads, invalid, opened) ->
    In e es -> idx_of (v_heap s) e = Some a -> In a unloads \/ In a invalid.
  Proof.
    intros s. induction es as [|x r IH]; intros e a unloads invalid opened H I X; [destruct I|].
    cbn [classify fold_right] in H. fold (classify s r) in H. destruct (classify s r) as [[u v] o] eqn:E.
    fold (idx_of (v_heap s) x) in H. destruct I as [->|I].
    - rewrite X in H. destruct (mem_path (v_mem s) a) as [p|]; injection H as <- <- <-; [right|left]; left; reflexivity.
    - destruct (IH e a u v o eq_refl I X) as [Q|Q];
        (destruct (idx_of (v_heap s) x) as [i|]; [destruct (mem_path (v_mem s) i) as [p|]|]); injection H as <- <- <-; cbn; tauto.
  Qed.

  (** ** The event *)

  (** Somebody is registered at [w]: [w] is missing, or it is a file with an index whose entry is known there. *)
  Definition registered_at (s : vfs) (w : path) (i : nat) : Prop :=
    match node_at w (v_tree s) with
    | Some (NMissing v) => has i v
    | Some (NFile e) => has i (inv_of (v_heap s) e) /\
                        exists j, idx_of (v_heap s) e = Some j /\ f_entry (get_file (v_files s) j) = e
    | _ => False
    end.

  Lemma get_entry_grown : forall h x e, e < length h -> get_entry (h ++ x) e = get_entry h e.
  Proof. intros h x e H. unfold get_entry. rewrite app_nth1 by exact H. reflexivity. Qed.

  Lemma node_lookup : forall w es e, node_at w es = Some (NFile e) -> lookup w es = Some e.
  Proof.
    induction w as [|n w IH]; intros es e H; [discriminate|]. destruct w as [|m w].
    - cbn in *. rewrite H. reflexivity.
    - rewrite node_at_cons in H. rewrite lookup_cons. destruct (find n es) as [[x|[sub|]|v]|]; try discriminate. apply IH. exact H.
  Qed.

  Theorem event_told : forall s d p r i n db s',
    bounded (v_tree s) (v_heap s) ->
    registered_at s (p ++ r) i -> p <> [] ->
    node_at p (v_tree s) = Some n -> other_kind d p n -> ignored (last p 0) = false ->
    mem_find (v_mem s) p = None ->
    invalidate_path ignored d s p = Some (db, s') ->
    db = true \/ told_since (v_log s) i s'.
  Proof.
    intros s d p r i n db s' Bd R P N K V M H. unfold invalidate_path in H. rewrite M in H.
    destruct (replace_at_old d s p p (v_tree s) n N K V) as [t [h E]]. rewrite E in H.
    destruct (walk n) as [es missing] eqn:W.
    set (s1 := mk_vfs t h (v_files s) (v_mem s) (v_log s)) in *.
    destruct (classify s1 es) as [[unloads invalid] opened] eqn:C.
    destruct (existsb (fun i => match i with InvDb => true | _ => false end) missing) eqn:X; [injection H as <- _; left; reflexivity|].
    destruct (unload_all s1 unloads) as [[[|] s2]|] eqn:U; [injection H as <- _; left; reflexivity| |discriminate].
    destruct (invalidate_all s2 (invalid ++ some_files missing)) as [[[|] s3]|] eqn:Iv; [injection H as <- _; left; reflexivity| |discriminate].
    destruct (ensure_all ignored d s3 opened) as [s4|] eqn:En; [|discriminate]. injection H as <- <-.
    destruct (ensure_all_log _ _ _ _ En) as [new4 L4]. right.
    assert (Rh : h = v_heap s \/ exists x, h = v_heap s ++ x).
    { apply replace_at_spec in E. destruct E as [[->| ->] _]; [left; reflexivity|right; eauto]. }
    unfold registered_at in R. destruct (node_at (p ++ r) (v_tree s)) as [[e|sub|v]|] eqn:Nw; try contradiction.
    - (* a file *)
      destruct R as [R [j [Xj Fj]]]. destruct (node_below p r _ _ n P Nw N) as [A _].
      assert (Ie : In e es). { change es with (fst (es, missing)). rewrite <- W. apply A. left. reflexivity. }
      assert (Le : e < length (v_heap s)). { apply (Bd (p ++ r)). apply node_lookup. exact Nw. }
      assert (Ge : get_entry h e = get_entry (v_heap s) e).
      { destruct Rh as [->|[x ->]]; [reflexivity|apply get_entry_grown; exact Le]. }
      assert (Pe : pending (v_log s) e i s1).
      { exists []. cbn. split; [rewrite app_nil_r; reflexivity|]. right. unfold inv_of in *. rewrite Ge. exact R. }
      destruct (unload_all_pending _ _ _ _ _ _ U Pe) as [P2 [F2 [[new2 L2] T2]]].
      destruct (invalidate_all_pending _ _ _ _ _ _ Iv P2) as [P3 [F3 [[new3 L3] T3]]].
      destruct (classify_in s1 es e j unloads invalid opened C Ie) as [Q|Q].
      + unfold idx_of in *. cbn. rewrite Ge. exact Xj.
      + apply told_more with s3 new4; [|exact L4]. apply told_more with s2 new3; [|exact L3]. apply T2. exists j. auto.
      + apply told_more with s3 new4; [|exact L4]. apply T3. exists j. rewrite F2. split; [apply in_or_app; left; exact Q|exact Fj].
    - (* missing *)
      destruct (node_below p r _ _ n P Nw N) as [_ A].
      assert (Iv0 : In v missing). { change missing with (snd (es, missing)). rewrite <- W. apply A. left. reflexivity. }
      destruct v as [|l].
      + exfalso. assert (existsb (fun i => match i with InvDb => true | _ => false end) missing = true); [|congruence].
        apply existsb_exists. exists InvDb. auto.
      + cbn in R. apply told_more with s3 new4; [|exact L4].
        assert (Il : In i (invalid ++ some_files missing)).
        { apply in_or_app. right. unfold some_files. apply in_concat. exists l. split; [|exact R].
          apply in_map_iff. exists (InvSome l). auto. }
        destruct (invalidate_all_told _ _ _ i Iv Il) as [new3 [c [L3 Cc]]].
        destruct (unload_all_log _ _ _ U) as [new2 L2]. cbn in L2.
        exists (new2 ++ new3), c. split; [rewrite L3, L2, app_assoc; reflexivity|].
        apply in_or_app. right. exact Cc.
  Qed.

  (** ** The registrations *)

  (** The directories above were read. *)
  Fixpoint dirs_read (p : path) (es : list (name * node)) : Prop :=
    match p with
    | [] | [_] => True
    | n :: r => match find n es with Some (NDir (Some sub)) => dirs_read r sub | _ => False end
    end.

  Lemma add_missing_cons : forall n m r i es h, add_missing (n :: m :: r) i es h =
    match find n es with
    | Some (NDir (Some sub)) => let (sub, h) := add_missing (m :: r) i sub h in (insert n (NDir (Some sub)) es, h)
    | _ => (es, h)
    end.
  Proof. reflexivity. Qed.

  Lemma has_add : forall i v, has i (add_inv i v).
  Proof.
    intros i [|l]; cbn; [exact I|]. destruct (existsb (Nat.eqb i) l) eqn:E.
    - apply existsb_exists in E. destruct E as [x [X Y]]. apply Nat.eqb_eq in Y. congruence.
    - apply in_or_app. right. left. reflexivity.
  Qed.

  Lemma add_missing_registers : forall w i es h, w <> [] -> dirs_read w es ->
    match node_at w es with None | Some (NMissing _) => True | _ => False end ->
    exists v, node_at w (fst (add_missing w i es h)) = Some (NMissing v) /\ has i v.
  Proof.
    induction w as [|n w IH]; intros i es h W D N; [congruence|]. destruct w as [|m w].
    - cbn in N. cbn [add_missing]. destruct (find n es) as [[e|sub|v]|]; try contradiction; cbn; rewrite find_insert, Nat.eqb_refl.
      + exists (add_inv i v). split; [reflexivity|apply has_add].
      + exists (InvSome [i]). split; [reflexivity|left; reflexivity].
    - rewrite node_at_cons in N. rewrite add_missing_cons. cbn [dirs_read] in D.
      destruct (find n es) as [[e|[sub|]|v]|] eqn:F; try contradiction.
      destruct (IH i sub h) as [v [A B]]; [discriminate|exact D|exact N|].
      destruct (add_missing (m :: w) i sub h) as [sub1 h1]. cbn [fst] in *. exists v. split; [|exact B].
      rewrite node_at_cons, find_insert, Nat.eqb_refl. exact A.
  Qed.
End Notify.
