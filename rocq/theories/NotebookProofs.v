(** Proofs for notebooks. *)
From Coq Require Import List Permutation Bool Arith Lia.
From Verif Require Import NotebookModel NotebookSpec.
Import ListNotations.

Lemma take_doc_spec : forall d u c, NoDup (map fst d) -> In (u, c) d ->
  exists d', take_doc u d = Some (c, d') /\ NoDup (map fst d') /\ (forall v x, v <> u -> In (v, x) d -> In (v, x) d') /\ incl d' d.
Proof.
  induction d as [|[v x] d IH]; intros u c N I; [destruct I|]. cbn [take_doc]. inversion N as [|? ? N1 N2]; subst. destruct (Nat.eqb_spec v u) as [->|Q].
  - destruct I as [E|I].
    + injection E as ->. exists d. split; [reflexivity|]. split; [exact N2|]. split; [|apply incl_tl, incl_refl].
      intros v y V [E|E]; [congruence|exact E].
    + exfalso. apply N1. apply (in_map fst) in I. exact I.
  - destruct I as [E|I]; [congruence|]. destruct (IH u c N2 I) as (d' & E & N' & K & L). rewrite E. exists ((v, x) :: d'). split; [reflexivity|].
    split; [|split].
    + cbn. constructor; [|exact N']. intros J. apply N1. apply in_map_iff in J. destruct J as ([a b] & <- & J). apply L in J. apply (in_map fst) in J. exact J.
    + intros w y W [E'|E']; [left; exact E'|right; exact (K w y W E')].
    + apply incl_cons; [left; reflexivity|apply incl_tl; exact L].
Qed.

Lemma docs_set : forall s u d v, docs (set_doc s u d) v = if v =? u then d else docs s v.
Proof. reflexivity. Qed.

Lemma cells_store : forall s u c p, cells (store s u c p) = cells s.
Proof. intros s u c [p|]; unfold store; [reflexivity|]. destruct (docs s u) as [d|]; [|reflexivity]. destruct (d_code d =? c); reflexivity. Qed.

Lemma store_other : forall s u c p v, v <> u -> docs (store s u c p) v = docs s v.
Proof.
  intros s u c p v N. assert (E : v =? u = false) by (apply Nat.eqb_neq; exact N). destruct p as [p|]; unfold store; [rewrite docs_set, E; reflexivity|].
  destruct (docs s u) as [d|]; [destruct (d_code d =? c); [reflexivity|]|]; rewrite docs_set, E; reflexivity.
Qed.

Lemma store_self : forall s u c p, exists d, docs (store s u c p) u = Some d /\ d_code d = c /\
  (match p with Some q => d_parent d = Some q | None => docs s u = None -> d_parent d = None end).
Proof.
  intros s u c [p|]; unfold store.
  - exists (mk_doc c (Some p)). rewrite docs_set, Nat.eqb_refl. auto.
  - destruct (docs s u) as [d|] eqn:D.
    + destruct (Nat.eqb_spec (d_code d) c) as [E|E].
      * exists d. split; [exact D|]. split; [exact E|congruence].
      * exists (mk_doc c None). rewrite docs_set, Nat.eqb_refl. auto.
    + exists (mk_doc c None). rewrite docs_set, Nat.eqb_refl. auto.
Qed.

(** The link to the cell before position [k]. *)
Definition before (l : list nat) (k : nat) : option nat := match k with 0 => None | S p => nth_error l p end.

Lemma new_cells_spec : forall new s pre post d,
  cells s = Some (pre ++ post) -> NoDup (map fst new) -> NoDup (map fst d) -> incl new d ->
  (forall u, In u (map fst new) -> docs s u = None /\ ~ In u pre) -> (forall u, In u pre -> docs s u <> None) ->
  exists s', new_cells s (code_cells new) d (length pre) = (Done, s') /\ cells s' = Some (pre ++ map fst new ++ post) /\
    (forall v, ~ In v (map fst new) -> docs s' v = docs s v) /\
    (forall k u c, nth_error new k = Some (u, c) ->
       exists x, docs s' u = Some x /\ d_code x = c /\ d_parent x = before (pre ++ map fst new) (length pre + k)).
Proof.
  induction new as [|[u c] new IH]; intros s pre post d C N Nd I F P.
  - exists s. cbn. split; [reflexivity|]. split; [exact C|]. split; [reflexivity|]. intros [|k] u c E; discriminate.
  - cbn [code_cells map new_cells fst]. destruct (take_doc_spec d u c Nd (I _ (or_introl eq_refl))) as (d' & T & Nd' & K & _). rewrite T.
    inversion N as [|? ? N1 N2]; subst. destruct (F u (or_introl eq_refl)) as [Fu Pu].
    unfold add_cell. rewrite C. replace (length (pre ++ post) <? length pre) with false by (symmetry; apply Nat.ltb_ge; rewrite app_length; lia).
    rewrite firstn_app, firstn_all, Nat.sub_diag, firstn_O, app_nil_r, skipn_app, skipn_all, Nat.sub_diag. cbn [skipn app].
    set (s1 := mk_state (Some (pre ++ u :: post)) (docs s)).
    set (parent := match length pre with 0 => None | S p => nth_error (pre ++ u :: post) p end).
    assert (Pa : parent = before (pre ++ map fst ((u, c) :: new)) (length pre + 0)).
    { unfold parent, before. rewrite Nat.add_0_r. destruct (length pre) as [|p] eqn:L; [reflexivity|]. rewrite !nth_error_app1 by lia. reflexivity. }
    assert (St : store_with_parent s1 u c parent = (Done, store s1 u c parent)).
    { unfold store_with_parent. destruct parent as [q|] eqn:Q; [|reflexivity]. destruct (docs s1 q) as [x|] eqn:X; [reflexivity|]. exfalso.
      apply (P q); [|exact X]. unfold before in Pa. rewrite Nat.add_0_r in Pa. destruct (length pre) as [|p] eqn:L; [discriminate|].
      rewrite nth_error_app1 in Pa by lia. symmetry in Pa. exact (nth_error_In _ _ Pa). }
    rewrite St. set (s2 := store s1 u c parent).
    destruct (IH s2 (pre ++ [u]) post d') as (s' & E & C' & O & X).
    + unfold s2. rewrite cells_store. cbn. rewrite <- app_assoc. reflexivity.
    + exact N2.
    + exact Nd'.
    + intros [v y] H. apply K; [|apply I; right; exact H]. intros ->. apply N1. apply (in_map fst) in H. exact H.
    + intros v H. assert (V : v <> u) by (intros ->; contradiction). unfold s2. rewrite store_other by exact V. cbn [docs].
      destruct (F v (or_intror H)) as [Fv Pv]. split; [exact Fv|]. rewrite in_app_iff. cbn. intros [A|[A|[]]]; [contradiction|congruence].
    + intros v H. apply in_app_or in H. destruct (Nat.eq_dec v u) as [->|V].
      * destruct (store_self s1 u c parent) as (x & Dx & _). unfold s2. rewrite Dx. discriminate.
      * unfold s2. rewrite store_other by exact V. destruct H as [H|[H|[]]]; [apply P; exact H|congruence].
    + rewrite app_length in E. cbn [length] in E. replace (length pre + 1) with (S (length pre)) in E by lia.
      exists s'. split; [exact E|]. split; [rewrite C', <- app_assoc; reflexivity|]. split.
      * intros v H. cbn [map fst In] in H. rewrite O by tauto. unfold s2. rewrite store_other by (intros ->; tauto). reflexivity.
      * intros [|k] v y H; cbn [nth_error] in H.
        -- injection H as <- <-. rewrite O by exact N1. destruct (store_self s1 u c parent) as (x & Dx & Cx & Px). exists x. split; [exact Dx|]. split; [exact Cx|].
           transitivity parent; [|exact Pa]. destruct parent; [exact Px|]. apply Px. exact Fu.
        -- destruct (X k v y H) as (x & Dx & Cx & Px). exists x. split; [exact Dx|]. split; [exact Cx|]. rewrite Px.
           rewrite app_length. cbn [length map fst]. rewrite <- app_assoc. cbn [app]. f_equal. lia.
Qed.

Lemma close_cells_spec : forall us s, NoDup us -> (forall u, In u us -> docs s u <> None) ->
  exists s', close_cells s us Done = (Done, s') /\ cells s' = cells s /\
    forall v, docs s' v = if existsb (Nat.eqb v) us then None else docs s v.
Proof.
  induction us as [|u us IH]; intros s N H; [exists s; auto|]. cbn [close_cells]. inversion N as [|? ? N1 N2]; subst.
  destruct (docs s u) as [d|] eqn:D; [|exfalso; exact (H u (or_introl eq_refl) D)].
  destruct (IH (set_doc s u None) N2) as (s' & E & C & X).
  - intros v I. rewrite docs_set. destruct (Nat.eqb_spec v u) as [->|]; [contradiction|]. apply H. right. exact I.
  - exists s'. split; [exact E|]. split; [exact C|]. intros v. rewrite X, docs_set. cbn [existsb]. destruct (v =? u), (existsb (Nat.eqb v) us); reflexivity.
Qed.

Lemma existsb_eqb : forall v l, existsb (Nat.eqb v) l = true <-> In v l.
Proof.
  intros v l. rewrite existsb_exists. split.
  - intros (x & H & E). apply Nat.eqb_eq in E. congruence.
  - intros H. exists v. split; [exact H|apply Nat.eqb_refl].
Qed.

Lemma set_text_uris : forall u c l, map fst (set_text u c l) = map fst l.
Proof.
  intros u c l. unfold set_text. rewrite map_map. apply map_ext_in. intros [v x] _. cbn. destruct (Nat.eqb_spec v u); cbn; congruence.
Qed.

Lemma in_set_text : forall u c l v x, In (v, x) (set_text u c l) -> v = u /\ x = c \/ v <> u /\ In (v, x) l.
Proof.
  intros u c l v x H. unfold set_text in H. apply in_map_iff in H. destruct H as ([w y] & E & I). cbn in E. destruct (Nat.eqb_spec w u) as [->|N].
  - injection E as <- <-. auto.
  - injection E as <- <-. auto.
Qed.

Lemma edits_uris : forall nb t nb', edits nb t nb' -> map fst nb' = map fst nb.
Proof. intros nb t nb' E. induction E as [|nb u c r nb' I E IH]; [reflexivity|]. rewrite IH. apply set_text_uris. Qed.

Lemma edits_spec : forall nb t nb', edits nb t nb' -> forall s, knows s (Some nb) ->
  exists s', change_documents s t = (Done, s') /\ knows s' (Some nb') /\ (forall l, chained s l -> chained s' l).
Proof.
  intros nb t nb' E. induction E as [nb|nb u c r nb' I E IH]; intros s K; [exists s; auto|].
  cbn [change_documents]. destruct K as (K1 & K2 & K3). apply in_map_iff in I. destruct I as ([u' c0] & <- & I). cbn [fst] in *.
  destruct (K2 _ _ I) as (d & D & Dc). rewrite D.
  assert (U : In u' (map fst nb)) by (apply (in_map fst) in I; exact I).
  destruct (IH (store s u' c (d_parent d))) as (s' & A & B & Ch).
  - split; [rewrite cells_store, set_text_uris; exact K1|]. split.
    + intros v x H. apply in_set_text in H. destruct H as [[-> ->]|[V H]].
      * destruct (store_self s u' c (d_parent d)) as (y & Y1 & Y2 & _). eauto.
      * rewrite store_other by exact V. exact (K2 v x H).
    + intros v H. rewrite set_text_uris in H. rewrite store_other by (intros ->; contradiction). apply K3. exact H.
  - exists s'. split; [exact A|]. split; [exact B|]. intros l Cl. apply Ch. intros k v H. destruct (Cl k v H) as (x & X & P).
    destruct (Nat.eq_dec v u') as [->|V].
    + rewrite D in X. injection X as <-. destruct (store_self s u' c (d_parent d)) as (y & Y1 & Y2 & Y3). exists y. split; [exact Y1|].
      rewrite P in *. destruct (match k with 0 => None | S p => nth_error l p end) as [q|] eqn:Q; [exact Y3|].
      unfold store in Y1. rewrite D in Y1. destruct (d_code d =? c); [|rewrite docs_set, Nat.eqb_refl in Y1; injection Y1 as <-; reflexivity].
      rewrite D in Y1. injection Y1 as <-. exact P.
    + exists x. rewrite store_other by exact V. auto.
Qed.

Lemma nodup_in_pair : forall (l : list (nat * nat)) u c c', NoDup (map fst l) -> In (u, c) l -> In (u, c') l -> c = c'.
Proof.
  induction l as [|[v x] l IH]; intros u c c' N I J; [destruct I|]. inversion N as [|? ? N1 N2]; subst.
  destruct I as [I|I], J as [J|J]; try congruence.
  - injection I as -> ->. exfalso. apply N1. apply (in_map fst) in J. exact J.
  - injection J as -> ->. exfalso. apply N1. apply (in_map fst) in I. exact I.
  - exact (IH u c c' N2 I J).
Qed.

Lemma nodup_app_inv : forall (a b : list nat), NoDup (a ++ b) -> NoDup a /\ NoDup b /\ forall x, In x a -> ~ In x b.
Proof.
  induction a as [|x a IH]; intros b N; [split; [constructor|]; split; [exact N|intros y []]|]. inversion N as [|? ? N1 N2]; subst.
  destruct (IH b N2) as (A & B & D). split; [constructor; [intros H; apply N1, in_or_app; left; exact H|exact A]|]. split; [exact B|].
  intros y [<-|H] J; [apply N1, in_or_app; right; exact J|exact (D y H J)].
Qed.

(** The part of [change_structure] before [update_child]. *)
Lemma splice_spec : forall nb st nb', restructures nb (Some st) nb' -> forall s, NoDup (map fst nb) -> knows s (Some nb) ->
  exists s1, change_structure s st =
    (let (o, s2) := update_child s1 (st_start st + match st_cells st with Some l => length l | None => 0 end) in (Done, o, s2)) /\
    knows s1 (Some nb') /\
    (st_start st + st_delete st = length nb -> chained s (map fst nb) -> chained s1 (map fst nb')) /\
    st_start st + match st_cells st with Some l => length l | None => 0 end + length nb = length nb' + (st_start st + st_delete st).
Proof.
  intros nb st nb' R s Nn K. inversion R as [|bef old aft new st' N F S1 S2 Cs Cl]; subst. destruct K as (K1 & K2 & K3).
  rewrite !map_app in Nn, N. destruct (nodup_app_inv _ _ Nn) as (Nb & Noa & Dboa). destruct (nodup_app_inv _ _ Noa) as (No & Na & Doa).
  destruct (nodup_app_inv _ _ N) as (_ & Nna & Dbna). destruct (nodup_app_inv _ _ Nna) as (Nw & _ & Dna).
  assert (Op : forall u, In u (map fst (bef ++ old ++ aft)) -> docs s u <> None).
  { intros u H. apply in_map_iff in H. destruct H as ([v c] & <- & H). destruct (K2 v c H) as (d & D & _). cbn. congruence. }
  (* the closed cells *)
  assert (A : exists s0, (match st_close st with
      | None => (Done, Done, s)
      | Some us => let (result, s) := close_cells s us Done in
                   let (o, s) := remove_cells s (st_start st) (st_start st + st_delete st) in (result, o, s)
      end) = (Done, Done, s0) /\ cells s0 = Some (map fst bef ++ map fst aft) /\
      forall v, docs s0 v = if existsb (Nat.eqb v) (map fst old) then None else docs s v).
  { destruct Cl as [(us & -> & Pu)|(-> & ->)].
    - destruct (close_cells_spec us s) as (s0 & E & C0 & D0).
      + apply (Permutation_NoDup (Permutation_sym Pu)). exact No.
      + intros u H. apply Op. rewrite !map_app, !in_app_iff. right. left. exact (Permutation_in _ Pu H).
      + rewrite E. unfold remove_cells. rewrite C0, K1, S1, S2, !map_app, !app_length, !map_length.
        replace (length bef + (length old + length aft) <? length bef + length old) with false by (symmetry; apply Nat.ltb_ge; lia).
        eexists. split; [reflexivity|]. cbn [cells docs]. split.
        * f_equal. rewrite firstn_app, map_length. replace (length bef - length bef) with 0 by lia. rewrite firstn_O, app_nil_r, firstn_all2 by (rewrite map_length; lia).
          f_equal. rewrite app_assoc, skipn_app, app_length, !map_length. replace (length bef + length old - (length bef + length old)) with 0 by lia.
          rewrite skipn_all2 by (rewrite app_length, !map_length; lia). reflexivity.
        * intros v. rewrite D0. replace (existsb (Nat.eqb v) us) with (existsb (Nat.eqb v) (map fst old)); [reflexivity|].
          destruct (existsb (Nat.eqb v) (map fst old)) eqn:E1, (existsb (Nat.eqb v) us) eqn:E2; try reflexivity; exfalso.
          -- apply existsb_eqb in E1. apply (Permutation_in _ (Permutation_sym Pu)), existsb_eqb in E1. congruence.
          -- apply existsb_eqb in E2. apply (Permutation_in _ Pu), existsb_eqb in E2. congruence.
    - exists s. split; [reflexivity|]. split; [rewrite K1; cbn; rewrite map_app; reflexivity|reflexivity]. }
  destruct A as (s0 & A & C0 & D0).
  assert (D0' : forall v, ~ In v (map fst old) -> docs s0 v = docs s v).
  { intros v H. rewrite D0. destruct (existsb (Nat.eqb v) (map fst old)) eqn:E; [apply existsb_eqb in E; contradiction|reflexivity]. }
  assert (None0 : forall v, ~ In v (map fst bef) -> ~ In v (map fst aft) -> docs s0 v = None).
  { intros v H1 H2. rewrite D0. destruct (existsb (Nat.eqb v) (map fst old)) eqn:E; [reflexivity|]. apply K3. rewrite !map_app, !in_app_iff.
    intros [X|[X|X]]; try contradiction. apply existsb_eqb in X. congruence. }
  (* the new cells *)
  assert (B : exists s1, (match st_cells st with
      | None => (Done, s0)
      | Some l => new_cells s0 l (match st_open st with Some d => d | None => [] end) (st_start st)
      end) = (Done, s1) /\ cells s1 = Some (map fst bef ++ map fst new ++ map fst aft) /\
      (forall v, ~ In v (map fst new) -> docs s1 v = docs s0 v) /\
      (forall k u c, nth_error new k = Some (u, c) ->
         exists x, docs s1 u = Some x /\ d_code x = c /\ d_parent x = NotebookProofs.before (map fst bef ++ map fst new) (length (map fst bef) + k))).
  { destruct Cs as [(-> & d & -> & Pd)|(-> & ->)].
    - destruct (new_cells_spec new s0 (map fst bef) (map fst aft) d) as (s1 & E & X); try assumption.
      + apply (Permutation_NoDup (Permutation_map fst (Permutation_sym Pd))). exact Nw.
      + intros x H. exact (Permutation_in _ (Permutation_sym Pd) H).
      + intros u H. assert (~ In u (map fst bef)) by (intros J; apply (Dbna u J), in_or_app; left; exact H).
        split; [|exact H0]. apply None0; [exact H0|]. exact (Dna u H).
      + intros u H. rewrite D0'; [apply Op; rewrite map_app; apply in_or_app; left; exact H|]. intros J. apply (Dboa u H), in_or_app. left. exact J.
      + exists s1. rewrite S1, map_length in *. split; [exact E|exact X].
    - exists s0. split; [reflexivity|]. split; [exact C0|]. split; [reflexivity|]. intros [|k] u c X; discriminate. }
  destruct B as (s1 & B & C1 & D1 & X1).
  exists s1. split; [|split; [|split]].
  - unfold change_structure. rewrite A. cbn iota. rewrite B. reflexivity.
  - split; [rewrite C1, !map_app; reflexivity|]. split.
    + intros u c H. apply in_app_or in H. destruct (existsb (Nat.eqb u) (map fst new)) eqn:E.
      * apply existsb_eqb in E. assert (Hn : In (u, c) new).
        { destruct H as [H|H]; [exfalso; apply (in_map fst) in H; apply (Dbna _ H), in_or_app; left; exact E|].
          apply in_app_or in H. destruct H as [H|H]; [exact H|]. exfalso. apply (in_map fst) in H. exact (Dna _ E H). }
        apply In_nth_error in Hn. destruct Hn as [k Hk]. destruct (X1 k u c Hk) as (x & Dx & Cx & _). eauto.
      * assert (Hn : ~ In u (map fst new)) by (intros Y; apply existsb_eqb in Y; congruence). rewrite D1 by exact Hn.
        assert (Ho : In (u, c) (bef ++ old ++ aft) /\ ~ In u (map fst old)).
        { destruct H as [H|H].
          - split; [apply in_or_app; left; exact H|]. intros Y. apply (in_map fst) in H. apply (Dboa _ H), in_or_app. left. exact Y.
          - apply in_app_or in H. destruct H as [H|H]; [exfalso; apply Hn; apply (in_map fst) in H; exact H|].
            split; [apply in_or_app; right; apply in_or_app; right; exact H|]. intros Y. apply (in_map fst) in H. exact (Doa _ Y H). }
        rewrite D0' by apply Ho. apply K2. apply Ho.
    + intros u H. rewrite !map_app, !in_app_iff in H. rewrite D1 by tauto. apply None0; tauto.
  - intros E Ch. rewrite !app_length in E. assert (aft = []) by (apply length_zero_iff_nil; lia). subst aft. cbn [map] in *. rewrite !app_nil_r in *.
    intros k u H. rewrite map_app in *. destruct (lt_dec k (length (map fst bef))) as [L|L].
    + rewrite nth_error_app1 in H by exact L. assert (Hb := nth_error_In _ _ H).
      assert (Ch' := Ch k u). rewrite nth_error_app1 in Ch' by exact L. destruct (Ch' H) as (d & D & P). exists d. rewrite D1, D0'.
      * split; [exact D|]. rewrite P. destruct k as [|k]; [reflexivity|]. rewrite !nth_error_app1 by lia. reflexivity.
      * intros Y. apply (Dboa u Hb). exact Y.
      * intros Y. apply (Dbna u Hb). exact Y.
    + rewrite nth_error_app2 in H by lia. rewrite nth_error_map in H. destruct (nth_error new (k - length (map fst bef))) as [[v c]|] eqn:Q; [|discriminate].
      cbn in H. injection H as <-. destruct (X1 _ _ _ Q) as (x & Dx & _ & Px). exists x. split; [exact Dx|]. rewrite Px. unfold NotebookProofs.before.
      replace (length (map fst bef) + (k - length (map fst bef))) with k by lia. reflexivity.
  - destruct Cs as [(-> & _)|(-> & ->)]; unfold code_cells; rewrite ?map_length, !app_length; cbn [length]; lia.
Qed.

Lemma update_child_spec : forall s nb k, knows s (Some nb) ->
  exists s', update_child s k = (Done, s') /\ knows s' (Some nb) /\ (length nb <= k -> s' = s).
Proof.
  intros s nb k (K1 & K2 & K3). unfold update_child. rewrite K1. rewrite nth_error_map. destruct (nth_error nb k) as [[u c]|] eqn:E; cbn [option_map fst].
  - assert (I := nth_error_In _ _ E). destruct (K2 u c I) as (d & D & Dc). rewrite D. unfold store_with_parent. rewrite D.
    exists (store s u (d_code d) (Some u)). split; [reflexivity|]. split.
    + split; [rewrite cells_store; exact K1|]. split.
      * intros v x H. destruct (Nat.eq_dec v u) as [->|V].
        -- destruct (store_self s u (d_code d) (Some u)) as (y & Y1 & Y2 & _). exists y. split; [exact Y1|].
           destruct (K2 u x H) as (d' & D' & Dc'). congruence.
        -- rewrite store_other by exact V. exact (K2 v x H).
      * intros v H. rewrite store_other; [apply K3; exact H|]. intros ->. apply H. apply (in_map fst) in I. exact I.
    + intros L. apply nth_error_None in L. congruence.
  - exists s. split; [reflexivity|]. split; [split; auto|reflexivity].
Qed.

(** One notification. *)
Lemma handle_spec : forall nb n nb' s, sends nb n nb' -> knows s nb -> match nb with Some l => NoDup (map fst l) | None => True end ->
  exists s', handle s n = (Done, s') /\ knows s' nb' /\ match nb' with Some l => NoDup (map fst l) | None => True end /\
    (at_the_end nb n -> match nb with Some l => chained s (map fst l) | None => True end ->
     match nb' with Some l => chained s' (map fst l) | None => True end).
Proof.
  intros nb n nb' s S K N. destruct S as [nb d Nn P|nb st nb1 texts nb2 R E|nb us P].
  - destruct K as [K1 K2]. cbn [handle]. unfold did_open.
    destruct (new_cells_spec nb (mk_state (Some []) (docs s)) [] [] d) as (s' & A & C & D & X).
    + reflexivity.
    + exact Nn.
    + apply (Permutation_NoDup (Permutation_map fst (Permutation_sym P))). exact Nn.
    + intros x H. exact (Permutation_in _ (Permutation_sym P) H).
    + intros u _. cbn [docs]. split; [apply K2|intros []].
    + intros u [].
    + cbn [length app] in *. exists s'. split; [exact A|]. split; [|split; [exact Nn|]].
      * split; [rewrite C, app_nil_r; reflexivity|]. split.
        -- intros u c H. apply In_nth_error in H. destruct H as [k H]. destruct (X k u c H) as (x & Dx & Cx & _). eauto.
        -- intros u H. rewrite D by exact H. apply K2.
      * intros _ _ k u H. rewrite nth_error_map in H. destruct (nth_error nb k) as [[v c]|] eqn:Q; [|discriminate]. cbn in H. injection H as <-.
        destruct (X k v c Q) as (x & Dx & _ & Px). exists x. split; [exact Dx|exact Px].
  - cbn [handle]. unfold did_change. destruct st as [st|].
    + destruct (splice_spec nb st nb1 R s N K) as (s1 & A & K1 & Ch & Len). rewrite A.
      destruct (update_child_spec s1 nb1 (st_start st + match st_cells st with Some l => length l | None => 0 end) K1) as (s2 & B & K2 & Same). rewrite B.
      destruct (edits_spec _ _ _ E s2 K2) as (s3 & C & K3 & Ch3). rewrite C. exists s3. split; [reflexivity|]. split; [exact K3|].
      assert (N1 : NoDup (map fst nb1)) by (inversion R; assumption). rewrite (edits_uris _ _ _ E). split; [exact N1|].
      intros AE Chn. cbn in AE. apply Ch3. rewrite Same by lia. apply Ch; assumption.
    + inversion R; subst. destruct (edits_spec _ _ _ E s K) as (s3 & C & K3 & Ch3). rewrite C. exists s3. split; [reflexivity|]. split; [exact K3|].
      rewrite (edits_uris _ _ _ E). split; [exact N|]. intros _ Chn. apply Ch3. exact Chn.
  - cbn [handle]. unfold did_close. destruct K as (K1 & K2 & K3). destruct (close_cells_spec us s) as (s' & E & C & D).
    + apply (Permutation_NoDup (Permutation_sym P)). exact N.
    + intros u H. apply (Permutation_in _ P) in H. apply in_map_iff in H. destruct H as ([v c] & <- & H). destruct (K2 v c H) as (d & Dd & _). cbn. congruence.
    + rewrite E. eexists. split; [reflexivity|]. split; [|split; [exact I|trivial]]. split; [reflexivity|]. intros u. cbn [docs]. rewrite D.
      destruct (existsb (Nat.eqb u) us) eqn:X; [reflexivity|]. apply K3. intros Y. apply (Permutation_in _ (Permutation_sym P)), existsb_eqb in Y. congruence.
Qed.
