(** Proofs for C65. *)
From Coq Require Import List NArith Bool Lia.
From Verif Require Import ScopeModel ScopeSpec.
Import ListNotations.
Open Scope N_scope.

(** ** Induction over items *)
Section Induction.
Variable P : item -> Prop.
Hypothesis HBind : forall n, P (Bind n).
Hypothesis HUse : forall u n, P (Use u n).
Hypothesis HWalrus : forall n, P (Walrus n).
Hypothesis HGlobal : forall n, P (Global n).
Hypothesis HNonlocal : forall n, P (Nonlocal n).
Hypothesis HLoop : forall l, Forall P l -> P (Loop l).
Hypothesis HCases : forall l, Forall P l -> P (Cases l).
Hypothesis HDead : forall l, Forall P l -> P (Dead l).
Hypothesis HFunction : forall s l, Forall P l -> P (Function s l).
Hypothesis HLambda : forall s l, Forall P l -> P (Lambda s l).
Hypothesis HComprehension : forall s first l, Forall P l -> P (Comprehension s first l).
Hypothesis HGenerator : forall s first l, Forall P l -> P (Generator s first l).
Hypothesis HClass : forall s first l, Forall P l -> P (Class s first l).

Fixpoint item_induction (i : item) : P i :=
  let all := fix all (l : list item) : Forall P l :=
    match l with [] => Forall_nil P | i :: l => Forall_cons i (item_induction i) (all l) end in
  match i with
  | Bind n => HBind n
  | Use u n => HUse u n
  | Walrus n => HWalrus n
  | Global n => HGlobal n
  | Nonlocal n => HNonlocal n
  | Loop l => HLoop l (all l)
  | Cases l => HCases l (all l)
  | Dead l => HDead l (all l)
  | Function s l => HFunction s l (all l)
  | Lambda s l => HLambda s l (all l)
  | Comprehension s first l => HComprehension s first l (all l)
  | Generator s first l => HGenerator s first l (all l)
  | Class s first l => HClass s first l (all l)
  end.
End Induction.

(** ** Sets *)
Definition same {A} (l m : list A) : Prop := forall x, In x l <-> In x m.

Lemma same_refl : forall A (l : list A), same l l. Proof. intros A l x. tauto. Qed.
Lemma same_trans : forall A (l m r : list A), same l m -> same m r -> same l r.
Proof. intros A l m r H1 H2 x. rewrite (H1 x). apply H2. Qed.
Lemma same_sym : forall A (l m : list A), same l m -> same m l. Proof. intros A l m H x. symmetry. apply H. Qed.
Lemma same_app : forall A (l l' m m' : list A), same l l' -> same m m' -> same (l ++ m) (l' ++ m').
Proof. intros A l l' m m' H1 H2 x. rewrite !in_app_iff, (H1 x), (H2 x). tauto. Qed.

Ltac sets := let x := fresh "x" in intros x; repeat (rewrite in_app_iff || rewrite map_app || rewrite concat_app || rewrite flat_map_app);
  cbn [In map concat flat_map app fst snd]; repeat rewrite in_app_iff; cbn [In]; tauto.

Lemma mem_in : forall n l, mem n l = true <-> In n l.
Proof.
  intros n l. unfold mem. rewrite existsb_exists. split.
  - intros (x & Hx & He). apply N.eqb_eq in He. congruence.
  - intros H. exists n. split; [exact H|apply N.eqb_refl].
Qed.
Lemma mem_out : forall n l, mem n l = false <-> ~ In n l.
Proof. intros n l. rewrite <- mem_in. destruct (mem n l); split; congruence. Qed.

(** ** Symbol tables *)
Lemma lookup_app : forall t n o m, lookup_symbol (t ++ [(m, o)]) n = match lookup_symbol t n with Some r => Some r | None => if n =? m then Some o else None end.
Proof.
  induction t as [|[x y] t IH]; intros n o m; [cbn; destruct (n =? m); reflexivity|]. cbn [app lookup_symbol].
  destruct (n =? x); [reflexivity|]. apply IH.
Qed.

(** ** What a scope knows about uses *)
Definition up (c : list scope) (x : N * N) : N * option N := (fst x, resolve_outer c (snd x)).
Definition here (c : list scope) (x : N * N) : N * option N := (fst x, resolve c (snd x)).
Definition pend (c : list scope) (x : N * N * bool) : N * option N := here c (fst x).
Definition says (c : list scope) (o : output) : list (N * option N) := found o ++ map (up c) (to_parent o).

Definition total (f : scope) (c : list scope) (b : binder) : list (N * option N) :=
  says c (out b) ++ map (pend (f :: c)) (unordered b).

Definition frames_ok (fs : frames) (c : list scope) : Prop :=
  forall n, nonlocal_allowed c n -> lookup_nonlocal_in_parents fs n = Some (resolve_outer c n).

Definition node_says (c : list scope) (x : node) (w : list (N * option N)) : Prop :=
  match x with
  | UName u n => same w [(u, resolve_outer c n)]
  | UFunction run => forall fs, frames_ok fs c -> same (says c (run fs)) w /\ hoisted (run fs) = []
  | UGenerator first o => same (map (up c) first ++ says c o) w /\ hoisted o = []
  end.

Lemma resolve_skips_class : forall f c n, is_class (scope_kind f) = true -> resolve_outer (f :: c) n = resolve_outer c n.
Proof. intros f c n H. cbn [resolve_outer]. rewrite H. reflexivity. Qed.

Lemma resolve_is_outer : forall f c n, is_class (scope_kind f) = false -> resolve (f :: c) n = resolve_outer (f :: c) n.
Proof. intros f c n H. cbn [resolve_outer resolve]. rewrite H. reflexivity. Qed.

Lemma resolve_other : forall f c n, ~ In n (names f) -> resolve (f :: c) n = resolve_outer c n.
Proof.
  intros f c n H. unfold names in H. rewrite !in_app_iff in H. cbn [resolve].
  rewrite (proj2 (mem_out n (globals f))), (proj2 (mem_out n (nonlocals f))), (proj2 (mem_out n (bound f))) by tauto. reflexivity.
Qed.

Lemma allowed_skips_class : forall f c n, is_class (scope_kind f) = true -> nonlocal_allowed (f :: c) n = nonlocal_allowed c n.
Proof. intros f c n H. cbn [nonlocal_allowed]. destruct (scope_kind f); try discriminate. reflexivity. Qed.

Lemma says_skips_class : forall f c o, is_class (scope_kind f) = true -> says (f :: c) o = says c o.
Proof.
  intros f c o H. unfold says. f_equal. apply map_ext. intros x. unfold up. rewrite resolve_skips_class by exact H. reflexivity.
Qed.

Lemma node_skips_class : forall f c x w, is_class (scope_kind f) = true -> node_says (f :: c) x w -> node_says c x w.
Proof.
  intros f c x w H Hn. destruct x as [u n|run|first o]; cbn [node_says] in *.
  - rewrite resolve_skips_class in Hn by exact H. exact Hn.
  - intros fs Hfs. assert (Hfs' : frames_ok fs (f :: c)).
    { intros n Ha. rewrite allowed_skips_class in Ha by exact H. rewrite resolve_skips_class by exact H. exact (Hfs n Ha). }
    destruct (Hn fs Hfs') as [H1 H2]. rewrite says_skips_class in H1 by exact H. split; assumption.
  - destruct Hn as [H1 H2]. rewrite says_skips_class in H1 by exact H. split; [|exact H2].
    rewrite (map_ext (up c) (up (f :: c))); [exact H1|]. intros x. unfold up. rewrite resolve_skips_class by exact H. reflexivity.
Qed.

Ltac bcbn := cbn [table unordered unresolved out found to_parent hoisted reported add_found add_to_parent add_hoisted add_reported add_unordered add_node
  add_nodes with_table In map fst snd app concat].

(** ** The invariant *)
Record inv (f : scope) (c : list scope) (b : binder) (seen used : list N) (w : list (N * option N)) (hs : list N) : Prop := mk_inv {
  i_table : forall n o, lookup_symbol (table b) n = Some o -> resolve (f :: c) n = o;
  i_dom : forall n, lookup_symbol (table b) n <> None <-> In n seen;
  i_uses : exists ws, Forall2 (node_says (f :: c)) (unresolved b) ws /\ same w (total f c b ++ concat ws);
  i_pending : forall x, In x (unordered b) -> In (snd (fst x)) used;
  i_hoisted : forall n, In n (hoisted (out b)) <-> is_comprehension (scope_kind f) = true /\ In n hs
}.

Lemma inv_new : forall f c, inv f c new_binder [] [] [] [].
Proof.
  intros f c. constructor; cbn.
  - discriminate.
  - intros n. split; [intros H; destruct (H eq_refl)|tauto].
  - exists []. split; [constructor|]. apply same_refl.
  - tauto.
  - tauto.
Qed.

Lemma inv_same : forall f c b seen seen' used used' w w' hs hs',
  inv f c b seen used w hs -> same seen seen' -> (forall n, In n used -> In n used') -> same w w' -> same hs hs' -> inv f c b seen' used' w' hs'.
Proof.
  intros f c b seen seen' used used' w w' hs hs' [H1 H2 (ws & H3 & H4) H5 H6] Hs Hu Hw Hh. constructor.
  - exact H1.
  - intros n. rewrite H2. apply Hs.
  - exists ws. split; [exact H3|]. exact (same_trans _ _ _ _ (same_sym _ _ _ Hw) H4).
  - intros x Hx. apply Hu. exact (H5 x Hx).
  - intros n. rewrite H6. rewrite (Hh n). tauto.
Qed.

(** A name that is bound or declared *)
Lemma inv_define : forall f c b seen used w hs n o, inv f c b seen used w hs -> (~ In n seen -> resolve (f :: c) n = o) ->
  inv f c (add_new_definition b n o) (seen ++ [n]) used w hs.
Proof.
  intros f c b seen used w hs n o [H1 H2 H3 H5 H6] Ho. unfold add_new_definition.
  destruct (lookup_symbol (table b) n) as [r|] eqn:E.
  - constructor; try assumption. intros m. rewrite H2, in_app_iff. bcbn. split; [tauto|]. intros [H|[<-|[]]]; [exact H|]. apply H2. congruence.
  - assert (Hn : ~ In n seen) by (intros Hn; apply H2 in Hn; congruence). constructor; bcbn; try assumption.
    + intros m r. rewrite lookup_app. destruct (lookup_symbol (table b) m) as [r'|] eqn:Em; [intros [= <-]; exact (H1 m r' Em)|].
      destruct (m =? n) eqn:Emn; [|discriminate]. apply N.eqb_eq in Emn. subst m. intros [= <-]. exact (Ho Hn).
    + intros m. rewrite lookup_app, in_app_iff. bcbn. destruct (lookup_symbol (table b) m) as [r'|] eqn:Em.
      * split; [|discriminate]. intros _. left. apply H2. congruence.
      * destruct (m =? n) eqn:Emn.
        -- apply N.eqb_eq in Emn. subst m. split; [tauto|discriminate].
        -- split; [intros H; destruct (H eq_refl)|]. intros [H|[H|[]]]; [apply H2 in H; congruence|]. subst. rewrite N.eqb_refl in Emn. discriminate.
Qed.

Lemma resolve_bound : forall f c n, In n (bound f) -> ~ declared f n -> resolve (f :: c) n = Some (scope_id f).
Proof.
  intros f c n Hb Hd. unfold declared in Hd. cbn [resolve].
  rewrite (proj2 (mem_out n (globals f))), (proj2 (mem_out n (nonlocals f))) by tauto. rewrite (proj2 (mem_in n (bound f)) Hb). reflexivity.
Qed.

Lemma inv_bind : forall f c b seen used w hs n, inv f c b seen used w hs -> In n (bound f) -> bind_allowed f seen n ->
  inv f c (add_new_definition b n (Some (scope_id f))) (seen ++ [n]) used w hs.
Proof.
  intros f c b seen used w hs n Hi Hb Ha. apply inv_define; [exact Hi|]. intros Hn. apply resolve_bound; [exact Hb|]. intros Hd. exact (Hn (Ha Hd)).
Qed.

(** A use *)
Lemma inv_use : forall k f c b seen used w hs ordered x, scope_kind f = k -> inv f c b seen used w hs -> use_allowed k f seen (snd x) ->
  inv f c (maybe_add_reference k ordered b x) seen (used ++ [snd x]) (w ++ [here (f :: c) x]) hs.
Proof.
  intros k f c b seen used w hs ordered [u n] Hk [H1 H2 (ws & H3 & H4) H5 H6] Ha. cbn [snd] in Ha. unfold maybe_add_reference.
  destruct (lookup_symbol (table b) n) as [o|] eqn:E.
  - constructor; bcbn; try assumption.
    + exists ws. split; [exact H3|]. intros x. rewrite in_app_iff, (H4 x). unfold total, says, here. bcbn. rewrite (H1 n o E).
      repeat rewrite in_app_iff. bcbn. tauto.
    + intros x Hx. apply in_or_app. left. exact (H5 x Hx).
  - destruct (negb ordered || negb (is_class k)) eqn:Eo.
    + constructor; bcbn; try assumption.
      * exists ws. split; [exact H3|]. intros x. rewrite in_app_iff, (H4 x). unfold total, says, pend. bcbn. rewrite map_app. repeat rewrite in_app_iff. bcbn. tauto.
      * intros x Hx. apply in_app_or in Hx as [Hx|[<-|[]]]; apply in_or_app; [left; exact (H5 x Hx)|right; left; reflexivity].
    + apply orb_false_elim in Eo as [_ Eo]. apply negb_false_iff in Eo. destruct k; try discriminate.
      assert (Hno : ~ In n (names f)). { intros Hn. apply (proj2 (H2 n) (Ha eq_refl Hn)). exact E. }
      constructor; bcbn; try assumption.
      * exists ws. split; [exact H3|]. intros x. rewrite in_app_iff, (H4 x). unfold total, says, here, up. bcbn. rewrite map_app.
        rewrite (resolve_other f c n Hno). repeat rewrite in_app_iff. bcbn. tauto.
      * intros x Hx. apply in_or_app. left. exact (H5 x Hx).
Qed.

Lemma inv_uses : forall k f c seen hs ordered first b used w, scope_kind f = k -> inv f c b seen used w hs -> Forall (use_allowed k f seen) (map snd first) ->
  inv f c (fold_left (maybe_add_reference k ordered) first b) seen (used ++ map snd first) (w ++ map (here (f :: c)) first) hs.
Proof.
  intros k f c seen hs ordered first. induction first as [|x first IH]; intros b used w Hk Hi Ha.
  - bcbn. rewrite !app_nil_r. exact Hi.
  - cbn [fold_left map]. inversion Ha as [|? ? Hx Hxs]; subst. pose proof (inv_use (scope_kind f) f c b seen used w hs ordered x eq_refl Hi Hx) as Hi'.
    pose proof (IH _ _ _ eq_refl Hi' Hxs) as H. rewrite <- !app_assoc in H. exact H.
Qed.

(** References that wait for a definition *)
Lemma flush_step : forall f c b x seen w ws,
  (forall n o, lookup_symbol (table b) n = Some o -> resolve (f :: c) n = o) ->
  (forall n, lookup_symbol (table b) n <> None <-> In n seen) -> (In (snd (fst x)) (names f) -> In (snd (fst x)) seen) ->
  same w (says c (out b) ++ ws) ->
  same (w ++ [pend (f :: c) x]) (says c (out (index_unordered_reference b x)) ++ ws) /\
  table (index_unordered_reference b x) = table b /\ unresolved (index_unordered_reference b x) = unresolved b /\
  hoisted (out (index_unordered_reference b x)) = hoisted (out b).
Proof.
  intros f c b [[u n] ordered] seen w ws Ht Hd Hn Hw. cbn [fst snd] in Hn. unfold index_unordered_reference.
  destruct (lookup_symbol (table b) n) as [o|] eqn:E.
  - assert (Hs : same (w ++ [pend (f :: c) (u, n, ordered)]) (says c (out (add_found b u o)) ++ ws)).
    { intros y. rewrite in_app_iff, (Hw y). unfold says, pend, here. bcbn. rewrite (Ht n o E). repeat rewrite in_app_iff. bcbn. tauto. }
    destruct ordered; cbn [out add_reported add_found]; (split; [exact Hs|split; [reflexivity|split; reflexivity]]).
  - split; [|split; [reflexivity|split; reflexivity]]. intros y. rewrite in_app_iff, (Hw y). unfold says, pend, here, up. bcbn. rewrite map_app.
    rewrite (resolve_other f c n); [repeat rewrite in_app_iff; cbn; tauto|]. intros Hin. apply (proj2 (Hd n) (Hn Hin)). exact E.
Qed.

Lemma flush_all : forall f c seen l b w ws,
  (forall n o, lookup_symbol (table b) n = Some o -> resolve (f :: c) n = o) ->
  (forall n, lookup_symbol (table b) n <> None <-> In n seen) -> (forall x, In x l -> In (snd (fst x)) (names f) -> In (snd (fst x)) seen) ->
  same w (says c (out b) ++ ws) ->
  same (w ++ map (pend (f :: c)) l) (says c (out (fold_left index_unordered_reference l b)) ++ ws) /\
  table (fold_left index_unordered_reference l b) = table b /\ unresolved (fold_left index_unordered_reference l b) = unresolved b /\
  hoisted (out (fold_left index_unordered_reference l b)) = hoisted (out b).
Proof.
  intros f c seen l. induction l as [|x l IH]; intros b w ws Ht Hd Hn Hw; cbn [fold_left map].
  - rewrite app_nil_r. split; [exact Hw|]. split; [reflexivity|split; reflexivity].
  - destruct (flush_step f c b x seen w ws Ht Hd (Hn x (or_introl eq_refl)) Hw) as (H1 & H2 & H3 & H4).
    destruct (IH (index_unordered_reference b x) (w ++ [pend (f :: c) x]) ws) as (G1 & G2 & G3 & G4).
    + rewrite H2. exact Ht.
    + rewrite H2. exact Hd.
    + intros y Hy. apply Hn. right. exact Hy.
    + exact H1.
    + rewrite <- app_assoc in G1. rewrite G2, G3, G4, H2, H3, H4. split; [exact G1|]. split; [reflexivity|split; reflexivity].
Qed.

Lemma inv_flush : forall f c b seen used w hs, inv f c b seen used w hs ->
  (forall n, In n used -> In n (names f) -> In n seen) -> inv f c (index_unordered_references b) seen used w hs.
Proof.
  intros f c b seen used w hs [H1 H2 (ws & H3 & H4) H5 H6] Hn. unfold index_unordered_references.
  destruct (flush_all f c seen (unordered b) b (says c (out b) ++ concat ws) (concat ws) H1 H2) as (G1 & G2 & G3 & G4).
  - intros x Hx. apply Hn. exact (H5 x Hx).
  - apply same_refl.
  - constructor; bcbn; rewrite ?G2, ?G3, ?G4; try assumption; [|tauto].
    exists ws. split; [exact H3|]. intros x. rewrite (H4 x). unfold total. bcbn. rewrite app_nil_r. rewrite <- (G1 x).
    repeat rewrite in_app_iff. tauto.
Qed.

(** ** Closing a scope *)
(** The symbol table has all names of the scope *)
Definition complete (f : scope) (c : list scope) (b : binder) : Prop :=
  forall n, resolve (f :: c) n = match lookup_symbol (table b) n with Some o => o | None => resolve_outer c n end /\
    (In n (names f) -> lookup_symbol (table b) n <> None).

Lemma inv_complete : forall f c b seen used w hs, inv f c b seen used w hs -> (forall n, In n (names f) -> In n seen) -> complete f c b.
Proof.
  intros f c b seen used w hs [H1 H2 _ _ _] Hn n. destruct (lookup_symbol (table b) n) as [o|] eqn:E; [split; [exact (H1 n o E)|discriminate]|].
  assert (Hno : ~ In n (names f)); [|split; [apply resolve_other; exact Hno|tauto]]. intros Hin. apply (proj2 (H2 n) (Hn n Hin)). exact E.
Qed.

(** What stays while nodes are processed *)
Record closing (f : scope) (c : list scope) (b0 b : binder) (w : list (N * option N)) : Prop := mk_closing {
  k_table : table b = table b0;
  k_hoisted : hoisted (out b) = hoisted (out b0);
  k_uses : same w (total f c b)
}.

Lemma closing_name : forall f c b0 b w x, complete f c b0 -> is_class (scope_kind f) = false -> closing f c b0 b w ->
  closing f c b0 (process_name b x) (w ++ [up (f :: c) x]).
Proof.
  intros f c b0 b w [u n] Hc Hk [H1 H2 H3]. unfold process_name, up. cbn [fst snd]. rewrite <- resolve_is_outer by exact Hk. rewrite (proj1 (Hc n)), <- H1.
  destruct (lookup_symbol (table b) n) as [o|] eqn:E; constructor; bcbn; try assumption.
  - intros y. rewrite in_app_iff, (H3 y). unfold total, says. bcbn. repeat rewrite in_app_iff. bcbn. tauto.
  - intros y. rewrite in_app_iff, (H3 y). unfold total, says. bcbn. rewrite map_app. repeat rewrite in_app_iff. bcbn. tauto.
Qed.

Lemma closing_names : forall f c b0 l b w, complete f c b0 -> is_class (scope_kind f) = false -> closing f c b0 b w ->
  closing f c b0 (fold_left process_name l b) (w ++ map (up (f :: c)) l).
Proof.
  intros f c b0 l. induction l as [|x l IH]; intros b w Hc Hk H; cbn [fold_left map]; [rewrite app_nil_r; exact H|].
  pose proof (IH _ _ Hc Hk (closing_name f c b0 b w x Hc Hk H)) as G. rewrite <- app_assoc in G. exact G.
Qed.

Lemma closing_same : forall f c b0 b w w', closing f c b0 b w -> same w w' -> closing f c b0 b w'.
Proof. intros f c b0 b w w' [H1 H2 H3] H. constructor; try assumption. exact (same_trans _ _ _ _ (same_sym _ _ _ H) H3). Qed.

Lemma closing_output : forall k f c b0 s b w o, complete f c b0 -> is_class (scope_kind f) = false -> closing f c b0 b w -> hoisted o = [] ->
  closing f c b0 (fold_left process_name (rev (to_parent o)) (add_output k s b o)) (w ++ says (f :: c) o).
Proof.
  intros k f c b0 s b w o Hc Hk [H1 H2 H3] Ho. unfold add_output. rewrite Ho. cbn [fold_left].
  eapply closing_same.
  - apply closing_names; [exact Hc|exact Hk|]. instantiate (1 := w ++ found o). constructor; bcbn; try assumption.
    intros y. rewrite in_app_iff, (H3 y). unfold total, says. bcbn. repeat rewrite in_app_iff. tauto.
  - intros y. unfold says. repeat rewrite in_app_iff. rewrite !in_map_iff. split.
    + intros [H|(x & Hx & Hin)]; [tauto|]. right. right. exists x. split; [exact Hx|]. apply in_rev. exact Hin.
    + intros [H|[H|(x & Hx & Hin)]]; [tauto|tauto|]. right. exists x. split; [exact Hx|]. apply -> in_rev. exact Hin.
Qed.

Lemma closing_first : forall k f c b0 first b w, scope_kind f = k -> is_class k = false -> complete f c b0 -> closing f c b0 b w ->
  closing f c b0 (fold_left (maybe_add_reference k true) first b) (w ++ map (up (f :: c)) first).
Proof.
  intros k f c b0 first. induction first as [|[u n] first IH]; intros b w Hk Hnc Hc H; cbn [fold_left map]; [rewrite app_nil_r; exact H|].
  assert (G : closing f c b0 (maybe_add_reference k true b (u, n)) (w ++ [up (f :: c) (u, n)])).
  { destruct H as [H1 H2 H3]. unfold maybe_add_reference, up. cbn [fst snd]. rewrite <- resolve_is_outer by (rewrite Hk; exact Hnc).
    rewrite Hnc. cbn [negb orb]. destruct (lookup_symbol (table b) n) as [o|] eqn:E; constructor; bcbn; try assumption.
    - rewrite (proj1 (Hc n)), <- H1, E. intros y. rewrite in_app_iff, (H3 y). unfold total, says. bcbn. repeat rewrite in_app_iff. bcbn. tauto.
    - intros y. rewrite in_app_iff, (H3 y). unfold total, says, pend, here. bcbn. rewrite map_app. repeat rewrite in_app_iff. bcbn. tauto. }
  pose proof (IH _ _ Hk Hnc Hc G) as R. rewrite <- app_assoc in R. exact R.
Qed.

(** The scope as the parent of a nested function *)
Lemma frames_extend : forall f c b fs, complete f c b -> (scope_kind f = KFunction -> frames_ok fs c) -> is_class (scope_kind f) = false ->
  frames_ok ((scope_kind f, table b) :: fs) (f :: c).
Proof.
  intros f c b fs Hc Hfs Hk n Ha. cbn [nonlocal_allowed] in Ha. destruct (scope_kind f) eqn:Ek; try contradiction; [|discriminate].
  cbn [lookup_nonlocal_in_parents]. rewrite <- resolve_is_outer by (rewrite Ek; reflexivity). destruct Ha as [Hg Ha].
  destruct (Hc n) as [Hc1 Hc2]. rewrite Hc1. destruct (lookup_symbol (table b) n) as [o|] eqn:E; [reflexivity|].
  apply (Hfs eq_refl n). unfold names in Hc2. rewrite !in_app_iff in Hc2. tauto.
Qed.

Lemma closing_node : forall k f c b0 s fs b w x wx, scope_kind f = k -> is_class k = false -> complete f c b0 -> (k = KFunction -> frames_ok fs c) ->
  closing f c b0 b w -> node_says (f :: c) x wx -> closing f c b0 (process_node k s fs b x) (w ++ wx).
Proof.
  intros k f c b0 s fs b w x wx Hk Hnc Hc Hfs Hcl Hx. subst k. destruct x as [u n|run|first o]; cbn [process_node node_says] in *.
  - eapply closing_same; [exact (closing_name f c b0 b w (u, n) Hc Hnc Hcl)|]. apply same_app; [apply same_refl|]. apply same_sym. exact Hx.
  - assert (Hf : frames_ok ((scope_kind f, table b) :: fs) (f :: c)). { rewrite (k_table _ _ _ _ _ Hcl). apply frames_extend; assumption. }
    destruct (Hx _ Hf) as [H1 H2]. eapply closing_same; [apply closing_output; eassumption|]. apply same_app; [apply same_refl|exact H1].
  - destruct Hx as [H1 H2]. eapply closing_same; [apply closing_output; [exact Hc|exact Hnc| |exact H2]|].
    + apply closing_first; [reflexivity|exact Hnc|exact Hc|exact Hcl].
    + rewrite <- app_assoc. apply same_app; [apply same_refl|exact H1].
Qed.

Lemma closing_nodes : forall k f c b0 s fs l ws b w, scope_kind f = k -> is_class k = false -> complete f c b0 -> (k = KFunction -> frames_ok fs c) ->
  closing f c b0 b w -> Forall2 (node_says (f :: c)) l ws -> closing f c b0 (fold_left (process_node k s fs) l b) (w ++ concat ws).
Proof.
  intros k f c b0 s fs l ws b w Hk Hnc Hc Hfs Hcl Hl. revert b w Hcl. induction Hl as [|x wx l ws Hx Hl IH]; intros b w Hcl; cbn [fold_left concat].
  - rewrite app_nil_r. exact Hcl.
  - rewrite app_assoc. apply IH. apply closing_node; assumption.
Qed.

(** The output of a scope that is not a class *)
Lemma close_says : forall k f c s fs b seen used w hs, scope_kind f = k -> is_class k = false -> (k = KFunction -> frames_ok fs c) ->
  inv f c b seen used w hs -> (forall n, In n (names f) -> In n seen) ->
  same (says c (out (close k s fs b))) w /\ (forall n, In n (hoisted (out (close k s fs b))) <-> is_comprehension k = true /\ In n hs).
Proof.
  intros k f c s fs b seen used w hs Hk Hnc Hfs Hi Hn. pose proof (inv_complete _ _ _ _ _ _ _ Hi Hn) as Hc.
  destruct Hi as [H1 H2 (ws & H3 & H4) H5 H6]. unfold close. rewrite Hnc.
  set (b1 := mk_binder (table b) (unordered b) [] (out b)).
  assert (Hb1 : closing f c b b1 (total f c b)). { constructor; [reflexivity|reflexivity|apply same_refl]. }
  pose proof (closing_nodes k f c b s fs (unresolved b) ws b1 (total f c b) Hk Hnc Hc Hfs Hb1 H3) as [K1 K2 K3].
  set (b2 := fold_left (process_node k s fs) (unresolved b) b1) in *. unfold index_unordered_references.
  destruct (flush_all f c seen (unordered b2) b2 (says c (out b2)) []) as (G1 & _ & _ & G4).
  - rewrite K1. exact H1.
  - rewrite K1. exact H2.
  - intros x _. apply Hn.
  - rewrite app_nil_r. apply same_refl.
  - bcbn. split.
    + rewrite app_nil_r in G1. intros x. rewrite <- (G1 x), (H4 x). change (says c (out b2) ++ map (pend (f :: c)) (unordered b2)) with (total f c b2).
      symmetry. apply K3.
    + intros n. rewrite G4, K2, H6, Hk. tauto.
Qed.

(** What is left of a class *)
Lemma close_class : forall f c s fs b seen used w hs, scope_kind f = KClass -> inv f c b seen used w hs -> (forall n, In n (names f) -> In n seen) ->
  exists ws, Forall2 (node_says (f :: c)) (unresolved (close KClass s fs b)) ws /\ same w (says c (out (close KClass s fs b)) ++ concat ws) /\
    hoisted (out (close KClass s fs b)) = [].
Proof.
  intros f c s fs b seen used w hs Hk Hi Hn. pose proof (inv_flush f c b seen used w hs Hi (fun n _ => Hn n)) as [_ _ (ws & H3 & H4) _ H6].
  unfold close. cbn [is_class]. exists ws. split; [exact H3|]. split.
  - intros x. rewrite (H4 x). unfold total. unfold index_unordered_references. bcbn. rewrite app_nil_r. tauto.
  - destruct (hoisted (out (index_unordered_references b))) as [|n l]; [reflexivity|]. exfalso. destruct (proj1 (H6 n) (or_introl eq_refl)) as [E _].
    rewrite Hk in E. discriminate.
Qed.

(** ** The names of a scope are known at its end *)
Definition fits (f : scope) (i : item) : Prop :=
  (forall n, In n (assigned i) -> In n (bound f)) /\
  (is_comprehension (scope_kind f) = false -> forall n, In n (walruses i) -> In n (bound f)) /\
  (forall n, In n (declared_global i) -> In n (globals f)) /\ (forall n, In n (declared_nonlocal i) -> In n (nonlocals f)).

Definition own (k : kind) (i : item) (n : N) : Prop :=
  In n (assigned i) \/ (is_comprehension k = false /\ In n (walruses i)) \/ In n (declared_global i) \/ In n (declared_nonlocal i).

Lemma in_scope_of : forall k s l n, In n (names (scope_of k s l)) <-> exists i, In i l /\ own k i n.
Proof.
  intros k s l n. unfold names, scope_of, own. cbn [bound globals nonlocals]. rewrite !in_app_iff, !in_flat_map.
  assert (Hw : In n (if is_comprehension k then [] else flat_map walruses l) <-> is_comprehension k = false /\ exists i, In i l /\ In n (walruses i)).
  { destruct (is_comprehension k); [cbn; split; [tauto|intros [? _]; discriminate]|]. rewrite in_flat_map. split; [tauto|intros [_ H]; exact H]. }
  rewrite Hw. split.
  - intros [[(i & Hi & H)|(Hk & i & Hi & H)]|[(i & Hi & H)|(i & Hi & H)]]; exists i; (split; [exact Hi|]); tauto.
  - intros (i & Hi & [H|[[Hk H]|[H|H]]]).
    + left. left. exists i. split; assumption.
    + left. right. split; [exact Hk|]. exists i. split; assumption.
    + right. left. exists i. split; assumption.
    + right. right. exists i. split; assumption.
Qed.

Lemma fits_scope_of : forall k s l, Forall (fits (scope_of k s l)) l.
Proof.
  intros k s l. apply Forall_forall. intros i Hi. unfold fits, scope_of. cbn [bound globals nonlocals scope_kind]. split; [|split; [|split]].
  - intros n H. apply in_or_app. left. apply in_flat_map. exists i. split; assumption.
  - intros Hk n H. rewrite Hk. apply in_or_app. right. apply in_flat_map. exists i. split; assumption.
  - intros n H. apply in_flat_map. exists i. split; assumption.
  - intros n H. apply in_flat_map. exists i. split; assumption.
Qed.

Lemma own_block : forall k l n, (own k (Loop l) n <-> exists i, In i l /\ own k i n) /\ (own k (Cases l) n <-> exists i, In i l /\ own k i n).
Proof.
  intros k l n. assert (H : own k (Loop l) n <-> exists i, In i l /\ own k i n); [|split; exact H].
  unfold own. cbn [assigned walruses declared_global declared_nonlocal]. rewrite !in_flat_map. split.
  - intros [(i & Hi & H)|[(Hk & i & Hi & H)|[(i & Hi & H)|(i & Hi & H)]]]; exists i; (split; [exact Hi|]); tauto.
  - intros (i & Hi & [H|[[Hk H]|[H|H]]]).
    + left. exists i. split; assumption.
    + right. left. split; [exact Hk|]. exists i. split; assumption.
    + right. right. left. exists i. split; assumption.
    + right. right. right. exists i. split; assumption.
Qed.

Lemma all_adds : forall k f c ordered l seen used,
  Forall (fun i => forall ordered seen used, allowed k f c ordered seen used i -> forall n, own k i n -> In n (adds k i)) l ->
  all_allowed k f c ordered seen used l -> forall n, (exists i, In i l /\ own k i n) -> In n (flat_map (adds k) l).
Proof.
  intros k f c ordered l. induction l as [|i l IH]; intros seen used Hl Ha n (j & Hj & Hn); [destruct Hj|]. inversion Hl as [|? ? Hi Hl']; subst.
  cbn [all_allowed] in Ha. destruct Ha as [Ha1 Ha2]. cbn [flat_map]. apply in_or_app. destruct Hj as [<-|Hj].
  - left. exact (Hi _ _ _ Ha1 n Hn).
  - right. apply (IH _ _ Hl' Ha2). exists j. split; assumption.
Qed.

Lemma allowed_adds : forall k f c i ordered seen used, allowed k f c ordered seen used i -> forall n, own k i n -> In n (adds k i).
Proof.
  intros k f c i.
  induction i as [m|u m|m|m|m|l IH|l IH|l IH|s l IH|s l IH|s first l IH|s first l IH|s first l IH] using item_induction; intros ordered seen used Ha n Hn.
  all: try solve [unfold own in Hn; cbn [assigned walruses declared_global declared_nonlocal In] in Hn; cbn [adds In]; tauto].
  - unfold own in Hn. cbn [assigned walruses declared_global declared_nonlocal In] in Hn. cbn [adds]. destruct Hn as [[]|[[E H]|[[]|[]]]]. rewrite E. exact H.
  - change (all_allowed k f c false seen used l /\
      (ordered = true -> forall n, In n (used ++ flat_map own_uses l) -> In n (names f) -> In n (seen ++ flat_map (adds k) l))) in Ha.
    cbn [adds]. apply (all_adds k f c false l seen used); [exact IH|exact (proj1 Ha)|]. apply own_block. exact Hn.
  - change (all_allowed k f c false seen used l) in Ha.
    cbn [adds]. apply (all_adds k f c false l seen used); [exact IH|exact Ha|]. apply own_block. exact Hn.
  - destruct Ha.
  - unfold own in Hn. cbn [assigned walruses declared_global declared_nonlocal In] in Hn. cbn [adds].
    destruct Hn as [[]|[[Hk Hn]|[[]|[]]]]. rewrite Hk. exact Hn.
  - destruct Ha as (_ & Hw & _). unfold own in Hn. cbn [assigned walruses declared_global declared_nonlocal In] in Hn. rewrite Hw in Hn. cbn in Hn. tauto.
Qed.

Lemma names_known : forall k s c l, all_allowed k (scope_of k s l) c true [] [] l -> forall n, In n (names (scope_of k s l)) -> In n (flat_map (adds k) l).
Proof.
  intros k s c l Ha n Hn. apply in_scope_of in Hn. apply (all_adds k (scope_of k s l) c true l [] []); [|exact Ha|exact Hn].
  apply Forall_forall. intros i _ ordered seen used. apply allowed_adds.
Qed.

(** ** The steps *)
Lemma inv_node : forall f c b seen used w hs x wx, inv f c b seen used w hs -> node_says (f :: c) x wx -> inv f c (add_node b x) seen used (w ++ wx) hs.
Proof.
  intros f c b seen used w hs x wx [H1 H2 (ws & H3 & H4) H5 H6] Hx. constructor; bcbn; try assumption.
  exists (ws ++ [wx]). split; [apply Forall2_app; [exact H3|constructor; [exact Hx|constructor]]|].
  intros y. rewrite in_app_iff, (H4 y), concat_app. unfold total. bcbn. repeat rewrite in_app_iff. cbn [In]. tauto.
Qed.

Lemma inv_nodes : forall f c b seen used w hs l wl, inv f c b seen used w hs -> Forall2 (node_says (f :: c)) l wl ->
  inv f c (add_nodes b l) seen used (w ++ concat wl) hs.
Proof.
  intros f c b seen used w hs l wl [H1 H2 (ws & H3 & H4) H5 H6] Hx. constructor; bcbn; try assumption.
  exists (ws ++ wl). split; [apply Forall2_app; assumption|].
  intros y. rewrite in_app_iff, (H4 y), concat_app. unfold total. bcbn. repeat rewrite in_app_iff. tauto.
Qed.

Lemma names_say : forall c l, Forall2 (node_says c) (names_as_nodes l) (map (fun x => [up c x]) l).
Proof. intros c l. induction l as [|x l IH]; cbn [names_as_nodes map]; constructor; [cbn [node_says]; apply same_refl|exact IH]. Qed.

Lemma concat_single : forall A B (g : A -> B) l, concat (map (fun x => [g x]) l) = map g l.
Proof. intros A B g l. induction l as [|x l IH]; cbn; [reflexivity|]. rewrite IH. reflexivity. Qed.

Lemma inv_walrus : forall k f c b seen used w hs n, scope_kind f = k -> inv f c b seen used w hs ->
  (is_comprehension k = false -> In n (bound f) /\ bind_allowed f seen n) ->
  inv f c (add_new_walrus_definition k (scope_id f) b n) (seen ++ if is_comprehension k then [] else [n]) used w (hs ++ [n]).
Proof.
  intros k f c b seen used w hs n Hk Hi Ha. unfold add_new_walrus_definition. destruct (is_comprehension k) eqn:E.
  - destruct Hi as [H1 H2 H3 H5 H6]. rewrite app_nil_r. constructor; bcbn; try assumption.
    intros m. rewrite !in_app_iff, H6. rewrite Hk, E. tauto.
  - destruct (Ha eq_refl) as [Hb Hal]. pose proof (inv_bind f c b seen used w hs n Hi Hb Hal) as [H1 H2 H3 H5 H6]. constructor; try assumption.
    intros m. rewrite H6, Hk, E. split; intros [? _]; discriminate.
Qed.

Lemma inv_walruses : forall k f c used w l b seen hs, scope_kind f = k -> inv f c b seen used w hs ->
  (is_comprehension k = false -> Forall (fun n => In n (bound f) /\ bind_allowed f seen n) l) ->
  inv f c (fold_left (add_new_walrus_definition k (scope_id f)) l b) (seen ++ if is_comprehension k then [] else l) used w (hs ++ l).
Proof.
  intros k f c used w l. induction l as [|n l IH]; intros b seen hs Hk Hi Ha; cbn [fold_left].
  - destruct (is_comprehension k); rewrite !app_nil_r; exact Hi.
  - assert (Hn : is_comprehension k = false -> In n (bound f) /\ bind_allowed f seen n). { intros E. pose proof (Ha E) as H. inversion H; assumption. }
    pose proof (IH _ _ _ Hk (inv_walrus k f c b seen used w hs n Hk Hi Hn)) as G. rewrite <- !app_assoc in G.
    replace (seen ++ (if is_comprehension k then [] else n :: l)) with (seen ++ (if is_comprehension k then [] else [n]) ++ (if is_comprehension k then [] else l))
      by (destruct (is_comprehension k); reflexivity).
    apply G. intros E. pose proof (Ha E) as H. inversion H as [|? ? _ Hl]; subst. rewrite E. eapply Forall_impl; [|exact Hl].
    intros m [Hb Hal]. split; [exact Hb|]. intros Hd. apply in_or_app. left. exact (Hal Hd).
Qed.

Lemma inv_output : forall k f c b seen used w hs o, scope_kind f = k -> inv f c b seen used w hs ->
  (is_comprehension k = false -> Forall (fun n => In n (bound f) /\ bind_allowed f seen n) (hoisted o)) ->
  inv f c (add_nodes (add_output k (scope_id f) b o) (names_as_nodes (to_parent o)))
    (seen ++ if is_comprehension k then [] else hoisted o) used (w ++ says (f :: c) o) (hs ++ hoisted o).
Proof.
  intros k f c b seen used w hs o Hk Hi Ha. unfold add_output.
  assert (Hi' : inv f c (mk_binder (table b) (unordered b) (unresolved b)
    (mk_output (found (out b) ++ found o) (to_parent (out b)) (hoisted (out b)) (reported (out b) ++ reported o))) seen used (w ++ found o) hs).
  { destruct Hi as [H1 H2 (ws & H3 & H4) H5 H6]. constructor; bcbn; try assumption. exists ws. split; [exact H3|].
    intros y. rewrite in_app_iff, (H4 y). unfold total, says. bcbn. repeat rewrite in_app_iff. tauto. }
  pose proof (inv_walruses k f c used _ (hoisted o) _ seen hs Hk Hi' Ha) as G.
  pose proof (inv_nodes _ _ _ _ _ _ _ _ _ G (names_say (f :: c) (to_parent o))) as R. rewrite concat_single, <- app_assoc in R. exact R.
Qed.

(** ** All items *)
Definition step_ok (i : item) : Prop := forall fs k f c ordered b seen used w hs,
  scope_kind f = k -> fits f i -> allowed k f c ordered seen used i -> (k = KFunction -> frames_ok fs c) -> inv f c b seen used w hs ->
  inv f c (index fs k (scope_id f) ordered b i) (seen ++ adds k i) (used ++ own_uses i) (w ++ uses_of (f :: c) i) (hs ++ walruses i).

Lemma steps_ok : forall l, Forall step_ok l -> forall fs k f c ordered b seen used w hs,
  scope_kind f = k -> Forall (fits f) l -> all_allowed k f c ordered seen used l -> (k = KFunction -> frames_ok fs c) -> inv f c b seen used w hs ->
  inv f c (fold_left (index fs k (scope_id f) ordered) l b) (seen ++ flat_map (adds k) l) (used ++ flat_map own_uses l) (w ++ flat_map (uses_of (f :: c)) l)
    (hs ++ flat_map walruses l).
Proof.
  intros l Hl. induction Hl as [|i l Hi Hl IH]; intros fs k f c ordered b seen used w hs Hk Hf Ha Hfs Hinv.
  - cbn. rewrite !app_nil_r. exact Hinv.
  - inversion Hf as [|? ? Hf1 Hf2]; subst. cbn [all_allowed] in Ha. destruct Ha as [Ha1 Ha2]. cbn [fold_left flat_map]. rewrite !app_assoc.
    apply IH; [reflexivity|exact Hf2|exact Ha2|exact Hfs|]. apply Hi; assumption || reflexivity.
Qed.

Lemma fits_block : forall f l, (fits f (Loop l) -> Forall (fits f) l) /\ (fits f (Cases l) -> Forall (fits f) l).
Proof.
  intros f l. assert (H : fits f (Loop l) -> Forall (fits f) l); [|split; exact H]. unfold fits. cbn [assigned walruses declared_global declared_nonlocal].
  intros (H1 & H2 & H3 & H4). apply Forall_forall. intros i Hi. split; [|split; [|split]].
  - intros n H. apply H1. apply in_flat_map. exists i. split; assumption.
  - intros Hk n H. apply (H2 Hk). apply in_flat_map. exists i. split; assumption.
  - intros n H. apply H3. apply in_flat_map. exists i. split; assumption.
  - intros n H. apply H4. apply in_flat_map. exists i. split; assumption.
Qed.

Section Nested.
Variables (l : list item) (t : N) (k : kind) (c : list scope) (fs : frames).
Hypothesis Hl : Forall step_ok l.
Let g := scope_of k t l.
Hypothesis Ha : all_allowed k g c true [] [] l.
Hypothesis Hfs : k = KFunction -> frames_ok fs c.

Lemma nested_inv : inv g c (fold_left (index fs k t true) l new_binder) (flat_map (adds k) l) (flat_map own_uses l) (flat_map (uses_of (g :: c)) l) (flat_map walruses l).
Proof. exact (steps_ok l Hl fs k g c true new_binder [] [] [] [] eq_refl (fits_scope_of k t l) Ha Hfs (inv_new g c)). Qed.

Lemma nested_says : is_class k = false -> let o := out (close k t fs (fold_left (index fs k t true) l new_binder)) in
  same (says c o) (flat_map (uses_of (g :: c)) l) /\ (forall n, In n (hoisted o) <-> is_comprehension k = true /\ In n (flat_map walruses l)).
Proof. intros Hk. exact (close_says k g c t fs _ _ _ _ _ eq_refl Hk Hfs nested_inv (names_known k t c l Ha)). Qed.
End Nested.

Lemma no_elements : forall A (l : list A), (forall x, ~ In x l) -> l = [].
Proof. intros A [|x l] H; [reflexivity|]. destruct (H x (or_introl eq_refl)). Qed.

Theorem all_steps : forall i, step_ok i.
Proof.
  intros i.
  induction i as [m|u m|m|m|m|l IH|l IH|l IH|t l IH|t l IH|t first l IH|t first l IH|t first l IH] using item_induction;
    intros fs k f c ordered b seen used w hs Hk Hf Ha Hfs Hinv; subst k.
  - cbn [index adds own_uses uses_of walruses] in *. rewrite !app_nil_r. apply inv_bind; [exact Hinv|apply (proj1 Hf); left; reflexivity|exact Ha].
  - cbn [index adds own_uses uses_of walruses] in *. rewrite !app_nil_r. apply inv_use; [reflexivity|exact Hinv|exact Ha].
  - cbn [index adds own_uses uses_of walruses] in *. rewrite !app_nil_r. apply inv_walrus; [reflexivity|exact Hinv|]. intros E. split; [|exact (Ha E)].
    apply (proj1 (proj2 Hf) E). left. reflexivity.
  - cbn [index adds own_uses uses_of walruses] in *. rewrite !app_nil_r. destruct Ha as [Hn1 Hn2]. destruct (lookup_symbol (table b) m) as [r|] eqn:E.
    + exfalso. apply Hn1. apply (i_dom _ _ _ _ _ _ _ Hinv). congruence.
    + apply inv_define; [exact Hinv|]. intros _. cbn [resolve]. rewrite (proj2 (mem_in m (globals f))); [reflexivity|]. apply (proj1 (proj2 (proj2 Hf))). left. reflexivity.
  - cbn [index adds own_uses uses_of walruses] in *. rewrite !app_nil_r. destruct Ha as (Hn1 & Hn2 & Hk & Hn3). rewrite (Hfs Hk m Hn3).
    destruct (lookup_symbol (table b) m) as [r|] eqn:E.
    + exfalso. apply Hn1. apply (i_dom _ _ _ _ _ _ _ Hinv). congruence.
    + apply inv_define; [exact Hinv|]. intros _. cbn [resolve]. rewrite (proj2 (mem_out m (globals f)) Hn2), (proj2 (mem_in m (nonlocals f))); [reflexivity|].
      apply (proj2 (proj2 (proj2 Hf))). left. reflexivity.
  - (* Loop *)
    change (all_allowed (scope_kind f) f c false seen used l /\
      (ordered = true -> forall n, In n (used ++ flat_map own_uses l) -> In n (names f) -> In n (seen ++ flat_map (adds (scope_kind f)) l))) in Ha. destruct Ha as [Ha1 Ha2].
    pose proof (steps_ok l IH fs _ f c false b seen used w hs eq_refl (proj1 (fits_block f l) Hf) Ha1 Hfs Hinv) as G.
    cbn [index adds own_uses uses_of walruses]. destruct ordered; [|exact G]. apply inv_flush; [exact G|exact (Ha2 eq_refl)].
  - (* Cases *)
    change (all_allowed (scope_kind f) f c false seen used l) in Ha.
    exact (steps_ok l IH fs _ f c false b seen used w hs eq_refl (proj2 (fits_block f l) Hf) Ha Hfs Hinv).
  - destruct Ha.
  - (* Function *)
    change (all_allowed KFunction (scope_of KFunction t l) (f :: c) true [] [] l) in Ha. cbn [index adds own_uses uses_of walruses]. rewrite !app_nil_r.
    apply inv_node; [exact Hinv|]. cbn [node_says]. intros fs' Hfs'. destruct (nested_says l t KFunction (f :: c) fs' IH Ha (fun _ => Hfs') eq_refl) as [G1 G2].
    split; [exact G1|]. apply no_elements. intros n Hn. apply G2 in Hn as [Hn _]. discriminate.
  - (* Lambda *)
    change (all_allowed KLambda (scope_of KLambda t l) (f :: c) true [] [] l) in Ha. cbn [index adds own_uses uses_of walruses]. rewrite !app_nil_r.
    apply inv_node; [exact Hinv|]. cbn [node_says]. intros fs' Hfs'. destruct (nested_says l t KLambda (f :: c) fs' IH Ha (fun _ => Hfs') eq_refl) as [G1 G2].
    split; [exact G1|]. apply no_elements. intros n Hn. apply G2 in Hn as [Hn _]. discriminate.
  - (* Comprehension *)
    change (all_allowed KComprehension (scope_of KComprehension t l) (f :: c) true [] [] l /\ Forall (use_allowed (scope_kind f) f seen) (map snd first) /\
      (is_comprehension (scope_kind f) = false -> Forall (bind_allowed f seen) (flat_map walruses l))) in Ha. destruct Ha as (Ha1 & Ha2 & Ha3).
    cbn [index adds own_uses uses_of walruses].
    pose proof (inv_uses (scope_kind f) f c seen hs true first b used w eq_refl Hinv Ha2) as Hi1.
    set (b1 := fold_left (maybe_add_reference (scope_kind f) true) first b) in *.
    assert (Hno : KComprehension = KFunction -> frames_ok ((scope_kind f, table b1) :: fs) (f :: c)) by discriminate.
    destruct (nested_says l t KComprehension (f :: c) _ IH Ha1 Hno eq_refl) as [G1 G2].
    cbv zeta in G1, G2. set (o := out (close KComprehension t _ _)) in *. cbv zeta.
    assert (Hh : same (hoisted o) (flat_map walruses l)). { intros n. rewrite (G2 n). cbn. tauto. }
    assert (Hw : is_comprehension (scope_kind f) = false -> Forall (fun n => In n (bound f) /\ bind_allowed f seen n) (hoisted o)).
    { intros E. apply Forall_forall. intros n Hn. apply Hh in Hn. split; [exact (proj1 (proj2 Hf) E n Hn)|]. exact (proj1 (Forall_forall _ _) (Ha3 E) n Hn). }
    eapply inv_same; [exact (inv_output (scope_kind f) f c b1 seen _ _ hs o eq_refl Hi1 Hw)| |tauto| |].
    + apply same_app; [apply same_refl|]. destruct (is_comprehension (scope_kind f)); [apply same_refl|exact Hh].
    + rewrite <- app_assoc. apply same_app; [apply same_refl|]. apply same_app; [apply same_refl|exact G1].
    + apply same_app; [apply same_refl|exact Hh].
  - (* Generator *)
    change (all_allowed KComprehension (scope_of KComprehension t l) (f :: c) true [] [] l /\ flat_map walruses l = [] /\
      (scope_kind f = KClass -> Forall (fun x => ~ In (snd x) (names f)) first)) in Ha. destruct Ha as (Ha1 & Ha2 & Ha3).
    cbn [index adds own_uses uses_of walruses]. rewrite Ha2.
    replace (if is_comprehension (scope_kind f) then [] else []) with (@nil N) by (destruct (is_comprehension (scope_kind f)); reflexivity).
    rewrite !app_nil_r. apply inv_node; [exact Hinv|]. cbn [node_says].
    assert (Hno : KComprehension = KFunction -> frames_ok [] (f :: c)) by discriminate.
    destruct (nested_says l t KComprehension (f :: c) _ IH Ha1 Hno eq_refl) as [G1 G2]. cbv zeta in G1, G2. split.
    + apply same_app; [|exact G1]. rewrite (map_ext_in (up (f :: c)) (fun x => (fst x, resolve (f :: c) (snd x)))); [apply same_refl|].
      intros x Hx. unfold up. f_equal. destruct (is_class (scope_kind f)) eqn:E.
      * rewrite resolve_skips_class by exact E. assert (Ek : scope_kind f = KClass) by (destruct (scope_kind f); try discriminate; reflexivity).
        rewrite resolve_other; [reflexivity|]. exact (proj1 (Forall_forall _ _) (Ha3 Ek) x Hx).
      * symmetry. apply resolve_is_outer. exact E.
    + apply no_elements. intros n Hn. apply G2 in Hn as [_ Hn]. rewrite Ha2 in Hn. destruct Hn.
  - (* Class *)
    change (all_allowed KClass (scope_of KClass t l) (f :: c) true [] [] l /\ Forall (use_allowed (scope_kind f) f seen) (map snd first)) in Ha.
    destruct Ha as (Ha1 & Ha2). cbn [index adds own_uses uses_of walruses].
    pose proof (inv_uses (scope_kind f) f c seen hs true first b used w eq_refl Hinv Ha2) as Hi1.
    set (b1 := fold_left (maybe_add_reference (scope_kind f) true) first b) in *.
    assert (Hno : KClass = KFunction -> frames_ok ((scope_kind f, table b1) :: fs) (f :: c)) by discriminate.
    pose proof (nested_inv l t KClass (f :: c) _ IH Ha1 Hno) as Hin.
    destruct (close_class (scope_of KClass t l) (f :: c) t ((scope_kind f, table b1) :: fs) _ _ _ _ _ eq_refl Hin (names_known KClass t (f :: c) l Ha1)) as (ws & G1 & G2 & G3).
    cbv zeta. set (inner := close KClass t _ _) in *.
    assert (Hw : is_comprehension (scope_kind f) = false -> Forall (fun n => In n (bound f) /\ bind_allowed f seen n) (hoisted (out inner))).
    { intros _. rewrite G3. constructor. }
    pose proof (inv_output (scope_kind f) f c b1 seen _ _ hs (out inner) eq_refl Hi1 Hw) as Hi2.
    assert (G1' : Forall2 (node_says (f :: c)) (unresolved inner) ws).
    { clear - G1. induction G1 as [|x wx nl ws Hx Hl IHl]; constructor; [|exact IHl]. apply (node_skips_class (scope_of KClass t l)); [reflexivity|exact Hx]. }
    eapply inv_same; [exact (inv_nodes _ _ _ _ _ _ _ _ _ Hi2 G1')| |tauto| |].
    + rewrite G3. destruct (is_comprehension (scope_kind f)); apply same_refl.
    + rewrite <- !app_assoc. apply same_app; [apply same_refl|]. apply same_app; [apply same_refl|]. apply same_sym. exact G2.
    + rewrite G3. apply same_refl.
Qed.

(** ** The file *)
Theorem file_says : forall l, file_allowed l -> same (says [] (index_file l)) (uses_of_file l).
Proof.
  intros l Ha. assert (Hno : KGlobal = KFunction -> frames_ok [] []) by discriminate.
  exact (proj1 (nested_says l 0 KGlobal [] [] (proj2 (Forall_forall _ _) (fun i _ => all_steps i)) Ha Hno eq_refl)).
Qed.

(** ** What is reported *)
Definition waiting (f : scope) (x : N * N * bool) : list N := if snd x then if mem (snd (fst x)) (names f) then [fst (fst x)] else [] else [].

Definition node_reports (c : list scope) (x : node) (r : list N) : Prop :=
  match x with
  | UName _ _ => r = []
  | UFunction run => forall fs, frames_ok fs c -> same (reported (run fs)) r /\ hoisted (run fs) = []
  | UGenerator _ o => same (reported o) r /\ hoisted o = []
  end.

Lemma node_reports_skips_class : forall f c x r, is_class (scope_kind f) = true -> node_reports (f :: c) x r -> node_reports c x r.
Proof.
  intros f c x r H Hn. destruct x as [u n|run|first o]; cbn [node_reports] in *; [exact Hn| |exact Hn].
  intros fs Hfs. apply Hn. intros n Ha. rewrite allowed_skips_class in Ha by exact H. rewrite resolve_skips_class by exact H. exact (Hfs n Ha).
Qed.

Definition reports (f : scope) (c : list scope) (b : binder) (r : list N) : Prop :=
  exists rs, Forall2 (node_reports (f :: c)) (unresolved b) rs /\ same r (reported (out b) ++ flat_map (waiting f) (unordered b) ++ concat rs).

(** The table has exactly the names that are known, and these belong to the scope *)
Definition knows (f : scope) (b : binder) (seen : list N) : Prop :=
  (forall n, lookup_symbol (table b) n <> None <-> In n seen) /\ (forall n, In n seen -> In n (names f)).

Lemma reports_same : forall f c b r r', reports f c b r -> same r r' -> reports f c b r'.
Proof. intros f c b r r' (rs & H1 & H2) H. exists rs. split; [exact H1|]. exact (same_trans _ _ _ _ (same_sym _ _ _ H) H2). Qed.

Lemma reports_define : forall f c b r n o, reports f c b r -> reports f c (add_new_definition b n o) r.
Proof. intros f c b r n o H. unfold add_new_definition. destruct (lookup_symbol (table b) n); exact H. Qed.

Lemma reports_walrus : forall f c k s l b r, reports f c b r -> reports f c (fold_left (add_new_walrus_definition k s) l b) r.
Proof.
  intros f c k s l. induction l as [|n l IH]; intros b r H; cbn [fold_left]; [exact H|]. apply IH. unfold add_new_walrus_definition.
  destruct (is_comprehension k); [exact H|]. apply reports_define. exact H.
Qed.

Lemma waiting_use : forall k f b seen u n, knows f b seen -> is_class k = false ->
  match lookup_symbol (table b) n with Some _ => [] | None => waiting f (u, n, true) end = early k f seen (u, n).
Proof.
  intros k f b seen u n [Hd Hs] Hk. unfold early, waiting. cbn [fst snd]. rewrite Hk.
  destruct (lookup_symbol (table b) n) as [o|] eqn:E.
  - rewrite (proj2 (mem_in n seen)); [reflexivity|]. apply Hd. congruence.
  - rewrite (proj2 (mem_out n seen)); [reflexivity|]. intros H. apply Hd in H. congruence.
Qed.

Lemma reports_use : forall k f c b seen r ordered x, scope_kind f = k -> knows f b seen -> reports f c b r ->
  reports f c (maybe_add_reference k ordered b x) (r ++ if ordered then early k f seen x else []) /\ table (maybe_add_reference k ordered b x) = table b.
Proof.
  intros k f c b seen r ordered [u n] Hk Hkn (rs & H1 & H2). unfold maybe_add_reference. destruct (is_class k) eqn:Ec.
  - assert (E : early k f seen (u, n) = []) by (unfold early; rewrite Ec; reflexivity). rewrite E.
    replace (if ordered then [] else []) with (@nil N) by (destruct ordered; reflexivity). rewrite app_nil_r.
    destruct (lookup_symbol (table b) n) as [o|] eqn:El; [split; [exists rs; split; assumption|reflexivity]|].
    destruct ordered; cbn [negb orb]; (split; [|reflexivity]); exists rs; (split; [exact H1|]); [exact H2|].
    bcbn. rewrite flat_map_app. cbn [flat_map]. unfold waiting at 2. cbn [snd app]. rewrite !app_nil_r. exact H2.
  - pose proof (waiting_use k f b seen u n Hkn Ec) as Hw. destruct (lookup_symbol (table b) n) as [o|] eqn:El.
    + split; [|reflexivity]. exists rs. split; [exact H1|]. rewrite <- Hw. replace (if ordered then [] else []) with (@nil N) by (destruct ordered; reflexivity).
      rewrite app_nil_r. exact H2.
    + rewrite orb_true_r. split; [|reflexivity]. exists rs. split; [exact H1|]. bcbn. rewrite flat_map_app. cbn [flat_map]. rewrite app_nil_r.
      destruct ordered.
      * rewrite Hw. intros y. specialize (H2 y). repeat rewrite in_app_iff in *. tauto.
      * unfold waiting at 2. cbn [snd]. rewrite !app_nil_r. exact H2.
Qed.

Lemma reports_uses : forall k f c seen first b r, scope_kind f = k -> knows f b seen -> reports f c b r ->
  reports f c (fold_left (maybe_add_reference k true) first b) (r ++ flat_map (early k f seen) first).
Proof.
  intros k f c seen first. induction first as [|x first IH]; intros b r Hk Hkn Hr; cbn [fold_left flat_map].
  - rewrite app_nil_r. exact Hr.
  - destruct (reports_use k f c b seen r true x Hk Hkn Hr) as [H1 H2]. rewrite app_assoc. apply IH; [exact Hk| |exact H1].
    unfold knows. rewrite H2. exact Hkn.
Qed.

Lemma flush_reports : forall f l b, (forall x, In x l -> (lookup_symbol (table b) (snd (fst x)) <> None <-> In (snd (fst x)) (names f))) ->
  reported (out (fold_left index_unordered_reference l b)) = reported (out b) ++ flat_map (waiting f) l /\
  unresolved (fold_left index_unordered_reference l b) = unresolved b.
Proof.
  intros f l. induction l as [|[[u n] ordered] l IH]; intros b Hl; cbn [fold_left flat_map]; [rewrite app_nil_r; split; reflexivity|].
  pose proof (Hl _ (or_introl eq_refl)) as Hn. cbn [fst snd] in Hn.
  assert (Hs : table (index_unordered_reference b (u, n, ordered)) = table b /\ unresolved (index_unordered_reference b (u, n, ordered)) = unresolved b /\
    reported (out (index_unordered_reference b (u, n, ordered))) = reported (out b) ++ waiting f (u, n, ordered)).
  { unfold index_unordered_reference, waiting. cbn [fst snd]. destruct (lookup_symbol (table b) n) as [o|] eqn:E.
    - rewrite (proj2 (mem_in n (names f))) by (apply Hn; congruence). destruct ordered; bcbn; rewrite ?app_nil_r; repeat split.
    - rewrite (proj2 (mem_out n (names f))) by (intros H; apply Hn in H; congruence). destruct ordered; bcbn; rewrite ?app_nil_r; repeat split. }
  destruct Hs as (S1 & S2 & S3). destruct (IH (index_unordered_reference b (u, n, ordered))) as [G1 G2].
  - intros x Hx. rewrite S1. apply Hl. right. exact Hx.
  - rewrite G1, G2, S2, S3, <- app_assoc. split; reflexivity.
Qed.

Lemma reports_flush : forall f c b r, (forall x, In x (unordered b) -> (lookup_symbol (table b) (snd (fst x)) <> None <-> In (snd (fst x)) (names f))) ->
  reports f c b r -> reports f c (index_unordered_references b) r.
Proof.
  intros f c b r Hl (rs & H1 & H2). unfold index_unordered_references. destruct (flush_reports f (unordered b) b Hl) as [G1 G2].
  exists rs. bcbn. rewrite G2. split; [exact H1|]. rewrite G1. cbn [flat_map app]. rewrite <- app_assoc. exact H2.
Qed.

(** Closing *)
Definition ending (f : scope) (b0 b : binder) (r : list N) : Prop :=
  table b = table b0 /\ same r (reported (out b) ++ flat_map (waiting f) (unordered b)).

Lemma ending_name : forall f b0 b r x, ending f b0 b r -> ending f b0 (process_name b x) r.
Proof. intros f b0 b r [u n] [H1 H2]. unfold process_name. destruct (lookup_symbol (table b) n); split; assumption. Qed.
Lemma ending_names : forall f b0 l b r, ending f b0 b r -> ending f b0 (fold_left process_name l b) r.
Proof. intros f b0 l. induction l as [|x l IH]; intros b r H; cbn [fold_left]; [exact H|]. apply IH. apply ending_name. exact H. Qed.

Lemma ending_first : forall k f b0 first b r, is_class k = false -> (forall n, In n (names f) -> lookup_symbol (table b0) n <> None) -> ending f b0 b r ->
  ending f b0 (fold_left (maybe_add_reference k true) first b) r.
Proof.
  intros k f b0 first. induction first as [|[u n] first IH]; intros b r Hk Hc H; cbn [fold_left]; [exact H|]. apply IH; [exact Hk|exact Hc|].
  destruct H as [H1 H2]. unfold maybe_add_reference. rewrite Hk. cbn [negb orb]. destruct (lookup_symbol (table b) n) as [o|] eqn:E; [split; assumption|].
  split; [exact H1|]. bcbn. rewrite flat_map_app. cbn [flat_map]. unfold waiting at 2. cbn [fst snd].
  rewrite (proj2 (mem_out n (names f))); [cbn [app]; rewrite app_nil_r; exact H2|]. intros Hn. apply Hc in Hn. congruence.
Qed.

Lemma ending_output : forall k f b0 s b r o, ending f b0 b r -> hoisted o = [] ->
  ending f b0 (fold_left process_name (rev (to_parent o)) (add_output k s b o)) (r ++ reported o).
Proof.
  intros k f b0 s b r o [H1 H2] Ho. apply ending_names. unfold add_output. rewrite Ho. cbn [fold_left]. split; [exact H1|]. bcbn.
  intros y. specialize (H2 y). repeat rewrite in_app_iff in *. tauto.
Qed.

Lemma ending_nodes : forall k f c b0 s fs l rs b r, scope_kind f = k -> is_class k = false -> complete f c b0 -> (k = KFunction -> frames_ok fs c) ->
  ending f b0 b r -> Forall2 (node_reports (f :: c)) l rs -> ending f b0 (fold_left (process_node k s fs) l b) (r ++ concat rs).
Proof.
  intros k f c b0 s fs l rs b r Hk Hnc Hc Hfs He Hl. subst k. revert b r He.
  induction Hl as [|x rx l rs Hx Hl IH]; intros b r He; cbn [fold_left concat].
  - rewrite app_nil_r. exact He.
  - rewrite app_assoc. apply IH. destruct x as [u n|run|first o]; cbn [process_node node_reports] in *.
    + rewrite Hx, app_nil_r. apply ending_name. exact He.
    + assert (Hf : frames_ok ((scope_kind f, table b) :: fs) (f :: c)). { rewrite (proj1 He). apply frames_extend; assumption. }
      destruct (Hx _ Hf) as [X1 X2].
      pose proof (ending_output (scope_kind f) f b0 s b r _ He X2) as [G1 G2]. split; [exact G1|].
      eapply same_trans; [|exact G2]. apply same_app; [apply same_refl|]. apply same_sym. exact X1.
    + destruct Hx as [X1 X2].
      pose proof (ending_output (scope_kind f) f b0 s _ r o (ending_first (scope_kind f) f b0 first b r Hnc (fun n => proj2 (Hc n)) He) X2) as [G1 G2]. split; [exact G1|].
      eapply same_trans; [|exact G2]. apply same_app; [apply same_refl|]. apply same_sym. exact X1.
Qed.

Lemma close_reports : forall k f c s fs b seen used w hs r, scope_kind f = k -> is_class k = false -> (k = KFunction -> frames_ok fs c) ->
  inv f c b seen used w hs -> same (names f) seen -> reports f c b r -> same (reported (out (close k s fs b))) r.
Proof.
  intros k f c s fs b seen used w hs r Hk Hnc Hfs Hi Hn (rs & H1 & H2). pose proof (inv_complete _ _ _ _ _ _ _ Hi (fun n => proj1 (Hn n))) as Hc.
  unfold close. rewrite Hnc. set (b1 := mk_binder (table b) (unordered b) [] (out b)).
  assert (He : ending f b b1 (reported (out b) ++ flat_map (waiting f) (unordered b))) by (split; [reflexivity|apply same_refl]).
  pose proof (ending_nodes k f c b s fs (unresolved b) rs b1 _ Hk Hnc Hc Hfs He H1) as [K1 K2].
  set (b2 := fold_left (process_node k s fs) (unresolved b) b1) in *. unfold index_unordered_references. bcbn.
  rewrite (proj1 (flush_reports f (unordered b2) b2 (fun x _ => ltac:(rewrite K1, (i_dom _ _ _ _ _ _ _ Hi); apply iff_sym; apply Hn)))).
  intros y. rewrite (H2 y), <- (K2 y). rewrite <- app_assoc. tauto.
Qed.

Lemma close_class_reports : forall f c s fs b seen used w hs r, scope_kind f = KClass -> inv f c b seen used w hs -> same (names f) seen -> reports f c b r ->
  exists rs, Forall2 (node_reports (f :: c)) (unresolved (close KClass s fs b)) rs /\ same r (reported (out (close KClass s fs b)) ++ concat rs).
Proof.
  intros f c s fs b seen used w hs r Hk Hi Hn Hr. unfold close. cbn [is_class].
  destruct (reports_flush f c b r) as (rs & H1 & H2); [|exact Hr|].
  - intros x _. rewrite (i_dom _ _ _ _ _ _ _ Hi). apply iff_sym. apply Hn.
  - exists rs. split; [exact H1|]. unfold index_unordered_references in H2 |- *. bcbn. exact H2.
Qed.

(** The names that become known belong to the scope *)
Lemma adds_names : forall f i, fits f i -> forall n, In n (adds (scope_kind f) i) -> In n (names f).
Proof.
  intros f i. induction i as [m|u m|m|m|m|l IH|l IH|l IH|t l IH|t l IH|t first l IH|t first l IH|t first l IH] using item_induction;
    intros (F1 & F2 & F3 & F4) n Hn; cbn [adds assigned walruses declared_global declared_nonlocal] in *; unfold names; rewrite !in_app_iff.
  all: try contradiction.
  all: try solve [left; exact (F1 n Hn)].
  all: try solve [right; left; exact (F3 n Hn)].
  all: try solve [right; right; exact (F4 n Hn)].
  - destruct (is_comprehension (scope_kind f)) eqn:E; [destruct Hn|]. left. exact (F2 eq_refl n Hn).
  - apply in_flat_map in Hn as (i & Hi & Hn). rewrite <- !in_app_iff. apply (proj1 (Forall_forall _ _) IH i Hi); [|exact Hn].
    apply (proj1 (Forall_forall _ _) (proj1 (fits_block f l) (conj F1 (conj F2 (conj F3 F4)))) i Hi).
  - apply in_flat_map in Hn as (i & Hi & Hn). rewrite <- !in_app_iff. apply (proj1 (Forall_forall _ _) IH i Hi); [|exact Hn].
    apply (proj1 (Forall_forall _ _) (proj2 (fits_block f l) (conj F1 (conj F2 (conj F3 F4)))) i Hi).
  - apply in_flat_map in Hn as (i & Hi & Hn). rewrite <- !in_app_iff. apply (proj1 (Forall_forall _ _) IH i Hi); [|exact Hn].
    apply (proj1 (Forall_forall _ _) (proj2 (fits_block f l) (conj F1 (conj F2 (conj F3 F4)))) i Hi).
  - destruct (is_comprehension (scope_kind f)) eqn:E; [destruct Hn|]. left. exact (F2 eq_refl n Hn).
  - destruct (is_comprehension (scope_kind f)) eqn:E; [destruct Hn|]. left. exact (F2 eq_refl n Hn).
Qed.

Lemma names_exact : forall k s c l, all_allowed k (scope_of k s l) c true [] [] l -> same (names (scope_of k s l)) (flat_map (adds k) l).
Proof.
  intros k s c l Ha n. split; [exact (names_known k s c l Ha n)|]. intros Hn. apply in_flat_map in Hn as (i & Hi & Hn).
  exact (adds_names (scope_of k s l) i (proj1 (Forall_forall _ _) (fits_scope_of k s l) i Hi) n Hn).
Qed.

Definition alarms : bool -> bool -> bool := fun first ordered => first || ordered.

Definition report_ok (i : item) : Prop := forall fs k f c ordered b seen used w hs r,
  scope_kind f = k -> fits f i -> (forall n, In n seen -> In n (names f)) -> allowed k f c ordered seen used i -> (k = KFunction -> frames_ok fs c) ->
  inv f c b seen used w hs -> reports f c b r ->
  reports f c (index fs k (scope_id f) ordered b i) (r ++ early_uses alarms k f ordered seen i).

Lemma reports_ok : forall l, Forall report_ok l -> forall fs k f c ordered b seen used w hs r,
  scope_kind f = k -> Forall (fits f) l -> (forall n, In n seen -> In n (names f)) -> all_allowed k f c ordered seen used l -> (k = KFunction -> frames_ok fs c) ->
  inv f c b seen used w hs -> reports f c b r ->
  reports f c (fold_left (index fs k (scope_id f) ordered) l b) (r ++ all_early_uses alarms k f ordered seen l).
Proof.
  intros l Hl. induction Hl as [|i l Hi Hl IH]; intros fs k f c ordered b seen used w hs r Hk Hf Hs Ha Hfs Hinv Hr.
  - cbn. rewrite app_nil_r. exact Hr.
  - inversion Hf as [|? ? Hf1 Hf2]; subst. cbn [all_allowed] in Ha. destruct Ha as [Ha1 Ha2]. cbn [fold_left all_early_uses]. rewrite app_assoc.
    eapply IH; [reflexivity|exact Hf2| |exact Ha2|exact Hfs| |].
    + intros n Hn. apply in_app_or in Hn as [Hn|Hn]; [exact (Hs n Hn)|exact (adds_names f i Hf1 n Hn)].
    + apply all_steps; try eassumption. reflexivity.
    + eapply Hi; try eassumption. reflexivity.
Qed.

Section NestedReports.
Variables (l : list item) (t : N) (k : kind) (c : list scope) (fs : frames).
Hypothesis Hl : Forall report_ok l.
Let g := scope_of k t l.
Hypothesis Ha : all_allowed k g c true [] [] l.
Hypothesis Hfs : k = KFunction -> frames_ok fs c.

Lemma all_items : Forall step_ok l. Proof. apply Forall_forall. intros i _. apply all_steps. Qed.

Lemma reports_new : reports g c new_binder [].
Proof. exists []. split; [constructor|]. apply same_refl. Qed.

Lemma nested_reports_inv : reports g c (fold_left (index fs k t true) l new_binder) (all_early_uses alarms k g true [] l).
Proof.
  exact (reports_ok l Hl fs k g c true new_binder [] [] [] [] [] eq_refl (fits_scope_of k t l) (fun n H => match H with end) Ha Hfs (inv_new g c) reports_new).
Qed.

Lemma nested_reports : is_class k = false ->
  same (reported (out (close k t fs (fold_left (index fs k t true) l new_binder)))) (all_early_uses alarms k g true [] l).
Proof.
  intros Hk. exact (close_reports k g c t fs _ _ _ _ _ _ eq_refl Hk Hfs (nested_inv l t k c fs all_items Ha Hfs) (names_exact k t c l Ha) nested_reports_inv).
Qed.
End NestedReports.

Lemma reports_node : forall f c b r x rx, reports f c b r -> node_reports (f :: c) x rx -> reports f c (add_node b x) (r ++ rx).
Proof.
  intros f c b r x rx (rs & H1 & H2) Hx. exists (rs ++ [rx]). bcbn. split; [apply Forall2_app; [exact H1|constructor; [exact Hx|constructor]]|].
  intros y. specialize (H2 y). rewrite concat_app. repeat rewrite in_app_iff in *. cbn [concat]. rewrite app_nil_r. tauto.
Qed.
Lemma reports_nodes : forall f c b r l rl, reports f c b r -> Forall2 (node_reports (f :: c)) l rl -> reports f c (add_nodes b l) (r ++ concat rl).
Proof.
  intros f c b r l rl (rs & H1 & H2) Hx. exists (rs ++ rl). bcbn. split; [apply Forall2_app; assumption|].
  intros y. specialize (H2 y). rewrite concat_app. repeat rewrite in_app_iff in *. tauto.
Qed.
Lemma names_report : forall c l, exists rl, Forall2 (node_reports c) (names_as_nodes l) rl /\ concat rl = [].
Proof.
  intros c l. induction l as [|x l (rl & IH1 & IH2)]; [exists []; split; [constructor|reflexivity]|].
  exists ([] :: rl). split; [constructor; [reflexivity|exact IH1]|exact IH2].
Qed.
Lemma reports_output : forall k f c s b r o, reports f c b r ->
  reports f c (add_nodes (add_output k s b o) (names_as_nodes (to_parent o))) (r ++ reported o).
Proof.
  intros k f c s b r o (rs & H1 & H2). unfold add_output. destruct (names_report (f :: c) (to_parent o)) as (rl & L1 & L2).
  rewrite <- (app_nil_r (r ++ reported o)), <- L2. apply reports_nodes; [|exact L1]. apply reports_walrus. exists rs. bcbn. split; [exact H1|].
  intros y. specialize (H2 y). repeat rewrite in_app_iff in *. tauto.
Qed.

Theorem all_reports : forall i, report_ok i.
Proof.
  intros i.
  induction i as [m|u m|m|m|m|l IH|l IH|l IH|t l IH|t l IH|t first l IH|t first l IH|t first l IH] using item_induction;
    intros fs k f c ordered b seen used w hs r Hk Hf Hs Ha Hfs Hinv Hr; subst k;
    assert (Hkn : knows f b seen) by (split; [exact (i_dom _ _ _ _ _ _ _ Hinv)|exact Hs]).
  - cbn [index early_uses]. rewrite app_nil_r. apply reports_define. exact Hr.
  - exact (proj1 (reports_use (scope_kind f) f c b seen r ordered (u, m) eq_refl Hkn Hr)).
  - cbn [index early_uses]. rewrite app_nil_r. exact (reports_walrus f c (scope_kind f) (scope_id f) [m] b r Hr).
  - cbn [index early_uses]. rewrite app_nil_r. destruct (lookup_symbol (table b) m); [exact Hr|apply reports_define; exact Hr].
  - cbn [index early_uses]. rewrite app_nil_r. destruct (lookup_nonlocal_in_parents fs m) as [o|]; [|apply reports_define; exact Hr].
    destruct (lookup_symbol (table b) m); [exact Hr|apply reports_define; exact Hr].
  - (* Loop *)
    change (all_allowed (scope_kind f) f c false seen used l /\
      (ordered = true -> forall n, In n (used ++ flat_map own_uses l) -> In n (names f) -> In n (seen ++ flat_map (adds (scope_kind f)) l))) in Ha. destruct Ha as [Ha1 Ha2].
    pose proof (reports_ok l IH fs _ f c false b seen used w hs r eq_refl (proj1 (fits_block f l) Hf) Hs Ha1 Hfs Hinv Hr) as G.
    pose proof (steps_ok l (all_items l) fs _ f c false b seen used w hs eq_refl (proj1 (fits_block f l) Hf) Ha1 Hfs Hinv) as Gi.
    change (early_uses alarms (scope_kind f) f ordered seen (Loop l)) with (all_early_uses alarms (scope_kind f) f false seen l).
    cbn [index]. destruct ordered; [|exact G]. apply reports_flush; [|exact G]. intros x Hx. rewrite (i_dom _ _ _ _ _ _ _ Gi). split.
    + intros Hn. apply in_app_or in Hn as [Hn|Hn]; [exact (Hs _ Hn)|]. exact (adds_names f (Loop l) Hf _ Hn).
    + intros Hn. exact (Ha2 eq_refl _ (i_pending _ _ _ _ _ _ _ Gi x Hx) Hn).
  - (* Cases *)
    change (all_allowed (scope_kind f) f c false seen used l) in Ha.
    exact (reports_ok l IH fs _ f c false b seen used w hs r eq_refl (proj2 (fits_block f l) Hf) Hs Ha Hfs Hinv Hr).
  - destruct Ha.
  - (* Function *)
    change (all_allowed KFunction (scope_of KFunction t l) (f :: c) true [] [] l) in Ha.
    apply reports_node; [exact Hr|]. cbn [node_reports]. intros fs' Hfs'. split.
    + exact (nested_reports l t KFunction (f :: c) fs' IH Ha (fun _ => Hfs') eq_refl).
    + destruct (nested_says l t KFunction (f :: c) fs' (all_items l) Ha (fun _ => Hfs') eq_refl) as [_ G2].
      apply no_elements. intros n Hn. apply G2 in Hn as [Hn _]. discriminate.
  - (* Lambda *)
    change (all_allowed KLambda (scope_of KLambda t l) (f :: c) true [] [] l) in Ha.
    apply reports_node; [exact Hr|]. cbn [node_reports]. intros fs' Hfs'. split.
    + exact (nested_reports l t KLambda (f :: c) fs' IH Ha (fun _ => Hfs') eq_refl).
    + destruct (nested_says l t KLambda (f :: c) fs' (all_items l) Ha (fun _ => Hfs') eq_refl) as [_ G2].
      apply no_elements. intros n Hn. apply G2 in Hn as [Hn _]. discriminate.
  - (* Comprehension *)
    change (all_allowed KComprehension (scope_of KComprehension t l) (f :: c) true [] [] l /\ Forall (use_allowed (scope_kind f) f seen) (map snd first) /\
      (is_comprehension (scope_kind f) = false -> Forall (bind_allowed f seen) (flat_map walruses l))) in Ha. destruct Ha as (Ha1 & Ha2 & Ha3).
    pose proof (reports_uses (scope_kind f) f c seen first b r eq_refl Hkn Hr) as R1. cbn [index].
    set (b1 := fold_left (maybe_add_reference (scope_kind f) true) first b) in *.
    assert (Hno : KComprehension = KFunction -> frames_ok ((scope_kind f, table b1) :: fs) (f :: c)) by discriminate.
    pose proof (nested_reports l t KComprehension (f :: c) _ IH Ha1 Hno eq_refl) as G. cbv zeta. set (o := out (close KComprehension t _ _)) in *.
    eapply reports_same; [exact (reports_output (scope_kind f) f c (scope_id f) b1 _ o R1)|].
    rewrite <- app_assoc. apply same_app; [apply same_refl|]. apply same_app; [apply same_refl|exact G].
  - (* Generator *)
    change (all_allowed KComprehension (scope_of KComprehension t l) (f :: c) true [] [] l /\ flat_map walruses l = [] /\
      (scope_kind f = KClass -> Forall (fun x => ~ In (snd x) (names f)) first)) in Ha. destruct Ha as (Ha1 & Ha2 & Ha3).
    apply reports_node; [exact Hr|]. cbn [node_reports].
    assert (Hno : KComprehension = KFunction -> frames_ok [] (f :: c)) by discriminate. split.
    + exact (nested_reports l t KComprehension (f :: c) _ IH Ha1 Hno eq_refl).
    + destruct (nested_says l t KComprehension (f :: c) _ (all_items l) Ha1 Hno eq_refl) as [_ G2].
      apply no_elements. intros n Hn. apply G2 in Hn as [_ Hn]. rewrite Ha2 in Hn. destruct Hn.
  - (* Class *)
    change (all_allowed KClass (scope_of KClass t l) (f :: c) true [] [] l /\ Forall (use_allowed (scope_kind f) f seen) (map snd first)) in Ha.
    destruct Ha as (Ha1 & Ha2).
    pose proof (reports_uses (scope_kind f) f c seen first b r eq_refl Hkn Hr) as R1. cbn [index].
    set (b1 := fold_left (maybe_add_reference (scope_kind f) true) first b) in *.
    assert (Hno : KClass = KFunction -> frames_ok ((scope_kind f, table b1) :: fs) (f :: c)) by discriminate.
    pose proof (nested_inv l t KClass (f :: c) _ (all_items l) Ha1 Hno) as Hin.
    destruct (close_class_reports (scope_of KClass t l) (f :: c) t ((scope_kind f, table b1) :: fs) _ _ _ _ _ _ eq_refl Hin (names_exact KClass t (f :: c) l Ha1)
      (nested_reports_inv l t KClass (f :: c) _ IH Ha1 Hno)) as (rs & G1 & G2).
    cbv zeta. set (inner := close KClass t _ _) in *.
    assert (G1' : Forall2 (node_reports (f :: c)) (unresolved inner) rs).
    { clear - G1. induction G1 as [|x wx nl ws Hx Hl IHl]; constructor; [|exact IHl]. apply (node_reports_skips_class (scope_of KClass t l)); [reflexivity|exact Hx]. }
    eapply reports_same; [exact (reports_nodes _ _ _ _ _ _ (reports_output (scope_kind f) f c (scope_id f) b1 _ (out inner) R1) G1')|].
    rewrite <- !app_assoc. apply same_app; [apply same_refl|]. apply same_app; [apply same_refl|]. apply same_sym. exact G2.
Qed.

(** ** The two kinds of reports *)
Lemma early_split : forall i k f ordered seen u, In u (early_uses alarms k f ordered seen i) <->
  In u (early_uses (fun _ ordered => ordered) k f ordered seen i) \/ In u (early_uses (fun first ordered => first && negb ordered) k f ordered seen i).
Proof.
  assert (Hall : forall l, Forall (fun i => forall k f ordered seen u, In u (early_uses alarms k f ordered seen i) <->
    In u (early_uses (fun _ ordered => ordered) k f ordered seen i) \/ In u (early_uses (fun first ordered => first && negb ordered) k f ordered seen i)) l ->
    forall k f ordered seen u, In u (all_early_uses alarms k f ordered seen l) <->
    In u (all_early_uses (fun _ ordered => ordered) k f ordered seen l) \/ In u (all_early_uses (fun first ordered => first && negb ordered) k f ordered seen l)).
  { intros l Hl. induction Hl as [|i l Hi Hl IH]; intros k f ordered seen u; cbn [all_early_uses]; [cbn; tauto|]. rewrite !in_app_iff, Hi, IH. tauto. }
  intros i. induction i as [m|u m|m|m|m|l IH|l IH|l IH|t l IH|t l IH|t first l IH|t first l IH|t first l IH] using item_induction;
    intros k f ordered seen v.
  all: try solve [cbn; tauto].
  - exact (Hall l IH k f false seen v).
  - exact (Hall l IH k f false seen v).
  - exact (Hall l IH KFunction (scope_of KFunction t l) true [] v).
  - exact (Hall l IH KLambda (scope_of KLambda t l) true [] v).
  - pose proof (Hall l IH KComprehension (scope_of KComprehension t l) true [] v) as H.
    change (In v (flat_map (early k f seen) first ++ all_early_uses alarms KComprehension (scope_of KComprehension t l) true [] l) <->
      In v ((if ordered then flat_map (early k f seen) first else []) ++
        all_early_uses (fun _ ordered => ordered) KComprehension (scope_of KComprehension t l) true [] l) \/
      In v ((if negb ordered then flat_map (early k f seen) first else []) ++
        all_early_uses (fun first ordered => first && negb ordered) KComprehension (scope_of KComprehension t l) true [] l)).
    rewrite !in_app_iff, H. destruct ordered; cbn [negb In]; tauto.
  - exact (Hall l IH KComprehension (scope_of KComprehension t l) true [] v).
  - pose proof (Hall l IH KClass (scope_of KClass t l) true [] v) as H.
    change (In v (flat_map (early k f seen) first ++ all_early_uses alarms KClass (scope_of KClass t l) true [] l) <->
      In v ((if ordered then flat_map (early k f seen) first else []) ++
        all_early_uses (fun _ ordered => ordered) KClass (scope_of KClass t l) true [] l) \/
      In v ((if negb ordered then flat_map (early k f seen) first else []) ++
        all_early_uses (fun first ordered => first && negb ordered) KClass (scope_of KClass t l) true [] l)).
    rewrite !in_app_iff, H. destruct ordered; cbn [negb In]; tauto.
Qed.

Lemma all_early_split : forall l k f ordered seen u, In u (all_early_uses alarms k f ordered seen l) <->
  In u (all_early_uses (fun _ ordered => ordered) k f ordered seen l) \/ In u (all_early_uses (fun first ordered => first && negb ordered) k f ordered seen l).
Proof. induction l as [|i l IH]; intros k f ordered seen u; cbn [all_early_uses]; [cbn; tauto|]. rewrite !in_app_iff, early_split, IH. tauto. Qed.

Theorem file_reports : forall l, file_allowed l -> forall u, In u (reported (index_file l)) <-> In u (used_too_early l) \/ In u (first_in_loop l).
Proof.
  intros l Ha u. assert (Hno : KGlobal = KFunction -> frames_ok [] []) by discriminate.
  rewrite <- (all_early_split l KGlobal (scope_of KGlobal 0 l) true [] u).
  exact (nested_reports l 0 KGlobal [] [] (proj2 (Forall_forall _ _) (fun i _ => all_reports i)) Ha Hno eq_refl u).
Qed.
