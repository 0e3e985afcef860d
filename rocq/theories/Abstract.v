(** Proofs about the abstract attributes of classes. *)
From Coq Require Import String List Bool Arith NArith Lia.
From Verif Require Import MroModel MroSpec MroProofs AbstractModel AbstractSpec.
Import ListNotations.
Open Scope list_scope.

(** ** The order of the bases is that of C14 *)
Lemma outer_direct_outer : forall fuel its a m l, option_map (fun r => (map fst (fst r), snd r)) (outer_direct fuel its a m l) = outer fuel its a (map fst m) l.
Proof.
  intros fuel. induction fuel as [|fuel IH]; intros its a m l; [reflexivity|]. cbn [outer_direct outer].
  destruct (find_candidate its (firstn (Nat.min a (List.length its)) its) false) as [[[i c]|] []].
  - cbv zeta. destruct (c =? object)%nat; apply IH.
  - cbv zeta. destruct (c =? object)%nat; apply IH.
  - destruct (take_first its) as [[[i x] its']|]; [|reflexivity]. destruct (mem_id x (map fst m) && negb (x =? object)%nat); apply IH.
  - cbn [option_map fst snd]. rewrite map_rev. reflexivity.
Qed.

Lemma linearize_direct_mro : forall stored bs, option_map (fun r => (map fst (fst r), snd r)) (linearize_direct stored bs) = linearize_mro stored bs.
Proof. intros stored bs. exact (outer_direct_outer _ _ _ [] _). Qed.

Lemma outer_ext : forall stored stored' bs, (forall b, stored b = stored' b) -> linearize_mro stored bs = linearize_mro stored' bs.
Proof.
  intros stored stored' bs H. unfold linearize_mro. assert (E : base_iterators stored bs = base_iterators stored' bs) by (apply map_ext; intros b; rewrite H; reflexivity). rewrite E. reflexivity.
Qed.

Section Program.
Variable excluded : N -> bool.
Notation define := (define excluded).
Notation program_infos := (program_infos excluded).
Notation table defs := (snd (program_infos defs)).

Definition seen (i : infos) : list nat * bool := (map fst (mro i), accepted i).

Lemma program_app : forall defs c, program_infos (defs ++ [c]) = define (program_infos defs) c.
Proof. intros defs c. unfold AbstractModel.program_infos. rewrite fold_left_app. reflexivity. Qed.

Lemma program_classes : forall defs, fst (program_infos defs) = object_class :: defs.
Proof.
  intros defs. induction defs as [|c defs IH] using rev_ind; [reflexivity|]. rewrite program_app. destruct (program_infos defs) as [cl t]. cbn [fst] in IH. subst cl.
  unfold AbstractModel.define. destruct (distinct_bases [] (bases c)) as [bs d]. destruct (linearize_direct _ bs) as [[m l]|]; reflexivity.
Qed.

Lemma define_table : forall defs c, exists i, table (defs ++ [c]) = table defs ++ [i] /\ members i = protocol_members excluded c /\
  abstract i = calculate_abstract_attributes (object_class :: defs) (table defs) c (mro i) /\
  [seen i] = [match linearize_mro (fun k => map fst (mro (infos_at (table defs) k))) (fst (distinct_bases [] (bases c))) with Some (m, l) => (m, snd (distinct_bases [] (bases c)) && l) | None => ([], false) end].
Proof.
  intros defs c. rewrite program_app. assert (C := program_classes defs). destruct (program_infos defs) as [cl t]. cbn [fst snd] in *. subst cl. unfold AbstractModel.define.
  destruct (distinct_bases [] (bases c)) as [bs d]. cbn [fst snd]. rewrite <- linearize_direct_mro. destruct (linearize_direct _ bs) as [[m l]|]; cbn [option_map fst snd];
    (eexists; split; [reflexivity|]; split; [reflexivity|]; split; reflexivity).
Qed.

Lemma table_length : forall defs, List.length (table defs) = S (List.length defs).
Proof.
  intros defs. induction defs as [|c defs IH] using rev_ind; [reflexivity|]. destruct (define_table defs c) as (i & -> & _). rewrite !app_length, IH. cbn. lia.
Qed.

Lemma table_mro : forall defs, map seen (table defs) = class_table (map bases defs).
Proof.
  intros defs. induction defs as [|c defs IH] using rev_ind; [reflexivity|]. destruct (define_table defs c) as (i & -> & _ & _ & E).
  rewrite map_app. cbn [map]. rewrite map_app. cbn [map]. unfold class_table. rewrite fold_left_app. cbn [fold_left]. fold (class_table (map bases defs)). rewrite <- IH, E. unfold define_class.
  destruct (distinct_bases [] (bases c)) as [bs d]. cbn [fst snd]. f_equal. f_equal.
  rewrite (outer_ext (stored_in (map seen (table defs))) (fun k => map fst (mro (infos_at (table defs) k))) bs); [reflexivity|].
  intros k. unfold stored_in, infos_at. change ([], true) with (seen object_infos). rewrite map_nth. reflexivity.
Qed.

Lemma table_at : forall defs k, k <= List.length defs -> nth_error (class_table (map bases defs)) k = Some (seen (infos_at (table defs) k)).
Proof.
  intros defs k H. rewrite <- table_mro. erewrite map_nth_error; [reflexivity|]. unfold infos_at. apply nth_error_nth'. rewrite table_length. lia.
Qed.

Definition scoped (defs : list class) : Prop := well_scoped (map bases defs).

Lemma scoped_app : forall defs c, scoped (defs ++ [c]) -> scoped defs.
Proof. intros defs c H k bs b Hk Hb. apply (H k bs b); [|exact Hb]. rewrite map_app, nth_error_app1; [exact Hk|]. apply nth_error_Some. congruence. Qed.

Lemma ancestor_below : forall defs, well_scoped defs -> forall c a, ancestor defs c a -> a < c.
Proof. intros defs W c a H. induction H as [k bs b Hk Hb|c b a H1 IH1 H2 IH2]; [assert (b <= k) by exact (W k bs b Hk Hb); lia|lia]. Qed.

Lemma mro_below : forall defs k, scoped defs -> k <= List.length defs -> NoDup (map fst (mro (infos_at (table defs) k))) /\
  forall a, In a (map fst (mro (infos_at (table defs) k))) -> a < k.
Proof.
  intros defs k W H. destruct (program_sound (map bases defs) W k _ _ (table_at defs k H)) as [N A]. split; [exact N|].
  intros a Ha. exact (ancestor_below _ W _ _ (proj2 (A a Ha))).
Qed.

(** ** One class *)
Lemma indexed_in : forall A (l : list A) i e, In (i, e) (indexed l) <-> nth_error l i = Some e.
Proof.
  intros A l. unfold indexed. assert (G : forall s i e, In (i, e) (combine (seq s (List.length l)) l) <-> s <= i /\ nth_error l (i - s) = Some e).
  { induction l as [|x l IH]; intros s i e; cbn [List.length seq combine].
    - split; [intros []|]. intros [_ H]. destruct (i - s); discriminate H.
    - cbn [In]. rewrite IH. split.
      + intros [H|[H1 H2]]; [injection H as -> ->; split; [lia|rewrite Nat.sub_diag; reflexivity]|]. split; [lia|]. replace (i - s) with (S (i - S s)) by lia. exact H2.
      + intros [H1 H2]. destruct (i - s) as [|j] eqn:E; [left; cbn in H2; injection H2 as ->; f_equal; lia|]. right. split; [lia|]. replace (i - S s) with j by lia. exact H2. }
  intros i e. rewrite G, Nat.sub_0_r. split; [intros [_ H]; exact H|intros H; split; [lia|exact H]].
Qed.

Section One.
Variables (classes : list class) (tab : list infos) (c : class) (m : list (nat * bool)).

Definition free (i : nat) (n : N) : Prop :=
  bound (body c) n = false /\ forall j d f, nth_error m j = Some (d, f) -> j <> i -> regular classes d = true -> bound (body (class_at classes d)) n = false.

Lemma maybe_add_in : forall r link i n, In n (map snd (maybe_add classes c m r link i)) <-> In n (map snd r) \/ n = snd link /\ free i n.
Proof.
  intros r [w x] i n. unfold maybe_add. cbn [snd].
  destruct (bound (body c) x) eqn:B; cbn [orb].
  { split; [auto|]. intros [H|[-> [F _]]]; [exact H|congruence]. }
  destruct (existsb (fun l => (snd l =? x)%N) r) eqn:R.
  { split; [auto|]. intros [H|[-> _]]; [exact H|]. apply existsb_exists in R as [l [Hl El]]. apply N.eqb_eq in El. subst x. apply in_map. exact Hl. }
  destruct (existsb (fun e => negb (i =? fst e)%nat && regular classes (fst (snd e)) && bound (body (class_at classes (fst (snd e)))) x) (indexed m)) eqn:X.
  { split; [auto|]. intros [H|[-> [_ F]]]; [exact H|]. apply existsb_exists in X as [[j [d f]] [Hj X]]. apply indexed_in in Hj. cbn [fst snd] in X.
    apply andb_true_iff in X as [X1 X3]. apply andb_true_iff in X1 as [X1 X2]. apply negb_true_iff, Nat.eqb_neq in X1. rewrite (F j d f Hj (fun E => X1 (eq_sym E)) X2) in X3. discriminate X3. }
  rewrite map_app, in_app_iff. cbn [map snd In]. split.
  - intros [H|[<-|[]]]; [left; exact H|]. right. split; [reflexivity|]. split; [exact B|]. intros j d f Hj Nj Rj.
    destruct (bound (body (class_at classes d)) x) eqn:Bd; [|reflexivity]. exfalso. assert (T : existsb (fun e => negb (i =? fst e)%nat && regular classes (fst (snd e)) && bound (body (class_at classes (fst (snd e)))) x) (indexed m) = true); [|congruence].
    apply existsb_exists. exists (j, (d, f)). split; [apply indexed_in; exact Hj|]. cbn [fst snd]. rewrite Rj, Bd, (proj2 (Nat.eqb_neq i j) (fun E => Nj (eq_sym E))). reflexivity.
  - intros [H|[-> _]]; [left; exact H|right; left; reflexivity].
Qed.

Lemma fold_names : forall A (f : list (nat * N) -> A -> list (nat * N)) (Q : A -> N -> Prop),
  (forall r a n, In n (map snd (f r a)) <-> In n (map snd r) \/ Q a n) ->
  forall l r n, In n (map snd (fold_left f l r)) <-> In n (map snd r) \/ exists a, In a l /\ Q a n.
Proof.
  intros A f Q H l. induction l as [|a l IH]; intros r n; cbn [fold_left].
  - split; [auto|]. intros [G|[a [[] _]]]; exact G.
  - rewrite IH, H. split.
    + intros [[G|G]|[x [Hx G]]]; [left; exact G|right; exists a; split; [left; reflexivity|exact G]|right; exists x; split; [right; exact Hx|exact G]].
    + intros [G|[x [[<-|Hx] G]]]; [left; left; exact G|left; right; exact G|right; exists x; auto].
Qed.

Definition offers (b : nat) (n : N) : Prop :=
  In n (map snd (abstract (infos_at tab b))) \/ protocol c = false /\ In (n, true) (members (infos_at tab b)) /\ ~ In n (self_names c).

Lemma existsb_in : forall n l, existsb (N.eqb n) l = true <-> In n l.
Proof. intros n l. rewrite existsb_exists. split; [intros [x [Hx E]]; apply N.eqb_eq in E; congruence|intros H; exists n; split; [exact H|apply N.eqb_refl]]. Qed.

Lemma add_base_in : forall r e n, In n (map snd (add_base classes tab c m r e)) <->
  In n (map snd r) \/ regular classes (fst (snd e)) = true /\ snd (snd e) = true /\ free (fst e) n /\ offers (fst (snd e)) n.
Proof.
  intros r [i [b d]] n. unfold add_base. cbn [fst snd].
  destruct (regular classes b) eqn:R; [|split; [auto|intros [H|[H _]]; [exact H|discriminate H]]].
  destruct d; [|split; [auto|intros [H|[_ [H _]]]; [exact H|discriminate H]]]. cbn [andb]. cbv zeta.
  assert (I1 := fold_names _ (fun r link => maybe_add classes c m r link i) (fun link n => n = snd link /\ free i n) (fun r a n => maybe_add_in r a i n) (abstract (infos_at tab b))).
  destruct (protocol c) eqn:P.
  - rewrite I1. split.
    + intros [H|[l [Hl [-> F]]]]; [left; exact H|]. right. split; [reflexivity|]. split; [reflexivity|]. split; [exact F|]. left. apply in_map. exact Hl.
    + intros [H|[_ [_ [F [O|[E _]]]]]]; [left; exact H| |congruence]. right. apply in_map_iff in O as [l [<- Hl]]. exists l. auto.
  - rewrite (fold_names _ _ (fun x n => snd x = true /\ n = fst x /\ ~ In n (self_names c) /\ free i n)).
    + rewrite I1. split.
      * intros [[H|[l [Hl [-> F]]]]|[[x t] [Hx [Ht [-> [Ns F]]]]]]; [left; exact H| |]; right; (split; [reflexivity|]; split; [reflexivity|]; split; [exact F|]).
        -- left. apply in_map. exact Hl.
        -- cbn [fst snd] in *. subst t. right. auto.
      * intros [H|[_ [_ [F [O|[_ [O Ns]]]]]]]; [left; left; exact H| |].
        -- apply in_map_iff in O as [l [<- Hl]]. left. right. exists l. auto.
        -- right. exists (n, true). auto.
    + intros r' [x t] n'. cbn [fst snd]. destruct t; cbn [andb]; [|split; [auto|intros [H|[H _]]; [exact H|discriminate H]]].
      destruct (existsb (N.eqb x) (self_names c)) eqn:S; cbn [negb].
      * apply existsb_in in S. split; [auto|]. intros [H|[_ [-> [Ns _]]]]; [exact H|destruct (Ns S)].
      * rewrite maybe_add_in. cbn [snd]. assert (Ns : ~ In x (self_names c)) by (intros Hx; apply existsb_in in Hx; congruence).
        split; [intros [H|[-> F]]; auto|intros [H|[_ [-> [_ F]]]]; auto].
Qed.

Lemma calculate_in : forall n, In n (map snd (calculate_abstract_attributes classes tab c m)) <->
  In n (own_abstract (body c)) \/ exists i b, nth_error m i = Some (b, true) /\ regular classes b = true /\ free i n /\ offers b n.
Proof.
  intros n. unfold calculate_abstract_attributes. rewrite (fold_names _ _ _ add_base_in), map_map, map_id. split.
  - intros [H|[[i [b d]] [Hi [R [D [F O]]]]]]; [left; exact H|]. cbn [fst snd] in *. subst d. right. exists i, b. split; [apply indexed_in; exact Hi|]. auto.
  - intros [H|(i & b & Hi & R & F & O)]; [left; exact H|]. right. exists (i, (b, true)). split; [apply indexed_in; exact Hi|]. auto.
Qed.
End One.

Lemma own_abstract_bound : forall bs n, In n (own_abstract bs) -> bound bs n = true.
Proof. intros bs n H. apply filter_In in H as [_ H]. unfold bound. destruct (first_binding bs n); [reflexivity|discriminate H]. Qed.

Lemma member_bound : forall c n b, In (n, b) (protocol_members excluded c) -> bound (body c) n = true.
Proof.
  intros c n b H. unfold protocol_members in H. destruct (protocol c); [|destruct H]. apply in_flat_map in H as [x [_ H]]. unfold member in H. destruct (excluded x); [destruct H|]. cbv zeta in H. unfold bound.
  destruct (first_binding (body c) x) as [y|] eqn:F; [|destruct H].
  assert (E : n = x). { destruct y as [m ds t|m|m|m|m]; [destruct (List.length (filter (fun b => (name_of b =? x)%N) (body c)) =? 1)%nat| | | |destruct H];
      destruct H as [H|H]; try (injection H as <- _; reflexivity); destruct H. }
  subst x. rewrite F. reflexivity.
Qed.

(** ** All classes *)
Definition class_of (defs : list class) (k : nat) : class := class_at (object_class :: defs) k.

Lemma class_of_app : forall defs c k, k <= List.length defs -> class_of (defs ++ [c]) k = class_of defs k.
Proof. intros defs c k H. unfold class_of, class_at. change (object_class :: defs ++ [c]) with ((object_class :: defs) ++ [c]). apply app_nth1. cbn. lia. Qed.

Lemma infos_app : forall defs c k, k <= List.length defs -> infos_at (table (defs ++ [c])) k = infos_at (table defs) k.
Proof. intros defs c k H. destruct (define_table defs c) as (i & -> & _). unfold infos_at. apply app_nth1. rewrite table_length. lia. Qed.

Lemma class_of_last : forall defs c, class_of (defs ++ [c]) (S (List.length defs)) = c.
Proof. intros defs c. unfold class_of, class_at. cbn [nth]. rewrite app_nth2, Nat.sub_diag by lia. reflexivity. Qed.

(** What [calculate_in] says, in the whole program *)
Definition step (defs : list class) (k : nat) : Prop := forall n,
  In n (map snd (abstract (infos_at (table defs) k))) <->
  In n (own_abstract (body (class_of defs k))) \/
  exists i b, nth_error (mro (infos_at (table defs) k)) i = Some (b, true) /\ dataclass (class_of defs b) = false /\ bound (body (class_of defs k)) n = false /\
    (forall j d f, nth_error (mro (infos_at (table defs) k)) j = Some (d, f) -> j <> i -> dataclass (class_of defs d) = false -> bound (body (class_of defs d)) n = false) /\
    (In n (map snd (abstract (infos_at (table defs) b))) \/
     protocol (class_of defs k) = false /\ In (n, true) (protocol_members excluded (class_of defs b)) /\ ~ In n (self_names (class_of defs k))).

Lemma members_at : forall defs k, k <= List.length defs -> members (infos_at (table defs) k) = protocol_members excluded (class_of defs k).
Proof.
  intros defs. induction defs as [|c defs IH] using rev_ind; intros k H.
  - replace k with 0 by (cbn in H; lia). reflexivity.
  - rewrite app_length in H. cbn in H. destruct (Nat.eq_dec k (S (List.length defs))) as [->|Ne].
    + rewrite class_of_last. destruct (define_table defs c) as (i & -> & M & _). unfold infos_at. rewrite app_nth2, table_length, Nat.sub_diag by (rewrite table_length; lia). exact M.
    + rewrite infos_app, class_of_app by lia. apply IH. lia.
Qed.

Lemma infos_last : forall defs c i, table (defs ++ [c]) = table defs ++ [i] -> infos_at (table (defs ++ [c])) (S (List.length defs)) = i.
Proof. intros defs c i E. rewrite E. unfold infos_at. rewrite app_nth2, table_length, Nat.sub_diag by (rewrite table_length; lia). reflexivity. Qed.

Lemma step_all : forall defs k, scoped defs -> k <= List.length defs -> step defs k.
Proof.
  intros defs. induction defs as [|c defs IH] using rev_ind; intros k W H n.
  - replace k with 0 by (cbn in H; lia). split; [intros Z; destruct Z|]. intros [O|(i & b & Hi & _)]; [change False in O; destruct O|]. destruct i; discriminate Hi.
  - assert (Below := mro_below (defs ++ [c]) k W H). destruct Below as [_ Below]. assert (W' := scoped_app _ _ W). rewrite app_length in H. cbn in H.
    assert (Ent : forall i b f, nth_error (mro (infos_at (table (defs ++ [c])) k)) i = Some (b, f) -> b <= List.length defs).
    { intros i b f Hi. apply nth_error_In in Hi. apply (in_map fst) in Hi. assert (B := Below _ Hi). cbn in B. lia. }
    destruct (Nat.eq_dec k (S (List.length defs))) as [->|Ne].
    + destruct (define_table defs c) as (x & E & M & A & _). rewrite (infos_last defs c x E) in *. rewrite class_of_last, A, calculate_in. unfold free, offers, regular. split.
      * intros [O|(i & b & Hi & R & [F1 F2] & O)]; [left; exact O|]. right. exists i, b. assert (Hb := Ent i b true Hi). split; [exact Hi|]. apply negb_true_iff in R. rewrite class_of_app by exact Hb.
        split; [exact R|]. split; [exact F1|]. split.
        -- intros j d f Hj Nj Dj. assert (Hd := Ent j d f Hj). rewrite class_of_app in * by exact Hd. apply (F2 j d f Hj Nj). apply negb_true_iff. exact Dj.
        -- rewrite infos_app by exact Hb. rewrite <- members_at by exact Hb. exact O.
      * intros [O|(i & b & Hi & R & F1 & F2 & O)]; [left; exact O|]. right. exists i, b. assert (Hb := Ent i b true Hi). split; [exact Hi|]. rewrite class_of_app in * by exact Hb.
        split; [apply negb_true_iff; exact R|]. split; [split; [exact F1|]|].
        -- intros j d f Hj Nj Dj. assert (Hd := Ent j d f Hj). apply negb_true_iff in Dj. assert (G := F2 j d f Hj Nj). rewrite class_of_app in G by exact Hd. exact (G Dj).
        -- rewrite infos_app in O by exact Hb. rewrite members_at by exact Hb. exact O.
    + assert (Hk : k <= List.length defs) by lia. assert (S := IH k W' Hk n). rewrite infos_app, class_of_app in * by exact Hk. rewrite S. split.
      * intros [O|(i & b & Hi & R & F1 & F2 & O)]; [left; exact O|]. right. exists i, b. assert (Hb := Ent i b true Hi). rewrite class_of_app, infos_app by exact Hb.
        split; [exact Hi|]. split; [exact R|]. split; [exact F1|]. split; [|exact O]. intros j d f Hj. rewrite class_of_app by exact (Ent j d f Hj). exact (F2 j d f Hj).
      * intros [O|(i & b & Hi & R & F1 & F2 & O)]; [left; exact O|]. right. exists i, b. assert (Hb := Ent i b true Hi). rewrite class_of_app, infos_app in * by exact Hb.
        split; [exact Hi|]. split; [exact R|]. split; [exact F1|]. split; [|exact O]. intros j d f Hj. assert (G := F2 j d f Hj). rewrite class_of_app in G by exact (Ent j d f Hj). exact G.
Qed.

(** ** Where the names come from *)
Definition accepted_all (defs : list class) : Prop := forall k, k <= List.length defs -> accepted (infos_at (table defs) k) = true.
Notation order_at defs k := (map fst (mro (infos_at (table defs) k))).

Lemma mro_ancestors : forall defs k, scoped defs -> accepted_all defs -> k <= List.length defs ->
  NoDup (order_at defs k) /\ forall a, In a (order_at defs k) <-> a <> 0 /\ ancestor (map bases defs) k a.
Proof.
  intros defs k W A H. apply (ancestors_once (map bases defs) W k).
  - rewrite table_at by exact H. unfold seen. rewrite A by exact H. reflexivity.
  - intros a Ha. assert (L := ancestor_below _ W _ _ Ha). exists (order_at defs a). rewrite table_at by lia. unfold seen. rewrite A by lia. reflexivity.
Qed.

Definition source (defs : list class) (n : N) (d : nat) : Prop :=
  In n (own_abstract (body (class_of defs d))) \/ In (n, true) (protocol_members excluded (class_of defs d)).

Lemma source_bound : forall defs n d, source defs n d -> bound (body (class_of defs d)) n = true.
Proof. intros defs n d [H|H]; [exact (own_abstract_bound _ _ H)|exact (member_bound _ _ _ H)]. Qed.

Lemma provenance : forall defs, scoped defs -> accepted_all defs -> forall n k, k <= List.length defs -> In n (map snd (abstract (infos_at (table defs) k))) ->
  In n (own_abstract (body (class_of defs k))) \/ exists d, In d (order_at defs k) /\ dataclass (class_of defs d) = false /\ source defs n d.
Proof.
  intros defs W A n k. induction k as [k IH] using (well_founded_induction lt_wf). intros H Hn. apply (step_all defs k W H n) in Hn as [O|(i & b & Hi & R & B & F & O)]; [left; exact O|]. right.
  assert (Hb : In b (order_at defs k)) by (apply nth_error_In in Hi; apply (in_map fst) in Hi; exact Hi). assert (L := proj2 (mro_below defs k W H) b Hb).
  destruct O as [O|[_ [O _]]]; [|exists b; split; [exact Hb|]; split; [exact R|right; exact O]].
  destruct (IH b L (Nat.le_trans _ _ _ (Nat.lt_le_incl _ _ L) H) O) as [Own|(d & Hd & Rd & Sd)]; [exists b; split; [exact Hb|]; split; [exact R|left; exact Own]|].
  exists d. split; [|auto]. apply (proj2 (mro_ancestors defs k W A H)). apply (proj2 (mro_ancestors defs b W A (Nat.le_trans _ _ _ (Nat.lt_le_incl _ _ L) H))) in Hd as [Nd Hd].
  apply (proj2 (mro_ancestors defs k W A H)) in Hb as [_ Hb]. split; [exact Nd|exact (anc_more _ _ _ _ Hb Hd)].
Qed.

Theorem exactly : forall defs, scoped defs -> accepted_all defs -> forall k n, k <= List.length defs ->
  In n (map snd (abstract (infos_at (table defs) k))) <->
  In n (own_abstract (body (class_of defs k))) \/
  exists b, In (b, true) (mro (infos_at (table defs) k)) /\ dataclass (class_of defs b) = false /\ bound (body (class_of defs k)) n = false /\
    (forall d, In d (order_at defs k) -> d <> b -> dataclass (class_of defs d) = false -> bound (body (class_of defs d)) n = false) /\
    (In n (own_abstract (body (class_of defs b))) \/
     protocol (class_of defs k) = false /\ In (n, true) (protocol_members excluded (class_of defs b)) /\ ~ In n (self_names (class_of defs k))).
Proof.
  intros defs W A k n H. rewrite (step_all defs k W H n). assert (Nd := proj1 (mro_ancestors defs k W A H)).
  assert (Same : forall i j b f g, nth_error (mro (infos_at (table defs) k)) i = Some (b, f) -> nth_error (mro (infos_at (table defs) k)) j = Some (b, g) -> i = j).
  { intros i j b f g Hi Hj. apply (proj1 (NoDup_nth_error (order_at defs k)) Nd).
    - rewrite map_length. apply nth_error_Some. congruence.
    - erewrite !map_nth_error by eassumption. reflexivity. }
  assert (Others : forall i b, nth_error (mro (infos_at (table defs) k)) i = Some (b, true) ->
    (forall j d f, nth_error (mro (infos_at (table defs) k)) j = Some (d, f) -> j <> i -> dataclass (class_of defs d) = false -> bound (body (class_of defs d)) n = false) <->
    (forall d, In d (order_at defs k) -> d <> b -> dataclass (class_of defs d) = false -> bound (body (class_of defs d)) n = false)).
  { intros i b Hi. split.
    - intros F d Hd Nb Rd. apply in_map_iff in Hd as [[d' f] [<- Hd]]. cbn [fst] in *. apply In_nth_error in Hd as [j Hj]. apply (F j d' f Hj); [|exact Rd]. intros ->. congruence.
    - intros F j d f Hj Nj Rd. apply F; [apply nth_error_In in Hj; apply (in_map fst) in Hj; exact Hj| |exact Rd]. intros ->. apply Nj. exact (Same j i b f true Hj Hi). }
  split; (intros [O|X]; [left; exact O|right]).
  - destruct X as (i & b & Hi & R & B & F & O). exists b. split; [apply nth_error_In in Hi; exact Hi|]. split; [exact R|]. split; [exact B|].
    assert (F' := proj1 (Others i b Hi) F). split; [exact F'|]. destruct O as [O|O]; [|right; exact O]. left.
    assert (Hb : In b (order_at defs k)) by (apply nth_error_In in Hi; apply (in_map fst) in Hi; exact Hi). assert (L := proj2 (mro_below defs k W H) b Hb).
    assert (Lb : b <= List.length defs) by lia. destruct (provenance defs W A n b Lb O) as [Own|(d & Hd & Rd & Sd)]; [exact Own|]. exfalso.
    assert (Ld := proj2 (mro_below defs b W Lb) d Hd). apply (proj2 (mro_ancestors defs b W A Lb)) in Hd as [N0 Hd].
    assert (Hk : In d (order_at defs k)). { apply (proj2 (mro_ancestors defs k W A H)) in Hb as [_ Hb]. apply (proj2 (mro_ancestors defs k W A H)). split; [exact N0|exact (anc_more _ _ _ _ Hb Hd)]. }
    assert (G := F' d Hk (Nat.lt_neq _ _ Ld) Rd). rewrite (source_bound _ _ _ Sd) in G. discriminate G.
  - destruct X as (b & Hi & R & B & F & O). apply In_nth_error in Hi as [i Hi]. exists i, b. split; [exact Hi|]. split; [exact R|]. split; [exact B|]. split; [exact (proj2 (Others i b Hi) F)|].
    destruct O as [O|O]; [left|right; exact O].
    assert (Hb : In b (order_at defs k)) by (apply nth_error_In in Hi; apply (in_map fst) in Hi; exact Hi). assert (L := proj2 (mro_below defs k W H) b Hb).
    apply (step_all defs b W (Nat.le_trans _ _ _ (Nat.lt_le_incl _ _ L) H) n). left. exact O.
Qed.
End Program.

(** ** Python *)
Lemma decorated_plain : forall ds before, Forall plain_decorator ds -> decorated before ds = existsb (fun d => (code d =? "abstractmethod") || (code d =? "abstractproperty"))%string ds.
Proof.
  intros ds before H. induction H as [|d ds Hd Hds IH]; [reflexivity|]. cbn [decorated fold_right existsb]. fold (decorated before ds). rewrite IH. unfold plain_decorator in Hd. destruct (means d).
  - destruct Hd as [-> | ->]; reflexivity.
  - destruct Hd as [H1 H2]. apply String.eqb_neq in H1, H2. rewrite H1, H2. reflexivity.
  - destruct Hd.
  - destruct Hd.
Qed.

Lemma first_binding_none : forall bs n, ~ In n (map name_of bs) -> first_binding bs n = None.
Proof.
  intros bs n H. induction bs as [|b bs IH]; [reflexivity|]. cbn. destruct (N.eqb_spec (name_of b) n) as [E|Ne]; [destruct H; left; exact E|]. apply IH. intros Hn. apply H. right. exact Hn.
Qed.

Lemma execute_plain : forall b values n, plain_binding b -> execute values b n = if (name_of b =? n)%N then Some (marked b) else values n.
Proof.
  intros b values n H. destruct b as [m ds t|m|m|m|m]; cbn [execute name_of marked]; try (rewrite (N.eqb_sym m n); reflexivity).
  - rewrite (N.eqb_sym m n). destruct (n =? m)%N; [|reflexivity]. rewrite decorated_plain by exact H. reflexivity.
  - destruct H.
Qed.

Lemma namespace_plain : forall bs n, NoDup (map name_of bs) -> Forall plain_binding bs -> namespace bs n = option_map marked (first_binding bs n).
Proof.
  intros bs n Nd P. unfold namespace. assert (G : forall values, fold_left execute bs values n = match first_binding bs n with Some b => Some (marked b) | None => values n end).
  { induction P as [|b bs Hb Hbs IH]; intros values; [reflexivity|]. cbn [map] in Nd. inversion Nd as [|x l Hx Hl E]; subst. cbn [fold_left]. rewrite (IH Hl), execute_plain by exact Hb.
    cbn. destruct (N.eqb_spec (name_of b) n) as [<-|Ne]; [|reflexivity]. rewrite (first_binding_none _ _ Hx). reflexivity. }
  rewrite G. destruct (first_binding bs n); reflexivity.
Qed.

Lemma own_abstract_plain : forall bs n, NoDup (map name_of bs) -> Forall plain_binding bs -> (In n (own_abstract bs) <-> namespace bs n = Some true).
Proof.
  intros bs n Nd P. rewrite namespace_plain by assumption. unfold own_abstract. rewrite filter_In. split.
  - intros [_ H]. destruct (first_binding bs n) as [b|]; [cbn; congruence|discriminate H].
  - intros H. destruct (first_binding bs n) as [b|] eqn:F; [|discriminate H]. split; [|injection H as H; exact H].
    apply nodup_In. apply find_some in F as [Hb E]. apply N.eqb_eq in E. subst n. apply in_map. exact Hb.
Qed.

Lemma bound_plain : forall bs n, NoDup (map name_of bs) -> Forall plain_binding bs -> bound bs n = false -> namespace bs n = None.
Proof. intros bs n Nd P H. rewrite namespace_plain by assumption. unfold bound in H. destruct (first_binding bs n); [discriminate H|reflexivity]. Qed.

Section Attribute.
Variable spaces : nat -> N -> option bool.

Lemma attribute_one : forall l n b a, In b l -> spaces b n = Some a -> (forall d, In d l -> d <> b -> spaces d n = None) -> attribute spaces l n = Some a.
Proof.
  intros l n b a Hb Ha Ho. induction l as [|x l IH]; [destruct Hb|]. cbn [attribute]. destruct (Nat.eq_dec x b) as [->|Ne]; [rewrite Ha; reflexivity|].
  rewrite (Ho x (or_introl eq_refl) Ne). apply IH; [destruct Hb as [E|Hb]; [destruct (Ne E)|exact Hb]|]. intros d Hd. exact (Ho d (or_intror Hd)).
Qed.

Lemma attribute_where : forall l n a, attribute spaces l n = Some a -> exists before d after, l = before ++ d :: after /\ spaces d n = Some a /\ forall x, In x before -> spaces x n = None.
Proof.
  intros l n a. induction l as [|x l IH]; intros H; [discriminate H|]. cbn [attribute] in H. destruct (spaces x n) as [y|] eqn:E.
  - injection H as ->. exists [], x, l. split; [reflexivity|]. split; [exact E|]. intros z [].
  - destruct (IH H) as (before & d & after & -> & Hd & Hb). exists (x :: before), d, after. split; [reflexivity|]. split; [exact Hd|]. intros z [<-|Hz]; [exact E|exact (Hb z Hz)].
Qed.

Lemma attribute_sub : forall before d after l n a, subsequence l (before ++ d :: after) -> NoDup (before ++ d :: after) -> In d l ->
  spaces d n = Some a -> (forall x, In x before -> spaces x n = None) -> attribute spaces l n = Some a.
Proof.
  intros before. induction before as [|x before IH]; intros d after l n a H Nd Hd Ha Hb; cbn [app] in *.
  - inversion H as [|y l' r H'|y l' r H']; subst; [cbn [attribute]; rewrite Ha; reflexivity|]. inversion Nd as [|y l0 Hy Hl E]; subst. destruct (Hy (subsequence_in _ _ _ H' Hd)).
  - inversion Nd as [|y l0 Hy Hl E]; subst. inversion H as [|y l' r H'|y l' r H']; subst.
    + cbn [attribute]. rewrite (Hb x (or_introl eq_refl)). apply (IH d after l' n a H' Hl); [|exact Ha|intros z Hz; exact (Hb z (or_intror Hz))].
      destruct Hd as [->|Hd]; [|exact Hd]. destruct Hy. apply in_or_app. right. left. reflexivity.
    + exact (IH d after l n a H' Hl Hd Ha (fun z Hz => Hb z (or_intror Hz))).
Qed.
End Attribute.

(** The linearizations of bases are part of that of the class. *)
Lemma python_bases : forall defs tab, python_accepts defs tab -> List.length tab = S (List.length defs) /\
  forall k bs b, nth_error defs k = Some bs -> In b bs -> exists r, nth (S k) tab [] = S k :: r /\ subsequence (nth b tab []) r.
Proof.
  intros defs tab H. induction H as [|defs tab bs r H [L IH] Hb Hm].
  - split; [reflexivity|]. intros k bs b Hk. destruct k; discriminate Hk.
  - split; [rewrite !app_length, L; reflexivity|]. intros k cs b Hk Hin. assert (Lk : k < List.length (defs ++ [bs])) by (apply nth_error_Some; congruence). rewrite app_length in Lk. cbn in Lk.
    destruct (Nat.eq_dec k (List.length defs)) as [->|Ne].
    + rewrite nth_error_app2, Nat.sub_diag in Hk by lia. injection Hk as <-. exists r. rewrite app_nth2, L, Nat.sub_diag by lia. split; [reflexivity|].
      rewrite app_nth1 by exact (Hb b Hin). apply (c3_subsequence _ _ Hm). apply in_or_app. left. destruct bs; [destruct Hin|]. apply (in_map (fun x => nth x tab [])). exact Hin.
    + rewrite nth_error_app1 in Hk by lia. destruct (IH k cs b Hk Hin) as (r' & E & S). exists r'. rewrite app_nth1 by lia. split; [exact E|].
      destruct (Nat.lt_ge_cases b (List.length tab)) as [Lb|Lb]; [rewrite app_nth1 by exact Lb; exact S|]. exfalso.
      assert (G : forall d t, python_accepts d t -> forall j bb x, nth_error d j = Some bb -> In x bb -> x < List.length t).
      { clear. intros d t H. induction H as [|d t bb r H IH Hb Hm]; intros j cc x Hj Hx; [destruct j; discriminate Hj|]. rewrite app_length. cbn.
        destruct (Nat.lt_ge_cases j (List.length d)) as [Lj|Lj]; [rewrite nth_error_app1 in Hj by exact Lj; assert (K := IH j cc x Hj Hx); lia|].
        rewrite nth_error_app2 in Hj by exact Lj. destruct (j - List.length d) as [|q]; [injection Hj as <-; assert (K := Hb x Hx); lia|destruct q; discriminate Hj]. }
      assert (K := G _ _ H k cs b Hk Hin). lia.
Qed.

Section Python.
Variables (excluded : N -> bool) (defs : list class) (tab : list (list nat)).
Hypothesis Accepts : python_accepts (map bases defs) tab.
Hypothesis Orderly : orderly (map bases defs).
Notation order k := (nth k tab []).
Notation infos k := (infos_at (snd (program_infos excluded defs)) k).
Notation abstract_in := (abstract_name (bases_of defs) (space_of defs) (fun k => order k)).

Lemma python_scoped : scoped defs.
Proof. exact (proj1 (program_python _ _ Accepts Orderly)). Qed.

Lemma python_accepted : accepted_all excluded defs.
Proof.
  intros k H. destruct (program_python _ _ Accepts Orderly) as (_ & Hacc & _ & _). assert (E := table_at excluded defs k H). apply nth_error_In in E. exact (Hacc _ E).
Qed.

Lemma python_order : forall k, k <= List.length defs -> order k = whole k (map fst (mro (infos k))).
Proof.
  intros k H. destruct (program_python _ _ Accepts Orderly) as (_ & _ & _ & Ha). rewrite Ha by (rewrite map_length; exact H). f_equal. unfold stored_in.
  rewrite (nth_error_nth _ _ ([], true) (table_at excluded defs k H)). reflexivity.
Qed.

Lemma object_space : forall n, space_of defs 0 n = None.
Proof. reflexivity. Qed.

Lemma order_nodup : forall k, k <= List.length defs -> NoDup (order k).
Proof.
  intros k H. rewrite python_order by exact H. destruct k as [|k]; [repeat constructor; intros []|]. destruct (mro_ancestors excluded defs (S k) python_scoped python_accepted H) as [Nd A].
  assert (N0 : ~ In 0 (map fst (mro (infos (S k))))) by (intros H0; apply A in H0 as [H0 _]; exact (H0 eq_refl)).
  assert (NS : ~ In (S k) (map fst (mro (infos (S k))))) by (intros HS; apply (proj2 (mro_below excluded defs (S k) python_scoped H)) in HS; lia).
  cbn [whole]. constructor.
  - rewrite in_app_iff. intros [HS|[HS|[]]]; [exact (NS HS)|discriminate HS].
  - clear NS A. induction (map fst (mro (infos (S k)))) as [|x l IH]; [repeat constructor; intros []|]. inversion Nd as [|y l0 Hy Hl E]; subst. cbn [app]. constructor.
    + rewrite in_app_iff. intros [Hx|[Hx|[]]]; [exact (Hy Hx)|]. apply N0. left. symmetry. exact Hx.
    + apply IH; [exact Hl|]. intros H0. apply N0. right. exact H0.
Qed.

(** ABCMeta keeps exactly the names whose attribute is abstract. *)
Lemma python_attribute : forall k n, k <= List.length defs -> attribute (space_of defs) (order k) n = Some true -> abstract_in k n.
Proof.
  intros k. induction k as [k IH] using (well_founded_induction lt_wf). intros n H Ha. destruct (attribute_where _ _ _ _ Ha) as (before & d & after & E & Hd & Hb).
  assert (Eo := python_order k H). destruct k as [|k].
  { cbn [whole] in Eo. rewrite Eo in Ha. cbn [attribute] in Ha. rewrite object_space in Ha. discriminate Ha. }
  cbn [whole] in Eo. destruct (Nat.eq_dec d (S k)) as [->|Nk]; [apply an_own; exact Hd|].
  assert (N0 : d <> 0) by (intros ->; rewrite object_space in Hd; discriminate Hd).
  assert (Hin : In d (map fst (mro (infos (S k))))).
  { assert (G : In d (order (S k))) by (rewrite E; apply in_or_app; right; left; reflexivity). rewrite Eo in G. destruct G as [G|G]; [destruct Nk; symmetry; exact G|].
    apply in_app_or in G as [G|[G|[]]]; [exact G|]. destruct N0. symmetry. exact G. }
  apply (proj2 (mro_ancestors excluded defs (S k) python_scoped python_accepted H)) in Hin as [_ Hin].
  destruct (ancestor_first _ _ _ Hin) as (k' & bs & b & Ek & Hbs & Hbin & Hdb). injection Ek as <-.
  destruct (python_bases _ _ Accepts) as [_ Pb]. destruct (Pb k bs b Hbs Hbin) as (r & Er & Sub).
  assert (Lb : b <= k) by exact (python_scoped k bs b Hbs Hbin).
  assert (Db : In d (order b)).
  { rewrite python_order by lia. destruct Hdb as [->|Hdb]; [destruct b; [left; reflexivity|left; reflexivity]|].
    destruct b as [|b]; [apply ancestor_first in Hdb as (q & ? & ? & Q & _); discriminate Q|]. right. apply in_or_app. left.
    apply (proj2 (mro_ancestors excluded defs (S b) python_scoped python_accepted ltac:(lia))). split; [exact N0|exact Hdb]. }
  apply (an_base _ _ _ (S k) b n).
  - unfold bases_of. change (nth (S k) (object_class :: defs) object_class) with (nth k defs object_class). rewrite nth_error_map in Hbs. destruct (nth_error defs k) as [c|] eqn:Ec; [|discriminate Hbs].
    rewrite (nth_error_nth _ _ object_class Ec). injection Hbs as <-. exact Hbin.
  - apply IH; [lia|lia|]. apply (attribute_sub (space_of defs) before d after (order b) n true); try assumption.
    + rewrite <- E, Er. apply sub_skip. exact Sub.
    + rewrite <- E. exact (order_nodup (S k) H).
  - exact Ha.
Qed.

Lemma space_class : forall k n, space_of defs k n = namespace (body (class_of defs k)) n.
Proof. reflexivity. Qed.

Lemma plain_at : Forall plain defs -> forall k, plain (class_of defs k).
Proof.
  intros P k. unfold class_of, class_at. destruct (nth_in_or_default k (object_class :: defs) object_class) as [[<-|Hin]| ->].
  - repeat constructor.
  - rewrite Forall_forall in P. exact (P _ Hin).
  - repeat constructor.
Qed.

Theorem reported_abstract : Forall plain defs -> forall k n, k <= List.length defs -> In n (map snd (abstract (infos k))) -> abstract_in k n.
Proof.
  intros P k n H Hn. assert (Pl := plain_at P). apply (exactly excluded defs python_scoped python_accepted k n H) in Hn as [O|(b & Hb & Db & B & F & O)].
  - apply an_own. rewrite space_class. destruct (Pl k) as (N1 & P1 & _). apply own_abstract_plain; assumption.
  - assert (O' : In n (own_abstract (body (class_of defs b)))).
    { destruct O as [O|[_ [O _]]]; [exact O|]. unfold protocol_members in O. destruct (Pl b) as (_ & _ & _ & Pr). rewrite Pr in O. destruct O. }
    apply (in_map fst) in Hb. cbn [fst] in Hb. apply python_attribute; [exact H|]. rewrite python_order by exact H. destruct k as [|k]; [assert (L := proj2 (mro_below excluded defs 0 python_scoped H) b Hb); lia|]. cbn [whole].
    apply (attribute_one _ _ n b true).
    + right. apply in_or_app. left. exact Hb.
    + rewrite space_class. destruct (Pl b) as (N1 & P1 & _). apply own_abstract_plain; assumption.
    + intros d [<-|Hd] Nb.
      * rewrite space_class. destruct (Pl (S k)) as (N1 & P1 & _). apply bound_plain; assumption.
      * apply in_app_or in Hd as [Hd|[<-|[]]]; [|apply object_space]. rewrite space_class. destruct (Pl d) as (N1 & P1 & D1 & _). apply bound_plain; try assumption. exact (F d Hd Nb D1).
Qed.
End Python.

(** ** A class with one base *)
Lemma outer_one : forall r fuel t a m l, List.length r < fuel -> NoDup r -> ~ In 0 r -> 1 <= a ->
  outer_direct fuel [mk_iter (S t) r] a m l = Some (rev m ++ map (fun x => (x, false)) r, l).
Proof.
  intros r. induction r as [|x r IH]; intros fuel t a m l Hf Nd N0 Ha; (destruct fuel as [|fuel]; [cbn in Hf; lia|]).
  - cbn [outer_direct List.length]. rewrite Nat.min_r by exact Ha. cbn. rewrite app_nil_r. reflexivity.
  - cbn [outer_direct List.length]. rewrite Nat.min_r by exact Ha. inversion Nd as [|y l0 Hy Hl E]; subst. cbn [firstn find_candidate rest conflicts existsb tl].
    assert (C : existsb (Nat.eqb x) r = false).
    { destruct (existsb (Nat.eqb x) r) eqn:C; [|reflexivity]. apply existsb_exists in C as [z [Hz Ez]]. apply Nat.eqb_eq in Ez. subst z. destruct (Hy Hz). }
    rewrite C. cbn [orb taken map next_if rest fst snd fold_right]. assert (X0 : x <> 0) by (intros ->; apply N0; left; reflexivity). unfold object. rewrite (proj2 (Nat.eqb_neq x 0) X0), Nat.eqb_refl.
    cbn [Nat.eqb]. rewrite IH; [|cbn in Hf; lia|exact Hl|intros H0; apply N0; right; exact H0|lia]. cbn [rev map]. rewrite <- app_assoc. reflexivity.
Qed.

Lemma linearize_one : forall stored b, b <> 0 -> NoDup (b :: stored b) -> ~ In 0 (stored b) -> linearize_direct stored [b] = Some ((b, true) :: map (fun x => (x, false)) (stored b), true).
Proof.
  intros stored b B0 Nd N0. unfold linearize_direct. cbv zeta. unfold base_iterators, total. cbn [map fold_right rest object_not_last]. unfold object. rewrite (proj2 (Nat.eqb_neq b 0) B0). cbn [negb outer_direct List.length].
  cbn [Nat.min firstn find_candidate rest conflicts existsb tl]. inversion Nd as [|y l0 Hy Hl E]; subst.
  assert (C : existsb (Nat.eqb b) (stored b) = false).
  { destruct (existsb (Nat.eqb b) (stored b)) eqn:C; [|reflexivity]. apply existsb_exists in C as [z [Hz Ez]]. apply Nat.eqb_eq in Ez. subst z. destruct (Hy Hz). }
  rewrite C. cbn [orb taken map next_if rest fst snd fold_right]. unfold object. rewrite (proj2 (Nat.eqb_neq b 0) B0), Nat.eqb_refl. cbn [Nat.eqb]. rewrite outer_one; [reflexivity|lia|exact Hl|exact N0|lia].
Qed.

Section Child.
Variables (excluded : N -> bool) (defs : list class).
Notation infos k := (infos_at (snd (program_infos excluded defs)) k).

(** The direct bases, where there is only one *)
Lemma one_direct : scoped defs -> accepted_all excluded defs -> forall k b, S k <= List.length defs -> bases (class_of defs (S k)) = [b] -> b <> 0 -> In (b, true) (mro (infos (S k))).
Proof.
  intros W A k b H Eb B0.
  assert (G : forall ds, scoped ds -> accepted_all excluded ds -> S k <= List.length ds -> bases (class_of ds (S k)) = [b] -> In (b, true) (mro (infos_at (snd (program_infos excluded ds)) (S k)))).
  2: exact (G defs W A H Eb).
  clear defs W A H Eb. intros ds. induction ds as [|c ds IH] using rev_ind; intros W A H Eb; [cbn in H; lia|]. rewrite app_length in H. cbn in H.
  assert (W' := scoped_app _ _ W).
  assert (A' : accepted_all excluded ds) by (intros q Hq; rewrite <- (infos_app excluded ds c q Hq); apply A; rewrite app_length; cbn; lia).
  destruct (Nat.eq_dec k (List.length ds)) as [->|Ne].
  - rewrite class_of_last in Eb. rewrite program_app. assert (C := program_classes excluded ds). assert (L := table_length excluded ds).
    assert (Lb : b <= List.length ds).
    { apply (W (List.length ds) [b] b); [|left; reflexivity]. rewrite map_app. cbn [map]. rewrite nth_error_app2 by (rewrite map_length; lia). rewrite map_length, Nat.sub_diag, Eb. reflexivity. }
    destruct (mro_ancestors excluded ds b W' A' Lb) as [Nd An]. assert (Below := proj2 (mro_below excluded ds b W' Lb)).
    destruct (program_infos excluded ds) as [cl t]. cbn [fst snd] in *. subst cl. unfold define. rewrite Eb. cbn [distinct_bases mem_id existsb rev app].
    rewrite linearize_one.
    + cbn [fst snd andb]. unfold infos_at. rewrite app_nth2, L, Nat.sub_diag by lia. left. reflexivity.
    + exact B0.
    + constructor; [intros Hb; apply Below in Hb; lia|exact Nd].
    + intros H0. apply An in H0 as [H0 _]. exact (H0 eq_refl).
  - rewrite infos_app by lia. apply IH; [exact W'|exact A'|lia|]. rewrite class_of_app in Eb by lia. exact Eb.
Qed.

Theorem child : scoped defs -> accepted_all excluded defs -> forall k b n, S k <= List.length defs -> bases (class_of defs (S k)) = [b] -> b <> 0 -> dataclass (class_of defs b) = false ->
  In n (own_abstract (body (class_of defs b))) -> bound (body (class_of defs (S k))) n = false ->
  (forall d, ancestor (map bases defs) (S k) d -> d <> b -> bound (body (class_of defs d)) n = false) -> In n (map snd (abstract (infos (S k)))).
Proof.
  intros W A k b n H Eb B0 D O B F. apply (exactly excluded defs W A (S k) n H). right. exists b. split; [exact (one_direct W A k b H Eb B0)|]. split; [exact D|]. split; [exact B|]. split; [|left; exact O].
  intros d Hd Nd _. apply (F d); [|exact Nd]. exact (proj2 (proj1 (proj2 (mro_ancestors excluded defs (S k) W A H) d) Hd)).
Qed.
End Child.

(** ** Members of protocols *)
Section Members.
Variable excluded : N -> bool.

Lemma is_overload_iff : forall ds, existsb is_overload ds = true <-> overloaded ds.
Proof.
  intros ds. rewrite existsb_exists. unfold is_overload, overloaded. split; intros [d [Hd H]]; exists d; (split; [exact Hd|]).
  - apply orb_true_iff in H as [H|H]; apply String.eqb_eq in H; auto.
  - destruct H as [-> | ->]; reflexivity.
Qed.

Lemma first_filter : forall bs n, first_binding bs n = hd_error (filter (fun b => (name_of b =? n)%N) bs).
Proof. intros bs n. induction bs as [|b bs IH]; [reflexivity|]. cbn. destruct (name_of b =? n)%N; [reflexivity|exact IH]. Qed.

Lemma functions_filter : forall bs n (P : list decorator -> Prop), (forall ds, In ds (functions bs n) -> P ds) <-> Forall (alternatives P) (filter (fun b => (name_of b =? n)%N) bs).
Proof.
  intros bs n P. unfold functions. rewrite Forall_forall. split.
  - intros H b Hb. apply filter_In in Hb as [Hb E]. destruct b as [m ds t|m|m|m|m]; try exact Logic.I. cbn [alternatives name_of] in *. apply H. apply in_flat_map. exists (Function m ds t). split; [exact Hb|]. rewrite E. left. reflexivity.
  - intros H ds Hd. apply in_flat_map in Hd as [b [Hb Hd]]. destruct b as [m ds' t|m|m|m|m]; try destruct Hd. destruct (m =? n)%N eqn:E; [|destruct Hd]. destruct Hd as [<-|[]].
    apply (H (Function m ds' t)). apply filter_In. split; [exact Hb|exact E].
Qed.

Lemma member_iff : forall c n, In (n, true) (protocol_members excluded c) <-> unimplemented excluded c n.
Proof.
  intros c n. unfold protocol_members, unimplemented. destruct (protocol c); [|split; [intros []|intros [H _]; discriminate H]]. rewrite in_flat_map.
  assert (M : In (n, true) (member excluded c n) <-> excluded n = false /\ in_stub c = false /\ ~ In n (self_names c) /\ left_open (filter (fun b => (name_of b =? n)%N) (body c))).
  { unfold member. destruct (excluded n); [split; [intros []|intros [H _]; discriminate H]|]. cbv zeta. rewrite first_filter.
    assert (Fr : negb (in_stub c) && negb (existsb (N.eqb n) (self_names c)) = true <-> in_stub c = false /\ ~ In n (self_names c)).
    { rewrite andb_true_iff, !negb_true_iff. rewrite <- (existsb_in n (self_names c)). destruct (existsb (N.eqb n) (self_names c)); split; intros [H1 H2]; split; auto; try discriminate H2; destruct (H2 eq_refl). }
    assert (Ff := functions_filter (body c) n). remember (filter (fun b => (name_of b =? n)%N) (body c)) as l eqn:El.
    destruct l as [|b l]; cbn [hd_error]; [split; [intros []|intros (_ & _ & _ & H); inversion H]|]. destruct b as [m ds t|m|m|m|m].
    - destruct l as [|b l]; cbn [List.length Nat.eqb].
      + cbn [In]. split.
        * intros [E|[]]. injection E as E. apply andb_true_iff in E as [E1 ->]. apply Fr in E1 as [E1 E2]. split; [reflexivity|]. split; [exact E1|]. split; [exact E2|]. constructor.
        * intros (_ & E1 & E2 & H). inversion H; subst. left. f_equal. apply andb_true_iff. split; [apply Fr; auto|reflexivity].
      + cbn [In]. set (fs := functions (body c) n) in *. split.
        * intros [E|[]]. injection E as E. apply andb_true_iff in E as [E1 E3]. apply Fr in E1 as [E1 E2]. split; [reflexivity|]. split; [exact E1|]. split; [exact E2|].
          apply negb_true_iff, andb_false_iff in E3 as [E3|E3].
          -- apply lo_several. apply Ff. intros x Hx Ov. apply is_overload_iff in Ov. assert (T : existsb (existsb is_overload) fs = true) by (apply existsb_exists; exists x; auto). congruence.
          -- apply lo_overloads. apply Ff. intros x Hx. apply is_overload_iff. destruct (existsb is_overload x) eqn:Ex; [reflexivity|]. exfalso.
             assert (T : existsb (fun ds => negb (existsb is_overload ds)) fs = true) by (apply existsb_exists; exists x; rewrite Ex; auto). congruence.
        * intros (_ & E1 & E2 & H). left. f_equal. apply andb_true_iff. split; [apply Fr; auto|]. apply negb_true_iff, andb_false_iff.
          inversion H as [| | |n' ds' t' b' l' F|n' ds' t' b' l' F]; subst.
          -- right. destruct (existsb (fun ds => negb (existsb is_overload ds)) fs) eqn:X; [|reflexivity]. apply existsb_exists in X as [x [Hx X]]. apply negb_true_iff in X.
             assert (Ov := proj2 (Ff overloaded) F x Hx). apply is_overload_iff in Ov. congruence.
          -- left. destruct (existsb (existsb is_overload) fs) eqn:X; [|reflexivity]. apply existsb_exists in X as [x [Hx X]].
             assert (Ov := proj2 (Ff (fun ds => ~ overloaded ds)) F x Hx). apply is_overload_iff in X. destruct (Ov X).
    - cbn [In]. split; [intros [E|[]]; discriminate E|]. intros (_ & _ & _ & H). inversion H.
    - cbn [In]. split.
      + intros [E|[]]. injection E as E. apply Fr in E as [E1 E2]. split; [reflexivity|]. split; [exact E1|]. split; [exact E2|]. constructor.
      + intros (_ & E1 & E2 & _). left. f_equal. apply Fr. auto.
    - cbn [In]. split.
      + intros [E|[]]. injection E as E. apply Fr in E as [E1 E2]. split; [reflexivity|]. split; [exact E1|]. split; [exact E2|]. constructor.
      + intros (_ & E1 & E2 & _). left. f_equal. apply Fr. auto.
    - split; [intros []|]. intros (_ & _ & _ & H). inversion H. }
  split.
  - intros [x [_ H]]. split; [reflexivity|]. assert (E : n = x).
    { unfold member in H. destruct (excluded x); [destruct H|]. cbv zeta in H. destruct (first_binding (body c) x) as [y|]; [|destruct H].
      destruct y as [m ds t|m|m|m|m]; [destruct (List.length (filter (fun b => (name_of b =? x)%N) (body c)) =? 1)%nat| | | |destruct H]; destruct H as [H|H]; try (injection H as <- _; reflexivity); destruct H. }
    subst x. apply M. exact H.
  - intros [_ H]. exists n. split; [|apply M; exact H]. destruct H as (_ & _ & _ & H). unfold symbols. apply nodup_In.
    assert (G : exists b, In b (filter (fun b => (name_of b =? n)%N) (body c))) by (inversion H; eexists; left; reflexivity). destruct G as [b G]. apply filter_In in G as [G E]. apply N.eqb_eq in E. subst n. apply in_map. exact G.
Qed.
End Members.

Lemma bound_iff : forall bs n, bound bs n = false <-> ~ defines bs n.
Proof.
  intros bs n. unfold bound, defines. split.
  - intros H Hn. destruct (first_binding bs n) eqn:F; [discriminate H|]. apply in_map_iff in Hn as [b [<- Hb]]. assert (G := find_none _ _ F b Hb). cbv beta in G. rewrite N.eqb_refl in G. discriminate G.
  - intros H. rewrite (first_binding_none _ _ H). reflexivity.
Qed.

Lemma own_abstract_iff : forall bs n, In n (own_abstract bs) <-> looks_abstract bs n.
Proof.
  intros bs n. unfold own_abstract. rewrite filter_In. unfold symbols. rewrite nodup_In.
  assert (M : match first_binding bs n with Some b => marked b | None => false end = true <-> looks_abstract bs n).
  { induction bs as [|b bs IH].
    - split; [discriminate|]. intros (before & ds & t & after & d & E & _). destruct before; discriminate E.
    - cbn. destruct (N.eqb_spec (name_of b) n) as [<-|Ne].
      + split.
        * intros H. destruct b as [m ds t|m|m|m|m]; try discriminate H. cbn [marked] in H. apply existsb_exists in H as [d [Hd H]]. exists [], ds, t, bs, d. split; [reflexivity|]. split; [intros []|]. split; [exact Hd|].
          apply orb_true_iff in H as [H|H]; apply String.eqb_eq in H; auto.
        * intros (before & ds & t & after & d & E & N & Hd & Hc). destruct before as [|x before]; [|injection E as <- _; destruct N; left; reflexivity]. injection E as -> ->. cbn [marked]. apply existsb_exists. exists d. split; [exact Hd|].
          destruct Hc as [-> | ->]; reflexivity.
      + unfold first_binding in IH. rewrite IH. split.
        * intros (before & ds & t & after & d & -> & N & Hd). exists (b :: before), ds, t, after, d. split; [reflexivity|]. split; [intros [H|H]; [exact (Ne H)|exact (N H)]|exact Hd].
        * intros (before & ds & t & after & d & E & N & Hd). destruct before as [|x before]; [injection E as -> _; destruct (Ne eq_refl)|]. injection E as -> ->. exists before, ds, t, after, d. split; [reflexivity|]. split; [intros H; apply N; right; exact H|exact Hd]. }
  rewrite M. split; [intros [_ H]; exact H|]. intros H. split; [|exact H]. destruct H as (before & ds & t & after & d & -> & _). rewrite map_app. apply in_or_app. right. left. reflexivity.
Qed.

(** ** The direct bases *)
Section Direct.
Variables (stored : nat -> list nat) (bs : list nat).
Definition entry_ok (e : nat * bool) : Prop := if snd e then In (fst e) bs else exists b, In b bs /\ In (fst e) (stored b).
Definition iter_ok (it : iter) : Prop :=
  (taken it = 0 /\ exists b, In b bs /\ rest it = b :: stored b) \/ (taken it <> 0 /\ exists b, In b bs /\ incl (rest it) (stored b)).

Lemma head_ok : forall it x r, iter_ok it -> rest it = x :: r -> entry_ok (x, Nat.eqb (taken it) 0) /\ iter_ok (mk_iter (S (taken it)) r).
Proof.
  intros it x r [[T (b & Hb & E)]|[T (b & Hb & E)]] R.
  - rewrite E in R. injection R as <- <-. rewrite T. cbn. split; [exact Hb|]. right. split; [discriminate|]. exists b. split; [exact Hb|apply incl_refl].
  - rewrite (proj2 (Nat.eqb_neq _ _) T). rewrite R in E. split; [exists b; split; [exact Hb|apply E; left; reflexivity]|]. right. split; [discriminate|]. exists b. split; [exact Hb|]. intros y Hy. apply E. right. exact Hy.
Qed.

Lemma find_candidate_ok : forall all usable had i c h, Forall iter_ok usable -> find_candidate all usable had = (Some (i, c), h) -> entry_ok (c, Nat.eqb i 0).
Proof.
  intros all usable. induction usable as [|it usable IH]; intros had i c h F E; [discriminate E|]. cbn in E. inversion F as [|x l Hx Hl]; subst. destruct (rest it) as [|x r] eqn:R; [exact (IH _ _ _ _ Hl E)|].
  destruct (conflicts all x); [exact (IH _ _ _ _ Hl E)|]. injection E as <- <- <-. exact (proj1 (head_ok it x r Hx R)).
Qed.

Lemma next_if_ok : forall c it, iter_ok it -> iter_ok (fst (next_if c it)).
Proof. intros c it H. unfold next_if. destruct (rest it) as [|x r] eqn:R; [exact H|]. cbn [fst]. destruct (x =? c)%nat; [exact (proj2 (head_ok it x r H R))|exact H]. Qed.

Lemma take_first_ok : forall its i x its', Forall iter_ok its -> take_first its = Some ((i, x), its') -> entry_ok (x, Nat.eqb i 0) /\ Forall iter_ok its'.
Proof.
  intros its. induction its as [|it its IH]; intros i x its' F E; [discriminate E|]. cbn in E. inversion F as [|y l Hy Hl]; subst. destruct (rest it) as [|z r] eqn:R.
  - destruct (take_first its) as [[e r']|]; [|discriminate E]. injection E as -> <-. destruct (IH i x r' Hl eq_refl) as [E1 E2]. split; [exact E1|constructor; assumption].
  - injection E as <- <- <-. destruct (head_ok it z r Hy R) as [E1 E2]. split; [exact E1|constructor; assumption].
Qed.

Lemma outer_entries : forall fuel its a m l r ok, Forall iter_ok its -> Forall entry_ok m -> outer_direct fuel its a m l = Some (r, ok) -> Forall entry_ok r.
Proof.
  intros fuel. induction fuel as [|fuel IH]; intros its a m l r ok Fi Fm E; [discriminate E|]. cbn [outer_direct] in E.
  destruct (find_candidate its (firstn (Nat.min a (List.length its)) its) false) as [[[i c]|] h] eqn:C.
  - cbv zeta in E. assert (Fu : Forall iter_ok (firstn (Nat.min a (List.length its)) its)).
    { rewrite <- (firstn_skipn (Nat.min a (List.length its)) its) in Fi. apply Forall_app in Fi as [Fi _]. exact Fi. }
    assert (Fn : Forall iter_ok (map fst (map (next_if c) its))).
    { rewrite map_map. apply Forall_map. eapply Forall_impl; [|exact Fi]. intros it. apply next_if_ok. }
    destruct (c =? object)%nat; [exact (IH _ _ _ _ _ _ Fn Fm E)|]. refine (IH _ _ _ _ _ _ Fn _ E). constructor; [|exact Fm]. exact (find_candidate_ok _ _ _ _ _ _ Fu C).
  - destruct h.
    + destruct (take_first its) as [[[i x] its']|] eqn:T; [|discriminate E]. destruct (take_first_ok _ _ _ _ Fi T) as [E1 E2].
      destruct (mem_id x (map fst m) && negb (x =? object)%nat); [refine (IH _ _ _ _ _ _ E2 _ E); constructor; assumption|exact (IH _ _ _ _ _ _ E2 Fm E)].
    + injection E as <- _. apply Forall_rev. exact Fm.
Qed.

Lemma linearize_entries : forall r ok, linearize_direct stored bs = Some (r, ok) -> Forall entry_ok r.
Proof.
  intros r ok E. unfold linearize_direct in E. refine (outer_entries _ _ _ _ _ _ _ _ _ E); [|constructor]. unfold base_iterators. apply Forall_map. apply Forall_forall. intros b Hb. left. split; [reflexivity|]. exists b. auto.
Qed.
End Direct.

Lemma distinct_incl : forall bs acc b, In b (fst (distinct_bases acc bs)) -> In b acc \/ In b bs.
Proof.
  intros bs. induction bs as [|x bs IH]; intros acc b H; cbn in H; [left; apply in_rev; exact H|].
  destruct (mem_id x acc); [destruct (IH acc b H) as [G|G]; [left; exact G|right; right; exact G]|].
  destruct (IH (x :: acc) b H) as [[G|G]|G]; [right; left; exact G|left; exact G|right; right; exact G].
Qed.

Lemma infos_tail : forall t i, infos_at (t ++ [i]) (List.length t) = i.
Proof. intros t i. unfold infos_at. rewrite app_nth2, Nat.sub_diag by lia. reflexivity. Qed.

Lemma direct_entries : forall excluded defs k, scoped defs -> S k <= List.length defs -> Forall (fun e : nat * bool =>
    if snd e then In (fst e) (bases (class_of defs (S k))) else exists b, In b (bases (class_of defs (S k))) /\ In (fst e) (map fst (mro (infos_at (snd (program_infos excluded defs)) b))))
  (mro (infos_at (snd (program_infos excluded defs)) (S k))).
Proof.
  intros excluded ds k. induction ds as [|c ds IH] using rev_ind; intros W H; [cbn in H; lia|]. assert (W' := scoped_app _ _ W). rewrite app_length in H. cbn in H.
  assert (Bk : forall b, In b (bases (class_of (ds ++ [c]) (S k))) -> b <= k).
  { intros b Hb. apply (W k (bases (class_of (ds ++ [c]) (S k))) b); [|exact Hb]. rewrite nth_error_map. unfold class_of, class_at. cbn [nth].
    rewrite (nth_error_nth' (ds ++ [c]) object_class) by (rewrite app_length; cbn; lia). reflexivity. }
  destruct (Nat.eq_dec k (List.length ds)) as [->|Ne].
  - rewrite class_of_last in *.
    assert (G : Forall (fun e : nat * bool => if snd e then In (fst e) (bases c) else exists b, In b (bases c) /\ In (fst e) (map fst (mro (infos_at (snd (program_infos excluded ds)) b))))
      (mro (infos_at (snd (program_infos excluded (ds ++ [c]))) (S (List.length ds))))).
    { rewrite program_app. assert (C := program_classes excluded ds). assert (L := table_length excluded ds). destruct (program_infos excluded ds) as [cl t]. cbn [fst snd] in *. subst cl. unfold define.
      assert (Di := distinct_incl (bases c) []). destruct (distinct_bases [] (bases c)) as [bs d]. cbn [fst] in Di.
      destruct (linearize_direct (fun k => map fst (mro (infos_at t k))) bs) as [[m l]|] eqn:E; cbn [snd]; rewrite <- L, infos_tail; cbn [mro]; [|constructor].
      eapply Forall_impl; [|exact (linearize_entries _ _ _ _ E)]. intros [x f]. unfold entry_ok. cbn [fst snd]. destruct f.
      - intros Hx. destruct (Di x Hx) as [[]|Hd]. exact Hd.
      - intros (b & Hb & Hx). exists b. split; [|exact Hx]. destruct (Di b Hb) as [[]|Hd]. exact Hd. }
    eapply Forall_impl; [|exact G]. intros [x f]. cbn [fst snd]. destruct f; [auto|]. intros (b & Hb & Hx). exists b. split; [exact Hb|]. rewrite infos_app by exact (Bk b Hb). exact Hx.
  - assert (Lk : S k <= List.length ds) by lia. assert (G := IH W' Lk). rewrite infos_app, class_of_app in * by exact Lk. eapply Forall_impl; [|exact G]. intros [x f]. cbn [fst snd]. destruct f; [auto|].
    intros (b & Hb & Hx). exists b. split; [exact Hb|]. rewrite infos_app by (assert (B := Bk b Hb); lia). exact Hx.
Qed.

(** A base counts as direct unless it is also above another base. *)
Theorem direct_bases : forall excluded defs, scoped defs -> accepted_all excluded defs -> forall k b, k <= List.length defs ->
  (In (b, true) (mro (infos_at (snd (program_infos excluded defs)) k)) -> In b (bases (class_of defs k))) /\
  (In b (bases (class_of defs k)) -> b <> 0 -> (forall d, In d (bases (class_of defs k)) -> ~ ancestor (map bases defs) d b) -> In (b, true) (mro (infos_at (snd (program_infos excluded defs)) k))).
Proof.
  intros excluded defs W A k b H. destruct k as [|k].
  { split; [|intros []]. intros Hb. apply (in_map fst) in Hb. apply (proj2 (mro_below excluded defs 0 W H)) in Hb. cbn in Hb. lia. }
  assert (D := direct_entries excluded defs k W H). rewrite Forall_forall in D. split; [intros Hb; exact (D _ Hb)|]. intros Hb B0 No.
  assert (Hk : nth_error (map bases defs) k = Some (bases (class_of defs (S k)))).
  { rewrite nth_error_map. unfold class_of, class_at. cbn [nth]. rewrite (nth_error_nth' defs object_class) by lia. reflexivity. }
  assert (Hin : In b (map fst (mro (infos_at (snd (program_infos excluded defs)) (S k))))).
  { apply (proj2 (mro_ancestors excluded defs (S k) W A H)). split; [exact B0|]. exact (anc_base _ _ _ _ Hk Hb). }
  apply in_map_iff in Hin as [[x f] [E Hin]]. cbn [fst] in E. subst x. destruct f; [exact Hin|]. exfalso. destruct (D _ Hin) as (d & Hd & Hx). cbn [fst] in Hx. apply (No d Hd).
  assert (Ld : d <= k) by exact (W k _ d Hk Hd). exact (proj2 (proj1 (proj2 (mro_ancestors excluded defs d W A ltac:(lia)) b) Hx)).
Qed.
