(** Proofs about references and renaming. *)
From Coq Require Import List Bool NArith Arith Lia.
From Verif Require Import RenameModel RenameSpec.
Import ListNotations.
Open Scope list_scope.
Open Scope nat_scope.

Lemma text_eqb_iff : forall a b, text_eqb a b = true <-> a = b.
Proof. intros a b. unfold text_eqb. destruct (list_eq_dec N.eq_dec a b); split; intros H; try discriminate H; try contradiction; auto. Qed.
Lemma position_eqb_iff : forall a b, position_eqb a b = true <-> a = b.
Proof.
  intros [a1 a2] [b1 b2]. unfold position_eqb. cbn. rewrite andb_true_iff, !Nat.eqb_eq. split; [intros [-> ->]; reflexivity|intros H; injection H as -> ->; auto].
Qed.
Lemma contains_iff : forall l p, contains l p = true <-> In p l.
Proof.
  intros l p. unfold contains. rewrite existsb_exists. split; [intros (x & Hx & H); apply position_eqb_iff in H; subst; exact Hx|intros H; exists p; split; [exact H|apply position_eqb_iff; reflexivity]].
Qed.

(** ** Scopes *)
Lemma reachable_function : forall s, existsb is_function (reachable_from s) = true <-> inside_function s.
Proof.
  induction s as [|s IH|s IH|s IH]; cbn.
  - split; [discriminate|intros H; inversion H].
  - rewrite IH. split; [intros H; constructor; exact H|intros H; inversion H; assumption].
  - split; [intros _; constructor|reflexivity].
  - split; [intros _; constructor|reflexivity].
Qed.
Lemma globally_iff : forall o, globally_reachable (TreeName o) = false <-> inside_function (o_scope o).
Proof.
  intros o. cbn [globally_reachable]. rewrite negb_false_iff. rewrite <- reachable_function. unfold scopes. destruct (o_scope o); reflexivity.
Qed.

Section Project.
Variable p : project.
Notation pos := to_unique_position.
Notation on_goto := (on_goto (stub_or_module p) (also_defined p)).

Lemma keep : forall g b c l f, definitions f <> [] -> fold_left (on_goto g b c) l f = f.
Proof.
  intros g b c l. induction l as [|n l IH]; intros f H; [reflexivity|]. cbn [fold_left]. assert (E : on_goto g b c f n = f) by (unfold RenameModel.on_goto; destruct (definitions f); [destruct (H eq_refl)|reflexivity]). rewrite E. exact (IH f H).
Qed.

Definition kept (g : goal) (b : bool) (c : nat) (n : name) : list name := if b && match g with OnlyCurrentFile => name_file n =? c | _ => true end then with_others p n else [].

Lemma first_only : forall g b c d rest, fold_left (on_goto g b c) (d :: rest) (mk_found [] [] false) =
  mk_found (pos d :: map pos (all_definitions p d)) (match stub_or_module p d with Some x => kept g b c x | None => [] end ++ kept g b c d) (globally_reachable d).
Proof.
  intros g b c d rest. cbn [fold_left]. rewrite keep.
  - unfold RenameModel.on_goto. cbn [definitions]. unfold all_definitions, kept, add_definitions. destruct (stub_or_module p d) as [x|]; cbn [definitions definition_results is_globally_reachable app orb]; [rewrite map_app|]; reflexivity.
  - unfold RenameModel.on_goto. cbn [definitions]. destruct (stub_or_module p d); cbn; discriminate.
Qed.

Lemma in_file : forall defs search f o, In o (find_references_in_file (leads_to p) (names p) defs search f) <->
  In o (names p f) /\ o_text o = search /\ (exists d, In d (leads_to p o) /\ In (pos d) defs) /\ ~ In (pos (TreeName o)) defs.
Proof.
  intros defs search f o. unfold find_references_in_file. rewrite filter_In, !andb_true_iff, text_eqb_iff, negb_true_iff, existsb_exists, <- not_true_iff_false, contains_iff.
  split; [intros (H1 & (H2 & (d & H3 & H4)) & H5); apply contains_iff in H4; eauto 8|intros (H1 & H2 & (d & H3 & H4) & H5); split; [exact H1|]; split; [|exact H5]; split; [exact H2|]; exists d; split; [exact H3|apply contains_iff; exact H4]].
Qed.
Lemma in_files : forall defs search fs o, In o (find_references_in_workspace_entries (leads_to p) (names p) (file_mentions p) defs search fs) <->
  exists f, In f fs /\ file_mentions p f search = true /\ In o (names p f) /\ o_text o = search /\ (exists d, In d (leads_to p o) /\ In (pos d) defs) /\ ~ In (pos (TreeName o)) defs.
Proof.
  intros defs search fs o. unfold find_references_in_workspace_entries. rewrite in_flat_map. split.
  - intros (f & Hf & Ho). apply filter_In in Hf as [Hf Hm]. apply in_file in Ho. exists f. auto.
  - intros (f & Hf & Hm & Ho). exists f. split; [apply filter_In; auto|apply in_file; exact Ho].
Qed.

(** ** Changes by file *)
Lemma push_change_spec : forall changes o file os, NoDup (map fst changes) -> In (file, os) (push_change changes o) ->
  (file <> o_file o /\ In (file, os) changes) \/ (file = o_file o /\ ((exists os', os = os' ++ [o] /\ In (file, os') changes) \/ (os = [o] /\ ~ In file (map fst changes)))).
Proof.
  intros changes o file os. induction changes as [|[f l] changes IH]; intros N H.
  - destruct H as [H|[]]. injection H as <- <-. right. split; [reflexivity|]. right. split; [reflexivity|intros []].
  - cbn in H. cbn in N. apply NoDup_cons_iff in N as [Nf N]. destruct (Nat.eqb_spec f (o_file o)) as [E|E].
    + destruct H as [H|H].
      * injection H as <- <-. right. split; [exact E|]. left. exists l. split; [reflexivity|left; reflexivity].
      * left. split; [|right; exact H]. intros X. apply Nf. apply in_map_iff. exists (file, os). split; [cbn; congruence|exact H].
    + destruct H as [H|H].
      * injection H as <- <-. left. split; [exact E|left; reflexivity].
      * destruct (IH N H) as [[X Y]|[X [(os' & Y & Z)|[Y Z]]]]; [left; split; [exact X|right; exact Y]|right; split; [exact X|]; left; exists os'; split; [exact Y|right; exact Z]|right; split; [exact X|]; right; split; [exact Y|]].
        intros [W|W]; [cbn in W; congruence|exact (Z W)].
Qed.
Lemma push_change_keys : forall changes o, map fst (push_change changes o) = if existsb (Nat.eqb (o_file o)) (map fst changes) then map fst changes else map fst changes ++ [o_file o].
Proof.
  induction changes as [|[f l] changes IH]; intros o; [reflexivity|]. cbn. rewrite (Nat.eqb_sym (o_file o) f). destruct (f =? o_file o); cbn; [reflexivity|]. rewrite IH. destruct (existsb _ _); reflexivity.
Qed.
Lemma push_change_nodup : forall changes o, NoDup (map fst changes) -> NoDup (map fst (push_change changes o)).
Proof.
  intros changes o N. rewrite push_change_keys. destruct (existsb (Nat.eqb (o_file o)) (map fst changes)) eqn:E; [exact N|]. apply NoDup_rev in N. rewrite <- (rev_involutive (map fst changes)), <- (rev_involutive [o_file o]), <- rev_app_distr.
  apply NoDup_rev. cbn. constructor; [|exact N]. intros H. apply in_rev in H. rewrite <- not_true_iff_false, existsb_exists in E. apply E. exists (o_file o). split; [exact H|apply Nat.eqb_refl].
Qed.

Definition trees (ns : list name) : list occurrence := flat_map (fun n => match n with TreeName o => [o] | ModuleName _ => [] end) ns.
Definition modules (ns : list name) : list nat := flat_map (fun n => match n with TreeName _ => [] | ModuleName f => [f] end) ns.
Lemma in_trees : forall ns o, In o (trees ns) <-> In (TreeName o) ns.
Proof.
  intros ns o. unfold trees. rewrite in_flat_map. split; [intros ([x|f] & H & X); [destruct X as [->|[]]; exact H|destruct X]|intros H; exists (TreeName o); split; [exact H|left; reflexivity]].
Qed.
Lemma in_modules : forall ns f, In f (modules ns) <-> In (ModuleName f) ns.
Proof.
  intros ns f. unfold modules. rewrite in_flat_map. split; [intros ([x|f'] & H & X); [destruct X|destruct X as [->|[]]; exact H]|intros H; exists (ModuleName f); split; [exact H|left; reflexivity]].
Qed.

(** The groups are the names of each file *)
Definition grouped (changes : list (nat * list occurrence)) (os : list occurrence) : Prop :=
  NoDup (map fst changes) /\ (forall file l, In (file, l) changes -> l = filter (fun o => o_file o =? file) os /\ l <> []) /\ (forall o, In o os -> In (o_file o) (map fst changes)).
Lemma group_push : forall changes os o, grouped changes os -> grouped (push_change changes o) (os ++ [o]).
Proof.
  intros changes os o (N & G & C). split; [exact (push_change_nodup changes o N)|]. split.
  - intros file l H. rewrite filter_app. cbn [filter]. destruct (push_change_spec changes o file l N H) as [[X Y]|[X [(l' & -> & Z)|[-> Z]]]].
    + destruct (G file l Y) as [-> Ne]. destruct (Nat.eqb_spec (o_file o) file) as [E|_]; [destruct (X (eq_sym E))|]. rewrite app_nil_r. auto.
    + subst file. rewrite Nat.eqb_refl. destruct (G _ _ Z) as [-> Ne]. split; [reflexivity|]. intros E. apply app_eq_nil in E as [_ E]. discriminate E.
    + subst file. rewrite Nat.eqb_refl. split; [|discriminate]. assert (E : filter (fun x => o_file x =? o_file o) os = []); [|rewrite E; reflexivity].
      destruct (filter _ os) as [|x r] eqn:E; [reflexivity|]. assert (Hx : In x (filter (fun x => o_file x =? o_file o) os)) by (rewrite E; left; reflexivity). apply filter_In in Hx as [Hx Hf]. apply Nat.eqb_eq in Hf. destruct Z. rewrite <- Hf. exact (C x Hx).
  - intros x Hx. rewrite push_change_keys. apply in_app_or in Hx as [Hx|[<-|[]]].
    + destruct (existsb _ _); [exact (C x Hx)|apply in_or_app; left; exact (C x Hx)].
    + destruct (existsb (Nat.eqb (o_file o)) (map fst changes)) eqn:E; [apply existsb_exists in E as (k & Hk & E); apply Nat.eqb_eq in E; subst; exact Hk|apply in_or_app; right; left; reflexivity].
Qed.
Lemma add_changes : forall ns changes fs os, grouped changes os ->
  grouped (fst (fold_left add_change ns (changes, fs))) (os ++ trees ns) /\ snd (fold_left add_change ns (changes, fs)) = fs ++ modules ns.
Proof.
  induction ns as [|n ns IH]; intros changes fs os G; [cbn; rewrite !app_nil_r; auto|]. cbn [fold_left trees modules flat_map]. fold (trees ns) (modules ns). destruct n as [o|f]; cbn [add_change fst snd app].
  - destruct (IH (push_change changes o) fs (os ++ [o]) (group_push _ _ _ G)) as [G' E]. rewrite <- app_assoc in G'. auto.
  - destruct (IH changes (fs ++ [f]) os G) as [G' E]. rewrite <- app_assoc in E. auto.
Qed.
Lemma grouped_renamed : forall changes os o, grouped changes os -> renamed changes o <-> In o os.
Proof.
  intros changes os o (N & G & C). split.
  - intros (file & l & H & Ho). destruct (G file l H) as [-> _]. apply filter_In in Ho. apply Ho.
  - intros Ho. pose proof (C o Ho) as K. apply in_map_iff in K as ([file l] & E & H). cbn in E. subst file. exists (o_file o), l. split; [exact H|]. destruct (G _ _ H) as [-> _]. apply filter_In. split; [exact Ho|apply Nat.eqb_refl].
Qed.

(** ** Which names *)
Section Right.
Variables (means : occurrence -> nat) (thing : name -> nat).
Hypothesis R : right p means thing.

Lemma found_right : forall o, occurs p o -> exists d rest, leads_to p o = d :: rest /\
  (forall x, In x (find p OnlyTypeCheckedWorkspaces true o) <-> In x (all_definitions p d) \/ exists y, x = TreeName y /\ occurs p y /\ o_text y = o_text o /\ means y = means o /\ ~ In (pos x) (map pos (all_definitions p d))).
Proof.
  intros o Ho. destruct (right_common _ _ _ R o o Ho Ho eq_refl) as (d0 & d & rest & _ & E & _). exists d, rest. split; [exact E|]. unfold find, references. rewrite E, first_only. cbn [definitions definition_results is_globally_reachable].
  assert (K : match stub_or_module p d with Some x => kept OnlyTypeCheckedWorkspaces true (o_file o) x | None => [] end ++ kept OnlyTypeCheckedWorkspaces true (o_file o) d = all_definitions p d) by reflexivity.
  rewrite K. intros x. rewrite in_app_iff, in_map_iff.
  assert (Hd : In d (leads_to p o)) by (rewrite E; left; reflexivity).
  assert (Self : In (pos d) (map pos (all_definitions p d))) by (apply in_map; unfold all_definitions; apply in_or_app; right; left; reflexivity).
  assert (Defs : forall q, In q (pos d :: map pos (all_definitions p d)) <-> In q (map pos (all_definitions p d))) by (intros q; cbn; split; [intros [<-|H]; [exact Self|exact H]|auto]).
  assert (FM : forall x', In x' (all_definitions p d) -> In x' (flat_map (all_definitions p) (leads_to p o))) by (intros x' H; apply in_flat_map; exists d; auto).
  assert (M : forall y, occurs p y -> (exists e, In e (leads_to p y) /\ In (pos e) (map pos (all_definitions p d))) <-> means y = means o).
  { intros y Hy. split.
    - intros (e & He & H). apply in_map_iff in H as (x' & Ex & Hx). rewrite <- (right_leads _ _ _ R y e Hy He), <- (right_things _ _ _ R o d x' Ho Hd Hx). exact (right_places _ _ _ R y o e x' Hy Ho He (FM x' Hx) (eq_sym Ex)).
    - intros H. destruct (right_common _ _ _ R y o Hy Ho H) as (e & d' & rest' & He & E' & Hp). rewrite E in E'. injection E' as <- _. eauto. }
  split.
  - intros [H|(y & <- & H)]; [left; exact H|right]. exists y. split; [reflexivity|].
    assert (Hy : occurs p y /\ o_text y = o_text o /\ (exists e, In e (leads_to p y) /\ In (pos e) (pos d :: map pos (all_definitions p d))) /\ ~ In (pos (TreeName y)) (pos d :: map pos (all_definitions p d))).
    { destruct (negb (globally_reachable d)).
      - apply in_file in H as (H1 & H2). split; [|exact H2]. destruct Ho as (f & Hf & Ho). destruct (right_files _ _ _ R f o Ho) as [Ef _]. rewrite Ef in H1. exists f. auto.
      - apply in_files in H as (f & Hf & _ & Hy & H2). split; [exists f; auto|exact H2]. }
    destruct Hy as (Hy & H2 & (e & He & H3) & H4). rewrite Defs in H3, H4. split; [exact Hy|]. split; [exact H2|]. split; [apply M; [exact Hy|eauto]|exact H4].
  - intros [H|(y & -> & Hy & H2 & H3 & H4)]; [left; exact H|right]. exists y. split; [reflexivity|]. assert (L : exists e, In e (leads_to p y) /\ In (pos e) (pos d :: map pos (all_definitions p d))).
    { apply (M y Hy) in H3 as (e & He & H3). exists e. split; [exact He|]. apply Defs. exact H3. }
    assert (N : ~ In (pos (TreeName y)) (pos d :: map pos (all_definitions p d))) by (rewrite Defs; exact H4).
    pose proof Hy as (f & Hf & Hin). destruct (right_files _ _ _ R f y Hin) as [Ef Em]. destruct (globally_reachable d) eqn:G; cbn [negb].
    + apply in_files. exists f. rewrite <- H2. auto 6.
    + apply in_file. split; [|auto]. destruct d as [d|m]; [|discriminate G]. apply globally_iff in G. rewrite <- (right_local _ _ _ R o y d rest Ho Hy E G H3), Ef. exact Hin.
Qed.

Theorem renames_right : forall o new, occurs p o -> o_text o <> new -> exists changes fs d rest, rename p o new = Some (changes, fs) /\ leads_to p o = d :: rest /\
  (forall x, renamed changes x <-> occurs p x /\ o_text x = o_text o /\ means x = means o) /\
  (forall f, In f fs <-> In (ModuleName f) (all_definitions p d)).
Proof.
  intros o new Ho Ne. destruct (found_right o Ho) as (d & rest & E & F). unfold rename, references_for_rename. destruct (text_eqb (o_text o) new) eqn:T; [apply text_eqb_iff in T; destruct (Ne T)|].
  fold (find p OnlyTypeCheckedWorkspaces true o). destruct (find p OnlyTypeCheckedWorkspaces true o) as [|n ns] eqn:Ef.
  - exfalso. apply (F d). left. unfold all_definitions. apply in_or_app. right. left. reflexivity.
  - rewrite <- Ef in *. clear n ns Ef T. set (ns := find p OnlyTypeCheckedWorkspaces true o) in *.
    destruct (add_changes ns [] [] []) as [G Es]; [split; [constructor|]; split; [intros ? ? []|intros ? []]|]. exists (fst (fold_left add_change ns ([], []))), (snd (fold_left add_change ns ([], []))), d, rest.
    split; [rewrite <- surjective_pairing; reflexivity|]. split; [exact E|]. cbn [app] in G, Es. split.
    + intros x. rewrite (grouped_renamed _ _ x G), in_trees, F. assert (Hd : In d (leads_to p o)) by (rewrite E; left; reflexivity). split.
      * intros [H|(y & X & Hy & H2 & H3 & H4)]; [|injection X as <-; auto]. destruct (right_definitions _ _ _ R o x Ho) as [O1 O2]; [apply in_flat_map; exists d; auto|]. split; [exact O1|]. split; [exact O2|].
        rewrite <- (right_means _ _ _ R x O1). exact (right_things _ _ _ R o d _ Ho Hd H).
      * intros (Hx & Tx & H). destruct (in_dec (fun a b : position => ltac:(decide equality; apply Nat.eq_dec)) (pos (TreeName x)) (map pos (all_definitions p d))) as [I1|I1]; [left|right; exists x; auto].
        apply in_map_iff in I1 as (y & Ey & Hy). rewrite <- (right_names _ _ _ R x o y Hx Ho); [exact Hy|apply in_flat_map; exists d; auto|auto].
    + intros f. rewrite Es, in_modules, F. split; [intros [H|(y & X & _)]; [exact H|discriminate X]|auto].
Qed.
End Right.

(** ** Once *)
Definition start_of (o : occurrence) : position := (o_file o, o_start o).
Lemma nodup_app : forall {A} (a b : list A), NoDup a -> NoDup b -> (forall x, In x a -> ~ In x b) -> NoDup (a ++ b).
Proof.
  intros A a b Na Nb D. induction a as [|x a IH]; [exact Nb|]. apply NoDup_cons_iff in Na as [Nx Na]. cbn. constructor.
  - intros H. apply in_app_or in H as [H|H]; [exact (Nx H)|exact (D x (or_introl eq_refl) H)].
  - apply IH; [exact Na|]. intros y Hy. apply D. right. exact Hy.
Qed.
Lemma nodup_map_filter : forall {A B} (g : A -> B) f l, NoDup (map g l) -> NoDup (map g (filter f l)).
Proof.
  intros A B g f l. induction l as [|x l IH]; intros N; [constructor|]. cbn in *. apply NoDup_cons_iff in N as [Nx N]. destruct (f x); [|exact (IH N)]. cbn. constructor; [|exact (IH N)].
  intros H. apply Nx. apply in_map_iff in H as (y & E & H). apply filter_In in H as [H _]. apply in_map_iff. eauto.
Qed.
Lemma trees_app : forall a b, trees (a ++ b) = trees a ++ trees b.
Proof. intros a b. unfold trees. apply flat_map_app. Qed.
Lemma trees_tree : forall l, trees (map TreeName l) = l.
Proof. induction l as [|o l IH]; [reflexivity|]. cbn. f_equal. exact IH. Qed.
Lemma nodup_trees : forall ns, NoDup (map pos ns) -> NoDup (map start_of (trees ns)).
Proof.
  induction ns as [|n ns IH]; intros N; [constructor|]. cbn in N. apply NoDup_cons_iff in N as [Nn N]. destruct n as [o|f]; cbn; [|exact (IH N)]. constructor; [|exact (IH N)].
  intros H. apply Nn. apply in_map_iff in H as (x & E & H). apply in_trees in H. apply in_map_iff. exists (TreeName x). split; [exact E|exact H].
Qed.

Hypothesis place : forall f o, In o (names p f) -> o_file o = f.
Hypothesis once : forall f, NoDup (map o_start (names p f)).
Hypothesis files_once : NoDup (files p).

Lemma names_once : forall f, NoDup (map start_of (names p f)).
Proof.
  intros f. assert (E : map start_of (names p f) = map (fun s => (f, s)) (map o_start (names p f))).
  { rewrite map_map. apply map_ext_in. intros o Ho. unfold start_of. rewrite (place f o Ho). reflexivity. }
  rewrite E. clear E. pose proof (once f) as Z. induction Z as [|s l H N IH]; [constructor|]. cbn. constructor; [|exact IH]. intros X. apply in_map_iff in X as (y & Ey & Hy). injection Ey as ->. exact (H Hy).
Qed.
Lemma files_apart : forall defs search fs, NoDup fs -> NoDup (map start_of (find_references_in_workspace_entries (leads_to p) (names p) (file_mentions p) defs search fs)).
Proof.
  intros defs search fs. unfold find_references_in_workspace_entries. induction fs as [|f fs IH]; intros N; [constructor|]. apply NoDup_cons_iff in N as [Nf N]. cbn [filter]. destruct (file_mentions p f search); [|exact (IH N)].
  cbn [flat_map]. rewrite map_app. apply nodup_app; [apply nodup_map_filter; exact (names_once f)|exact (IH N)|].
  intros x Hx Hy. apply in_map_iff in Hx as (o & <- & Ho). apply in_map_iff in Hy as (o' & E & Ho'). apply filter_In in Ho as [Ho _]. apply in_flat_map in Ho' as (f' & Hf' & Ho'). apply filter_In in Hf' as [Hf' _]. apply filter_In in Ho' as [Ho' _].
  apply Nf. unfold start_of in E. injection E as E _. rewrite <- (place f o Ho), <- E, (place f' o' Ho'). exact Hf'.
Qed.
Theorem renamed_once : forall o new changes fs, rename p o new = Some (changes, fs) -> (forall d, In d (leads_to p o) -> NoDup (map pos (all_definitions p d))) ->
  NoDup (map fst changes) /\ forall file os, In (file, os) changes -> os <> [] /\ Forall (fun x => o_file x = file) os /\ NoDup (map o_start os).
Proof.
  intros o new changes fs E Nd. unfold rename, references_for_rename in E. destruct (text_eqb (o_text o) new); [injection E as <- <-; split; [constructor|intros ? ? []]|]. fold (find p OnlyTypeCheckedWorkspaces true o) in E.
  assert (N : NoDup (map start_of (trees (find p OnlyTypeCheckedWorkspaces true o)))).
  { assert (Lift : forall defs dres refs, NoDup (map pos dres) -> (forall x, In x dres -> In (pos x) defs) -> NoDup (map start_of refs) -> (forall x, In x refs -> ~ In (pos (TreeName x)) defs) ->
      NoDup (map start_of (trees (dres ++ map TreeName refs)))).
    { intros defs dres refs N1 I1 N2 I2. rewrite trees_app, trees_tree, map_app. apply nodup_app; [exact (nodup_trees dres N1)|exact N2|]. intros x Hx Hy. apply in_map_iff in Hx as (a & <- & Ha). apply in_map_iff in Hy as (b & Eb & Hb).
      apply (I2 b Hb). change (pos (TreeName b)) with (start_of b). rewrite Eb. change (start_of a) with (pos (TreeName a)). apply I1. apply in_trees. exact Ha. }
    unfold find, references. destruct (leads_to p o) as [|d rest] eqn:El.
    - cbn [fold_left definitions]. destruct (o_defines o); [|constructor]. apply (Lift [pos (TreeName o)]); cbn [definitions definition_results is_globally_reachable negb].
      + constructor; [intros []|constructor].
      + intros x [<-|[]]. left. reflexivity.
      + apply nodup_map_filter. apply names_once.
      + intros x Hx. apply in_file in Hx. apply Hx.
    - rewrite first_only. cbn [definitions definition_results is_globally_reachable]. apply (Lift (pos d :: map pos (all_definitions p d))).
      + apply (Nd d). left. reflexivity.
      + intros x Hx. right. apply in_map. exact Hx.
      + destruct (negb (globally_reachable d)); [apply nodup_map_filter; apply names_once|apply files_apart; exact files_once].
      + intros x Hx. destruct (negb (globally_reachable d)); [apply in_file in Hx; apply Hx|apply in_files in Hx as (f & Hx); apply Hx]. }
  destruct (find p OnlyTypeCheckedWorkspaces true o) as [|n ns] eqn:Ef; [discriminate E|]. rewrite <- Ef in *. injection E as E. destruct (add_changes (find p OnlyTypeCheckedWorkspaces true o) [] [] []) as [G _]; [split; [constructor|]; split; [intros ? ? []|intros ? []]|].
  cbn [app] in G. rewrite E in G. cbn [fst] in G. destruct G as (G1 & G2 & _). split; [exact G1|]. intros file os H. destruct (G2 file os H) as [-> Ne]. split; [exact Ne|]. split; [apply Forall_forall; intros x Hx; apply filter_In in Hx as [_ Hx]; apply Nat.eqb_eq; exact Hx|].
  apply (nodup_map_filter _ (fun x => o_file x =? file)) in N. clear - N. revert N. generalize (trees (find p OnlyTypeCheckedWorkspaces true o)). intros l. induction l as [|x l IH]; intros N; [constructor|]. cbn in *. destruct (o_file x =? file) eqn:Ex; [|exact (IH N)].
  cbn in *. apply NoDup_cons_iff in N as [Nx N]. constructor; [|exact (IH N)]. intros H. apply Nx. apply in_map_iff in H as (y & Ey & Hy). apply in_map_iff. exists y. split; [|exact Hy]. apply filter_In in Hy as [_ Hy]. apply Nat.eqb_eq in Ex, Hy. unfold start_of. congruence.
Qed.
End Project.

(** ** URIs *)
Lemma split_last_none : forall c t, ~ In c t -> split_last c t = None.
Proof. induction t as [|d t IH]; intros H; [reflexivity|]. cbn. rewrite IH; [|intros X; apply H; right; exact X]. destruct (N.eqb_spec d c) as [->|_]; [destruct H; left; reflexivity|reflexivity]. Qed.
Lemma split_last_at : forall c a b, ~ In c b -> split_last c (a ++ c :: b) = Some (a, b).
Proof. induction a as [|d a IH]; intros b H; cbn; [rewrite (split_last_none c b H), N.eqb_refl; reflexivity|]. rewrite (IH b H). reflexivity. Qed.
Lemma trim_keeps : forall t c, c <> slash -> trim_slashes (t ++ [c]) = t ++ [c].
Proof. induction t as [|d t IH]; intros c H; cbn; [destruct (N.eqb_spec c slash) as [->|_]; [destruct (H eq_refl)|reflexivity]|]. rewrite (IH c H). destruct t; reflexivity. Qed.

Theorem uri_right : forall dir c stem ext new, c <> slash -> stem <> [] -> ~ In slash stem -> ~ In slash ext -> ~ In dot ext -> stem <> init ->
  to_uri ((dir ++ [c]) ++ [slash] ++ stem ++ [dot] ++ ext) new = Some ((dir ++ [c]) ++ [slash] ++ new ++ [dot] ++ ext).
Proof.
  intros dir c stem ext new Hc Ns Hs He Hd Hi. set (d := dir ++ [c]).
  assert (S1 : split_last slash (d ++ [slash] ++ stem ++ [dot] ++ ext) = Some (d, stem ++ [dot] ++ ext)).
  { apply split_last_at. intros H. apply in_app_or in H as [H|[H|H]]; [exact (Hs H)|discriminate H|exact (He H)]. }
  assert (S2 : split_last dot (stem ++ [dot] ++ ext) = Some (stem, ext)) by (apply split_last_at; exact Hd).
  unfold to_uri, parent, extension, file_stem, file_name. rewrite S1, S2. destruct stem as [|x stem]; [destruct (Ns eq_refl)|].
  destruct (text_eqb (x :: stem) init) eqn:T; [apply text_eqb_iff in T; destruct (Hi T)|]. unfold d at 1 2. rewrite (trim_keeps dir c Hc). fold d. rewrite firstn_app, Nat.sub_diag, firstn_all. cbn [firstn app]. rewrite app_nil_r. reflexivity.
Qed.
