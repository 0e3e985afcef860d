(** Proofs about the model of dataclasses. *)
From Coq Require Import List NArith PeanoNat Bool Lia Wf_nat.
From Verif Require Import DataclassModel DataclassSpec.
Import ListNotations.
Open Scope N_scope.

(** ** Dictionaries *)
Fixpoint fset (d : list pyfield) (f : pyfield) : list pyfield :=
  match d with [] => [f] | g :: d => if f_name f =? f_name g then f :: d else g :: fset d f end.
Definition fsets (d fs : list pyfield) : list pyfield := fold_left fset fs d.
Definition names (d : list pyfield) : list N := map f_name d.

Lemma map_replace_none : forall d f, ~ In (f_name f) (names d) -> map (fun g => if same_name f g then f else g) d = d.
Proof.
  induction d as [|g d IH]; intros f H; [reflexivity|]. cbn [map names] in *. unfold same_name at 1. destruct (N.eqb_spec (f_name f) (f_name g)) as [E|E].
  - exfalso. apply H. left. auto.
  - rewrite IH; [reflexivity|]. intros X. apply H. right. exact X.
Qed.

Lemma existsb_name : forall d f, existsb (same_name f) d = true <-> In (f_name f) (names d).
Proof.
  intros d f. rewrite existsb_exists. unfold names. rewrite in_map_iff. split.
  - intros [g [H1 H2]]. exists g. apply N.eqb_eq in H2. auto.
  - intros [g [H1 H2]]. exists g. split; [exact H2|]. apply N.eqb_eq. auto.
Qed.

Lemma py_set_eq : forall d f, NoDup (names d) -> py_set d f = fset d f.
Proof.
  intros d f H. unfold py_set. destruct (existsb (same_name f) d) eqn:E.
  - apply existsb_name in E. induction d as [|g d IH]; [destruct E|]. cbn [map fset]. inversion H as [|x l H1 H2]; subst. unfold same_name at 1.
    destruct (N.eqb_spec (f_name f) (f_name g)) as [X|X].
    + rewrite map_replace_none; [reflexivity|]. rewrite X. exact H1.
    + rewrite IH; [reflexivity|exact H2|]. destruct E as [E|E]; [congruence|exact E].
  - assert (X : ~ In (f_name f) (names d)) by (rewrite <- existsb_name; congruence). clear E H. induction d as [|g d IH]; [reflexivity|]. cbn [fset app].
    destruct (N.eqb_spec (f_name f) (f_name g)) as [Y|Y]; [exfalso; apply X; left; auto|]. rewrite <- IH; [reflexivity|]. intros Z. apply X. right. exact Z.
Qed.

Lemma fset_names : forall d f n, In n (names (fset d f)) <-> n = f_name f \/ In n (names d).
Proof.
  induction d as [|g d IH]; intros f n; cbn [fset names map In].
  - split; intros [H|H]; auto; contradiction.
  - destruct (N.eqb_spec (f_name f) (f_name g)) as [E|E]; cbn [map In].
    + rewrite <- E. split; intros H; repeat destruct H as [H|H]; auto.
    + change (map f_name (fset d f)) with (names (fset d f)). rewrite IH. split; intros H; repeat destruct H as [H|H]; auto.
Qed.

Lemma fset_NoDup : forall d f, NoDup (names d) -> NoDup (names (fset d f)).
Proof.
  induction d as [|g d IH]; intros f H; cbn [fset names map].
  - constructor; [intros []|constructor].
  - inversion H as [|x l H1 H2]; subst. destruct (N.eqb_spec (f_name f) (f_name g)) as [E|E]; cbn [map].
    + rewrite E. exact H.
    + constructor; [|exact (IH f H2)]. intros X. apply fset_names in X as [X|X]; [congruence|contradiction].
Qed.

Lemma fsets_NoDup : forall fs d, NoDup (names d) -> NoDup (names (fsets d fs)).
Proof. induction fs as [|f fs IH]; intros d H; [exact H|]. apply IH, fset_NoDup, H. Qed.

Lemma py_update_eq : forall fs d, NoDup (names d) -> py_update d fs = fsets d fs.
Proof.
  induction fs as [|f fs IH]; intros d H; [reflexivity|]. cbn [py_update fold_left fsets]. rewrite (py_set_eq d f H). apply IH, fset_NoDup, H.
Qed.

Lemma fset_in : forall d f g, In g (fset d f) -> g = f \/ In g d.
Proof.
  induction d as [|h d IH]; intros f g H; cbn [fset] in H.
  - destruct H as [H|[]]. auto.
  - destruct (f_name f =? f_name h); destruct H as [H|H]; cbn [In]; auto. apply IH in H as [H|H]; auto.
Qed.

Lemma fsets_in : forall fs d g, In g (fsets d fs) -> In g d \/ In g fs.
Proof.
  induction fs as [|f fs IH]; intros d g H; [auto|]. cbn [fsets fold_left] in H. apply IH in H as [H|H]; [|right; right; exact H].
  apply fset_in in H as [H|H]; [right; left; auto|auto].
Qed.

Lemma fset_has : forall d f, In f (fset d f).
Proof. induction d as [|g d IH]; intros f; cbn [fset]; [left; reflexivity|]. destruct (f_name f =? f_name g); [left; reflexivity|right; apply IH]. Qed.

Lemma fset_keeps : forall d f g, In g d -> f_name g <> f_name f -> In g (fset d f).
Proof.
  induction d as [|h d IH]; intros f g H N; [destruct H|]. cbn [fset]. destruct H as [->|H].
  - destruct (N.eqb_spec (f_name f) (f_name g)); [congruence|left; reflexivity].
  - destruct (f_name f =? f_name h); right; [exact H|exact (IH f g H N)].
Qed.

Lemma fsets_keeps : forall fs d g, In g d -> ~ In (f_name g) (names fs) -> In g (fsets d fs).
Proof.
  induction fs as [|f fs IH]; intros d g H N; [exact H|]. cbn [fsets fold_left]. apply IH.
  - apply fset_keeps; [exact H|]. intros E. apply N. left. auto.
  - intros X. apply N. right. exact X.
Qed.

Lemma fsets_has : forall fs d g, NoDup (names fs) -> In g fs -> In g (fsets d fs).
Proof.
  induction fs as [|f fs IH]; intros d g N H; [destruct H|]. inversion N as [|x l N1 N2]; subst. cbn [fsets fold_left]. destruct H as [->|H].
  - apply fsets_keeps; [apply fset_has|exact N1].
  - exact (IH _ g N2 H).
Qed.

Lemma fset_same : forall d f, NoDup (names d) -> In f d -> fset d f = d.
Proof.
  induction d as [|g d IH]; intros f N H; [destruct H|]. inversion N as [|x l N1 N2]; subst. cbn [fset]. destruct H as [->|H].
  - rewrite N.eqb_refl. reflexivity.
  - destruct (N.eqb_spec (f_name f) (f_name g)) as [E|E].
    + exfalso. apply N1. rewrite <- E. apply (in_map f_name). exact H.
    + rewrite (IH f N2 H). reflexivity.
Qed.

Lemma fsets_same : forall fs d, NoDup (names d) -> (forall f, In f fs -> In f d) -> fsets d fs = d.
Proof.
  induction fs as [|f fs IH]; intros d N H; [reflexivity|]. cbn [fsets fold_left]. rewrite (fset_same d f N (H f (or_introl eq_refl))). apply IH; [exact N|].
  intros g G. apply H. right. exact G.
Qed.

Lemma fset_filter : forall (P : pyfield -> bool) d f, (forall g, In g d -> f_name g = f_name f -> P g = P f) ->
  filter P (fset d f) = if P f then fset (filter P d) f else filter P d.
Proof.
  intros P. induction d as [|g d IH]; intros f H; cbn [fset filter].
  - destruct (P f); reflexivity.
  - destruct (N.eqb_spec (f_name f) (f_name g)) as [E|E]; cbn [filter].
    + rewrite (H g (or_introl eq_refl) (eq_sym E)). destruct (P f); [|reflexivity]. cbn [fset]. rewrite E, N.eqb_refl. reflexivity.
    + rewrite IH by (intros h Hh; apply H; right; exact Hh). destruct (P g); [|reflexivity]. destruct (P f); [|reflexivity]. cbn [fset].
      apply N.eqb_neq in E. rewrite E. reflexivity.
Qed.

Lemma fsets_filter : forall (P : pyfield -> bool) fs d, (forall f g, In f (d ++ fs) -> In g (d ++ fs) -> f_name f = f_name g -> P f = P g) ->
  filter P (fsets d fs) = fsets (filter P d) (filter P fs).
Proof.
  intros P. induction fs as [|f fs IH]; intros d H; [reflexivity|]. cbn [fsets fold_left filter].
  change (fold_left fset fs (fset d f)) with (fsets (fset d f) fs). rewrite IH.
  - rewrite fset_filter by (intros g Hg E; apply H; [apply in_or_app; auto|apply in_or_app; right; left; reflexivity|exact E]). destruct (P f); reflexivity.
  - intros g h Hg Hh. apply H; apply in_app_or in Hg, Hh; apply in_or_app.
    + destruct Hg as [Hg|Hg]; [apply fset_in in Hg as [->|Hg]|]; cbn [In]; auto.
    + destruct Hh as [Hh|Hh]; [apply fset_in in Hh as [->|Hh]|]; cbn [In]; auto.
Qed.

Lemma fsets_app : forall a b d, fsets d (a ++ b) = fsets (fsets d a) b.
Proof. intros a b d. apply fold_left_app. Qed.

(** The same for parameters *)
Fixpoint pset (ps : list param) (new : param) : list param :=
  match ps with [] => [new] | p :: ps => if p_name p =? p_name new then new :: ps else p :: pset ps new end.

Lemma pset_map : forall d f, map param_of (fset d f) = pset (map param_of d) (param_of f).
Proof.
  induction d as [|g d IH]; intros f; [reflexivity|]. cbn [fset map pset]. change (p_name (param_of g) =? p_name (param_of f)) with (f_name g =? f_name f). rewrite N.eqb_sym.
  destruct (f_name g =? f_name f); cbn [map]; [reflexivity|]. rewrite IH. reflexivity.
Qed.

(** ** [add_param] *)
Lemma find_name_shift : forall ps n j, find_name ps n j = match find_name ps n 0 with Some i => Some (i + j)%nat | None => None end.
Proof.
  induction ps as [|p ps IH]; intros n j; cbn [find_name]; [reflexivity|]. destruct (p_name p =? n); [reflexivity|]. rewrite (IH n (S j)), (IH n 1%nat).
  destruct (find_name ps n 0) as [i|]; [f_equal; lia|reflexivity].
Qed.

Lemma find_name_none : forall ps n, find_name ps n 0 = None <-> ~ In n (map p_name ps).
Proof.
  induction ps as [|p ps IH]; intros n; cbn [find_name map In]; [tauto|]. destruct (N.eqb_spec (p_name p) n) as [E|E].
  - split; [discriminate|]. intros H. exfalso. auto.
  - rewrite find_name_shift. destruct (find_name ps n 0) as [i|] eqn:F.
    + split; [discriminate|]. intros H. exfalso. destruct (IH n) as [_ X]. rewrite F in X. assert (Y : Some i = None) by (apply X; tauto). discriminate.
    + split; [|reflexivity]. intros _ [H|H]; [contradiction|]. apply (proj1 (IH n) F H).
Qed.

Lemma replace_place : forall ps new i, find_name ps (p_name new) 0 = Some i -> firstn i ps ++ new :: skipn (S i) ps = pset ps new.
Proof.
  induction ps as [|p ps IH]; intros new i H; [discriminate|]. cbn [find_name pset] in *. destruct (p_name p =? p_name new); [injection H as <-; reflexivity|].
  rewrite find_name_shift in H. destruct (find_name ps (p_name new) 0) as [j|] eqn:F; [|discriminate]. injection H as <-. rewrite Nat.add_1_r.
  cbn [firstn app]. f_equal. exact (IH new j F).
Qed.

Lemma first_kwarg_shift : forall ps j, first_kwarg ps j = match first_kwarg ps 0 with Some i => Some (i + j)%nat | None => None end.
Proof.
  induction ps as [|p ps IH]; intros j; cbn [first_kwarg]; [reflexivity|]. destruct (is_keyword_only p); [reflexivity|]. rewrite (IH (S j)), (IH 1%nat).
  destruct (first_kwarg ps 0) as [i|]; [f_equal; lia|reflexivity].
Qed.

Definition positional (p : param) : Prop := is_keyword_only p = false.
Definition keyword (p : param) : Prop := is_keyword_only p = true.

Lemma first_kwarg_split : forall pos kw, Forall positional pos -> Forall keyword kw ->
  first_kwarg (pos ++ kw) 0 = match kw with [] => None | _ => Some (length pos) end.
Proof.
  induction pos as [|p pos IH]; intros kw P K.
  - destruct kw as [|k kw]; [reflexivity|]. inversion K as [|x l K1 K2]; subst. cbn. rewrite K1. reflexivity.
  - inversion P as [|x l P1 P2]; subst. cbn [app first_kwarg]. rewrite P1, first_kwarg_shift, (IH kw P2 K). destruct kw; [reflexivity|]. cbn [length]. f_equal. lia.
Qed.

Lemma pset_new : forall ps new, ~ In (p_name new) (map p_name ps) -> pset ps new = ps ++ [new].
Proof.
  induction ps as [|p ps IH]; intros new H; [reflexivity|]. cbn [pset app]. destruct (N.eqb_spec (p_name p) (p_name new)) as [E|E]; [exfalso; apply H; left; exact E|].
  rewrite IH; [reflexivity|]. intros X. apply H. right. exact X.
Qed.

Lemma pset_left : forall a b new, In (p_name new) (map p_name a) -> pset (a ++ b) new = pset a new ++ b.
Proof.
  induction a as [|p a IH]; intros b new H; [destruct H|]. cbn [pset app]. destruct (N.eqb_spec (p_name p) (p_name new)) as [E|E]; [reflexivity|].
  rewrite IH; [reflexivity|]. destruct H as [H|H]; [contradiction|exact H].
Qed.

Lemma pset_right : forall a b new, ~ In (p_name new) (map p_name a) -> pset (a ++ b) new = a ++ pset b new.
Proof.
  induction a as [|p a IH]; intros b new H; [reflexivity|]. cbn [pset app]. destruct (N.eqb_spec (p_name p) (p_name new)) as [E|E]; [exfalso; apply H; left; exact E|].
  rewrite IH; [reflexivity|]. intros X. apply H. right. exact X.
Qed.

Lemma in_names_dec : forall n ps, {In n (map p_name ps)} + {~ In n (map p_name ps)}.
Proof. intros n ps. apply in_dec, N.eq_dec. Qed.

Lemma add_param_known : forall ps new, In (p_name new) (map p_name ps) -> add_param ps new = (pset ps new, false).
Proof.
  intros ps new H. unfold add_param. destruct (find_name ps (p_name new) 0) as [i|] eqn:F; [rewrite (replace_place ps new i F); reflexivity|].
  apply find_name_none in F. contradiction.
Qed.

Lemma add_positional : forall pos kw new, Forall positional pos -> Forall keyword kw -> positional new -> ~ In (p_name new) (map p_name kw) ->
  add_param (pos ++ kw) new = (pset pos new ++ kw, if in_names_dec (p_name new) pos then false else true).
Proof.
  intros pos kw new P K N D. destruct (in_names_dec (p_name new) pos) as [I0|I0].
  - rewrite add_param_known by (rewrite map_app; apply in_or_app; auto). rewrite (pset_left pos kw new I0). reflexivity.
  - unfold add_param. assert (F : find_name (pos ++ kw) (p_name new) 0 = None) by (apply find_name_none; rewrite map_app, in_app_iff; tauto).
    rewrite F, N, (first_kwarg_split pos kw P K), (pset_new pos new I0). destruct kw as [|k kw].
    + rewrite !app_nil_r. reflexivity.
    + rewrite firstn_app, Nat.sub_diag, firstn_all, skipn_app, Nat.sub_diag, skipn_all. cbn [firstn skipn]. rewrite app_nil_r, <- app_assoc. reflexivity.
Qed.

Lemma add_keyword : forall pos kw new, keyword new -> ~ In (p_name new) (map p_name pos) ->
  add_param (pos ++ kw) new = (pos ++ pset kw new, if in_names_dec (p_name new) kw then false else true).
Proof.
  intros pos kw new N D. destruct (in_names_dec (p_name new) kw) as [I0|I0].
  - rewrite add_param_known by (rewrite map_app; apply in_or_app; auto). rewrite (pset_right pos kw new D). reflexivity.
  - unfold add_param. assert (F : find_name (pos ++ kw) (p_name new) 0 = None) by (apply find_name_none; rewrite map_app, in_app_iff; tauto).
    rewrite F, N, (pset_new kw new I0), app_assoc. reflexivity.
Qed.

(** ** Adding fields *)
Definition is_std (f : pyfield) : bool := in_init f && negb (f_kw f).
Definition is_kw (f : pyfield) : bool := in_init f && f_kw f.

Lemma std_positional : forall d, Forall (fun f => is_std f = true) d -> Forall positional (map param_of d).
Proof.
  intros d H. induction H as [|f d Hf _ IH]; [constructor|]. constructor; [|exact IH]. unfold is_std in Hf. apply andb_true_iff in Hf as [_ Hf].
  unfold positional, is_keyword_only. cbn. destruct (f_kw f); [discriminate|reflexivity].
Qed.
Lemma kw_keyword : forall d, Forall (fun f => is_kw f = true) d -> Forall keyword (map param_of d).
Proof.
  intros d H. induction H as [|f d Hf _ IH]; [constructor|]. constructor; [|exact IH]. unfold is_kw in Hf. apply andb_true_iff in Hf as [_ Hf].
  unfold keyword, is_keyword_only. cbn. rewrite Hf. reflexivity.
Qed.
Lemma param_names : forall d, map p_name (map param_of d) = names d.
Proof. intros d. unfold names. rewrite map_map. reflexivity. Qed.

Definition known (n : N) (d : list pyfield) : bool := existsb (N.eqb n) (names d).
Lemma known_in : forall n d, known n d = true <-> In n (names d).
Proof.
  intros n d. unfold known. rewrite existsb_exists. split.
  - intros [m [H1 H2]]. apply N.eqb_eq in H2 as ->. exact H1.
  - intros H. exists n. split; [exact H|apply N.eqb_refl].
Qed.

Lemma add_std : forall pos kw f, Forall (fun f => is_std f = true) pos -> Forall (fun f => is_kw f = true) kw -> is_std f = true -> ~ In (f_name f) (names kw) ->
  add_param (map param_of (pos ++ kw)) (param_of f) = (map param_of (fset pos f ++ kw), negb (known (f_name f) pos)).
Proof.
  intros pos kw f P K Hf D. rewrite map_app, add_positional.
  - rewrite map_app, pset_map. f_equal. destruct (in_names_dec (p_name (param_of f)) (map param_of pos)) as [X|X]; rewrite param_names in X; change (p_name (param_of f)) with (f_name f) in X.
    + apply known_in in X. rewrite X. reflexivity.
    + destruct (known (f_name f) pos) eqn:Y; [|reflexivity]. apply known_in in Y. contradiction.
  - apply std_positional, P.
  - apply kw_keyword, K.
  - pose proof (std_positional [f] (Forall_cons _ Hf (Forall_nil _))) as X. inversion X; assumption.
  - rewrite param_names. exact D.
Qed.

Lemma add_kw : forall pos kw f, is_kw f = true -> ~ In (f_name f) (names pos) ->
  add_param (map param_of (pos ++ kw)) (param_of f) = (map param_of (pos ++ fset kw f), negb (known (f_name f) kw)).
Proof.
  intros pos kw f Hf D. rewrite map_app, add_keyword.
  - rewrite map_app, pset_map. f_equal. destruct (in_names_dec (p_name (param_of f)) (map param_of kw)) as [X|X]; rewrite param_names in X; change (p_name (param_of f)) with (f_name f) in X.
    + apply known_in in X. rewrite X. reflexivity.
    + destruct (known (f_name f) kw) eqn:Y; [|reflexivity]. apply known_in in Y. contradiction.
  - pose proof (kw_keyword [f] (Forall_cons _ Hf (Forall_nil _))) as X. inversion X; assumption.
  - rewrite param_names. exact D.
Qed.

Lemma Forall_fset : forall (P : pyfield -> Prop) d f, Forall P d -> P f -> Forall P (fset d f).
Proof. intros P d f H Hf. rewrite Forall_forall in *. intros g G. apply fset_in in G as [->|G]; auto. Qed.

Definition add_all (ps new : list param) : list param := fold_left (fun l p => fst (add_param l p)) new ps.

(** A name is either a positional parameter, a keyword-only one or none at all. *)
Definition role (f : pyfield) : option bool := if in_init f then Some (f_kw f) else None.
Definition same_roles (fs : list pyfield) : Prop := forall f g, In f fs -> In g fs -> f_name f = f_name g -> role f = role g.

Lemma role_std : forall f g, role f = role g -> is_std f = is_std g.
Proof. intros f g. unfold role, is_std. destruct (in_init f), (in_init g); try discriminate; [|reflexivity]. intros [= ->]. reflexivity. Qed.
Lemma role_kw : forall f g, role f = role g -> is_kw f = is_kw g.
Proof. intros f g. unfold role, is_kw. destruct (in_init f), (in_init g); try discriminate; [|reflexivity]. intros [= ->]. reflexivity. Qed.

Lemma std_not_kw : forall f, is_std f = true -> is_kw f = false.
Proof. intros f. unfold is_std, is_kw. destruct (in_init f), (f_kw f); auto; discriminate. Qed.
Lemma in_init_cases : forall f, in_init f = true -> is_std f = true \/ is_kw f = true.
Proof. intros f H. unfold is_std, is_kw. rewrite H. destruct (f_kw f); auto. Qed.

Lemma other_role : forall (P Q : pyfield -> bool) d f, (forall g, P g = true -> Q g = false) -> Forall (fun g => P g = true) d -> Q f = true ->
  (forall g, In g d -> f_name g = f_name f -> Q g = Q f) -> ~ In (f_name f) (names d).
Proof.
  intros P Q d f E H Hf X Y. unfold names in Y. apply in_map_iff in Y as [g [Y1 Y2]]. rewrite Forall_forall in H. specialize (X g Y2 Y1). rewrite (E g (H g Y2)) in X. congruence.
Qed.

Lemma add_fields_all : forall fs pos kw, Forall (fun f => is_std f = true) pos -> Forall (fun f => is_kw f = true) kw -> Forall (fun f => in_init f = true) fs ->
  same_roles (pos ++ kw ++ fs) ->
  add_all (map param_of (pos ++ kw)) (map param_of fs) = map param_of (fsets pos (filter is_std fs) ++ fsets kw (filter is_kw fs)).
Proof.
  induction fs as [|f fs IH]; intros pos kw P K F R; [reflexivity|]. inversion F as [|x l F1 F2]; subst. cbn [map add_all fold_left filter].
  assert (X : forall g, In g pos \/ In g kw -> f_name g = f_name f -> role g = role f).
  { intros g G E. apply R; [|apply in_or_app; right; apply in_or_app; right; left; reflexivity|exact E]. rewrite !in_app_iff. destruct G; auto. }
  destruct (in_init_cases f F1) as [Hf|Hf].
  - rewrite add_std; [|exact P|exact K|exact Hf|].
    2:{ apply (other_role is_kw is_std); [|exact K|exact Hf|intros g G E; apply role_std, X; auto]. intros g G. destruct (is_std g) eqn:Y; [|reflexivity]. rewrite (std_not_kw g Y) in G. discriminate. }
    rewrite Hf, (std_not_kw f Hf). cbn [fst fsets fold_left]. apply IH; [apply Forall_fset; [exact P|exact Hf]|exact K|exact F2|].
    intros g h G H. apply R; rewrite !in_app_iff in G, H |- *; cbn [In].
    + destruct G as [G|G]; [apply fset_in in G as [->|G]; auto|]. destruct G; auto.
    + destruct H as [H|H]; [apply fset_in in H as [->|H]; auto|]. destruct H; auto.
  - assert (Nf : is_std f = false) by (destruct (is_std f) eqn:Y; [rewrite (std_not_kw f Y) in Hf; discriminate|reflexivity]).
    rewrite add_kw; [|exact Hf|].
    2:{ apply (other_role is_std is_kw); [exact std_not_kw|exact P|exact Hf|intros g G E; apply role_kw, X; auto]. }
    rewrite Hf, Nf. cbn [fst fsets fold_left]. apply IH; [exact P|apply Forall_fset; [exact K|exact Hf]|exact F2|].
    intros g h G H. apply R; rewrite !in_app_iff in G, H |- *; cbn [In].
    + destruct G as [G|[G|G]]; auto. apply fset_in in G as [->|G]; auto.
    + destruct H as [H|[H|H]]; auto. apply fset_in in H as [->|H]; auto.
Qed.

(** ** The loops *)
Lemma fst_add_base : forall post ps st, fst (fold_left (add_base_param post) ps st) = add_all (fst st) ps.
Proof.
  intros post. induction ps as [|p ps IH]; intros [params q]; [reflexivity|]. cbn [fold_left add_all]. rewrite IH. unfold add_base_param. cbn [fst]. destruct (add_param params p). reflexivity.
Qed.

Definition params_at (super : nat -> option inits) (k : nat) : list param := match super k with Some r => init_params r | None => [] end.

Lemma add_all_app : forall a b ps, add_all ps (a ++ b) = add_all (add_all ps a) b.
Proof. intros a b ps. apply fold_left_app. Qed.

Lemma fst_add_bases : forall super ks st, fst (fold_left (add_base super) ks st) = add_all (fst st) (flat_map (params_at super) ks).
Proof.
  intros super. induction ks as [|k ks IH]; intros st; [reflexivity|]. cbn [fold_left flat_map]. rewrite IH, add_all_app. f_equal. unfold add_base, params_at.
  destruct (super k) as [r|]; [apply fst_add_base|reflexivity].
Qed.

(** The arguments of [field] are written once and its booleans as literals. *)
Definition key (a : field_arg) : N := match a with ArgDefault => 0 | ArgDefaultFactory => 1 | ArgKwOnly _ => 2 | ArgInit _ => 3 | ArgOther k => 4 + k end.
Definition literal_bool (a : field_arg) : bool := match a with ArgKwOnly None | ArgInit None => false | _ => true end.
Definition args_ok (r : right_side) : Prop :=
  match r with FieldCall args => NoDup (map key args) /\ forallb literal_bool args = true | _ => True end.

Lemma no_key_kw : forall args, ~ In 2 (map key args) -> kw_only_arg args = None.
Proof.
  induction args as [|a args IH]; intros H; [reflexivity|]. cbn [map In] in H. destruct a; cbn [kw_only_arg]; try (apply IH; tauto). exfalso. apply H. left. reflexivity.
Qed.

Lemma fold_default : forall args o, has_default (fold_left apply_arg args o) = has_default o || existsb is_default_arg args.
Proof.
  induction args as [|a args IH]; intros o; cbn [fold_left existsb]; [now rewrite orb_false_r|]. rewrite IH.
  destruct a as [| |[b|]|[b|]|k]; cbn [apply_arg has_default is_default_arg orb]; now rewrite ?orb_true_r.
Qed.
Lemma fold_kw : forall args o, NoDup (map key args) -> kw_only (fold_left apply_arg args o) = match kw_only_arg args with Some b => Some b | None => kw_only o end.
Proof.
  induction args as [|a args IH]; intros o N; cbn [fold_left]; [reflexivity|]. inversion N as [|x l N1 N2]; subst. rewrite (IH _ N2).
  destruct a as [| |[b|]|[b|]|k]; cbn [apply_arg kw_only kw_only_arg]; try reflexivity. rewrite (no_key_kw args N1). reflexivity.
Qed.
Lemma fold_no_init : forall args o, ~ In 3 (map key args) -> init (fold_left apply_arg args o) = init o.
Proof.
  induction args as [|a args IH]; intros o H; cbn [fold_left]; [reflexivity|]. cbn [map In] in H. rewrite IH by tauto.
  destruct a as [| |[b|]|[b|]|k]; cbn [apply_arg init]; try reflexivity. exfalso. apply H. left. reflexivity.
Qed.
Lemma fold_init : forall args o, NoDup (map key args) -> forallb literal_bool args = true -> init o = true -> init (fold_left apply_arg args o) = init_arg args.
Proof.
  induction args as [|a args IH]; intros o N L I0; cbn [fold_left]; [exact I0|]. inversion N as [|x l N1 N2]; subst. cbn [forallb] in L. apply andb_true_iff in L as [L1 L2].
  destruct a as [| |[b|]|[b|]|k]; cbn [init_arg]; try discriminate L1; try (apply IH; [exact N2|exact L2|exact I0]).
  exact (fold_no_init args _ N1).
Qed.

(** What the model and Python take a field to be *)
Lemma options_field : forall attribute kw a, args_ok (a_right a) -> (a_right a = Nothing -> attribute (a_name a) = false) ->
  let o := calculate_field_arg (a_right a) in let f := get_field attribute kw a in
  has_default o = f_default f /\ match kw_only o with Some b => b | None => kw end = f_kw f /\ init o = f_init f /\ f_name f = a_name a /\ f_type f = a_type a /\ f_kind f = a_kind a.
Proof.
  intros attribute kw a A B. cbv zeta. unfold get_field, calculate_field_arg. destruct (a_right a) as [| |args]; cbn.
  - rewrite (B eq_refl). tauto.
  - tauto.
  - destruct A as [A1 A2]. rewrite fold_default, (fold_kw args _ A1), (fold_init args default_options A1 A2 eq_refl). cbn. destruct (kw_only_arg args); tauto.
Qed.

Lemma field_name : forall attribute kw a, f_name (get_field attribute kw a) = a_name a.
Proof. intros attribute kw a. unfold get_field. destruct (a_right a); reflexivity. Qed.
Lemma field_kind_of : forall attribute kw a, f_kind (get_field attribute kw a) = a_kind a.
Proof. intros attribute kw a. unfold get_field. destruct (a_right a); reflexivity. Qed.

(** An annotation without a value has no default in a base either. *)
Definition bare_ok (attribute : N -> bool) (body : list annotated) : Prop :=
  forall a, In a body -> a_right a = Nothing -> (a_kind a = Plain \/ a_kind a = InitVar) -> attribute (a_name a) = false.

Definition init_post (kind : field_kind) (a : annotated) (post : list (N * N)) : list (N * N) :=
  match kind with InitVar => post ++ [(a_name a, a_type a)] | _ => post end.

Lemma add_field_plain : forall attribute ck s a, args_ok (a_right a) -> (a_right a = Nothing -> attribute (a_name a) = false) -> (a_kind a = Plain \/ a_kind a = InitVar) ->
  let f := get_field attribute (ck || s_marker s) a in
  add_field ck s a = mk_fields_state (if in_init f then fst (add_param (s_params s) (param_of f)) else s_params s) (init_post (a_kind a) a (s_post s))
    (if in_init f then s_non_init s else s_non_init s ++ [a_name a]) (s_marker s) (s_issues s).
Proof.
  intros attribute ck s a A B K. cbv zeta. destruct (options_field attribute (ck || s_marker s) a A B) as [O1 [O2 [O3 [O4 [O5 O6]]]]]. cbv zeta in *.
  unfold add_field, in_init, param_of, init_post. rewrite O4, O5, O6, O1, O2, <- O3.
  destruct K as [-> | ->]; destruct (init (calculate_field_arg (a_right a))); reflexivity.
Qed.

Lemma add_own : forall attribute ck body s, Forall (fun a => args_ok (a_right a)) body -> bare_ok attribute body ->
  s_params (fold_left (add_field ck) body s) = add_all (s_params s) (map param_of (filter in_init (own_fields attribute (ck || s_marker s) body))).
Proof.
  intros attribute ck. induction body as [|a body IH]; intros s A B; [reflexivity|]. inversion A as [|x l A1 A2]; subst.
  assert (B' : bare_ok attribute body) by (intros b Hb; apply B; right; exact Hb). cbn [fold_left own_fields].
  destruct (a_kind a) eqn:K.
  - rewrite (add_field_plain attribute ck s a A1 (fun X => B a (or_introl eq_refl) X (or_introl K)) (or_introl K)). rewrite IH by assumption. cbn [s_params s_marker filter].
    destruct (in_init (get_field attribute (ck || s_marker s) a)); reflexivity.
  - rewrite (add_field_plain attribute ck s a A1 (fun X => B a (or_introl eq_refl) X (or_intror K)) (or_intror K)). rewrite IH by assumption. cbn [s_params s_marker filter].
    destruct (in_init (get_field attribute (ck || s_marker s) a)); reflexivity.
  - rewrite IH by assumption. unfold add_field. rewrite K. cbn [filter]. unfold in_init at 2. rewrite field_kind_of, K. reflexivity.
  - rewrite IH by assumption. unfold add_field. rewrite K. destruct (s_marker s); cbn [s_params s_marker]; rewrite orb_true_r; reflexivity.
Qed.

(** ** Programs *)
Section Program.
Variable program : list class.

Definition is_dc (i : nat) : bool := match nth_error program i with Some b => is_dataclass b | None => false end.

(** The bases of a class come before it, the MRO of a base is part of its own, and there is nothing strange in a body. *)
Record well_formed : Prop := mk_well_formed {
  wf_before : forall i c k, nth_error program i = Some c -> In k (mro c) -> (k < i)%nat;
  wf_linear : forall i c k b, nth_error program i = Some c -> In k (mro c) -> nth_error program k = Some b -> incl (mro b) (mro c);
  wf_args : forall i c a, nth_error program i = Some c -> In a (body c) -> args_ok (a_right a);
  wf_names : forall i c, nth_error program i = Some c -> NoDup (map a_name (body c))
}.

Lemma calculate_ext : forall s1 s2 c, (forall k, In k (mro c) -> s1 k = s2 k) ->
  calculate_init_of_dataclass program s1 c = calculate_init_of_dataclass program s2 c.
Proof.
  intros s1 s2 c H. unfold calculate_init_of_dataclass.
  assert (E : forall ks st, (forall k, In k ks -> s1 k = s2 k) -> fold_left (add_base s1) ks st = fold_left (add_base s2) ks st).
  { induction ks as [|k ks IH]; intros st X; [reflexivity|]. cbn [fold_left]. unfold add_base at 2 4. rewrite (X k (or_introl eq_refl)). apply IH. intros j J. apply X. right. exact J. }
  rewrite E; [reflexivity|]. intros k K. apply H, in_rev, K.
Qed.

Lemma add_classes_length : forall cs known, length (fold_left (add_class program) cs known) = (length known + length cs)%nat.
Proof.
  induction cs as [|c cs IH]; intros known; cbn [fold_left length]; [lia|]. rewrite IH. unfold add_class. rewrite app_length. cbn [length]. lia.
Qed.
Lemma add_classes_keep : forall cs known, exists more, fold_left (add_class program) cs known = known ++ more.
Proof.
  induction cs as [|c cs IH]; intros known; cbn [fold_left]; [exists []; now rewrite app_nil_r|]. destruct (IH (add_class program known c)) as [more E]. rewrite E.
  unfold add_class. rewrite <- app_assoc. eauto.
Qed.

Lemma inits_equation : well_formed -> forall i c, nth_error program i = Some c ->
  inits_of program i = if is_dataclass c then Some (calculate_init_of_dataclass program (inits_of program) c) else None.
Proof.
  intros W i c H. apply nth_error_split in H as X. destruct X as [before [after [E L]]].
  assert (P : fold_left (add_class program) program [] = fold_left (add_class program) after (add_class program (fold_left (add_class program) before []) c)).
  { rewrite E at 2. rewrite fold_left_app. reflexivity. }
  set (known := fold_left (add_class program) before []) in *.
  assert (K : length known = i) by (unfold known; rewrite add_classes_length; exact L).
  destruct (add_classes_keep after (add_class program known c)) as [more M]. rewrite M in P. unfold inits_of at 1, lookup_inits. rewrite P. unfold add_class at 1.
  rewrite <- app_assoc, nth_error_app2, K, Nat.sub_diag by lia. cbn [nth_error app]. destruct (is_dataclass c); [|reflexivity]. f_equal.
  apply calculate_ext. intros k Hk. unfold inits_of, lookup_inits. rewrite P. unfold add_class. rewrite <- app_assoc, nth_error_app1; [reflexivity|].
  rewrite K. exact (wf_before W i c k H Hk).
Qed.

Variable fields : nat -> option (list pyfield).
Hypothesis Fields : are_fields program fields.

Definition fields_at (k : nat) : list pyfield := match fields k with Some d => d | None => [] end.
Definition own (c : class) : list pyfield := own_fields (attribute_of program c) (opt_kw_only c) (body c).
Definition inherited (c : class) : list pyfield := flat_map fields_at (filter is_dc (rev (mro c))).
Definition writes (c : class) : list pyfield := inherited c ++ own c.

(** A class between that is no dataclass passes on the fields of the dataclass after it. *)
Definition passes_on (c : class) : Prop := forall before k after b, mro c = before ++ k :: after -> nth_error program k = Some b -> is_dataclass b = false ->
  first_dataclass program (mro b) = first_dataclass program after.

Lemma process_nodup : forall c, NoDup (names (process_class program fields c)).
Proof.
  intros c. unfold process_class. assert (N : forall ks d, NoDup (names d) -> NoDup (names (fold_left (add_fields fields) ks d))).
  { induction ks as [|k ks IH]; intros d H; [exact H|]. cbn [fold_left]. apply IH. unfold add_fields. destruct (fields k); [|exact H]. rewrite py_update_eq by exact H. apply fsets_NoDup, H. }
  rewrite py_update_eq by (apply N; constructor). apply fsets_NoDup, N. constructor.
Qed.

Lemma fields_nodup : forall k, is_dc k = true -> NoDup (names (fields_at k)).
Proof.
  intros k H. unfold is_dc in H. destruct (nth_error program k) as [c|] eqn:E; [|discriminate]. unfold fields_at. rewrite (Fields k c E), H. apply process_nodup.
Qed.

Lemma first_dataclass_filter : forall ks, first_dataclass program ks = match filter is_dc ks with [] => None | k :: _ => Some k end.
Proof.
  induction ks as [|k ks IH]; [reflexivity|]. cbn [first_dataclass filter]. unfold is_dc at 1. destruct (nth_error program k) as [b|]; [|exact IH]. destruct (is_dataclass b); [reflexivity|exact IH].
Qed.

Lemma add_fields_eq : forall ks d, NoDup (names d) -> fold_left (add_fields fields) ks d = fsets d (flat_map fields_at ks).
Proof.
  induction ks as [|k ks IH]; intros d N; [reflexivity|]. cbn [fold_left flat_map]. rewrite fsets_app. unfold add_fields at 2, fields_at at 1. destruct (fields k) as [e|].
  - rewrite py_update_eq by exact N. apply IH, fsets_NoDup, N.
  - exact (IH d N).
Qed.

Lemma flat_map_snoc : forall ks k, flat_map fields_at (ks ++ [k]) = flat_map fields_at ks ++ fields_at k.
Proof. intros ks k. rewrite flat_map_app. cbn [flat_map]. now rewrite app_nil_r. Qed.

Lemma process_writes : forall c, (forall k, In k (mro c) -> exists b, nth_error program k = Some b) -> passes_on c -> process_class program fields c = fsets [] (writes c).
Proof.
  intros c Known Pass. unfold process_class, writes, inherited. rewrite add_fields_eq by constructor. rewrite py_update_eq by (apply fsets_NoDup; constructor).
  rewrite fsets_app. f_equal.
  assert (G : forall after before, mro c = before ++ after -> fsets [] (flat_map fields_at (rev after)) = fsets [] (flat_map fields_at (filter is_dc (rev after)))).
  { induction after as [|k after IH]; intros before E; [reflexivity|]. cbn [rev]. rewrite filter_app, flat_map_snoc, flat_map_app, !fsets_app.
    rewrite (IH (before ++ [k])) by (rewrite <- app_assoc; exact E). cbn [filter]. destruct (Known k) as [b B]; [rewrite E; apply in_or_app; right; left; reflexivity|].
    assert (Dk : is_dc k = is_dataclass b) by (unfold is_dc; rewrite B; reflexivity). rewrite Dk. destruct (is_dataclass b) eqn:D; [cbn [flat_map]; now rewrite app_nil_r|]. cbn [flat_map fsets fold_left].
    unfold fields_at at 2. rewrite (Fields k b B), D. unfold inherited_fields. rewrite (Pass before k after b E B D), first_dataclass_filter.
    assert (R : filter is_dc (rev after) = rev (filter is_dc after)).
    { clear. induction after as [|j after IH]; [reflexivity|]. cbn [rev filter]. rewrite filter_app, IH. cbn [filter]. destruct (is_dc j); cbn [rev]; [reflexivity|now rewrite app_nil_r]. }
    rewrite R. destruct (filter is_dc after) as [|e rest] eqn:X; [reflexivity|]. cbn [rev]. rewrite flat_map_snoc, fsets_app.
    assert (E1 : is_dc e = true) by (assert (Y : In e (filter is_dc after)) by (rewrite X; left; reflexivity); apply filter_In in Y as [_ Y]; exact Y).
    pose proof (fields_nodup e E1) as N. unfold fields_at at 2 4. unfold fields_at in N. destruct (fields e) as [d|]; [|reflexivity].
    apply fsets_same; [apply fsets_NoDup, fsets_NoDup; constructor|]. intros f Hf. apply fsets_has; assumption. }
  exact (G (mro c) [] eq_refl).
Qed.

(** ** The parameters *)
Definition family (c : class) (P : class -> Prop) : Prop :=
  P c /\ forall k b, In k (mro c) -> nth_error program k = Some b -> is_dataclass b = true -> P b.

Definition state_params (c : class) : list param :=
  s_params (fold_left (add_field (opt_kw_only c)) (body c)
    (mk_fields_state (fst (fold_left (add_base (inits_of program)) (rev (mro c)) ([], []))) (snd (fold_left (add_base (inits_of program)) (rev (mro c)) ([], []))) [] false [])).

Lemma state_params_eq : forall c, Forall (fun a => args_ok (a_right a)) (body c) -> bare_ok (attribute_of program c) (body c) ->
  state_params c = add_all [] (flat_map (params_at (inits_of program)) (rev (mro c)) ++ map param_of (filter in_init (own c))).
Proof.
  intros c A B. unfold state_params. rewrite (add_own (attribute_of program c)) by assumption. cbn [s_params s_marker]. rewrite orb_false_r, fst_add_bases, add_all_app. reflexivity.
Qed.

Lemma filter_in_init : forall (P : pyfield -> bool) d, (forall f, P f = true -> in_init f = true) -> filter P (filter in_init d) = filter P d.
Proof.
  intros P d H. induction d as [|f d IH]; [reflexivity|]. cbn [filter]. destruct (in_init f) eqn:E; cbn [filter]; [rewrite IH; reflexivity|].
  destruct (P f) eqn:X; [rewrite (H f X) in E; discriminate|exact IH].
Qed.

Lemma std_in_init : forall f, is_std f = true -> in_init f = true.
Proof. intros f H. apply andb_true_iff in H. tauto. Qed.
Lemma kw_in_init : forall f, is_kw f = true -> in_init f = true.
Proof. intros f H. apply andb_true_iff in H. tauto. Qed.

Lemma filter_all : forall (P : pyfield -> bool) d, Forall (fun f => P f = true) d -> filter P d = d.
Proof. intros P d H. induction H as [|f d Hf _ IH]; [reflexivity|]. cbn [filter]. rewrite Hf, IH. reflexivity. Qed.
Lemma filter_none : forall (P : pyfield -> bool) d, Forall (fun f => P f = false) d -> filter P d = [].
Proof. intros P d H. induction H as [|f d Hf _ IH]; [reflexivity|]. cbn [filter]. rewrite Hf, IH. reflexivity. Qed.

Lemma Forall_filter : forall (P : pyfield -> bool) d, Forall (fun f => P f = true) (filter P d).
Proof. intros P d. apply Forall_forall. intros f H. apply filter_In in H. tauto. Qed.

Lemma std_of_init : forall d, filter is_std (filter is_std d ++ filter is_kw d) = filter is_std d.
Proof.
  intros d. rewrite filter_app, (filter_all is_std (filter is_std d) (Forall_filter is_std d)), (filter_none is_std (filter is_kw d)); [apply app_nil_r|].
  apply Forall_forall. intros f H. apply filter_In in H as [_ H]. destruct (is_std f) eqn:E; [|reflexivity]. rewrite (std_not_kw f E) in H. discriminate.
Qed.
Lemma kw_of_init : forall d, filter is_kw (filter is_std d ++ filter is_kw d) = filter is_kw d.
Proof.
  intros d. rewrite filter_app, (filter_all is_kw (filter is_kw d) (Forall_filter is_kw d)), (filter_none is_kw (filter is_std d)); [reflexivity|].
  apply Forall_forall. intros f H. apply filter_In in H as [_ H]. exact (std_not_kw f H).
Qed.

Definition init_order (d : list pyfield) : list pyfield := filter is_std d ++ filter is_kw d.

Lemma py_init_order : forall d, py_init d = map param_of (init_order d).
Proof. reflexivity. Qed.

Lemma in_init_order : forall d f, In f (init_order d) <-> In f d /\ in_init f = true.
Proof.
  intros d f. unfold init_order. rewrite in_app_iff, !filter_In. unfold is_std, is_kw. destruct (in_init f), (f_kw f); cbn; split; intros H; repeat destruct H as [H|H]; repeat destruct H as [H ?]; auto; discriminate.
Qed.

Lemma filter_flat_map : forall (P : pyfield -> bool) (h : nat -> list pyfield) ks, filter P (flat_map h ks) = flat_map (fun k => filter P (h k)) ks.
Proof. intros P h ks. induction ks as [|k ks IH]; [reflexivity|]. cbn [flat_map]. rewrite filter_app, IH. reflexivity. Qed.

(** Where all bases have the parameters of Python, the class has those of Python too. *)
Lemma state_params_init : forall c, Forall (fun a => args_ok (a_right a)) (body c) -> bare_ok (attribute_of program c) (body c) -> same_roles (writes c) ->
  (forall k, In k (mro c) -> params_at (inits_of program) k = if is_dc k then py_init (fields_at k) else []) ->
  state_params c = py_init (fsets [] (writes c)).
Proof.
  intros c A B R H. rewrite (state_params_eq c A B).
  assert (X : flat_map (params_at (inits_of program)) (rev (mro c)) = map param_of (flat_map (fun k => init_order (fields_at k)) (filter is_dc (rev (mro c))))).
  { assert (H' : forall k, In k (rev (mro c)) -> params_at (inits_of program) k = if is_dc k then py_init (fields_at k) else []) by (intros k K; apply H, in_rev, K).
    clear H. revert H'. induction (rev (mro c)) as [|k ks IH]; intros H; [reflexivity|]. cbn [flat_map filter]. rewrite (H k (or_introl eq_refl)), IH by (intros j J; apply H; right; exact J).
    destruct (is_dc k); [|reflexivity]. cbn [flat_map]. rewrite map_app. reflexivity. }
  rewrite X, <- map_app. change (@nil param) with (map param_of ([] ++ [])). rewrite add_fields_all; [|constructor|constructor| |].
  - rewrite py_init_order. f_equal. unfold init_order. rewrite !(fsets_filter) by (intros f g Hf Hg E; (apply role_std || apply role_kw); apply R; assumption).
    cbn [filter]. unfold writes, inherited. rewrite !filter_app, !filter_flat_map, !filter_in_init by (exact std_in_init || exact kw_in_init).
    f_equal; f_equal; f_equal; apply flat_map_ext; intros k; [apply std_of_init|apply kw_of_init].
  - apply Forall_app. split; [|apply Forall_filter]. apply Forall_forall. intros f Hf. apply in_flat_map in Hf as [k [_ Hf]]. apply in_init_order in Hf. tauto.
  - intros f g Hf Hg. cbn [app] in Hf, Hg. assert (In' : forall h, In h (flat_map (fun k => init_order (fields_at k)) (filter is_dc (rev (mro c))) ++ filter in_init (own c)) -> In h (writes c)).
    { intros h Hh. unfold writes, inherited. rewrite in_app_iff in *. destruct Hh as [Hh|Hh]; [left|right; apply filter_In in Hh; tauto].
      apply in_flat_map in Hh as [k [K Hh]]. apply in_flat_map. exists k. split; [exact K|]. apply in_init_order in Hh. tauto. }
    apply R; auto.
Qed.

(** ** The order of defaults *)
Definition in_order (ps : list param) : Prop := forall before prev next after, ps = before ++ prev :: next :: after ->
  is_keyword_only next = false -> p_default prev = true -> p_default next = true.

Lemma latest_none : forall ps i latest, latest_default_issue ps i latest = None <-> latest = None /\ in_order ps.
Proof.
  induction ps as [|p ps IH]; intros i latest.
  - cbn. split; [|tauto]. intros ->. split; [reflexivity|]. intros before prev next after E. destruct before; discriminate.
  - destruct ps as [|q ps].
    + cbn. split; [|tauto]. intros ->. split; [reflexivity|]. intros before prev next after E. destruct before as [|x [|y before]]; discriminate.
    + change (latest_default_issue (p :: q :: ps) i latest) with (latest_default_issue (q :: ps) (S i) (if negb (is_keyword_only q) && p_default p && negb (p_default q) then Some i else latest)).
      rewrite IH. split.
      * intros [E O]. destruct (negb (is_keyword_only q) && p_default p && negb (p_default q)) eqn:X; [discriminate|]. split; [exact E|].
        intros [|x before] prev next after Y K P; cbn [app] in Y.
        -- injection Y as <- <- <-. rewrite K, P in X. cbn in X. destruct (p_default q); [reflexivity|discriminate].
        -- injection Y as _ Y. exact (O before prev next after Y K P).
      * intros [-> O]. split.
        -- destruct (is_keyword_only q) eqn:K, (p_default p) eqn:P; try reflexivity. rewrite (O [] p q ps eq_refl K P). reflexivity.
        -- intros before prev next after Y. apply (O (p :: before) prev next after). cbn [app]. rewrite Y. reflexivity.
Qed.

Lemma ordered_std : forall fs, Forall (fun f => is_std f = true) fs -> in_order (map param_of fs) ->
  forall before f between g after, fs = before ++ f :: between ++ g :: after -> f_default f = true -> f_default g = true.
Proof.
  intros fs S O before f between. revert before f. induction between as [|h between IH]; intros before f g after E D.
  - apply (O (map param_of before) (param_of f) (param_of g) (map param_of after)); [|rewrite Forall_forall in S|exact D].
    + rewrite E. rewrite map_app. reflexivity.
    + assert (X : is_std g = true) by (apply S; rewrite E; apply in_or_app; right; right; left; reflexivity). unfold is_std in X. apply andb_true_iff in X as [_ X].
      unfold is_keyword_only. cbn. destruct (f_kw g); [discriminate|reflexivity].
  - apply (IH (before ++ [f]) h g after); [rewrite <- app_assoc; exact E|].
    apply (O (map param_of before) (param_of f) (param_of h) (map param_of (between ++ g :: after))); [rewrite E, map_app; reflexivity| |exact D].
    rewrite Forall_forall in S. assert (X : is_std h = true) by (apply S; rewrite E; apply in_or_app; right; right; left; reflexivity). unfold is_std in X. apply andb_true_iff in X as [_ X].
    unfold is_keyword_only. cbn. destruct (f_kw h); [discriminate|reflexivity].
Qed.

Lemma app_split_right : forall A (a b before : list A) x after, a ++ b = before ++ x :: after -> (exists after', a = before ++ x :: after') \/ In x b.
Proof.
  intros A a. induction a as [|y a IH]; intros b before x after E.
  - right. cbn [app] in E. rewrite E. apply in_or_app. right. left. reflexivity.
  - destruct before as [|z before]; cbn [app] in E; injection E as -> E.
    + left. exists a. reflexivity.
    + destruct (IH b before x after E) as [[after' ->]|H]; [left; exists after'; reflexivity|right; exact H].
Qed.

Lemma in_order_init : forall d, in_order (py_init d) <-> ~ default_error d.
Proof.
  intros d. rewrite py_init_order. unfold init_order. split.
  - intros O [before [f [between [g [after [E [D1 D2]]]]]]].
    assert (O' : in_order (map param_of (filter is_std d))).
    { intros b prev next a X. apply (O b prev next (a ++ map param_of (filter is_kw d))). rewrite map_app, X, <- app_assoc. reflexivity. }
    pose proof (ordered_std _ (Forall_filter is_std d) O' before f between g after E D1). congruence.
  - intros N before prev next after E K D. destruct (p_default next) eqn:X; [reflexivity|]. exfalso. rewrite map_app in E.
    assert (E' : map param_of (filter is_std d) ++ map param_of (filter is_kw d) = (before ++ [prev]) ++ next :: after) by (rewrite <- app_assoc; exact E).
    apply app_split_right in E' as [[after' Y]|Y].
    + rewrite <- app_assoc in Y. cbn [app] in Y. apply map_eq_app in Y as [l1 [l2 [Y1 [Y2 Y3]]]]. apply map_eq_cons in Y3 as [f [l3 [Y3 [Y4 Y5]]]]. apply map_eq_cons in Y5 as [g [l4 [Y5 [Y6 Y7]]]].
      subst. apply N. exists l1, f, [], g, l4. split; [exact Y1|]. split; [exact D|exact X].
    + pose proof (kw_keyword _ (Forall_filter is_kw d)) as H. rewrite Forall_forall in H. specialize (H next Y). unfold keyword in H. congruence.
Qed.

(** ** Issues *)
Lemma own_issues : forall ck body s x, In x (s_issues (fold_left (add_field ck) body s)) -> In x (s_issues s) \/ x = MultipleKwOnly.
Proof.
  intros ck. induction body as [|a body IH]; intros s x H; [auto|]. cbn [fold_left] in H. apply IH in H as [H|H]; [|auto]. unfold add_field in H.
  destruct (a_kind a); [destruct (init _)|destruct (init _)| |destruct (s_marker s)]; cbn [s_issues] in H; auto. apply in_app_iff in H as [H|[<-|[]]]; auto.
Qed.

Lemma own_marker : forall ck body s, In MultipleKwOnly (s_issues (fold_left (add_field ck) body s)) <->
  In MultipleKwOnly (s_issues s) \/ (s_marker s = true /\ exists a, In a body /\ is_marker a = true) \/ marker_error body.
Proof.
  intros ck. induction body as [|a body IH]; intros s; cbn [fold_left].
  - split; [auto|]. intros [H|[[_ [a [[] _]]]|[before [a [between [b [after [E _]]]]]]]]; [exact H|]. destruct before; discriminate.
  - rewrite IH. assert (E : marker_error (a :: body) <-> (is_marker a = true /\ exists b, In b body /\ is_marker b = true) \/ marker_error body).
    { split.
      - intros [[|x before] [m [between [n [after [E [E1 E2]]]]]]]; cbn [app] in E; injection E as -> E; [left|right].
        + split; [exact E1|]. exists n. split; [rewrite E; apply in_or_app; right; left; reflexivity|exact E2].
        + exists before, m, between, n, after. auto.
      - intros [[M [b [B1 B2]]]|[before [m [between [n [after [E [E1 E2]]]]]]]].
        + apply in_split in B1 as [l1 [l2 ->]]. exists [], a, l1, b, l2. auto.
        + exists (a :: before), m, between, n, after. rewrite E. auto. }
    assert (X : (exists b, In b (a :: body) /\ is_marker b = true) <-> is_marker a = true \/ exists b, In b body /\ is_marker b = true).
    { split; [intros [b [[->|B] M]]; [auto|right; eauto]|]. intros [M|[b [B M]]]; [exists a; cbn; auto|exists b; cbn; auto]. }
    rewrite E, X. unfold add_field, is_marker in *. destruct (a_kind a); [destruct (init _)|destruct (init _)| |destruct (s_marker s) eqn:M]; cbn [s_issues s_marker]; try rewrite in_app_iff; cbn [In];
      try rewrite M; intuition congruence.
Qed.

Lemma frozen_issues : forall frozen ks x,
  In x (flat_map (fun i => match nth_error program i with Some b => frozen_issue frozen b | None => [] end) ks) <->
  exists k b, In k ks /\ nth_error program k = Some b /\ is_dataclass b = true /\ opt_frozen b = negb frozen /\ x = if frozen then FrozenFromNonFrozen else NonFrozenFromFrozen.
Proof.
  intros frozen ks x. rewrite in_flat_map. split.
  - intros [k [K H]]. destruct (nth_error program k) as [b|] eqn:B; [|destruct H]. unfold frozen_issue in H. destruct (is_dataclass b) eqn:D; [|destruct H].
    destruct (opt_frozen b) eqn:F, frozen; cbn in H; try contradiction; destruct H as [<-|[]]; exists k, b; auto.
  - intros [k [b [K [B [D [F ->]]]]]]. exists k. split; [exact K|]. rewrite B. unfold frozen_issue. rewrite D, F. destruct frozen; left; reflexivity.
Qed.

Definition own_state (c : class) : fields_state := fold_left (add_field (opt_kw_only c)) (body c)
    (mk_fields_state (fst (fold_left (add_base (inits_of program)) (rev (mro c)) ([], []))) (snd (fold_left (add_base (inits_of program)) (rev (mro c)) ([], []))) [] false []).

Lemma calculate_parts : forall c, let r := calculate_init_of_dataclass program (inits_of program) c in
  (in_order (state_params c) -> init_params r = state_params c) /\
  (In NoDefaultAfterDefault (issues r) <-> ~ in_order (state_params c)) /\
  post_init_params r = s_post (own_state c) /\
  (In MultipleKwOnly (issues r) <-> marker_error (body c)) /\
  (forall x, x = FrozenFromNonFrozen \/ x = NonFrozenFromFrozen -> (In x (issues r) <->
     exists k b, In k (mro c) /\ nth_error program k = Some b /\ is_dataclass b = true /\ opt_frozen b = negb (opt_frozen c) /\ x = if opt_frozen c then FrozenFromNonFrozen else NonFrozenFromFrozen)) /\
  map p_name (init_params r) = map p_name (state_params c) /\ map p_kind (init_params r) = map p_kind (state_params c) /\ map p_type (init_params r) = map p_type (state_params c).
Proof.
  intros c r. unfold calculate_init_of_dataclass in r. unfold state_params, own_state. destruct (fold_left (add_base (inits_of program)) (rev (mro c)) ([], [])) as [params post]. cbn [fst snd].
  set (s := fold_left (add_field (opt_kw_only c)) (body c) (mk_fields_state params post [] false [])) in *.
  pose proof (latest_none (s_params s) 1 None) as L. cbv zeta in r.
  set (fr := flat_map _ (rev (mro c))) in r.
  assert (Fr : forall x, In x fr <-> exists k b, In k (mro c) /\ nth_error program k = Some b /\ is_dataclass b = true /\ opt_frozen b = negb (opt_frozen c) /\ x = if opt_frozen c then FrozenFromNonFrozen else NonFrozenFromFrozen).
  { intros x. unfold fr. rewrite frozen_issues. split; intros [k [b [K H]]]; exists k, b; (split; [|exact H]); [apply (proj2 (in_rev _ _)); exact K|apply (proj1 (in_rev _ _)); exact K]. }
  assert (Own : forall x, In x (s_issues s) -> x = MultipleKwOnly).
  { intros x H. apply own_issues in H as [H|H]; [destruct H|exact H]. }
  pose proof (own_marker (opt_kw_only c) (body c) (mk_fields_state params post [] false [])) as Mk. fold s in Mk. cbn [s_issues s_marker In] in Mk.
  assert (NF : forall x, In x fr -> x <> NoDefaultAfterDefault /\ x <> MultipleKwOnly).
  { intros x H. apply Fr in H as [k [b [_ [_ [_ [_ ->]]]]]]. destruct (opt_frozen c); split; discriminate. }
  assert (OwnM : In MultipleKwOnly (s_issues s) <-> marker_error (body c)).
  { rewrite Mk. split; [intros [[]|[[X _]|X]]; [discriminate X|exact X]|auto]. }
  destruct (latest_default_issue (s_params s) 1 None) as [n|] eqn:Li; subst r; cbn [init_params issues post_init_params].
  - assert (O : ~ in_order (s_params s)) by (intros O; assert (Some n = None) by (apply L; auto); discriminate).
    split; [intros X; contradiction|]. split; [split; [intros _; exact O|intros _; rewrite !in_app_iff; right; right; left; reflexivity]|]. split; [reflexivity|]. split; [|split].
    + rewrite !in_app_iff. cbn [In]. split; [|intros H; right; left; apply OwnM, H]. intros [H|[H|[H|[]]]]; [apply NF in H as [_ H]; congruence|apply OwnM, H|discriminate].
    + intros x Hx. rewrite !in_app_iff. cbn [In]. rewrite <- Fr. split; [|auto]. intros [H|[H|[H|[]]]]; [exact H|apply Own in H; destruct Hx; congruence|destruct Hx; congruence].
    + assert (G : forall B (h : param -> B), (forall p, h (without_default p) = h p) -> map h (map without_default (firstn n (s_params s)) ++ skipn n (s_params s)) = map h (s_params s)).
      { intros B h Hh. rewrite map_app, map_map, (map_ext _ h Hh), <- map_app, firstn_skipn. reflexivity. }
      split; [|split]; apply G; reflexivity.
  - assert (O : in_order (s_params s)) by (apply L; reflexivity). split; [reflexivity|]. split; [|split; [reflexivity|split; [|split]]].
    + split; [|intros X; contradiction]. rewrite in_app_iff. intros [H|H]; [apply NF in H as [H _]; congruence|apply Own in H; discriminate].
    + rewrite in_app_iff. split; [|intros H; right; apply OwnM, H]. intros [H|H]; [apply NF in H as [_ H]; congruence|apply OwnM, H].
    + intros x Hx. rewrite in_app_iff, <- Fr. split; [|auto]. intros [H|H]; [exact H|apply Own in H; destruct Hx; congruence].
    + auto.
Qed.

(** ** Classes with the parameters of Python *)
Definition usual (c : class) : Prop := bare_ok (attribute_of program c) (body c) /\ passes_on c /\ same_roles (writes c).
Definition bases_fine (c : class) : Prop := forall k b, In k (mro c) -> nth_error program k = Some b -> is_dataclass b = true -> ~ default_error (fields_at k).

Lemma known_bases : well_formed -> forall i c, nth_error program i = Some c -> forall k, In k (mro c) -> exists b, nth_error program k = Some b.
Proof.
  intros W i c H k K. pose proof (wf_before W i c k H K) as L. assert (X : (i < length program)%nat) by (apply nth_error_Some; congruence).
  destruct (nth_error program k) as [b|] eqn:E; [eauto|]. apply nth_error_None in E. lia.
Qed.

Lemma family_base : forall (P : class -> Prop), well_formed -> forall i c k b, nth_error program i = Some c -> family c P -> In k (mro c) -> nth_error program k = Some b -> is_dataclass b = true -> family b P.
Proof.
  intros P W i c k b H [_ F] K B D. split; [exact (F k b K B D)|]. intros j b' J. apply F. exact (wf_linear W i c k b H K B j J).
Qed.

Lemma args_of : well_formed -> forall i c, nth_error program i = Some c -> Forall (fun a => args_ok (a_right a)) (body c).
Proof. intros W i c H. apply Forall_forall. intros a A. exact (wf_args W i c a H A). Qed.

Lemma fields_of_class : well_formed -> forall i c, nth_error program i = Some c -> is_dataclass c = true -> passes_on c -> fields_at i = fsets [] (writes c).
Proof. intros W i c H D P. unfold fields_at. rewrite (Fields i c H), D. apply process_writes; [exact (known_bases W i c H)|exact P]. Qed.

Lemma params_right : well_formed -> forall i c, nth_error program i = Some c -> is_dataclass c = true -> family c usual -> bases_fine c ->
  state_params c = py_init (fields_at i).
Proof.
  intros W. induction i as [i IH] using lt_wf_ind. intros c H D F Ok. destruct F as [[B [P R]] F'] eqn:X. rewrite (fields_of_class W i c H D P).
  apply state_params_init; [exact (args_of W i c H)|exact B|exact R|]. intros k K. destruct (known_bases W i c H k K) as [b Hb]. unfold params_at, is_dc.
  rewrite (inits_equation W k b Hb), Hb. destruct (is_dataclass b) eqn:Db; [|reflexivity].
  assert (E : state_params b = py_init (fields_at k)).
  { apply (IH k (wf_before W i c k H K) b Hb Db); [exact (family_base usual W i c k b H F K Hb Db)|]. intros j b' J. apply Ok. exact (wf_linear W i c k b H K Hb j J). }
  destruct (calculate_parts b) as [C _]. cbv zeta in C. rewrite C; [exact E|]. rewrite E. apply in_order_init. exact (Ok k b K Hb Db).
Qed.

Lemma inits_exist : well_formed -> forall i c, nth_error program i = Some c -> is_dataclass c = true ->
  inits_of program i = Some (calculate_init_of_dataclass program (inits_of program) c).
Proof. intros W i c H D. rewrite (inits_equation W i c H), D. reflexivity. Qed.

(** ** All fields are there *)
Definition pfind (n : N) (ps : list param) : option param := find (fun p => p_name p =? n) ps.
Definition ffind (n : N) (d : list pyfield) : option pyfield := find (fun f => f_name f =? n) d.

Lemma pfind_pset : forall ps new n, pfind n (pset ps new) = if p_name new =? n then Some new else pfind n ps.
Proof.
  induction ps as [|p ps IH]; intros new n; cbn [pset pfind find]; [reflexivity|]. destruct (N.eqb_spec (p_name p) (p_name new)) as [E|E]; cbn [pfind find].
  - rewrite E. destruct (p_name new =? n); reflexivity.
  - destruct (N.eqb_spec (p_name p) n) as [X|X]; [|apply IH]. destruct (N.eqb_spec (p_name new) n); [congruence|reflexivity].
Qed.

Lemma pfind_app : forall a b n, pfind n (a ++ b) = match pfind n a with Some p => Some p | None => pfind n b end.
Proof. induction a as [|p a IH]; intros b n; cbn [app pfind find]; [reflexivity|]. destruct (p_name p =? n); [reflexivity|apply IH]. Qed.

Lemma pfind_none : forall ps n, pfind n ps = None <-> ~ In n (map p_name ps).
Proof.
  induction ps as [|p ps IH]; intros n; cbn [pfind find map In]; [tauto|]. destruct (N.eqb_spec (p_name p) n) as [E|E].
  - split; [discriminate|]. intros H. exfalso. auto.
  - rewrite (IH n). tauto.
Qed.

Lemma pfind_in : forall ps n p, pfind n ps = Some p -> In p ps /\ p_name p = n.
Proof. intros ps n p H. apply find_some in H as [H1 H2]. apply N.eqb_eq in H2. auto. Qed.

(** A new parameter is put somewhere. *)
Lemma add_param_new : forall ps new, ~ In (p_name new) (map p_name ps) -> exists a b, ps = a ++ b /\ fst (add_param ps new) = a ++ new :: b.
Proof.
  intros ps new H. unfold add_param. apply find_name_none in H. rewrite H. destruct (if is_keyword_only new then None else first_kwarg ps 0) as [i|]; cbn [fst].
  - exists (firstn i ps), (skipn i ps). split; [symmetry; apply firstn_skipn|reflexivity].
  - exists ps, []. split; [now rewrite app_nil_r|reflexivity].
Qed.

Lemma pfind_add : forall ps new n, pfind n (fst (add_param ps new)) = if p_name new =? n then Some new else pfind n ps.
Proof.
  intros ps new n. destruct (in_names_dec (p_name new) ps) as [I0|I0].
  - rewrite (add_param_known ps new I0). apply pfind_pset.
  - destruct (add_param_new ps new I0) as [a [b [E1 E2]]]. rewrite E2, E1, !pfind_app. cbn [pfind find]. destruct (N.eqb_spec (p_name new) n) as [<-|X]; [|reflexivity].
    assert (Y : pfind (p_name new) a = None) by (apply pfind_none; intros Y; apply I0; rewrite E1, map_app; apply in_or_app; auto). rewrite Y. reflexivity.
Qed.

Lemma add_param_nodup : forall ps new, NoDup (map p_name ps) -> NoDup (map p_name (fst (add_param ps new))).
Proof.
  intros ps new H. destruct (in_names_dec (p_name new) ps) as [I0|I0].
  - rewrite (add_param_known ps new I0). cbn [fst]. clear I0. induction ps as [|p ps IH]; cbn [pset map]; [constructor; [intros []|constructor]|].
    inversion H as [|x l H1 H2]; subst. destruct (N.eqb_spec (p_name p) (p_name new)) as [E|E]; cbn [map]; [rewrite <- E; exact H|]. constructor; [|exact (IH H2)].
    intros X. destruct (pfind (p_name p) (pset ps new)) as [q|] eqn:Q; [|apply pfind_none in Q; contradiction].
    rewrite pfind_pset in Q. apply N.eqb_neq in E. rewrite N.eqb_sym, E in Q. apply pfind_in in Q as [Q1 Q2]. apply H1. rewrite <- Q2. apply in_map. exact Q1.
  - destruct (add_param_new ps new I0) as [a [b [E1 E2]]]. rewrite E2. rewrite E1 in H, I0. rewrite map_app in *. cbn [map]. apply NoDup_Add with (a := p_name new) (l := map p_name a ++ map p_name b).
    + apply Add_app.
    + auto.
Qed.

Lemma add_all_nodup : forall new ps, NoDup (map p_name ps) -> NoDup (map p_name (add_all ps new)).
Proof. induction new as [|p new IH]; intros ps H; [exact H|]. cbn [add_all fold_left]. apply IH, add_param_nodup, H. Qed.

Lemma pfind_add_all : forall new ps n, NoDup (map p_name new) -> pfind n (add_all ps new) = match pfind n new with Some p => Some p | None => pfind n ps end.
Proof.
  induction new as [|p new IH]; intros ps n N; [reflexivity|]. inversion N as [|x l N1 N2]; subst. cbn [add_all fold_left].
  change (fold_left (fun l p => fst (add_param l p)) new (fst (add_param ps p))) with (add_all (fst (add_param ps p)) new). rewrite (IH _ n N2), pfind_add. cbn [pfind find].
  destruct (N.eqb_spec (p_name p) n) as [E|E]; [|reflexivity]. assert (Y : pfind n new = None) by (apply pfind_none; rewrite <- E; exact N1). unfold pfind in Y |- *. rewrite Y. reflexivity.
Qed.

Lemma ffind_fset : forall d f n, ffind n (fset d f) = if f_name f =? n then Some f else ffind n d.
Proof.
  induction d as [|g d IH]; intros f n; cbn [fset ffind find]; [reflexivity|]. destruct (N.eqb_spec (f_name f) (f_name g)) as [E|E]; cbn [ffind find].
  - rewrite <- E. destruct (f_name f =? n); reflexivity.
  - destruct (N.eqb_spec (f_name g) n) as [X|X]; [|apply IH]. destruct (N.eqb_spec (f_name f) n); [congruence|reflexivity].
Qed.

Lemma ffind_none : forall d n, ffind n d = None <-> ~ In n (names d).
Proof.
  induction d as [|g d IH]; intros n; cbn [ffind find names map In]; [tauto|]. destruct (N.eqb_spec (f_name g) n) as [E|E].
  - split; [discriminate|]. intros H. exfalso. auto.
  - specialize (IH n). unfold ffind, names in IH. rewrite IH. tauto.
Qed.

Lemma ffind_in : forall d f, NoDup (names d) -> In f d -> ffind (f_name f) d = Some f.
Proof.
  induction d as [|g d IH]; intros f N H; [destruct H|]. inversion N as [|x l N1 N2]; subst. cbn [ffind find]. destruct H as [->|H].
  - rewrite N.eqb_refl. reflexivity.
  - destruct (N.eqb_spec (f_name g) (f_name f)) as [E|E]; [|exact (IH f N2 H)]. exfalso. apply N1. rewrite E. apply (in_map f_name). exact H.
Qed.

Lemma ffind_fsets : forall e d n, NoDup (names e) -> ffind n (fsets d e) = match ffind n e with Some f => Some f | None => ffind n d end.
Proof.
  induction e as [|f e IH]; intros d n N; [reflexivity|]. inversion N as [|x l N1 N2]; subst. cbn [fsets fold_left].
  change (fold_left fset e (fset d f)) with (fsets (fset d f) e). rewrite (IH _ n N2), ffind_fset. cbn [ffind find].
  destruct (N.eqb_spec (f_name f) n) as [E|E]; [|reflexivity]. assert (Y : ffind n e = None) by (apply ffind_none; rewrite <- E; exact N1). unfold ffind in Y |- *. rewrite Y. reflexivity.
Qed.

Definition holds (d : list pyfield) (ps : list param) : Prop :=
  (forall n f, ffind n d = Some f -> in_init f = true -> pfind n ps = Some (param_of f)) /\ (forall n, In n (map p_name ps) -> In n (names d)).

Lemma holds_update : forall d ps e q, holds d ps -> holds e q -> NoDup (names e) -> NoDup (map p_name q) -> holds (fsets d e) (add_all ps q).
Proof.
  intros d ps e q [H1 H2] [E1 E2] N M. split.
  - intros n f. rewrite (ffind_fsets e d n N), (pfind_add_all q ps n M). destruct (ffind n e) as [g|] eqn:G.
    + intros [= ->] I0. rewrite (E1 n f G I0). reflexivity.
    + intros F I0. assert (X : pfind n q = None). { apply pfind_none. intros X. apply ffind_none in G. exact (G (E2 n X)). } rewrite X. exact (H1 n f F I0).
  - intros n Hn. destruct (ffind n (fsets d e)) as [f|] eqn:F.
    + apply find_some in F as [F1 F2]. apply N.eqb_eq in F2. rewrite <- F2. apply (in_map f_name). exact F1.
    + exfalso. destruct (pfind n (add_all ps q)) as [p|] eqn:P; [|apply pfind_none in P; contradiction]. rewrite (pfind_add_all q ps n M) in P. rewrite (ffind_fsets e d n N) in F.
      destruct (ffind n e) eqn:G; [discriminate|]. destruct (pfind n q) as [p'|] eqn:Q.
      * apply pfind_in in Q as [Q1 Q2]. apply ffind_none in G. apply G, E2. rewrite <- Q2. apply in_map. exact Q1.
      * apply pfind_in in P as [P1 P2]. apply ffind_none in F. apply F, H2. rewrite <- P2. apply in_map. exact P1.
Qed.

Lemma own_names : forall attribute body kw, incl (names (own_fields attribute kw body)) (map a_name body).
Proof.
  intros attribute body. induction body as [|a body IH]; intros kw n H; [exact H|]. cbn [own_fields map] in *. destruct (a_kind a); try (right; exact (IH _ n H)).
  all: cbn [names map In] in H; rewrite field_name in H; destruct H as [H|H]; [left; exact H|right; exact (IH _ n H)].
Qed.
Lemma own_nodup : forall attribute body kw, NoDup (map a_name body) -> NoDup (names (own_fields attribute kw body)).
Proof.
  intros attribute body. induction body as [|a body IH]; intros kw H; [constructor|]. inversion H as [|x l H1 H2]; subst. cbn [own_fields].
  destruct (a_kind a); try exact (IH _ H2); cbn [names map]; (constructor; [|exact (IH _ H2)]); rewrite field_name; intros X; apply H1; exact (own_names attribute body kw _ X).
Qed.

Lemma holds_own : forall e, NoDup (names e) -> holds e (map param_of (filter in_init e)).
Proof.
  intros e N. split.
  - intros n f F I0. apply find_some in F as [F1 F2]. apply N.eqb_eq in F2. subst n.
    destruct (pfind (f_name f) (map param_of (filter in_init e))) as [p|] eqn:P.
    + apply pfind_in in P as [P1 P2]. apply in_map_iff in P1 as [g [<- G]]. apply filter_In in G as [G _]. cbn in P2. pose proof (ffind_in e g N G) as X. rewrite P2, (ffind_in e f N F1) in X. congruence.
    + apply pfind_none in P. exfalso. apply P. rewrite param_names. apply (in_map f_name). apply filter_In. auto.
  - intros n H. rewrite param_names in H. unfold names in *. apply in_map_iff in H as [f [<- H]]. apply in_map. apply filter_In in H. tauto.
Qed.

Lemma filter_nodup : forall (P : pyfield -> bool) e, NoDup (names e) -> NoDup (names (filter P e)).
Proof.
  intros P e. induction e as [|f e IH]; intros N; [constructor|]. inversion N as [|x l N1 N2]; subst. cbn [filter]. destruct (P f); [|exact (IH N2)]. cbn [names map]. constructor; [|exact (IH N2)].
  intros X. apply N1. unfold names in *. apply in_map_iff in X as [g [<- X]]. apply in_map. apply filter_In in X. tauto.
Qed.

Definition bare_passes (c : class) : Prop := bare_ok (attribute_of program c) (body c) /\ passes_on c.
Definition in_order_class (c : class) : Prop := ~ In NoDefaultAfterDefault (issues (calculate_init_of_dataclass program (inits_of program) c)).

Lemma params_complete : well_formed -> forall i c, nth_error program i = Some c -> is_dataclass c = true -> family c bare_passes -> family c in_order_class ->
  holds (fields_at i) (init_params (calculate_init_of_dataclass program (inits_of program) c)) /\ NoDup (map p_name (init_params (calculate_init_of_dataclass program (inits_of program) c))).
Proof.
  intros W. induction i as [i IH] using lt_wf_ind. intros c H D F O. destruct F as [[B P] F'] eqn:X. rewrite (fields_of_class W i c H D P).
  destruct (calculate_parts c) as [C1 [C2 _]]. cbv zeta in *.
  assert (Ord : in_order (state_params c)).
  { destruct (latest_default_issue (state_params c) 1 None) as [n|] eqn:L.
    - exfalso. apply (proj1 O), C2. intros Y. assert (Z : latest_default_issue (state_params c) 1 None = None) by (apply latest_none; auto). congruence.
    - apply (latest_none (state_params c) 1 None). exact L. }
  rewrite (C1 Ord), (state_params_eq c (args_of W i c H) B). unfold writes. rewrite fsets_app, add_all_app.
  pose proof (own_nodup (attribute_of program c) (body c) (opt_kw_only c) (wf_names W i c H)) as No. fold (own c) in No.
  assert (G : forall ks d ps, (forall k, In k ks -> In k (mro c)) -> holds d ps -> NoDup (map p_name ps) ->
    holds (fsets d (flat_map fields_at (filter is_dc ks))) (add_all ps (flat_map (params_at (inits_of program)) ks)) /\ NoDup (map p_name (add_all ps (flat_map (params_at (inits_of program)) ks)))).
  { induction ks as [|k ks IHk]; intros d ps Ks Hd Np; [split; assumption|]. cbn [flat_map filter]. assert (K : In k (mro c)) by (apply Ks; left; reflexivity).
    destruct (known_bases W i c H k K) as [b Hb]. rewrite add_all_app. assert (Dk : is_dc k = is_dataclass b) by (unfold is_dc; rewrite Hb; reflexivity). rewrite Dk.
    assert (Ek : inits_of program k = if is_dataclass b then Some (calculate_init_of_dataclass program (inits_of program) b) else None) by exact (inits_equation W k b Hb).
    destruct (is_dataclass b) eqn:Db.
    - cbn [flat_map]. rewrite fsets_app. destruct (IH k (wf_before W i c k H K) b Hb Db (family_base bare_passes W i c k b H F K Hb Db) (family_base in_order_class W i c k b H O K Hb Db)) as [I1 I2].
      assert (Pk : params_at (inits_of program) k = init_params (calculate_init_of_dataclass program (inits_of program) b)) by (unfold params_at; rewrite Ek; reflexivity).
      rewrite Pk. apply IHk; [intros j J; apply Ks; right; exact J| |apply add_all_nodup, Np]. apply holds_update; [exact Hd|exact I1|apply fields_nodup; rewrite Dk; reflexivity|exact I2].
    - assert (Pk : params_at (inits_of program) k = []) by (unfold params_at; rewrite Ek; reflexivity). rewrite Pk. apply IHk; [intros j J; apply Ks; right; exact J|exact Hd|exact Np]. }
  destruct (G (rev (mro c)) [] []) as [G1 G2]; [intros k K; apply in_rev; exact K| |constructor|].
  - split; [discriminate|intros n []].
  - split; [|apply add_all_nodup, G2]. apply holds_update; [exact G1|exact (holds_own _ No)|exact No|]. rewrite param_names. apply filter_nodup, No.
Qed.

(** ** InitVars *)
Definition described (f : pyfield) : N * N := (f_name f, f_type f).
Definition post_of (d : list pyfield) : list (N * N) := map described (filter is_init_var d).

Lemma find_post : forall d f, NoDup (names d) -> In f d -> find (fun q => fst q =? f_name f) (post_of d) = if is_init_var f then Some (described f) else None.
Proof.
  intros d f N H. unfold post_of. induction d as [|g d IH]; [destruct H|]. inversion N as [|x l N1 N2]; subst. cbn [filter]. destruct H as [->|H].
  - destruct (is_init_var f) eqn:V.
    + cbn [map find described fst]. rewrite N.eqb_refl. reflexivity.
    + clear - N1. induction d as [|g d IH]; [reflexivity|]. cbn [filter]. assert (X : f_name g <> f_name f) by (intros E; apply N1; left; exact E).
      assert (Y : ~ In (f_name f) (map f_name d)) by (intros E; apply N1; right; exact E). destruct (is_init_var g); [|exact (IH Y)]. cbn [map find described fst]. apply N.eqb_neq in X. rewrite X. exact (IH Y).
  - assert (X : f_name g <> f_name f) by (intros E; apply N1; rewrite E; apply (in_map f_name); exact H). destruct (is_init_var g); [|exact (IH N2 H)].
    cbn [map find described fst]. apply N.eqb_neq in X. rewrite X. exact (IH N2 H).
Qed.

Lemma fset_new : forall d f, ~ In (f_name f) (names d) -> fset d f = d ++ [f].
Proof.
  induction d as [|g d IH]; intros f H; [reflexivity|]. cbn [fset app]. destruct (N.eqb_spec (f_name f) (f_name g)) as [E|E]; [exfalso; apply H; left; auto|].
  rewrite IH; [reflexivity|]. intros X. apply H. right. exact X.
Qed.

(** An InitVar that is written again is the same one. *)
Definition init_vars_same (fs : list pyfield) : Prop := forall f g, In f fs -> In g fs -> f_name f = f_name g -> is_init_var f = true -> f = g.

Lemma init_vars_agree : forall fs f g, init_vars_same fs -> In f fs -> In g fs -> f_name f = f_name g -> is_init_var f = is_init_var g.
Proof.
  intros fs f g H Hf Hg E. destruct (is_init_var f) eqn:X.
  - rewrite <- (H f g Hf Hg E X). auto.
  - destruct (is_init_var g) eqn:Y; [|reflexivity]. rewrite <- (H g f Hg Hf (eq_sym E) Y) in X. congruence.
Qed.

Lemma base_std : forall d kw fs pos, (forall f, In f fs -> In f d /\ is_std f = true) -> NoDup (names d) -> NoDup (names pos) ->
  Forall (fun f => is_std f = true) pos -> Forall (fun f => is_kw f = true) kw -> same_roles (pos ++ kw ++ d) -> init_vars_same (pos ++ d) ->
  fold_left (add_base_param (post_of d)) (map param_of fs) (map param_of (pos ++ kw), post_of pos) = (map param_of (fsets pos fs ++ kw), post_of (fsets pos fs)).
Proof.
  intros d kw. induction fs as [|f fs IH]; intros pos Hfs Nd Np P K R V; [reflexivity|]. destruct (Hfs f (or_introl eq_refl)) as [Fd Fs]. cbn [map fold_left]. unfold add_base_param at 2.
  assert (X : forall g, In g pos \/ In g kw -> f_name g = f_name f -> role g = role f).
  { intros g G E. apply R; [|rewrite !in_app_iff; auto|exact E]. rewrite !in_app_iff. destruct G; auto. }
  rewrite add_std; [|exact P|exact K|exact Fs|].
  2:{ apply (other_role is_kw is_std); [|exact K|exact Fs|intros g G E; apply role_std, X; auto]. intros g G. destruct (is_std g) eqn:Y; [|reflexivity]. rewrite (std_not_kw g Y) in G. discriminate. }
  change (p_name (param_of f)) with (f_name f). rewrite (find_post d f Nd Fd).
  assert (E : (if negb (known (f_name f) pos) then match (if is_init_var f then Some (described f) else None) with Some q => post_of pos ++ [q] | None => post_of pos end else post_of pos) = post_of (fset pos f)).
  { destruct (known (f_name f) pos) eqn:Kn; cbn [negb].
    - unfold post_of. rewrite fset_filter by (intros g G E; apply (init_vars_agree (pos ++ d)); [exact V|apply in_or_app; auto|apply in_or_app; auto|exact E]).
      destruct (is_init_var f) eqn:Vf; [|reflexivity]. apply known_in in Kn. unfold names in Kn. apply in_map_iff in Kn as [g [G1 G2]].
      assert (Efg : f = g) by (apply (V f g); [apply in_or_app; auto|apply in_or_app; auto|auto|exact Vf]). rewrite fset_same; [reflexivity|apply filter_nodup, Np|]. apply filter_In. rewrite <- Efg in G2. auto.
    - rewrite fset_new by (intros Y; apply known_in in Y; congruence). unfold post_of. rewrite filter_app. cbn [filter]. destruct (is_init_var f); [rewrite map_app; reflexivity|now rewrite app_nil_r]. }
  rewrite E. change (fold_left (add_base_param (post_of d)) (map param_of fs) (map param_of (fset pos f ++ kw), post_of (fset pos f)) = (map param_of (fsets (fset pos f) fs ++ kw), post_of (fsets (fset pos f) fs))).
  apply IH; [intros g G; apply Hfs; right; exact G|exact Nd|apply fset_NoDup, Np|apply Forall_fset; assumption|exact K| |].
  - intros g h G Hh. apply R; rewrite !in_app_iff in *.
    + destruct G as [G|G]; [apply fset_in in G as [->|G]|]; auto.
    + destruct Hh as [Hh|Hh]; [apply fset_in in Hh as [->|Hh]|]; auto.
  - intros g h G Hh. apply V; rewrite !in_app_iff in *.
    + destruct G as [G|G]; [apply fset_in in G as [->|G]|]; auto.
    + destruct Hh as [Hh|Hh]; [apply fset_in in Hh as [->|Hh]|]; auto.
Qed.

Lemma base_kw : forall d pos post fs kw, (forall f, In f fs -> In f d /\ is_kw f = true) -> NoDup (names d) -> (forall f, In f d -> is_init_var f = true -> is_std f = true) ->
  Forall (fun f => is_std f = true) pos -> same_roles (pos ++ d) ->
  fold_left (add_base_param (post_of d)) (map param_of fs) (map param_of (pos ++ kw), post) = (map param_of (pos ++ fsets kw fs), post).
Proof.
  intros d pos post. induction fs as [|f fs IH]; intros kw Hfs Nd Iv P R; [reflexivity|]. destruct (Hfs f (or_introl eq_refl)) as [Fd Fk]. cbn [map fold_left]. unfold add_base_param at 2.
  rewrite add_kw; [|exact Fk|].
  2:{ apply (other_role is_std is_kw); [exact std_not_kw|exact P|exact Fk|]. intros g G E. apply role_kw, R; [apply in_or_app; auto|apply in_or_app; auto|exact E]. }
  change (p_name (param_of f)) with (f_name f). rewrite (find_post d f Nd Fd). assert (V : is_init_var f = false).
  { destruct (is_init_var f) eqn:V; [|reflexivity]. rewrite (std_not_kw f (Iv f Fd V)) in Fk. discriminate. }
  rewrite V. replace (if negb (known (f_name f) kw) then post else post) with post by (destruct (known (f_name f) kw); reflexivity).
  apply IH; [intros g G; apply Hfs; right; exact G|exact Nd|exact Iv|exact P|exact R].
Qed.

(** All InitVars are positional, those of the bases are the same ones, and none of them is written again. *)
Record init_vars_once (c : class) : Prop := mk_init_vars_once {
  iv_positional : forall f, In f (writes c) -> is_init_var f = true -> is_std f = true;
  iv_inherited : init_vars_same (inherited c);
  iv_own : forall f g, In f (own c) -> In g (inherited c) -> f_name f = f_name g -> is_init_var f = false /\ is_init_var g = false
}.

Lemma bases_post : forall ks pos kw, let w := flat_map fields_at (filter is_dc ks) in
  (forall k, In k ks -> match inits_of program k with
    | Some r => is_dc k = true /\ init_params r = py_init (fields_at k) /\ post_init_params r = post_of (fields_at k)
    | None => is_dc k = false end) ->
  NoDup (names pos) -> Forall (fun f => is_std f = true) pos -> Forall (fun f => is_kw f = true) kw -> same_roles (pos ++ kw ++ w) -> init_vars_same (pos ++ w) ->
  (forall f, In f w -> is_init_var f = true -> is_std f = true) ->
  fold_left (add_base (inits_of program)) ks (map param_of (pos ++ kw), post_of pos) =
  (map param_of (fsets pos (filter is_std w) ++ fsets kw (filter is_kw w)), post_of (fsets pos (filter is_std w))).
Proof.
  induction ks as [|k ks IH]; intros pos kw w H Np P K R V Iv; [reflexivity|]. subst w. cbn [fold_left filter] in *. pose proof (H k (or_introl eq_refl)) as Hk. unfold add_base at 2.
  destruct (inits_of program k) as [r|].
  - destruct Hk as [Dk [H1 H2]]. rewrite Dk in *. cbn [flat_map] in *. rewrite H1, H2, py_init_order. unfold init_order. rewrite map_app, fold_left_app.
    pose proof (fields_nodup k Dk) as Nd.
    assert (R1 : same_roles (pos ++ kw ++ fields_at k)). { intros f g Hf Hg. apply R; rewrite !in_app_iff in *; tauto. }
    rewrite (base_std (fields_at k) kw (filter is_std (fields_at k)) pos); [|intros f Hf; apply filter_In; exact Hf|exact Nd|exact Np|exact P|exact K|exact R1|].
    2:{ intros f g Hf Hg. apply V; rewrite !in_app_iff in *; tauto. }
    assert (P1 : Forall (fun f => is_std f = true) (fsets pos (filter is_std (fields_at k)))).
    { apply Forall_forall. intros f Hf. apply fsets_in in Hf as [Hf|Hf]; [rewrite Forall_forall in P; exact (P f Hf)|apply filter_In in Hf; tauto]. }
    assert (K1 : Forall (fun f => is_kw f = true) (fsets kw (filter is_kw (fields_at k)))).
    { apply Forall_forall. intros f Hf. apply fsets_in in Hf as [Hf|Hf]; [rewrite Forall_forall in K; exact (K f Hf)|apply filter_In in Hf; tauto]. }
    assert (In1 : forall f, In f (fsets pos (filter is_std (fields_at k))) -> In f pos \/ In f (fields_at k)).
    { intros f Hf. apply fsets_in in Hf as [Hf|Hf]; [auto|apply filter_In in Hf; tauto]. }
    assert (In2 : forall f, In f (fsets kw (filter is_kw (fields_at k))) -> In f kw \/ In f (fields_at k)).
    { intros f Hf. apply fsets_in in Hf as [Hf|Hf]; [auto|apply filter_In in Hf; tauto]. }
    rewrite (base_kw (fields_at k)); [|intros f Hf; apply filter_In; exact Hf|exact Nd|intros f Hf; apply Iv; apply in_or_app; auto|exact P1|].
    2:{ intros f g Hf Hg. apply R1; rewrite !in_app_iff in *; [destruct Hf as [Hf|Hf]; [apply In1 in Hf|]|destruct Hg as [Hg|Hg]; [apply In1 in Hg|]]; tauto. }
    rewrite !filter_app, !fsets_app. apply IH; [intros j J; apply H; right; exact J|apply fsets_NoDup, Np|exact P1|exact K1| | |].
    + intros f g Hf Hg. apply R; rewrite !in_app_iff in *.
      * destruct Hf as [Hf|[Hf|Hf]]; [apply In1 in Hf|apply In2 in Hf|]; tauto.
      * destruct Hg as [Hg|[Hg|Hg]]; [apply In1 in Hg|apply In2 in Hg|]; tauto.
    + intros f g Hf Hg. apply V; rewrite !in_app_iff in *.
      * destruct Hf as [Hf|Hf]; [apply In1 in Hf|]; tauto.
      * destruct Hg as [Hg|Hg]; [apply In1 in Hg|]; tauto.
    + intros f Hf. apply Iv. apply in_or_app. auto.
  - rewrite Hk in *. apply IH; try assumption. intros j J. apply H. right. exact J.
Qed.

Lemma own_post : forall attribute ck body s pos, let fs := own_fields attribute (ck || s_marker s) body in
  Forall (fun a => args_ok (a_right a)) body -> bare_ok attribute body -> NoDup (map a_name body) ->
  s_post s = post_of pos -> (forall f, In f fs -> is_init_var f = true -> is_std f = true) ->
  (forall f g, In f fs -> In g pos -> f_name f = f_name g -> is_init_var f = false /\ is_init_var g = false) ->
  s_post (fold_left (add_field ck) body s) = post_of (fsets pos (filter is_std fs)).
Proof.
  intros attribute ck. induction body as [|a body IH]; intros s pos fs A B N E Iv D; [exact E|]. inversion A as [|x l A1 A2]; subst. inversion N as [|x l N1 N2]; subst.
  assert (B' : bare_ok attribute body) by (intros b Hb; apply B; right; exact Hb). subst fs. cbn [fold_left own_fields] in *.
  assert (Step : (a_kind a = Plain \/ a_kind a = InitVar) ->
    let f := get_field attribute (ck || s_marker s) a in
    (forall g, In g (f :: own_fields attribute (ck || s_marker s) body) -> is_init_var g = true -> is_std g = true) ->
    (forall g h, In g (f :: own_fields attribute (ck || s_marker s) body) -> In h pos -> f_name g = f_name h -> is_init_var g = false /\ is_init_var h = false) ->
    s_post (fold_left (add_field ck) body (add_field ck s a)) = post_of (fsets pos (filter is_std (f :: own_fields attribute (ck || s_marker s) body)))).
  { intros Ka f Iv' D'. rewrite (add_field_plain attribute ck s a A1 (fun X => B a (or_introl eq_refl) X Ka) Ka). fold f.
    assert (Nf : ~ In (f_name f) (names (own_fields attribute (ck || s_marker s) body))).
    { intros X. apply own_names in X. unfold f in X. rewrite field_name in X. contradiction. }
    assert (Pf : init_post (a_kind a) a (s_post s) = if is_init_var f then post_of pos ++ [described f] else post_of pos).
    { unfold is_init_var, f. rewrite field_kind_of, E. unfold init_post, described. destruct Ka as [-> | ->]; [reflexivity|]. rewrite field_name. unfold get_field. destruct (a_right a); reflexivity. }
    rewrite Pf. cbn [filter]. destruct (is_std f) eqn:Sf.
    - cbn [fsets fold_left]. set (s' := mk_fields_state _ _ _ _ _). refine (IH s' (fset pos f) A2 B' N2 _ _ _); unfold s'; cbn [s_marker s_post].
      + unfold post_of. rewrite fset_filter by (intros g G Eg; destruct (D' f g (or_introl eq_refl) G (eq_sym Eg)); congruence).
        destruct (is_init_var f) eqn:Vf; [|reflexivity]. rewrite fset_new; [rewrite map_app; reflexivity|]. intros Y. unfold names in Y. apply in_map_iff in Y as [g [G1 G2]]. apply filter_In in G2 as [G2 _].
        destruct (D' f g (or_introl eq_refl) G2 (eq_sym G1)). congruence.
      + intros g G. apply Iv'. right. exact G.
      + intros g h G Hh Eg. apply fset_in in Hh as [->|Hh]; [|apply (D' g h); [right; exact G|exact Hh|exact Eg]]. exfalso. apply Nf. rewrite <- Eg. apply (in_map f_name). exact G.
    - assert (Vf : is_init_var f = false) by (destruct (is_init_var f) eqn:Vf; [rewrite (Iv' f (or_introl eq_refl) Vf) in Sf; discriminate|reflexivity]). rewrite Vf.
      set (s' := mk_fields_state _ _ _ _ _). refine (IH s' pos A2 B' N2 _ _ _); unfold s'; cbn [s_marker s_post]; [reflexivity| |].
      + intros g G. apply Iv'. right. exact G.
      + intros g h G. apply D'. right. exact G. }
  destruct (a_kind a) eqn:Ka.
  - exact (Step (or_introl eq_refl) Iv D).
  - exact (Step (or_intror eq_refl) Iv D).
  - assert (Ea : add_field ck s a = s) by (unfold add_field; rewrite Ka; reflexivity). rewrite Ea.
    assert (Sf : is_std (get_field attribute (ck || s_marker s) a) = false) by (unfold is_std, in_init; rewrite field_kind_of, Ka; reflexivity). cbn [filter]. rewrite Sf.
    apply (IH s pos); try assumption.
    + intros g G. apply Iv. right. exact G.
    + intros g h G. apply D. right. exact G.
  - assert (Ea : s_post (add_field ck s a) = s_post s /\ s_marker (add_field ck s a) = true) by (unfold add_field; rewrite Ka; destruct (s_marker s); split; reflexivity). destruct Ea as [E1 E2].
    pose proof (IH (add_field ck s a) pos) as IH'. cbv zeta in IH'. rewrite E1, E2, orb_true_r in IH'. apply IH'; assumption.
Qed.

Lemma filter_implied : forall (P Q : pyfield -> bool) d, (forall f, In f d -> P f = true -> Q f = true) -> filter P (filter Q d) = filter P d.
Proof.
  intros P Q d. induction d as [|f d IH]; intros H; [reflexivity|]. cbn [filter]. specialize (IH (fun g G => H g (or_intror G))). specialize (H f (or_introl eq_refl)).
  destruct (Q f); cbn [filter]; rewrite IH; [reflexivity|]. destruct (P f); [discriminate (H eq_refl)|reflexivity].
Qed.

Lemma post_right : well_formed -> forall i c, nth_error program i = Some c -> is_dataclass c = true -> family c usual -> bases_fine c -> family c init_vars_once ->
  post_init_params (calculate_init_of_dataclass program (inits_of program) c) = py_post_init (fields_at i).
Proof.
  intros W. induction i as [i IH] using lt_wf_ind. intros c H D F Ok V. destruct F as [[B [P R]] F'] eqn:X. rewrite (fields_of_class W i c H D P).
  destruct (calculate_parts c) as [_ [_ [C _]]]. cbv zeta in C. rewrite C. unfold own_state. destruct V as [[V1 V2 V3] V'] eqn:Vx.
  assert (E : fold_left (add_base (inits_of program)) (rev (mro c)) (map param_of ([] ++ []), post_of []) =
    (map param_of (fsets [] (filter is_std (inherited c)) ++ fsets [] (filter is_kw (inherited c))), post_of (fsets [] (filter is_std (inherited c))))).
  { apply bases_post; [|constructor|constructor|constructor| |exact V2|].
    - intros k K. apply in_rev in K. destruct (known_bases W i c H k K) as [b Hb]. rewrite (inits_equation W k b Hb). unfold is_dc. rewrite Hb. destruct (is_dataclass b) eqn:Db; [|reflexivity].
      assert (Fb : family b usual) by exact (family_base usual W i c k b H F K Hb Db).
      assert (Okb : bases_fine b) by (intros j b' J; apply Ok; exact (wf_linear W i c k b H K Hb j J)).
      split; [reflexivity|]. split.
      + destruct (calculate_parts b) as [C1 _]. cbv zeta in C1. pose proof (params_right W k b Hb Db Fb Okb) as Eb. rewrite C1; [exact Eb|]. rewrite Eb. apply in_order_init. exact (Ok k b K Hb Db).
      + apply (IH k (wf_before W i c k H K) b Hb Db Fb Okb). exact (family_base init_vars_once W i c k b H V K Hb Db).
    - intros f g Hf Hg. apply R; unfold writes; apply in_or_app; left; assumption.
    - intros f Hf. apply V1. unfold writes. apply in_or_app. auto. }
  change (map param_of ([] ++ []), post_of []) with (@nil param, @nil (N * N)) in E. rewrite E. cbn [fst snd].
  set (s0 := mk_fields_state _ _ _ _ _).
  rewrite (own_post (attribute_of program c) (opt_kw_only c) (body c) s0 (fsets [] (filter is_std (inherited c)))); unfold s0; cbn [s_marker s_post]; rewrite ?orb_false_r.
  - fold (own c). rewrite <- fsets_app, <- filter_app. fold (writes c). unfold post_of, py_post_init.
    assert (Y : filter is_std (fsets [] (writes c)) = fsets [] (filter is_std (writes c))).
    { rewrite fsets_filter; [reflexivity|]. intros f g Hf Hg Efg. apply role_std, R; assumption. }
    rewrite <- Y, filter_implied; [reflexivity|]. intros f Hf. apply V1. apply fsets_in in Hf as [[]|Hf]. exact Hf.
  - exact (args_of W i c H).
  - exact B.
  - exact (wf_names W i c H).
  - reflexivity.
  - intros f Hf. apply V1. unfold writes. apply in_or_app. auto.
  - intros f g Hf Hg Efg. apply (V3 f g); [exact Hf| |exact Efg]. apply fsets_in in Hg as [[]|Hg]. apply filter_In in Hg. tauto.
Qed.

(** ** Attributes *)
Lemma own_annotated : forall attribute body kw f, In f (own_fields attribute kw body) -> exists a, In a body /\ a_name a = f_name f /\ a_kind a = f_kind f.
Proof.
  intros attribute body. induction body as [|a body IH]; intros kw f H; [destruct H|]. cbn [own_fields] in H.
  destruct (a_kind a) eqn:K; [| | |destruct (IH _ f H) as [b [B1 B2]]; exists b; cbn; auto].
  all: destruct H as [<-|H]; [exists a; rewrite field_name, field_kind_of; cbn; auto|destruct (IH _ f H) as [b [B1 B2]]; exists b; cbn; auto].
Qed.

Lemma field_annotated : well_formed -> forall i c, nth_error program i = Some c -> forall f, In f (fields_at i) ->
  exists k b a, In k (i :: mro c) /\ nth_error program k = Some b /\ In a (body b) /\ a_name a = f_name f /\ a_kind a = f_kind f.
Proof.
  intros W. induction i as [i IH] using lt_wf_ind. intros c H f Hf.
  assert (Base : forall k, In k (mro c) -> In f (fields_at k) -> exists k b a, In k (i :: mro c) /\ nth_error program k = Some b /\ In a (body b) /\ a_name a = f_name f /\ a_kind a = f_kind f).
  { intros k K Hk. destruct (known_bases W i c H k K) as [b Hb]. destruct (IH k (wf_before W i c k H K) b Hb f Hk) as [j [b' [a [J R]]]]. exists j, b', a. split; [|exact R]. right.
    destruct J as [<-|J]; [exact K|exact (wf_linear W i c k b H K Hb j J)]. }
  unfold fields_at in Hf. rewrite (Fields i c H) in Hf. destruct (is_dataclass c).
  - unfold process_class in Hf. rewrite add_fields_eq in Hf by constructor. rewrite py_update_eq in Hf by (apply fsets_NoDup; constructor). apply fsets_in in Hf as [Hf|Hf].
    + apply fsets_in in Hf as [[]|Hf]. apply in_flat_map in Hf as [k [K Hf]]. apply in_rev in K. exact (Base k K Hf).
    + apply own_annotated in Hf as [a [A1 A2]]. exists i, c, a. cbn. auto.
  - unfold inherited_fields in Hf. destruct (first_dataclass program (mro c)) as [k|] eqn:E; [|destruct Hf].
    apply (Base k); [|exact Hf]. rewrite first_dataclass_filter in E. destruct (filter is_dc (mro c)) as [|k' rest] eqn:Y; [discriminate|]. injection E as ->.
    assert (Z : In k (filter is_dc (mro c))) by (rewrite Y; left; reflexivity). apply filter_In in Z. tauto.
Qed.

Lemma first_annotation_found : forall classes n, (exists k b a, In k classes /\ nth_error program k = Some b /\ In a (body b) /\ a_name a = n) ->
  exists k b a, first_annotation program classes n = Some a /\ In k classes /\ nth_error program k = Some b /\ In a (body b) /\ a_name a = n.
Proof.
  induction classes as [|j classes IH]; intros n [k [b [a [K [B [A E]]]]]]; [destruct K|]. cbn [first_annotation].
  assert (Rest : forall b', nth_error program j = Some b' -> find (fun a => a_name a =? n) (body b') = None -> exists k b a, first_annotation program classes n = Some a /\ In k (j :: classes) /\ nth_error program k = Some b /\ In a (body b) /\ a_name a = n).
  { intros b' Bj Nf. destruct K as [->|K].
    - rewrite B in Bj. injection Bj as <-. pose proof (find_none _ _ Nf a A) as X. cbn in X. apply N.eqb_neq in X. contradiction.
    - destruct (IH n) as [k' [b'' [a' [X1 [X2 X3]]]]]; [exists k, b, a; auto|]. exists k', b'', a'. cbn. auto. }
  destruct (nth_error program j) as [b'|] eqn:Bj.
  - destruct (find (fun a => a_name a =? n) (body b')) as [a'|] eqn:Fd.
    + apply find_some in Fd as [F1 F2]. apply N.eqb_eq in F2. exists j, b', a'. cbn. auto.
    + exact (Rest b' eq_refl Fd).
  - destruct K as [->|K]; [congruence|]. destruct (IH n) as [k' [b'' [a' [X1 [X2 X3]]]]]; [exists k, b, a; auto|]. exists k', b'', a'. cbn. auto.
Qed.
End Program.
