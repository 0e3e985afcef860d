(** C75: The files that are checked are those that the settings ask for. *)
From Coq Require Import Ascii String List Bool PeanoNat Lia.
From Verif Require Import FileChoiceModel FileChoiceSpec FileChoice.
Import ListNotations.
Open Scope nat_scope.
Open Scope list_scope.

Section Settings.
Variable excluded : text -> bool.
Variable matched : nat -> path -> bool -> verdict.
Variable exclude_gitignore : bool.
Notation chosen := (chosen excluded matched exclude_gitignore).
Notation search := (search_in_workspaces excluded matched exclude_gitignore).
Notation place_files := (place_files excluded matched exclude_gitignore).

(** Without paths, the files are those of the workspaces; it is an error if there are none. *)
Theorem C75_workspaces : forall ws,
  (forall l, search ws [] = Some l -> forall f, In f l <->
     exists w ds n, In w ws /\ w_checked w = true /\ f = (w_root w, names ds ++ [n]) /\ chosen (w_root w) [] (w_entries w) ds n)
  /\ (search ws [] = None <-> forall w ds n, In w ws -> w_checked w = true -> ~ chosen (w_root w) [] (w_entries w) ds n).
Proof.
  intro ws. assert (H : forall f, In f (search_all_typechecked_files excluded matched exclude_gitignore ws) <->
     exists w ds n, In w ws /\ w_checked w = true /\ f = (w_root w, names ds ++ [n]) /\ chosen (w_root w) [] (w_entries w) ds n).
  { intro f. unfold search_all_typechecked_files. rewrite in_flat_map. split.
    - intros (w & Hw & Hf). apply filter_In in Hw. destruct Hw as [Hw Hc]. apply handle_iff in Hf. destruct Hf as (ds & n & -> & Hf).
      exists w, ds, n. auto.
    - intros (w & ds & n & Hw & Hc & -> & Hf). exists w. split; [apply filter_In; split; assumption |]. apply handle_iff. exists ds, n. auto. }
  cbn [search_in_workspaces]. destruct (search_all_typechecked_files excluded matched exclude_gitignore ws) as [| f0 l0] eqn:E.
  - split; [intros l El; discriminate El |]. split; [| reflexivity]. intros _ w ds n Hw Hc Hf. apply (H (w_root w, names ds ++ [n])). exists w, ds, n. auto.
  - split; [intros l El; injection El as <-; exact H |]. split; [intro El; discriminate El |]. intro Hno.
    destruct (proj1 (H f0) (or_introl eq_refl)) as (w & ds & n & Hw & Hc & _ & Hf). destruct (Hno w ds n Hw Hc Hf).
Qed.

(** A path that leads to a directory stands for the files below it, one that leads to a file for this file, whatever it is called. *)
Theorem C75_directory : forall root here l f, In f (place_files (PlaceDir root here l)) <->
  exists ds n, f = (root, here ++ names ds ++ [n]) /\ chosen root here l ds n.
Proof. intros root here l f. apply handle_iff. Qed.

(** A path that leads to nothing stands for the workspaces below it: first those that are checked, then all, then what is read for it. *)
Definition of_root (ws : list workspace) (all : bool) (p : path) (f : found) : Prop :=
  exists w rest ds n, In w ws /\ (all = true \/ w_checked w = true) /\ w_root w = p ++ rest
    /\ f = (w_root w, names ds ++ [n]) /\ chosen (w_root w) [] (w_entries w) ds n.
Lemma starts_with_iff : forall p q, starts_with p q = true <-> exists rest, p = q ++ rest.
Proof.
  intros p q. revert p. induction q as [| a q IH]; intro p.
  - split; [intros _; exists p; reflexivity | destruct p; reflexivity].
  - destruct p as [| b p]; cbn [starts_with]; [split; [discriminate | intros (r & E); discriminate E] |]. rewrite andb_true_iff, text_eqb_eq, IH. split.
    + intros [-> (r & ->)]. exists r. reflexivity.
    + intros (r & E). injection E as -> ->. split; [reflexivity | exists r; reflexivity].
Qed.
Theorem C75_missing : forall ws p fallback f,
  In f (simple_files excluded matched exclude_gitignore ws p None fallback) <->
  of_root ws false p f
  \/ (forall g, ~ of_root ws false p g) /\ of_root ws true p f
  \/ (forall g, ~ of_root ws true p g) /\ exists x, fallback = Some x /\ In f (place_files x).
Proof.
  intros ws p fallback f. cbn [simple_files].
  set (of := fun w => if starts_with (w_root w) p then handle_entries excluded matched exclude_gitignore (w_root w) [] [] (w_entries w) else []).
  assert (Hof : forall w g, In g (of w) <-> exists rest ds n, w_root w = p ++ rest /\ g = (w_root w, names ds ++ [n]) /\ chosen (w_root w) [] (w_entries w) ds n).
  { intros w g. subst of. cbv beta. destruct (starts_with (w_root w) p) eqn:E.
    - apply starts_with_iff in E. destruct E as (rest & E). rewrite handle_iff. split.
      + intros (ds & n & -> & Hc). exists rest, ds, n. auto.
      + intros (r & ds & n & _ & -> & Hc). exists ds, n. auto.
    - split; [intros [] |]. intros (r & ds & n & Er & _). exfalso. rewrite <- not_true_iff_false, starts_with_iff in E. apply E. exists r. exact Er. }
  assert (HA : forall g, In g (flat_map of (filter w_checked ws)) <-> of_root ws false p g).
  { intro g. rewrite in_flat_map. split.
    - intros (w & Hw & Hg). apply filter_In in Hw. destruct Hw as [Hw Hc]. apply Hof in Hg. destruct Hg as (r & ds & n & H). exists w, r, ds, n. auto.
    - intros (w & r & ds & n & Hw & [Hc | Hc] & H); [discriminate Hc |]. exists w. split; [apply filter_In; auto |]. apply Hof. exists r, ds, n. exact H. }
  assert (HB : forall g, In g (flat_map of ws) <-> of_root ws true p g).
  { intro g. rewrite in_flat_map. split.
    - intros (w & Hw & Hg). apply Hof in Hg. destruct Hg as (r & ds & n & H). exists w, r, ds, n. auto.
    - intros (w & r & ds & n & Hw & _ & H). exists w. split; [exact Hw |]. apply Hof. exists r, ds, n. exact H. }
  assert (HAB : forall g, of_root ws false p g -> of_root ws true p g).
  { intros g (w & r & ds & n & Hw & _ & H). exists w, r, ds, n. auto. }
  rewrite <- HA. destruct (flat_map of (filter w_checked ws)) as [| g0 l0] eqn:EA; cbn [or_else].
  - assert (HnA : forall g, ~ of_root ws false p g) by (intros g Hg; apply HA in Hg; destruct Hg).
    rewrite <- HB. destruct (flat_map of ws) as [| g1 l1] eqn:EB; cbn [or_else].
    + assert (HnB : forall g, ~ of_root ws true p g) by (intros g Hg; apply HB in Hg; destruct Hg). destruct fallback as [x |].
      * split; [intro H; right; right; split; [exact HnB | exists x; auto] |].
        intros [[] | [[_ []] | [_ (y & E & H)]]]. injection E as <-. exact H.
      * split; [intros [] |]. intros [[] | [[_ []] | [_ (y & E & _)]]]. discriminate E.
    + split; [intro H; right; left; split; [exact HnA | exact H] |]. intros [[] | [[_ H] | [H _]]]; [exact H |].
      destruct (H g1). apply HB. left. reflexivity.
  - split; [intro H; left; exact H |]. intros [H | [[H _] | [H _]]]; [exact H | |].
    + destruct (H g0). apply HA. left. reflexivity.
    + destruct (H g0). apply HAB, HA. left. reflexivity.
Qed.

(** A directory that is given has all the files that are checked in it otherwise. *)
Theorem C75_below : forall root here l ds1 ds2 n, chosen root here l (ds1 ++ ds2) n ->
  chosen root (here ++ names ds1) (entries_at l ds1) ds2 n.
Proof.
  intros root here l ds1. revert here l. induction ds1 as [| d ds1 IH]; intros here l ds2 n H.
  - cbn [names map app entries_at] in *. rewrite app_nil_r. exact H.
  - cbn [names map entries_at]. replace (here ++ d_name d :: map d_name ds1) with ((here ++ [d_name d]) ++ names ds1) by (rewrite <- app_assoc; reflexivity).
    apply IH. destruct H as [H1 H2 H3 H4 H5 H6]. inversion H1 as [| l0 n0 b0 sub0 ds0 f0 Hd Hl]. subst. cbn [app names map d_name fst] in *.
    split; rewrite <- ?app_assoc; try assumption.
    + intros a e b E. cbn [app]. specialize (H4 ((n0, b0, sub0) :: a) e b). cbn [app] in H4. rewrite E in H4. specialize (H4 eq_refl).
      rewrite <- app_assoc. exact H4.
    + intros He a b g E Hg. specialize (H6 He ((n0, b0, sub0) :: a) b g). cbn [app] in H6. rewrite E in H6. specialize (H6 eq_refl Hg).
      rewrite <- app_assoc. exact H6.
Qed.

(** ** Globs *)
Notation walk := (walk excluded matched exclude_gitignore).
Notation walk_entries := (walk_entries excluded matched exclude_gitignore).
Definition met (glob : path -> bool) (root here : path) (ds : list dir) (n : text) : Prop :=
  glob (root ++ here ++ names ds ++ [n]) = true \/ exists a d b, ds = a ++ d :: b /\ glob (root ++ here ++ names a ++ [d_name d]) = true.

Lemma walk_sound : forall glob e root here l f, In e l -> In f (walk glob root here l e) ->
  exists ds n, fst f ++ snd f = root ++ here ++ names ds ++ [n] /\ lies l ds n /\ met glob root here ds n
    /\ (has_ending (join (snd f)) (str ".py") \/ has_ending (join (snd f)) (str ".pyi")) /\ excluded (join (snd f)) = false
    /\ (has_ending n (str ".py") -> ~ In (File (n ++ str "i")) (entries_at l ds)).
Proof.
  intro glob.
  assert (Hhandle : forall e root here l f, In e l -> In f (handle_entry excluded matched exclude_gitignore root here [] l e) ->
    (exists ds n, f = (root, here ++ names ds ++ [n]) /\ lies l ds n
      /\ (has_ending (join (snd f)) (str ".py") \/ has_ending (join (snd f)) (str ".pyi")) /\ excluded (join (snd f)) = false
      /\ (has_ending n (str ".py") -> ~ In (File (n ++ str "i")) (entries_at l ds))
      /\ match e with File m => ds = [] /\ n = m | Dir m b sub => exists ds', ds = (m, b, sub) :: ds' | _ => False end)).
  { intros e root here l f He Hf. destruct e as [m | m b sub | g | m]; cbn [handle_entry] in Hf; try destruct Hf.
    - destruct (should_skip_file excluded (join (here ++ [m]))) eqn:E1; [destruct Hf |].
      destruct (ignore_py_if_overwritten_by_pyi l m) eqn:E2; [destruct Hf |]. cbn in Hf. destruct Hf as [<- | []].
      exists [], m. cbn [names map app snd entries_at]. apply skip_file in E1. destruct E1 as [E1 E3].
      split; [reflexivity |]. split; [constructor; exact He |]. split; [exact E1 |]. split; [exact E3 |].
      split; [apply stub; exact E2 | split; reflexivity].
    - destruct (excluded (join (here ++ [m]))) eqn:E1; [destruct Hf |]. cbn [ignored_by_gitignore existsb negb andb] in Hf. destruct b; [destruct Hf |].
      cbn [negb] in Hf. apply in_flat_map in Hf. destruct Hf as (e & Hin & Hf).
      destruct (pick_sound excluded matched exclude_gitignore e _ _ _ _ _ Hin Hf) as (ds & n & -> & Hp).
      apply pick_iff in Hp. destruct Hp as (H1 & H2 & H3 & _ & H5 & _). exists ((m, false, sub) :: ds), n. cbn [snd].
      split; [cbn [names map d_name fst]; rewrite <- app_assoc; reflexivity |]. split; [constructor; assumption |]. split; [exact H2 |].
      split; [exact H3 |]. split; [exact H5 | exists ds; reflexivity]. }
  induction e as [m | m b sub IH | g | m] using entry_nested; intros root here l f He Hf; cbn [FileChoiceModel.walk] in Hf; try destruct Hf.
  - destruct (glob (root ++ here ++ [m])) eqn:Eg; [| destruct Hf].
    destruct (Hhandle _ _ _ _ _ He Hf) as (ds & n & -> & H1 & H2 & H3 & H4 & -> & ->). exists [], m. cbn [fst snd].
    split; [reflexivity |]. split; [exact H1 |]. split; [left; exact Eg | auto].
  - destruct (glob (root ++ here ++ [m])) eqn:Eg.
    + destruct (Hhandle _ _ _ _ _ He Hf) as (ds & n & -> & H1 & H2 & H3 & H4 & ds' & ->). exists ((m, b, sub) :: ds'), n. cbn [fst snd].
      split; [reflexivity |]. split; [exact H1 |]. split; [right; exists [], (m, b, sub), ds'; split; [reflexivity | exact Eg] | auto].
    + assert (Hstep : exists root' here', root' ++ here' = root ++ here ++ [m] /\ In f (flat_map (walk glob root' here' sub) sub)).
      { destruct b; eexists _, _; (split; [| exact Hf]); [rewrite app_nil_r |]; reflexivity. }
      destruct Hstep as (root' & here' & Er & Hf'). apply in_flat_map in Hf'. destruct Hf' as (e & Hin & Hf'). rewrite Forall_forall in IH.
      destruct (IH e Hin root' here' sub f Hin Hf') as (ds & n & H1 & H2 & H3 & H4). exists ((m, b, sub) :: ds), n.
      assert (Eall : forall t, root' ++ here' ++ t = root ++ here ++ m :: t).
      { intro t. rewrite app_assoc, Er, <- !app_assoc. reflexivity. }
      cbn [names map d_name fst]. split; [rewrite H1, Eall; reflexivity |]. split; [constructor; assumption |].
      split; [| exact H4]. unfold met in *. rewrite Eall in H3. destruct H3 as [H3 | (a & d & c & -> & H3)]; [left; exact H3 |].
      right. exists ((m, b, sub) :: a), d, c. rewrite Eall in H3. split; [reflexivity | exact H3].
Qed.
Lemma walk_complete : forall glob ds n root here l, chosen root here l ds n -> met glob root here ds n ->
  exists e, In e l /\ In (root, here ++ names ds ++ [n]) (walk glob root here l e).
Proof.
  intros glob. induction ds as [| [[m b] sub] ds IH]; intros n root here l Hc Hm.
  - destruct Hm as [Hm | (a & d & c & E & _)]; [| destruct a; discriminate E]. destruct Hc as [H1 H2 H3 _ H5 _].
    cbn [names map app entries_at] in *. exists (File n). inversion H1. split; [assumption |]. cbn [FileChoiceModel.walk]. rewrite Hm. cbn [handle_entry].
    rewrite (proj2 (skip_file _ _) (conj H2 H3)), (proj2 (stub _ _) H5). left. reflexivity.
  - exists (Dir m b sub). pose proof (c_lies _ _ _ _ _ _ _ _ Hc) as Hl. inversion Hl as [| l0 n0 b0 sub0 ds0 f0 Hd Hl2]. subst. split; [exact Hd |].
    cbn [FileChoiceModel.walk]. destruct (c_dirs _ _ _ _ _ _ _ _ Hc [] (m, b, sub) ds eq_refl) as [Hn Hx]. cbn [d_nested fst snd names map app] in Hn, Hx.
    unfold d_name in Hx. cbn [fst] in Hx. subst b.
    destruct (glob (root ++ here ++ [m])) eqn:Eg.
    + assert (Hp : pick excluded matched exclude_gitignore root [] here l ((m, false, sub) :: ds) n).
      { apply pick_iff. destruct Hc as [H1 H2 H3 H4 H5 H6]. do 5 (split; [assumption |]). split; [intros g [] |].
        intros He a b g E _ Hg. apply (H6 He a b g E Hg). }
      cbn [pick] in Hp. destruct Hp as (_ & H2 & H3 & _ & H4). cbn [handle_entry]. rewrite H2, H3. cbn [negb andb]. apply in_flat_map.
      apply pick_complete in H4. destruct H4 as (e & He & Hf). exists e. split; [exact He |].
      cbn [names map d_name fst]. rewrite <- app_assoc in Hf. exact Hf.
    + apply in_flat_map. pose proof (C75_below root here l [(m, false, sub)] ds n Hc) as Hb. cbn [names map d_name fst entries_at d_entries snd] in Hb.
      destruct (IH n root (here ++ [m]) sub Hb) as (e & He & Hf).
      { unfold met in *. cbn [names map d_name fst app] in Hm. destruct Hm as [Hm | (a & d & c & E & Hm)].
        - left. rewrite <- app_assoc. exact Hm.
        - right. destruct a as [| x a]; cbn [app] in E; injection E as <- E.
          + cbn [names map d_name fst app] in Hm. unfold d_name in Hm. cbn [fst] in Hm. congruence.
          + exists a, d, c. split; [exact E |]. rewrite <- app_assoc. exact Hm. }
      exists e. split; [exact He |]. cbn [names map d_name fst]. rewrite <- app_assoc in Hf. exact Hf.
Qed.

(** With globs, all matches that are checked otherwise are found, and what is found is a Python file in or below a match that is itself not excluded.
    Missing: ignored and nested directories on the way to a match. *)
Theorem C75_globs_partial : forall glob w,
  (forall f, In f (walk_entries glob w) ->
     exists ds n, fst f ++ snd f = w_root w ++ names ds ++ [n] /\ lies (w_entries w) ds n /\ met glob (w_root w) [] ds n
       /\ (has_ending (join (snd f)) (str ".py") \/ has_ending (join (snd f)) (str ".pyi")) /\ excluded (join (snd f)) = false
       /\ (has_ending n (str ".py") -> ~ In (File (n ++ str "i")) (entries_at (w_entries w) ds)))
  /\ (forall ds n, chosen (w_root w) [] (w_entries w) ds n -> met glob (w_root w) [] ds n -> In (w_root w, names ds ++ [n]) (walk_entries glob w)).
Proof.
  intros glob w. split.
  - intros f Hf. apply in_flat_map in Hf. destruct Hf as (e & He & Hf). apply (walk_sound glob e _ _ _ f He Hf).
  - intros ds n Hc Hm. apply in_flat_map. apply (walk_complete glob ds n _ _ _ Hc Hm).
Qed.

(** Paths and globs together: everything that one of them stands for, and an error if a path or the globs stand for nothing. *)
Definition met_glob (ps : list pattern) (p : path) : Prop := exists m, In (Glob m) ps /\ m p = true.
Theorem C75_patterns : forall ws ps, ps <> [] -> exists glob, (forall p, glob p = true <-> met_glob ps p)
  /\ (forall l, search ws ps = Some l -> forall f, In f l <->
        (exists q searched fallback, In (Simple q searched fallback) ps /\ In f (simple_files excluded matched exclude_gitignore ws q searched fallback))
        \/ exists w m, In (Glob m) ps /\ In w ws /\ w_checked w = true /\ In f (walk_entries glob w))
  /\ (search ws ps = None <->
        (exists q searched fallback, In (Simple q searched fallback) ps /\ simple_files excluded matched exclude_gitignore ws q searched fallback = [])
        \/ exists m, In (Glob m) ps /\ forall w, In w ws -> w_checked w = true -> walk_entries glob w = []).
Proof.
  intros ws ps Hne. exists (any_glob (globs ps)).
  assert (Hglobs : forall m, In m (globs ps) <-> In (Glob m) ps).
  { intro m. unfold globs. rewrite in_flat_map. split.
    - intros ([q s fb | m2] & Hp & Hm); [destruct Hm | destruct Hm as [<- | []]; exact Hp].
    - intro H. exists (Glob m). split; [exact H | left; reflexivity]. }
  split.
  { intro p. unfold any_glob, met_glob. rewrite existsb_exists. split; intros (m & H1 & H2); exists m; (split; [apply Hglobs; exact H1 | exact H2]). }
  assert (Hsim : forall qs,
    (forall l, simples excluded matched exclude_gitignore ws qs = Some l -> forall f, In f l <->
       exists q searched fallback, In (Simple q searched fallback) qs /\ In f (simple_files excluded matched exclude_gitignore ws q searched fallback))
    /\ (simples excluded matched exclude_gitignore ws qs = None <->
       exists q searched fallback, In (Simple q searched fallback) qs /\ simple_files excluded matched exclude_gitignore ws q searched fallback = [])).
  { induction qs as [| [q s fb | m] qs [IH1 IH2]]; cbn [simples].
    - split; [intros l E; injection E as <-; intro f; split; [intros [] | intros (q & s & fb & [] & _)] |].
      split; [discriminate | intros (q & s & fb & [] & _)].
    - destruct (simple_files excluded matched exclude_gitignore ws q s fb) as [| f0 l0] eqn:Ex.
      + split; [intros l E; discriminate E |]. split; [| reflexivity]. intros _. exists q, s, fb. split; [left; reflexivity | exact Ex].
      + destruct (simples excluded matched exclude_gitignore ws qs) as [m |] eqn:Em; cbn [option_map].
        * split.
          -- intros l E f. injection E as <-. change (f0 :: l0 ++ m) with ((f0 :: l0) ++ m). rewrite in_app_iff, (IH1 m eq_refl f). split.
             ++ intros [H | (q2 & s2 & fb2 & Hp & Hf)]; [exists q, s, fb; rewrite Ex; split; [left; reflexivity | exact H] |].
                exists q2, s2, fb2. split; [right; exact Hp | exact Hf].
             ++ intros (q2 & s2 & fb2 & [E | Hp] & Hf); [left | right; exists q2, s2, fb2; auto]. injection E as <- <- <-.
                rewrite Ex in Hf. exact Hf.
          -- split; [intro E; discriminate E |]. intros (q2 & s2 & fb2 & [E | Hp] & Hf).
             ++ injection E as <- <- <-. congruence.
             ++ assert (E : Some m = None) by (apply IH2; exists q2, s2, fb2; auto). discriminate E.
        * split; [intros l E; discriminate E |]. split; [| reflexivity]. intros _. destruct (proj1 IH2 eq_refl) as (q2 & s2 & fb2 & Hp & Hf).
          exists q2, s2, fb2. split; [right; exact Hp | exact Hf].
    - split.
      + intros l E f. rewrite (IH1 l E f). split; intros (q & s & fb & Hp & Hf); exists q, s, fb.
        * split; [right; exact Hp | exact Hf].
        * destruct Hp as [Hp | Hp]; [discriminate Hp | auto].
      + rewrite IH2. split; intros (q & s & fb & Hp & Hf); exists q, s, fb.
        * split; [right; exact Hp | exact Hf].
        * destruct Hp as [Hp | Hp]; [discriminate Hp | auto]. }
  destruct (Hsim ps) as [HS1 HS2]. set (gl := any_glob (globs ps)).
  assert (Ewalk : forall f, In f (flat_map (walk_entries gl) (filter w_checked ws)) <-> exists w, In w ws /\ w_checked w = true /\ In f (walk_entries gl w)).
  { intro f. rewrite in_flat_map. split.
    - intros (w & Hw & Hf). apply filter_In in Hw. exists w. tauto.
    - intros (w & Hw & Hc & Hf). exists w. split; [apply filter_In; auto | exact Hf]. }
  assert (Es : search ws ps = match simples excluded matched exclude_gitignore ws ps with
    | None => None
    | Some l => match globs ps with
                | [] => Some l
                | _ :: _ => match flat_map (walk_entries gl) (filter w_checked ws) with [] => None | m => Some (l ++ m) end
                end
    end).
  { subst gl. destruct ps; [congruence |]. unfold search_in_workspaces. destruct (simples _ _ _ _ _); [| reflexivity].
    destruct (globs (p :: ps)); reflexivity. }
  rewrite Es. destruct (simples excluded matched exclude_gitignore ws ps) as [l0 |] eqn:Esim.
  - assert (Hno : ~ exists q searched fallback, In (Simple q searched fallback) ps /\ simple_files excluded matched exclude_gitignore ws q searched fallback = []).
    { intro H. apply HS2 in H. discriminate H. }
    specialize (HS1 l0 eq_refl). destruct (globs ps) as [| m0 ms] eqn:Eg.
    + split.
      * intros l E f. injection E as <-. rewrite HS1. split; [left; assumption |]. intros [H | (w & m & Hm & _)]; [exact H |]. apply Hglobs in Hm. destruct Hm.
      * split; [intro E; discriminate E |]. intros [H | (m & Hm & _)]; [destruct (Hno H) |]. apply Hglobs in Hm. destruct Hm.
    + assert (Hm0 : In (Glob m0) ps) by (apply Hglobs; left; reflexivity).
      destruct (flat_map (walk_entries gl) (filter w_checked ws)) as [| f1 l1] eqn:Ew.
      * split; [intros l E; discriminate E |]. split; [| reflexivity]. intros _. right. exists m0. split; [exact Hm0 |]. intros w Hw Hc.
        destruct (walk_entries gl w) as [| x xs] eqn:Ex; [reflexivity |]. destruct (proj2 (Ewalk x)). exists w. rewrite Ex. split; [exact Hw |].
        split; [exact Hc | left; reflexivity].
      * split.
        -- intros l E f. injection E as <-. rewrite in_app_iff, HS1, Ewalk. split.
           ++ intros [H | (w & Hw & Hc & Hf)]; [left; exact H | right; exists w, m0; auto].
           ++ intros [H | (w & m & _ & Hw & Hc & Hf)]; [left; exact H | right; exists w; auto].
        -- split; [intro E; discriminate E |]. intros [H | (m & _ & H)]; [destruct (Hno H) |].
           destruct (proj1 (Ewalk f1) (or_introl eq_refl)) as (w & Hw & Hc & Hf). rewrite (H w Hw Hc) in Hf. destruct Hf.
  - split; [intros l E; discriminate E |]. split; [| reflexivity]. intros _. left. apply HS2. reflexivity.
Qed.

(** ** Flags of single files *)
Theorem C75_flags : forall specific ws, (forall f own, specific f = Some own -> forall t, own t = excluded t) ->
  find_files excluded matched exclude_gitignore specific ws [] = search ws [].
Proof.
  intros specific ws H. unfold find_files. destruct (search ws []) as [l |] eqn:E; [| reflexivity]. cbn [option_map]. f_equal.
  pose proof (proj1 (C75_workspaces ws) l E) as Hl. assert (Hk : forall f, In f l -> keep specific f = true).
  { intros f Hf. apply Hl in Hf. destruct Hf as (w & ds & n & _ & _ & -> & Hc). unfold keep.
    destruct (specific (w_root w, names ds ++ [n])) as [own |] eqn:Es; [| reflexivity]. apply negb_true_iff, skip_file. cbn [snd].
    rewrite (H _ _ Es). split; [apply (c_python _ _ _ _ _ _ _ _ Hc) | apply (c_file _ _ _ _ _ _ _ _ Hc)]. }
  clear E Hl. induction l as [| f l IH]; [reflexivity |]. cbn [filter]. rewrite (Hk f (or_introl eq_refl)). f_equal. apply IH.
  intros g Hg. apply Hk. right. exact Hg.
Qed.

(** ** Git *)
Theorem C75_git_partial : (forall g p b, matched g p b <> Whitelisted) -> forall rules p is_dir,
  ignored_by_gitignore matched rules p is_dir = true <-> git_ignores matched rules p is_dir.
Proof.
  intros Hw rules p is_dir. unfold ignored_by_gitignore, is_path_ignored. induction rules as [| g rules IH]; cbn [existsb git_ignores].
  - split; [discriminate | intros []].
  - rewrite orb_true_iff, IH. pose proof (Hw g p is_dir) as Hg. split.
    + intros [H | H]; [| left; exact H]. destruct (matched g p is_dir) eqn:E; try discriminate H.
      destruct (existsb (fun g => match matched g p is_dir with Ignored => true | _ => false end) rules) eqn:Ee.
      * left. apply IH. reflexivity.
      * right. split; [reflexivity |]. intros h Hh. pose proof (Hw h p is_dir) as Hh2. destruct (matched h p is_dir) eqn:E2; [reflexivity | | congruence].
        exfalso. rewrite <- not_true_iff_false, existsb_exists in Ee. apply Ee. exists h. rewrite E2. split; [exact Hh | reflexivity].
    + intros [H | [H _]]; [right; exact H | left; rewrite H; reflexivity].
Qed.
End Settings.

(** ** Where the selection differs *)
Definition no_excludes (t : text) : bool := false.
Definition named (name : string) (p : path) : bool := text_eqb (last p []) (str name).
Definition the_root : path := [str "home"].

(** The file [a/keep.py], with [*.py] in the [.gitignore] of the project and [!keep.py] in that of [a], is not ignored by git. *)
Definition negated (g : nat) (p : path) (is_dir : bool) : verdict :=
  if is_dir then Nothing else match g with 0 => Ignored | _ => if named "keep.py" p then Whitelisted else Nothing end.
Theorem C75_git_refuted : ~ forall matched rules p is_dir, ignored_by_gitignore matched rules p is_dir = true -> git_ignores matched rules p is_dir.
Proof.
  intro H. specialize (H negated [0; 1] (the_root ++ [str "a"; str "keep.py"]) false eq_refl). cbn [git_ignores] in H.
  destruct H as [[[] | [H _]] | [_ H]]; [discriminate H |]. specialize (H 1 (or_introl eq_refl)). discriminate H.
Qed.

(** [a/out.py] is ignored by the [.gitignore] of the project, but checked if [a] is given. *)
Definition out_rules (g : nat) (p : path) (is_dir : bool) : verdict := if named "out.py" p then Ignored else Nothing.
Definition a_dir : dir := (str "a", false, [File (str "out.py"); File (str "in.py")]).
Definition project : list entry := [Gitignore 0; Dir (str "a") false (d_entries a_dir)].
Theorem C75_parent_refuted : ~ forall matched l d n,
  In (the_root, names [d] ++ [n]) (place_files no_excludes matched true (PlaceDir the_root (names [d]) (entries_at l [d]))) -> lies l [d] n ->
  chosen no_excludes matched true the_root [] l [d] n.
Proof.
  intro H. specialize (H out_rules project a_dir (str "out.py")). destruct (c_git _ _ _ _ _ _ _ _ (H (or_introl eq_refl) ltac:(constructor; [right; left; reflexivity | constructor; left; reflexivity])) eq_refl [] [a_dir] 0 eq_refl) as [_ Hf].
  - exists [], (tl project). split; [reflexivity | intros h []].
  - apply Hf. reflexivity.
Qed.

(** A glob also gives files of ignored directories, and of other workspaces in the project that are not checked. *)
Definition build_rules (g : nat) (p : path) (is_dir : bool) : verdict := if is_dir && named "build" p then Ignored else Nothing.
Definition built : list entry := [Gitignore 0; Dir (str "build") false [File (str "x.py")]].
Definition python_glob (p : path) : bool := ends_with (last p []) (str ".py").
Theorem C75_glob_refuted : ~ forall matched glob w f, In f (walk_entries no_excludes matched true glob w) -> w_checked w = true ->
  In f (search_all_typechecked_files no_excludes matched true [w]).
Proof. intro H. destruct (H build_rules python_glob (mk_workspace the_root true built) (the_root, [str "build"; str "x.py"])); vm_compute; auto. Qed.
Definition packages : list entry := [Dir (str "lib") true [File (str "x.py")]].
Theorem C75_nested_refuted : ~ forall ws glob f, In f (flat_map (walk_entries no_excludes out_rules true glob) (filter w_checked ws)) ->
  exists w, In w ws /\ w_checked w = true /\ fst f = w_root w.
Proof.
  intro H. destruct (H [mk_workspace the_root true packages; mk_workspace (the_root ++ [str "lib"]) false [File (str "x.py")]] python_glob
    (the_root ++ [str "lib"], [str "x.py"])) as (w & [<- | [<- | []]] & Hc & E); [vm_compute; auto | discriminate E | discriminate Hc].
Qed.

(** A file that is given and found, such as [script], is left out without an error if it has a comment with settings. *)
Theorem C75_flags_refuted : ~ forall specific ws ps l, (forall f own, specific f = Some own -> forall t, own t = no_excludes t) ->
  search_in_workspaces no_excludes out_rules true ws ps = Some l -> find_files no_excludes out_rules true specific ws ps = Some l.
Proof.
  intro H. specialize (H (fun _ => Some no_excludes) [] [Simple [] (Some (PlaceFile the_root [str "script"])) None] [(the_root, [str "script"])]).
  assert (E : Some (@nil found) = Some [(the_root, [str "script"])]); [| discriminate E].
  apply H; [| reflexivity]. intros f own Eo t. injection Eo as <-. reflexivity.
Qed.

(** ** Cases *)
Definition tree : list entry :=
  [Gitignore 0; File (str "a.py"); File (str "b.py"); File (str "b.pyi"); File (str "c.txt");
   Dir (str "build") false [File (str "x.py")]; Dir (str "d") false [File (str "e.py"); Gitignore 1; File (str "out.py")];
   Dir (str "lib") true [File (str "v.py")]; Missing (str "m.py")].
Definition tree_rules (g : nat) (p : path) (is_dir : bool) : verdict := match g with 0 => build_rules g p is_dir | _ => out_rules g p is_dir end.
Example tree_files : search_in_workspaces no_excludes tree_rules true [mk_workspace the_root true tree] []
  = Some [(the_root, [str "a.py"]); (the_root, [str "b.pyi"]); (the_root, [str "d"; str "e.py"])].
Proof. reflexivity. Qed.
Example tree_all : search_in_workspaces (fun t => text_eqb t (str "d")) tree_rules false [mk_workspace the_root true tree] []
  = Some [(the_root, [str "a.py"]); (the_root, [str "b.pyi"]); (the_root, [str "build"; str "x.py"])].
Proof. reflexivity. Qed.
Example tree_paths : search_in_workspaces no_excludes tree_rules true [mk_workspace the_root true tree]
    [Simple [] (Some (PlaceFile the_root [str "c.txt"])) None; Glob (named "e.py")]
  = Some [(the_root, [str "c.txt"]); (the_root, [str "d"; str "e.py"])].
Proof. reflexivity. Qed.
Example tree_none : search_in_workspaces no_excludes tree_rules true [mk_workspace the_root true tree]
    [Simple [] (Some (PlaceFile the_root [str "c.txt"])) None; Glob (named "f.py")] = None.
Proof. reflexivity. Qed.

Print Assumptions C75_workspaces.
Print Assumptions C75_directory.
Print Assumptions C75_missing.
Print Assumptions C75_patterns.
Print Assumptions C75_below.
Print Assumptions C75_globs_partial.
Print Assumptions C75_flags.
Print Assumptions C75_git_partial.
Print Assumptions C75_git_refuted.
Print Assumptions C75_parent_refuted.
Print Assumptions C75_glob_refuted.
Print Assumptions C75_nested_refuted.
Print Assumptions C75_flags_refuted.
