(** The files that the selection finds are those of the specification. *)
From Coq Require Import Ascii String List Bool PeanoNat Lia.
From Verif Require Import FileChoiceModel FileChoiceSpec.
Import ListNotations.
Open Scope nat_scope.
Open Scope list_scope.

Lemma text_eqb_eq : forall a b, text_eqb a b = true <-> a = b.
Proof. intros a b. unfold text_eqb. destruct (list_eq_dec ascii_dec a b); split; congruence. Qed.
Lemma ends_with_iff : forall t suffix, ends_with t suffix = true <-> has_ending t suffix.
Proof.
  intros t suffix. unfold ends_with, has_ending. rewrite andb_true_iff, Nat.leb_le, text_eqb_eq. split.
  - intros [H E]. exists (firstn (length t - length suffix) t). rewrite <- E at 2. symmetry. apply firstn_skipn.
  - intros (s & ->). rewrite app_length. split; [lia |]. replace (length s + length suffix - length suffix) with (length s) by lia.
    rewrite skipn_app, skipn_all, Nat.sub_diag. reflexivity.
Qed.
Lemma skip_file : forall excluded t, should_skip_file excluded t = false <->
  (has_ending t (str ".py") \/ has_ending t (str ".pyi")) /\ excluded t = false.
Proof.
  intros excluded t. unfold should_skip_file, is_file_with_python_ending. rewrite <- !ends_with_iff.
  destruct (ends_with t (str ".py")), (ends_with t (str ".pyi")); cbn [orb negb]; intuition congruence.
Qed.
Lemma stub : forall l n, ignore_py_if_overwritten_by_pyi l n = false <-> (has_ending n (str ".py") -> ~ In (File (n ++ str "i")) l).
Proof.
  intros l n. unfold ignore_py_if_overwritten_by_pyi. rewrite <- ends_with_iff. destruct (ends_with n (str ".py")); cbn [negb].
  - rewrite <- not_true_iff_false, existsb_exists. split.
    + intros H _ Hin. apply H. exists (File (n ++ str "i")). split; [exact Hin |]. cbn. apply text_eqb_eq. reflexivity.
    + intros H (e & He & Ee). apply (H eq_refl). destruct e; try discriminate Ee. apply text_eqb_eq in Ee. subst. exact He.
  - split; [intros _ E; discriminate E | reflexivity].
Qed.
Lemma find_gitignore_iff : forall l g, find_gitignore l = Some g <-> has_rules l g.
Proof.
  induction l as [| e l IH]; intro g; cbn [find_gitignore].
  - split; [discriminate |]. intros (a & b & E & _). destruct a; discriminate E.
  - assert (Hno : (forall h, e <> Gitignore h) -> (find_gitignore l = Some g <-> has_rules (e :: l) g)).
    { intro He. rewrite IH. split.
      - intros (a & b & -> & Ha). exists (e :: a), b. split; [reflexivity |]. intros h [E | Hin]; [apply (He h E) | apply (Ha h Hin)].
      - intros (a & b & E & Ha). destruct a as [| x a]; [injection E as E _; destruct (He g E) |]. injection E as _ ->.
        exists a, b. split; [reflexivity |]. intros h Hin. apply (Ha h). right. exact Hin. }
    destruct e as [n | n b s | h | n]; try (apply Hno; discriminate). split.
    + intro E. injection E as ->. exists [], l. split; [reflexivity | intros h []].
    + intros (a & b & E & Ha). destruct a as [| x a]; [injection E as -> _; reflexivity |]. injection E as <- _.
      destruct (Ha h). left. reflexivity.
Qed.

Section Entry_ind.
Variable P : entry -> Prop.
Hypothesis P_file : forall n, P (File n).
Hypothesis P_dir : forall n b l, Forall P l -> P (Dir n b l).
Hypothesis P_rules : forall g, P (Gitignore g).
Hypothesis P_missing : forall n, P (Missing n).
Fixpoint entry_nested (e : entry) : P e :=
  match e with
  | File n => P_file n
  | Dir n b l => P_dir n b l ((fix go l := match l return Forall P l with [] => Forall_nil P | e :: l => Forall_cons e (entry_nested e) (go l) end) l)
  | Gitignore g => P_rules g
  | Missing n => P_missing n
  end.
End Entry_ind.

Section Settings.
Variable excluded : text -> bool.
Variable matched : nat -> path -> bool -> verdict.
Variable exclude_gitignore : bool.
Notation handle_entry := (handle_entry excluded matched exclude_gitignore).
Notation handle_entries := (handle_entries excluded matched exclude_gitignore).
Notation push := (push exclude_gitignore).
Notation ignored := (ignored_by_gitignore matched).
Notation allows := (allows matched).
Notation chosen := (chosen excluded matched exclude_gitignore).

(** The checks of [handle_entry] on the way *)
Fixpoint pick (root : path) (current : list nat) (here : path) (l : list entry) (ds : list dir) (n : text) : Prop :=
  match ds with
  | [] => In (File n) l /\ should_skip_file excluded (join (here ++ [n])) = false /\ ignore_py_if_overwritten_by_pyi l n = false
          /\ ignored current (root ++ here ++ [n]) false = false
  | (m, b, sub) :: ds =>
      In (Dir m b sub) l /\ excluded (join (here ++ [m])) = false /\ ignored current (root ++ here ++ [m]) true = false /\ b = false
      /\ pick root (push current sub) (here ++ [m]) sub ds n
  end.

Lemma pick_sound : forall e root here current l f, In e l -> In f (handle_entry root here current l e) ->
  exists ds n, f = (root, here ++ names ds ++ [n]) /\ pick root current here l ds n.
Proof.
  induction e as [n | n b sub IH | g | n] using entry_nested; intros root here current l f Hin Hf; cbn [FileChoiceModel.handle_entry] in Hf; try destruct Hf.
  - destruct (should_skip_file excluded (join (here ++ [n]))) eqn:E1; [destruct Hf |].
    destruct (ignore_py_if_overwritten_by_pyi l n) eqn:E2; [destruct Hf |].
    destruct (ignored current (root ++ here ++ [n]) false) eqn:E3; [destruct Hf |]. cbn in Hf. destruct Hf as [<- | []].
    exists [], n. split; [reflexivity |]. cbn [pick]. auto.
  - destruct (excluded (join (here ++ [n]))) eqn:E1; [destruct Hf |].
    destruct (ignored current (root ++ here ++ [n]) true) eqn:E2; [destruct Hf |]. destruct b; [destruct Hf |]. cbn [negb andb] in Hf.
    apply in_flat_map in Hf. destruct Hf as (e & He & Hf). rewrite Forall_forall in IH.
    destruct (IH e He root (here ++ [n]) (push current sub) sub f He Hf) as (ds & m & -> & Hp).
    exists ((n, false, sub) :: ds), m. split; [cbn [names map d_name fst]; rewrite <- app_assoc; reflexivity |]. cbn [pick]. auto.
Qed.
Lemma pick_complete : forall ds n root here current l, pick root current here l ds n ->
  exists e, In e l /\ In (root, here ++ names ds ++ [n]) (handle_entry root here current l e).
Proof.
  induction ds as [| [[m b] sub] ds IH]; intros n root here current l Hp; cbn [pick] in Hp.
  - destruct Hp as (H1 & H2 & H3 & H4). exists (File n). split; [exact H1 |]. cbn [FileChoiceModel.handle_entry]. rewrite H2, H3, H4. left. reflexivity.
  - destruct Hp as (H1 & H2 & H3 & -> & H4). exists (Dir m false sub). split; [exact H1 |]. cbn [FileChoiceModel.handle_entry]. rewrite H2, H3.
    cbn [negb andb]. apply in_flat_map. destruct (IH n root (here ++ [m]) (push current sub) sub H4) as (e & He & Hf).
    exists e. split; [exact He |]. cbn [names map d_name fst]. rewrite <- app_assoc in Hf. exact Hf.
Qed.

Lemma ignored_iff : forall current p b, ignored current p b = false <-> forall g, In g current -> matched g p b <> Ignored.
Proof.
  intros current p b. unfold ignored_by_gitignore, is_path_ignored. rewrite <- not_true_iff_false, existsb_exists. split.
  - intros H g Hg E. apply H. exists g. rewrite E. split; [exact Hg | reflexivity].
  - intros H (g & Hg & E). specialize (H g Hg). destruct (matched g p b); congruence.
Qed.
Lemma push_iff : forall current l g, In g (push current l) <-> In g current \/ exclude_gitignore = true /\ has_rules l g.
Proof.
  intros current l g. unfold FileChoiceModel.push. rewrite <- find_gitignore_iff. destruct exclude_gitignore; [| intuition congruence].
  destruct (find_gitignore l) as [h |]; [rewrite in_app_iff; cbn [In] |]; intuition congruence.
Qed.

Lemma allows_nil : forall root g here n, allows root g here [] n <-> matched g (root ++ here ++ [n]) false <> Ignored.
Proof. intros. unfold FileChoiceSpec.allows. cbn [names map app]. split; [tauto |]. intro H. split; [| exact H]. intros a d b E. destruct a; discriminate E. Qed.
Lemma allows_cons : forall root g here d ds n, allows root g here (d :: ds) n <->
  matched g (root ++ here ++ [d_name d]) true <> Ignored /\ allows root g (here ++ [d_name d]) ds n.
Proof.
  intros root g here d ds n. unfold FileChoiceSpec.allows. split.
  - intros [H1 H2]. split; [apply (H1 [] d ds eq_refl) |]. split.
    + intros a e b ->. specialize (H1 (d :: a) e b eq_refl). cbn [names map app] in H1. rewrite <- app_assoc. exact H1.
    + cbn [names map app] in H2. rewrite <- app_assoc. exact H2.
  - intros [H1 [H2 H3]]. rewrite <- app_assoc in H3. split; [| exact H3]. intros a e b E. destruct a as [| x a]; cbn [app] in E.
    + injection E as <- _. exact H1.
    + injection E as <- E. specialize (H2 a e b E). rewrite <- app_assoc in H2. exact H2.
Qed.

(** [current] has the rules of the directory as well. *)
Definition free (root : path) (current : list nat) (here : path) (l : list entry) (ds : list dir) (n : text) : Prop :=
  (forall g, In g current -> allows root g here ds n)
  /\ (exclude_gitignore = true -> forall a b g, ds = a ++ b -> a <> [] -> has_rules (entries_at l a) g -> allows root g (here ++ names a) b n).
Lemma free_cons : forall root current here l d ds n, free root current here l (d :: ds) n <->
  ignored current (root ++ here ++ [d_name d]) true = false /\ free root (push current (d_entries d)) (here ++ [d_name d]) (d_entries d) ds n.
Proof.
  intros root current here l d ds n. unfold free. rewrite ignored_iff. split.
  - intros [H1 H2]. split; [intros g Hg; apply (proj1 (allows_cons _ _ _ _ _ _) (H1 g Hg)) |]. split.
    + intros g Hg. apply push_iff in Hg. destruct Hg as [Hg | [He Hg]]; [apply (proj1 (allows_cons _ _ _ _ _ _) (H1 g Hg)) |].
      apply (H2 He [d] ds g eq_refl); [discriminate | exact Hg].
    + intros He a b g -> Ha Hg. specialize (H2 He (d :: a) b g eq_refl ltac:(discriminate) Hg). rewrite <- app_assoc. exact H2.
  - intros [H1 [H2 H3]]. split.
    + intros g Hg. apply allows_cons. split; [apply H1; exact Hg | apply H2, push_iff; left; exact Hg].
    + intros He a b g E Ha Hg. destruct a as [| x a]; [congruence |]. cbn [app] in E. injection E as <- E. destruct a as [| y a].
      * cbn [app] in E. subst b. apply H2, push_iff. right. split; [exact He | exact Hg].
      * specialize (H3 He (y :: a) b g E ltac:(discriminate) Hg). rewrite <- app_assoc in H3. exact H3.
Qed.

Lemma pick_iff : forall ds n root current here l, pick root current here l ds n <->
  lies l ds n
  /\ (has_ending (join (here ++ names ds ++ [n])) (str ".py") \/ has_ending (join (here ++ names ds ++ [n])) (str ".pyi"))
  /\ excluded (join (here ++ names ds ++ [n])) = false
  /\ (forall a d b, ds = a ++ d :: b -> d_nested d = false /\ excluded (join (here ++ names a ++ [d_name d])) = false)
  /\ (has_ending n (str ".py") -> ~ In (File (n ++ str "i")) (entries_at l ds))
  /\ free root current here l ds n.
Proof.
  induction ds as [| [[m b] sub] ds IH]; intros n root current here l; cbn [pick].
  - rewrite skip_file, stub. cbn [names map app entries_at]. split.
    + intros (H1 & H2 & H3 & H4). split; [constructor; exact H1 |]. split; [apply H2 |]. split; [apply H2 |].
      split; [intros a d c E; destruct a; discriminate E |]. split; [exact H3 |]. split.
      * intros g Hg. apply allows_nil. apply (proj1 (ignored_iff _ _ _) H4 g Hg).
      * intros _ a c g E Ha. destruct a; [congruence | discriminate E].
    + intros (H1 & H2 & H3 & _ & H4 & H5 & _). inversion H1. split; [assumption |]. split; [split; assumption |]. split; [exact H4 |].
      apply ignored_iff. intros g Hg. apply allows_nil. apply H5. exact Hg.
  - rewrite (IH n root (push current sub) (here ++ [m]) sub), free_cons. unfold d_name, d_entries. cbn [fst snd]. cbn [names map]. rewrite <- !app_assoc.
    cbn [app entries_at]. unfold d_name at 1 2 3, d_entries. cbn [fst snd]. split.
    + intros (H1 & H2 & H3 & -> & H4 & H5 & H6 & H7 & H8 & H9). split; [constructor; assumption |]. split; [exact H5 |]. split; [exact H6 |].
      split; [| split; [exact H8 | split; assumption]].
      intros a d c E. destruct a as [| x a]; cbn [app] in E.
      * injection E as <- _. split; [reflexivity | exact H2].
      * injection E as <- E. specialize (H7 a d c E). rewrite <- app_assoc in H7. exact H7.
    + intros (H1 & H2 & H3 & H4 & H5 & H6 & H7). inversion H1 as [| l0 n0 b0 sub0 ds0 f0 Hd Hl]. subst.
      destruct (H4 [] (m, b, sub) ds eq_refl) as [H8 H9]. split; [exact Hd |]. split; [exact H9 |]. split; [exact H6 |]. split; [exact H8 |].
      split; [exact Hl |]. split; [exact H2 |]. split; [exact H3 |]. split; [| split; assumption].
      intros a d c ->. specialize (H4 ((m, b, sub) :: a) d c eq_refl). rewrite <- app_assoc. exact H4.
Qed.

Lemma handle_iff : forall root here l f, In f (handle_entries root here [] l) <-> exists ds n, f = (root, here ++ names ds ++ [n]) /\ chosen root here l ds n.
Proof.
  intros root here l f. unfold FileChoiceModel.handle_entries. rewrite in_flat_map.
  assert (Hc : forall ds n, pick root (push [] l) here l ds n <-> chosen root here l ds n).
  { intros ds n. rewrite pick_iff. split.
    - intros (H1 & H2 & H3 & H4 & H5 & H6 & H7). split; try assumption. intros He a b g -> Hg. destruct a as [| x a].
      + cbn [names map app]. rewrite app_nil_r. apply H6, push_iff. right. split; assumption.
      + apply (H7 He _ b g eq_refl); [discriminate | exact Hg].
    - intros [H1 H2 H3 H4 H5 H6]. do 5 (split; [assumption |]). split.
      + intros g Hg. apply push_iff in Hg. destruct Hg as [[] | [He Hg]]. specialize (H6 He [] ds g eq_refl Hg).
        cbn [names map] in H6. rewrite app_nil_r in H6. exact H6.
      + intros He a b g E _ Hg. apply (H6 He a b g E Hg). }
  split.
  - intros (e & He & Hf). destruct (pick_sound e _ _ _ _ _ He Hf) as (ds & n & -> & Hp). exists ds, n. split; [reflexivity | apply Hc; exact Hp].
  - intros (ds & n & -> & Hp). apply pick_complete, Hc, Hp.
Qed.
End Settings.
