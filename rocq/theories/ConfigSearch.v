(** * Proofs about the search for a configuration *)
From Coq Require Import List Bool Arith Lia.
From Verif Require Import ConfigSearchModel ConfigSearchSpec.
Import ListNotations.

Lemma uses_supplies : forall d f, supplies d f <-> exists c, d f = Some c /\ uses f c = true.
Proof.
  intros d f. split.
  - intros (c & D & H). exists c. split; [assumption|]. destruct f; cbn; destruct H as [H|[H|H]]; congruence.
  - intros (c & D & U). exists c. split; [assumption|]. destruct f; cbn in U; auto.
Qed.
Definition supplies_b (d : directory) (f : file) : bool := match d f with Some c => uses f c | None => false end.
Lemma supplies_iff : forall d f, supplies_b d f = true <-> supplies d f.
Proof.
  intros d f. rewrite uses_supplies. unfold supplies_b. destruct (d f) as [c|].
  - split; [eauto|]. intros (c' & E & U). now injection E as <-.
  - split; [discriminate|]. intros (c' & E & _). discriminate.
Qed.
Lemma supplies_not : forall d f, supplies_b d f = false <-> ~ supplies d f.
Proof. intros d f. rewrite <- supplies_iff. now rewrite not_true_iff_false. Qed.
Lemma try_cons : forall f names d, try_files (f :: names) d =
  if supplies_b d f then ([f], Some f) else (f :: fst (try_files names d), snd (try_files names d)).
Proof. intros f names d. cbn. unfold supplies_b. destruct (try_files names d) as [a b]. destruct (d f) as [c|]; [|reflexivity]. now destruct (uses f c). Qed.
Lemma first_of : forall d f, snd (try_files config_names d) = Some f <-> first_supplier d f.
Proof.
  intros d f. unfold config_names. rewrite !try_cons. unfold first_supplier.
  destruct (supplies_b d Pyproject) eqn:A; [|destruct (supplies_b d MypyIni) eqn:B; [|destruct (supplies_b d DotMypyIni) eqn:C; [|destruct (supplies_b d SetupCfg) eqn:D]]];
  cbn [snd fst try_files];
  repeat match goal with H : supplies_b _ _ = true |- _ => apply supplies_iff in H | H : supplies_b _ _ = false |- _ => apply supplies_not in H end;
  (split; [intros [= <-]; (split; [assumption|intros g G; inversion G; subst; (assumption || congruence)])
          |intros [P Q]; destruct f; try contradiction; try reflexivity; exfalso;
           first [refine (Q Pyproject (before_pyproject _ _) _); [discriminate|assumption]
                 |exact (Q MypyIni before_mypy_dot B)|exact (Q MypyIni before_mypy_setup B)
                 |exact (Q DotMypyIni before_dot_setup C)]]).
Qed.
Lemma none_of : forall d, snd (try_files config_names d) = None <-> forall f, ~ supplies d f.
Proof.
  intro d. unfold config_names. rewrite !try_cons.
  destruct (supplies_b d Pyproject) eqn:A; [|destruct (supplies_b d MypyIni) eqn:B; [|destruct (supplies_b d DotMypyIni) eqn:C; [|destruct (supplies_b d SetupCfg) eqn:D]]];
  cbn [snd fst try_files];
  repeat match goal with H : supplies_b _ _ = true |- _ => apply supplies_iff in H | H : supplies_b _ _ = false |- _ => apply supplies_not in H end;
  (split; [intro E; try discriminate; intros [| | |]; assumption|intro E; try reflexivity; exfalso; eapply E; eassumption]).
Qed.
Lemma in_dir_some : forall d r, snd (find_in_dir d) = Some r -> ends d /\ right_for d r.
Proof.
  intros d r. unfold find_in_dir. pose proof (first_of d) as F. pose proof (none_of d) as N. destruct (try_files config_names d) as [checked o]. cbn [snd] in *.
  assert (S1 : forall f, o = Some f -> d f <> None).
  { intros f E. apply F in E. destruct E as [(c & D & _) _]. congruence. }
  destruct (d Pyproject) as [p|] eqn:P.
  - intros [= <-]. split; [left; congruence|]. assert (Z : has_zuban p = true <-> zuban_table d).
    { unfold zuban_table. split; [eauto|]. intros (c & E & Q). congruence. }
    destruct o as [f|]; unfold right_for; cbn [base zuban path]; (split; [exact F|split; [exact Z|split; [congruence|split; [congruence|]]]]).
    + now apply S1.
    + congruence.
  - destruct o as [f|]; [|discriminate]. intros [= <-]. split; [right; exists f; now apply (proj1 (F f) eq_refl)|].
    unfold right_for; cbn [base zuban path]; (split; [exact F|split; [|split; [congruence|split; [congruence|now apply S1]]]]).
    split; [discriminate|]. intros (c & E & _). congruence.
Qed.
Lemma in_dir_none : forall d, snd (find_in_dir d) = None <-> ~ ends d.
Proof.
  intro d. split.
  - unfold find_in_dir. pose proof (none_of d) as N. destruct (try_files config_names d) as [checked o]. cbn [snd] in *.
    destruct (d Pyproject) eqn:P; [discriminate|]. destruct o; [discriminate|]. intros _ [A|(f & A)]; [congruence|]. now apply (proj1 N eq_refl f).
  - intro E. destruct (snd (find_in_dir d)) as [r|] eqn:G; [|reflexivity]. apply in_dir_some in G. tauto.
Qed.
Lemma config_cons : forall k d outer, find_config k (d :: outer) =
  match snd (find_in_dir d) with
  | Some r => (map (pair k) (fst (find_in_dir d)), Some (k, r))
  | None => (map (pair k) (fst (find_in_dir d)) ++ fst (find_config (S k) outer), snd (find_config (S k) outer))
  end.
Proof. intros k d outer. cbn. destruct (find_in_dir d) as [a [r|]]; cbn; [reflexivity|]. now destruct (find_config (S k) outer). Qed.
Lemma config_some : forall dirs i k r, snd (find_config i dirs) = Some (k, r) ->
  i <= k /\ exists d, nearest ends dirs (k - i) d /\ right_for d r.
Proof.
  induction dirs as [|d outer IH]; intros i k r; [discriminate|]. rewrite config_cons. destruct (snd (find_in_dir d)) as [q|] eqn:E; cbn [snd].
  - intros [= <- <-]. split; [lia|]. apply in_dir_some in E. destruct E as [E R]. exists d. split; [|assumption]. rewrite Nat.sub_diag. repeat split; auto. lia.
  - intro G. apply IH in G. destruct G as (L & e & (A & B & C) & R). split; [lia|]. exists e. split; [|assumption].
    replace (k - i) with (S (k - S i)) by lia. repeat split; auto. apply in_dir_none in E.
    intros [|j] x J X; [cbn in X; congruence|]. apply (C j x); [lia|exact X].
Qed.
Lemma config_none : forall dirs i, snd (find_config i dirs) = None <-> forall d, In d dirs -> ~ ends d.
Proof.
  induction dirs as [|d outer IH]; intro i; [cbn; tauto|]. rewrite config_cons. destruct (snd (find_in_dir d)) as [q|] eqn:E; cbn [snd].
  - split; [discriminate|]. intro N. apply in_dir_some in E. destruct (N d (or_introl eq_refl)). tauto.
  - rewrite (IH (S i)). apply in_dir_none in E. split; [intros N x [<-|M]; auto|]. intros N x M. apply N. now right.
Qed.

(** Two directories that agree on the checked files *)
Lemma try_same : forall names d e, (forall f, In f (fst (try_files names d)) -> d f = e f) -> try_files names d = try_files names e.
Proof.
  induction names as [|f names IH]; intros d e A; [reflexivity|]. rewrite !try_cons in *.
  assert (E : d f = e f) by (apply A; destruct (supplies_b d f); now left).
  assert (B : supplies_b d f = supplies_b e f) by (unfold supplies_b; now rewrite E).
  rewrite <- B. destruct (supplies_b d f); [reflexivity|]. rewrite (IH d e); [reflexivity|]. intros g G. apply A. now right.
Qed.
Lemma pyproject_checked : forall d, In Pyproject (fst (try_files config_names d)).
Proof. intro d. unfold config_names. rewrite try_cons. destruct (supplies_b d Pyproject); now left. Qed.
Lemma in_dir_checked : forall d, fst (find_in_dir d) = fst (try_files config_names d).
Proof. intro d. unfold find_in_dir. now destruct (try_files config_names d). Qed.
Lemma in_dir_same : forall d e, (forall f, In f (fst (find_in_dir d)) -> d f = e f) -> find_in_dir d = find_in_dir e.
Proof.
  intros d e A. rewrite in_dir_checked in A. unfold find_in_dir. rewrite <- (try_same _ d e A), <- (A Pyproject (pyproject_checked d)). reflexivity.
Qed.
Lemma config_index : forall dirs i k f, In (k, f) (fst (find_config i dirs)) -> i <= k.
Proof.
  induction dirs as [|d outer IH]; intros i k f; [intros []|]. rewrite config_cons. intro M.
  assert (X : forall l, In (k, f) (map (pair i) l) -> i <= k).
  { intros l Y. apply in_map_iff in Y. destruct Y as (g & [= <- _] & _). lia. }
  destruct (snd (find_in_dir d)); cbn [fst] in M; [now apply X in M|]. apply in_app_or in M. destruct M as [M|M]; [now apply X in M|]. apply IH in M. lia.
Qed.
Lemma config_same : forall ds es i, List.length ds = List.length es ->
  (forall k f d e, In (k, f) (fst (find_config i ds)) -> nth_error ds (k - i) = Some d -> nth_error es (k - i) = Some e -> d f = e f) ->
  find_config i ds = find_config i es.
Proof.
  induction ds as [|d ds IH]; intros [|e es] i L A; try discriminate; [reflexivity|]. rewrite !config_cons in *.
  assert (E : find_in_dir d = find_in_dir e).
  { apply in_dir_same. intros f M. apply (A i f d e); [|now rewrite Nat.sub_diag|now rewrite Nat.sub_diag].
    destruct (snd (find_in_dir d)); cbn [fst]; [now apply in_map|]. apply in_or_app. left. now apply in_map. }
  rewrite <- E. destruct (snd (find_in_dir d)) as [r|]; [reflexivity|]. rewrite (IH es (S i)); [reflexivity|now injection L|].
  intros k f x y M X Y. pose proof (config_index _ _ _ _ M) as G. apply (A k f x y).
  - cbn [fst]. apply in_or_app. now right.
  - replace (k - i) with (S (k - S i)) by lia. exact X.
  - replace (k - i) with (S (k - S i)) by lia. exact Y.
Qed.
