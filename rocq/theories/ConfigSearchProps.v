(** * C83: the configuration is that of the nearest directory, and everything it depends on is watched *)
From Coq Require Import List Bool Arith.
From Verif Require Import ConfigSearchModel ConfigSearchSpec ConfigSearch.
Import ListNotations.

Definition empty_dir : directory := fun _ => None.
Definition one (f : file) (c : content) : directory := fun g => match f, g with
  | Pyproject, Pyproject | MypyIni, MypyIni | DotMypyIni, DotMypyIni | SetupCfg, SetupCfg => Some c
  | _, _ => None end.
(** A pyproject.toml with [tool.zuban] only, a .mypy.ini without a section and a setup.cfg with one *)
Definition mixed : directory := fun g => match g with
  | Pyproject => Some (mk_content false true) | MypyIni => None | DotMypyIni => Some (mk_content false false) | SetupCfg => Some (mk_content true false) end.

(** What is found is right for the nearest directory that has a pyproject.toml or another file that counts. *)
Theorem C83_nearest : forall dirs k r, snd (find_config 0 dirs) = Some (k, r) -> exists d, nearest ends dirs k d /\ right_for d r.
Proof. intros dirs k r E. apply config_some in E. destruct E as (_ & d & N & R). rewrite Nat.sub_0_r in N. eauto. Qed.
(** Nothing is found exactly if there is no such directory. *)
Theorem C83_none : forall dirs, snd (find_config 0 dirs) = None <-> forall d, In d dirs -> ~ ends d.
Proof. intro dirs. apply config_none. Qed.
Example C83_nearest_case : snd (find_config 0 [one SetupCfg (mk_content false false); mixed; one MypyIni (mk_content true false)]) =
  Some (1, mk_found (Some DotMypyIni) true DotMypyIni).
Proof. reflexivity. Qed.
Example C83_none_case : snd (find_config 0 [one SetupCfg (mk_content false false); empty_dir]) = None.
Proof. reflexivity. Qed.

(** If no pyproject.toml is without both tables, it is the nearest directory with something about the configuration. *)
Theorem C83_configures_partial : forall dirs k r,
  (forall d c, In d dirs -> d Pyproject = Some c -> has_mypy c = true \/ has_zuban c = true) ->
  snd (find_config 0 dirs) = Some (k, r) -> exists d, nearest configures dirs k d /\ right_for d r.
Proof.
  intros dirs k r H E. apply C83_nearest in E. destruct E as (d & (N & P & F) & R). exists d. split; [|assumption]. split; [assumption|]. split.
  - destruct P as [P|P]; [|now right]. destruct (d Pyproject) as [c|] eqn:D; [|congruence].
    destruct (H d c (nth_error_In _ _ N) D) as [A|A]; [right; exists Pyproject, c; auto|left; exists c; auto].
  - intros j e J X C. apply (F j e J X). destruct C as [(c & A & _)|C]; [left; congruence|now right].
Qed.
Example C83_configures_case : configures mixed /\ snd (find_config 0 [empty_dir; mixed]) = Some (1, mk_found (Some DotMypyIni) true DotMypyIni).
Proof. split; [left; exists (mk_content false true); split; reflexivity|reflexivity]. Qed.
(** A pyproject.toml without both tables hides the configuration in a directory above. *)
Theorem C83_empty_refuted : exists dirs d, nearest configures dirs 1 d /\ first_supplier d MypyIni /\
  snd (find_config 0 dirs) = Some (0, mk_found None false Pyproject).
Proof.
  set (d := one MypyIni (mk_content true false)). exists [one Pyproject (mk_content false false); d], d.
  assert (S : first_supplier d MypyIni) by (apply first_of; reflexivity). repeat split; try apply S.
  - right. exists MypyIni. apply S.
  - intros [|j] e J X; [|apply Nat.succ_lt_mono in J; inversion J]. injection X as <-. intros [(c & A & B)|(f & c & A & B)].
    + injection A as <-. discriminate.
    + destruct f; try discriminate. injection A as <-. destruct B as [B|[B|B]]; discriminate.
Qed.

(** All that the result depends on is among the paths that are reported as checked: as long as these files stay the same, so does the result. *)
Theorem C83_watched : forall ds es, List.length ds = List.length es ->
  (forall k f d e, In (k, f) (fst (find_config 0 ds)) -> nth_error ds k = Some d -> nth_error es k = Some e -> d f = e f) ->
  find_config 0 ds = find_config 0 es.
Proof.
  intros ds es L A. apply config_same; [assumption|]. intros k f d e M. rewrite Nat.sub_0_r. now apply A.
Qed.
(** A change of setup.cfg next to a mypy.ini is not looked at. *)
Example C83_watched_case :
  let d := one MypyIni (mk_content true false) in
  let e := fun f => match f with SetupCfg => Some (mk_content true false) | _ => d f end in
  fst (find_config 0 [d]) = [(0, Pyproject); (0, MypyIni)] /\ find_config 0 [d] = find_config 0 [e].
Proof. split; reflexivity. Qed.

Print Assumptions C83_nearest.
Print Assumptions C83_none.
Print Assumptions C83_configures_partial.
Print Assumptions C83_empty_refuted.
Print Assumptions C83_watched.
