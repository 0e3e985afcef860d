(** C25, C26, C37, C39: mode, command line switches, Python versions, pyvenv.cfg. *)
From Coq Require Import String Ascii List Bool NArith Lia.
From Verif Require Import OverrideModel OverrideProofs SettingsModel SettingsSpec.
Import ListNotations.
Open Scope string_scope.

(** ** C25 *)

(** A mode chosen by the user decides, whatever files there are. *)
Theorem C25_explicit_mode_wins : forall dirs f m,
  find_config dirs (Explicit m) = Some m /\ find_config_file f (Explicit m) = Some m.
Proof.
  intros dirs f m. split.
  - induction dirs as [|d up IH]; cbn; [reflexivity|].
    destruct d as [[[[[|m'|]|] [|]]|] [a|] [b|] [[|]|]]; destruct a, b || destruct a || destruct b || idtac; cbn; auto.
  - destruct f as [[[[|m'|]|] [|]]|[|]|[|]]; reflexivity.
Qed.

Example C25_explicit_example :
  find_config [mk_dir (Some (mk_pyproject (Some (Mode_is M_mypy)) true)) (Some true) None None] (Explicit M_default)
  = Some M_default.
Proof. reflexivity. Qed.

Lemma not_project : forall d mode, is_project d = false -> find_in_dir d mode = Some None.
Proof.
  intros [[p|] [a|] [b|] [[|]|]] mode H; cbn in *; try discriminate; try reflexivity.
Qed.

Lemma find_config_project : forall dirs d mode, project dirs = Some d ->
  find_config dirs mode = match find_in_dir d mode with
                          | None => None
                          | Some (Some m) => Some m
                          | Some None => Some (mode_of_choice mode)
                          end \/ find_in_dir d mode = Some None.
Proof.
  induction dirs as [|d0 up IH]; intros d mode H; cbn in H; [discriminate|].
  destruct (is_project d0) eqn:E.
  - injection H as <-. cbn. destruct (find_in_dir d0 mode) as [[m|]|]; auto.
  - cbn. rewrite not_project by exact E. now apply IH.
Qed.

Lemma project_is : forall dirs d, project dirs = Some d -> is_project d = true.
Proof. intros dirs d H. apply find_some in H. tauto. Qed.

(** Without an explicit choice the mode in the configuration of the checker decides. *)
Theorem C25_configured_mode_wins : forall dirs d choice m,
  (forall m', choice <> Explicit m') -> project dirs = Some d -> zuban_config d = Some (Mode_is m) ->
  find_config dirs choice = Some m.
Proof.
  intros dirs d choice m Hc Hp Hz.
  assert (Hd : find_in_dir d choice = Some (Some m)).
  { destruct choice as [m0|m0|]; [exfalso; now apply (Hc m0)| |];
      destruct d as [[[z [|]]|] [a|] [b|] [[|]|]]; cbn in *; subst; try discriminate; try destruct a; try destruct b; reflexivity. }
  destruct (find_config_project _ _ choice Hp) as [E|E]; rewrite Hd in E; [exact E|discriminate].
Qed.

Example C25_configured_example :
  project [mk_dir None None None (Some false); mk_dir (Some (mk_pyproject (Some (Mode_is M_mypy)) false)) None None None]
  = Some (mk_dir (Some (mk_pyproject (Some (Mode_is M_mypy)) false)) None None None).
Proof. reflexivity. Qed.

(** A preset that is only a default of the program applies if the configuration does not name a mode. *)
Theorem C25_implicit_mode : forall dirs m,
  (forall d, project dirs = Some d -> zuban_config d = None \/ zuban_config d = Some No_mode) ->
  find_config dirs (Implicit m) = Some m.
Proof.
  intros dirs m. induction dirs as [|d up IH]; intros H; [reflexivity|].
  cbn. destruct (is_project d) eqn:E.
  - assert (Hz : zuban_config d = None \/ zuban_config d = Some No_mode) by (apply H; cbn; now rewrite E).
    destruct d as [[[z [|]]|] [a|] [b|] [[|]|]]; cbn in *; try discriminate;
      destruct Hz as [Hz|Hz]; rewrite ?Hz; try destruct a; try destruct b; cbn; rewrite ?Hz; reflexivity.
  - rewrite not_project by exact E. apply IH. intros d0 Hd0. apply H. cbn. now rewrite E.
Qed.

Example C25_implicit_example :
  find_config [mk_dir (Some (mk_pyproject None true)) None None None] (Implicit M_default) = Some M_default.
Proof. reflexivity. Qed.

(** When the choice is left to the configuration, the kind of configuration found in the innermost project directory
    decides, unless that directory has a setup.cfg without a section for mypy. *)
Theorem C25_automatic_mode_partial : forall dirs,
  (forall d, project dirs = Some d -> zuban_config d <> Some Bad_mode /\ d_setup_cfg d <> Some false) ->
  find_config dirs Auto = Some (match project dirs with Some d => preset_of d | None => M_default end).
Proof.
  induction dirs as [|d up IH]; intros H; [reflexivity|].
  cbn [find_config]. unfold project. cbn [find]. destruct (is_project d) eqn:E.
  - assert (Hz : zuban_config d <> Some Bad_mode /\ d_setup_cfg d <> Some false)
      by (apply H; unfold project; cbn [find]; now rewrite E).
    destruct Hz as [Hz Hs].
    destruct d as [[[[[|m'|]|] [|]]|] [a|] [b|] [[|]|]]; cbn in *; try discriminate; try congruence;
      try destruct a; try destruct b; reflexivity.
  - rewrite not_project by exact E. apply IH. intros d0 Hd0. apply H. unfold project. cbn [find]. now rewrite E.
Qed.

Example C25_automatic_example :
  find_config [mk_dir None None None None; mk_dir None None (Some false) None] Auto = Some M_mypy /\
  find_config [mk_dir (Some (mk_pyproject (Some No_mode) true)) None None None] Auto = Some M_default.
Proof. split; reflexivity. Qed.

(** A mode that does not exist is reported. *)
Theorem C25_bad_mode_reported : forall dirs d choice,
  (forall m', choice <> Explicit m') -> project dirs = Some d -> zuban_config d = Some Bad_mode ->
  find_config dirs choice = None.
Proof.
  intros dirs d choice Hc Hp Hz.
  assert (Hd : find_in_dir d choice = None).
  { destruct choice as [m0|m0|]; [exfalso; now apply (Hc m0)| |];
      destruct d as [[[z [|]]|] [a|] [b|] [[|]|]]; cbn in *; subst; try discriminate; try destruct a; try destruct b; reflexivity. }
  destruct (find_config_project _ _ choice Hp) as [E|E]; rewrite Hd in E; [exact E|discriminate].
Qed.

Example C25_bad_mode_example : find_config [mk_dir (Some (mk_pyproject (Some Bad_mode) false)) None None None] Auto = None.
Proof. reflexivity. Qed.

(** A setup.cfg that has nothing to do with mypy switches a project that has no configuration for mypy at all to the
    mypy preset. *)
Theorem C25_unrelated_setup_cfg_refuted : exists d,
  has_mypy_config d = false /\ find_config [d] Auto = Some M_mypy /\
  find_config [mk_dir (d_pyproject d) None None None] Auto = Some M_default.
Proof. exists (mk_dir (Some (mk_pyproject None false)) None None (Some false)). repeat split. Qed.

(** A setup.cfg with a section for mypy means the mypy preset when it is found, but not when it is given explicitly. *)
Theorem C25_explicit_setup_cfg_refuted :
  find_config [mk_dir None None None (Some true)] Auto = Some M_mypy /\
  find_config_file (Other_file true) Auto = Some M_default.
Proof. split; reflexivity. Qed.

(** ** C26 *)

Lemma put_same : forall o t b, put o t b t = b.
Proof. intros o t b. unfold put. destruct (target_eq_dec t t); congruence. Qed.

Lemma put_other : forall o t u b, t <> u -> put o t b u = o u.
Proof. intros o t u b H. unfold put. destruct (target_eq_dec t u); congruence. Qed.

Lemma pair_other : forall c p o t, fst p <> t -> apply_pair c p o t = o t.
Proof.
  intros c [u [a i]] o t H. cbn in *. destruct (c a), (c i); rewrite ?put_other by exact H; reflexivity.
Qed.

Lemma pair_same : forall c t a i o,
  apply_pair c (t, (a, i)) o t = if c i then false else if c a then true else o t.
Proof. intros c t a i o. cbn. destruct (c a), (c i); rewrite ?put_same; reflexivity. Qed.

Definition about (t : target) (l : list (target * (string * string))) :=
  filter (fun p => if target_eq_dec (fst p) t then true else false) l.

Lemma fold_about : forall c t l o o', o t = o' t ->
  fold_left (fun o p => apply_pair c p o) l o t = fold_left (fun o p => apply_pair c p o) (about t l) o' t.
Proof.
  intros c t. induction l as [|[u [a i]] l IH]; intros o o' H; [exact H|].
  cbn [about filter fst]. destruct (target_eq_dec u t) as [->|Hne].
  - cbn [fold_left]. apply IH. rewrite !pair_same, H. reflexivity.
  - cbn [fold_left]. apply IH. rewrite pair_other by exact Hne. exact H.
Qed.

(** The value of an option that the command line leaves alone. *)
Definition before_switches (c : cli) (o : options) (t : target) : bool :=
  match (if c "strict" then strict_value t else None) with Some b => b | None => o t end.

Lemma strict_on_value : forall o t, strict_on o t = match strict_value t with Some b => b | None => o t end.
Proof. intros o [[]| | | | | | |]; reflexivity. Qed.

Lemma documented_pairs : forall t a i, In (t, (a, i)) documented -> about t pairs = [(t, (a, i))].
Proof.
  intros t a i H. cbn [documented In] in H.
  repeat (destruct H as [H|H]; [injection H as <- <- <-; reflexivity|]). contradiction.
Qed.

Lemma documented_not_bytes : forall t a i, In (t, (a, i)) documented ->
  t <> T_flag F_disable_bytearray_promotion /\ t <> T_flag F_disable_memoryview_promotion.
Proof.
  intros t a i H. cbn [documented In] in H.
  repeat (destruct H as [H|H]; [injection H as <- <- <-; split; discriminate|]). contradiction.
Qed.

(** Every documented pair of switches decides its option whatever the configuration and whatever other switches,
    including --strict, are given; the negative form wins if both are given.  Without either, the option has the value
    that --strict or the configuration gives it. *)
Theorem C26_switch_decides : forall c o t pos neg,
  In (t, (pos, neg)) documented ->
  apply_mypy_flags c o t = if c neg then false else if c pos then true else before_switches c o t.
Proof.
  intros c o t pos neg H. unfold apply_mypy_flags.
  rewrite (fold_about c t) with (o' := fun u => before_switches c o u).
  - rewrite (documented_pairs t pos neg H). cbn [fold_left]. apply pair_same.
  - destruct (documented_not_bytes _ _ _ H) as [H1 H2]. unfold before_switches.
    destruct (c "strict_bytes"); rewrite ?put_other by congruence;
      destruct (c "strict"); rewrite ?strict_on_value; reflexivity.
Qed.

Definition given (l : list string) : cli := fun s => mem s l.

Example C26_example : forall o,
  apply_mypy_flags (given ["strict"; "allow_untyped_defs"]) o (T_flag F_disallow_untyped_defs) = false /\
  apply_mypy_flags (given ["strict"; "allow_untyped_defs"]) o (T_flag F_disallow_untyped_calls) = true /\
  apply_mypy_flags (given ["strict"; "pretty"]) o (T_flag F_warn_unreachable) = o (T_flag F_warn_unreachable).
Proof. intros o. repeat split. Qed.

(** Two spellings exist for redefinitions; the last pair decides. *)
Theorem C26_redefinition : forall c o,
  apply_mypy_flags c o (T_flag F_allow_redefinition) =
  if c "disallow_redefinition_new" then false else if c "allow_redefinition_new" then true
  else if c "disallow_redefinition" then false else if c "allow_redefinition" then true
  else o (T_flag F_allow_redefinition).
Proof.
  intros c o. unfold apply_mypy_flags.
  rewrite (fold_about c (T_flag F_allow_redefinition)) with (o' := o).
  - change (about (T_flag F_allow_redefinition) pairs) with
      [(T_flag F_allow_redefinition, ("allow_redefinition", "disallow_redefinition"));
       (T_flag F_allow_redefinition, ("allow_redefinition_new", "disallow_redefinition_new"))].
    cbn [fold_left]. rewrite !pair_same. reflexivity.
  - destruct (c "strict_bytes"); rewrite ?put_other by discriminate;
      destruct (c "strict"); rewrite ?strict_on_value; reflexivity.
Qed.

(** The switches that only exist in the positive form. *)
Theorem C26_single_switches : forall c o t pos, c "" = false ->
  In (t, pos) [(T_flag F_ignore_missing_imports, "ignore_missing_imports");
               (T_flag F_follow_untyped_imports, "follow_untyped_imports");
               (T_flag F_disable_bytearray_promotion, "strict_bytes");
               (T_flag F_disable_memoryview_promotion, "strict_bytes")] ->
  apply_mypy_flags c o t = if c pos then true else o t.
Proof.
  intros c o t pos He H. unfold apply_mypy_flags.
  destruct H as [H|[H|[H|[H|[]]]]]; injection H as <- <-.
  - rewrite (fold_about c _) with (o' := o).
    + change (about (T_flag F_ignore_missing_imports) pairs)
        with [(T_flag F_ignore_missing_imports, ("ignore_missing_imports", ""))].
      cbn [fold_left]. rewrite pair_same, He. reflexivity.
    + destruct (c "strict_bytes"); rewrite ?put_other by discriminate;
        destruct (c "strict"); rewrite ?strict_on_value; reflexivity.
  - rewrite (fold_about c _) with (o' := o).
    + change (about (T_flag F_follow_untyped_imports) pairs)
        with [(T_flag F_follow_untyped_imports, ("follow_untyped_imports", ""))].
      cbn [fold_left]. rewrite pair_same, He. reflexivity.
    + destruct (c "strict_bytes"); rewrite ?put_other by discriminate;
        destruct (c "strict"); rewrite ?strict_on_value; reflexivity.
  - rewrite (fold_about c _) with (o' := fun u => if c "strict_bytes" then true else o u).
    + change (about (T_flag F_disable_bytearray_promotion) pairs) with (@nil (target * (string * string))). reflexivity.
    + destruct (c "strict_bytes"); [reflexivity|]. destruct (c "strict"); rewrite ?strict_on_value; reflexivity.
  - rewrite (fold_about c _) with (o' := fun u => if c "strict_bytes" then true else o u).
    + change (about (T_flag F_disable_memoryview_promotion) pairs) with (@nil (target * (string * string))). reflexivity.
    + destruct (c "strict_bytes"); [reflexivity|]. destruct (c "strict"); rewrite ?strict_on_value; reflexivity.
Qed.

Example C26_single_example : forall o,
  apply_mypy_flags (given ["strict_bytes"]) o (T_flag F_disable_bytearray_promotion) = true.
Proof. reflexivity. Qed.

(** The order of contradicting switches does not count, unlike in mypy where the last one does. *)
Theorem C26_last_switch_refuted : forall o,
  apply_mypy_flags (given ["no_pretty"; "pretty"]) o T_pretty = false.
Proof. reflexivity. Qed.

(** ** C37 *)

Lemma digit_of : forall n, (n < 10)%N -> digit (ascii_of_N (48 + n)) = Some n.
Proof.
  intros n H.
  assert (W : forallb (fun k => match digit (ascii_of_N (48 + k)) with Some d => (d =? k)%N | None => false end)
                [0; 1; 2; 3; 4; 5; 6; 7; 8; 9]%N = true) by reflexivity.
  rewrite forallb_forall in W.
  assert (Hin : In n [0; 1; 2; 3; 4; 5; 6; 7; 8; 9]%N).
  { destruct (N.eq_dec n 0), (N.eq_dec n 1), (N.eq_dec n 2), (N.eq_dec n 3), (N.eq_dec n 4), (N.eq_dec n 5),
      (N.eq_dec n 6), (N.eq_dec n 7), (N.eq_dec n 8), (N.eq_dec n 9); cbn; auto 12; lia. }
  apply W in Hin. destruct (digit _) as [d|]; [|discriminate]. apply N.eqb_eq in Hin. congruence.
Qed.

Lemma parse_show_aux : forall fuel n acc, (N.to_nat n < fuel)%nat ->
  parse_digits 0 (show_aux fuel n acc) = parse_digits n acc.
Proof.
  induction fuel as [|k IH]; intros n acc H; [lia|].
  cbn [show_aux]. destruct (N.ltb_spec n 10) as [Hlt|Hge].
  - cbn [parse_digits]. rewrite N.mod_small by exact Hlt. rewrite digit_of by exact Hlt. f_equal.
  - rewrite IH.
    + cbn [parse_digits]. rewrite digit_of by (apply N.mod_lt; lia). f_equal.
      pose proof (N.div_mod n 10). lia.
    + assert (n / 10 < n)%N by (apply N.div_lt; lia). lia.
Qed.

Lemma show_digits : forall fuel n acc a s, show_aux (S fuel) n acc = String a s ->
  (forall b t, acc = String b t -> exists d, digit b = Some d) -> exists d, digit a = Some d.
Proof.
  induction fuel as [|k IH]; intros n acc a s H Hacc; cbn [show_aux] in H.
  - destruct (n <? 10)%N; injection H as <- <-; exists (n mod 10)%N; apply digit_of; apply N.mod_lt; lia.
  - destruct (n <? 10)%N.
    + injection H as <- <-. exists (n mod 10)%N; apply digit_of; apply N.mod_lt; lia.
    + eapply IH; [exact H|]. intros b t E. injection E as <- <-.
      exists (n mod 10)%N; apply digit_of; apply N.mod_lt; lia.
Qed.

Lemma show_aux_app : forall fuel n acc, show_aux fuel n acc = show_aux fuel n "" ++ acc.
Proof.
  induction fuel as [|k IH]; intros n acc; cbn [show_aux]; [reflexivity|].
  destruct (n <? 10)%N; [reflexivity|].
  rewrite (IH _ (String _ acc)), (IH _ (String _ "")), sapp_assoc. reflexivity.
Qed.

Definition no_char (c : ascii) (s : string) : Prop := forall a b, s <> a ++ String c b.

Lemma split_once_app : forall c x y, split_once c x = None -> split_once c (x ++ String c y) = Some (x, y).
Proof.
  induction x as [|a x IH]; intros y H; cbn in *.
  - now rewrite Ascii.eqb_refl.
  - destruct (Ascii.eqb a c); [discriminate|]. destruct (split_once c x) as [[u v]|]; [discriminate|].
    now rewrite (IH y eq_refl).
Qed.

Lemma show_no_dot : forall fuel n acc, split_once "." acc = None -> split_once "." (show_aux fuel n acc) = None.
Proof.
  assert (W : forall n acc, split_once "." acc = None -> split_once "." (String (ascii_of_N (48 + n mod 10)) acc) = None).
  { intros n acc H. cbn [split_once].
    destruct (Ascii.eqb_spec (ascii_of_N (48 + n mod 10)) ".") as [E|_].
    - exfalso. pose proof (digit_of (n mod 10)) as D. rewrite E in D. cbn in D.
      discriminate D. apply N.mod_lt. lia.
    - now rewrite H. }
  induction fuel as [|k IH]; intros n acc H; cbn [show_aux]; [exact H|].
  destruct (n <? 10)%N; [now apply W|]. apply IH. now apply W.
Qed.

Lemma show_cons : forall n, exists a s, show n = String a s /\ exists d, digit a = Some d.
Proof.
  intros n. unfold show. destruct (show_aux (S (N.to_nat n)) n "") as [|a s] eqn:E.
  - exfalso. clear -E. revert E. generalize (N.to_nat n). intros k. revert n.
    assert (W : forall k n acc, acc <> "" -> show_aux k n acc <> "").
    { induction k0 as [|k0 IH]; intros n0 acc H; cbn; [exact H|]. destruct (n0 <? 10)%N; [discriminate|].
      apply IH. discriminate. }
    intros n. cbn [show_aux]. destruct (n <? 10)%N; [discriminate|]. intros E. eapply W; [|exact E]. discriminate.
  - exists a, s. split; [reflexivity|]. eapply show_digits; [exact E|]. intros b t H. discriminate.
Qed.

Lemma parse_usize_show : forall n, (n < 2 ^ 64)%N -> parse_usize (show n) = Some n.
Proof.
  intros n H. unfold parse_usize. destruct (show_cons n) as (a & s & E & d & Hd).
  rewrite E. assert (Ha : match String a s with String "+" (String a r) => String a r | _ => String a s end = String a s).
  { destruct (Ascii.eqb_spec a "+") as [->|Hne]; [discriminate Hd|].
    destruct a as [[|] [|] [|] [|] [|] [|] [|] [|]]; try reflexivity. congruence. }
  rewrite Ha. rewrite <- E. unfold show. rewrite parse_show_aux by lia. cbn [parse_digits].
  destruct (N.ltb_spec n (2 ^ 64)); [reflexivity|lia].
Qed.

(** The decimal rendering of every version parses to that version; a patch version is ignored. *)
Theorem C37_parse_rendered : forall a b patch, (a < 2 ^ 64)%N -> (b < 2 ^ 64)%N ->
  parse_version (show a ++ "." ++ show b) = Some (mk_version a b) /\
  parse_version (show a ++ "." ++ show b ++ "." ++ patch) = Some (mk_version a b).
Proof.
  intros a b patch Ha Hb. unfold parse_version.
  assert (D : forall n, split_once "." (show n) = None) by (intros n; apply show_no_dot; reflexivity).
  split.
  - change ("." ++ show b) with (String "." (show b)). rewrite split_once_app by apply D. rewrite D.
    now rewrite !parse_usize_show.
  - change ("." ++ show b ++ "." ++ patch) with (String "." (show b ++ String "." patch)).
    rewrite split_once_app by apply D. rewrite split_once_app by apply D.
    now rewrite !parse_usize_show.
Qed.

Example C37_parse_example : parse_version "3.13" = Some (mk_version 3 13) /\ parse_version "3.9.1rc2" = Some (mk_version 3 9)
  /\ parse_version "3" = None /\ parse_version "3.x" = None /\ show 310 = "310".
Proof. repeat split. Qed.

(** A requirement met by a version is met by all later versions of the same major version. *)
Theorem C37_monotone_partial : forall v w m,
  version_leb v w = true -> major v = major w -> at_least_3_dot v m = true -> at_least_3_dot w m = true.
Proof.
  intros [a b] [c d] m H E Hv. cbn in E. subst c. unfold version_leb, at_least_3_dot in *. cbn in *.
  apply andb_true_iff in Hv. destruct Hv as [H1 H2]. apply N.leb_le in H1, H2.
  rewrite orb_true_iff, andb_true_iff, N.ltb_lt, N.leb_le in H.
  apply andb_true_iff. rewrite !N.leb_le. destruct H as [H|[_ H]]; lia.
Qed.

Example C37_monotone_example : version_leb (mk_version 3 9) (mk_version 3 12) = true /\ at_least_3_dot (mk_version 3 9) 9 = true.
Proof. split; reflexivity. Qed.

(** A later requirement is at least as strong. *)
Theorem C37_antitone_requirement : forall v m m', (m <= m')%N -> at_least_3_dot v m' = true -> at_least_3_dot v m = true.
Proof.
  intros [a b] m m' H Hv. unfold at_least_3_dot in *. cbn in *. apply andb_true_iff in Hv. destruct Hv as [H1 H2].
  apply N.leb_le in H2. rewrite H1. apply N.leb_le. lia.
Qed.

(** Across major versions it fails: a version 4.0 would not satisfy the requirement of at least 3.9. *)
Theorem C37_monotone_refuted : exists v w m,
  version_leb v w = true /\ at_least_3_dot v m = true /\ at_least_3_dot w m = false.
Proof. exists (mk_version 3 9), (mk_version 4 0), 9%N. repeat split. Qed.

(** ** C39 *)

Definition is_key_line (l : string) : bool :=
  match cfg_entry l with Some (k, _) => String.eqb k "include-system-site-packages" | None => false end.

(** The layout that the code reads like Python: key in lower case, no white space around the value. *)
Definition plain_key_line (l : string) : Prop :=
  exists k v, split_once "=" l = Some (k, v) /\ trim k = "include-system-site-packages" /\ trim v = v.

Definition site_fold (ls : list string) (acc : bool) : bool :=
  fold_left (fun acc line => match cfg_entry line with
                             | Some (k, v) => if String.eqb k "include-system-site-packages" then String.eqb v "true" else acc
                             | None => acc
                             end) ls acc.

Lemma site_fold_skip : forall ls acc, filter is_key_line ls = [] -> site_fold ls acc = acc.
Proof.
  induction ls as [|l ls IH]; intros acc H; [reflexivity|]. cbn [filter] in H. cbn [site_fold fold_left].
  unfold is_key_line at 1 in H. destruct (cfg_entry l) as [[k v]|].
  - destruct (String.eqb k "include-system-site-packages"); [discriminate|]. now apply IH.
  - now apply IH.
Qed.

Lemma lower_key : lower "include-system-site-packages" = "include-system-site-packages".
Proof. reflexivity. Qed.

Lemma not_key_line : forall l, is_key_line l = false ->
  match split_once "=" l with Some (key, _) => String.eqb (trim key) "include-system-site-packages" | None => false end = false.
Proof.
  intros l H. unfold is_key_line, cfg_entry in H. destruct (split_once "=" l) as [[k v]|]; [|reflexivity].
  destruct (String.eqb_spec (trim k) "include-system-site-packages") as [E|E]; [|reflexivity].
  rewrite E, lower_key in H. discriminate.
Qed.

(** If the file has at most one line for the option, with the key in lower case and no white space around the value, the
    option is read as Python reads it. *)
Theorem C39_option_read_partial : forall content,
  (filter is_key_line (lines content) = [] \/
   exists l, filter is_key_line (lines content) = [l] /\ plain_key_line l) ->
  include_system_site_packages (Some content) = site_py content.
Proof.
  intros content. unfold include_system_site_packages, site_py. fold (site_fold (lines content) true).
  induction (lines content) as [|l ls IH]; intros H; [reflexivity|].
  cbn [filter] in H. destruct (is_key_line l) eqn:E.
  - destruct H as [H|[l' [H Hp]]]; [discriminate|]. injection H as <- H.
    destruct Hp as (k & v & Es & Ek & Ev). cbn [scan_cfg]. rewrite Es, Ek, String.eqb_refl.
    cbn [site_fold fold_left]. unfold cfg_entry. rewrite Es, Ek, Ev, lower_key, String.eqb_refl.
    symmetry. now apply site_fold_skip.
  - cbn [scan_cfg]. pose proof (not_key_line l E) as N.
    assert (S1 : scan_cfg (l :: ls) = scan_cfg ls).
    { cbn [scan_cfg]. destruct (split_once "=" l) as [[k v]|]; [now rewrite N|reflexivity]. }
    assert (S2 : site_fold (l :: ls) true = site_fold ls true).
    { cbn [site_fold fold_left]. unfold is_key_line in E. destruct (cfg_entry l) as [[k v]|]; [now rewrite E|reflexivity]. }
    cbn [scan_cfg] in S1. rewrite S1, S2. now apply IH.
Qed.

Definition nl : string := String "010" "".

Example C39_partial_example :
  let content := "home = /usr" ++ nl ++ "include-system-site-packages =TRUE" ++ nl in
  (exists l, filter is_key_line (lines content) = [l] /\ plain_key_line l) /\
  include_system_site_packages (Some content) = true.
Proof.
  split.
  - exists "include-system-site-packages =TRUE". split; [reflexivity|].
    exists "include-system-site-packages ", "TRUE". repeat split.
  - reflexivity.
Qed.

(** The line as Python's venv module writes it is read as false. *)
Theorem C39_option_read_refuted : exists content,
  content = "home = /usr/bin" ++ nl ++ "include-system-site-packages = true" ++ nl ++ "version = 3.12.3" ++ nl /\
  site_py content = true /\ include_system_site_packages (Some content) = false.
Proof. eexists. repeat split. Qed.

Print Assumptions C25_explicit_mode_wins.
Print Assumptions C25_configured_mode_wins.
Print Assumptions C25_implicit_mode.
Print Assumptions C25_automatic_mode_partial.
Print Assumptions C25_bad_mode_reported.
Print Assumptions C25_unrelated_setup_cfg_refuted.
Print Assumptions C25_explicit_setup_cfg_refuted.
Print Assumptions C26_switch_decides.
Print Assumptions C26_redefinition.
Print Assumptions C26_single_switches.
Print Assumptions C26_last_switch_refuted.
Print Assumptions C37_parse_rendered.
Print Assumptions C37_monotone_partial.
Print Assumptions C37_antitone_requirement.
Print Assumptions C37_monotone_refuted.
Print Assumptions C39_option_read_partial.
Print Assumptions C39_option_read_refuted.
