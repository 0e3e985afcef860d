(** C22, C23, C24: per-module sections and option names of the configuration. *)
From Coq Require Import String Ascii List Bool Lia Arith Permutation.
From Verif Require Import OverrideModel OverrideSpec OverrideProofs.
Import ListNotations.
Open Scope string_scope.

(** ** C22 *)

(** For every dotted pattern and every module, given by its name and the names of the enclosing packages (innermost
    first), a section applies exactly when the dotted module name is in the language of mypy's regular expression. *)
Theorem C22_section_matches_like_mypy : forall pattern_components name parents,
  pattern_components <> [] -> Forall no_dot pattern_components -> Forall no_dot (name :: parents) ->
  (matches_file_path (parse_override (dotted pattern_components)) name parents = true <->
   denotes (compile_glob pattern_components) (dotted (rev (name :: parents)))).
Proof.
  intros cs name parents Hne Hd Hn. rewrite matches_iff by exact Hn.
  rewrite split_on_of_dotted by assumption. reflexivity.
Qed.

Example C22_example :
  matches_file_path (parse_override "a.*.c") "c" ["b2"; "b1"; "a"] = true /\
  matches_file_path (parse_override "a.*.c") "c" ["a"] = true /\
  matches_file_path (parse_override "*.c") "c" [] = false /\
  denotes (compile_glob ["a"; "*"; "c"]) "a.b1.b2.c".
Proof.
  repeat split; try reflexivity.
  apply (d_seq (Lit "a") _ "a" ".b1.b2.c"); [constructor|].
  apply (d_seq (later_re "*") _ ".b1.b2" ".c").
  - apply d_opt_some. apply (d_seq _ _ "." "b1.b2"); constructor.
  - apply (d_seq (later_re "c") _ ".c" ""); [|constructor]. apply (d_seq _ _ "." "c"); constructor.
Qed.

(** For files outside stub packages the module that is matched is the one of the file: [pkg/__init__.py] is [pkg],
    [pkg/mod.py] is [pkg.mod]. *)
Theorem C22_init_file_is_its_package : forall p dir up,
  strip_suffix "-stubs" dir = None ->
  matches_file p "__init__.py" (dir :: up) = matches_file_path p dir up /\
  matches_file p "__init__.pyi" (dir :: up) = matches_file_path p dir up.
Proof.
  intros p dir up H. unfold matches_file, name_and_parent_dir. cbn -[matches_file_path strip_suffix].
  unfold strip_suffix_or. rewrite H. cbn. auto.
Qed.

Example C22_init_example : matches_file (parse_override "a.b") "__init__.py" ["b"; "a"] = true.
Proof. reflexivity. Qed.

(** A stub package [foo-stubs] provides the package [foo]: this is respected for its [__init__.pyi] but not for its other
    modules, for which a section of the module does not apply. *)
Theorem C22_stub_package_module_refuted :
  matches_file (parse_override "foo") "__init__.pyi" ["foo-stubs"] = true /\
  matches_file (parse_override "foo.bar") "bar.pyi" ["foo-stubs"] = false /\
  matches_file (parse_override "foo.*") "bar.pyi" ["foo-stubs"] = false.
Proof. repeat split. Qed.

(** ** C23 *)

(** The section gives the option [x] the value [b], whatever it was before. *)
Definition sets (s : section) (x : field) (b : bool) : Prop :=
  forall f f', apply_to_flags s f = Some f' -> bools f' x = b.
(** The section says nothing about [x]. *)
Definition leaves (s : section) (x : field) : Prop :=
  forall f f', apply_to_flags s f = Some f' -> bools f' x = bools f x.

Definition section_of (pattern : string) (cfg : list (string * value)) : section :=
  mk_section (parse_override pattern) cfg.

(** A section as written in the configuration. *)
Definition written := (string * list (string * value))%type.
Definition load (w : written) : section := section_of (fst w) (snd w).
Definition wrank (w : written) : nat := rank (split_on "." (fst w)).
Definition applies (w : written) (name : string) (parents : list string) : Prop :=
  matches_file_path (parse_override (fst w)) name parents = true.

Lemma apply_leaves : forall l name parents f f' x,
  (forall t, In t l -> matches_file_path (s_module t) name parents = true -> leaves t x) ->
  apply_overrides l name parents f = Some f' -> bools f' x = bools f x.
Proof.
  induction l as [|t l IH]; intros name parents f f' x Hl H; cbn in H; [congruence|].
  destruct (matches_file_path (s_module t) name parents) eqn:Em.
  - destruct (apply_to_flags t f) as [f1|] eqn:E; [|discriminate].
    rewrite (IH _ _ _ _ x) with (2 := H).
    + apply (Hl t); [now left|exact Em|exact E].
    + intros u Hu. apply Hl. now right.
  - eapply IH; [|exact H]. intros u Hu. apply Hl. now right.
Qed.

Lemma load_rank : forall w, srank (load w) = wrank w.
Proof. intros [p c]. unfold srank, load, section_of, wrank. cbn. apply kind_is_rank. Qed.

(** Concrete names win over patterns with a star before a name, those over patterns with the stars at the end; within the
    same class the later section wins.  If [w] applies and sets [x], and all sections that would win over it say nothing
    about [x] or do not apply, then [x] has the value of [w]. *)
Theorem C23_winning_section_partial : forall before w after name parents base f x b,
  applies w name parents -> sets (load w) x b ->
  (forall t, In t before -> wrank w < wrank t -> applies t name parents -> leaves (load t) x) ->
  (forall t, In t after -> wrank w <= wrank t -> applies t name parents -> leaves (load t) x) ->
  flags_for_module (map load (before ++ w :: after)) name parents base = Some f ->
  bools f x = b.
Proof.
  intros before w after name parents base f x b Hm Hs Hb Ha H. unfold flags_for_module in H.
  rewrite map_app in H. cbn [map] in H.
  destruct (order_decomp (map load before) (load w) (map load after)) as (l1 & l2 & E & Hl2).
  rewrite E, apply_overrides_app in H.
  destruct (apply_overrides l1 name parents base) as [f1|]; [|discriminate].
  cbn [apply_overrides] in H. unfold applies in Hm. change (s_module (load w)) with (parse_override (fst w)) in H.
  rewrite Hm in H. destruct (apply_to_flags (load w) f1) as [f2|] eqn:E2; [|discriminate].
  rewrite (apply_leaves _ _ _ _ _ x) with (2 := H).
  - eapply Hs. exact E2.
  - intros t Ht Hmt. destruct (Hl2 _ Ht) as [[Hin Hr]|[Hin Hr]];
      apply in_map_iff in Hin; destruct Hin as (u & <- & Hu); rewrite !load_rank in Hr.
    + apply Ha; auto.
    + apply Hb; auto.
Qed.

(** Sections that do not apply or say nothing about [x] do not change it. *)
Theorem C23_unmentioned_option : forall ws name parents base f x,
  (forall t, In t ws -> applies t name parents -> leaves (load t) x) ->
  flags_for_module (map load ws) name parents base = Some f -> bools f x = bools base x.
Proof.
  intros ws name parents base f x Hl H. unfold flags_for_module in H.
  eapply apply_leaves; [|exact H]. intros t Ht Hm.
  apply (Permutation_in (l' := map load ws)) in Ht; [|symmetry; apply order_perm].
  apply in_map_iff in Ht. destruct Ht as (u & <- & Hu). apply Hl; auto.
Qed.

(** How a boolean option of a section is seen by [sets] and [leaves]. *)
Lemma sets_single : forall p b, sets (section_of p [("disallow_any_expr", T_bool b)]) F_disallow_any_expr b.
Proof.
  intros p b f f' H. cbn in H. rewrite xorb_false_r in H. injection H as <-. reflexivity.
Qed.

Definition base0 : flags := mk_flags (fun _ => false) None (fun _ => []) [].

Example C23_example :
  let ws := [("a.b", [("disallow_any_expr", T_bool true)]); ("a.*.b", [("disallow_any_expr", T_bool false)]);
             ("a.*", [("disallow_any_expr", Ini "No"); ("warn_return_any", T_bool true)])] in
  match flags_for_module (map load ws) "b" ["a"] base0 with
  | Some f => bools f F_disallow_any_expr = true /\ bools f F_warn_return_any = true
  | None => False
  end.
Proof. vm_compute. auto. Qed.

(** mypy's documentation puts more specific well structured patterns first; here only the order of the file counts. *)
Theorem C23_specific_pattern_wins_refuted : exists ws f,
  ws = [("foo.bar.*", [("disallow_any_expr", T_bool true)]); ("foo.*", [("disallow_any_expr", T_bool false)])] /\
  flags_for_module (map load ws) "baz" ["bar"; "foo"] base0 = Some f /\
  bools f F_disallow_any_expr = false.
Proof.
  eexists. eexists. split; [reflexivity|]. split; [vm_compute; reflexivity|]. reflexivity.
Qed.

(** A section with the key [strict] is prepared for by [apply_to_flags], but it always fails, and the file it applies to
    cannot be checked. *)
Lemma set_flag_strict : forall f v e, set_flag f "strict" v e = (f, false).
Proof. reflexivity. Qed.

Lemma apply_keys_strict : forall cfg f, In "strict" (map fst cfg) -> apply_keys cfg f = None.
Proof.
  induction cfg as [|[k v] cfg IH]; intros f H; cbn in H; [contradiction|].
  cbn [apply_keys]. destruct H as [->|H]; [reflexivity|].
  destruct (set_flag f k v false) as [f' [|]]; [now apply IH|reflexivity].
Qed.

Theorem C23_strict_section_refuted : forall before w after name parents base,
  applies w name parents -> In "strict" (map fst (snd w)) ->
  flags_for_module (map load (before ++ w :: after)) name parents base = None.
Proof.
  intros before w after name parents base Hm Hs. unfold flags_for_module.
  rewrite map_app. cbn [map].
  destruct (order_decomp (map load before) (load w) (map load after)) as (l1 & l2 & E & _).
  rewrite E, apply_overrides_app. destruct (apply_overrides l1 name parents base) as [f1|]; [|reflexivity].
  cbn [apply_overrides]. unfold applies in Hm. change (s_module (load w)) with (parse_override (fst w)).
  rewrite Hm. unfold apply_to_flags. destruct (apply_strict (s_config (load w)) f1); [|reflexivity].
  rewrite apply_keys_strict; [reflexivity|exact Hs].
Qed.

Example C23_strict_example :
  applies ("m", [("strict", T_bool true)]) "m" [] /\
  flags_for_module (map load [("m", [("strict", T_bool true)])]) "m" [] base0 = None.
Proof. split; reflexivity. Qed.

(** ** C24 *)

(** The negative spellings of an option name. *)
Inductive negative_of : string -> string -> Prop :=
| neg_no : forall x, negative_of ("no_" ++ x) x
| neg_allow : forall x, negative_of ("allow" ++ x) ("disallow" ++ x)
| neg_disallow : forall x, negative_of ("disallow" ++ x) ("allow" ++ x).

(** A plain spelling: a boolean option that the checker knows. *)
Definition plain_bool (x : string) : Prop :=
  exists a, In (x, a) arms.

Lemma plain_not_inverted : forall x, plain_bool x -> maybe_invert x = (false, x).
Proof.
  intros x [a Hx].
  assert (W : forallb (fun p => let r := maybe_invert (fst p) in negb (fst r) && String.eqb (snd r) (fst p)) arms = true)
    by (vm_compute; reflexivity).
  rewrite forallb_forall in W. apply W in Hx. cbn [fst] in Hx. destruct (maybe_invert x) as [i n]. cbn in Hx.
  apply andb_true_iff in Hx. destruct Hx as [Hi Hn]. apply String.eqb_eq in Hn. destruct i; [discriminate|].
  now subst.
Qed.

Lemma plain_not_special : forall x, plain_bool x -> mem x ["exclude"; "always_true"; "always_false"; "enable_error_code"; "disable_error_code"; "strict"] = false.
Proof.
  intros x [a Hx].
  assert (W : forallb (fun p => negb (mem (fst p) ["exclude"; "always_true"; "always_false"; "enable_error_code"; "disable_error_code"; "strict"])) arms = true)
    by (vm_compute; reflexivity).
  rewrite forallb_forall in W. apply W in Hx. cbn [fst] in Hx. now apply negb_true_iff in Hx.
Qed.

Lemma set_flag_plain : forall f name x invert v e,
  maybe_invert name = (invert, x) -> plain_bool x -> set_flag f name v e = set_bool_init_flags f x v invert e.
Proof.
  intros f name x invert v e Hm Hx. unfold set_flag. rewrite Hm.
  pose proof (plain_not_special x Hx) as W. cbn [mem existsb] in W.
  rewrite !orb_false_iff in W. destruct W as (W1 & W2 & W3 & W4 & W5 & W6 & _).
  rewrite W1, W2, W3, W4, W5, W6. reflexivity.
Qed.

Lemma set_bool_neg : forall f x v v' e b, as_bool v false = Some b -> as_bool v' false = Some (negb b) ->
  set_bool_init_flags f x v true e = set_bool_init_flags f x v' false e.
Proof.
  intros f x v v' e b Hv Hv'. unfold set_bool_init_flags. rewrite (as_bool_invert _ _ Hv), Hv'. reflexivity.
Qed.

Lemma negative_inverted : forall n x, negative_of n x -> plain_bool x -> ~ plain_bool n -> maybe_invert n = (true, x).
Proof.
  intros n x H Hx Hn. pose proof (plain_not_inverted x Hx) as Wx. inversion H as [y|y|y]; subst.
  - unfold maybe_invert. rewrite strip_prefix_app. reflexivity.
  - unfold maybe_invert. replace (strip_prefix "no_" ("allow" ++ y)) with (@None string) by reflexivity.
    rewrite strip_prefix_app. destruct (mem ("allow" ++ y) OPTIONS_STARTING_WITH_ALLOW) eqn:E; [|reflexivity].
    exfalso. apply Hn. unfold mem in E. apply existsb_exists in E. destruct E as (z & Hz & Ez).
    apply String.eqb_eq in Ez. rewrite Ez. clear - Hz.
    repeat (destruct Hz as [<-|Hz]; [eexists; vm_compute; tauto|]). contradiction.
  - unfold maybe_invert in Wx |- *.
    replace (strip_prefix "no_" ("disallow" ++ y)) with (@None string) by reflexivity.
    replace (strip_prefix "allow" ("disallow" ++ y)) with (@None string) by reflexivity.
    replace (strip_prefix "no_" ("allow" ++ y)) with (@None string) in Wx by reflexivity.
    rewrite strip_prefix_app in Wx. cbn [andb] in *.
    change ("disallow" ++ y) with ("dis" ++ ("allow" ++ y)). rewrite strip_prefix_app.
    destruct (mem ("allow" ++ y) OPTIONS_STARTING_WITH_ALLOW); [reflexivity|].
    cbn in Wx. discriminate.
Qed.

(** Setting a negative spelling to a truth value does exactly what setting the option to the negated value does, for every
    option and every way to write the values. *)
Theorem C24_negative_spelling : forall f n x v v' b e,
  negative_of n x -> plain_bool x -> ~ plain_bool n ->
  as_bool v false = Some b -> as_bool v' false = Some (negb b) ->
  set_flag f n v e = set_flag f x v' e.
Proof.
  intros f n x v v' b e Hn Hx Hnp Hv Hv'.
  rewrite (set_flag_plain f n x true v e) by (auto using negative_inverted).
  rewrite (set_flag_plain f x x false v' e) by (auto using plain_not_inverted).
  eapply set_bool_neg; eauto.
Qed.

Example C24_example : forall f e,
  set_flag f "allow_untyped_defs" (Ini "off") e = set_flag f "disallow_untyped_defs" NoValue e /\
  bools (fst (set_flag f "allow_untyped_defs" (Ini "off") e)) F_disallow_untyped_defs = true /\
  bools (fst (set_flag f "no_implicit_reexport" (T_bool true) e)) F_no_implicit_reexport = true /\
  bools (fst (set_flag f "disallow_redefinition" (Ini "TRUE") e)) F_allow_redefinition = false.
Proof. intros f e. repeat split. Qed.

(** The documented boolean options, the flag each stands for, and whether it is stored as it is or negated. *)
Definition documented_options : list (string * (field * bool)) :=
  [ ("strict_optional", (F_strict_optional, true)); ("strict_equality", (F_strict_equality, true));
    ("implicit_optional", (F_implicit_optional, true)); ("check_untyped_defs", (F_check_untyped_defs, true));
    ("ignore_missing_imports", (F_ignore_missing_imports, true)); ("follow_untyped_imports", (F_follow_untyped_imports, true));
    ("disallow_untyped_defs", (F_disallow_untyped_defs, true)); ("disallow_untyped_calls", (F_disallow_untyped_calls, true));
    ("disallow_untyped_decorators", (F_disallow_untyped_decorators, true)); ("disallow_any_generics", (F_disallow_any_generics, true));
    ("disallow_any_decorated", (F_disallow_any_decorated, true)); ("disallow_any_explicit", (F_disallow_any_explicit, true));
    ("disallow_any_unimported", (F_disallow_any_unimported, true)); ("disallow_any_expr", (F_disallow_any_expr, true));
    ("disallow_subclassing_any", (F_disallow_subclassing_any, true)); ("disallow_incomplete_defs", (F_disallow_incomplete_defs, true));
    ("allow_untyped_globals", (F_allow_untyped_globals, true)); ("allow_empty_bodies", (F_allow_empty_bodies, true));
    ("warn_unreachable", (F_warn_unreachable, true)); ("warn_return_any", (F_warn_return_any, true));
    ("warn_no_return", (F_warn_no_return, true)); ("local_partial_types", (F_local_partial_types, true));
    ("allow_redefinition", (F_allow_redefinition, true)); ("disable_bytearray_promotion", (F_disable_bytearray_promotion, true));
    ("disable_memoryview_promotion", (F_disable_memoryview_promotion, true)); ("extra_checks", (F_extra_checks, true));
    ("untyped_strict_optional", (F_untyped_strict_optional, true)); ("allow_redefinition_new", (F_allow_redefinition, true));
    ("implicit_reexport", (F_no_implicit_reexport, false)) ].

(** A boolean option sets only its own flag, and to the value that is written. *)
Theorem C24_sets_only_its_flag : forall f x fld pos v b e,
  In (x, (fld, pos)) documented_options -> as_bool v false = Some b ->
  exists f', set_flag f x v e = (f', true) /\
    bools f' fld = (if pos then b else negb b) /\ (forall y, y <> fld -> bools f' y = bools f y) /\
    ignore_errors f' = ignore_errors f /\ lists f' = lists f /\ excludes f' = excludes f.
Proof.
  intros f x fld pos v b e Hin Hv.
  assert (W : forallb (fun p => match find_arm (fst p) arms, snd p with
                         | Some (A_set a), (c, true) => if field_eq_dec a c then true else false
                         | Some (A_set_neg a), (c, false) => if field_eq_dec a c then true else false
                         | _, _ => false end) documented_options = true) by (vm_compute; reflexivity).
  rewrite forallb_forall in W. specialize (W _ Hin). cbn [fst snd] in W.
  assert (Hset : forall fl c, c = fl -> bools (set_bool f fl b) c = b /\ bools (set_bool f fl (negb b)) c = negb b).
  { intros fl c ->. cbn. destruct (field_eq_dec fl fl); [auto|congruence]. }
  destruct (find_arm x arms) as [[a|a| | |]|] eqn:Hf; try discriminate;
    (assert (Hx : plain_bool x) by (eexists; apply find_arm_in; exact Hf));
    rewrite (set_flag_plain f x x false v e (plain_not_inverted x Hx) Hx);
    unfold set_bool_init_flags; rewrite Hf, Hv; destruct pos; try discriminate;
    destruct (field_eq_dec a fld) as [->|]; try discriminate;
    eexists; (split; [reflexivity|]); repeat split; try (apply Hset; reflexivity);
    intros y Hy; cbn; destruct (field_eq_dec fld y); congruence.
Qed.

Example C24_sets_example : In ("warn_unreachable", (F_warn_unreachable, true)) documented_options /\
  as_bool (Ini "Yes") false = Some true /\ snd (set_flag base0 "warn_unreachable" (Ini "Yes") true) = true.
Proof. vm_compute. tauto. Qed.

(** A doubly negated name is never an option. *)
Theorem C24_double_negation_unknown : forall f x v, set_flag f ("no_no_" ++ x) v true = (f, false).
Proof.
  intros f x v. unfold set_flag.
  assert (Hm : maybe_invert ("no_no_" ++ x) = (true, "no_" ++ x)) by reflexivity.
  rewrite Hm.
  repeat match goal with |- context [String.eqb ("no_" ++ x) ?k] =>
    replace (String.eqb ("no_" ++ x) k) with false by reflexivity end.
  unfold set_bool_init_flags. rewrite find_arm_no. reflexivity.
Qed.

(** A value that is not a boolean is refused and changes nothing. *)
Theorem C24_bad_value_refused : forall f n x fld v e,
  (n = x \/ negative_of n x) -> In (x, A_set fld) arms -> ~ (plain_bool n /\ n <> x) ->
  as_bool v false = None -> set_flag f n v e = (f, false).
Proof.
  intros f n x fld v e Hn Hin Hnp Hv.
  assert (Hx : plain_bool x) by (eexists; exact Hin).
  assert (Hf : forall a, find_arm x arms = Some a -> a <> A_nothing).
  { intros a Ha. assert (W : forallb (fun p => match find_arm (fst p) arms, snd p with
                           | Some A_nothing, A_set _ => false | _, _ => true end) arms = true) by (vm_compute; reflexivity).
    rewrite forallb_forall in W. apply W in Hin. cbn [fst snd] in Hin. rewrite Ha in Hin. destruct a; congruence. }
  assert (Hv' : as_bool v true = None).
  { unfold as_bool in *. destruct (match v with T_bool _ => _ | _ => _ end); [discriminate|reflexivity]. }
  assert (Hi : exists i, maybe_invert n = (i, x)).
  { destruct Hn as [->|Hn]; [exists false; now apply plain_not_inverted|].
    destruct (String.string_dec n x) as [->|Hne]; [exists false; now apply plain_not_inverted|].
    exists true. apply negative_inverted; auto. }
  destruct Hi as [i Hi]. rewrite (set_flag_plain f n x i v e Hi Hx). unfold set_bool_init_flags.
  assert (Hv2 : as_bool v i = None) by (destruct i; assumption). rewrite Hv2.
  assert (Hfind : exists a, find_arm x arms = Some a).
  { destruct (find_arm x arms) as [a|] eqn:E; [eauto|]. exfalso.
    clear - Hin E. induction arms as [|[k a] l IH]; [contradiction|]. cbn in E.
    destruct (String.eqb_spec x k); [discriminate|]. destruct Hin as [H|H]; [congruence|auto]. }
  destruct Hfind as [a Ha]. rewrite Ha. specialize (Hf _ Ha). destruct a; try reflexivity. congruence.
Qed.

Print Assumptions C22_section_matches_like_mypy.
Print Assumptions C22_init_file_is_its_package.
Print Assumptions C22_stub_package_module_refuted.
Print Assumptions C23_winning_section_partial.
Print Assumptions C23_unmentioned_option.
Print Assumptions C23_specific_pattern_wins_refuted.
Print Assumptions C23_strict_section_refuted.
Print Assumptions C24_negative_spelling.
Print Assumptions C24_sets_only_its_flag.
Print Assumptions C24_double_negation_unknown.
Print Assumptions C24_bad_value_refused.
