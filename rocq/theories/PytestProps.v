(** C78: the fixture found for a parameter is the one that pytest uses. *)
From Coq Require Import Ascii String.
From Coq Require Import List Bool Arith Lia.
From Verif Require Import PytestModel PytestSpec Pytest.
Import ListNotations.
Open Scope string_scope.
Open Scope list_scope.
Open Scope nat_scope.

(** A parameter of a test stands for the fixture that pytest uses for it. *)
Theorem C78_test_partial : forall p current levels n, clear p current levels n -> forall func scope ds, String.prefix "test" func = true -> scope = InModule \/ scope = InClass InModule -> n <> func ->
  exists enough, forall fuel, enough <= fuel -> search p true current levels n func scope ds fuel = Found (used (session_of p current levels None) n).
Proof.
  intros p current levels n C func scope ds Hf Hs. apply (search_test p current levels n C). unfold is_pytest_fixture_or_test. rewrite Hf. destruct Hs as [-> | ->]; reflexivity.
Qed.

(** A fixture that asks for its own name gets the one that it overrides. *)
Theorem C78_override_partial : forall p current levels n, clear p current levels n -> forall scope ds x, is_fixture ds = true -> gives (bindings p current) n = Some x ->
  exists enough, forall fuel, enough <= fuel -> search p true current levels n n scope ds fuel = Found (used_instead (session_of p current levels None) n).
Proof. exact search_override. Qed.

(** The search ends whatever the project looks like, and only looks for tests and fixtures, when there is pytest. *)
Theorem C78_ends : forall p folder current levels n func scope ds, exists enough func', forall fuel, enough <= fuel -> search p folder current levels n func scope ds fuel = Found func'.
Proof.
  intros p folder current levels n func scope ds. unfold search, find_pytest_fixture_for_param. destruct folder; [|exists 0, None; reflexivity]. destruct (is_pytest_fixture_or_test func scope ds); [|exists 0, None; reflexivity]. cbn [negb].
  eexists. eexists. intros fuel H. apply find_map_spec. exact H.
Qed.
Theorem C78_nothing : forall p folder current levels n func scope ds fuel x, search p folder current levels n func scope ds fuel = Found (Some x) ->
  folder = true /\ (String.prefix "test" func = true /\ collected scope \/ exists d, In d ds /\ says_fixture d = true /\ defined_in d = Some "_pytest.fixtures").
Proof.
  intros p folder current levels n func scope ds fuel x H. unfold search, find_pytest_fixture_for_param in H. destruct folder; [|discriminate H]. split; [reflexivity|]. destruct (is_pytest_fixture_or_test func scope ds) eqn:T; [|discriminate H]. clear H.
  unfold is_pytest_fixture_or_test in T. apply orb_true_iff in T as [T|T].
  - left. apply andb_true_iff in T as [T1 T2]. split; [exact T1|]. destruct scope as [|[| |]|]; try discriminate T2; repeat constructor.
  - right. apply existsb_exists in T as (d & Hd & T). apply andb_true_iff in T as [T1 T2]. exists d. split; [exact Hd|]. split; [exact T1|]. destruct (defined_in d) as [m|]; [|discriminate T2]. apply String.eqb_eq in T2. subst. reflexivity.
Qed.
(** What is found is bound to this name and decorated as a fixture, in a file that takes part. *)
Theorem C78_sound : forall p current levels n func scope ds fuel x, search p true current levels n func scope ds fuel = Found (Some x) ->
  exists f b, In b (bindings p f) /\ b_name b = n /\ b_function b = Some x /\ is_fixture (b_decorators b) = true /\
    (f = current /\ n <> func \/ In f (outer_conftests current levels) \/ (exists c, In c (outer_conftests current levels) /\ In f (plugins p c)) \/ In f (files_of (pytest_file p) modules_with_fixtures)).
Proof.
  intros p current levels n func scope ds fuel x H. unfold search, find_pytest_fixture_for_param in H. cbn [negb] in H. destruct (is_pytest_fixture_or_test func scope ds); [|discriminate H]. cbn [negb] in H.
  assert (G : forall fuel it, find_map (bindings p) (plugin_assignment p) (import_dotted p) (pytest_file p) current n fuel it = Found (Some x) -> exists f, In f (yields (plugin_assignment p) (import_dotted p) (pytest_file p) current it) /\ fixture_in (bindings p) n f = Some x).
  { clear. induction fuel as [|fuel IH]; intros it H; [discriminate H|]. cbn [find_map] in H. pose proof (next_spec (plugin_assignment p) (import_dotted p) (pytest_file p) current it) as N. destruct (next _ _ _ current it) as [[f it']|]; [|discriminate H]. rewrite N.
    destruct (fixture_in (bindings p) n f) as [y|] eqn:E; [injection H as ->; exists f; split; [left; reflexivity|exact E]|]. destruct (IH it' H) as (h & Hh & Eh). exists h. split; [right; exact Hh|exact Eh]. }
  destruct (G fuel _ H) as (f & Hf & E). unfold fixture_in in E. destruct (find _ (bindings p f)) as [b|] eqn:Eb; [|discriminate E]. apply find_some in Eb as [Hb Nb]. apply String.eqb_eq in Nb. destruct (b_function b) as [y|] eqn:Fb; [|discriminate E]. destruct (is_fixture (b_decorators b)) eqn:Db; [|discriminate E]. injection E as ->.
  exists f, b. do 4 (split; [assumption|]). unfold yields in Hf. cbn [skip_current_module plugins_left parent modules_left app] in Hf. apply in_app_or in Hf as [Hf|Hf].
  - destruct (String.eqb_spec n func) as [_|Ne]; [destruct Hf|]. destruct Hf as [<-|[]]. left. auto.
  - apply in_app_or in Hf as [Hf|Hf].
    + apply in_flat_map in Hf as (c & Hc & [<-|Hf]); [right; left; exact Hc|]. right. right. left. exists c. split; [exact Hc|]. unfold conftest_pytest_plugins in Hf. unfold plugins, plugins_in.
      assert (F : forall items, In f (flat_map (fun item => match item with StringItem s => match import_dotted p s with Some f => [f] | None => [] end | OtherItem => [] end) items) ->
        In f (flat_map (fun s => match import_dotted p s with Some f => [f] | None => [] end) (flat_map (fun i => match i with StringItem s => [s] | OtherItem => [] end) items))).
      { intros items Hi. apply in_flat_map in Hi as (i & Hi & Hx). apply in_flat_map. destruct i as [s|]; [|destruct Hx]. exists s. split; [apply in_flat_map; exists (StringItem s); split; [exact Hi|left; reflexivity]|exact Hx]. }
      destruct (plugin_assignment p c) as [[items|items|items|s|]|]; try exact (F items Hf); destruct Hf.
    + right. right. right. unfold files_of in *. apply in_flat_map in Hf as (m & Hm & Hf). apply in_flat_map. exists m. split; [cbn in Hm |- *; tauto|exact Hf].
Qed.

(** The type of the parameter is what the fixture returns or yields, when one that yields is declared or inferred as a [Generator] and one that returns is not. *)
Theorem C78_type_partial : forall yields declared t, value_of yields declared t ->
  match declared with Class c _ => yields = true <-> c = "typing.Generator" \/ c = "types.GeneratorType" | Any => True end -> infer_param declared = t.
Proof.
  intros yields declared t V H. inversion V as [t' E1 E2 E3|c t' args Hc E1 E2 E3]; subst.
  - destruct t as [c args|]; [|reflexivity]. cbn. unfold is_generator. destruct H as [_ H1]. destruct (String.eqb_spec c "typing.Generator") as [E|_]; [discriminate (H1 (or_introl E))|]. destruct (String.eqb_spec c "types.GeneratorType") as [E|_]; [discriminate (H1 (or_intror E))|]. reflexivity.
  - destruct H as [H1 _]. destruct (H1 eq_refl) as [-> | ->]; reflexivity.
Qed.

(** ** Cases *)
Definition fixture_decorator := mk_decorator true (Some "_pytest.fixtures").
Definition fixture_named (n : string) (func : nat) : binding := mk_binding n (Some func) [fixture_decorator] None.
Definition lookup {A} (l : list (nat * A)) (k : nat) : option A := option_map snd (find (fun e => fst e =? k) l).
Definition project_with (bs : list (nat * list binding)) (ps : list (nat * plugin_value)) : project :=
  mk_project (fun f => match lookup bs f with Some b => b | None => [] end) (lookup ps)
    (fun s => if String.eqb s "a" then Some 10 else if String.eqb s "b" then Some 11 else None)
    (fun m => if String.eqb m "tmpdir" then Some 20 else if String.eqb m "recwarn" then Some 21 else None).
Definition tests (p : project) (current : nat) (levels : list (option nat)) (n : string) : outcome := search p true current levels n "test_it" InModule [] 30.

(** A test in tests/sub: a conftest in tests and one in the workspace with a plugin *)
Definition usual := project_with [(0, [fixture_named "own" 1]); (1, [fixture_named "near" 2; fixture_named "own" 3]); (2, [fixture_named "far" 4; fixture_named "near" 5]); (10, [fixture_named "plugged" 6]); (20, [fixture_named "tmp_path" 7])]
  [(2, PluginList [StringItem "a"])].
Definition usual_levels : list (option nat) := [None; Some 1; Some 2].
Example C78_test_case : tests usual 0 usual_levels "own" = Found (Some 1) /\ tests usual 0 usual_levels "near" = Found (Some 2) /\ tests usual 0 usual_levels "far" = Found (Some 4) /\
  tests usual 0 usual_levels "plugged" = Found (Some 6) /\ tests usual 0 usual_levels "tmp_path" = Found (Some 7) /\ tests usual 0 usual_levels "missing" = Found None /\
  search usual true 0 usual_levels "own" "own" InModule [fixture_decorator] 30 = Found (Some 3) /\ used (session_of usual 0 usual_levels None) "near" = Some 2.
Proof. repeat split. Qed.
Ltac one_of H := repeat (destruct H as [<-|H]; [cbn in *; try discriminate; try congruence|]); try destruct H.
Example C78_clear_case : forall n, In n ["near"; "own"] -> clear usual 0 usual_levels n.
Proof.
  intros n [<-|[<-|[]]]; constructor.
  - intros f. unfold usual, project_with, lookup. cbn [bindings]. cbn [find fst]. repeat (match goal with |- context [?a =? f] => destruct (a =? f) end; [cbn; split; [repeat (apply NoDup_cons; [cbn; intuition discriminate|]); apply NoDup_nil|intros b Hb; one_of Hb; (split; [reflexivity|]; intros d Hd; one_of Hd; reflexivity)]|]).
    cbn. split; [constructor|intros b []].
  - intros c s [<-|[<-|[]]]; discriminate.
  - intros f f' a b Hf Hf' E. cbn in Hf. one_of Hf.
  - intros inner c outer f x E Hf Ex c' Hc'. assert (Hp : plugins usual c = [] \/ plugins usual c = [10]) by (unfold plugins, usual, project_with, lookup; cbn [plugin_assignment find fst]; destruct (2 =? c); [right|left]; reflexivity). destruct Hp as [Hp|Hp]; rewrite Hp in Hf; one_of Hf.
  - intros f f' a b Hf Hf' E. cbn in Hf. one_of Hf.
  - intros m f Hm Nm E. cbn [usual project_with pytest_file] in E. destruct (String.eqb_spec m "tmpdir") as [->|_]; [destruct Nm; cbn; tauto|]. destruct (String.eqb_spec m "recwarn") as [_|_]; [injection E as <-; reflexivity|discriminate E].
  - intros f. unfold usual, project_with, lookup. cbn [bindings]. cbn [find fst]. repeat (match goal with |- context [?a =? f] => destruct (a =? f) end; [cbn; split; [repeat (apply NoDup_cons; [cbn; intuition discriminate|]); apply NoDup_nil|intros b Hb; one_of Hb; (split; [reflexivity|]; intros d Hd; one_of Hd; reflexivity)]|]).
    cbn. split; [constructor|intros b []].
  - intros c s [<-|[<-|[]]]; discriminate.
  - intros f f' a b Hf Hf' E. cbn in Hf. one_of Hf.
  - intros inner c outer f x E Hf Ex c' Hc'. assert (Hp : plugins usual c = [] \/ plugins usual c = [10]) by (unfold plugins, usual, project_with, lookup; cbn [plugin_assignment find fst]; destruct (2 =? c); [right|left]; reflexivity). destruct Hp as [Hp|Hp]; rewrite Hp in Hf; one_of Hf.
  - intros f f' a b Hf Hf' E. cbn in Hf. one_of Hf.
  - intros m f Hm Nm E. cbn [usual project_with pytest_file] in E. destruct (String.eqb_spec m "tmpdir") as [->|_]; [destruct Nm; cbn; tauto|]. destruct (String.eqb_spec m "recwarn") as [_|_]; [injection E as <-; reflexivity|discriminate E].
Qed.
Example C78_type_case : infer_param (Class "typing.Generator" [Class "int" []; Any; Any]) = Class "int" [] /\ infer_param (Class "str" []) = Class "str" [].
Proof. split; reflexivity. Qed.

(** ** What goes wrong *)
(** The fixtures of the class around a test are not looked at. *)
Theorem C78_class_refuted : exists p, (forall f, plain (bindings p f)) /\ search p true 0 [Some 1] "x" "test_it" (InClass InModule) [] 30 = Found (Some 2) /\ used (session_of p 0 [Some 1] (Some 1)) "x" = Some 1.
Proof.
  exists (mk_project (fun f => if f =? 1 then [fixture_named "x" 2] else []) (fun _ => None) (fun _ => None) (fun _ => None)). split; [|split; reflexivity].
  intros f. cbn [bindings]. destruct (f =? 1); (split; [repeat constructor; intros []|]); intros b Hb; [destruct Hb as [<-|[]]|destruct Hb]. split; [reflexivity|]. intros d [<-|[]]. reflexivity.
Qed.
(** [fixture(name="x")] is not known by that name, and a fixture whose decorator was imported under another name is not known at all. *)
Theorem C78_given_refuted : let p := project_with [(0, [mk_binding "x_fixture" (Some 1) [fixture_decorator] (Some "x")])] [] in
  tests p 0 [None] "x" = Found None /\ used (session_of p 0 [None] None) "x" = Some 1 /\ tests p 0 [None] "x_fixture" = Found (Some 1) /\ used (session_of p 0 [None] None) "x_fixture" = None.
Proof. repeat split. Qed.
Theorem C78_alias_refuted : let p := project_with [(0, [mk_binding "x" (Some 1) [mk_decorator false (Some "_pytest.fixtures")] None])] [] in
  tests p 0 [None] "x" = Found None /\ used (session_of p 0 [None] None) "x" = Some 1.
Proof. repeat split. Qed.
(** Of two plugins the first is taken, in pytest the last. *)
Theorem C78_plugins_refuted : let p := project_with [(10, [fixture_named "x" 1]); (11, [fixture_named "x" 2])] [(1, PluginList [StringItem "a"; StringItem "b"])] in
  tests p 0 [Some 1] "x" = Found (Some 1) /\ used (session_of p 0 [Some 1] None) "x" = Some 2.
Proof. repeat split. Qed.
(** The plugins of a conftest come before the conftests around it, in pytest after them. *)
Theorem C78_outer_refuted : let p := project_with [(10, [fixture_named "x" 1]); (2, [fixture_named "x" 2])] [(1, PluginList [StringItem "a"])] in
  tests p 0 [Some 1; Some 2] "x" = Found (Some 1) /\ used (session_of p 0 [Some 1; Some 2] None) "x" = Some 2.
Proof. repeat split. Qed.
(** [pytest_plugins = "a"] is ignored. *)
Theorem C78_string_refuted : let p := project_with [(10, [fixture_named "x" 1])] [(1, PluginString "a")] in
  tests p 0 [Some 1] "x" = Found None /\ used (session_of p 0 [Some 1] None) "x" = Some 1.
Proof. repeat split. Qed.
(** The fixtures of a conftest do not see those of its own plugins, which a test in its directory sees. *)
Theorem C78_own_plugins_refuted : let p := project_with [(10, [fixture_named "x" 1])] [(1, PluginList [StringItem "a"])] in
  search p true 1 [Some 1] "x" "y" InModule [fixture_decorator] 30 = Found None /\ tests p 0 [Some 1] "x" = Found (Some 1).
Proof. repeat split. Qed.
(** Some modules of pytest with fixtures are not looked at. *)
Theorem C78_builtin_refuted : let p := project_with [(21, [fixture_named "recwarn" 1])] [] in
  tests p 0 [None] "recwarn" = Found None /\ used (session_of p 0 [None] None) "recwarn" = Some 1.
Proof. repeat split. Qed.
(** A fixture of a conftest gets the fixtures that the test sees, not those that the conftest does. *)
Theorem C78_requested_refuted : let p := project_with [(0, [fixture_named "x" 1]); (1, [fixture_named "x" 2; fixture_named "y" 3])] [] in
  search p true 1 [Some 1] "x" "y" InModule [fixture_decorator] 30 = Found (Some 2) /\ used (session_of p 0 [Some 1] None) "x" = Some 1.
Proof. repeat split. Qed.
(** Tests in nested classes are not known. *)
Theorem C78_nested_refuted : let p := project_with [(0, [fixture_named "x" 1])] [] in collected (InClass (InClass InModule)) /\
  search p true 0 [None] "x" "test_it" (InClass (InClass InModule)) [] 30 = Found None /\ used (session_of p 0 [None] None) "x" = Some 1.
Proof. split; [repeat constructor|split; reflexivity]. Qed.
(** A fixture that yields and is declared with [Iterator], and one that returns a generator *)
Theorem C78_type_refuted : (exists declared t, value_of true declared t /\ infer_param declared <> t) /\ (exists declared t, value_of false declared t /\ infer_param declared <> t).
Proof.
  split.
  - exists (Class "typing.Iterator" [Class "int" []]), (Class "int" []). split; [constructor; cbn; tauto|discriminate].
  - exists (Class "typing.Generator" [Class "int" []; Any; Any]), (Class "typing.Generator" [Class "int" []; Any; Any]). split; [constructor|discriminate].
Qed.

Print Assumptions C78_test_partial.
Print Assumptions C78_override_partial.
Print Assumptions C78_ends.
Print Assumptions C78_nothing.
Print Assumptions C78_sound.
Print Assumptions C78_type_partial.
Print Assumptions C78_class_refuted.
Print Assumptions C78_plugins_refuted.
Print Assumptions C78_outer_refuted.
Print Assumptions C78_type_refuted.
