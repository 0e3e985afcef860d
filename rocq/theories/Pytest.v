(** Proofs about the search for fixtures. *)
From Coq Require Import Ascii String.
From Coq Require Import List Bool Arith Lia.
From Verif Require Import PytestModel PytestSpec.
Import ListNotations.
Open Scope string_scope.
Open Scope list_scope.
Open Scope nat_scope.

Definition orelse {A} (a b : option A) : option A := match a with Some x => Some x | None => b end.
Fixpoint first {A} (g : nat -> option A) (l : list nat) : option A := match l with [] => None | f :: l => orelse (g f) (first g l) end.
Lemma first_app : forall {A} (g : nat -> option A) a b, first g (a ++ b) = orelse (first g a) (first g b).
Proof. intros A g a b. induction a as [|f a IH]; [reflexivity|]. cbn. rewrite IH. destruct (g f); reflexivity. Qed.
Lemma first_none : forall {A} (g : nat -> option A) l, first g l = None <-> forall f, In f l -> g f = None.
Proof.
  intros A g l. induction l as [|f l IH]; cbn; [split; [intros _ ? []|reflexivity]|]. destruct (g f) as [x|] eqn:E; cbn.
  - split; [discriminate|]. intros H. rewrite <- E. apply H. left. reflexivity.
  - rewrite IH. split; [intros H h [<-|Hh]; [exact E|exact (H h Hh)]|intros H h Hh; apply H; right; exact Hh].
Qed.
Lemma first_some : forall {A} (g : nat -> option A) l x, first g l = Some x -> exists f, In f l /\ g f = Some x.
Proof.
  intros A g l x. induction l as [|f l IH]; cbn; [discriminate|]. destruct (g f) as [y|] eqn:E; cbn; [intros [= ->]; exists f; auto|]. intros H. destruct (IH H) as (h & Hh & Hx). exists h. auto.
Qed.
Lemma first_unique : forall {A} (g : nat -> option A) l l', (forall f f' a b, In f l' -> In f' l' -> g f = Some a -> g f' = Some b -> a = b) ->
  incl l l' -> (forall f, In f l' -> In f l \/ g f = None) -> first g l = first g l'.
Proof.
  intros A g l l' U I1 I2. destruct (first g l) as [x|] eqn:E, (first g l') as [y|] eqn:E'; try reflexivity.
  - apply first_some in E as (f & Hf & Ef), E' as (f' & Hf' & Ef'). f_equal. exact (U f f' x y (I1 f Hf) Hf' Ef Ef').
  - apply first_some in E as (f & Hf & Ef). rewrite first_none in E'. rewrite (E' f (I1 f Hf)) in Ef. discriminate Ef.
  - apply first_some in E' as (f' & Hf' & Ef'). rewrite first_none in E. destruct (I2 f' Hf') as [H|H]; [rewrite (E f' H) in Ef'|rewrite H in Ef']; discriminate Ef'.
Qed.

(** ** The code *)
Section Code.
Variable bindings : nat -> list binding.
Variable plugin_assignment : nat -> option plugin_value.
Variable import_dotted : string -> option nat.
Variable pytest_file : string -> option nat.
Notation plugins f := (match conftest_pytest_plugins plugin_assignment import_dotted f with Some fs => fs | None => [] end).

(** All that an iterator yields *)
Definition yields (current : nat) (it : iterator) : list nat :=
  (if skip_current_module it then [] else [current]) ++ plugins_left it
  ++ flat_map (fun c => c :: plugins c) (match parent it with Some levels => outer_conftests current levels | None => [] end) ++ files_of pytest_file (modules_left it).

Lemma search_spec : forall current levels, match search_conftest current levels with
  | Some (f, outer) => outer_conftests current levels = f :: outer_conftests current (match outer with Some o => o | None => [] end)
  | None => outer_conftests current levels = [] end.
Proof.
  intros current levels. induction levels as [|found levels IH]; [reflexivity|]. cbn [search_conftest outer_conftests flat_map]. fold (outer_conftests current levels). destruct found as [f|]; [destruct (f =? current)|]; destruct levels as [|l levels]; cbn [app] in *; try reflexivity; exact IH.
Qed.
Lemma next_module_spec : forall ms, match next_module pytest_file ms with Some (f, ms') => files_of pytest_file ms = f :: files_of pytest_file ms' | None => files_of pytest_file ms = [] end.
Proof. induction ms as [|m ms IH]; [reflexivity|]. cbn. destruct (pytest_file m) as [f|]; [reflexivity|]. exact IH. Qed.

Lemma next_spec : forall current it, match next plugin_assignment import_dotted pytest_file current it with
  | Some (f, it') => yields current it = f :: yields current it' | None => yields current it = [] end.
Proof.
  intros current [skip par ms ps]. unfold next, yields. cbn [skip_current_module plugins_left parent modules_left]. destruct skip; cbn [negb app]; [|reflexivity]. destruct ps as [|p ps]; [|reflexivity]. cbn [app].
  assert (P : match next_module pytest_file ms with Some (f, ms') => Some (f, mk_iterator true None ms' []) | None => None end = None /\ files_of pytest_file ms = [] \/
    exists f ms', match next_module pytest_file ms with Some (f, ms') => Some (f, mk_iterator true None ms' []) | None => None end = Some (f, mk_iterator true None ms' []) /\ files_of pytest_file ms = f :: files_of pytest_file ms').
  { pose proof (next_module_spec ms) as H. destruct (next_module pytest_file ms) as [[f ms']|]; [right; exists f, ms'; auto|left; auto]. }
  destruct par as [levels|].
  - pose proof (search_spec current levels) as H. destruct (search_conftest current levels) as [[f outer]|].
    + cbn [skip_current_module plugins_left parent modules_left app]. rewrite H. cbn [flat_map app]. f_equal. rewrite <- !app_assoc. f_equal. destruct outer; reflexivity.
    + rewrite H. destruct P as [[-> ->]|(f & ms' & -> & ->)]; reflexivity.
  - destruct P as [[-> ->]|(f & ms' & -> & ->)]; reflexivity.
Qed.
Lemma find_map_spec : forall current n fuel it, length (yields current it) < fuel ->
  find_map bindings plugin_assignment import_dotted pytest_file current n fuel it = Found (first (fixture_in bindings n) (yields current it)).
Proof.
  intros current n fuel. induction fuel as [|fuel IH]; intros it H; [lia|]. cbn [find_map]. pose proof (next_spec current it) as Hn. destruct (next plugin_assignment import_dotted pytest_file current it) as [[f it']|]; rewrite Hn in *; [|reflexivity].
  cbn [first length] in *. destruct (fixture_in bindings n f); cbn [orelse]; [reflexivity|]. apply IH. lia.
Qed.
End Code.

(** ** pytest *)
Lemma last_of_app : forall {A} (a b : list A), last_of (a ++ b) = orelse (last_of b) (last_of a).
Proof.
  intros A a b. destruct b as [|y b]; [rewrite app_nil_r; reflexivity|]. assert (H : forall x, last_of (x :: y :: b) = last_of (y :: b)) by reflexivity.
  assert (N : exists z, last_of (y :: b) = Some z) by (clear; revert y; induction b as [|z b IH]; intros y; [exists y; reflexivity|exact (IH z)]). destruct N as [z N]. rewrite N. cbn [orelse].
  induction a as [|x a IH]; [exact N|]. cbn [app]. destruct a as [|x' a]; [cbn [app]; rewrite H; exact N|]. cbn [app] in *. exact IH.
Qed.
Lemma register_all_spec : forall l, register_all l = filter (fun g => negb (has_location g)) l ++ filter has_location l.
Proof.
  intros l. unfold register_all. assert (G : forall l acc, fold_left register l (filter (fun g => negb (has_location g)) acc ++ filter has_location acc) = filter (fun g => negb (has_location g)) (acc ++ l) ++ filter has_location (acc ++ l)).
  { clear l. induction l as [|f l IH]; intros acc; [rewrite app_nil_r; reflexivity|]. cbn [fold_left]. replace (acc ++ f :: l) with ((acc ++ [f]) ++ l) by (rewrite <- app_assoc; reflexivity). rewrite <- (IH (acc ++ [f])). f_equal.
    assert (F1 : forall a, filter (fun g => negb (has_location g)) (filter (fun g => negb (has_location g)) a) = filter (fun g => negb (has_location g)) a) by (induction a as [|x a IHa]; [reflexivity|]; cbn; destruct (has_location x) eqn:E; cbn; [exact IHa|rewrite E; cbn; f_equal; exact IHa]).
    assert (F2 : forall a, filter has_location (filter has_location a) = filter has_location a) by (induction a as [|x a IHa]; [reflexivity|]; cbn; destruct (has_location x) eqn:E; cbn; [rewrite E; f_equal; exact IHa|exact IHa]).
    assert (F3 : forall a, filter has_location (filter (fun g => negb (has_location g)) a) = []) by (induction a as [|x a IHa]; [reflexivity|]; cbn; destruct (has_location x) eqn:E; cbn; [exact IHa|rewrite E; exact IHa]).
    assert (F4 : forall a, filter (fun g => negb (has_location g)) (filter has_location a) = []) by (induction a as [|x a IHa]; [reflexivity|]; cbn; destruct (has_location x) eqn:E; cbn; [rewrite E; exact IHa|exact IHa]).
    unfold register. rewrite !filter_app, F1, F2, F3, F4. cbn [filter]. destruct (has_location f); cbn [negb app]; rewrite ?app_nil_r, <- ?app_assoc; reflexivity. }
  exact (G l []).
Qed.

Section Spec.
Variable s : session.
Variable n : string.
Notation g := (fun f => gives (names_of s f) n).
Lemma last_from : forall b l, option_map function (last_of (flat_map (from (names_of s) n b) l)) = first g (rev l).
Proof.
  intros b l. induction l as [|f l IH]; [reflexivity|]. cbn [flat_map rev]. rewrite last_of_app, first_app, <- IH. destruct (last_of (flat_map (from (names_of s) n b) l)) as [x|]; [reflexivity|]. cbn [orelse option_map first]. unfold from. destruct (gives (names_of s f) n); reflexivity.
Qed.
Lemma from_filter : forall b l, filter has_location (flat_map (from (names_of s) n b) l) = (if b then flat_map (from (names_of s) n b) l else []) /\
  filter (fun g => negb (has_location g)) (flat_map (from (names_of s) n b) l) = (if b then [] else flat_map (from (names_of s) n b) l).
Proof.
  intros b l. induction l as [|f l [IH1 IH2]]; [destruct b; auto|]. cbn [flat_map]. rewrite !filter_app, IH1, IH2. unfold from at 1 3 5 7. destruct (gives (names_of s f) n), b; auto.
Qed.
Definition plugin_files : list nat := builtin s ++ flat_map (plugins_of s) (conftests s).
Definition outer_fixtures : list fixture := flat_map (from (names_of s) n false) plugin_files ++ flat_map (from (names_of s) n true) (conftests s).
Lemma registered : register_all (candidates s n) = outer_fixtures ++ flat_map (from (names_of s) n true) (module s) ++ match class_fixture s with Some f => [mk_fixture f true] | None => [] end.
Proof.
  rewrite register_all_spec. unfold candidates, outer_fixtures, plugin_files. rewrite !filter_app. destruct (from_filter false (builtin s)) as [-> ->]. destruct (from_filter true (module s)) as [-> ->].
  assert (C : forall cs, filter has_location (flat_map (fun c => from (names_of s) n true c ++ flat_map (from (names_of s) n false) (plugins_of s c)) cs) = flat_map (from (names_of s) n true) cs /\
    filter (fun g => negb (has_location g)) (flat_map (fun c => from (names_of s) n true c ++ flat_map (from (names_of s) n false) (plugins_of s c)) cs) = flat_map (from (names_of s) n false) (flat_map (plugins_of s) cs)).
  { induction cs as [|c cs [IH1 IH2]]; [auto|]. cbn [flat_map]. rewrite !filter_app, IH1, IH2, flat_map_app. destruct (from_filter false (plugins_of s c)) as [-> ->]. destruct (from_filter true [c]) as [E1 E2]. cbn [flat_map] in E1, E2. rewrite app_nil_r in E1, E2. rewrite E1, E2, app_nil_r. auto. }
  destruct (C (conftests s)) as [-> ->]. rewrite flat_map_app. destruct (class_fixture s); cbn [filter negb has_location app]; rewrite ?app_nil_r, <- ?app_assoc; reflexivity.
Qed.
Lemma last_outer : option_map function (last_of outer_fixtures) = orelse (first g (rev (conftests s))) (first g (rev plugin_files)).
Proof.
  unfold outer_fixtures. rewrite last_of_app, <- (last_from true), <- (last_from false). destruct (last_of (flat_map (from (names_of s) n true) (conftests s))); reflexivity.
Qed.
Lemma used_spec : used s n = orelse (class_fixture s) (orelse (first g (rev (module s))) (orelse (first g (rev (conftests s))) (first g (rev plugin_files)))).
Proof.
  unfold used. rewrite registered, !last_of_app. rewrite <- last_outer, <- (last_from true (module s)). destruct (class_fixture s); cbn [last_of orelse option_map function]; [reflexivity|]. destruct (last_of (flat_map (from (names_of s) n true) (module s))); reflexivity.
Qed.
Lemma used_instead_spec : forall m x, module s = [m] -> class_fixture s = None -> g m = Some x -> used_instead s n = orelse (first g (rev (conftests s))) (first g (rev plugin_files)).
Proof.
  intros m x Em Ec Ex. unfold used_instead. rewrite registered, Em, Ec. cbn [flat_map]. rewrite !app_nil_r. unfold from at 1. rewrite Ex. rewrite removelast_last. exact last_outer.
Qed.
End Spec.

(** ** Together *)
Lemma fixture_plain : forall ds, (forall d, In d ds -> defined_in d = Some "_pytest.fixtures" -> says_fixture d = true) ->
  is_fixture ds = existsb (fun d => match defined_in d with Some m => String.eqb m "_pytest.fixtures" | None => false end) ds.
Proof.
  intros ds H. unfold is_fixture. induction ds as [|d ds IH]; [reflexivity|]. cbn. rewrite IH; [|intros e He; apply H; right; exact He]. f_equal. destruct (defined_in d) as [m|] eqn:E; [|apply andb_false_r]. destruct (String.eqb_spec m "_pytest.fixtures") as [->|_]; [|apply andb_false_r]. rewrite (H d (or_introl eq_refl) E). reflexivity.
Qed.
Lemma gives_plain : forall bindings n f, plain (bindings f) -> fixture_in bindings n f = gives (bindings f) n.
Proof.
  intros bindings n f [N H]. unfold fixture_in, gives. induction (bindings f) as [|b bs IH]; [reflexivity|]. cbn [find]. destruct (H b (or_introl eq_refl)) as [Hg Hd]. cbn [map] in N. apply NoDup_cons_iff in N as [Nb N].
  assert (IH' := IH N (fun b' Hb' => H b' (or_intror Hb'))). clear IH. unfold is_given at 1, known_as. rewrite Hg. destruct (String.eqb_spec (b_name b) n) as [En|Nn]; cbn [andb]; [|exact IH'].
  rewrite (fixture_plain _ Hd). assert (Z : find (is_given n) bs = None).
  { destruct (find (is_given n) bs) as [c|] eqn:Ec; [|reflexivity]. exfalso. apply find_some in Ec as [Hc Ec]. unfold is_given, known_as in Ec. destruct (H c (or_intror Hc)) as [Hgc _]. rewrite Hgc in Ec. rewrite !andb_true_iff in Ec. destruct Ec as [[Ec _] _]. apply String.eqb_eq in Ec.
    apply Nb. rewrite En, <- Ec. apply in_map. exact Hc. }
  destruct (b_function b) as [x|] eqn:Eb; cbn [andb]; [|rewrite Z; reflexivity]. destruct (existsb _ (b_decorators b)); cbn [andb]; [rewrite Eb; reflexivity|rewrite Z; reflexivity].
Qed.
Lemma first_ext : forall {A} (g h : nat -> option A) l, (forall f, g f = h f) -> first g l = first h l.
Proof. intros A g h l H. induction l as [|f l IH]; [reflexivity|]. cbn. rewrite H, IH. reflexivity. Qed.

(** Conftests with their plugins, from the innermost *)
Lemma with_plugins : forall {A} (g : nat -> option A) pl cs,
  (forall p p' a b, In p (flat_map pl cs) -> In p' (flat_map pl cs) -> g p = Some a -> g p' = Some b -> a = b) ->
  (forall inner c outer p x, cs = inner ++ c :: outer -> In p (pl c) -> g p = Some x -> forall c', In c' outer -> g c' = None) ->
  first g (flat_map (fun c => c :: pl c) cs) = orelse (first g cs) (first g (flat_map pl cs)).
Proof.
  intros A g pl cs. induction cs as [|c cs IH]; intros U H; [reflexivity|]. cbn [flat_map first app]. rewrite !first_app. destruct (g c) as [x|]; cbn [orelse]; [reflexivity|].
  rewrite IH; [|intros p p' a b Hp Hp'; apply U; apply in_or_app; right; assumption|intros inner c' outer p x E; apply (H (c :: inner) c' outer p x); rewrite E; reflexivity].
  destruct (first g (pl c)) as [y|] eqn:E; cbn [orelse]; [|reflexivity]. apply first_some in E as (p & Hp & Ep). assert (Z : first g cs = None) by (apply first_none; exact (H [] c cs p y eq_refl Hp Ep)). rewrite Z. reflexivity.
Qed.

Section Together.
Variable p : project.
Variable current : nat.
Variable levels : list (option nat).
Variable n : string.
Hypothesis C : clear p current levels n.
Notation g := (fun f => gives (bindings p f) n).

Lemma code_plugins : forall c, In c (outer_conftests current levels) -> match conftest_pytest_plugins (plugin_assignment p) (import_dotted p) c with Some fs => fs | None => [] end = plugins p c.
Proof.
  intros c Hc. unfold conftest_pytest_plugins, plugins, plugins_in. pose proof (clear_string _ _ _ _ C c) as Hs.
  assert (F : forall items, flat_map (fun item => match item with StringItem s => match import_dotted p s with Some f => [f] | None => [] end | OtherItem => [] end) items =
    flat_map (fun s => match import_dotted p s with Some f => [f] | None => [] end) (flat_map (fun i => match i with StringItem s => [s] | OtherItem => [] end) items)).
  { induction items as [|i items IH]; [reflexivity|]. cbn [flat_map]. rewrite flat_map_app, IH. destruct i; cbn [flat_map]; rewrite ?app_nil_r; reflexivity. }
  destruct (plugin_assignment p c) as [[items|items|items|s|]|]; try exact (F items); try reflexivity. destruct (Hs s Hc eq_refl).
Qed.
Lemma builtin_same : first g (files_of (pytest_file p) pytest_fixture_modules) = first g (rev (files_of (pytest_file p) modules_with_fixtures)).
Proof.
  apply first_unique.
  - intros f f' a b Hf Hf'. apply in_rev in Hf, Hf'. exact (clear_builtin _ _ _ _ C f f' a b Hf Hf').
  - intros f Hf. apply -> in_rev. unfold files_of in *. apply in_flat_map in Hf as (m & Hm & Hf). apply in_flat_map. exists m. split; [|exact Hf]. cbn in Hm |- *. tauto.
  - intros f Hf. apply in_rev in Hf. unfold files_of in *. apply in_flat_map in Hf as (m & Hm & Hf). destruct (in_dec string_dec m pytest_fixture_modules) as [I1|I1]; [left; apply in_flat_map; exists m; auto|right].
    destruct (pytest_file p m) as [f'|] eqn:E; [|destruct Hf]. destruct Hf as [<-|[]]. exact (clear_module _ _ _ _ C m f' Hm I1 E).
Qed.
Lemma outer_same : first g (flat_map (fun c => c :: match conftest_pytest_plugins (plugin_assignment p) (import_dotted p) c with Some fs => fs | None => [] end) (outer_conftests current levels) ++ files_of (pytest_file p) pytest_fixture_modules) =
  orelse (first g (rev (rev (outer_conftests current levels)))) (first g (rev (files_of (pytest_file p) modules_with_fixtures ++ flat_map (plugins p) (rev (outer_conftests current levels))))).
Proof.
  rewrite first_app, rev_involutive, rev_app_distr, first_app, builtin_same.
  assert (E : flat_map (fun c => c :: match conftest_pytest_plugins (plugin_assignment p) (import_dotted p) c with Some fs => fs | None => [] end) (outer_conftests current levels) = flat_map (fun c => c :: plugins p c) (outer_conftests current levels)).
  { generalize code_plugins. generalize (outer_conftests current levels). intros l H. induction l as [|c l IH]; [reflexivity|]. cbn [flat_map]. rewrite IH, (H c (or_introl eq_refl)); [reflexivity|]. intros c' Hc'. apply H. right. exact Hc'. }
  rewrite E, (with_plugins g (plugins p)); [|exact (clear_plugin _ _ _ _ C)|exact (clear_outer _ _ _ _ C)].
  assert (R : first g (flat_map (plugins p) (outer_conftests current levels)) = first g (rev (flat_map (plugins p) (rev (outer_conftests current levels))))).
  { assert (Same : forall f, In f (rev (flat_map (plugins p) (rev (outer_conftests current levels)))) <-> In f (flat_map (plugins p) (outer_conftests current levels))).
    { intros f. rewrite <- in_rev, !in_flat_map. split; intros (c & Hc & Hf); exists c; (split; [|exact Hf]); [apply in_rev; exact Hc|apply -> in_rev; exact Hc]. }
    apply first_unique; [intros f f' a b Hf Hf'; apply Same in Hf, Hf'; exact (clear_plugin _ _ _ _ C f f' a b Hf Hf')|intros f Hf; apply Same; exact Hf|intros f Hf; left; apply Same; exact Hf]. }
  rewrite R. destruct (first g (outer_conftests current levels)); reflexivity.
Qed.

Theorem search_test : forall func scope ds, is_pytest_fixture_or_test func scope ds = true -> n <> func ->
  exists enough, forall fuel, enough <= fuel -> search p true current levels n func scope ds fuel = Found (used (session_of p current levels None) n).
Proof.
  intros func scope ds Ht Nf. set (it := mk_iterator false (Some levels) pytest_fixture_modules []). exists (S (length (yields (plugin_assignment p) (import_dotted p) (pytest_file p) current it))). intros fuel Hf.
  unfold search, find_pytest_fixture_for_param. rewrite Ht. cbn [negb]. destruct (String.eqb_spec n func) as [E|_]; [destruct (Nf E)|]. fold it. rewrite find_map_spec; [|lia]. f_equal.
  rewrite (first_ext _ g _ (fun f => gives_plain (bindings p) n f (clear_plain _ _ _ _ C f))). rewrite used_spec. cbn [session_of class_fixture module conftests plugin_files builtin plugins_of names_of rev app first orelse]. unfold plugin_files. cbn [builtin plugins_of conftests session_of].
  rewrite <- outer_same. unfold yields, it. cbn [skip_current_module plugins_left parent modules_left app first orelse]. destruct (gives (bindings p current) n); reflexivity.
Qed.
Theorem search_override : forall scope ds x, is_fixture ds = true -> gives (bindings p current) n = Some x ->
  exists enough, forall fuel, enough <= fuel -> search p true current levels n n scope ds fuel = Found (used_instead (session_of p current levels None) n).
Proof.
  intros scope ds x Ht Hx. set (it := mk_iterator true (Some levels) pytest_fixture_modules []). exists (S (length (yields (plugin_assignment p) (import_dotted p) (pytest_file p) current it))). intros fuel Hf.
  unfold search, find_pytest_fixture_for_param, is_pytest_fixture_or_test. rewrite Ht, orb_true_r. cbn [negb]. rewrite String.eqb_refl. fold it. rewrite find_map_spec; [|lia]. f_equal.
  rewrite (first_ext _ g _ (fun f => gives_plain (bindings p) n f (clear_plain _ _ _ _ C f))). rewrite (used_instead_spec (session_of p current levels None) n current x eq_refl eq_refl Hx). unfold plugin_files. cbn [conftests builtin plugins_of session_of names_of].
  rewrite <- outer_same. reflexivity.
Qed.
End Together.
