(** C77: renaming changes exactly the names that mean the thing under the cursor. *)
From Coq Require Import Ascii String.
From Coq Require Import List Bool NArith Arith Lia PeanoNat.
From Verif Require Import RenameModel RenameSpec Rename.
Import ListNotations.
Open Scope string_scope.
Open Scope list_scope.
Open Scope nat_scope.

(** When goto is right, all names of the thing are renamed and no other; the files that are renamed are the modules among the definitions. *)
Theorem C77_renames_partial : forall p means thing, right p means thing -> forall o new, occurs p o -> o_text o <> new ->
  exists changes fs d rest, rename p o new = Some (changes, fs) /\ leads_to p o = d :: rest /\
    (forall x, renamed changes x <-> occurs p x /\ o_text x = o_text o /\ means x = means o) /\
    (forall f, In f fs <-> In (ModuleName f) (all_definitions p d)).
Proof. intros p means thing R o new. exact (renames_right p means thing R o new). Qed.

(** A file gets one list of edits with a name of its own at most once, whatever goto says. *)
Theorem C77_once : forall p, (forall f o, In o (names p f) -> o_file o = f) -> (forall f, NoDup (map o_start (names p f))) -> NoDup (files p) ->
  forall o new changes fs, rename p o new = Some (changes, fs) ->
  (forall d, In d (leads_to p o) -> NoDup (map to_unique_position (all_definitions p d))) ->
  NoDup (map fst changes) /\ forall file os, In (file, os) changes -> os <> [] /\ Forall (fun x => o_file x = file) os /\ NoDup (map o_start os).
Proof. intros p H1 H2 H3. exact (renamed_once p H1 H2 H3). Qed.

(** Nothing changes for the same name, and the client gets an error exactly for another one for a name that leads nowhere and defines nothing. *)
Theorem C77_same : forall p o, rename p o (o_text o) = Some ([], []).
Proof. intros p o. unfold rename, references_for_rename. destruct (text_eqb (o_text o) (o_text o)) eqn:T; [reflexivity|]. pose proof (proj2 (text_eqb_iff (o_text o) (o_text o)) eq_refl). congruence. Qed.
Theorem C77_unknown : forall p o new, rename p o new = None <-> o_text o <> new /\ leads_to p o = [] /\ o_defines o = false.
Proof.
  intros p o new. unfold rename, references_for_rename. destruct (text_eqb (o_text o) new) eqn:T; [apply text_eqb_iff in T; split; [discriminate|intros [H _]; destruct (H T)]|].
  assert (Ne : o_text o <> new) by (intros H; apply text_eqb_iff in H; congruence). fold (find p OnlyTypeCheckedWorkspaces true o).
  assert (H : find p OnlyTypeCheckedWorkspaces true o = [] <-> leads_to p o = [] /\ o_defines o = false).
  { unfold find, references. destruct (leads_to p o) as [|d rest].
    - cbn. destruct (o_defines o); split; try discriminate; try (intros [_ H]; discriminate H); auto.
    - rewrite first_only. cbn [definitions definition_results]. unfold all_definitions, with_others. split; [|intros [H _]; discriminate H]. intros H. apply app_eq_nil in H as [H _]. apply app_eq_nil in H as [_ H]. discriminate H. }
  destruct (find p OnlyTypeCheckedWorkspaces true o); [split; [intros _; tauto|reflexivity]|]. split; [discriminate|]. intros (_ & X). apply H in X. discriminate X.
Qed.

(** A definition that goto leads nowhere from is renamed with the names in its file that lead to it. *)
Theorem C77_only_definition : forall p o new, leads_to p o = [] -> o_defines o = true -> o_text o <> new ->
  exists changes, rename p o new = Some (changes, []) /\
    forall x, renamed changes x <-> x = o \/ In x (names p (o_file o)) /\ o_text x = o_text o /\ In (to_unique_position (TreeName o)) (map to_unique_position (leads_to p x)) /\ (o_file x, o_start x) <> (o_file o, o_start o).
Proof.
  intros p o new El Ed Ne. unfold rename, references_for_rename. destruct (text_eqb (o_text o) new) eqn:T; [apply text_eqb_iff in T; destruct (Ne T)|]. fold (find p OnlyTypeCheckedWorkspaces true o).
  set (refs := find_references_in_file (leads_to p) (names p) [to_unique_position (TreeName o)] (o_text o) (o_file o)).
  assert (Ef : find p OnlyTypeCheckedWorkspaces true o = TreeName o :: map TreeName refs) by (unfold find, references; rewrite El; cbn [fold_left definitions]; rewrite Ed; reflexivity).
  rewrite Ef. destruct (add_changes (TreeName o :: map TreeName refs) [] [] []) as [G Es]; [split; [constructor|]; split; [intros ? ? []|intros ? []]|].
  exists (fst (fold_left add_change (TreeName o :: map TreeName refs) ([], []))). split.
  - f_equal. rewrite (surjective_pairing (fold_left add_change (TreeName o :: map TreeName refs) ([], []))) at 1. f_equal. rewrite Es. cbn. clear. induction refs; [reflexivity|exact IHrefs].
  - intros x. cbn [app] in G. rewrite (grouped_renamed _ _ x G), in_trees. cbn [In]. rewrite in_map_iff. split.
    + intros [H|(y & X & H)]; [left; congruence|]. injection X as ->. apply in_file in H as (H1 & H2 & (d & H3 & H4) & H5). right. split; [exact H1|]. split; [exact H2|]. split.
      * destruct H4 as [H4|[]]. apply in_map_iff. exists d. auto.
      * intros X. apply H5. left. symmetry. exact X.
    + intros [->|(H1 & H2 & H3 & H4)]; [left; reflexivity|right]. exists x. split; [reflexivity|]. apply in_file. split; [exact H1|]. split; [exact H2|]. split.
      * apply in_map_iff in H3 as (d & H3 & H5). exists d. split; [exact H5|]. left. auto.
      * intros [H|[]]. apply H4. symmetry. exact H.
Qed.

(** Without the declarations exactly these are missing; the others lead to one of them. *)
Theorem C77_declarations : forall p g o d rest, leads_to p o = d :: rest -> exists declarations uses,
  find p g false o = map TreeName uses /\ find p g true o = declarations ++ map TreeName uses /\
  incl declarations (all_definitions p d) /\ (g <> OnlyCurrentFile -> declarations = all_definitions p d) /\
  forall x, In x uses -> o_text x = o_text o /\ (exists e, In e (leads_to p x) /\ In (to_unique_position e) (map to_unique_position (d :: all_definitions p d))) /\ ~ In (TreeName x) (all_definitions p d).
Proof.
  intros p g o d rest E. unfold find, references. rewrite E, !first_only. cbn [definitions definition_results is_globally_reachable kept andb].
  set (uses := if negb (globally_reachable d) then _ else _).
  exists (match stub_or_module p d with Some x => kept p g true (o_file o) x | None => [] end ++ kept p g true (o_file o) d), uses.
  split; [unfold kept; destruct (stub_or_module p d); reflexivity|]. split; [reflexivity|]. split; [|split].
  - unfold all_definitions, kept. intros x H. apply in_or_app. apply in_app_or in H as [H|H]; [left|right].
    + destruct (stub_or_module p d) as [c|]; [|exact H]. destruct (_ && _); [exact H|destruct H].
    + destruct (_ && _); [exact H|destruct H].
  - intros Hg. unfold kept, all_definitions. destruct g; [destruct (Hg eq_refl)| |]; reflexivity.
  - intros x Hx. assert (H : o_text x = o_text o /\ (exists e, In e (leads_to p x) /\ In (to_unique_position e) (to_unique_position d :: map to_unique_position (all_definitions p d))) /\ ~ In (to_unique_position (TreeName x)) (to_unique_position d :: map to_unique_position (all_definitions p d))).
    { unfold uses in Hx. destruct (negb (globally_reachable d)); [apply in_file in Hx; apply Hx|]. destruct g; [apply in_file in Hx; apply Hx|apply in_files in Hx as (f & Hx); split; apply Hx|apply in_files in Hx as (f & Hx); split; apply Hx]. }
    destruct H as (H1 & H2 & H3). split; [exact H1|]. split; [exact H2|]. intros X. apply H3. right. apply in_map. exact X.
Qed.

(** All that is found for one file is in that file. *)
Theorem C77_file : forall p o b x d rest, (forall f o', In o' (names p f) -> o_file o' = f) -> (forall o' x, In x (also_defined p o') -> o_file x = o_file o') ->
  leads_to p o = d :: rest -> In (TreeName x) (find p OnlyCurrentFile b o) -> o_file x = o_file o.
Proof.
  intros p o b x d rest Hn Ho El H. unfold find, references in H. rewrite El, first_only in H. cbn [definitions definition_results is_globally_reachable] in H.
  assert (K : forall n, In (TreeName x) (kept p OnlyCurrentFile b (o_file o) n) -> o_file x = o_file o).
  { intros n Hk. unfold kept in Hk. destruct b; [|destruct Hk]. cbn [andb] in Hk. destruct (name_file n =? o_file o) eqn:E; [|destruct Hk]. apply Nat.eqb_eq in E. destruct n as [y|f]; cbn in Hk, E.
    - destruct Hk as [Hk|Hk]; [injection Hk as <-; exact E|]. apply in_map_iff in Hk as (z & X & Hz). injection X as ->. rewrite (Ho y x Hz). exact E.
    - destruct Hk as [Hk|[]]. discriminate Hk. }
  apply in_app_or in H as [H|H].
  - apply in_app_or in H as [H|H]; [|exact (K d H)]. destruct (stub_or_module p d) as [c|]; [exact (K c H)|destruct H].
  - apply in_map_iff in H as (y & X & H). injection X as ->. assert (Hx : In x (names p (o_file o))) by (destruct (negb (globally_reachable d)); apply in_file in H; apply H). exact (Hn _ _ Hx).
Qed.

(** A module that is a file gets the new name with its ending. *)
Theorem C77_uri_partial : forall dir c stem ext new, c <> slash -> stem <> [] -> ~ In slash stem -> ~ In slash ext -> ~ In dot ext -> stem <> init ->
  to_uri ((dir ++ [c]) ++ [slash] ++ stem ++ [dot] ++ ext) new = Some ((dir ++ [c]) ++ [slash] ++ new ++ [dot] ++ ext).
Proof. exact uri_right. Qed.

(** ** Cases *)
Definition t (s : string) : text := map N_of_ascii (list_ascii_of_string s).
Definition project_of (entries : list (occurrence * list name)) (fs : list nat) : project :=
  mk_project (fun o => match List.find (fun e => position_eqb (o_file (fst e), o_start (fst e)) (o_file o, o_start o)) entries with Some e => snd e | None => [] end)
    (fun _ => None) (fun _ => []) (fun f => filter (fun o => o_file o =? f) (map fst entries)) fs fs
    (fun f s => existsb (fun e => (o_file (fst e) =? f) && text_eqb (o_text (fst e)) s) entries).

(** m.py: [def f(): ...] and [def g(f): return f]; n.py: [from m import f] and [f()] *)
Definition f1 := mk_occurrence 0 4 (t "f") Module true.
Definition f2 := mk_occurrence 0 30 (t "f") (Function Module) true.
Definition f3 := mk_occurrence 0 41 (t "f") (Function Module) false.
Definition f4 := mk_occurrence 1 14 (t "f") Module true.
Definition f5 := mk_occurrence 1 16 (t "f") Module false.
Definition two_files := project_of [(f1, [TreeName f1]); (f2, [TreeName f2]); (f3, [TreeName f2]); (f4, [TreeName f1]); (f5, [TreeName f1])] [0; 1].
Definition two_means (o : occurrence) : nat := if (o_file o =? 0) && (10 <? o_start o) then 1 else 0.
Definition two_thing (n : name) : nat := match n with TreeName o => two_means o | ModuleName _ => 2 end.

Lemma two_occurs : forall o, occurs two_files o -> In o [f1; f2; f3; f4; f5].
Proof. intros o (f & [<-|[<-|[]]] & H); cbn in H; cbn; tauto. Qed.
Lemma occurs_two : forall o, In o [f1; f2; f3; f4; f5] -> occurs two_files o.
Proof. intros o [<-|[<-|[<-|[<-|[<-|[]]]]]]; [exists 0|exists 0|exists 0|exists 1|exists 1]; cbn; tauto. Qed.
Ltac each H := apply two_occurs in H; destruct H as [<-|[<-|[<-|[<-|[<-|[]]]]]].
Example C77_right_case : right two_files two_means two_thing.
Proof.
  constructor.
  - intros f o H. assert (Hf : o_file o = f /\ In o [f1; f2; f3; f4; f5]) by (apply filter_In in H as [H1 H2]; apply Nat.eqb_eq in H2; split; [exact H2|exact H1]). destruct Hf as [<- Hf]. split; [reflexivity|]. destruct Hf as [<-|[<-|[<-|[<-|[<-|[]]]]]]; vm_compute; reflexivity.
  - intros o d Ho Hd. each Ho; (destruct Hd as [<-|[]]; reflexivity).
  - intros o d Ho Hd. each Ho; (destruct Hd as [Hd|[]]; injection Hd as <-; (split; [apply occurs_two; cbn; tauto|reflexivity])).
  - intros o d x Ho Hd Hx. each Ho; (destruct Hd as [<-|[]]; destruct Hx as [<-|[]]; reflexivity).
  - reflexivity.
  - intros o o' Ho Ho' E. each Ho; each Ho'; try discriminate E; (do 2 eexists; exists []; split; [left; reflexivity|]; split; [reflexivity|left; reflexivity]).
  - intros o o' d x Ho Ho' Hd Hx E. each Ho; each Ho'; (destruct Hd as [<-|[]]; destruct Hx as [<-|[]]; first [reflexivity|discriminate E]).
  - intros o o' x Ho Ho' Hx E. each Ho; each Ho'; (destruct Hx as [<-|[]]; first [reflexivity|discriminate E]).
  - intros o o' d rest Ho Ho' E H M. each Ho; injection E as <- <-; try (inversion H; fail); each Ho'; first [reflexivity|discriminate M].
Qed.
Example C77_renames_case : rename two_files f5 (t "h") = Some ([(0, [f1]); (1, [f4; f5])], []) /\ rename two_files f2 (t "h") = Some ([(0, [f2; f3])], []).
Proof. split; vm_compute; reflexivity. Qed.
Example C77_once_case : (forall f o, In o (names two_files f) -> o_file o = f) /\ (forall f, NoDup (map o_start (names two_files f))) /\ NoDup (files two_files).
Proof.
  split; [intros f o H; apply filter_In in H as [_ H]; apply Nat.eqb_eq; exact H|]. split.
  - intros [|[|f]]; cbn; repeat (apply NoDup_cons; [cbn; lia|]); apply NoDup_nil.
  - cbn. repeat (apply NoDup_cons; [cbn; lia|]); apply NoDup_nil.
Qed.
Example C77_unknown_case : let o := mk_occurrence 0 0 (t "x") Module false in rename (project_of [(o, [])] [0]) o (t "y") = None.
Proof. vm_compute. reflexivity. Qed.
Example C77_only_definition_case : let o := mk_occurrence 0 0 (t "x") Module true in let u := mk_occurrence 0 9 (t "x") Module false in
  rename (project_of [(o, []); (u, [TreeName o])] [0]) o (t "y") = Some ([(0, [o; u])], []).
Proof. vm_compute. reflexivity. Qed.
Example C77_declarations_case : find two_files AllFilesIncludingDependencies false f5 = [TreeName f4; TreeName f5] /\ find two_files OnlyCurrentFile true f5 = [TreeName f4; TreeName f5] /\ find two_files OnlyCurrentFile true f1 = [TreeName f1].
Proof. split; [|split]; vm_compute; reflexivity. Qed.
Example C77_uri_case : to_uri (t "file:///p/m.py") (t "q") = Some (t "file:///p/q.py").
Proof. vm_compute. reflexivity. Qed.

(** ** What goes wrong *)
(** A package is not renamed to a package: the slash is behind [__init__]. *)
Theorem C77_package_refuted : to_uri (t "file:///p/pkg/__init__.py") (t "q") = Some (t "file:///p/q__init__/.py") /\ t "file:///p/q__init__/.py" <> t "file:///p/q/__init__.py".
Proof. split; [vm_compute; reflexivity|vm_compute; discriminate]. Qed.

(** [x.v] with [x: A | B]: only the attribute of the first class is renamed. *)
Theorem C77_union_refuted : exists p o x new changes fs, occurs p o /\ occurs p x /\ In (TreeName x) (leads_to p o) /\ o_text x = o_text o /\ rename p o new = Some (changes, fs) /\ renamed changes o /\ ~ renamed changes x.
Proof.
  set (a := mk_occurrence 0 13 (t "v") (Class Module) true). set (b := mk_occurrence 0 33 (t "v") (Class Module) true). set (u := mk_occurrence 0 60 (t "v") Module false).
  exists (project_of [(a, [TreeName a]); (b, [TreeName b]); (u, [TreeName a; TreeName b])] [0]), u, b, (t "w"), [(0, [a; u])], [].
  split; [exists 0; cbn; tauto|]. split; [exists 0; cbn; tauto|]. split; [vm_compute; tauto|]. split; [reflexivity|]. split; [vm_compute; reflexivity|]. split; [exists 0, [a; u]; cbn; tauto|].
  intros (f & os & [H|[]] & Hb). injection H as <- <-. destruct Hb as [H|[H|[]]]; discriminate H.
Qed.

(** [self.x] is defined in a function, and the names in other files keep the old name. *)
Theorem C77_attribute_refuted : exists p o d new changes fs, occurs p o /\ o_text o = o_text d /\ leads_to p o = [TreeName d] /\ leads_to p d = [TreeName d] /\ rename p d new = Some (changes, fs) /\ renamed changes d /\ ~ renamed changes o.
Proof.
  set (d := mk_occurrence 0 40 (t "x") (Function (Class Module)) true). set (u := mk_occurrence 1 20 (t "x") Module false).
  exists (project_of [(d, [TreeName d]); (u, [TreeName d])] [0; 1]), u, d, (t "y"), [(0, [d])], [].
  split; [exists 1; cbn; tauto|]. do 3 (split; [vm_compute; reflexivity|]). split; [vm_compute; reflexivity|]. split; [exists 0, [d]; cbn; tauto|].
  intros (f & os & [H|[]] & Hb). injection H as <- <-. destruct Hb as [H|[]]; discriminate H.
Qed.

(** m.py that begins with [m = 1]: to rename the module also renames the names that lead to the variable, and not the variable. *)
Theorem C77_module_refuted : exists p o d x new changes fs, leads_to p o = [ModuleName 0] /\ leads_to p x = [TreeName d] /\ leads_to p d = [TreeName d] /\ rename p o new = Some (changes, fs) /\ renamed changes x /\ ~ renamed changes d.
Proof.
  set (d := mk_occurrence 0 0 (t "m") Module true). set (x := mk_occurrence 0 12 (t "m") Module false). set (o := mk_occurrence 1 7 (t "m") Module true).
  exists (project_of [(d, [TreeName d]); (x, [TreeName d]); (o, [ModuleName 0])] [0; 1]), o, d, x, (t "n"), [(0, [x]); (1, [o])], [0].
  do 3 (split; [vm_compute; reflexivity|]). split; [vm_compute; reflexivity|]. split; [exists 0, [x]; cbn; tauto|].
  intros (f & os & [H|[H|[]]] & Hb); injection H as <- <-; destruct Hb as [H|[]]; discriminate H.
Qed.

(** A definition of a dependency is edited, and not its other names there. *)
Theorem C77_dependency_refuted : exists p o d x new changes fs, ~ In (o_file d) (files p) /\ In x (names p (o_file d)) /\ leads_to p o = [TreeName d] /\ leads_to p x = [TreeName d] /\ rename p o new = Some (changes, fs) /\ renamed changes d /\ ~ renamed changes x.
Proof.
  set (d := mk_occurrence 1 4 (t "f") Module true). set (x := mk_occurrence 1 30 (t "f") Module false). set (o := mk_occurrence 0 16 (t "f") Module false).
  exists (project_of [(d, [TreeName d]); (x, [TreeName d]); (o, [TreeName d])] [0]), o, d, x, (t "g"), [(1, [d]); (0, [o])], [].
  split; [cbn; lia|]. split; [cbn; tauto|]. do 2 (split; [vm_compute; reflexivity|]). split; [vm_compute; reflexivity|]. split; [exists 1, [d]; cbn; tauto|].
  intros (f & os & [H|[H|[]]] & Hb); injection H as <- <-; destruct Hb as [H|[]]; discriminate H.
Qed.

Print Assumptions C77_renames_partial.
Print Assumptions C77_once.
Print Assumptions C77_same.
Print Assumptions C77_unknown.
Print Assumptions C77_only_definition.
Print Assumptions C77_declarations.
Print Assumptions C77_file.
Print Assumptions C77_uri_partial.
Print Assumptions C77_package_refuted.
Print Assumptions C77_union_refuted.
Print Assumptions C77_attribute_refuted.
Print Assumptions C77_module_refuted.
Print Assumptions C77_dependency_refuted.
