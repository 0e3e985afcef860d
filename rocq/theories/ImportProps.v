(** C12 and C13: the resolution of imports. *)
From Coq Require Import List Bool String Arith Lia.
From Verif Require Import ImportModel ImportSpec ImportProofs ImportPropProofs ImportChangeProofs.
Import ListNotations.
Open Scope string_scope.
Open Scope list_scope.

(** ** C12 *)

(** The result is exactly what the specification says, whatever the order of the entries is.  The marker py.typed is
    not necessary if untyped imports are followed; all callers that look at all the entries ([exact]) do not need it. *)
Theorem C12_precedence : forall t follow name exact stubs dirs,
  unique t -> (exact = true -> forall x, In x dirs -> snd x && negb follow = false) ->
  resolves (kind_at t) stubs name (map (adjust follow) dirs) (as_spec (fst (python_import t follow name exact stubs dirs))).
Proof.
  intros t follow name exact stubs dirs U E. unfold python_import. rewrite import_loop_resolve; [|exact U|exact E|reflexivity|reflexivity].
  apply (resolve_ns t follow name stubs dirs [] [] []); [intros x []|reflexivity].
Qed.
Print Assumptions C12_precedence.

(** There is no other result that the specification allows. *)
Theorem C12_deterministic : forall FS stubs name dirs r r',
  resolves FS stubs name dirs r -> resolves FS stubs name dirs r' -> r = r'.
Proof. exact resolves_det. Qed.
Print Assumptions C12_deterministic.

(** Hence the order in which the entries of directories are iterated, the way of looking them up, and everything except
    for the kinds at the paths does not matter. *)
Theorem C12_order_irrelevant : forall t t' follow name exact exact' stubs dirs,
  unique t -> unique t' -> (forall p, kind_at t p = kind_at t' p) ->
  (forall x, In x dirs -> snd x && negb follow = false) ->
  fst (python_import t follow name exact stubs dirs) = fst (python_import t' follow name exact' stubs dirs).
Proof.
  intros t t' follow name exact exact' stubs dirs U U' K E.
  assert (A := C12_precedence t follow name exact stubs dirs U (fun _ => E)).
  assert (B := C12_precedence t' follow name exact' stubs dirs U' (fun _ => E)).
  assert (Q : as_spec (fst (python_import t follow name exact stubs dirs)) = as_spec (fst (python_import t' follow name exact' stubs dirs))).
  { apply (resolves_det (kind_at t) stubs name (map (adjust follow) dirs)); [exact A|].
    clear A. revert B. generalize (as_spec (fst (python_import t' follow name exact' stubs dirs))). intros r B.
    assert (P : forall d f, package (kind_at t') name d f <-> package (kind_at t) name d f) by (intros d f; unfold package; rewrite !K; tauto).
    assert (R : forall d f, regular (kind_at t') stubs name d f <-> regular (kind_at t) stubs name d f).
    { intros d f. unfold regular, module_file. rewrite !K, P. split; (intros [X|[X Y]]; [left; exact X|right; split; [exact X|]]); intros g G; apply (Y g), P; exact G. }
    assert (M : forall d, has_marker (kind_at t') name d <-> has_marker (kind_at t) name d) by (intros d; unfold has_marker; rewrite K; tauto).
    destruct B as [b d n a f D B R0 T|b d a f D B R0 T|ns B N [pick [P1 P2]]|B N].
    - apply resolves_file with b d n a; [exact D| |apply R; exact R0|].
      + intros x Hx g G. apply (B x Hx g), R, G.
      + destruct T as [T|[T1 T2]]; [left; exact T|right; split; [apply P; exact T1|apply M; exact T2]].
    - apply resolves_untyped with b d a; [exact D| |apply R; exact R0|].
      + intros x Hx g G. apply (B x Hx g), R, G.
      + intros [T1 T2]. apply T. split; [apply P; exact T1|apply M; exact T2].
    - apply resolves_namespace; [intros x Hx g G; apply (B x Hx g), R, G|exact N|]. exists pick. split; [exact P1|].
      intros x Hx. rewrite K. apply P2. exact Hx.
    - apply resolves_nothing; [intros x Hx g G; apply (B x Hx g), R, G|]. intros x Hx. rewrite K. apply N. exact Hx. }
  destruct (fst (python_import t follow name exact stubs dirs)) as [[a|a|a]|], (fst (python_import t' follow name exact' stubs dirs)) as [[b|b|b]|];
    cbn in Q; congruence.
Qed.
Print Assumptions C12_order_irrelevant.

(** Three directories: a namespace package in the first one, everything in the second one, a module in the third one. *)
Definition tree : item := IDir
  [("a", IDir [("m", IDir [("x.py", IFile)]); ("n.pyi", IFile)]);
   ("b", IDir [("m.pyi", IFile); ("m", IDir [("__init__.py", IFile)]); ("m.py", IFile); ("n", IDir []); ("n.py", IFile)]);
   ("c", IDir [("m.py", IFile); ("k", IDir [])])].

Lemma get_in : forall n es i, get n es = Some i -> In (n, i) es.
Proof.
  intros n es i. induction es as [|[m j] es IH]; [discriminate|]. rewrite get_cons. destruct (String.eqb_spec m n) as [->|N].
  - intros E. injection E as ->. left. reflexivity.
  - intros E. right. exact (IH E).
Qed.

Lemma unique_dir : forall es, NoDup (map fst es) -> (forall n i, In (n, i) es -> unique i) -> unique (IDir es).
Proof.
  intros es N H d. destruct d as [|n d]; [exact N|]. unfold entries. cbn [at_path].
  destruct (get n es) as [i|] eqn:G; [|constructor]. exact (H n i (get_in _ _ _ G) d).
Qed.

Lemma unique_file : unique IFile.
Proof. intros [|n d]; constructor. Qed.

Lemma tree_unique : unique tree.
Proof.
  unfold tree.
  repeat (apply unique_dir; [repeat constructor; cbn; intuition discriminate|]; intros n i H;
    repeat (destruct H as [H|H]; [injection H as <- <-; try exact unique_file|]); try contradiction).
  all: repeat (apply unique_dir; [repeat constructor; cbn; intuition discriminate|]; intros n0 i0 H0;
    repeat (destruct H0 as [H0|H0]; [injection H0 as <- <-; try exact unique_file|]); try contradiction).
  all: try (apply unique_dir; [repeat constructor; cbn; intuition discriminate|]; intros n1 i1 H1;
    repeat (destruct H1 as [H1|H1]; [injection H1 as <- <-; exact unique_file|]); contradiction).
Qed.

Example C12_precedence_example :
  fst (python_import tree false "m" false true [(["a"], false); (["b"], false); (["c"], false)]) = Some (RFile ["b"; "m"; "__init__.py"]) /\
  fst (python_import tree false "m" true true [(["a"], false); (["b"], false); (["c"], false)]) = Some (RFile ["b"; "m"; "__init__.py"]) /\
  fst (python_import tree false "n" false true [(["b"], true); (["a"], false)]) = Some (RUntyped ["b"; "n.py"]) /\
  fst (python_import tree false "n" false false [(["a"], false); (["b"], false)]) = Some (RFile ["b"; "n.py"]) /\
  fst (python_import tree false "k" false true [(["a"], false); (["c"], false)]) = Some (RNamespace [["c"; "k"]]) /\
  fst (python_import tree false "z" false true [(["a"], false); (["c"], false)]) = None.
Proof. repeat split. Qed.

(** If all entries are looked at where the marker is necessary, the order of the hash map decides (no caller does this). *)
Theorem C12_exact_untyped_refuted : exists es es' : list (string * item),
  (forall x, In x es <-> In x es') /\
  fst (python_import (IDir es) false "m" true true [([], true)]) <> fst (python_import (IDir es') false "m" true true [([], true)]).
Proof.
  exists [("m.py", IFile); ("m.pyi", IFile)], [("m.pyi", IFile); ("m.py", IFile)]. split; [cbn; tauto|]. vm_compute. discriminate.
Qed.
Print Assumptions C12_exact_untyped_refuted.

(** *** Global imports *)

(** A stubs package on any of the search paths wins over everything else. *)
Theorem C12_stubs_first : forall t ws follow explicit typing parents name r,
  name <> "typing" ->
  fst (python_import t follow (append name "-stubs") false true (map (fun w => (fst w, false)) ws)) = Some r ->
  fst (global_import t ws follow explicit typing parents name) = Some r.
Proof.
  intros t ws follow explicit typing parents name r N H. unfold global_import. rewrite (proj2 (String.eqb_neq _ _) N).
  unfold import_without_stubs_first. destruct (python_import t follow (append name "-stubs") false true (map (fun w => (fst w, false)) ws)) as [[x|] g]; [exact H|discriminate].
Qed.
Print Assumptions C12_stubs_first.

(** The directory of the importing file only matters if the search paths have no such module. *)
Theorem C12_search_path_before_own_directory : forall t ws follow explicit explicit' typing parents parents' name,
  fst (python_import t follow name false true ws) <> None ->
  fst (global_import t ws follow explicit typing parents name) = fst (global_import t ws follow explicit' typing parents' name).
Proof.
  intros t ws follow explicit explicit' typing parents parents' name H. unfold global_import. destruct (name =? "typing"); [reflexivity|].
  destruct (import_without_stubs_first t ws follow (append name "-stubs")) as [[r|] g]; [reflexivity|].
  destruct (python_import t follow name false true ws) as [[r|] g']; [reflexivity|]. cbn in H. congruence.
Qed.
Print Assumptions C12_search_path_before_own_directory.

Example C12_global_example :
  let t := IDir [("w", IDir [("m.py", IFile); ("p", IDir [("q", IDir [("__init__.py", IFile); ("f.py", IFile)]); ("o.py", IFile)])]);
                 ("site", IDir [("m-stubs", IDir [("__init__.pyi", IFile)]); ("o2", IDir [])])] in
  fst (global_import t [(["w"], false); (["site"], true)] false false [] [["w"; "p"; "q"]; ["w"; "p"]] "m")
    = Some (RFile ["site"; "m-stubs"; "__init__.pyi"]) /\
  fst (global_import t [(["w"], false); (["site"], true)] false false [] [["w"; "p"; "q"]; ["w"; "p"]] "o")
    = Some (RFile ["w"; "p"; "o.py"]) /\
  fst (global_import t [(["w"], false); (["site"], true)] false true [] [["w"; "p"; "q"]; ["w"; "p"]] "o") = None.
Proof. repeat split. Qed.

(** ** C13 *)

(** If something is created, removed or replaced at one path and the result is another one, then the importing file was
    registered at that path or below, as long as ([plain]) no file or directory has the wrong kind of name.  Missing
    (see the refutations): a package or a stub file that is created next to a module file, the marker py.typed. *)
Theorem C13_changed_result_is_registered_partial : forall t t' follow name exact stubs dirs p,
  unique t -> unique t' -> changed_at p (kind_at t) (kind_at t') ->
  (forall x, In x dirs -> plain t name stubs (fst x) /\ snd x && negb follow = false) ->
  (forall f x, fst (python_import t follow name exact stubs dirs) = Some (RFile f) -> In x dirs ->
     module_file (kind_at t) stubs name (fst x) f ->
     p <> fst x ++ [name] /\ (f = source_file name (fst x) -> p <> stub_file name (fst x))) ->
  fst (python_import t follow name exact stubs dirs) <> fst (python_import t' follow name exact stubs dirs) ->
  exists w, below p w /\
    (In (Depends w) (snd (python_import t follow name exact stubs dirs)) \/
     In (Absent w) (snd (python_import t follow name exact stubs dirs)) /\ kind_at t w = None).
Proof.
  intros t t' follow name exact stubs dirs p U U' C Pl Ex N. unfold python_import in *.
  rewrite import_loop_resolve in *; try assumption; try reflexivity; try (intros _ x Hx; apply Pl; exact Hx).
  rewrite import_loop_resolve in N; try assumption; try reflexivity; try (intros _ x Hx; apply Pl; exact Hx).
  cbn [s_ns s_regs] in *.
  destruct (resolve_stable t t' follow name stubs p C dirs [] [] [] Pl Ex) as [T|E]; [exact T|contradiction].
Qed.
Print Assumptions C13_changed_result_is_registered_partial.

Definition before : item := IDir [("a", IDir []); ("b", IDir [("m.py", IFile)])].
Definition after : item := IDir [("a", IDir [("m.pyi", IFile)]); ("b", IDir [("m.py", IFile)])].

(** A stub in an earlier directory. *)
Example C13_changed_result_example :
  let dirs := [(["a"], false); (["b"], false)] in
  fst (python_import before false "m" false true dirs) = Some (RFile ["b"; "m.py"]) /\
  fst (python_import after false "m" false true dirs) = Some (RFile ["a"; "m.pyi"]) /\
  In (Absent ["a"; "m.pyi"]) (snd (python_import before false "m" false true dirs)) /\
  changed_at ["a"; "m.pyi"] (kind_at before) (kind_at after) /\
  (forall x, In x dirs -> plain before "m" true (fst x)).
Proof.
  cbn zeta. split; [reflexivity|]. split; [reflexivity|]. split; [right; left; reflexivity|]. split.
  - split; [|cbv; discriminate]. intros q B. unfold before, after, kind_at.
    destruct q as [|n1 q]; [reflexivity|]. cbn [at_path]. rewrite !get_cons.
    destruct (String.eqb_spec "a" n1) as [<-|N].
    + destruct q as [|n2 q]; [reflexivity|]. cbn [at_path]. rewrite !get_cons.
      destruct (String.eqb_spec "m.pyi" n2) as [<-|N2]; [|reflexivity]. exfalso. apply B. exists q. reflexivity.
    + reflexivity.
  - intros x [<-|[<-|[]]]; repeat split; try discriminate; intros _; discriminate.
Qed.

(** A package is created next to the module [m.py]: the import would now find the package, but nobody is registered. *)
Theorem C13_new_package_refuted : exists t t' p,
  changed_at p (kind_at t) (kind_at t') /\
  fst (python_import t false "m" false true [([], false)]) <> fst (python_import t' false "m" false true [([], false)]) /\
  forall w, below p w -> ~ In (Depends w) (snd (python_import t false "m" false true [([], false)])) /\
                         ~ In (Absent w) (snd (python_import t false "m" false true [([], false)])).
Proof.
  exists (IDir [("m.py", IFile)]), (IDir [("m", IDir [("__init__.py", IFile)]); ("m.py", IFile)]), ["m"]. split; [|split].
  - split; [|cbv; discriminate]. intros q B. unfold kind_at. destruct q as [|n1 q]; [reflexivity|]. cbn [at_path]. rewrite !get_cons.
    destruct (String.eqb_spec "m" n1) as [<-|N]; [exfalso; apply B; exists q; reflexivity|]. reflexivity.
  - vm_compute. discriminate.
  - intros w [r ->]. split; cbn; intros H; repeat destruct H as [H|H]; try contradiction; discriminate.
Qed.
Print Assumptions C13_new_package_refuted.

(** A stub file is created next to the module [m.py]. *)
Theorem C13_new_stub_refuted : exists t t' p,
  changed_at p (kind_at t) (kind_at t') /\
  fst (python_import t false "m" false true [([], false)]) <> fst (python_import t' false "m" false true [([], false)]) /\
  forall w, below p w -> ~ In (Depends w) (snd (python_import t false "m" false true [([], false)])) /\
                         ~ In (Absent w) (snd (python_import t false "m" false true [([], false)])).
Proof.
  exists (IDir [("m.py", IFile)]), (IDir [("m.pyi", IFile); ("m.py", IFile)]), ["m.pyi"]. split; [|split].
  - split; [|cbv; discriminate]. intros q B. unfold kind_at. destruct q as [|n1 q]; [reflexivity|]. cbn [at_path]. rewrite !get_cons.
    destruct (String.eqb_spec "m.pyi" n1) as [<-|N]; [exfalso; apply B; exists q; reflexivity|]. reflexivity.
  - vm_compute. discriminate.
  - intros w [r ->]. split; cbn; intros H; repeat destruct H as [H|H]; try contradiction; discriminate.
Qed.
Print Assumptions C13_new_stub_refuted.

(** The marker py.typed is added to a package in site-packages. *)
Theorem C13_marker_refuted : exists t t' p,
  changed_at p (kind_at t) (kind_at t') /\
  fst (python_import t false "m" false true [([], true)]) <> fst (python_import t' false "m" false true [([], true)]) /\
  forall w, below p w -> ~ In (Depends w) (snd (python_import t false "m" false true [([], true)])) /\
                         ~ In (Absent w) (snd (python_import t false "m" false true [([], true)])).
Proof.
  exists (IDir [("m", IDir [("__init__.py", IFile)])]), (IDir [("m", IDir [("__init__.py", IFile); ("py.typed", IFile)])]), ["m"; "py.typed"]. split; [|split].
  - split; [|cbv; discriminate]. intros q B. unfold kind_at. destruct q as [|n1 q]; [reflexivity|]. cbn [at_path]. rewrite !get_cons.
    destruct (String.eqb_spec "m" n1) as [<-|N]; [|reflexivity]. destruct q as [|n2 q]; [reflexivity|]. cbn [at_path]. rewrite !get_cons.
    destruct (String.eqb_spec "__init__.py" n2) as [<-|N2]; [reflexivity|].
    destruct (String.eqb_spec "py.typed" n2) as [<-|N3]; [exfalso; apply B; exists q; reflexivity|]. reflexivity.
  - vm_compute. discriminate.
  - intros w [r ->]. split; cbn; intros H; repeat destruct H as [H|H]; try contradiction; discriminate.
Qed.
Print Assumptions C13_marker_refuted.
