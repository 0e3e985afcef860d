(** * C80: the ranges that can be folded are the blocks, and no two of them cross *)
From Coq Require Import Ascii String List Bool Arith Sorted Lia.
From Verif Require Import AutoImportModel AutoImportSpec AutoImport AutoImportProps FoldingModel FoldingSpec Folding.
Import ListNotations.
Open Scope nat_scope.
Open Scope list_scope.

(** There is no panic: every entry is a range. *)
Theorem C80_total : forall t before, grammatical t -> exists l, folding_blocks before t = map Some l.
Proof.
  intros t before G. pose proof (folds_sound t before G) as F. induction F as [|o l (n & a & b & -> & _) F [m IH]]; [exists []; reflexivity|]. exists ((lf_start a, lf_start b) :: m). cbn [map]. rewrite IH. reflexivity.
Qed.
(** The ranges are those of the blocks and match statements that have lines of their own: from the newline behind the colon to the last leaf in front of the dedents. *)
Theorem C80_exact : forall t s e, grammatical t ->
  (In (Some (s, e)) (folding_blocks [] t) <-> exists n a b, subtree n t /\ foldable n a /\ last_solid (leaves n) b /\ s = lf_start a /\ e = lf_start b).
Proof.
  intros t s e G. split.
  - intros H. pose proof (folds_sound t [] G) as F. rewrite Forall_forall in F. destruct (F _ H) as (n & a & b & E & S1 & Ff & L). injection E as -> ->. exists n, a, b. auto.
  - intros (n & a & b & S1 & F & L & -> & ->). destruct (folds_complete n t S1 [] a F) as (b' & L' & H). rewrite (last_solid_unique _ _ _ L L'). exact H.
Qed.
Lemma subtree_order : forall n t, subtree n t -> in_order (leaves t) -> in_order (leaves n).
Proof.
  intros n t H. induction H as [t|t c k cs Hc H IH]; intros O; [exact O|]. apply IH. cbn [leaves] in O. apply in_split in Hc. destruct Hc as (p & q & ->). rewrite flat_map_app in O. cbn [flat_map] in O.
  destruct (in_order_app _ _ O) as (_ & O2 & _). destruct (in_order_app _ _ O2) as (O3 & _). exact O3.
Qed.
(** A range contains the whole newline that it starts with, so it is never on one line only. *)
Theorem C80_lines : forall t s e, grammatical t -> in_order (leaves t) -> In (Some (s, e)) (folding_blocks [] t) ->
  exists newline, In newline (leaves t) /\ lf_kind newline = Newline /\ 0 < lf_length newline /\ s = lf_start newline /\ s + lf_length newline <= e.
Proof.
  intros t s e G O H. apply (C80_exact t s e G) in H. destruct H as (n & a & b & S1 & F & L & -> & ->). exists a. split; [apply (subtree_leaves n t S1); apply foldable_leaf; exact F|].
  destruct n as [l|k cs]; [inversion F|]. pose proof (subtree_order _ _ S1 O) as On. destruct (spans k cs a b F On L) as [H1 H2]. destruct (foldable_parts k cs a F) as (pre & tail & -> & (Ka & _) & _). auto.
Qed.
(** Two ranges are apart or one is in the other. *)
Theorem C80_nested : forall t, grammatical t -> in_order (leaves t) -> exists l, folding_blocks [] t = map Some l /\ ForallOrdPairs apart_or_nested l.
Proof.
  intros t G O. destruct (C80_total t [] G) as [l E]. exists l. split; [exact E|]. pose proof (folds_pairs t [] G O) as F. rewrite E in F. clear E. induction l as [|x l IH]; [constructor|]. cbn [map] in F. inversion F as [|? ? F1 F2]; subst. constructor; [|apply IH; exact F2].
  apply Forall_forall. intros y Hy. rewrite Forall_forall in F1. apply (F1 (Some y)); [apply in_map; exact Hy|reflexivity|reflexivity].
Qed.
(** [if a:] with a nested [while b:] and a statement behind *)
Definition lf (k : leaf_kind) (s n : nat) : tree := Leaf (mk_leaf k s n).
Definition inner : tree := Node Block [lf Newline 15 1; lf Indent 16 0; Node OtherNode [lf OtherLeaf 20 1; lf Newline 21 1]; lf Dedent 22 0].
Definition outer : tree := Node Block [lf Newline 5 1; lf Indent 6 0; Node OtherNode [lf OtherLeaf 8 7; inner]; lf Dedent 22 0].
Definition sample : tree := Node OtherNode [Node OtherNode [lf OtherLeaf 0 5; outer]; Node OtherNode [lf OtherLeaf 22 1; lf Newline 23 1]; lf OtherLeaf 24 0].
Example C80_case_sample : folding_blocks [] sample = [Some (5, 21); Some (15, 21)].
Proof. reflexivity. Qed.
Example C80_case_holds : grammatical sample /\ in_order (leaves sample).
Proof.
  assert (Li : foldable inner (mk_leaf Newline 15 1)).
  { constructor. split; [reflexivity|]. split; [apply Nat.lt_0_1|]. exists (mk_leaf Indent 16 0), [Node OtherNode [lf OtherLeaf 20 1; lf Newline 21 1]], (mk_leaf Dedent 22 0). split; [reflexivity|]. split; [reflexivity|]. split; [discriminate|]. constructor; [|constructor].
    exists (mk_leaf OtherLeaf 20 1). split; [left; reflexivity|discriminate]. }
  assert (Lo : foldable outer (mk_leaf Newline 5 1)).
  { constructor. split; [reflexivity|]. split; [apply Nat.lt_0_1|]. exists (mk_leaf Indent 6 0), [Node OtherNode [lf OtherLeaf 8 7; inner]], (mk_leaf Dedent 22 0). split; [reflexivity|]. split; [reflexivity|]. split; [discriminate|]. constructor; [|constructor].
    exists (mk_leaf OtherLeaf 8 7). split; [left; reflexivity|discriminate]. }
  assert (P : forall l, Forall grammatical l -> grammatical (Node OtherNode l)) by (intros l H; constructor; [exact H|discriminate|discriminate]).
  assert (Gi : grammatical inner).
  { constructor; [|intros _; right; eexists; exact Li|discriminate]. constructor; [constructor|]. constructor; [constructor|]. constructor; [apply P; repeat constructor|]. repeat constructor. }
  assert (Go : grammatical outer).
  { constructor; [|intros _; right; eexists; exact Lo|discriminate]. constructor; [constructor|]. constructor; [constructor|]. constructor; [|repeat constructor]. apply P. constructor; [constructor|]. constructor; [exact Gi|constructor]. }
  split.
  - apply P. constructor; [apply P; constructor; [constructor|constructor; [exact Go|constructor]]|]. constructor; [apply P; repeat constructor|]. repeat constructor.
  - cbn. repeat (constructor; [|repeat (constructor; [cbn; lia|]); constructor]). constructor.
Qed.

(** ** Imports *)

(** The range of the imports ends at the line break of the last import line, which is a place between two characters.  Every line has its line break, as the parser adds one at the
    end of a file that has none: crates/parsa_python/src/lib.rs:441-455 (parse). *)
Theorem C80_imports : forall f e, file_ok f -> import_range f = Some (0, e) ->
  exists r b, f_lines f = r ++ b /\ r <> [] /\ S e = length (lines_text r) /\ (nth_error (file_text f) e = Some newline \/ nth_error (file_text f) e = Some carriage_return) /\ is_char_boundary (file_text f) e = true /\
    (forall l, In l r -> forall s, In s (l_smalls l) -> imported s \/ exists t, In t (l_smalls l) /\ s_what t = StringExpression).
Proof.
  intros f e Hf H. unfold import_range in H. destruct (has_import_range f) eqn:Hr; [|discriminate H]. injection H as He. unfold has_import_range in Hr.
  destruct (all_imports 0 (f_lines f)) as [|[[s en] kd] more] eqn:Ea; [discriminate Hr|]. apply Nat.ltb_lt in Hr. assert (Hne : f_lines f <> []) by (intros X; rewrite X in Ea; discriminate Ea).
  destruct (region (f_lines f) true 0 (f_tail f)) as (r & b & E & Hi & Hend). fold (initial_imports_end_code_index f) in Hend. exists r, b. split; [exact E|].
  assert (Rn : r <> []).
  { intros ->. pose proof (beyond_region f [] b Hf Hne E Hend (s, en, kd)) as B. cbn [app] in E. rewrite E in Ea. cbn [lines_text flat_map length Nat.add] in B. rewrite Ea in B. specialize (B (or_introl eq_refl)). cbn [i_start fst] in B. lia. }
  split; [exact Rn|]. destruct r as [|m r] using rev_ind; [congruence|]. clear IHr.
  assert (Hm : In m (f_lines f)) by (rewrite E; apply in_or_app; left; apply in_or_app; right; left; reflexivity). destruct Hf as [Hok _]. rewrite Forall_forall in Hok. pose proof (ok_newline m (Hok m Hm)) as N.
  assert (Nm : exists x c, l_newline m = x ++ [c] /\ (c = newline \/ c = carriage_return)) by (destruct N as [N|[N|N]]; [exists [], newline|exists [carriage_return], newline|exists [], carriage_return]; auto). destruct Nm as (x & c & Nm & Hc).
  assert (T : exists y, lines_text (r ++ [m]) = y ++ [c]).
  { exists (lines_text r ++ l_prefix m ++ smalls_text (l_smalls m) ++ l_rest m ++ x). rewrite lines_text_app. cbn [lines_text flat_map]. rewrite app_nil_r. unfold line_text. rewrite Nm, <- !app_assoc. reflexivity. }
  destruct T as [y T]. assert (L : S e = length (lines_text (r ++ [m]))).
  { rewrite <- He, Hend. rewrite T, app_length. cbn [length]. destruct (r ++ [m]) eqn:X; [congruence|]. rewrite ?app_length. cbn [length]. lia. }
  split; [exact L|]. assert (Ne : nth_error (file_text f) e = Some c).
  { unfold file_text. rewrite E, lines_text_app, T, <- !app_assoc. rewrite T, app_length in L. cbn [length] in L. rewrite nth_error_app2 by lia. replace (e - length y) with 0 by lia. reflexivity. }
  split; [destruct Hc as [->| ->]; auto|]. split; [unfold is_char_boundary; rewrite Ne; destruct Hc as [->| ->]; reflexivity|exact Hi].
Qed.
Definition import_os : line := mk_line [] [mk_small [] (str "import os") (Import (Some StdLib) false)] [] [newline].
Definition x_is_1 : line := mk_line [] [mk_small [] (str "x = 1") Other] [] [newline].
Example C80_case_imports : import_range (mk_file [import_os; x_is_1] []) = Some (0, 9) /\ import_range (mk_file [x_is_1; import_os] []) = None.
Proof. split; reflexivity. Qed.

(** The range starts with the file, also when a comment or a docstring is in front of the imports. *)
Theorem C80_comment_refuted : let f := mk_file [mk_line (str "# License" ++ [newline]) [mk_small [] (str "import os") (Import (Some StdLib) false)] [] [newline]] [] in
  import_range f = Some (0, 19) /\ exists i, all_imports 0 (f_lines f) = [i] /\ i_start i = 10.
Proof. split; [reflexivity|]. eexists. split; reflexivity. Qed.

Print Assumptions C80_total.
Print Assumptions C80_exact.
Print Assumptions C80_lines.
Print Assumptions C80_nested.
Print Assumptions C80_imports.
Print Assumptions C80_comment_refuted.
