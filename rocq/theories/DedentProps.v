(** C32: dedenting and trimming of docstrings. *)
From Coq Require Import List NArith Arith Bool Lia.
From Verif Require Import TextModel TextProofs PathModel DedentModel DedentSpec DedentProofs.
Import ListNotations.
Open Scope nat_scope.

(** If there is a result, the same amount of white space is removed from all the lines that are not blank; at least one
    line is not indented afterwards, so it is the largest amount.  If all the lines are blank, the text is unchanged. *)
Theorem C32_common_indentation : forall t r, dedent t = Ok r ->
  exists ls ls', lines_of t ls /\ lines_of r ls' /\
    (Forall (blank white) ls /\ r = t \/
     exists k, Forall2 (dedented white k) ls ls' /\ exists l, In l ls' /\ flush_left white l).
Proof.
  intros t r H. unfold dedent in H. assert (S := min_indent_spec (split LF t) None). destruct (min_indent (split LF t) None) as [k|].
  - destruct (cut_all k (split LF t)) as [ls'| |] eqn:C; try discriminate. injection H as <-. destruct S as (A & _ & B).
    assert (F := cut_all_spec k _ _ A C). exists (split LF t), ls'. split; [apply split_lines|].
    assert (N : ls' <> []). { destruct (split LF t) as [|l0 ls0] eqn:E; [assert (L := split_lines t); rewrite E in L; inversion L|inversion F; discriminate]. }
    assert (L : Forall (fun l => ~ In LF l) ls').
    { assert (L := lines_no_lf _ _ (split_lines t)).
      clear - F L. induction F as [|l l' ls ls' D F IH]; constructor; inversion L; subst; auto. intros X. apply H1. exact (dedented_in _ _ _ _ D X). }
    split; [apply join_lines_of; assumption|]. right. exists k. split; [exact F|]. destruct B as [B|(l & Hl & NB & I)]; [discriminate|].
    clear - F Hl NB I. induction F as [|x x' ls ls' D F IH]; [contradiction|]. destruct Hl as [->|Hl].
    + exists x'. split; [left; reflexivity|exact (dedented_left _ _ _ D NB I)].
    + destruct (IH Hl) as (y & Hy & Y). exists y. split; [right; exact Hy|exact Y].
  - injection H as <-. exists (split LF t), (split LF t). split; [apply split_lines|]. split; [apply split_lines|]. left. split; [apply S|reflexivity].
Qed.
Print Assumptions C32_common_indentation.

(** Dedenting a second time changes nothing. *)
Theorem C32_idempotent : forall t r, dedent t = Ok r -> dedent r = Ok r.
Proof.
  intros t r H. destruct (C32_common_indentation t r H) as (ls & ls' & L & L' & [[B ->]|(k & F & E)]).
  - exact H.
  - unfold dedent. rewrite (lines_split _ _ L'). rewrite (min_indent_zero _ E), cut_zero. cbn [bind]. rewrite (lines_join _ _ L'). reflexivity.
Qed.
Print Assumptions C32_idempotent.

(** There is a result if the white space at the start of the lines is ASCII. *)
Theorem C32_no_panic_partial : forall t ls, lines_of t ls ->
  (forall l w r, In l ls -> l = w ++ r -> blank white w -> forall c, In c w -> (c < 128)%N) -> exists r, dedent t = Ok r.
Proof.
  intros t ls L A. unfold dedent. rewrite (lines_split _ _ L). assert (S := min_indent_spec ls None).
  destruct (min_indent ls None) as [k|]; [|eexists; reflexivity].
  destruct S as (B & _). destruct (cut_all_ascii k ls B A) as [r E]. rewrite E. eexists. reflexivity.
Qed.
Print Assumptions C32_no_panic_partial.

(** The documentation that is shown: no white space around it. *)
Theorem C32_clean : forall borrowed t r, clean_docstring borrowed t = Ok r ->
  (exists d a b, dedent t = Ok d /\ d = a ++ r ++ b /\ blank white a /\ blank white b) /\
  (borrowed = true /\ blank white t /\ r = t \/
   (forall c x, r = c :: x -> white c = false) /\ (forall c x, r = x ++ [c] -> white c = false)).
Proof.
  intros borrowed t r H. unfold clean_docstring in H. assert (S := min_indent_spec (split LF t) None). unfold dedent.
  destruct (min_indent (split LF t) None) as [k|] eqn:E.
  - unfold dedent in H. rewrite E in H. destruct (cut_all k (split LF t)) as [ls| |]; try discriminate. cbn [bind] in *.
    rewrite trim_in_place_spec in H. injection H as <-. split.
    + destruct (trim_split (join_lines ls)) as (a & b & F & A & B). exists (join_lines ls), a, b. auto.
    + right. split; [intros c x; apply trim_head|intros c x; apply trim_last].
  - destruct borrowed.
    + injection H as <-. split; [exists t, [], []; rewrite app_nil_r; split; [reflexivity|]; split; [reflexivity|split; intros ? []]|].
      left. split; [reflexivity|]. split; [|reflexivity]. destruct S as [_ S]. rewrite <- (lines_join _ _ (split_lines t)).
      clear E. induction (split LF t) as [|l ls IH]; [intros c []|]. inversion S as [|? ? B R]; subst. destruct ls as [|l' ls]; [exact B|].
      change (join_lines (l :: l' :: ls)) with (l ++ LF :: join_lines (l' :: ls)). intros c Hc. apply in_app_or in Hc.
      destruct Hc as [Hc|[<-|Hc]]; [exact (B c Hc)|reflexivity|exact (IH R c Hc)].
    + rewrite trim_in_place_spec in H. injection H as <-. split.
      * destruct (trim_split t) as (a & b & F & A & B). exists t, a, b. auto.
      * right. split; [intros c x; apply trim_head|intros c x; apply trim_last].
Qed.
Print Assumptions C32_clean.

(** "  a\n\n    b\n " *)
Example C32_example :
  dedent [32; 32; 97; 10; 10; 32; 32; 32; 32; 98; 10; 32]%N = Ok [97; 10; 10; 32; 32; 98; 10; 32]%N /\
  clean_docstring true [32; 32; 97; 10; 10; 32; 32; 32; 32; 98; 10; 32]%N = Ok [97; 10; 10; 32; 32; 98]%N.
Proof. split; vm_compute; reflexivity. Qed.

(** A docstring with a no-break space or another long white space in the indentation: the program panics. *)
Theorem C32_no_panic_refuted : exists t, dedent t = Panic.
Proof. exists [32; 97; 10; 160; 98]%N. vm_compute. reflexivity. Qed.
Print Assumptions C32_no_panic_refuted.

(** Usually the first line of a docstring follows the quotes.  Then nothing is removed: for "a\n    b\n    c" all the lines
    after the first one share four spaces. *)
Theorem C32_first_line_refuted : exists first rest k, 0 < k /\
  Forall (fun l => firstn k l = repeat 32%N k /\ ~ blank white l) rest /\
  dedent (join_lines (first :: rest)) = Ok (join_lines (first :: rest)).
Proof.
  exists [97]%N, [[32; 32; 32; 32; 98]; [32; 32; 32; 32; 99]]%N, 4. split; [lia|]. split; [|vm_compute; reflexivity].
  repeat constructor; intros B; [discriminate (B 98%N ltac:(cbn; tauto))|discriminate (B 99%N ltac:(cbn; tauto))].
Qed.
Print Assumptions C32_first_line_refuted.
