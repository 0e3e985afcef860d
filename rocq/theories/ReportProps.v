(** C35: exit status and summary; C38: the form of locations. *)
From Coq Require Import List Bool String Arith Lia.
From Coq Require Import Permutation.
From Verif Require Import ReportModel.
Import ListNotations.
Open Scope string_scope.
Open Scope list_scope.
Open Scope nat_scope.

(** ** C35 *)

Definition has_error (f : list issue) : Prop := exists i, In i f /\ i_note i = false.

Lemma insert_perm : forall i l, Permutation (i :: l) (insert_issue i l).
Proof.
  induction l as [|j l IH]; [reflexivity|]. cbn. destruct (i_at j <=? i_at i); [|reflexivity].
  rewrite perm_swap. constructor. exact IH.
Qed.

Lemma sort_perm : forall l, Permutation l (sort_issues l).
Proof.
  intros l. unfold sort_issues. assert (G : forall l acc, Permutation (l ++ acc) (fold_left (fun acc i => insert_issue i acc) l acc)).
  { induction l0 as [|i l0 IH]; intros acc; [reflexivity|]. cbn [fold_left]. rewrite <- IH. rewrite <- insert_perm. cbn. apply Permutation_middle. }
  rewrite <- G, app_nil_r. reflexivity.
Qed.

Lemma concat_sort_perm : forall files, Permutation (List.concat files) (List.concat (map sort_issues files)).
Proof. induction files as [|f files IH]; [reflexivity|]. cbn. apply Permutation_app; [apply sort_perm|exact IH]. Qed.

Lemma filter_length_perm : forall (f : issue -> bool) l l', Permutation l l' -> List.length (filter f l) = List.length (filter f l').
Proof. intros f l l' P. induction P as [|x l l' P IH|x y l|l l' l'' P IH P' IH']; cbn; repeat (match goal with |- context [if ?b then _ else _] => destruct b end); cbn; congruence. Qed.

(** The number of errors in all files. *)
Fixpoint errors (l : list issue) : nat := match l with [] => 0 | i :: r => (if i_note i then 0 else 1) + errors r end.

Lemma filter_errors : forall l, List.length (filter (fun i => match severity_of i with Error => true | Information => false end) l) = errors l.
Proof. induction l as [|i l IH]; [reflexivity|]. cbn. unfold severity_of at 1. destruct (i_note i); cbn; rewrite IH; reflexivity. Qed.

Lemma error_count_spec : forall files, error_count (project_diagnostics files) = errors (List.concat files).
Proof.
  intros files. unfold error_count, project_diagnostics. cbn [issues]. rewrite <- (filter_length_perm _ _ _ (concat_sort_perm files)). apply filter_errors.
Qed.

Lemma errors_pos : forall l, 0 < errors l <-> has_error l.
Proof.
  unfold has_error. induction l as [|i l IH]; cbn; [split; [lia|intros (i & [] & _)]|]. destruct (i_note i) eqn:N; cbn.
  - rewrite IH. split; [intros (x & H & E); eauto|intros (x & [<-|H] & E); [congruence|eauto]].
  - split; [intros _; exists i; auto|lia].
Qed.

(** The command fails with status 1 exactly if some checked file has an error, with 2 if nothing could be checked. *)
Theorem C35_exit_status : forall files,
  (exit_code files = 1 <-> exists fs f, files = Some fs /\ In f fs /\ has_error f) /\
  (exit_code files = 0 <-> exists fs, files = Some fs /\ forall f, In f fs -> ~ has_error f) /\
  (exit_code files = 2 <-> files = None).
Proof.
  intros [fs|]; cbn [exit_code].
  - rewrite error_count_spec. assert (E : 0 < errors (List.concat fs) <-> exists f, In f fs /\ has_error f).
    { rewrite errors_pos. unfold has_error. split.
      - intros (i & H & N). apply in_concat in H. destruct H as (f & H1 & H2). eauto.
      - intros (f & H & i & H2 & N). exists i. split; [apply in_concat; eauto|exact N]. }
    destruct (Nat.ltb_spec 0 (errors (List.concat fs))) as [L|L].
    + apply E in L. destruct L as (f & H & He). repeat split; try discriminate.
      * intros _. eauto.
      * intros (fs' & E' & N). injection E' as <-. exfalso. exact (N f H He).
    + assert (N : forall f, In f fs -> ~ has_error f) by (intros f H He; assert (0 < errors (List.concat fs)) by (apply E; eauto); lia).
      repeat split; try discriminate.
      * intros (fs' & f & E' & H & He). injection E' as <-. exfalso. exact (N f H He).
      * intros _. eauto.
  - repeat split; try discriminate; try (intros (? & ? & E & _); discriminate). intros (? & E & _). discriminate.
Qed.
Print Assumptions C35_exit_status.

(** The summary says how many errors and files there are, if there are no notes. *)
Theorem C35_summary_partial : forall files, Forall (Forall (fun i => i_note i = false)) files ->
  let n := List.length (List.concat files) in
  let bad := List.length (filter (fun f => match f with [] => false | _ => true end) files) in
  let all := List.length files in
  let plural k := if k =? 1 then "" else "s" in
  (exists fs, In fs files /\ has_error fs) /\
    summary (project_diagnostics files) = String.concat "" ["Found "; show n; " error"; plural n; " in "; show bad; " file"; plural bad; " (checked "; show all; " source file"; plural all; ")"]
  \/ (forall fs, In fs files -> fs = []) /\
    summary (project_diagnostics files) = String.concat "" ["Success: no issues found in "; show all; " source file"; plural all].
Proof.
  intros files F. cbn zeta. assert (P : forall k, s_if_plural k = if k =? 1 then "" else "s") by (intros [|[|k]]; reflexivity).
  unfold summary. rewrite error_count_spec. cbn [project_diagnostics checked_files files_with_errors issues]. rewrite !P.
  rewrite <- (Permutation_length (concat_sort_perm files)).
  assert (E : errors (List.concat files) = List.length (List.concat files)).
  { clear - F. induction F as [|f fs Ff F IH]; [reflexivity|]. cbn. rewrite app_length, <- IH. clear - Ff.
    induction Ff as [|i f N Ff IH]; [reflexivity|]. cbn. rewrite N, IH. reflexivity. }
  rewrite E. destruct (List.concat files) as [|i r] eqn:C.
  - right. split; [|reflexivity]. intros fs H. destruct fs as [|x fs]; [reflexivity|]. exfalso.
    assert (In x (List.concat files)) by (apply in_concat; exists (x :: fs); split; [exact H|left; reflexivity]). rewrite C in H0. destruct H0.
  - left. split; [|reflexivity]. assert (H : In i (List.concat files)) by (rewrite C; left; reflexivity). apply in_concat in H.
    destruct H as (fs & H1 & H2). exists fs. split; [exact H1|]. exists i. split; [exact H2|]. rewrite Forall_forall in F. specialize (F fs H1). rewrite Forall_forall in F. exact (F i H2).
Qed.
Print Assumptions C35_summary_partial.

Example C35_example :
  summary (project_diagnostics [[mk_issue 9 false; mk_issue 3 false]; []; [mk_issue 1 false]]) = "Found 3 errors in 2 files (checked 3 source files)" /\
  summary (project_diagnostics [[]]) = "Success: no issues found in 1 source file" /\
  exit_code (Some [[mk_issue 9 true]; [mk_issue 0 false]]) = 1 /\ exit_code (Some [[mk_issue 9 true]]) = 0 /\ exit_code None = 2.
Proof. repeat split. Qed.

(** One error and one note: "1 errors".  And a file with notes only counts as one with errors. *)
Theorem C35_summary_refuted : exists files,
  errors (List.concat files) = 1 /\ List.length (filter (fun f => 0 <? errors f) files) = 1 /\
  summary (project_diagnostics files) = "Found 1 errors in 2 files (checked 2 source files)".
Proof. exists [[mk_issue 0 false]; [mk_issue 0 true]]. repeat split. Qed.
Print Assumptions C35_summary_refuted.

(** ** C38 *)

Definition announced (caps : option (option (option bool))) : Prop := caps = Some (Some (Some true)).

(** All the names are in the response, and there is none without names.  The form only depends on the capability, but the
    wrong way round. *)
Theorem C38_form_partial : forall A caps (names : list A),
  (run_goto_like caps names = None <-> names = []) /\
  (names <> [] -> announced caps -> run_goto_like caps names = Some (Locations names)) /\
  (names <> [] -> ~ announced caps -> run_goto_like caps names = Some (Links names)).
Proof.
  intros A caps names. unfold run_goto_like, announced.
  destruct caps as [[[[]|]|]|]; cbn [location_link]; destruct names as [|n ns]; repeat split; try congruence; try discriminate.
Qed.
Print Assumptions C38_form_partial.

(** A client that announced nothing gets links, and a client that announced links gets plain locations. *)
Theorem C38_form_refuted :
  (exists caps, ~ announced caps /\ run_goto_like caps [0] = Some (Links [0])) /\
  (exists caps, announced caps /\ run_goto_like caps [0] = Some (Locations [0])).
Proof. split; [exists None|exists (Some (Some (Some true)))]; split; try reflexivity. discriminate. Qed.
Print Assumptions C38_form_refuted.
