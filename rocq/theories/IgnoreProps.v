(** C30: comments suppress exactly the diagnostics they cover.  C31: the quick fix that inserts such a comment works. *)
From Coq Require Import List NArith Arith Bool Lia Ascii String.
From Verif Require Import TextModel TextProofs TreeModel TreeSpec TreeProofs TreeProps IgnoreModel IgnoreSpec IgnoreProofs IgnoreFixSpec IgnoreFixProofs.
Import ListNotations.
Open Scope string_scope.
Open Scope list_scope.
Open Scope N_scope.

Definition txt (s : string) : text := map N_of_ascii (list_ascii_of_string s).

(** C30.  A diagnostic from byte [start] to byte [end_], with nothing that looks like a comment before it on its first line: it is ignored if
    and only if one of the lines it touches carries a comment that covers its code. *)
Theorem C30_suppressed : forall pre before diag rest e super_,
  (pre = [] \/ exists p c, pre = p ++ [c] /\ newline c) -> Forall (fun c => ~ newline c) before -> ~ In 35 before ->
  let code := pre ++ before ++ diag ++ rest in
  let start := bytes (pre ++ before) in
  let end_ := bytes (pre ++ before ++ diag) in
  exists c, type_ignore_comment_for code start end_ = Ok c /\
  (fst (is_ignored e super_ c) = true <-> exists line m, spans code start end_ line /\ carries line m /\ covers e super_ m).
Proof.
  intros pre before diag rest e super_ Hp Fb Nb code start end_.
  destruct (region_exists code (pre ++ before) diag rest) as (r & Hr); [unfold code; rewrite <- !app_assoc; reflexivity|]. rewrite <- app_assoc in Hr. fold start end_ in Hr.
  destruct (ignored_region code start end_ r e super_ Hr) as (c & Ec & Hc). exists c. split; [exact Ec|]. rewrite Hc.
  apply (spans_region code start end_ r e super_ before Hr); [|exact Fb|exact Nb]. exists pre. split; [reflexivity|]. split; [exists (diag ++ rest); reflexivity|exact Hp].
Qed.

(** Without the proviso: the text from the start of the diagnostic to the end of its last line decides. *)
Theorem C30_region : forall pre diag rest e super_,
  let code := pre ++ diag ++ rest in
  exists c r, type_ignore_comment_for code (bytes pre) (bytes (pre ++ diag)) = Ok c /\ region code (bytes pre) (bytes (pre ++ diag)) r /\
  (fst (is_ignored e super_ c) = true <-> exists line m, line_of r line /\ carries line m /\ covers e super_ m).
Proof.
  intros pre diag rest e super_ code. destruct (region_exists code pre diag rest eq_refl) as (r & Hr). destruct (ignored_region _ _ _ r e super_ Hr) as (c & Ec & Hc). exists c, r. auto.
Qed.

(** The note about a code that is not covered is given if and only if there is a comment but the diagnostic is not ignored. *)
Theorem C30_note : forall code start end_ r e super_ note, region code start end_ r ->
  exists c, type_ignore_comment_for code start end_ = Ok c /\
  (snd (is_ignored e super_ c) = Some note <->
   e = Some note /\ (exists line m, line_of r line /\ carries line m) /\ forall line m, line_of r line -> carries line m -> ~ covers e super_ m).
Proof.
  intros code start end_ r e super_ note Hr. destruct (ignored_region code start end_ r e super_ Hr) as (c & Ec & Hc). exists c. split; [exact Ec|].
  rewrite (comment_for_region _ _ _ _ Hr) in Ec. injection Ec as <-. rewrite <- (some_region start r).
  assert (Hn : fst (is_ignored e super_ (type_ignore_comment_for_region start r)) = false <-> forall line m, line_of r line -> carries line m -> ~ covers e super_ m).
  { split.
    - intros F line m H1 H2 H3. assert (X : fst (is_ignored e super_ (type_ignore_comment_for_region start r)) = true) by (apply Hc; eauto). congruence.
    - intros A. destruct (fst _) eqn:E; [|reflexivity]. destruct (proj1 Hc eq_refl) as (line & m & H1 & H2 & H3). destruct (A line m H1 H2 H3). }
  rewrite <- Hn. destruct (type_ignore_comment_for_region start r) as [[codes k i later|]|]; cbn [is_ignored].
  - destruct (existsb _ _); cbn; [split; [discriminate|intros (_ & _ & X); discriminate X]|]. split; [intros ->; repeat split; congruence|tauto].
  - cbn. split; [discriminate|intros (_ & _ & X); discriminate X].
  - cbn. split; [discriminate|intros (_ & X & _); congruence].
Qed.

(** The whole file is ignored if and only if a bare comment precedes the first statement; codes there are an error. *)
Theorem C30_file : forall t,
  match has_type_ignore_at_start t with
  | inr true => exists line, line_of t line /\ carries line Bare
  | inl codes => (forall line, line_of t line -> ~ carries line Bare) /\ exists line m, line_of t line /\ carries line m
  | inr false => forall line m, line_of t line -> ~ carries line m
  end.
Proof.
  intros t. unfold has_type_ignore_at_start. assert (B := bare_region 0 t). assert (S := some_region 0 t). destruct (type_ignore_comment_for_region 0 t) as [[codes k i later|]|].
  - split; [|apply S; discriminate]. intros line Hl Hc. assert (X : Some (WithCodes codes k i later) = Some WithoutCode) by (apply B; exists line, Bare; auto). discriminate X.
  - destruct (proj1 B eq_refl) as (line & m & Hl & Hc & ->). eauto.
  - intros line m Hl Hc. apply (proj2 S); [eauto|reflexivity].
Qed.

(** The example: two lines, the codes of both count. *)
Definition ex_code : text := txt "f(  # x # type: ignore[arg-type , misc]
  1)  # zuban:ignore [ override ]
g()".
Example ignored_example :
  map (fun e => match type_ignore_comment_for ex_code 0 44 with Ok c => is_ignored (Some (txt e)) None c | _ => (false, None) end) ["misc"; "arg-type"; "override"; "index"]
  = [(true, None); (true, None); (true, None); (false, Some (txt "index"))] /\
  (exists c, type_ignore_comment_for ex_code 0 1 = Ok c /\ fst (is_ignored (Some (txt "override")) None c) = false).
Proof. split; [vm_compute; reflexivity|]. eexists. split; [vm_compute; reflexivity|vm_compute; reflexivity]. Qed.

(** A number sign in a string literal counts.  A small lexer: [in_string] tells whether position [n] is inside double quotes. *)
Fixpoint in_string (l : list N) (n : nat) : bool :=
  match n, l with S n, c :: r => xorb (c =? 34) (in_string r n) | _, _ => false end.
Theorem C30_strings_refuted : exists line,
  (forall n, nth_error line n = Some 35 -> in_string line n = true) /\
  exists c, type_ignore_comment_for line 0 (bytes line) = Ok c /\ forall e super_, fst (is_ignored e super_ c) = true.
Proof.
  exists (txt "x = f("++[34]++txt "# type: ignore # "++[34]++txt ")"). split.
  - intros n H. assert (L : (n < 32)%nat).
    { assert (B : (n < List.length (txt "x = f("++[34%N]++txt "# type: ignore # "++[34%N]++txt ")"%string))%nat) by (apply nth_error_Some; congruence). vm_compute in B. lia. }
    do 32 (destruct n as [|n]; [vm_compute in H |- *; (reflexivity || discriminate H)|]). lia.
  - eexists. split; [vm_compute; reflexivity|]. intros e super_. reflexivity.
Qed.

(** C31.  For a diagnostic that starts at a token, whose line has neither tabs nor form feeds after that: if an edit is offered, then it only
    inserts text, and after it the diagnostic is ignored.  [gaps_of]: between tokens there are only white space, comments and continuations.
    Missing: lines with tabs or form feeds, for which it is false. *)
Theorem C31_fix_works_partial : forall t hi code position line pre diag rest i k e super_ code',
  proper t -> placed 0 t hi -> gaps_of code t -> (exists q, leaf_at t q /\ leaf_start t q = position) ->
  rest_of_line code position line -> ~ In 9 line -> ~ In 12 line -> plain_code e ->
  code = pre ++ diag ++ rest -> bytes pre = position ->
  insertion_point_for_type_ignore code (array t) position = Ok (Some i) -> fixed_code code i k e = Ok (Some code') ->
  exists new, inserted code code' (insertion_index i) new /\
  exists c, type_ignore_comment_for code' position (moved (insertion_index i) (bytes new) (bytes (pre ++ diag))) = Ok c /\ fst (is_ignored (Some e) super_ c) = true.
Proof.
  intros t hi code position line pre diag rest i k e super_ code' P Pl G A (pre' & post & Ec & Ep & Fl & Hp) N9 N12 Pe Ed Epre Of Fi.
  assert (X : pre = pre' /\ diag ++ rest = line ++ post) by (apply bytes_prefix_inj; [rewrite <- Ed; exact Ec|congruence]). destruct X as [<- _].
  apply (fix_works t hi code position line pre post P Pl G A Ec Ep Fl Hp i k e super_ code' diag rest); auto.
Qed.

(** Of the two edits ([type: ignore] and [zuban: ignore]), both are offered if there is no ignore comment on the line yet, and exactly one if
    there is: the one that adds the code to the comment. *)
Definition offered (i : insertion) (k : kind) (e : text) : Prop := format_for_kind i k e <> None.
Theorem C31_kinds : forall code nodes line position i e, region code position position line ->
  insertion_point_for_type_ignore code nodes position = Ok (Some i) ->
  ((exists l m, line_of line l /\ carries l m) -> (offered i Type_ e /\ ~ offered i Zuban e) \/ (offered i Zuban e /\ ~ offered i Type_ e)) /\
  (~ (exists l m, line_of line l /\ carries l m) -> offered i Type_ e /\ offered i Zuban e).
Proof.
  intros code nodes line position i e R H. unfold insertion_point_for_type_ignore in H. rewrite (comment_for_region _ _ _ _ R) in H. cbn [bind] in H.
  pose proof (some_region position line) as Q. destruct (type_ignore_comment_for_region position line) as [[codes k s l|]|]; [|discriminate|].
  - injection H as <-. unfold offered, format_for_kind. cbn [preexisting_type_ignore_kind]. split.
    + intros _. destruct k; cbn [kind_eqb]; [left|right]; split; congruence.
    + intros N. elim N. apply Q. discriminate.
  - split.
    + intros X. apply Q in X. congruence.
    + intros _. assert (X : preexisting_type_ignore_kind i = None).
      { destruct (or_panic (drop_bytes code position)) as [ln| |]; cbn [bind] in H; try discriminate.
        match type of H with bind ?e _ = _ => destruct e as [[ln'|]| |]; cbn [bind] in H; try discriminate end.
        destruct (or_panic (leaf_by_position _ _)); cbn [bind] in H; try discriminate. destruct (or_panic (last_leaf_of_line _ _ _ _)); cbn [bind] in H; try discriminate.
        destruct (_ <? _)%nat in H; [discriminate|]. injection H as <-. reflexivity. }
      unfold offered, format_for_kind. rewrite X. split; discriminate.
Qed.

(** Asking for the edit never crashes. *)
Theorem C31_total : forall t hi code position line,
  proper t -> placed 0 t hi -> (exists q, leaf_at t q /\ leaf_start t q = position) -> rest_of_line code position line ->
  exists r, insertion_point_for_type_ignore code (array t) position = Ok r.
Proof. intros t hi code position line P Pl A (pre & post & Ec & Ep & Fl & Hp). exact (insertion_total t hi code position line pre post P Pl A Ec Ep Fl Hp). Qed.

(** ** Checking the hypotheses for a given file *)
Fixpoint gapb (in_comment : bool) (l : text) : bool :=
  match l with
  | [] => true
  | c :: r =>
      if is_newline c then gapb false r
      else if in_comment then gapb true r
      else if (c =? 32) || (c =? 9) || (c =? 12) then gapb false r
      else if c =? 35 then gapb true r
      else if c =? 92 then match r with d :: r => is_newline d && gapb false r | [] => false end
      else false
  end.
Lemma gapb_sound : forall n l, (List.length l <= n)%nat -> (gapb false l = true -> gap l) /\
  (gapb true l = true -> exists body g, l = body ++ g /\ Forall (fun c => ~ newline c) body /\ (g = [] \/ exists c r, g = c :: r /\ newline c) /\ gap g).
Proof.
  induction n as [|n IH]; intros l L.
  - destruct l; [|cbn in L; lia]. split; [constructor|]. intros _. exists [], []. repeat split; auto; constructor.
  - destruct l as [|c r]; [split; [constructor|intros _; exists [], []; repeat split; auto; constructor]|]. cbn in L. destruct (IH r ltac:(lia)) as [I1 I2]. cbn [gapb]. destruct (is_newline c) eqn:En.
    + apply newline_spec in En. split; intros H; [apply gap_newline; auto|]. exists [], (c :: r). split; [reflexivity|]. split; [constructor|]. split; [right; eauto|apply gap_newline; auto].
    + assert (Nn : ~ newline c) by (intros X; apply newline_spec in X; congruence). split.
      * destruct ((c =? 32) || (c =? 9) || (c =? 12)) eqn:Ew; [intros H; apply gap_white; [rewrite !orb_true_iff, !N.eqb_eq in Ew; tauto|auto]|].
        destruct (N.eqb_spec c 35) as [->|H35]; [intros H; destruct (I2 H) as (b & g & -> & Fb & Hg & Gg); apply gap_comment; assumption|].
        destruct (N.eqb_spec c 92) as [->|H92]; [|discriminate]. destruct r as [|d r]; [discriminate|]. intros H. apply andb_true_iff in H. destruct H as [H1 H2]. apply newline_spec in H1.
        apply gap_continuation; [exact H1|]. cbn in L. apply (IH r); [lia|exact H2].
      * intros H. destruct (I2 H) as (b & g & -> & Fb & Hg & Gg). exists (c :: b), g. auto.
Qed.
Fixpoint leaf_paths (t : tree) : list (list nat) :=
  match t with
  | Leaf _ _ _ => [[]]
  | Node _ _ _ cs => (fix go (i : nat) (cs : list tree) := match cs with [] => [] | c :: r => map (cons i) (leaf_paths c) ++ go (S i) r end) 0%nat cs
  end.
Lemma leaf_paths_complete : forall q t, leaf_at t q -> In q (leaf_paths t).
Proof.
  induction q as [|k q IH]; intros t (ty & st & l & E); cbn in E.
  - injection E as ->. left. reflexivity.
  - destruct t as [|ty' st' l' cs]; [discriminate|]. destruct (nth_error cs k) as [c|] eqn:Ek; [|discriminate]. cbn [leaf_paths].
    assert (G : forall cs i k, nth_error cs k = Some c -> In ((i + k)%nat :: q) ((fix go (i : nat) (cs : list tree) := match cs with [] => [] | c :: r => map (cons i) (leaf_paths c) ++ go (S i) r end) i cs)).
    { clear Ek k cs. induction cs as [|x cs IHc]; intros i k Ek; [destruct k; discriminate|]. apply in_or_app. destruct k as [|k].
      - injection Ek as ->. left. rewrite Nat.add_0_r. apply in_map. apply IH. exists ty, st, l. exact E.
      - right. replace (i + S k)%nat with (S i + k)%nat by lia. apply IHc. exact Ek. }
    exact (G cs 0%nat k Ek).
Qed.
Fixpoint left_ofb (p q : list nat) : bool :=
  match p, q with
  | i :: p, j :: q => (i <? j)%nat || ((i =? j)%nat && left_ofb p q)
  | _, _ => false
  end.
Lemma left_ofb_iff : forall p q, left_ofb p q = true <-> left_of p q.
Proof.
  intros p q. split.
  - revert q. induction p as [|i p IH]; intros [|j q]; cbn [left_ofb]; try discriminate. rewrite orb_true_iff, andb_true_iff, Nat.ltb_lt, Nat.eqb_eq. intros [H|[-> H]]; [exists [], i, j, p, q; auto|].
    destruct (IH q H) as (r & a & b & p' & q' & -> & -> & L). exists (j :: r), a, b, p', q'. auto.
  - intros (r & i & j & p' & q' & -> & -> & L). induction r as [|x r IH]; cbn [app left_ofb]; [apply Nat.ltb_lt in L; rewrite L; reflexivity|]. rewrite IH, Nat.eqb_refl. apply orb_true_r.
Qed.
Definition path_eqb (p q : list nat) : bool := if list_eq_dec Nat.eq_dec p q then true else false.
Definition is_gap (o : option text) : bool := match o with Some g => gapb false g | None => false end.
Definition gaps_check (code : text) (t : tree) : bool :=
  let ps := leaf_paths t in
  forallb (fun q => forallb (fun q' =>
    negb (left_ofb q q') || negb (forallb (fun r => negb (left_ofb q r) || path_eqb r q' || left_ofb q' r) ps) || is_gap (slice code (leaf_end t q) (leaf_start t q'))) ps &&
    (existsb (left_ofb q) ps || is_gap (slice code (leaf_end t q) (bytes code)))) ps.
(** All paths in the list are leaves. *)
Definition all_leaves (t : tree) : bool := forallb (fun q => match subtree t q with Some (Leaf _ _ _) => true | _ => false end) (leaf_paths t).
Lemma gaps_check_sound code t : all_leaves t = true -> gaps_check code t = true -> gaps_of code t.
Proof.
  intros A H q Lq. unfold all_leaves in A. rewrite forallb_forall in A. unfold gaps_check in H. rewrite forallb_forall in H. specialize (H q (leaf_paths_complete q t Lq)). apply andb_true_iff in H. destruct H as [H1 H2].
  assert (Is : forall r, In r (leaf_paths t) -> leaf_at t r) by (intros r Hr; specialize (A r Hr); unfold leaf_at; destruct (subtree t r) as [[ty st l|]|]; try discriminate; eauto).
  assert (Gp : forall o, is_gap o = true -> exists g, o = Some g /\ gap g) by (intros [g|] X; [exists g; split; [reflexivity|]; apply (gapb_sound (List.length g) g (le_n _)); exact X|discriminate]).
  split.
  - intros q' Lq' Lo Min. rewrite forallb_forall in H1. specialize (H1 q' (leaf_paths_complete q' t Lq')). apply orb_true_iff in H1. destruct H1 as [H1|H1]; [|exact (Gp _ H1)].
    exfalso. apply orb_true_iff in H1. destruct H1 as [H1|H1].
    + apply left_ofb_iff in Lo. rewrite Lo in H1. discriminate.
    + apply negb_true_iff in H1. assert (X : forallb (fun r => negb (left_ofb q r) || path_eqb r q' || left_ofb q' r) (leaf_paths t) = true); [|congruence].
      apply forallb_forall. intros r Hr. destruct (left_ofb q r) eqn:El; [|reflexivity]. apply left_ofb_iff in El. cbn [negb orb]. destruct (Min r (Is r Hr) El) as [->|Q].
      * unfold path_eqb. destruct (list_eq_dec Nat.eq_dec q' q'); [reflexivity|congruence].
      * apply left_ofb_iff in Q. rewrite Q. apply orb_true_r.
  - intros None_. apply orb_true_iff in H2. destruct H2 as [H2|H2]; [|exact (Gp _ H2)]. exfalso. apply existsb_exists in H2. destruct H2 as (r & Hr & El). apply left_ofb_iff in El. exact (None_ r (Is r Hr) El).
Qed.

(** [x = 1] with a comment, and a file of the same shape with a list of codes. *)
Definition one_line (comment_end : nat) : tree :=
  Node 32768 0 (S comment_end) [ Node 32769 0 (S comment_end) [ Node 32770 0 5 [Leaf 1 0 1; Leaf 2 2 1; Leaf 3 4 1]; Leaf 4 comment_end 1 ]; Leaf 5 (S comment_end) 0 ].
Lemma one_line_proper n : proper (one_line n).
Proof. repeat (first [constructor | discriminate | lia]). Qed.
Lemma one_line_placed n : (5 <= n)%nat -> placed 0 (one_line n) (S n).
Proof.
  intros L. apply (placed_node 0 32768 0 (S n)); [lia|]. apply (placed_more _ _ (S n)); [apply (placed_node 0 32769 0 (S n)); [lia|]|].
  - apply (placed_more _ _ 5); [apply (placed_node 0 32770 0 5); [lia|]|].
    + apply (placed_more _ _ 1); [apply (placed_leaf 0 1 0 1); lia|]. apply (placed_more _ _ 3); [apply (placed_leaf 1 2 2 1); lia|]. apply (placed_more _ _ 5); [apply (placed_leaf 3 3 4 1); lia|constructor].
    + replace (0 + S n)%nat with (n + 1)%nat by lia. apply (placed_more _ _ (n + 1)); [apply (placed_leaf 5 4 n 1); lia|constructor].
  - apply (placed_more _ _ (S n + 0)); [apply (placed_leaf (S n) 5 (S n) 0); lia|]. replace (S n + 0)%nat with (0 + S n)%nat by lia. constructor.
Qed.
Definition ex_1 : text := txt "x = 1  # c" ++ [10].
Definition ex_2 : text := txt "x = 1  # zuban: ignore[index ] # c" ++ [10].
Example fix_example :
  (gaps_check ex_1 (one_line 10) = true /\ all_leaves (one_line 10) = true /\
   insertion_point_for_type_ignore ex_1 (array (one_line 10)) 4 = Ok (Some (mk_insertion 5 None)) /\
   fixed_code ex_1 (mk_insertion 5 None) Type_ (txt "misc") = Ok (Some (txt "x = 1  # type: ignore[misc]  # c" ++ [10]))) /\
  (gaps_check ex_2 (one_line 34) = true /\ all_leaves (one_line 34) = true /\
   insertion_point_for_type_ignore ex_2 (array (one_line 34)) 4 = Ok (Some (mk_insertion 28 (Some Zuban))) /\
   fixed_code ex_2 (mk_insertion 28 (Some Zuban)) Zuban (txt "misc") = Ok (Some (txt "x = 1  # zuban: ignore[index, misc ] # c" ++ [10])) /\
   fixed_code ex_2 (mk_insertion 28 (Some Zuban)) Type_ (txt "misc") = Ok None).
Proof. refine (conj (conj _ (conj _ (conj _ _))) (conj _ (conj _ (conj _ (conj _ _))))); vm_compute; reflexivity. Qed.

(** A tab before an existing comment: the edit is offered and does not help. *)
Theorem C31_tab_refuted : exists t hi code i code',
  proper t /\ placed 0 t hi /\ gaps_of code t /\ (exists q, leaf_at t q /\ leaf_start t q = 4%nat) /\
  insertion_point_for_type_ignore code (array t) 4 = Ok (Some i) /\ fixed_code code i Type_ (txt "misc") = Ok (Some code') /\
  type_ignore_comment_for code' 4 5 = Ok None.
Proof.
  exists (one_line 9), 10%nat, (txt "x = 1" ++ [9] ++ txt "# c" ++ [10]), (mk_insertion 5 None), (txt "x = 1  # type: ignore[misc]" ++ [9] ++ txt "# c" ++ [10]).
  refine (conj (one_line_proper 9) (conj (one_line_placed 9 _) (conj _ (conj _ (conj _ (conj _ _)))))); try (vm_compute; reflexivity); [lia| |].
  - apply gaps_check_sound; vm_compute; reflexivity.
  - exists [0; 0; 2]%nat. split; [exists 3, 4%nat, 1%nat; reflexivity|reflexivity].
Qed.

Print Assumptions C30_suppressed.
Print Assumptions C30_region.
Print Assumptions C30_note.
Print Assumptions C30_file.
Print Assumptions C30_strings_refuted.
Print Assumptions C31_fix_works_partial.
Print Assumptions C31_total.
Print Assumptions C31_kinds.
Print Assumptions C31_tab_refuted.
