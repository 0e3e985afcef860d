From Coq Require Import List Bool String Arith Lia.
From Verif Require Import ImportModel ImportSpec ImportProofs ImportPropProofs.
Import ListNotations.
Open Scope string_scope.
Open Scope list_scope.

Lemma below_dec : forall p q, below p q \/ ~ below p q.
Proof.
  induction p as [|a p IH]; intros q; [left; exists q; reflexivity|].
  destruct q as [|b q]; [right; intros [r E]; discriminate|].
  destruct (string_dec a b) as [->|N].
  - destruct (IH q) as [[r ->]|H]; [left; exists r; reflexivity|]. right. intros [r E]. injection E as E. apply H. exists r. exact E.
  - right. intros [r E]. injection E as E _. congruence.
Qed.

Lemma below_app : forall p q r, below p q -> below p (q ++ r).
Proof. intros p q r [x ->]. exists (x ++ r). rewrite app_assoc. reflexivity. Qed.

Lemma below_snoc : forall p d n, below p (d ++ [n]) -> p = d ++ [n] \/ below p d.
Proof.
  intros p d n [r E]. destruct r as [|a r] using rev_ind.
  - left. rewrite app_nil_r in E. congruence.
  - right. rewrite app_assoc in E. apply app_inj_tail in E. exists r. tauto.
Qed.

Section Change.
  Variables (t t' : item) (follow : bool) (name : string) (stubs : bool).
  Notation FS := (kind_at t).
  Notation FS' := (kind_at t').
  Variable p : list string.
  Hypothesis Change : changed_at p FS FS'.

  (** The event for [p] reaches somebody who registered. *)
  Definition told (regs : list reg) : Prop :=
    exists w, below p w /\ (In (Depends w) regs \/ In (Absent w) regs /\ FS w = None).

  (** Nothing has the wrong kind: no file without a suffix, no directory with one. *)
  Definition plain (d : list string) : Prop :=
    FS (d ++ [name]) <> Some KFile /\ FS (stub_init name d) <> Some KDir /\ FS (source_init name d) <> Some KDir /\
    (stubs = true -> FS (stub_file name d) <> Some KDir) /\ FS (source_file name d) <> Some KDir.

  Lemma told_mono : forall a b c, told b -> told (a ++ b ++ c).
  Proof.
    intros a b c [w [B [H|[H K]]]]; exists w; (split; [exact B|]).
    - left. apply in_or_app. right. apply in_or_app. left. exact H.
    - right. split; [|exact K]. apply in_or_app. right. apply in_or_app. left. exact H.
  Qed.

  Lemma same_or : forall q, below p q \/ FS' q = FS q.
  Proof. intros q. destruct (below_dec p q) as [B|B]; [left; exact B|]. right. symmetry. apply (proj1 Change). exact B. Qed.

  Lemma none_if : forall k : option kind, k <> Some KFile -> k <> Some KDir -> k = None.
  Proof. intros [[|]|] A B; congruence. Qed.

  Lemma under_none : forall (x : item) d n, kind_at x (d ++ [name]) = None -> kind_at x (d ++ [name; n]) = None.
  Proof.
    intros x d n H. destruct (kind_at x (d ++ [name; n])) eqn:E; [|reflexivity]. exfalso.
    assert (K : kind_at x (d ++ [name]) = Some KDir).
    { apply (below_file x (d ++ [name]) [n]); [discriminate|]. rewrite snoc_snoc. congruence. }
    congruence.
  Qed.

  Lemma one_stable : forall x, plain (fst x) -> snd x && negb follow = false ->
    match one t follow name stubs x with
    | Found (RFile f) regs =>
        (module_file FS stubs name (fst x) f -> p <> fst x ++ [name] /\ (f = source_file name (fst x) -> p <> stub_file name (fst x))) ->
        told regs \/ exists regs', one t' follow name stubs x = Found (RFile f) regs'
    | Found _ _ => False
    | Go regs => told regs \/ (exists regs', one t' follow name stubs x = Go regs') /\
                              is_dir (FS' (fst x ++ [name])) = is_dir (FS (fst x ++ [name]))
    end.
  Proof.
    intros [d needs] [P1 [P2 [P3 [P4 P5]]]] U. unfold one, fs. cbn [fst snd] in *. rewrite U. cbn [andb].
    destruct (is_file (FS (stub_init name d))) eqn:E1.
    { intros _. destruct (same_or (stub_init name d)) as [B|B].
      - left. exists (stub_init name d). split; [exact B|]. left. left. reflexivity.
      - right. rewrite B, E1. eexists. reflexivity. }
    assert (N1 : FS (stub_init name d) = None) by (apply none_if; [apply not_file; exact E1|exact P2]).
    destruct (is_file (FS (source_init name d))) eqn:E2.
    { intros _. destruct (same_or (stub_init name d)) as [B|B].
      - left. exists (stub_init name d). split; [exact B|]. right. split; [left; reflexivity|exact N1].
      - destruct (same_or (source_init name d)) as [B'|B'].
        + left. exists (source_init name d). split; [exact B'|]. left. right. left. reflexivity.
        + right. rewrite B, E1, B', E2. eexists. reflexivity. }
    assert (N2 : FS (source_init name d) = None) by (apply none_if; [apply not_file; exact E2|exact P3]).
    set (pre := if is_dir (FS (d ++ [name])) then [Absent (stub_init name d); Absent (source_init name d)] else []).
    (* no package appears, if nobody is told *)
    assert (Pre : forall post, p <> d ++ [name] \/ In (Absent (d ++ [name])) post \/ FS (d ++ [name]) = Some KDir ->
      (below p d -> told (pre ++ post)) -> told (pre ++ post) \/
      is_file (FS' (stub_init name d)) = false /\ is_file (FS' (source_init name d)) = false /\ FS' (d ++ [name]) = FS (d ++ [name])).
    { intros post X Y. destruct (is_dir (FS (d ++ [name]))) eqn:ED.
      - destruct (same_or (stub_init name d)) as [B|B].
        { left. exists (stub_init name d). split; [exact B|]. right. split; [left; reflexivity|exact N1]. }
        destruct (same_or (source_init name d)) as [B'|B'].
        { left. exists (source_init name d). split; [exact B'|]. right. split; [right; left; reflexivity|exact N2]. }
        destruct (same_or (d ++ [name])) as [B''|B''].
        { left. exists (stub_init name d). split.
          - unfold stub_init. change [name; "__init__.pyi"] with ([name] ++ ["__init__.pyi"]). rewrite app_assoc. apply below_app. exact B''.
          - right. split; [left; reflexivity|exact N1]. }
        right. rewrite B, E1, B', E2. repeat split. exact B''.
      - assert (N0 : FS (d ++ [name]) = None).
        { apply none_if; [exact P1|]. intros E. rewrite E in ED. discriminate. }
        destruct (same_or (d ++ [name])) as [B|B].
        + destruct X as [X|[X|X]].
          * destruct (below_snoc _ _ _ B) as [Q|Q]; [congruence|]. left. exact (Y Q).
          * left. exists (d ++ [name]). split; [exact B|]. right. split; [|exact N0]. apply in_or_app. right. exact X.
          * congruence.
        + right. assert (Z : FS' (d ++ [name]) = None) by congruence. unfold stub_init, source_init.
          rewrite !(under_none t' d _ Z). repeat split. exact B. }
    destruct (stubs && is_file (FS (stub_file name d))) eqn:E3.
    { apply andb_prop in E3. destruct E3 as [S F]. intros Ex.
      assert (M : module_file FS stubs name d (stub_file name d)) by (left; repeat split; [exact S|apply is_file_iff; exact F]).
      specialize (Ex M). destruct Ex as [Ex _].
      destruct (Pre [Depends (stub_file name d)]) as [T|[A [B C]]]; [left; exact Ex| |left; exact T|].
      { intros Q. exists (stub_file name d). split; [apply below_app; exact Q|]. left. apply in_or_app. right. left. reflexivity. }
      destruct (same_or (stub_file name d)) as [D|D].
      { left. exists (stub_file name d). split; [exact D|]. left. apply in_or_app. right. left. reflexivity. }
      right. rewrite A, B, D, S, F. cbn. eexists. reflexivity. }
    destruct (is_file (FS (source_file name d))) eqn:E4.
    { intros Ex.
      assert (M : module_file FS stubs name d (source_file name d)).
      { right. split; [reflexivity|]. split; [apply is_file_iff; exact E4|]. intros [S H]. rewrite S, H in E3. discriminate. }
      specialize (Ex M). destruct Ex as [Ex Ex']. specialize (Ex' eq_refl).
      destruct (Pre [Depends (source_file name d)]) as [T|[A [B C]]]; [left; exact Ex| |left; exact T|].
      { intros Q. exists (source_file name d). split; [apply below_app; exact Q|]. left. apply in_or_app. right. left. reflexivity. }
      destruct (same_or (source_file name d)) as [D|D].
      { left. exists (source_file name d). split; [exact D|]. left. apply in_or_app. right. left. reflexivity. }
      destruct (same_or (stub_file name d)) as [D'|D'].
      { left. destruct (below_snoc _ _ _ D') as [Q|Q]; [unfold stub_file in Ex'; congruence|].
        exists (source_file name d). split; [apply below_app; exact Q|]. left. apply in_or_app. right. left. reflexivity. }
      right. rewrite A, B, D, D', E3, E4. cbn. eexists. reflexivity. }
    assert (N4 : FS (source_file name d) = None) by (apply none_if; [apply not_file; exact E4|exact P5]).
    match goal with |- told (_ ++ ?P) \/ _ => set (post := P) end.
    assert (Tsrc : below p (source_file name d) -> told (pre ++ post)).
    { intros Q. exists (source_file name d). split; [exact Q|]. right. split; [|exact N4]. apply in_or_app. right. left. reflexivity. }
    destruct (Pre post) as [T|[A [B C]]].
    { destruct (is_dir (FS (d ++ [name]))) eqn:ED.
      - right. right. apply is_dir_iff. exact ED.
      - right. left. unfold post. cbn [app]. right. apply in_or_app. right. left. reflexivity. }
    { intros Q. apply Tsrc. apply below_app. exact Q. }
    { left. exact T. }
    destruct (same_or (source_file name d)) as [D|D]; [left; exact (Tsrc D)|].
    assert (S3 : told (pre ++ post) \/ stubs && is_file (FS' (stub_file name d)) = false).
    { destruct stubs eqn:S; [|right; reflexivity]. cbn [andb] in *.
      destruct (same_or (stub_file name d)) as [D'|D']; [|right; rewrite D'; exact E3].
      left. exists (stub_file name d). split; [exact D'|]. right. split.
      - apply in_or_app. right. unfold post. right. left. reflexivity.
      - apply none_if; [apply not_file; exact E3|apply P4; reflexivity]. }
    destruct S3 as [T|S3]; [left; exact T|].
    right. rewrite A, B, S3, D, E4, C. split; [eexists; reflexivity|reflexivity].
  Qed.

  Lemma resolve_regs : forall dirs ns regs, exists more, snd (resolve t follow name stubs dirs ns regs) = regs ++ more.
  Proof.
    induction dirs as [|x r IH]; intros ns regs; cbn [resolve].
    - exists []. cbn. rewrite app_nil_r. reflexivity.
    - destruct (one t follow name stubs x) as [res g|g]; [exists g; reflexivity|].
      destruct (IH (ns ++ if is_dir (fs t (fst x ++ [name])) then [fst x ++ [name]] else []) (regs ++ g)) as [m E].
      rewrite E. exists (g ++ m). rewrite app_assoc. reflexivity.
  Qed.

  Lemma resolve_stable : forall dirs ns regs regs',
    (forall x, In x dirs -> plain (fst x) /\ snd x && negb follow = false) ->
    (forall f x, fst (resolve t follow name stubs dirs ns regs) = Some (RFile f) -> In x dirs ->
       module_file FS stubs name (fst x) f ->
       p <> fst x ++ [name] /\ (f = source_file name (fst x) -> p <> stub_file name (fst x))) ->
    told (snd (resolve t follow name stubs dirs ns regs)) \/
    fst (resolve t follow name stubs dirs ns regs) = fst (resolve t' follow name stubs dirs ns regs').
  Proof.
    induction dirs as [|x r IH]; intros ns regs regs' Pl Ex; [right; reflexivity|].
    destruct (Pl x (or_introl eq_refl)) as [Px Ux]. assert (O := one_stable x Px Ux). cbn [resolve] in *.
    destruct (one t follow name stubs x) as [[f|l|f] g|g] eqn:E; try contradiction.
    - destruct O as [T|[g' E']].
      + intros M. apply (Ex f x); [reflexivity|left; reflexivity|exact M].
      + left. cbn. replace (regs ++ g) with (regs ++ g ++ []) by (rewrite app_nil_r; reflexivity). apply told_mono. exact T.
      + right. rewrite E'. reflexivity.
    - destruct O as [T|[[g' E'] D]].
      + left. match goal with |- told (snd (resolve _ _ _ _ _ ?N ?R)) => destruct (resolve_regs r N R) as [m Em] end.
        rewrite Em, <- app_assoc. apply told_mono. exact T.
      + rewrite E'. unfold fs in *. rewrite D. apply IH; [intros y Hy; apply Pl; right; exact Hy|].
        intros f y F Hy M. apply (Ex f y F); [right; exact Hy|exact M].
  Qed.
End Change.
