(** C06, C07, C45, C46: paths. *)
From Coq Require Import NArith List Bool Lia.
From Verif Require Import PathSpec PathModel PathProofs.
Import ListNotations.
Open Scope N_scope.

(** C06: every absolute path denotes exactly one location and is normalised to the canonical spelling
    of this location: slash-separated names, none of them empty, [.] or [..]. *)
Theorem C06_canonical p :
  absolute p ->
  exists d, location p d /\ (forall d', location p d' -> d' = d) /\ Forall is_name d /\
            normalize p = spelling d /\ location (normalize p) d.
Proof.
  intros Hp. destruct (absolute_location p Hp) as (d & Hl & Hd).
  exists d. split; [exact Hl|]. split; [intros d' Hd'; exact (location_fun _ _ _ Hd' Hl)|].
  split; [exact Hd|]. rewrite (normalize_location p d Hl).
  split; [reflexivity|]. exact (location_spelling d Hd).
Qed.

Theorem C06_idempotent p : absolute p -> normalize (normalize p) = normalize p.
Proof.
  intros Hp. destruct (C06_canonical p Hp) as (d & Hl & _ & Hd & E & Hl').
  rewrite (normalize_location _ _ Hl'). symmetry. exact E.
Qed.

(** Two spellings are normalised to the same text iff they denote the same location. *)
Theorem C06_same_location p q d e :
  location p d -> location q e -> (normalize p = normalize q <-> d = e).
Proof.
  intros Hp Hq.
  assert (Hap : absolute p) by (destruct Hp as (r & -> & _); exists r; reflexivity).
  assert (Haq : absolute q) by (destruct Hq as (r & -> & _); exists r; reflexivity).
  rewrite (normalize_location p d Hp), (normalize_location q e Hq). split.
  - intros E.
    destruct (C06_canonical p Hap) as (d' & _ & Hu & Hd & _ & _).
    destruct (C06_canonical q Haq) as (e' & _ & Hu' & He & _ & _).
    rewrite <- (Hu d Hp) in Hd. rewrite <- (Hu' e Hq) in He.
    apply (location_fun (spelling d)); [exact (location_spelling d Hd)|].
    rewrite E. exact (location_spelling e He).
  - intros ->. reflexivity.
Qed.

(* "/a/./b//../c/" and "/a/c" *)
Example C06_case :
  normalize [47;97;47;46;47;98;47;47;46;46;47;99;47] = [47;97;47;99] /\
  absolute [47;97;47;46;47;98;47;47;46;46;47;99;47].
Proof. split; [reflexivity|eexists; reflexivity]. Qed.

(** At the entry point that also strips one trailing separator the root directory is lost: [/] becomes the
    empty path while [/a/..] becomes [/]. *)
Theorem C06_root_refuted :
  exists p q d, location p d /\ location q d /\
    normalize_unchecked_abs_path p <> normalize_unchecked_abs_path q /\
    ~ absolute (normalize_unchecked_abs_path p).
Proof.
  exists [47], [47;97;47;46;46], [].
  split; [|split; [|split]].
  - exists []. split; [reflexivity|]. apply (fwalk_walk [] []).
  - exists [97;47;46;46]. split; [reflexivity|]. apply (fwalk_walk [97;47;46;46] []).
  - vm_compute. discriminate.
  - vm_compute. intros (r & H). discriminate.
Qed.

(** For every other path text the entry point is canonical as well. *)
Theorem C06_entry_point p d :
  location p d -> p <> [SLASH] -> normalize_unchecked_abs_path p = spelling d.
Proof.
  intros Hl Hne. unfold normalize_unchecked_abs_path, unchecked_abs_path, strip_separator_suffix.
  destruct (rev p) as [|c r] eqn:Er.
  - exact (normalize_location p d Hl).
  - destruct (N.eqb_spec c SLASH) as [->|Hc]; [|exact (normalize_location p d Hl)].
    assert (Ep : p = rev r ++ [SLASH]).
    { rewrite <- (rev_involutive p), Er. reflexivity. }
    apply normalize_location. destruct Hl as (q & Eq & Hw).
    destruct (rev r) as [|x s] eqn:Es.
    + elim Hne. exact Ep.
    + rewrite Eq in Ep. injection Ep as <- ->. exists s. split; [reflexivity|].
      apply walk_fwalk in Hw. rewrite <- Hw. clear.
      assert (E : forall e, fwalk e (s ++ [SLASH]) = fwalk e s).
      { unfold fwalk. intros e. generalize (eq_refl (split SLASH s)).
        assert (Hs : forall t, split SLASH (t ++ [SLASH]) = split SLASH t ++ [[]]).
        { induction t as [|y t IH]; [reflexivity|]. cbn [app split]. destruct (y =? SLASH).
          - rewrite IH. reflexivity.
          - rewrite IH. destruct (split SLASH t) eqn:Et; [elim (split_nonempty _ _ Et)|]. reflexivity. }
        intros _. rewrite Hs, fold_left_app. reflexivity. }
      rewrite E. apply fwalk_walk.
Qed.

(** C07: a file rendered relative to a directory, walked from that directory, is the file again; also if the
    rendered text is joined to the directory and normalised. *)
Theorem C07_relative_roundtrip df dt :
  Forall is_name df -> Forall is_name dt ->
  exists r, path_relative_to (spelling df) (spelling dt) SLASH = Some r /\
            walk dt r df /\
            normalize (path_join (spelling dt) r) = spelling df.
Proof.
  intros Hf Ht. destruct (relative_walk df dt Hf Ht) as (r & E & Hw & Hr).
  exists r. split; [exact E|]. split; [rewrite <- Hw; apply fwalk_walk|].
  apply normalize_location. exact (path_join_location dt r df Ht Hr Hw).
Qed.

(* /b/c relative to /b/d/e *)
Example C07_case :
  path_relative_to [47;98;47;99] [47;98;47;100;47;101] SLASH = Some [46;46;47;46;46;47;99] /\
  Forall is_name [[98];[99]] /\ Forall is_name [[98];[100];[101]].
Proof.
  assert (H : forall c, c <> SLASH -> c <> DOT -> is_name [c]).
  { intros c Hc Hd. repeat split; try congruence. intros [E|[]]; congruence. }
  split; [reflexivity|]. split; repeat constructor; apply H; discriminate.
Qed.

(** Only paths of different kind (absolute / relative) or empty ones have no relative rendering. *)
Theorem C07_none_only_without_common_root from to :
  absolute from -> absolute to -> path_relative_to from to SLASH <> None.
Proof.
  intros (r & ->) (s & ->). unfold path_relative_to. cbn [components]. rewrite !N.eqb_refl.
  cbn [component_eqb]. destruct (drop_common _ _). discriminate.
Qed.

(** C45: a directory contains exactly the paths below it (and itself); [/foo] does not contain [/foobar]. *)
Theorem C45_containment p q dp dq :
  location p dp -> location q dq ->
  (contains_sub_file (normalize p) (normalize q) = true <-> exists r, dq = dp ++ r).
Proof.
  intros Hp Hq. rewrite (normalize_location p dp Hp), (normalize_location q dq Hq).
  apply contains_spec.
  - destruct Hp as (r & -> & Hw). apply walk_fwalk in Hw. rewrite <- Hw. apply fwalk_names. constructor.
  - destruct Hq as (r & -> & Hw). apply walk_fwalk in Hw. rewrite <- Hw. apply fwalk_names. constructor.
Qed.

Example C45_case :
  contains_sub_file [47;102] [47;102;47;103] = true /\ contains_sub_file [47;102] [47;102;103] = false.
Proof. split; reflexivity. Qed.

(** C46: splitting off the first or last item of a path loses nothing. *)
Theorem C46_split_first p :
  match split_off_first_item p with
  | (a, Some b) => p = a ++ SLASH :: b /\ ~ In SLASH a
  | (a, None) => p = a /\ ~ In SLASH p
  end.
Proof.
  unfold split_off_first_item. generalize (lsplit_spec SLASH p).
  destruct (lsplit SLASH p) as [(a, b)|]; intros H; [exact H|split; [reflexivity|exact H]].
Qed.

Theorem C46_split_last p :
  match split_off_last_item p with
  | (Some a, b) => p = a ++ SLASH :: b /\ ~ In SLASH b
  | (None, b) => p = b /\ ~ In SLASH p
  end.
Proof.
  unfold split_off_last_item. generalize (rsplit_spec SLASH p).
  destruct (rsplit SLASH p) as [(a, b)|]; intros H; [exact H|split; [reflexivity|exact H]].
Qed.

Example C46_case : split_off_last_item [97;47;98;47;99] = (Some [97;47;98], [99]).
Proof. reflexivity. Qed.

Print Assumptions C06_canonical.
Print Assumptions C06_idempotent.
Print Assumptions C06_same_location.
Print Assumptions C06_root_refuted.
Print Assumptions C06_entry_point.
Print Assumptions C07_relative_roundtrip.
Print Assumptions C07_none_only_without_common_root.
Print Assumptions C45_containment.
Print Assumptions C46_split_first.
Print Assumptions C46_split_last.
