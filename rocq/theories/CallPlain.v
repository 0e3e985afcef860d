(** A positional argument with a member of its union in its place ([Overridden]) is treated like the positional argument. *)
From Coq Require Import List NArith Arith Bool Lia.
From Verif Require Import CallModel.
Import ListNotations.

Section Plain.
Variables (ty val : Type).

Definition plain_kind (k : arg_kind) : arg_kind := match k with Overridden Positional => Positional | k => k end.
Definition plain_arg (a : arg val) : arg val := mk_arg (a_index a) (plain_kind (a_kind a)) (a_star_star a) (a_value a).
Definition plain_state (s : state ty val) : state ty val :=
  mk_state (map plain_arg (arguments s)) (option_map plain_arg (current_arg s)) (params s)
    (map plain_arg (unused_keyword_arguments s)) (current_starred_param s)
    (current_double_starred_param s) (too_many_positional_arguments s) (arbitrary_length_handled s).
Definition plain_item (i : item ty val) : item ty val := (fst i, option_map plain_arg (snd i)).

Notation on f := (fun x => (f (fst x), plain_state (snd x))).

Lemma plain_arbitrary_len : forall a, arbitrary_len (plain_arg a) = arbitrary_len a.
Proof. intros [i [|n| | |[|m| | |o]] b v]; reflexivity. Qed.
Lemma plain_is_arbitrary_kwargs : forall a, is_arbitrary_kwargs (plain_arg a) = is_arbitrary_kwargs a.
Proof. intros [i [|n| | |[|m| | |o]] b v]; reflexivity. Qed.
Lemma plain_is_keyword_argument : forall a, is_keyword_argument (plain_arg a) = is_keyword_argument a.
Proof. intros [i [|n| | |[|m| | |o]] b v]; reflexivity. Qed.
Lemma plain_keyword_name : forall a, keyword_name (plain_arg a) = keyword_name a.
Proof. intros [i [|n| | |[|m| | |o]] b v]; reflexivity. Qed.
Lemma plain_can_be_used_to_match_positional_param : forall a, can_be_used_to_match_positional_param (plain_arg a) = can_be_used_to_match_positional_param a.
Proof. intros [i [|n| | |[|m| | |o]] b v]; reflexivity. Qed.
Lemma plain_after_kwargs : forall l : list (arg val), after_kwargs (map plain_arg l) =
  option_map (fun x => (plain_arg (fst x), map plain_arg (snd x))) (after_kwargs l).
Proof. induction l as [|a l IH]; [reflexivity|]. cbn. destruct (a_star_star a); [exact IH|reflexivity]. Qed.

Lemma plain_next_arg : forall s : state ty val, next_arg (plain_state s) = on (option_map plain_arg) (next_arg s).
Proof.
  intros [args cur ps un st ds tm h]; unfold next_arg, plain_state; cbn.
  destruct cur as [a|]; [|destruct args as [|a r]]; cbn.
  - replace (arbitrary_len (plain_arg a)) with (arbitrary_len a) by (symmetry; apply plain_arbitrary_len). destruct (arbitrary_len a); [|reflexivity].
    replace (is_arbitrary_kwargs (plain_arg a)) with (is_arbitrary_kwargs a) by (symmetry; apply plain_is_arbitrary_kwargs). destruct (is_arbitrary_kwargs a); [|reflexivity].
    cbn. rewrite plain_after_kwargs. destruct (after_kwargs args) as [[b l]|]; reflexivity.
  - reflexivity.
  - replace (arbitrary_len (plain_arg a)) with (arbitrary_len a) by (symmetry; apply plain_arbitrary_len). destruct (arbitrary_len a); [|reflexivity].
    replace (is_arbitrary_kwargs (plain_arg a)) with (is_arbitrary_kwargs a) by (symmetry; apply plain_is_arbitrary_kwargs). destruct (is_arbitrary_kwargs a); [|reflexivity].
    cbn. rewrite plain_after_kwargs. destruct (after_kwargs r) as [[b l]|]; reflexivity.
Qed.

Lemma plain_left : forall s : state ty val, arguments_left (plain_state s) = arguments_left s.
Proof. intros s; unfold arguments_left; cbn; rewrite map_length; reflexivity. Qed.

Lemma plain_multi : forall fuel k (s : state ty val),
  maybe_exact_multi_arg fuel k (plain_state s) = on (option_map plain_arg) (maybe_exact_multi_arg fuel k s).
Proof.
  induction fuel as [|fuel IH]; intros k s; [reflexivity|]. cbn [maybe_exact_multi_arg].
  rewrite plain_next_arg. destruct (next_arg s) as [[a|] s']; cbn [fst snd option_map]; [|reflexivity].
  replace (is_keyword_argument (plain_arg a)) with (is_keyword_argument a) by (symmetry; apply plain_is_keyword_argument).
  replace (arbitrary_len (plain_arg a)) with (arbitrary_len a) by (symmetry; apply plain_arbitrary_len).
  destruct (Bool.eqb (is_keyword_argument a) k); [reflexivity|].
  destruct (k && arbitrary_len a); [|reflexivity]. exact (IH k (set_current None s')).
Qed.

Lemma plain_check_unused : forall n (l : list (arg val)), check_unused n (map plain_arg l) =
  option_map (fun x => (plain_arg (fst x), map plain_arg (snd x))) (check_unused n l).
Proof.
  intros n l; induction l as [|a l IH]; [reflexivity|]. cbn [check_unused map].
  replace (keyword_name (plain_arg a)) with (keyword_name a) by (symmetry; apply plain_keyword_name).
  destruct (match keyword_name a with Some k => name_is n k | None => false end); [reflexivity|].
  rewrite IH. destruct (check_unused n l) as [[b r]|]; reflexivity.
Qed.

Lemma plain_from_unused : forall (p : ref ty) (s : state ty val),
  from_unused p (plain_state s) = on plain_item (from_unused p s).
Proof.
  intros p s; unfold from_unused. cbn [unused_keyword_arguments plain_state]. rewrite plain_check_unused.
  destruct (check_unused (p_name (snd p)) (unused_keyword_arguments s)) as [[b r]|]; reflexivity.
Qed.

Lemma plain_push : forall a (s : state ty val), push_unused (plain_arg a) (plain_state s) = plain_state (push_unused a s).
Proof. intros a s; unfold push_unused, plain_state, set_unused; cbn. rewrite map_app; reflexivity. Qed.

Lemma plain_pk : forall fuel (p : ref ty) (s : state ty val),
  positional_or_keyword fuel p (plain_state s) = on plain_item (positional_or_keyword fuel p s).
Proof.
  induction fuel as [|fuel IH]; intros p s; [reflexivity|]. cbn [positional_or_keyword].
  rewrite plain_next_arg. destruct (next_arg s) as [[a|] s']; cbn [fst snd option_map]; [|apply plain_from_unused].
  replace (keyword_name (plain_arg a)) with (keyword_name a) by (symmetry; apply plain_keyword_name).
  replace (is_arbitrary_kwargs (plain_arg a)) with (is_arbitrary_kwargs a) by (symmetry; apply plain_is_arbitrary_kwargs).
  destruct (keyword_name a) as [k|].
  - destruct (name_is (p_name (snd p)) k); [reflexivity|].
    rewrite plain_push. exact (IH p (push_unused a s')).
  - destruct (is_arbitrary_kwargs a); [|reflexivity].
    cbn [unused_keyword_arguments plain_state]. rewrite plain_check_unused.
    destruct (check_unused (p_name (snd p)) (unused_keyword_arguments s')) as [[b r]|]; reflexivity.
Qed.

Lemma plain_ko : forall fuel (p : ref ty) (s : state ty val),
  keyword_only fuel p (plain_state s) = on plain_item (keyword_only fuel p s).
Proof.
  induction fuel as [|fuel IH]; intros p s; [reflexivity|]. cbn [keyword_only].
  rewrite plain_next_arg. destruct (next_arg s) as [[a|] s']; cbn [fst snd option_map]; [|apply plain_from_unused].
  replace (keyword_name (plain_arg a)) with (keyword_name a) by (symmetry; apply plain_keyword_name).
  replace (arbitrary_len (plain_arg a)) with (arbitrary_len a) by (symmetry; apply plain_arbitrary_len).
  replace (is_arbitrary_kwargs (plain_arg a)) with (is_arbitrary_kwargs a) by (symmetry; apply plain_is_arbitrary_kwargs).
  destruct (is_arbitrary_kwargs a).
  - cbn [unused_keyword_arguments plain_state]. rewrite plain_check_unused.
    destruct (check_unused (p_name (snd p)) (unused_keyword_arguments s')) as [[b r]|]; reflexivity.
  - destruct (keyword_name a) as [k|].
    + destruct (name_is (p_name (snd p)) k); [reflexivity|].
      rewrite plain_push. exact (IH p (push_unused a s')).
    + destruct (arbitrary_len a); [exact (IH p (set_current None s'))|exact (IH p (set_too_many s'))].
Qed.

Lemma plain_po : forall (p : ref ty) (s : state ty val),
  positional_only p (plain_state s) = on plain_item (positional_only p s).
Proof.
  intros p s; unfold positional_only. rewrite plain_next_arg. destruct (next_arg s) as [[a|] s']; cbn [fst snd option_map]; [|reflexivity].
  replace (can_be_used_to_match_positional_param (plain_arg a)) with (can_be_used_to_match_positional_param a) by (symmetry; apply plain_can_be_used_to_match_positional_param).
  replace (keyword_name (plain_arg a)) with (keyword_name a) by (symmetry; apply plain_keyword_name).
  destruct (can_be_used_to_match_positional_param a); [reflexivity|]. destruct (keyword_name a); [|reflexivity].
  rewrite plain_push; reflexivity.
Qed.

Lemma plain_starred : forall s : state ty val, starred (plain_state s) = on (option_map plain_item) (starred s).
Proof.
  intros s; unfold starred. cbn [current_starred_param plain_state]. destruct (current_starred_param s) as [p|]; cbn [option_map]; [|reflexivity].
  rewrite plain_left, plain_multi. destruct (maybe_exact_multi_arg (arguments_left s) false s) as [[a|] s']; reflexivity.
Qed.

Lemma plain_double_starred : forall s : state ty val, double_starred (plain_state s) = on (option_map plain_item) (double_starred s).
Proof.
  intros s; unfold double_starred. cbn [current_double_starred_param plain_state].
  destruct (current_double_starred_param s) as [p|]; cbn [option_map]; [|reflexivity].
  rewrite plain_left, plain_multi. destruct (maybe_exact_multi_arg (arguments_left s) true s) as [[a|] s']; cbn [fst snd option_map]; [reflexivity|].
  cbn [unused_keyword_arguments plain_state]. rewrite <- map_rev.
  destruct (rev (unused_keyword_arguments s')) as [|u r]; cbn [map]; [reflexivity|].
  rewrite <- map_rev; reflexivity.
Qed.

Lemma plain_next : forall (todo : list (ref ty)) (s : state ty val),
  next todo (plain_state s) = on (option_map plain_item) (next todo s).
Proof.
  induction todo as [|p todo IH]; intros s; cbn [next map];
    rewrite plain_starred; destruct (starred s) as [[i|] s1]; cbn [fst snd option_map]; try reflexivity;
    rewrite plain_double_starred; destruct (double_starred s1) as [[i|] s2]; cbn [fst snd option_map]; try reflexivity.
  cbv zeta.
  destruct (p_kind (snd p)).
  - pose proof (plain_po p (set_params todo s2)) as E.
    change (set_params todo (plain_state s2)) with (plain_state (set_params todo s2)).
    rewrite E. destruct (positional_only p (set_params todo s2)); reflexivity.
  - change (set_params todo (plain_state s2)) with (plain_state (set_params todo s2)).
    rewrite plain_left. pose proof (plain_pk (arguments_left (set_params todo s2)) p (set_params todo s2)) as E.
    rewrite E. destruct (positional_or_keyword _ p (set_params todo s2)); reflexivity.
  - exact (IH (set_starred (Some p) (set_params todo s2))).
  - change (set_params todo (plain_state s2)) with (plain_state (set_params todo s2)).
    rewrite plain_left. pose proof (plain_ko (arguments_left (set_params todo s2)) p (set_params todo s2)) as E.
    rewrite E. destruct (keyword_only _ p (set_params todo s2)); reflexivity.
  - exact (IH (set_double_starred (Some p) (set_params todo s2))).
Qed.

Lemma plain_items : forall fuel (s : state ty val), items fuel (plain_state s) = on (map plain_item) (items fuel s).
Proof.
  induction fuel as [|fuel IH]; intros s; [reflexivity|]. cbn [items].
  replace (params (plain_state s)) with (params s) by reflexivity. rewrite plain_next.
  destruct (next (params s) s) as [[i|] s']; cbn [fst snd option_map]; [|reflexivity].
  rewrite IH. destruct (items fuel s') as [l s'']; reflexivity.
Qed.

Lemma plain_has_unused : forall fuel (s : state ty val), has_unused_arguments fuel (plain_state s) = has_unused_arguments fuel s.
Proof.
  induction fuel as [|fuel IH]; intros s; [reflexivity|]. cbn [has_unused_arguments]. rewrite plain_next_arg.
  destruct (next_arg s) as [[a|] s']; cbn [fst snd option_map]; [|reflexivity].
  replace (arbitrary_len (plain_arg a)) with (arbitrary_len a) by (symmetry; apply plain_arbitrary_len).
  destruct (arbitrary_len a); [|reflexivity]. exact (IH (set_current None s')).
Qed.


Lemma plain_run : forall (ps : list (param ty)) (args : list (arg val)),
  run ps (map plain_arg args) = on (map plain_item) (run ps args).
Proof.
  intros ps args; unfold run. rewrite map_length. exact (plain_items _ (new ps args)).
Qed.

Lemma match_plain : forall (fits : ty -> val -> bool) (ps : list (param ty)) (args : list (arg val)),
  match_arguments fits ps (map plain_arg args) = match_arguments fits ps args.
Proof.
  intros fits ps args; unfold match_arguments. rewrite plain_run.
  destruct (run ps args) as [l s]; cbn [fst snd].
  rewrite plain_left, plain_has_unused. cbn [too_many_positional_arguments unused_keyword_arguments plain_state].
  replace (match map plain_arg (unused_keyword_arguments s) with [] => true | _ => false end)
    with (match unused_keyword_arguments s with [] => true | _ => false end) by (destruct (unused_keyword_arguments s); reflexivity).
  f_equal. f_equal. f_equal. induction l as [|i l IH]; [reflexivity|]. cbn [map forallb]. rewrite IH. f_equal.
  destruct i as [r [a|]]; reflexivity.
Qed.

End Plain.
