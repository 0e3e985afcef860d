(** The iterator does not look at types, values and defaults: it does the same when they are replaced by marks. *)
From Coq Require Import List NArith Arith Bool Lia.
From Verif Require Import CallModel.
Import ListNotations.

Section Marks.
Variables (ty val : Type) (default : nat -> bool).

Definition mark_param (r : ref ty) : ref nat :=
  (fst r, mk_param (p_kind (snd r)) (p_name (snd r)) (default (fst r)) (Some (fst r))).
Definition mark_arg (a : arg val) : arg nat := mk_arg (a_index a) (a_kind a) (a_star_star a) (a_index a).
Definition mark_state (s : state ty val) : state nat nat :=
  mk_state (map mark_arg (arguments s)) (option_map mark_arg (current_arg s)) (map mark_param (params s))
    (map mark_arg (unused_keyword_arguments s)) (option_map mark_param (current_starred_param s))
    (option_map mark_param (current_double_starred_param s)) (too_many_positional_arguments s) (arbitrary_length_handled s).
Definition mark_item (i : item ty val) : item nat nat := (mark_param (fst i), option_map mark_arg (snd i)).

Notation on f := (fun x => (f (fst x), mark_state (snd x))).

Lemma mark_after_kwargs : forall l : list (arg val), after_kwargs (map mark_arg l) =
  option_map (fun x => (mark_arg (fst x), map mark_arg (snd x))) (after_kwargs l).
Proof. induction l as [|a l IH]; [reflexivity|]. cbn. destruct (a_star_star a); [exact IH|reflexivity]. Qed.

Lemma mark_next_arg : forall s : state ty val, next_arg (mark_state s) = on (option_map mark_arg) (next_arg s).
Proof.
  intros [args cur ps un st ds tm h]; unfold next_arg, mark_state; cbn.
  destruct cur as [a|]; [|destruct args as [|a r]]; cbn.
  - replace (arbitrary_len (mark_arg a)) with (arbitrary_len a) by reflexivity. destruct (arbitrary_len a); [|reflexivity].
    replace (is_arbitrary_kwargs (mark_arg a)) with (is_arbitrary_kwargs a) by reflexivity. destruct (is_arbitrary_kwargs a); [|reflexivity].
    cbn. rewrite mark_after_kwargs. destruct (after_kwargs args) as [[b l]|]; reflexivity.
  - reflexivity.
  - replace (arbitrary_len (mark_arg a)) with (arbitrary_len a) by reflexivity. destruct (arbitrary_len a); [|reflexivity].
    replace (is_arbitrary_kwargs (mark_arg a)) with (is_arbitrary_kwargs a) by reflexivity. destruct (is_arbitrary_kwargs a); [|reflexivity].
    cbn. rewrite mark_after_kwargs. destruct (after_kwargs r) as [[b l]|]; reflexivity.
Qed.

Lemma mark_left : forall s : state ty val, arguments_left (mark_state s) = arguments_left s.
Proof. intros s; unfold arguments_left; cbn; rewrite map_length; reflexivity. Qed.

Lemma mark_multi : forall fuel k (s : state ty val),
  maybe_exact_multi_arg fuel k (mark_state s) = on (option_map mark_arg) (maybe_exact_multi_arg fuel k s).
Proof.
  induction fuel as [|fuel IH]; intros k s; [reflexivity|]. cbn [maybe_exact_multi_arg].
  rewrite mark_next_arg. destruct (next_arg s) as [[a|] s']; cbn [fst snd option_map]; [|reflexivity].
  replace (is_keyword_argument (mark_arg a)) with (is_keyword_argument a) by reflexivity.
  replace (arbitrary_len (mark_arg a)) with (arbitrary_len a) by reflexivity.
  destruct (Bool.eqb (is_keyword_argument a) k); [reflexivity|].
  destruct (k && arbitrary_len a); [|reflexivity]. exact (IH k (set_current None s')).
Qed.

Lemma mark_check_unused : forall n (l : list (arg val)), check_unused n (map mark_arg l) =
  option_map (fun x => (mark_arg (fst x), map mark_arg (snd x))) (check_unused n l).
Proof.
  intros n l; induction l as [|a l IH]; [reflexivity|]. cbn [check_unused map].
  replace (keyword_name (mark_arg a)) with (keyword_name a) by reflexivity.
  destruct (match keyword_name a with Some k => name_is n k | None => false end); [reflexivity|].
  rewrite IH. destruct (check_unused n l) as [[b r]|]; reflexivity.
Qed.

Lemma mark_from_unused : forall (p : ref ty) (s : state ty val),
  from_unused (mark_param p) (mark_state s) = on mark_item (from_unused p s).
Proof.
  intros p s; unfold from_unused. cbn [unused_keyword_arguments mark_state mark_param snd p_name]. rewrite mark_check_unused.
  destruct (check_unused (p_name (snd p)) (unused_keyword_arguments s)) as [[b r]|]; reflexivity.
Qed.

Lemma mark_push : forall a (s : state ty val), push_unused (mark_arg a) (mark_state s) = mark_state (push_unused a s).
Proof. intros a s; unfold push_unused, mark_state, set_unused; cbn. rewrite map_app; reflexivity. Qed.

Lemma mark_pk : forall fuel (p : ref ty) (s : state ty val),
  positional_or_keyword fuel (mark_param p) (mark_state s) = on mark_item (positional_or_keyword fuel p s).
Proof.
  induction fuel as [|fuel IH]; intros p s; [reflexivity|]. cbn [positional_or_keyword].
  rewrite mark_next_arg. destruct (next_arg s) as [[a|] s']; cbn [fst snd option_map]; [|apply mark_from_unused].
  replace (keyword_name (mark_arg a)) with (keyword_name a) by reflexivity.
  replace (is_arbitrary_kwargs (mark_arg a)) with (is_arbitrary_kwargs a) by reflexivity.
  destruct (keyword_name a) as [k|].
  - cbn [mark_param snd p_name]. destruct (name_is (p_name (snd p)) k); [reflexivity|].
    rewrite mark_push. exact (IH p (push_unused a s')).
  - destruct (is_arbitrary_kwargs a); [|reflexivity].
    cbn [unused_keyword_arguments mark_state mark_param snd p_name]. rewrite mark_check_unused.
    destruct (check_unused (p_name (snd p)) (unused_keyword_arguments s')) as [[b r]|]; reflexivity.
Qed.

Lemma mark_ko : forall fuel (p : ref ty) (s : state ty val),
  keyword_only fuel (mark_param p) (mark_state s) = on mark_item (keyword_only fuel p s).
Proof.
  induction fuel as [|fuel IH]; intros p s; [reflexivity|]. cbn [keyword_only].
  rewrite mark_next_arg. destruct (next_arg s) as [[a|] s']; cbn [fst snd option_map]; [|apply mark_from_unused].
  replace (keyword_name (mark_arg a)) with (keyword_name a) by reflexivity.
  replace (arbitrary_len (mark_arg a)) with (arbitrary_len a) by reflexivity.
  replace (is_arbitrary_kwargs (mark_arg a)) with (is_arbitrary_kwargs a) by reflexivity.
  destruct (is_arbitrary_kwargs a).
  - cbn [unused_keyword_arguments mark_state mark_param snd p_name]. rewrite mark_check_unused.
    destruct (check_unused (p_name (snd p)) (unused_keyword_arguments s')) as [[b r]|]; reflexivity.
  - destruct (keyword_name a) as [k|].
    + cbn [mark_param snd p_name]. destruct (name_is (p_name (snd p)) k); [reflexivity|].
      rewrite mark_push. exact (IH p (push_unused a s')).
    + destruct (arbitrary_len a); [exact (IH p (set_current None s'))|exact (IH p (set_too_many s'))].
Qed.

Lemma mark_po : forall (p : ref ty) (s : state ty val),
  positional_only (mark_param p) (mark_state s) = on mark_item (positional_only p s).
Proof.
  intros p s; unfold positional_only. rewrite mark_next_arg. destruct (next_arg s) as [[a|] s']; cbn [fst snd option_map]; [|reflexivity].
  replace (can_be_used_to_match_positional_param (mark_arg a)) with (can_be_used_to_match_positional_param a) by reflexivity.
  replace (keyword_name (mark_arg a)) with (keyword_name a) by reflexivity.
  destruct (can_be_used_to_match_positional_param a); [reflexivity|]. destruct (keyword_name a); [|reflexivity].
  rewrite mark_push; reflexivity.
Qed.

Lemma mark_starred : forall s : state ty val, starred (mark_state s) = on (option_map mark_item) (starred s).
Proof.
  intros s; unfold starred. cbn [current_starred_param mark_state]. destruct (current_starred_param s) as [p|]; cbn [option_map]; [|reflexivity].
  rewrite mark_left, mark_multi. destruct (maybe_exact_multi_arg (arguments_left s) false s) as [[a|] s']; reflexivity.
Qed.

Lemma mark_double_starred : forall s : state ty val, double_starred (mark_state s) = on (option_map mark_item) (double_starred s).
Proof.
  intros s; unfold double_starred. cbn [current_double_starred_param mark_state].
  destruct (current_double_starred_param s) as [p|]; cbn [option_map]; [|reflexivity].
  rewrite mark_left, mark_multi. destruct (maybe_exact_multi_arg (arguments_left s) true s) as [[a|] s']; cbn [fst snd option_map]; [reflexivity|].
  cbn [unused_keyword_arguments mark_state]. rewrite <- map_rev.
  destruct (rev (unused_keyword_arguments s')) as [|u r]; cbn [map]; [reflexivity|].
  rewrite <- map_rev; reflexivity.
Qed.

Lemma mark_next : forall (todo : list (ref ty)) (s : state ty val),
  next (map mark_param todo) (mark_state s) = on (option_map mark_item) (next todo s).
Proof.
  induction todo as [|p todo IH]; intros s; cbn [next map];
    rewrite mark_starred; destruct (starred s) as [[i|] s1]; cbn [fst snd option_map]; try reflexivity;
    rewrite mark_double_starred; destruct (double_starred s1) as [[i|] s2]; cbn [fst snd option_map]; try reflexivity.
  change (p_kind (snd (mark_param p))) with (p_kind (snd p)). cbv zeta.
  destruct (p_kind (snd p)).
  - pose proof (mark_po p (set_params todo s2)) as E.
    change (set_params (map mark_param todo) (mark_state s2)) with (mark_state (set_params todo s2)).
    rewrite E. destruct (positional_only p (set_params todo s2)); reflexivity.
  - change (set_params (map mark_param todo) (mark_state s2)) with (mark_state (set_params todo s2)).
    rewrite mark_left. pose proof (mark_pk (arguments_left (set_params todo s2)) p (set_params todo s2)) as E.
    rewrite E. destruct (positional_or_keyword _ p (set_params todo s2)); reflexivity.
  - exact (IH (set_starred (Some p) (set_params todo s2))).
  - change (set_params (map mark_param todo) (mark_state s2)) with (mark_state (set_params todo s2)).
    rewrite mark_left. pose proof (mark_ko (arguments_left (set_params todo s2)) p (set_params todo s2)) as E.
    rewrite E. destruct (keyword_only _ p (set_params todo s2)); reflexivity.
  - exact (IH (set_double_starred (Some p) (set_params todo s2))).
Qed.

Lemma mark_items : forall fuel (s : state ty val), items fuel (mark_state s) = on (map mark_item) (items fuel s).
Proof.
  induction fuel as [|fuel IH]; intros s; [reflexivity|]. cbn [items].
  replace (params (mark_state s)) with (map mark_param (params s)) by reflexivity. rewrite mark_next.
  destruct (next (params s) s) as [[i|] s']; cbn [fst snd option_map]; [|reflexivity].
  rewrite IH. destruct (items fuel s') as [l s'']; reflexivity.
Qed.

Lemma mark_has_unused : forall fuel (s : state ty val), has_unused_arguments fuel (mark_state s) = has_unused_arguments fuel s.
Proof.
  induction fuel as [|fuel IH]; intros s; [reflexivity|]. cbn [has_unused_arguments]. rewrite mark_next_arg.
  destruct (next_arg s) as [[a|] s']; cbn [fst snd option_map]; [|reflexivity].
  replace (arbitrary_len (mark_arg a)) with (arbitrary_len a) by reflexivity.
  destruct (arbitrary_len a); [|reflexivity]. exact (IH (set_current None s')).
Qed.

Definition marked (ps : list (param ty)) : list (param nat) :=
  map snd (map mark_param (combine (seq 0 (length ps)) ps)).

Lemma marked_length : forall ps, length (marked ps) = length ps.
Proof. intros ps; unfold marked; rewrite !map_length. etransitivity; [apply combine_length|]. rewrite seq_length; lia. Qed.

Lemma combine_map_snd : forall A B C (f : A * B -> A * C) (l : list A) (m : list B), length l = length m ->
  (forall x, fst (f x) = fst x) -> combine l (map snd (map f (combine l m))) = map f (combine l m).
Proof.
  intros A B C f l; induction l as [|a l IH]; intros m Hl Hf; [reflexivity|].
  destruct m as [|b m]; [discriminate|]. cbn. rewrite (IH m (f_equal pred Hl) Hf). f_equal.
  specialize (Hf (a, b)); destruct (f (a, b)); cbn in *; congruence.
Qed.

Lemma mark_new : forall (ps : list (param ty)) (args : list (arg val)),
  new (marked ps) (map mark_arg args) = mark_state (new ps args).
Proof.
  intros ps args; unfold new, mark_state; cbn. rewrite marked_length. f_equal.
  apply (combine_map_snd nat (param ty) (param nat) mark_param); [apply seq_length|reflexivity].
Qed.

Lemma mark_run : forall (ps : list (param ty)) (args : list (arg val)),
  run (marked ps) (map mark_arg args) = on (map mark_item) (run ps args).
Proof.
  intros ps args; unfold run. rewrite mark_new, marked_length, map_length. apply mark_items.
Qed.

(** What is decided by the places alone. *)
Definition ends_well (ps : list (param ty)) (args : list (arg val)) : bool :=
  let s := snd (run ps args) in
  negb (too_many_positional_arguments s) && negb (has_unused_arguments (arguments_left s) s) &&
  match unused_keyword_arguments s with [] => true | _ => false end.

Lemma match_marked : forall (fits : nat -> nat -> bool) (ps : list (param ty)) (args : list (arg val)),
  match_arguments fits (marked ps) (map mark_arg args) =
  forallb (fun i => match snd i with
                    | None => default (fst (fst i))
                    | Some a => fits (fst (fst i)) (a_index a)
                    end) (fst (run ps args)) && ends_well ps args.
Proof.
  intros fits ps args; unfold match_arguments, ends_well. rewrite mark_run.
  destruct (run ps args) as [l s]; cbn [fst snd].
  rewrite mark_left, mark_has_unused. cbn [too_many_positional_arguments unused_keyword_arguments mark_state].
  replace (match map mark_arg (unused_keyword_arguments s) with [] => true | _ => false end)
    with (match unused_keyword_arguments s with [] => true | _ => false end) by (destruct (unused_keyword_arguments s); reflexivity).
  rewrite <- !andb_assoc. f_equal. induction l as [|i l IH]; [reflexivity|]. cbn [map forallb]. rewrite IH. f_equal.
  destruct i as [r [a|]]; reflexivity.
Qed.

End Marks.

Lemma match_ends_well : forall ty val (fits : ty -> val -> bool) ps args,
  match_arguments fits ps args = forallb (item_matches fits) (fst (run ps args)) && ends_well ty val ps args.
Proof.
  intros ty val fits ps args; unfold match_arguments, ends_well. destruct (run ps args) as [l s]; cbn [fst snd].
  rewrite !andb_assoc; reflexivity.
Qed.
