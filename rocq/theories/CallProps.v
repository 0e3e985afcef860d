(** C49: a call with positional and keyword arguments is accepted exactly when Python would execute it and every
    argument has the type of its parameter; arguments reach the parameters that Python gives them to. *)
From Coq Require Import List NArith Arith Bool Lia Permutation.
From Verif Require Import CallModel CallSpec CallFacts CallProofs CallMarks.
Import ListNotations.

(** The arguments as the checker sees them: in the order of the source, numbered. *)
Definition positional_arg {val} (i : nat) (v : val) : arg val := mk_arg i Positional false v.
Definition keyword_arg {val} (i : nat) (nv : N * val) : arg val := mk_arg i (Keyword (fst nv)) false (snd nv).
Fixpoint numbered {A B} (f : nat -> A -> B) (i : nat) (l : list A) : list B :=
  match l with [] => [] | x :: r => f i x :: numbered f (S i) r end.
Definition arguments_of {val} (c : call val) : list (arg val) :=
  numbered positional_arg 0 (by_position c) ++ numbered keyword_arg (length (by_position c)) (by_name c).

(** A name that is given by keyword is also the name of a parameter that gets a positional argument. *)
Definition collides {ty val} (ps : list (param ty)) (c : call val) : Prop :=
  exists i p n, i < length (by_position c) /\ nth_error ps i = Some p /\ p_kind p = PositionalOrKeyword /\
    p_name p = Some n /\ In n (map fst (by_name c)).
(** [**kwargs] *)
Definition takes_any_name {ty} (ps : list (param ty)) : Prop := exists p, In p ps /\ p_kind p = StarStar.

Lemma numbered_length : forall A B (f : nat -> A -> B) l i, length (numbered f i l) = length l.
Proof. intros A B f l; induction l as [|x l IH]; intros i; cbn; [|rewrite IH]; reflexivity. Qed.

Lemma numbered_nth : forall A B (f : nat -> A -> B) l i j, nth_error (numbered f i l) j = option_map (f (i + j)) (nth_error l j).
Proof.
  intros A B f l; induction l as [|x l IH]; intros i j; [destruct j; reflexivity|]. destruct j as [|j]; cbn.
  - rewrite Nat.add_0_r; reflexivity.
  - rewrite IH. replace (S i + j) with (i + S j) by lia; reflexivity.
Qed.

Lemma numbered_positional : forall val (l : list val) i, Forall (is_pos val) (numbered positional_arg i l) /\
  map a_value (numbered positional_arg i l) = l.
Proof.
  intros val l; induction l as [|v l IH]; intros i; [split; [constructor|reflexivity]|].
  destruct (IH (S i)) as [A B]; cbn. rewrite B. split; [constructor; [reflexivity|exact A]|reflexivity].
Qed.

Lemma numbered_keyword : forall val (l : list (N * val)) i, Forall (is_kw val) (numbered keyword_arg i l) /\
  map (kv val) (numbered keyword_arg i l) = l.
Proof.
  intros val l; induction l as [|(n & v) l IH]; intros i; [split; [constructor|reflexivity]|].
  destruct (IH (S i)) as [A B]; cbn. rewrite B. split; [constructor; [exists n; reflexivity|exact A]|reflexivity].
Qed.

Lemma map_snd_combine : forall A B (l : list A) (m : list B), length l = length m -> map snd (combine l m) = m.
Proof.
  intros A B l; induction l as [|a l IH]; intros [|b m] H; try discriminate; [reflexivity|]. cbn; rewrite IH; auto.
Qed.

Section Props.
Variables (ty val : Type) (fits : ty -> val -> bool).
Notation right_type := (fun t v => fits t v = true).

Lemma match_binds : forall ps c, signature ps -> distinct_names c ->
  (match_arguments fits ps (arguments_of c) = true <-> binds ty val fits ps (by_position c) (by_name c)).
Proof.
  intros ps c Hsig Hc. rewrite match_arguments_answer.
  destruct (numbered_positional val (by_position c) 0) as [FP EP].
  destruct (numbered_keyword val (by_name c) (length (by_position c))) as [FK EK].
  assert (Esnd : map snd (combine (seq 0 (length ps)) ps) = ps) by (apply map_snd_combine; apply seq_length).
  rewrite (simulation ty val fits (combine (seq 0 (length ps)) ps) (numbered positional_arg 0 (by_position c))
    (numbered keyword_arg (length (by_position c)) (by_name c))).
  - cbn [unused_keyword_arguments new too_many_positional_arguments]. rewrite app_nil_r, EP, EK.
    replace (map snd (combine (seq 0 (length ps)) ps)) with ps by (symmetry; exact Esnd). tauto.
  - reflexivity.
  - constructor; try assumption; try reflexivity. constructor.
  - replace (map snd (combine (seq 0 (length ps)) ps)) with ps by (symmetry; exact Esnd). exact Hsig.
  - cbn [unused_keyword_arguments new]. unfold once. rewrite app_nil_r, EK. exact Hc.
  - cbn [unused_keyword_arguments new]. unfold arguments_of. rewrite app_length, !numbered_length.
    assert (El : @length (ref ty) (combine (seq 0 (length ps)) ps) = length ps) by (etransitivity; [apply combine_length|rewrite seq_length; lia]).
    rewrite El. cbn; lia.
Qed.

(** No false error: what Python executes with values of the right types is accepted. *)
Theorem C49_complete : forall ps c, signature ps -> distinct_names c ->
  accepts right_type ps c -> match_arguments fits ps (arguments_of c) = true.
Proof.
  intros ps c Hsig Hc H. apply match_binds; [assumption|assumption|].
  destruct c as [vs K]. apply (accepts_binds ty val fits ps vs K Hsig Hc) in H. apply H.
Qed.

Lemma no_collision_iff : forall ps c, no_collision ty val ps (by_position c) (by_name c) <-> ~ collides ps c.
Proof.
  intros ps c; split.
  - intros H (i & p & n & A & B & C & D & E). exact (H i p n A B C D E).
  - intros H i p n A B C D E. apply H; exists i, p, n; auto.
Qed.

(** The answer, exactly. *)
Theorem C49_exact_partial : forall ps c, signature ps -> distinct_names c -> ~ collides ps c ->
  (match_arguments fits ps (arguments_of c) = true <-> accepts right_type ps c).
Proof.
  intros ps c Hsig Hc Hno. rewrite match_binds by assumption. apply no_collision_iff in Hno.
  destruct c as [vs K]. rewrite (accepts_binds ty val fits ps vs K Hsig Hc). cbn in *; tauto.
Qed.

Lemma names_known : forall ps vs K, binds ty val fits ps vs K -> ~ takes_any_name ps ->
  forall n, In n (map fst K) -> exists q, In q ps /\ named n q.
Proof.
  induction ps as [|p r IH]; intros vs K H Hno n Hn; cbn [binds] in H.
  - destruct H as [_ ->]. destruct Hn.
  - assert (Hno' : ~ takes_any_name r) by (intros (q & Hq & E); apply Hno; exists q; split; [right|]; assumption).
    assert (Hr : forall vs K', In n (map fst K') -> binds ty val fits r vs K' -> exists q, In q (p :: r) /\ named n q).
    { intros ws K' Hn' H'. destruct (IH ws K' H' Hno' n Hn') as (q & Hq & Hnq). exists q; split; [right|]; assumption. }
    assert (Hkw : p_kind p = PositionalOrKeyword \/ p_kind p = KeywordOnly -> by_kw ty val fits p (binds ty val fits r []) K ->
      exists q, In q (p :: r) /\ named n q).
    { intros Hk [(m & v & Hm & _ & _ & H')|(_ & _ & H')].
      - destruct (N.eq_dec n m) as [->|Hne]; [exists p; split; [left; reflexivity|split; assumption]|].
        apply (Hr [] (without val m K)); [|exact H']. apply in_map_iff in Hn as ((k & w) & E & Hin); cbn in E; subst k.
        apply in_map_iff; exists (n, w); split; [reflexivity|]. apply in_without; split; assumption.
      - exact (Hr [] K Hn H'). }
    destruct (p_kind p) eqn:Ek.
    + destruct vs as [|v vs]; destruct H as [_ H]; eapply Hr; eassumption.
    + destruct vs as [|v vs]; [apply Hkw; [left; reflexivity|exact H]|]. destruct H as [_ H]; eapply Hr; eassumption.
    + destruct H as [_ H]; eapply Hr; eassumption.
    + destruct H as [_ H]; apply Hkw; [right; reflexivity|exact H].
    + exfalso; apply Hno; exists p; split; [left; reflexivity|exact Ek].
Qed.

Lemma binds_no_collision : forall ps vs K, signature ps -> ~ takes_any_name ps -> binds ty val fits ps vs K ->
  no_collision ty val ps vs K.
Proof.
  induction ps as [|p r IH]; intros vs K Hsig Hno H i q n Hi Hq Hk Hn Hin.
  - destruct i; discriminate.
  - assert (Hno' : ~ takes_any_name r) by (intros (x & Hx & E); apply Hno; exists x; split; [right|]; assumption).
    pose proof (signature_tail _ _ _ Hsig) as Hsig'.
    destruct (le_lt_dec 2 (rank (p_kind p))) as [Hl|Hl].
    { exact (no_collision_late ty val p r vs K Hsig Hl i q n Hi Hq Hk Hn Hin). }
    destruct vs as [|v vs]; [cbn in Hi; lia|].
    assert (H' : binds ty val fits r vs K).
    { cbn [binds] in H; destruct (p_kind p); cbn in Hl; try lia; apply H. }
    destruct i as [|i]; cbn [nth_error] in Hq.
    + injection Hq as ->. destruct (names_known r vs K H' Hno' n Hin) as (x & Hx & Hnx).
      refine (signature_named _ _ _ _ _ Hsig Hx _ Hnx). split; [left; exact Hk|exact Hn].
    + cbn in Hi. exact (IH vs K Hsig' Hno' H' i q n ltac:(lia) Hq Hk Hn Hin).
Qed.

(** No missed error, for functions without [**kwargs]. *)
Theorem C49_sound_partial : forall ps c, signature ps -> distinct_names c -> ~ takes_any_name ps ->
  match_arguments fits ps (arguments_of c) = true -> accepts right_type ps c.
Proof.
  intros ps c Hsig Hc Hno H. apply match_binds in H; [|assumption|assumption].
  destruct c as [vs K]. apply (accepts_binds ty val fits ps vs K Hsig Hc). split; [exact H|].
  exact (binds_no_collision ps vs K Hsig Hno H).
Qed.

End Props.

(** ** Who gets what *)

(** The [i]-th argument of the call goes to the [j]-th parameter. *)
Definition receives {ty val} (ps : list (param ty)) (c : call val) (i j : nat) : Prop :=
  i < length (by_position c) /\ receives_position ps i j \/
  exists k n v, i = length (by_position c) + k /\ nth_error (by_name c) k = Some (n, v) /\ receives_name ps n j.

(** What is compared with a parameter: its place and that of an argument, or nothing (its default is used). *)
Definition compared {ty val} (ps : list (param ty)) (args : list (arg val)) : list (nat * option nat) :=
  map (fun it => (fst (fst it), option_map a_index (snd it))) (fst (run ps args)).

Section Marked.
Variables (ty val : Type) (default : nat -> bool).
Notation marked := (marked ty default).

Lemma marked_nth : forall (ps : list (param ty)) j, nth_error (marked ps) j =
  option_map (fun p => mk_param (p_kind p) (p_name p) (default j) (Some j)) (nth_error ps j).
Proof.
  intros ps j. unfold CallMarks.marked.
  assert (G : forall (ps : list (param ty)) i j, nth_error (map snd (map (mark_param ty default) (combine (seq i (length ps)) ps))) j =
    option_map (fun p => mk_param (p_kind p) (p_name p) (default (i + j)) (Some (i + j))) (nth_error ps j)).
  { clear ps j. induction ps as [|p ps IH]; intros i j; [destruct j; reflexivity|]. destruct j as [|j].
    - cbn. rewrite Nat.add_0_r; reflexivity.
    - cbn [length seq combine map nth_error]. rewrite IH. replace (S i + j) with (i + S j) by lia; reflexivity. }
  exact (G ps 0 j).
Qed.

Lemma marked_some : forall (ps : list (param ty)) j q, nth_error (marked ps) j = Some q ->
  exists p, nth_error ps j = Some p /\ q = mk_param (p_kind p) (p_name p) (default j) (Some j).
Proof.
  intros ps j q H; rewrite marked_nth in H. destruct (nth_error ps j) as [p|]; [|discriminate]. injection H as <-; eauto.
Qed.

Lemma marked_signature : forall ps, signature ps -> signature (marked ps).
Proof.
  intros ps [A B C D]; constructor.
  - intros i j p q Hij Hp Hq. apply marked_some in Hp as (p' & Hp & ->), Hq as (q' & Hq & ->). exact (A i j p' q' Hij Hp Hq).
  - intros i j p q Hp Hq. apply marked_some in Hp as (p' & Hp & ->), Hq as (q' & Hq & ->). exact (B i j p' q' Hp Hq).
  - intros p Hp. apply In_nth_error in Hp as (i & Hp). apply marked_some in Hp as (p' & Hp & ->).
    exact (C p' (nth_error_In _ _ Hp)).
  - intros n i j p q Hp Hq. apply marked_some in Hp as (p' & Hp & ->), Hq as (q' & Hq & ->). exact (D n i j p' q' Hp Hq).
Qed.

Lemma marked_position : forall (ps : list (param ty)) i j, receives_position (marked ps) i j <-> receives_position ps i j.
Proof.
  intros ps i j; unfold receives_position. split.
  - intros (q & Hq & H). apply marked_some in Hq as (p & Hp & ->). exists p; split; [exact Hp|].
    destruct H as [H|[H H']]; [left; exact H|right]. split; [exact H|]. intros q Hq Hpos.
    apply (H' (mk_param (p_kind q) (p_name q) (default i) (Some i))); [rewrite marked_nth, Hq; reflexivity|exact Hpos].
  - intros (p & Hp & H). exists (mk_param (p_kind p) (p_name p) (default j) (Some j)).
    split; [rewrite marked_nth, Hp; reflexivity|]. destruct H as [H|[H H']]; [left; exact H|right].
    split; [exact H|]. intros q Hq Hpos. apply marked_some in Hq as (q' & Hq & ->). exact (H' q' Hq Hpos).
Qed.

Lemma marked_name : forall (ps : list (param ty)) n j, receives_name (marked ps) n j <-> receives_name ps n j.
Proof.
  intros ps n j; unfold receives_name. split.
  - intros (q & Hq & H). apply marked_some in Hq as (p & Hp & ->). exists p; split; [exact Hp|].
    destruct H as [H|[H H']]; [left; exact H|right]. split; [exact H|]. intros q Hq Hnq.
    apply In_nth_error in Hq as (i & Hq).
    apply (H' (mk_param (p_kind q) (p_name q) (default i) (Some i))); [|exact Hnq].
    apply (nth_error_In _ i). rewrite marked_nth, Hq; reflexivity.
  - intros (p & Hp & H). exists (mk_param (p_kind p) (p_name p) (default j) (Some j)).
    split; [rewrite marked_nth, Hp; reflexivity|]. destruct H as [H|[H H']]; [left; exact H|right].
    split; [exact H|]. intros q Hq Hpos. apply In_nth_error in Hq as (i & Hq).
    apply marked_some in Hq as (q' & Hq & ->). exact (H' q' (nth_error_In _ _ Hq) Hpos).
Qed.

(** The call with the places of its arguments as values. *)
Definition placed (c : call val) : call nat :=
  mk_call (seq 0 (length (by_position c))) (numbered (fun i nv => (fst nv, i)) (length (by_position c)) (by_name c)).

Lemma placed_names : forall c, map fst (by_name (placed c)) = map fst (by_name c).
Proof.
  intros c; unfold placed; cbn [by_name]. generalize (length (by_position c)).
  induction (by_name c) as [|x l IH]; intros i; [reflexivity|]. cbn; rewrite IH; reflexivity.
Qed.

Lemma placed_arguments : forall c, map (mark_arg val) (arguments_of c) = arguments_of (placed c).
Proof.
  intros c; unfold arguments_of, placed; cbn [by_position by_name]. rewrite map_app, seq_length. f_equal.
  - generalize 0. induction (by_position c) as [|v l IH]; intros i; [reflexivity|]. cbn. rewrite IH; reflexivity.
  - generalize (length (by_position c)). induction (by_name c) as [|v l IH]; intros i; [reflexivity|]. cbn. rewrite IH; reflexivity.
Qed.

Lemma collides_marked : forall ps c, collides (marked ps) (placed c) -> collides ps c.
Proof.
  intros ps c (i & q & n & A & B & C & D & E). apply marked_some in B as (p & B & ->).
  exists i, p, n. unfold placed in A; cbn [by_position] in A; rewrite seq_length in A. rewrite placed_names in E. auto.
Qed.

Lemma in_numbered : forall A B (f : nat -> A -> B) l i y, In y (numbered f i l) -> exists k x, nth_error l k = Some x /\ y = f (i + k) x.
Proof.
  intros A B f l i y H. apply In_nth_error in H as (k & H). rewrite numbered_nth in H.
  destruct (nth_error l k) as [x|] eqn:E; [|discriminate]. injection H as <-. eauto.
Qed.

(** Acceptance of the marked call. *)
Lemma accepts_placed : forall (fits fits' : nat -> nat -> Prop) ps c,
  (forall i, i < length (by_position c) + length (by_name c) -> (exists j, receives ps c i j /\ fits j i) -> exists j, receives ps c i j /\ fits' j i) ->
  accepts fits (marked ps) (placed c) -> accepts fits' (marked ps) (placed c).
Proof.
  intros fits fits' ps c H [A B C D]; constructor; [| |exact C|exact D].
  - intros i v Hv. destruct (A i v Hv) as (j & Hj & q & Hq & Ht).
    assert (Hi : i < length (by_position c) /\ v = i).
    { unfold placed in Hv; cbn [by_position] in Hv. assert (Hlt : i < length (seq 0 (length (by_position c)))) by (apply nth_error_Some; congruence).
      rewrite seq_length in Hlt; split; [exact Hlt|].
      pose proof (nth_error_nth _ _ 0 Hv) as E. rewrite seq_nth in E by exact Hlt. auto. }
    destruct Hi as [Hi ->]. apply marked_some in Hq as (p & Hp & ->).
    destruct (H i) as (j' & Hj' & Hf); [lia|exists j; split; [left; split; [exact Hi|apply marked_position, Hj]|apply (Ht j); reflexivity]|].
    destruct Hj' as [[_ Hj']|(k & n & w & E & _)]; [|lia].
    exists j'. split; [apply marked_position; exact Hj'|]. destruct Hj' as (p' & Hp' & _).
    exists (mk_param (p_kind p') (p_name p') (default j') (Some j')). split; [rewrite marked_nth, Hp'; reflexivity|].
    intros t [= <-]; exact Hf.
  - intros n v Hv. destruct (B n v Hv) as (j & Hj & q & Hq & Ht).
    unfold placed in Hv; cbn [by_name] in Hv. apply in_numbered in Hv as (k & (m & w) & Hk & E). cbn in E; injection E as -> ->.
    assert (Hlt : k < length (by_name c)) by (apply nth_error_Some; congruence).
    apply marked_some in Hq as (p & Hp & ->).
    destruct (H (length (by_position c) + k)) as (j' & Hj' & Hf).
    + lia.
    + exists j; split; [right; exists k, m, w; refine (conj eq_refl (conj Hk _)); apply marked_name, Hj|apply (Ht j); reflexivity].
    + destruct Hj' as [[Hlt' _]|(k' & n' & w' & E & Hk' & Hj')]; [lia|].
      assert (k' = k) by lia; subst k'. rewrite Hk in Hk'; injection Hk' as <- <-.
      exists j'. split; [apply marked_name; exact Hj'|]. destruct Hj' as (p' & Hp' & _).
      exists (mk_param (p_kind p') (p_name p') (default j') (Some j')). split; [rewrite marked_nth, Hp'; reflexivity|].
      intros t [= <-]; exact Hf.
Qed.

End Marked.

Section Places.
Variables (ty val : Type).
Notation executes := (accepts (fun (_ : ty) (_ : val) => True)).

Lemma accepts_weaken : forall ty val (f g : ty -> val -> Prop) ps c, (forall t v, f t v -> g t v) -> accepts f ps c -> accepts g ps c.
Proof.
  intros t v f g ps c H [A B C D]; constructor; [| |exact C|exact D].
  - intros i w Hw. destruct (A i w Hw) as (j & Hj & p & Hp & Ht). exists j; split; [exact Hj|]. exists p; split; auto.
  - intros n w Hw. destruct (B n w Hw) as (j & Hj & p & Hp & Ht). exists j; split; [exact Hj|]. exists p; split; auto.
Qed.

Lemma executes_no_collision : forall ps c, signature ps -> distinct_names c -> executes ps c -> ~ collides ps c.
Proof.
  intros ps [vs K] Hsig Hc H. apply (accepts_weaken _ _ _ (fun (_ : ty) (_ : val) => true = true)) in H; [|reflexivity].
  apply (accepts_binds ty val (fun _ _ => true) ps vs K Hsig Hc) in H. apply no_collision_iff. apply H.
Qed.

Lemma executes_receives : forall ps c i, executes ps c -> i < length (by_position c) + length (by_name c) -> exists j, receives ps c i j.
Proof.
  intros ps c i [A B C D] Hi. destruct (lt_dec i (length (by_position c))) as [Hl|Hl].
  - destruct (nth_error (by_position c) i) as [v|] eqn:E; [|apply nth_error_None in E; lia].
    destruct (A i v E) as (j & Hj & _). exists j; left; auto.
  - destruct (nth_error (by_name c) (i - length (by_position c))) as [(n & v)|] eqn:E; [|apply nth_error_None in E; lia].
    destruct (B n v (nth_error_In _ _ E)) as (j & Hj & _). exists j; right.
    exists (i - length (by_position c)), n, v. refine (conj _ (conj E Hj)); lia.
Qed.

Lemma receives_range : forall (ps : list (param ty)) (c : call val) i j, receives ps c i j -> i < length (by_position c) + length (by_name c).
Proof.
  intros ps c i j [[H _]|(k & n & v & -> & H & _)]; [lia|].
  assert (k < length (by_name c)) by (apply nth_error_Some; congruence). lia.
Qed.

Lemma receives_one : forall (ps : list (param ty)) (c : call val) i j j', signature ps -> receives ps c i j -> receives ps c i j' -> j = j'.
Proof.
  intros ps c i j j' Hsig [[Hi H]|(k & n & v & Hi & Hn & H)] [[Hi' H']|(k' & n' & v' & Hi' & Hn' & H')]; try lia.
  - destruct H as (p & Hp & H), H' as (p' & Hp' & H').
    destruct H as [[H E]|[H E]], H' as [[H' E']|[H' E']]; subst; try congruence.
    + exfalso; exact (E' p Hp H).
    + exfalso; exact (E p' Hp' H').
    + apply (one_variadic _ _ Hsig j j' p p' Hp Hp'); [left; exact H|congruence].
  - assert (k' = k) by lia; subst k'. rewrite Hn in Hn'; injection Hn' as <- <-.
    destruct H as (p & Hp & H), H' as (p' & Hp' & H').
    destruct H as [H|[H E]], H' as [H'|[H' E']].
    + exact (one_named _ _ Hsig n j j' p p' Hp Hp' H H').
    + exfalso; exact (E' p (nth_error_In _ _ Hp) H).
    + exfalso; exact (E p' (nth_error_In _ _ Hp') H').
    + apply (one_variadic _ _ Hsig j j' p p' Hp Hp'); [right; exact H|congruence].
Qed.

(** The marked call with other defaults. *)
Lemma executes_marked : forall default ps c, executes ps c ->
  (forall j p, nth_error ps j = Some p -> required (mk_param (p_kind p) (p_name p) (default j) (@None ty)) ->
     required p \/ exists i, receives ps c i j) ->
  accepts (fun _ _ => True) (marked ty default ps) (placed val c).
Proof.
  intros default ps c [A B C D] Hd; constructor.
  - intros i v Hv. unfold placed in Hv; cbn [by_position] in Hv.
    assert (Hlt : i < length (seq 0 (length (by_position c)))) by (apply nth_error_Some; congruence).
    rewrite seq_length in Hlt. destruct (nth_error (by_position c) i) as [w|] eqn:E; [|apply nth_error_None in E; lia].
    destruct (A i w E) as (j & Hj & p & Hp & _). exists j; split; [apply marked_position; exact Hj|].
    eexists; split; [rewrite marked_nth, Hp; reflexivity|exact (fun _ _ => I)].
  - intros n v Hv. unfold placed in Hv; cbn [by_name] in Hv. apply in_numbered in Hv as (k & (m & w) & Hk & E).
    cbn in E; injection E as -> ->. destruct (B m w (nth_error_In _ _ Hk)) as (j & Hj & p & Hp & _).
    exists j; split; [apply marked_name; exact Hj|].
    eexists; split; [rewrite marked_nth, Hp; reflexivity|exact (fun _ _ => I)].
  - intros i n j Hi Hn Hij Hnj. unfold placed in Hi; cbn [by_position] in Hi. rewrite seq_length in Hi.
    rewrite placed_names in Hn. rewrite marked_position in Hij. rewrite marked_name in Hnj. exact (C i n j Hi Hn Hij Hnj).
  - intros j q Hq Hreq. apply marked_some in Hq as (p & Hp & ->).
    assert (G : forall i, receives ps c i j ->
      (exists i0, i0 < length (by_position (placed val c)) /\ receives_position (marked ty default ps) i0 j) \/
      (exists n, In n (map fst (by_name (placed val c))) /\ receives_name (marked ty default ps) n j)).
    { intros i [[Hi H]|(k & n & v & Hi & Hn & H)]; [left; exists i|right; exists n].
      - unfold placed; cbn [by_position]. rewrite seq_length, marked_position; auto.
      - rewrite placed_names, marked_name. split; [|exact H]. apply nth_error_In, (in_map fst) in Hn; exact Hn. }
    destruct (Hd j p Hp Hreq) as [Hr|(i & Hi)]; [|exact (G i Hi)].
    destruct (D j p Hp Hr) as [(i & Hi & H)|(n & Hn & H)].
    + apply (G i); left; auto.
    + apply in_map_iff in Hn as ((m & v) & E & Hin); cbn in E; subst m. apply In_nth_error in Hin as (k & Hk).
      apply (G (length (by_position c) + k)); right. exists k, n, v; auto.
Qed.

Lemma match_placed : forall default fits ps c, signature ps -> distinct_names c -> ~ collides ps c ->
  (forallb (fun i => match snd i with
                     | None => default (fst (fst i))
                     | Some a => fits (fst (fst i)) (a_index a)
                     end) (fst (run ps (arguments_of c))) && ends_well ty val ps (arguments_of c) = true <->
   accepts (fun t v => fits t v = true) (marked ty default ps) (placed val c)).
Proof.
  intros default fits ps c Hsig Hc Hno. rewrite <- match_marked, placed_arguments.
  apply C49_exact_partial.
  - apply marked_signature; exact Hsig.
  - unfold distinct_names; rewrite placed_names; exact Hc.
  - intros H; apply Hno; exact (collides_marked _ _ _ _ _ H).
Qed.

Definition default_of (ps : list (param ty)) (j : nat) : bool :=
  match nth_error ps j with Some p => p_default p | None => true end.

Lemma required_default : forall ps j p, nth_error ps j = Some p ->
  required (mk_param (p_kind p) (p_name p) (default_of ps j) (@None ty)) -> required p.
Proof. intros ps j p Hp [A B]; split; [exact A|]. unfold default_of in B; cbn in B; rewrite Hp in B; exact B. Qed.

(** When Python executes the call, every argument is compared with the parameter that receives it, and with no other. *)
Theorem C49_arguments : forall ps c i j, signature ps -> distinct_names c -> executes ps c ->
  (In (j, Some i) (compared ps (arguments_of c)) <-> receives ps c i j).
Proof.
  intros ps c i0 j0 Hsig Hc Hex. pose proof (executes_no_collision ps c Hsig Hc Hex) as Hno.
  assert (Hm : accepts (fun _ _ => True) (marked ty (default_of ps) ps) (placed val c)).
  { apply executes_marked; [exact Hex|]. intros j p Hp Hr; left; exact (required_default ps j p Hp Hr). }
  assert (Hto : forall i j, In (j, Some i) (compared ps (arguments_of c)) -> receives ps c i j).
  { clear i0 j0; intros i0 j0 Hin.
    set (fits := fun j i : nat => negb ((j =? j0) && (i =? i0))).
    assert (Hbad : ~ accepts (fun t v => fits t v = true) (marked ty (default_of ps) ps) (placed val c)).
    { intros H. apply (match_placed (default_of ps) fits ps c Hsig Hc Hno) in H. apply andb_true_iff in H as [H _].
      apply in_map_iff in Hin as (it & E & Hit). rewrite forallb_forall in H. specialize (H it Hit).
      injection E as Ej Ei. destruct (snd it) as [a|]; [|discriminate]. cbn in Ei; injection Ei as Ei.
      subst fits; cbn beta in H. rewrite Ej, Ei, !Nat.eqb_refl in H. discriminate. }
    assert (Hgo : (forall i, i < length (by_position c) + length (by_name c) -> (exists j, receives ps c i j /\ True) ->
      exists j, receives ps c i j /\ fits j i = true) -> False).
    { intros H. apply Hbad. apply (accepts_placed ty val (default_of ps) (fun _ _ => True)); assumption. }
    assert (Hother : forall i, i <> i0 -> (exists j, receives ps c i j /\ True) -> exists j, receives ps c i j /\ fits j i = true).
    { intros i Hi (j & Hj & _). exists j; split; [exact Hj|]. subst fits; cbn beta.
      apply negb_true_iff, andb_false_iff; right. apply Nat.eqb_neq; exact Hi. }
    destruct (lt_dec i0 (length (by_position c) + length (by_name c))) as [Hl|Hl].
    - destruct (executes_receives ps c i0 Hex Hl) as (j & Hj). destruct (Nat.eq_dec j j0) as [<-|Hne]; [exact Hj|exfalso].
      apply Hgo; intros i _ H. destruct (Nat.eq_dec i i0) as [->|Hi]; [|exact (Hother i Hi H)].
      exists j; split; [exact Hj|]. subst fits; cbn beta. apply negb_true_iff, andb_false_iff; left. apply Nat.eqb_neq; exact Hne.
    - exfalso; apply Hgo; intros i Hi H. apply Hother; [lia|exact H]. }
  split; [apply Hto|]. intros Hr.
  set (fits := fun j i : nat => negb (i =? i0)).
  assert (Hbad : ~ accepts (fun t v => fits t v = true) (marked ty (default_of ps) ps) (placed val c)).
  { intros [A B _ _]. destruct Hr as [[Hi Hr]|(k & n & v & Hi & Hn & Hr)].
    - destruct (A i0 i0) as (j & Hj & q & Hq & Ht).
      { unfold placed; cbn [by_position]. rewrite (nth_error_nth' _ 0) by (rewrite seq_length; exact Hi). rewrite seq_nth by exact Hi. reflexivity. }
      apply marked_some in Hq as (p & Hp & ->). specialize (Ht j eq_refl). subst fits; cbn beta in Ht. rewrite Nat.eqb_refl in Ht; discriminate.
    - destruct (B n i0) as (j & Hj & q & Hq & Ht).
      { unfold placed; cbn [by_name]. apply (nth_error_In _ k). rewrite numbered_nth, Hn. cbn. rewrite Hi; reflexivity. }
      apply marked_some in Hq as (p & Hp & ->). specialize (Ht j eq_refl). subst fits; cbn beta in Ht. rewrite Nat.eqb_refl in Ht; discriminate. }
  assert (Hgood : accepts (fun t v => (fun _ _ => true) t v = true) (marked ty (default_of ps) ps) (placed val c)).
  { exact (accepts_weaken _ _ _ _ _ _ (fun _ _ _ => eq_refl) Hm). }
  apply (match_placed (default_of ps) (fun _ _ => true) ps c Hsig Hc Hno), andb_true_iff in Hgood. destruct Hgood as [Hdef Hend].
  rewrite <- (match_placed (default_of ps) fits ps c Hsig Hc Hno), Hend, andb_true_r in Hbad.
  apply not_true_is_false in Hbad.
  assert (Hex' : exists it, In it (fst (run ps (arguments_of c))) /\ match snd it with
      | None => default_of ps (fst (fst it)) | Some a => fits (fst (fst it)) (a_index a) end = false).
  { clear - Hbad. induction (fst (run ps (arguments_of c))) as [|it l IH]; [discriminate|]. cbn [forallb] in Hbad.
    apply andb_false_iff in Hbad as [H|H]; [exists it; split; [left; reflexivity|exact H]|].
    destruct (IH H) as (x & Hx & Hf). exists x; split; [right; exact Hx|exact Hf]. }
  destruct Hex' as (it & Hit & Hf).
  rewrite forallb_forall in Hdef. specialize (Hdef it Hit). destruct it as [r o]; cbn [fst snd] in *. destruct o as [a|]; [|rewrite Hdef in Hf; discriminate].
  subst fits; cbn beta in Hf. apply negb_false_iff, Nat.eqb_eq in Hf.
  assert (Hin : In (fst r, Some i0) (compared ps (arguments_of c))).
  { apply in_map_iff; exists (r, Some a); split; [|exact Hit]. cbn. rewrite Hf; reflexivity. }
  rewrite (receives_one ps c i0 j0 _ Hsig Hr (Hto _ _ Hin)). exact Hin.
Qed.

(** A parameter is left to its default exactly when it receives no argument (and is not one of [*args] and [**kwargs]). *)
Theorem C49_defaults : forall ps c j, signature ps -> distinct_names c -> executes ps c ->
  (In (j, None) (compared ps (arguments_of c)) <->
   exists p, nth_error ps j = Some p /\ ~ variadic p /\ forall i, ~ receives ps c i j).
Proof.
  intros ps c j0 Hsig Hc Hex. pose proof (executes_no_collision ps c Hsig Hc Hex) as Hno.
  set (default := fun j : nat => if j =? j0 then false else default_of ps j).
  split.
  - intros Hin.
    assert (Hbad : ~ (forall p, nth_error ps j0 = Some p -> required (mk_param (p_kind p) (p_name p) false (@None ty)) -> exists i, receives ps c i j0)).
    { intros Hd. assert (H : accepts (fun t v => (fun _ _ => true) t v = true) (marked ty default ps) (placed val c)).
      { refine (accepts_weaken _ _ _ _ _ _ (fun _ _ _ => eq_refl) (executes_marked default ps c Hex _)).
        intros j p Hp Hr. destruct (Nat.eq_dec j j0) as [->|Hne].
        - right; apply (Hd p Hp). subst default; cbn beta in Hr; rewrite Nat.eqb_refl in Hr; exact Hr.
        - left; apply (required_default ps j p Hp). subst default; cbn beta in Hr. apply Nat.eqb_neq in Hne; rewrite Hne in Hr; exact Hr. }
      apply (match_placed default (fun _ _ => true) ps c Hsig Hc Hno), andb_true_iff in H. destruct H as [H _].
      apply in_map_iff in Hin as (it & E & Hit). rewrite forallb_forall in H. specialize (H it Hit).
      injection E as Ej Ei. destruct (snd it) as [a|]; [discriminate|]. subst default; cbn beta in H. rewrite Ej, Nat.eqb_refl in H; discriminate. }
    destruct (nth_error ps j0) as [p|] eqn:Ep; [|exfalso; apply Hbad; discriminate].
    exists p; refine (conj eq_refl (conj _ _)).
    + intros Hv; apply Hbad. intros q [= <-] [Hnv _]. exfalso; apply Hnv; exact Hv.
    + intros i Hi; apply Hbad. intros q _ _; exists i; exact Hi.
  - intros (p & Hp & Hnv & Hnone).
    assert (Hbad : ~ accepts (fun t v => (fun _ _ => true) t v = true) (marked ty default ps) (placed val c)).
    { intros [_ _ _ D]. destruct (D j0 (mk_param (p_kind p) (p_name p) (default j0) (Some j0))) as [(i & Hi & H)|(n & Hn & H)].
      - rewrite marked_nth, Hp; reflexivity.
      - split; [exact Hnv|]. subst default; cbn. rewrite Nat.eqb_refl; reflexivity.
      - apply (Hnone i); left. unfold placed in Hi; cbn [by_position] in Hi; rewrite seq_length in Hi. rewrite marked_position in H; auto.
      - rewrite placed_names in Hn. rewrite marked_name in H.
        apply in_map_iff in Hn as ((m & v) & E & Hin); cbn in E; subst m. apply In_nth_error in Hin as (k & Hk).
        apply (Hnone (length (by_position c) + k)); right. exists k, n, v; auto. }
    assert (Hgood : accepts (fun t v => (fun _ _ => true) t v = true) (marked ty (default_of ps) ps) (placed val c)).
    { refine (accepts_weaken _ _ _ _ _ _ (fun _ _ _ => eq_refl) (executes_marked _ ps c Hex _)).
      intros j q Hq Hr; left; exact (required_default ps j q Hq Hr). }
    apply (match_placed (default_of ps) (fun _ _ => true) ps c Hsig Hc Hno), andb_true_iff in Hgood. destruct Hgood as [Hdef Hend].
    rewrite <- (match_placed default (fun _ _ => true) ps c Hsig Hc Hno), Hend, andb_true_r in Hbad.
    apply not_true_is_false in Hbad.
    rewrite forallb_forall in Hdef.
    assert (Hex' : exists it, In it (fst (run ps (arguments_of c))) /\ match snd it with
        | None => default (fst (fst it)) | Some a => true end = false).
    { clear - Hbad. induction (fst (run ps (arguments_of c))) as [|it l IH]; [discriminate|]. cbn [forallb] in Hbad.
      apply andb_false_iff in Hbad as [H|H]; [exists it; split; [left; reflexivity|exact H]|].
      destruct (IH H) as (x & Hx & Hf). exists x; split; [right; exact Hx|exact Hf]. }
    destruct Hex' as (it & Hit & Hf). specialize (Hdef it Hit). destruct it as [r o]; cbn [fst snd] in *. destruct o as [a|]; [discriminate|].
    subst default; cbn beta in Hf. destruct (fst r =? j0) eqn:Ej; [|rewrite Hdef in Hf; discriminate].
    apply Nat.eqb_eq in Ej. apply in_map_iff; exists (r, None); split; [|exact Hit]. cbn. rewrite Ej; reflexivity.
Qed.

End Places.

(** ** Two cases in which the answer is not that of Python *)

Definition par (k : kind) (n : N) (d : bool) (t : nat) : param nat := mk_param k (Some n) d (Some t).

(** [def f(a, **kw)] and [f(1, a=2)]: Python raises a TypeError (a gets two values); the checker gives the second to [kw]. *)
Definition a_and_kw : list (param nat) := [par PositionalOrKeyword 1 false 7; par StarStar 2 false 7].
Definition a_twice : call nat := mk_call [7] [(1%N, 7)].

(** Parameters listed by a decidable check. *)
Fixpoint signature_b {ty} (ps : list (param ty)) : bool :=
  match ps with
  | [] => true
  | p :: r =>
      forallb (fun q => (rank (p_kind p) <=? rank (p_kind q)) &&
        negb (kind_eqb (p_kind p) (p_kind q) && (kind_eqb (p_kind p) Star || kind_eqb (p_kind p) StarStar)) &&
        negb (match p_name p, p_name q with
              | Some n, Some m => N.eqb n m && (kind_eqb (p_kind p) PositionalOrKeyword || kind_eqb (p_kind p) KeywordOnly)
                  && (kind_eqb (p_kind q) PositionalOrKeyword || kind_eqb (p_kind q) KeywordOnly)
              | _, _ => false end)) r &&
      (match p_name p with Some _ => true | None => negb (kind_eqb (p_kind p) PositionalOrKeyword || kind_eqb (p_kind p) KeywordOnly) end) &&
      signature_b r
  end.

Lemma kind_eqb_refl : forall k, kind_eqb k k = true.
Proof. destruct k; reflexivity. Qed.

Lemma signature_check : forall ty (ps : list (param ty)), signature_b ps = true -> signature ps.
Proof.
  intros ty ps; induction ps as [|p r IH]; intros H.
  - constructor; intros; try (destruct i; discriminate). destruct H0.
  - cbn [signature_b] in H. apply andb_true_iff in H as [H Hr]. apply andb_true_iff in H as [H Hn].
    rewrite forallb_forall in H. destruct (IH Hr) as [A B C D].
    assert (Hq : forall j q, nth_error r j = Some q -> rank (p_kind p) <= rank (p_kind q) /\
      (variadic p -> p_kind p <> p_kind q) /\ forall n, named n p -> ~ named n q).
    { intros j q Hq. specialize (H q (nth_error_In _ _ Hq)). apply andb_true_iff in H as [H H3]. apply andb_true_iff in H as [H1 H2].
      apply Nat.leb_le in H1. apply negb_true_iff in H2, H3. refine (conj H1 (conj _ _)).
      - intros Hv E. rewrite <- E, kind_eqb_refl in H2. destruct Hv as [Hv|Hv]; rewrite Hv in H2; discriminate.
      - intros n [Hk En] [Hk' En']. rewrite En, En', N.eqb_refl in H3.
        destruct Hk as [Hk|Hk], Hk' as [Hk'|Hk']; rewrite Hk, Hk' in H3; discriminate. }
    constructor.
    + intros i j x y Hij Hx Hy. destruct i as [|i], j as [|j]; try lia; cbn [nth_error] in *.
      * injection Hx as <-. apply (Hq j y Hy).
      * apply (A i j x y); [lia|assumption|assumption].
    + intros i j x y Hx Hy Hv E. destruct i as [|i], j as [|j]; cbn [nth_error] in *.
      * reflexivity.
      * injection Hx as <-. exfalso; exact (proj1 (proj2 (Hq j y Hy)) Hv E).
      * injection Hy as <-. exfalso. apply (proj1 (proj2 (Hq i x Hx))); [|congruence].
        destruct Hv as [Hv|Hv]; [left|right]; congruence.
      * f_equal; exact (B i j x y Hx Hy Hv E).
    + intros x [<-|Hx] Hk; [|exact (C x Hx Hk)]. intros E; rewrite E in Hn. destruct Hk as [Hk|Hk]; rewrite Hk in Hn; discriminate.
    + intros n i j x y Hx Hy Hnx Hny. destruct i as [|i], j as [|j]; cbn [nth_error] in *.
      * reflexivity.
      * injection Hx as <-. exfalso; exact (proj2 (proj2 (Hq j y Hy)) n Hnx Hny).
      * injection Hy as <-. exfalso; exact (proj2 (proj2 (Hq i x Hx)) n Hny Hnx).
      * f_equal; exact (D n i j x y Hx Hy Hnx Hny).
Qed.

Theorem C49_twice_refuted : signature a_and_kw /\ distinct_names a_twice /\
  match_arguments Nat.eqb a_and_kw (arguments_of a_twice) = true /\ ~ accepts (fun _ _ => True) a_and_kw a_twice.
Proof.
  split; [apply signature_check; reflexivity|]. split; [unfold distinct_names; cbn; repeat constructor; cbn; tauto|].
  split; [reflexivity|]. intros [_ _ C _]. apply (C 0 1%N 0).
  - cbn; lia.
  - left; reflexivity.
  - eexists; split; [reflexivity|]. left. split; [right|]; reflexivity.
  - eexists; split; [reflexivity|]. left. split; [left|]; reflexivity.
Qed.

(** Overloads are also tried with one member of a union in place of an argument ([ArgKind::Overridden]); a keyword argument
    then is no longer found by its name.  [def f( *, a)] and [f(a=x)] is rejected; for [def f(a, b)] and [f(b=x, a=y)] the
    values are exchanged. *)
Definition overridden {val} (a : arg val) : arg val := mk_arg (a_index a) (Overridden (a_kind a)) (a_star_star a) (a_value a).

Theorem C49_overridden_refuted :
  (exists ps c, signature ps /\ distinct_names c /\ match_arguments Nat.eqb ps (arguments_of c) = true /\
     match_arguments Nat.eqb ps (map overridden (arguments_of c)) = false) /\
  (exists ps c, signature ps /\ distinct_names c /\ match_arguments Nat.eqb ps (arguments_of c) = false /\
     match_arguments Nat.eqb ps (map overridden (arguments_of c)) = true).
Proof.
  split.
  - exists [par KeywordOnly 1 false 7], (mk_call [] [(1%N, 7)]).
    split; [apply signature_check; reflexivity|]. split; [unfold distinct_names; cbn; repeat constructor; cbn; tauto|].
    split; reflexivity.
  - exists [par PositionalOrKeyword 1 false 7; par PositionalOrKeyword 2 false 8], (mk_call [] [(2%N, 7); (1%N, 8)]).
    split; [apply signature_check; reflexivity|].
    split; [unfold distinct_names; cbn; repeat constructor; cbn; intuition discriminate|].
    split; reflexivity.
Qed.

(** ** Examples *)

(** [def f(a, /, b, c=0, *xs, d, e=0, **kw)] *)
Definition sample : list (param nat) :=
  [par PositionalOnly 1 false 1; par PositionalOrKeyword 2 false 2; par PositionalOrKeyword 3 true 3; par Star 4 false 4;
   par KeywordOnly 5 false 5; par KeywordOnly 6 true 6; par StarStar 7 false 7].

Example C49_sample :
  signature sample /\
  (* f(1, 2, 3, 4, 4, y=7, d=5, a=7) *)
  match_arguments Nat.eqb sample (arguments_of (mk_call [1; 2; 3; 4; 4] [(9%N, 7); (5%N, 5); (1%N, 7)])) = true /\
  compared sample (arguments_of (mk_call [1; 2; 3; 4; 4] [(9%N, 7); (5%N, 5); (1%N, 7)])) =
    [(0, Some 0); (1, Some 1); (2, Some 2); (3, Some 3); (3, Some 4); (4, Some 6); (5, None); (6, Some 7); (6, Some 5)] /\
  (* f(1, d=5, b=2) *)
  match_arguments Nat.eqb sample (arguments_of (mk_call [1] [(5%N, 5); (2%N, 2)])) = true /\
  (* f(1, 2): d is missing *)
  match_arguments Nat.eqb sample (arguments_of (mk_call [1; 2] [])) = false /\
  (* f(d=5, b=2): a is missing *)
  match_arguments Nat.eqb sample (arguments_of (mk_call [] [(5%N, 5); (2%N, 2)])) = false /\
  (* f(1, 2, d=4): a wrong type *)
  match_arguments Nat.eqb sample (arguments_of (mk_call [1; 2] [(5%N, 4)])) = false.
Proof. split; [apply signature_check; reflexivity|]. vm_compute; auto 10. Qed.

(** The hypotheses of the theorems are met. *)
Example C49_executes : accepts (fun t v => Nat.eqb t v = true) sample (mk_call [1; 2; 3; 4; 4] [(9%N, 7); (5%N, 5); (1%N, 7)]).
Proof.
  apply (C49_exact_partial nat nat Nat.eqb).
  - apply signature_check; reflexivity.
  - unfold distinct_names; cbn; repeat constructor; cbn; intuition discriminate.
  - intros (i & p & n & Hi & Hp & Hk & Hn & Hin). cbn in Hin.
    destruct i as [|[|[|[|[|i]]]]]; cbn in Hp, Hi; try lia; injection Hp as <-; try discriminate Hk; cbn in Hn;
      injection Hn as <-; intuition discriminate.
  - reflexivity.
Qed.

Print Assumptions C49_complete.
Print Assumptions C49_exact_partial.
Print Assumptions C49_sound_partial.
Print Assumptions C49_arguments.
Print Assumptions C49_defaults.
Print Assumptions C49_twice_refuted.
Print Assumptions C49_overridden_refuted.
