(** C49, continued: keyword arguments behind [**kws]. *)
From Coq Require Import List NArith Arith Bool Lia.
From Verif Require Import CallModel CallSpec CallFacts CallProofs CallOpen CallProps CallOpenProps.
Import ListNotations.

Section Order.
Variables (ty val : Type) (fits : ty -> val -> bool).
Notation arg := (arg val).
Notation state := (state ty val).
Notation ref := (ref ty).
Notation is_pos := (is_pos val).
Notation is_kw := (is_kw val).
Notation many := (many val).
Notation many_kw := (many_kw val).
Notation shape := (shape ty val).

Definition simple (a : arg) : Prop := is_pos a \/ is_kw a \/ many a.
(** [n=v], and not a part of a [**] argument. *)
Definition plain_kw (a : arg) : Prop := is_kw a /\ a_star_star a = false.

(** Two states that differ in the place of [**kws] only. *)
Definition alike (n : nat) (todo : list ref) (s t : state) : Prop :=
  exists q y K u tm, Forall simple q /\ many_kw y /\ Forall plain_kw K /\ n = length q + length K /\
    shape s (q ++ y :: K) todo u None None tm /\ shape t (q ++ K ++ [y]) todo u None None tm.

Lemma next_arg_behind : forall (s : state) y k q todo u sp dp tm, shape s (y :: k :: q) todo u sp dp tm -> many_kw y -> is_kw k -> a_star_star k = false ->
  exists s', next_arg s = (Some k, s') /\ shape s' (y :: q) todo u sp dp tm.
Proof.
  intros s y k q todo u sp dp tm [A B C D E F] Hy Hk Hss. unfold CallProofs.rep in A. unfold next_arg.
  destruct (proj2 (proj2 (proj2 (kind_facts val y))) Hy) as (_ & _ & E1 & E2 & _).
  destruct (current_arg s) as [b|] eqn:Ec.
  - cbn [app] in A; injection A as -> Eq. rewrite E1, E2. cbn [arguments set_current set_handled]. rewrite Eq. cbn [after_kwargs]. rewrite Hss.
    eexists; split; [reflexivity|]. constructor; [reflexivity|cbn; assumption..].
  - cbn [app] in A; rewrite A, E1, E2. cbn [arguments set_current set_handled set_arguments after_kwargs]. rewrite Hss.
    eexists; split; [reflexivity|]. constructor; [reflexivity|cbn; assumption..].
Qed.

(** What the next argument is: the same for both. *)
Lemma alike_next_arg : forall n todo s t, alike n todo s t ->
  exists a s' t', next_arg s = (Some a, s') /\ next_arg t = (Some a, t') /\ (simple a \/ many_kw a) /\
    (is_pos a \/ is_kw a -> 0 < n /\ alike (pred n) todo s' t') /\
    (many a -> 0 < n /\ alike n todo s' t' /\ alike (pred n) todo (set_current None s') (set_current None t')) /\
    (many_kw a -> alike n todo s' t' /\ next_arg (set_current None s') = (None, set_current None s') /\ next_arg (set_current None t') = (None, set_current None t')).
Proof.
  intros n todo s t (q & y & K & u & tm & Fq & Hy & FK & Hn & Hs & Ht).
  assert (Hex : forall a : arg, (is_pos a -> ~ is_kw a /\ ~ many a /\ ~ many_kw a) /\ (is_kw a -> ~ many a /\ ~ many_kw a) /\ (many a -> ~ many_kw a)).
  { intros a. unfold CallProofs.is_pos, CallProofs.is_kw, CallOpen.many, CallOpen.many_kw.
    split; [intros E; rewrite E|split; [intros (m & E); rewrite E|intros E; rewrite E; discriminate]].
    - split; [intros (m & E'); discriminate|split; discriminate].
    - split; discriminate. }
  destruct q as [|a q].
  - cbn [app] in Hs, Ht. destruct K as [|k K].
    + cbn [app] in Ht. destruct (next_arg_kws _ _ _ _ _ _ _ _ _ Hs Hy) as (s' & E & Hs' & Hs'').
      destruct (next_arg_kws _ _ _ _ _ _ _ _ _ Ht Hy) as (t' & E' & Ht' & Ht'').
      exists y, s', t'. refine (conj E (conj E' (conj (or_intror Hy) (conj _ (conj _ _))))).
      * intros [H|H]; exfalso; [exact (proj2 (proj2 (proj1 (Hex y) H)) Hy)|exact (proj2 (proj1 (proj2 (Hex y)) H) Hy)].
      * intros H; exfalso; exact (proj2 (proj2 (Hex y)) H Hy).
      * intros _. split; [exists [], y, [], u, tm; refine (conj (Forall_nil _) (conj Hy (conj (Forall_nil _) (conj Hn (conj Hs' Ht')))))|].
        split; [exact (next_arg_none _ _ _ _ _ _ _ _ Hs'')|exact (next_arg_none _ _ _ _ _ _ _ _ Ht'')].
    + inversion FK as [|? ? [Hk Hss] FK']; subst. cbn [app] in Ht.
      destruct (next_arg_behind _ _ _ _ _ _ _ _ _ Hs Hy Hk Hss) as (s' & E & Hs').
      destruct (next_arg_definite _ _ _ _ _ _ _ _ _ _ Ht (or_intror Hk)) as (t' & E' & Ht').
      exists k, s', t'. refine (conj E (conj E' (conj (or_introl (or_intror (or_introl Hk))) (conj _ (conj _ _))))).
      * intros _; split; [cbn; lia|]. exists [], y, K, u, tm. refine (conj (Forall_nil _) (conj Hy (conj FK' (conj _ (conj Hs' Ht'))))). reflexivity.
      * intros H; exfalso; exact (proj1 (proj1 (proj2 (Hex k)) Hk) H).
      * intros H; exfalso; exact (proj2 (proj1 (proj2 (Hex k)) Hk) H).
  - inversion Fq as [|? ? Ha Fq']; subst. cbn [app] in Hs, Ht. destruct Ha as [Ha|[Ha|Ha]].
    + destruct (next_arg_definite _ _ _ _ _ _ _ _ _ _ Hs (or_introl Ha)) as (s' & E & Hs').
      destruct (next_arg_definite _ _ _ _ _ _ _ _ _ _ Ht (or_introl Ha)) as (t' & E' & Ht').
      exists a, s', t'. refine (conj E (conj E' (conj (or_introl (or_introl Ha)) (conj _ (conj _ _))))).
      * intros _; split; [cbn; lia|]. exists q, y, K, u, tm. refine (conj Fq' (conj Hy (conj FK (conj _ (conj Hs' Ht'))))). reflexivity.
      * intros H; exfalso; exact (proj1 (proj2 (proj1 (Hex a) Ha)) H).
      * intros H; exfalso; exact (proj2 (proj2 (proj1 (Hex a) Ha)) H).
    + destruct (next_arg_definite _ _ _ _ _ _ _ _ _ _ Hs (or_intror Ha)) as (s' & E & Hs').
      destruct (next_arg_definite _ _ _ _ _ _ _ _ _ _ Ht (or_intror Ha)) as (t' & E' & Ht').
      exists a, s', t'. refine (conj E (conj E' (conj (or_introl (or_intror (or_introl Ha))) (conj _ (conj _ _))))).
      * intros _; split; [cbn; lia|]. exists q, y, K, u, tm. refine (conj Fq' (conj Hy (conj FK (conj _ (conj Hs' Ht'))))). reflexivity.
      * intros H; exfalso; exact (proj1 (proj1 (proj2 (Hex a)) Ha) H).
      * intros H; exfalso; exact (proj2 (proj1 (proj2 (Hex a)) Ha) H).
    + destruct (next_arg_many _ _ _ _ _ _ _ _ _ _ Hs Ha) as (s' & E & Hs' & Hs'').
      destruct (next_arg_many _ _ _ _ _ _ _ _ _ _ Ht Ha) as (t' & E' & Ht' & Ht'').
      exists a, s', t'. refine (conj E (conj E' (conj (or_introl (or_intror (or_intror Ha))) (conj _ (conj _ _))))).
      * intros [H|H]; exfalso; [exact (proj1 (proj2 (proj1 (Hex a) H)) Ha)|exact (proj1 (proj1 (proj2 (Hex a)) H) Ha)].
      * intros _. split; [cbn; lia|]. split; [exists (a :: q), y, K, u, tm|exists q, y, K, u, tm].
        -- exact (conj Fq (conj Hy (conj FK (conj eq_refl (conj Hs' Ht'))))).
        -- refine (conj Fq' (conj Hy (conj FK (conj _ (conj Hs'' Ht''))))). reflexivity.
      * intros H; exfalso; exact (proj2 (proj2 (Hex a)) Ha H).
Qed.

Lemma alike_unused : forall n todo s t, alike n todo s t -> unused_keyword_arguments s = unused_keyword_arguments t.
Proof. intros n todo s t (q & y & K & u & tm & _ & _ & _ & _ & Hs & Ht). rewrite (s_unused _ _ _ _ _ _ _ _ _ Hs), (s_unused _ _ _ _ _ _ _ _ _ Ht). reflexivity. Qed.

Lemma alike_set_unused : forall r n todo s t, alike n todo s t -> alike n todo (set_unused r s) (set_unused r t).
Proof.
  intros r n todo s t (q & y & K & u & tm & A & B & C & D & Hs & Ht). exists q, y, K, r, tm.
  refine (conj A (conj B (conj C (conj D (conj (shape_unused _ _ _ _ _ _ _ _ _ _ Hs) (shape_unused _ _ _ _ _ _ _ _ _ _ Ht)))))).
Qed.

Lemma alike_push : forall a n todo s t, alike n todo s t -> alike n todo (push_unused a s) (push_unused a t).
Proof. intros a n todo s t H. unfold push_unused. rewrite (alike_unused _ _ _ _ H). apply alike_set_unused; exact H. Qed.

Lemma alike_too_many : forall n todo s t, alike n todo s t -> alike n todo (set_too_many s) (set_too_many t).
Proof.
  intros n todo s t (q & y & K & u & tm & A & B & C & D & [H1 H2 H3 H4 H5 H6] & [G1 G2 G3 G4 G5 G6]). exists q, y, K, u, true.
  refine (conj A (conj B (conj C (conj D (conj _ _))))); constructor; cbn; auto.
Qed.

Lemma alike_fuel : forall n todo s t, alike n todo s t -> S n < arguments_left s /\ S n < arguments_left t.
Proof.
  intros n todo s t (q & y & K & u & tm & _ & _ & _ & -> & Hs & Ht).
  apply shape_fuel in Hs, Ht. rewrite !app_length in Hs. rewrite !app_length in Ht. cbn [length] in Hs, Ht. lia.
Qed.

Definition agree (todo : list ref) (x y : item ty val * state) : Prop :=
  fst x = fst y /\ exists n, alike n todo (snd x) (snd y).

Lemma agree_unused : forall (p : ref) n todo a s t, alike n todo s t ->
  agree todo (match check_unused (p_name (snd p)) (unused_keyword_arguments s) with Some (b, r) => ((p, Some b), set_unused r s) | None => ((p, a), s) end)
    (match check_unused (p_name (snd p)) (unused_keyword_arguments t) with Some (b, r) => ((p, Some b), set_unused r t) | None => ((p, a), t) end).
Proof.
  intros p n todo a s t H. rewrite (alike_unused _ _ _ _ H). destruct (check_unused _ _) as [[b r]|]; split; try reflexivity; exists n; [|exact H].
  apply alike_set_unused; exact H.
Qed.

Lemma alike_pk : forall n f g (p : ref) todo s t, n < f -> n < g -> alike n todo s t ->
  agree todo (positional_or_keyword f p s) (positional_or_keyword g p t).
Proof.
  induction n as [n IH] using lt_wf_ind; intros f g p todo s t Hf Hg H. destruct f as [|f]; [lia|]. destruct g as [|g]; [lia|].
  cbn [positional_or_keyword]. destruct (alike_next_arg n todo s t H) as (a & s' & t' & -> & -> & Ha & H1 & H2 & H3).
  destruct Ha as [[Ha|[Ha|Ha]]|Ha].
  - destruct (proj1 (kind_facts val a) Ha) as (E1 & _ & E2 & _). rewrite E1, E2. split; [reflexivity|]. eexists; apply (H1 (or_introl Ha)).
  - destruct (proj1 (proj2 (kind_facts val a)) Ha) as (E1 & _). rewrite E1. destruct (H1 (or_intror Ha)) as [Hn Hal].
    destruct (name_is _ _); [split; [reflexivity|eexists; exact Hal]|].
    apply (IH (pred n)); try lia. apply alike_push; exact Hal.
  - destruct (proj1 (proj2 (proj2 (kind_facts val a))) Ha) as (E1 & _ & E2 & _). rewrite E1, E2. split; [reflexivity|]. eexists; apply (H2 Ha).
  - destruct (proj2 (proj2 (proj2 (kind_facts val a))) Ha) as (E1 & _ & E2 & _). rewrite E1, E2. eapply agree_unused; apply (H3 Ha).
Qed.

Lemma alike_ko : forall n f g (p : ref) todo s t, n < f -> n < g -> alike n todo s t ->
  agree todo (keyword_only f p s) (keyword_only g p t).
Proof.
  induction n as [n IH] using lt_wf_ind; intros f g p todo s t Hf Hg H. destruct f as [|f]; [lia|]. destruct g as [|g]; [lia|].
  cbn [keyword_only]. destruct (alike_next_arg n todo s t H) as (a & s' & t' & -> & -> & Ha & H1 & H2 & H3).
  destruct Ha as [[Ha|[Ha|Ha]]|Ha].
  - destruct (proj1 (kind_facts val a) Ha) as (E1 & _ & E2 & E3 & _). rewrite E2, E1, E3. destruct (H1 (or_introl Ha)) as [Hn Hal].
    apply (IH (pred n)); try lia. apply alike_too_many; exact Hal.
  - destruct (proj1 (proj2 (kind_facts val a)) Ha) as (E1 & _ & E2 & _). rewrite E2, E1. destruct (H1 (or_intror Ha)) as [Hn Hal].
    destruct (name_is _ _); [split; [reflexivity|eexists; exact Hal]|].
    apply (IH (pred n)); try lia. apply alike_push; exact Hal.
  - destruct (proj1 (proj2 (proj2 (kind_facts val a))) Ha) as (E1 & _ & E2 & E3 & _). rewrite E2, E1, E3. destruct (H2 Ha) as (Hn & _ & Hal).
    apply (IH (pred n)); try lia. exact Hal.
  - destruct (proj2 (proj2 (proj2 (kind_facts val a))) Ha) as (_ & _ & E2 & _). rewrite E2. eapply agree_unused; apply (H3 Ha).
Qed.

Lemma alike_po : forall n (p : ref) todo s t, alike n todo s t -> agree todo (positional_only p s) (positional_only p t).
Proof.
  intros n p todo s t H. unfold positional_only. destruct (alike_next_arg n todo s t H) as (a & s' & t' & -> & -> & Ha & H1 & H2 & H3).
  destruct Ha as [[Ha|[Ha|Ha]]|Ha].
  - destruct (proj1 (kind_facts val a) Ha) as (_ & _ & _ & _ & E). rewrite E. split; [reflexivity|]. eexists; apply (H1 (or_introl Ha)).
  - destruct (proj1 (proj2 (kind_facts val a)) Ha) as (E1 & _ & _ & _ & E). rewrite E, E1. split; [reflexivity|].
    eexists; apply alike_push, (H1 (or_intror Ha)).
  - destruct (proj1 (proj2 (proj2 (kind_facts val a))) Ha) as (_ & _ & _ & _ & E). rewrite E. split; [reflexivity|]. eexists; apply (H2 Ha).
  - destruct (proj2 (proj2 (proj2 (kind_facts val a))) Ha) as (E1 & _ & _ & _ & E). rewrite E, E1. split; [reflexivity|]. eexists; apply (H3 Ha).
Qed.

Lemma alike_params : forall n todo todo' s t, alike n todo s t -> alike n todo' (set_params todo' s) (set_params todo' t).
Proof.
  intros n todo todo' s t (q & y & K & u & tm & A & B & C & D & Hs & Ht). exists q, y, K, u, tm.
  refine (conj A (conj B (conj C (conj D (conj (shape_params _ _ _ _ _ _ _ _ _ _ Hs) (shape_params _ _ _ _ _ _ _ _ _ _ Ht)))))).
Qed.

Lemma alike_items : forall todo fuel n s t, alike n todo s t -> (forall p : ref, In p todo -> ~ variadic (snd p)) ->
  exists n' todo', alike n' todo' (snd (items fuel s)) (snd (items fuel t)) /\ fst (items fuel s) = fst (items fuel t).
Proof.
  induction todo as [|p todo IH]; intros fuel n s t H Hv; (destruct fuel as [|fuel]; [cbn; eauto|]); cbn [items];
    pose proof H as (q & y & K & u & tm & _ & _ & _ & _ & Hs & Ht);
    pose proof (next_plain _ _ _ _ _ _ _ Hs) as Hn; pose proof (next_plain _ _ _ _ _ _ _ Ht) as Hm; cbv zeta in Hn, Hm; rewrite Hn, Hm.
  - cbn; eauto.
  - assert (Hp : alike n todo (set_params todo s) (set_params todo t)) by exact (alike_params _ _ _ _ _ H).
    assert (Hgo : forall X Y : item ty val * state, agree todo X Y ->
      exists n' todo', alike n' todo' (snd (match (let (i, s0) := X in (Some i, s0)) with
          | (Some i, s0) => let (l, s1) := items fuel s0 in (i :: l, s1) | (None, s0) => ([], s0) end))
        (snd (match (let (i, s0) := Y in (Some i, s0)) with (Some i, s0) => let (l, s1) := items fuel s0 in (i :: l, s1) | (None, s0) => ([], s0) end)) /\
        fst (match (let (i, s0) := X in (Some i, s0)) with
          | (Some i, s0) => let (l, s1) := items fuel s0 in (i :: l, s1) | (None, s0) => ([], s0) end) =
        fst (match (let (i, s0) := Y in (Some i, s0)) with (Some i, s0) => let (l, s1) := items fuel s0 in (i :: l, s1) | (None, s0) => ([], s0) end)).
    { intros [i s'] [i' t'] [E (k & Hal)]. cbn [fst snd] in E, Hal. subst i'.
      destruct (IH fuel k s' t' Hal (fun q Hq => Hv q (or_intror Hq))) as (n' & todo' & A & B).
      destruct (items fuel s') as [l s''], (items fuel t') as [l' t'']. cbn [fst snd] in *. subst l'. eauto. }
    destruct (alike_fuel _ _ _ _ Hp) as [Hf Hg].
    destruct (p_kind (snd p)) eqn:Ek.
    + apply Hgo. eapply alike_po; exact Hp.
    + apply Hgo. apply (alike_pk n); [lia|lia|exact Hp].
    + exfalso. apply (Hv p (or_introl eq_refl)); left; exact Ek.
    + apply Hgo. apply (alike_ko n); [lia|lia|exact Hp].
    + exfalso. apply (Hv p (or_introl eq_refl)); right; exact Ek.
Qed.

Lemma alike_has_unused : forall n f g todo s t, S n < f -> S n < g -> alike n todo s t -> has_unused_arguments f s = has_unused_arguments g t.
Proof.
  induction n as [n IH] using lt_wf_ind; intros f g todo s t Hf Hg H. destruct f as [|f]; [lia|]. destruct g as [|g]; [lia|].
  cbn [has_unused_arguments]. destruct (alike_next_arg n todo s t H) as (a & s' & t' & -> & -> & Ha & H1 & H2 & H3).
  destruct Ha as [[Ha|[Ha|Ha]]|Ha].
  - destruct (proj1 (kind_facts val a) Ha) as (_ & _ & _ & E & _). rewrite E; reflexivity.
  - destruct (proj1 (proj2 (kind_facts val a)) Ha) as (_ & _ & _ & E & _). rewrite E; reflexivity.
  - destruct (proj1 (proj2 (proj2 (kind_facts val a))) Ha) as (_ & _ & _ & E & _). rewrite E. destruct (H2 Ha) as (Hn & _ & Hal).
    apply (IH (pred n)) with (todo := todo); try lia. exact Hal.
  - destruct (proj2 (proj2 (proj2 (kind_facts val a))) Ha) as (_ & _ & _ & E & _). rewrite E. destruct (H3 Ha) as (_ & A & B).
    destruct f as [|f]; [lia|]. destruct g as [|g]; [lia|]. cbn [has_unused_arguments]. rewrite A, B. reflexivity.
Qed.

(** A function without [*args] and [**kwargs]: it makes no difference whether [**kws] is the last argument of the call. *)
Theorem C49_behind_partial : forall (ps : list (param ty)) q y K, Forall simple q -> many_kw y -> Forall plain_kw K -> (forall p, In p ps -> ~ variadic p) ->
  match_arguments fits ps (q ++ y :: K) = match_arguments fits ps (q ++ K ++ [y]).
Proof.
  intros ps q y K Fq Hy FK Hv. unfold match_arguments, run.
  replace (length (q ++ K ++ [y])) with (length (q ++ y :: K)) by (rewrite !app_length; cbn; lia).
  assert (H : alike (length q + length K) (combine (seq 0 (length ps)) ps) (new ps (q ++ y :: K)) (new ps (q ++ K ++ [y]))).
  { exists q, y, K, [], false. refine (conj Fq (conj Hy (conj FK (conj eq_refl (conj _ _))))); constructor; reflexivity. }
  destruct (alike_items _ (S (length ps + length (q ++ y :: K))) _ _ _ H) as (n & todo & A & B).
  { intros p Hp. apply Hv. destruct p as [i p]. exact (in_combine_r _ _ _ _ Hp). }
  destruct (items _ (new ps (q ++ y :: K))) as [l s], (items _ (new ps (q ++ K ++ [y]))) as [l' t]. cbn [fst snd] in A, B. subst l'.
  destruct (alike_fuel _ _ _ _ A) as [Hf Hg].
  rewrite (alike_has_unused n _ (arguments_left t) todo s t Hf Hg A), (alike_unused _ _ _ _ A).
  destruct A as (q' & y' & K' & u & tm & _ & _ & _ & _ & [_ _ _ _ _ Es] & [_ _ _ _ _ Et]). rewrite Es, Et. reflexivity.
Qed.

End Order.

(** ** What the checker gets wrong *)

Definition kws (v : nat) : arg nat := mk_arg 0 ManyKeywords true v.
Definition kw (n : N) (v : nat) : arg nat := mk_arg 1 (Keyword n) false v.

(** [def f( **kw: int)] called as [f( **strings, a=1)] is accepted: [strings] is dropped when [a] is taken.  In the other order
    it is rejected, and a call with a string runs. *)
Theorem C49_behind_dropped_refuted : exists ps o, signature ps /\ ~ may_collide ps o /\ ~ ambiguous ps o /\
  open_arguments o = [mk_arg 1 (Keyword 1) false 1; mk_arg 2 ManyKeywords true 2] /\
  match_arguments Nat.eqb ps (open_arguments o) = false /\
  match_arguments Nat.eqb ps [kws 2; kw 1 1] = true /\
  exists c, expansion o c /\ runs ps c /\ ~ accepts (fun t v => Nat.eqb t v = true) ps c.
Proof.
  exists [par StarStar 9 false 1], (mk_open [] None [(1%N, 1)] (Some 2)).
  assert (Hsig : signature [par StarStar 9 false 1]) by (apply signature_check; reflexivity).
  assert (Hnd : distinct_names (mk_call [] [(1%N, 1); (2%N, 2)])).
  { unfold distinct_names; cbn. repeat constructor; cbn; try tauto. intros [E|[]]; discriminate. }
  split; [exact Hsig|]. split.
  { intros (i & p & n & [H|H] & _); [cbn in H; lia|apply H; reflexivity]. }
  split; [intros (H & _); apply H; reflexivity|]. split; [reflexivity|]. split; [reflexivity|]. split; [reflexivity|].
  exists (mk_call [] [(1%N, 1); (2%N, 2)]).
  split; [refine (conj _ (conj _ Hnd)); [exists 0; reflexivity|exists [2%N]; reflexivity]|]. split.
  - apply (accepts_weaken nat nat (fun _ _ => true = true)); [auto|].
    apply (C49_exact_partial nat nat (fun _ _ => true)); [exact Hsig|exact Hnd| |reflexivity].
    intros (i & p & n & H & _); cbn in H; lia.
  - intros H. apply (C49_complete nat nat Nat.eqb _ _ Hsig Hnd) in H. discriminate.
Qed.

(** [def f( *args, a, b)] called as [f( **kws, a=1)] is rejected ([b] is missing): looking for further positional arguments
    drops [kws].  In the other order it is accepted. *)
Theorem C49_behind_missing_refuted : exists ps : list (param nat), signature ps /\
  match_arguments Nat.eqb ps [kws 1; kw 1 1] = false /\ match_arguments Nat.eqb ps [kw 1 1; kws 1] = true.
Proof.
  exists [par Star 9 false 1; par KeywordOnly 1 false 1; par KeywordOnly 2 false 1].
  split; [apply signature_check; reflexivity|]. split; reflexivity.
Qed.

(** Of two [**] arguments only the first is looked at. *)
Theorem C49_second_refuted : exists ps : list (param nat), signature ps /\
  match_arguments Nat.eqb ps [kws 1; kws 2] = true /\ match_arguments Nat.eqb ps [kws 2; kws 1] = false /\
  match_arguments Nat.eqb ps [kws 2] = false.
Proof.
  exists [par KeywordOnly 1 false 1]. split; [apply signature_check; reflexivity|]. split; [|split]; reflexivity.
Qed.

(** The hypotheses are met: [f(1, **kws, c=3)] for [def f(a, b, c)]. *)
Example C49_behind_used :
  match_arguments Nat.eqb [par PositionalOrKeyword 1 false 1; par PositionalOrKeyword 2 false 2; par PositionalOrKeyword 3 false 3]
    ([mk_arg 0 Positional false 1] ++ kws 2 :: [kw 3 3]) = true.
Proof.
  rewrite C49_behind_partial; [reflexivity| | | |].
  - constructor; [left; reflexivity|constructor].
  - reflexivity.
  - constructor; [split; [exists 3%N; reflexivity|reflexivity]|constructor].
  - intros p [<-|[<-|[<-|[]]]] [E|E]; discriminate.
Qed.

Print Assumptions C49_behind_partial.
Print Assumptions C49_behind_dropped_refuted.
Print Assumptions C49_behind_missing_refuted.
Print Assumptions C49_second_refuted.
