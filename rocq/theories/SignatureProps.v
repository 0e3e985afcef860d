(** C76: signature help. *)
From Coq Require Import List Bool NArith ZArith Arith Lia.
From Verif Require Import SignatureModel SignatureSpec Signature.
Import ListNotations.
Open Scope list_scope.
Open Scope nat_scope.

(** With positional arguments only, the parameter shown is the one that Python binds the last of them to; if there is none, what is typed may become a
    keyword argument: the first parameter for this is shown, and without one the signature does not fit. *)
Theorem C76_positional : forall ps args, ordered ps -> Forall is_positional args -> args <> [] ->
  (forall i, takes_positional ps (length args - 1) i -> calc_current_param args ps = (Some i, true)) /\
  ((forall i, ~ takes_positional ps (length args - 1) i) ->
   let begins i := exists p, nth_error ps i = Some p /\ ((p_kind p = KeywordOnly /\ exists name, p_name p = Some name /\ could_become (last args StarArgs) name) \/ p_kind p = StarStar) in
   match calc_current_param args ps with
   | (Some i, valid) => valid = true /\ begins i /\ forall j, j < i -> ~ begins j
   | (None, valid) => valid = false /\ forall j, ~ begins j
   end).
Proof. intros ps args O F Ne. exact (positional_right ps args O F Ne). Qed.

(** Without arguments, it is the first. *)
Theorem C76_first : forall p ps, named (p :: ps) -> calc_current_param [] (p :: ps) = (Some 0, true).
Proof.
  intros p ps [Nm _]. unfold calc_current_param. cbn. destruct (p_kind p) eqn:K; try reflexivity. destruct (p_name p) as [n|] eqn:E; [|destruct (Nm p (or_introl eq_refl) (or_intror K) E)].
  unfold is_used. rewrite E. reflexivity.
Qed.

(** In a keyword argument, whatever stands before it, it is the one that Python binds this name to; the signature fits iff there is one. *)
Theorem C76_keyword : forall ps args name, ordered ps -> named ps ->
  match calc_current_param (args ++ [Keyword name]) ps with
  | (Some i, valid) => valid = true /\ forall j, takes_keyword ps name j <-> j = i
  | (None, valid) => valid = false /\ forall j, ~ takes_keyword ps name j
  end.
Proof.
  intros ps args name O Nm. unfold calc_current_param, scan. rewrite fold_left_app. cbn [fold_left scan_one for_kwarg]. pose proof (keyword_right ps name O Nm) as H. destruct (keyword_param name 0 ps); split; auto.
Qed.

(** Behind keyword arguments, it is the first parameter that is not given yet. *)
Theorem C76_after_keywords_partial : forall ps pos names a, ordered ps -> named ps -> Forall is_positional pos -> names <> [] -> is_positional a ->
  Forall (fun p => p_kind p <> PositionalOnly) ps ->
  (forall i p name, i < length pos -> nth_error ps i = Some p -> p_name p = Some name -> ~ In name names) ->
  match calc_current_param (pos ++ map Keyword names ++ [a]) ps with
  | (Some i, valid) => valid = true /\ still_free ps (length pos) names a i /\ forall j, j < i -> ~ still_free ps (length pos) names a j
  | (None, valid) => valid = false /\ forall j, ~ still_free ps (length pos) names a j
  end.
Proof. intros ps pos names a O Nm F Ne Pa No Once. exact (keywords_right ps pos names a O Nm F Ne Pa No Once). Qed.

(** The label, and in it the names: their ranges in bytes and in UTF-16 cut exactly them out, there is one for each parameter, and they do not overlap. *)
Theorem C76_label : forall ps ret, Forall (fun p => p_name p <> None \/ p_type p <> []) ps ->
  signature_label ps ret = ([40] ++ separated (map shown ps) ++ [41; 32; 45; 62; 32] ++ ret)%N.
Proof.
  intros ps ret F. unfold signature_label. rewrite add_params_shown; [reflexivity|]. apply Forall_forall. intros p Hp. rewrite Forall_forall in F. specialize (F p Hp). unfold shown, shown_name.
  intros E. apply app_eq_nil in E as [_ E]. apply app_eq_nil in E as [E1 E2]. apply app_eq_nil in E2 as [E2 _]. destruct (p_name p); [discriminate E2|]. destruct F as [F|F]; [exact (F eq_refl)|exact (F E1)].
Qed.
Theorem C76_ranges : forall ps ret i p, nth_error ps i = Some p -> exists a b x y before,
  nth_error (snd (add_params [] ps)) i = Some (a, b) /\
  prefix_bytes a (signature_label ps ret) = Some before /\ prefix_bytes b (signature_label ps ret) = Some (before ++ shown_name p) /\
  utf16_code_units_name_range (signature_label ps ret) (a, b) = Some (x, y) /\
  firstn (y - x) (skipn x (encode_utf16 (signature_label ps ret))) = encode_utf16 (shown_name p).
Proof. exact labels_right. Qed.
Theorem C76_ranges_apart : forall ps, length (snd (add_params [] ps)) = length ps /\
  forall i a b c d, nth_error (snd (add_params [] ps)) i = Some (a, b) -> nth_error (snd (add_params [] ps)) (S i) = Some (c, d) -> b <= c.
Proof. intros ps. split; [apply add_params_count|intros i a b c d; apply add_params_apart]. Qed.

(** Offsets are counted in the bytes of UTF-8 and the units of UTF-16. *)
Theorem C76_utf8 : forall c, (c < 1114112)%N -> 1 <= utf8_len c <= 4 /\ (c < 2 ^ utf8_bits (utf8_len c))%N /\ forall n, n < utf8_len c -> (2 ^ utf8_bits n <= c)%N \/ n = 0.
Proof.
  intros c L. unfold utf8_len. destruct (N.ltb_spec c 128) as [H1|H1]; [|destruct (N.ltb_spec c 2048) as [H2|H2]; [|destruct (N.ltb_spec c 65536) as [H3|H3]]].
  - split; [lia|]. split; [exact H1|]. intros n Hn. right. lia.
  - split; [lia|]. split; [exact H2|]. intros [|[|n]] Hn; [right; reflexivity|left; exact H1|lia].
  - split; [lia|]. split; [exact H3|]. intros [|[|[|n]]] Hn; [right; reflexivity|left; exact H1|left; exact H2|lia].
  - split; [lia|]. split; [change (2 ^ utf8_bits 4)%N with 2097152%N; lia|]. intros [|[|[|[|n]]]] Hn; [right; reflexivity|left; exact H1|left; exact H2|left; exact H3|lia].
Qed.
Theorem C76_utf16 : forall c, (c < 55296 \/ 57343 < c < 1114112)%N -> decode_utf16 (utf16 c) = Some c.
Proof.
  intros c L. unfold utf16. destruct (N.ltb_spec c 65536) as [H|H]; cbn [decode_utf16].
  - destruct (N.ltb_spec c 55296) as [H1|H1]; [reflexivity|]. destruct (N.ltb_spec 57343 c) as [H2|H2]; [reflexivity|lia].
  - set (d := (c - 65536)%N). assert (D : (d < 1048576)%N) by lia. pose proof (N.div_mod d 1024 ltac:(discriminate)) as E. pose proof (N.mod_lt d 1024 ltac:(discriminate)) as M. assert (Q : (d / 1024 < 1024)%N) by (apply N.div_lt_upper_bound; [discriminate|exact D]).
    set (q := (d / 1024)%N) in *. set (r := (d mod 1024)%N) in *.
    destruct (N.leb_spec 55296 (55296 + q)) as [_|X]; [|lia]. destruct (N.ltb_spec (55296 + q) 56320) as [_|X]; [|lia]. destruct (N.leb_spec 56320 (56320 + r)) as [_|X]; [|lia]. destruct (N.ltb_spec (56320 + r) 57344) as [_|X]; [|lia]. cbn [andb]. f_equal. unfold d in *. lia.
Qed.

(** The active signature is the first one that fits, and the active parameter is the one of it. *)
Theorem C76_active : forall args sigs,
  match handle_signature_help args sigs with
  | (Some i, current) => (exists sig, nth_error sigs i = Some sig /\ call_signature args sig = (current, true)) /\
      forall j sig, j < i -> nth_error sigs j = Some sig -> snd (call_signature args sig) = false
  | (None, current) => current = None /\ forall sig, In sig sigs -> snd (call_signature args sig) = false
  end.
Proof.
  intros args sigs. unfold handle_signature_help. pose proof (first_active_right (map (call_signature args) sigs) 0) as H. destruct (first_active 0 (map (call_signature args) sigs)) as [[i|] c].
  - destruct H as (j & -> & H1 & H2). cbn [Nat.add]. split.
    + rewrite nth_error_map in H1. destruct (nth_error sigs j) as [sig|]; [|discriminate H1]. injection H1 as H1. exists sig. auto.
    + intros m sig L Hs. apply (H2 m (fst (call_signature args sig)) _ L). rewrite nth_error_map, Hs. cbn. rewrite <- surjective_pairing. reflexivity.
  - destruct H as [-> H]. split; [reflexivity|]. intros sig Hs. apply In_nth_error in Hs as (m & Hm). apply (H m (fst (call_signature args sig))). rewrite nth_error_map, Hm. cbn. rewrite <- surjective_pairing. reflexivity.
Qed.
(** A callable with any parameters fits always. *)
Theorem C76_any : forall args sigs i, nth_error sigs i = Some None -> exists j current, handle_signature_help args sigs = (Some j, current) /\ j <= i.
Proof.
  intros args sigs i Hi. pose proof (C76_active args sigs) as H. destruct (handle_signature_help args sigs) as [[j|] c].
  - exists j, c. split; [reflexivity|]. destruct H as [_ H]. destruct (le_lt_dec j i) as [L|L]; [exact L|]. specialize (H i None L Hi). discriminate H.
  - destruct H as [_ H]. specialize (H None (nth_error_In _ _ Hi)). discriminate H.
Qed.

(** ** Arguments with stars *)

(** An argument [*x] counts as one positional argument: in it and behind it, the same parameter is shown as for one. *)
Lemma star_scan : forall more s s', Forall is_positional more -> expected_positional s' = (expected_positional s + 1)%Z -> for_kwarg s = None -> for_kwarg s' = None -> used_kwargs s = used_kwargs s' -> had_kwargs s = had_kwargs s' -> had_star_args s = true -> had_star_args s' = false ->
  potential s = potential s' -> exists e p, fold_left scan_one more s = mk_scanned e None (used_kwargs s) (had_kwargs s) true p /\ fold_left scan_one more s' = mk_scanned (e + 1) None (used_kwargs s) (had_kwargs s) false p.
Proof.
  induction more as [|a more IH]; intros s s' F E1 E2 E3 E4 E5 E6 E7 E8.
  - exists (expected_positional s), (potential s). destruct s, s'. cbn in *. subst. auto.
  - apply Forall_cons_iff in F as [Pa F]. cbn [fold_left].
    assert (A : forall r, scan_one r a = mk_scanned (expected_positional r + 1) None (used_kwargs r) (had_kwargs r) (had_star_args r) (name_of a)) by (intros r; destruct Pa as [-> | [n ->]]; reflexivity).
    rewrite !A, E6, E7, <- E4, <- E5, E1. apply (IH (mk_scanned _ _ _ _ _ _) (mk_scanned _ _ _ _ _ _) F); reflexivity.
Qed.
Lemma star_other : forall ps e u q v i n m, other_param (mk_scanned n None u false true q) e v i ps = other_param (mk_scanned m None u false false q) e v i ps.
Proof.
  induction ps as [|p ps IH]; intros e u q v i n m; [reflexivity|]. cbn [other_param had_kwargs negb]. rewrite !(IH _ u q v (S i) n m). destruct (p_kind p); reflexivity.
Qed.
Theorem C76_star : forall ps pos more, Forall is_positional pos -> Forall is_positional more -> calc_current_param (pos ++ StarArgs :: more) ps = calc_current_param (pos ++ PositionalOrEmptyAfterComma :: more) ps.
Proof.
  intros ps pos more Fp Fm. unfold calc_current_param, scan. rewrite !fold_left_app. set (s0 := fold_left scan_one pos (mk_scanned 0 None [] false false None)). change (fold_left scan_one (StarArgs :: more) s0) with (fold_left scan_one more (scan_one s0 StarArgs)). change (fold_left scan_one (PositionalOrEmptyAfterComma :: more) s0) with (fold_left scan_one more (scan_one s0 PositionalOrEmptyAfterComma)).
  assert (H0 : used_kwargs s0 = [] /\ had_kwargs s0 = false /\ had_star_args s0 = false).
  { unfold s0. destruct pos as [|b l]; [auto|]. rewrite scan_positional; [auto|exact Fp|discriminate]. }
  destruct H0 as (H1 & H2 & H3). destruct (star_scan more (scan_one s0 StarArgs) (scan_one s0 PositionalOrEmptyAfterComma) Fm) as (e & q & E1 & E2); [reflexivity|reflexivity|reflexivity|reflexivity|reflexivity|reflexivity|exact H3|reflexivity|].
  rewrite E1, E2. cbn [scan_one expected_positional for_kwarg used_kwargs had_kwargs had_star_args potential]. rewrite H1, H2. rewrite (star_other ps _ [] q true 0 e (e + 1)%Z). f_equal. lia.
Qed.
(** In [**x] that is the first argument it is the first parameter that can be given by name. *)
Theorem C76_star_star_partial : forall ps, named ps -> Forall (fun p => p_kind p <> PositionalOnly) ps ->
  match calc_current_param [StarStarKwargs] ps with
  | (Some i, valid) => valid = true /\ still_free ps 0 [] StarStarKwargs i /\ forall j, j < i -> ~ still_free ps 0 [] StarStarKwargs j
  | (None, valid) => valid = false /\ forall j, ~ still_free ps 0 [] StarStarKwargs j
  end.
Proof.
  intros ps [Nm _] F. unfold calc_current_param. cbn -[other_param]. set (s := mk_scanned 0 None [] true false None).
  assert (G : forall k, (forall p, In p ps -> by_name p -> p_name p <> None) -> match other_param s 0 true k ps with
    | (Some i, valid) => valid = true /\ exists m p, i = k + m /\ nth_error ps m = Some p /\ p_kind p <> Star /\ forall j q, j < m -> nth_error ps j = Some q -> p_kind q = Star
    | (None, valid) => valid = false /\ forall j q, nth_error ps j = Some q -> p_kind q = Star end).
  { clear Nm. induction ps as [|p ps IH]; intros k Nm; [cbn; split; [reflexivity|intros [|j] q H; discriminate H]|]. apply Forall_cons_iff in F as [Fp F].
    specialize (IH F (S k) (fun q Hq => Nm q (or_intror Hq))). specialize (Nm p (or_introl eq_refl)). unfold by_name in Nm. cbn [other_param].
    assert (Here : p_kind p <> Star -> true = true /\ exists m q, k = k + m /\ nth_error (p :: ps) m = Some q /\ p_kind q <> Star /\ forall j r, j < m -> nth_error (p :: ps) j = Some r -> p_kind r = Star).
    { intros K. split; [reflexivity|]. exists 0, p. split; [lia|]. split; [reflexivity|]. split; [exact K|]. intros j r L. lia. }
    destruct (p_kind p) eqn:K.
    - destruct (Fp eq_refl).
    - cbn [had_kwargs s negb]. unfold is_used. destruct (p_name p); [|destruct (Nm (or_introl eq_refl) eq_refl)]. cbn. apply Here. discriminate.
    - destruct (p_name p) as [n|] eqn:En; [|destruct (Nm (or_intror eq_refl) eq_refl)]. unfold is_used. rewrite En. cbn. apply Here. discriminate.
    - cbn [had_kwargs s negb]. fold s. destruct (other_param s 0 true (S k) ps) as [[i|] v].
      + destruct IH as (-> & m & q & -> & H1 & H2 & H3). split; [reflexivity|]. exists (S m), q. split; [lia|]. split; [exact H1|]. split; [exact H2|]. intros [|j] r L Hr; [injection Hr as <-; exact K|apply (H3 j r); [lia|exact Hr]].
      + destruct IH as [-> H]. split; [reflexivity|]. intros [|j] r Hr; [injection Hr as <-; exact K|exact (H j r Hr)].
    - apply Here. discriminate. }
  assert (Free : forall i p, nth_error ps i = Some p -> still_free ps 0 [] StarStarKwargs i <-> p_kind p <> Star).
  { intros i p Hp. unfold still_free. split.
    - intros (q & Hq & H) K. rewrite Hp in Hq. injection Hq as <-. rewrite K in H. destruct H as [[H _]|[[H _]|H]]; discriminate H.
    - intros K. exists p. split; [exact Hp|]. pose proof (Nm p (nth_error_In _ _ Hp)) as N0. unfold by_name in N0. rewrite Forall_forall in F. specialize (F p (nth_error_In _ _ Hp)). destruct (p_kind p); [destruct (F eq_refl)|left|right; left|destruct (K eq_refl)|right; right; reflexivity].
      + split; [reflexivity|]. split; [lia|]. intros name _ [].
      + split; [reflexivity|]. destruct (p_name p) as [name|]; [|destruct (N0 (or_intror eq_refl) eq_refl)]. exists name. split; [reflexivity|]. split; [intros []|exact Logic.I]. }
  specialize (G 0 Nm). destruct (other_param s 0 true 0 ps) as [[i|] v].
  - destruct G as (-> & m & p & -> & H1 & H2 & H3). cbn [Nat.add]. split; [reflexivity|]. split; [apply (Free m p H1); exact H2|]. intros j L Hj. pose proof Hj as (q & Hq & _). apply (Free j q Hq) in Hj. exact (Hj (H3 j q L Hq)).
  - destruct G as [-> H]. split; [reflexivity|]. intros j Hj. pose proof Hj as (q & Hq & _). apply (Free j q Hq) in Hj. exact (Hj (H j q Hq)).
Qed.

(** With an argument [*x], a signature fits iff there is a parameter to show; with keyword arguments and without one, no signature that begins with a positional-only
    parameter does. *)
Lemma other_valid : forall s ps e v i, had_star_args s = true \/ v = false -> match other_param s e v i ps with (Some _, v') => v' = v | (None, v') => v' = false end.
Proof.
  intros s ps. induction ps as [|p ps IH]; intros e v i H; [reflexivity|]. cbn [other_param].
  assert (C : match (if (e - 1 <=? 0)%Z then (Some i, v) else other_param s (e - 1) v (S i) ps) with (Some _, v') => v' = v | (None, v') => v' = false end) by (destruct (e - 1 <=? 0)%Z; [reflexivity|exact (IH _ v (S i) H)]).
  pose proof (IH e v (S i) H) as N0. assert (V : (if negb (had_star_args s) then false else v) = v) by (destruct H as [-> | ->]; [reflexivity|destruct (had_star_args s); reflexivity]).
  destruct (p_kind p).
  - destruct (negb (had_kwargs s)); [exact C|rewrite V; exact N0].
  - destruct (negb (had_kwargs s)); [exact C|]. destruct (is_used s p); [exact N0|exact C].
  - destruct (p_name p) as [n|]; [|exact N0]. destruct (is_used s p); [exact N0|]. destruct (potential s) as [q|]; [|reflexivity]. destruct (starts_with n q); [reflexivity|exact N0].
  - destruct (negb (had_kwargs s)); [reflexivity|exact N0].
  - reflexivity.
Qed.
Lemma star_kept : forall args s, had_star_args s = true \/ In StarArgs args -> had_star_args (fold_left scan_one args s) = true.
Proof.
  induction args as [|a args IH]; intros s [H|H]; [exact H|destruct H| |]; cbn [fold_left]; apply IH.
  - left. destruct a; cbn; try exact H; reflexivity.
  - destruct H as [->|H]; [left; reflexivity|right; exact H].
Qed.
Theorem C76_star_fits : forall ps args, In StarArgs args -> snd (calc_current_param args ps) = true <-> fst (calc_current_param args ps) <> None.
Proof.
  intros ps args H. unfold calc_current_param. destruct (for_kwarg (scan args)) as [n|]; [destruct (keyword_param n 0 ps); cbn; split; congruence|].
  pose proof (other_valid (scan args) ps (expected_positional (scan args) + if had_star_args (scan args) then 1 else 0)%Z true 0 (or_introl (star_kept args _ (or_intror H)))) as V. destruct (other_param (scan args) _ true 0 ps) as [[i|] v]; cbn; rewrite V; split; congruence.
Qed.
Theorem C76_missing : forall p ps names a, p_kind p = PositionalOnly -> names <> [] -> is_positional a \/ a = StarStarKwargs -> snd (calc_current_param (map Keyword names ++ [a]) (p :: ps)) = false.
Proof.
  intros p ps names a K Ne Ha. unfold calc_current_param, scan. rewrite fold_left_app, scan_keywords by exact Ne. cbn [fold_left expected_positional used_kwargs had_star_args].
  assert (E : exists e q, scan_one (mk_scanned 0 (Some (last names [])) ([] ++ names) true false None) a = mk_scanned e None names true false q) by (destruct Ha as [[-> | [n ->]] | ->]; cbn; eauto). destruct E as (e & q & ->). cbn [for_kwarg expected_positional had_star_args].
  cbn [other_param]. rewrite K. cbn [had_kwargs had_star_args negb]. pose proof (other_valid (mk_scanned e None names true false q) ps (e + 0)%Z false 1 (or_intror eq_refl)) as V. destruct (other_param _ _ false 1 ps) as [[i|] v]; exact V.
Qed.

(** ** A case *)

(** [def f(a, /, b, *args, key, kind, **kw)] and [def g(b, c, d, *, key)] *)
Definition a_ : text := [97]%N.
Definition b_ : text := [98]%N.
Definition c_ : text := [99]%N.
Definition d_ : text := [100]%N.
Definition key_ : text := [107; 101; 121]%N.
Definition kind_ : text := [107; 105; 110; 100]%N.
(** [int] *)
Definition int_ : text := [105; 110; 116]%N.
Definition f_ : list param :=
  [mk_param PositionalOnly (Some a_) int_ false; mk_param PositionalOrKeyword (Some b_) int_ true; mk_param Star (Some [228; 120066]%N) int_ false;
   mk_param KeywordOnly (Some key_) int_ false; mk_param KeywordOnly (Some kind_) int_ false; mk_param StarStar (Some d_) int_ false].
Definition g_ : list param :=
  [mk_param PositionalOrKeyword (Some b_) int_ false; mk_param PositionalOrKeyword (Some c_) int_ false; mk_param PositionalOrKeyword (Some d_) int_ false; mk_param KeywordOnly (Some key_) int_ false].

Ltac nths H i := repeat (destruct i as [|i]; cbn in H; [first [discriminate H|injection H as <-]|try discriminate H]).
Lemma f_ordered : ordered f_.
Proof. intros i j p q L Hi Hj. unfold f_ in *. nths Hi i; nths Hj j; try lia; cbn; (split; [lia|intros [X|X]; discriminate]). Qed.
Lemma g_ordered : ordered g_.
Proof. intros i j p q L Hi Hj. unfold g_ in *. nths Hi i; nths Hj j; try lia; cbn; (split; [lia|intros [X|X]; discriminate]). Qed.
Lemma f_named : named f_.
Proof.
  split; [intros p Hp _; cbn in Hp; intuition (subst; discriminate)|]. intros i j p q Hi Hj B1 B2 E. unfold f_ in *. nths Hi i; nths Hj j; try reflexivity; cbn in *; try discriminate E; destruct B1 as [B1|B1], B2 as [B2|B2]; cbn in *; discriminate.
Qed.
Lemma g_named : named g_.
Proof. split; [intros p Hp _; cbn in Hp; intuition (subst; discriminate)|]. intros i j p q Hi Hj B1 B2 E. unfold g_ in *. nths Hi i; nths Hj j; try reflexivity; cbn in *; discriminate E. Qed.

(** [f(1, b], [f(1, 2, 3], [f(1, kind=], [f(1, other=], [g(1, d=2, ], [g(1, c=2, d=3, k], [g(1, c=2, d=3, z] *)
Example C76_case :
  calc_current_param [PositionalOrEmptyAfterComma; PositionalOrKeywordName b_] f_ = (Some 1, true) /\
  calc_current_param [PositionalOrEmptyAfterComma; PositionalOrEmptyAfterComma; PositionalOrEmptyAfterComma] f_ = (Some 2, true) /\
  calc_current_param [PositionalOrEmptyAfterComma; Keyword kind_] f_ = (Some 4, true) /\
  calc_current_param [PositionalOrEmptyAfterComma; Keyword a_] f_ = (Some 5, true) /\
  calc_current_param [PositionalOrEmptyAfterComma; Keyword d_; PositionalOrEmptyAfterComma] g_ = (Some 1, true) /\
  calc_current_param [PositionalOrEmptyAfterComma; Keyword c_; Keyword d_; PositionalOrKeywordName [107]%N] g_ = (Some 3, true) /\
  calc_current_param [PositionalOrEmptyAfterComma; Keyword c_; Keyword d_; PositionalOrKeywordName [122]%N] g_ = (None, false) /\
  handle_signature_help [PositionalOrEmptyAfterComma; Keyword kind_] [Some g_; Some f_; None] = (Some 1, Some 4).
Proof. repeat split. Qed.
Example C76_case_takes : takes_positional f_ 1 1 /\ takes_positional f_ 2 2 /\ takes_positional f_ 7 2 /\ takes_keyword f_ kind_ 4 /\ takes_keyword f_ a_ 5 /\
  (forall i, ~ takes_positional g_ 3 i) /\ still_free g_ 1 [d_] PositionalOrEmptyAfterComma 1.
Proof.
  split; [eexists; split; [reflexivity|left; split; [right; reflexivity|reflexivity]]|]. split; [eexists; split; [reflexivity|right; split; [reflexivity|intros q Hq; injection Hq as <-; intros [X|X]; discriminate X]]|].
  split; [eexists; split; [reflexivity|right; split; [reflexivity|intros q Hq; discriminate Hq]]|]. split; [eexists; split; [reflexivity|left; split; [right; reflexivity|reflexivity]]|].
  split; [eexists; split; [reflexivity|right; split; [reflexivity|]]; intros q Hq B E; cbn in Hq; destruct B as [B|B]; intuition (subst; discriminate)|].
  split; [intros i (p & Hp & [[B E]|[K _]]); [subst i; injection Hp as <-; destruct B as [B|B]; discriminate B|unfold g_ in Hp; nths Hp i; discriminate K]|].
  eexists. split; [reflexivity|]. left. split; [reflexivity|]. split; [lia|]. intros name X [Y|[]]. injection X as <-. discriminate Y.
Qed.
(** In [f], the name of the third parameter has 6 bytes and 3 units of UTF-16. *)
Example C76_case_ranges : snd (add_params [] f_) = [(1, 2); (9, 10); (20, 26); (33, 36); (43, 47); (56, 57)] /\
  utf16_code_units_name_range (signature_label f_ int_) (20, 26) = Some (20, 23) /\ utf16_code_units_name_range (signature_label f_ int_) (33, 36) = Some (30, 33).
Proof. repeat split. Qed.

(** ** What does not hold *)

(** [def h(a, /, b, c)]: in [h(1, c=2, ], the parameter b is still to be given; the signature counts as one that does not fit and no parameter is shown. *)
Theorem C76_positional_only_refuted : let h := [mk_param PositionalOnly (Some a_) int_ false; mk_param PositionalOrKeyword (Some b_) int_ false; mk_param PositionalOrKeyword (Some c_) int_ false] in
  let args := [PositionalOrEmptyAfterComma; Keyword c_; PositionalOrEmptyAfterComma] in
  ordered h /\ named h /\ still_free h 1 [c_] PositionalOrEmptyAfterComma 1 /\ calc_current_param args h = (None, false) /\ handle_signature_help args [Some h] = (None, None).
Proof.
  intros h args. split; [intros i j p q L Hi Hj; unfold h in *; nths Hi i; nths Hj j; try lia; cbn; (split; [lia|intros [X|X]; discriminate])|].
  split; [split; [intros p Hp _; cbn in Hp; intuition (subst; discriminate)|intros i j p q Hi Hj B1 B2 E; unfold h in *; nths Hi i; nths Hj j; try reflexivity; cbn in *; discriminate E]|].
  split; [|split; reflexivity]. eexists. split; [reflexivity|]. left. split; [reflexivity|]. split; [lia|]. intros name X [Y|[]]. injection X as <-. discriminate Y.
Qed.

(** [g(b=1, d]: what is typed can only become the keyword argument for d, and c is shown. *)
Theorem C76_prefix_refuted : calc_current_param [Keyword b_; PositionalOrKeywordName d_] g_ = (Some 1, true) /\ p_name (nth 1 g_ (mk_param Star None [] false)) = Some c_ /\
  ~ could_become (PositionalOrKeywordName d_) c_ /\ could_become (PositionalOrKeywordName d_) d_.
Proof. split; [reflexivity|]. split; [reflexivity|]. split; [intros [r X]; discriminate X|exists []; reflexivity]. Qed.

(** For a function without parameters, the call without arguments counts as one that does not fit: no signature is active, or a wrong one of the overloads. *)
Theorem C76_empty_refuted : calc_current_param [] [] = (None, false) /\ handle_signature_help [] [Some []] = (None, None) /\ handle_signature_help [] [Some []; Some g_] = (Some 1, Some 0).
Proof. repeat split. Qed.

Example C76_star_case : calc_current_param [StarArgs] g_ = (Some 0, true) /\ calc_current_param [PositionalOrEmptyAfterComma; StarArgs] g_ = (Some 1, true) /\ calc_current_param [StarStarKwargs] g_ = (Some 0, true).
Proof. repeat split. Qed.
Example C76_star_fits_case : let h := [mk_param PositionalOnly (Some a_) int_ false; mk_param PositionalOrKeyword (Some b_) int_ false] in
  calc_current_param [StarArgs; StarStarKwargs] h = (Some 1, true) /\ calc_current_param [Keyword c_; StarStarKwargs] h = (Some 1, false).
Proof. repeat split. Qed.
(** [g(1, **]: the parameter that the positional argument is for is shown. *)
Theorem C76_star_star_refuted : calc_current_param [PositionalOrEmptyAfterComma; StarStarKwargs] g_ = (Some 0, true) /\ ~ still_free g_ 1 [] StarStarKwargs 0 /\ still_free g_ 1 [] StarStarKwargs 1.
Proof.
  split; [reflexivity|]. split.
  - intros (p & Hp & H). injection Hp as <-. cbn in H. destruct H as [(_ & L & _)|[[H _]|H]]; [lia|discriminate H|discriminate H].
  - eexists. split; [reflexivity|]. left. split; [reflexivity|]. split; [lia|]. intros name _ [].
Qed.

(** A range that does not end between two characters of the label is the panic of Rust, every other one is not. *)
Theorem C76_boundary : forall t n a, prefix_bytes n t = Some a <-> (exists b, t = a ++ b) /\ len a = n.
Proof.
  intros t n a. split.
  - revert n a. induction t as [|c t IH]; intros [|n] a; cbn [prefix_bytes]; intros E; try discriminate E.
    + injection E as <-. split; [exists []; reflexivity|reflexivity].
    + injection E as <-. split; [exists (c :: t); reflexivity|reflexivity].
    + destruct (Nat.leb_spec (utf8_len c) (S n)) as [L|L]; [|discriminate E]. destruct (prefix_bytes (S n - utf8_len c) t) as [r|] eqn:P; [|discriminate E]. cbn [option_map] in E. injection E as <-.
      destruct (IH _ _ P) as [[b ->] Hl]. split; [exists b; reflexivity|]. cbn [len fold_right]. fold (len r). lia.
  - intros [[b ->] <-]. apply prefix_at.
Qed.
Example C76_boundary_case : prefix_bytes 3 [97; 233; 98]%N = Some [97; 233]%N /\ prefix_bytes 2 [97; 233; 98]%N = None.
Proof. repeat split. Qed.

Print Assumptions C76_boundary.
Print Assumptions C76_utf8.
Print Assumptions C76_utf16.
Print Assumptions C76_star.
Print Assumptions C76_star_star_partial.
Print Assumptions C76_star_fits.
Print Assumptions C76_missing.
Print Assumptions C76_star_star_refuted.
Print Assumptions C76_positional.
Print Assumptions C76_first.
Print Assumptions C76_keyword.
Print Assumptions C76_after_keywords_partial.
Print Assumptions C76_label.
Print Assumptions C76_ranges.
Print Assumptions C76_ranges_apart.
Print Assumptions C76_active.
Print Assumptions C76_any.
Print Assumptions C76_positional_only_refuted.
Print Assumptions C76_prefix_refuted.
Print Assumptions C76_empty_refuted.
