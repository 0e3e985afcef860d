(** The iterator over the parameters against the specification of calls. *)
From Coq Require Import List NArith Arith Bool Lia Permutation.
From Verif Require Import CallModel CallSpec CallFacts.
Import ListNotations.

Section Proofs.
Variables (ty val : Type) (fits : ty -> val -> bool).
Notation param := (param ty).
Notation arg := (arg val).
Notation state := (state ty val).
Notation ref := (ref ty).
Notation ok := (ok ty val (fun t v => fits t v = true)).
Notation without := (without val).
Notation matches := (item_matches fits).

(** ** Parameters one after the other *)

Definition by_kw (p : param) (k : list (N * val) -> Prop) (K : list (N * val)) : Prop :=
  (exists n v, p_name p = Some n /\ In (n, v) K /\ ok p v /\ k (without n K)) \/
  ((forall n, p_name p = Some n -> ~ In n (map fst K)) /\ p_default p = true /\ k K).

Fixpoint binds (ps : list param) (vs : list val) (K : list (N * val)) : Prop :=
  match ps with
  | [] => vs = [] /\ K = []
  | p :: r =>
      match p_kind p with
      | PositionalOnly =>
          match vs with
          | v :: vs => ok p v /\ binds r vs K
          | [] => p_default p = true /\ binds r [] K
          end
      | PositionalOrKeyword =>
          match vs with
          | v :: vs => ok p v /\ binds r vs K
          | [] => by_kw p (binds r []) K
          end
      | Star => Forall (ok p) vs /\ binds r [] K
      | KeywordOnly => vs = [] /\ by_kw p (binds r []) K
      | StarStar => vs = [] /\ Forall (fun kv => ok p (snd kv)) K /\ binds r [] []
      end
  end.

Definition same (K K' : list (N * val)) : Prop := forall x, In x K <-> In x K'.

Lemma same_nil : forall K, same K [] -> K = [].
Proof. intros [|x K] H; [reflexivity|destruct (proj1 (H x) (or_introl eq_refl))]. Qed.

Lemma same_fst : forall K K' n, same K K' -> In n (map fst K) -> In n (map fst K').
Proof. intros K K' n H Hn; apply in_map_iff in Hn as (x & <- & Hx); apply in_map; apply H; exact Hx. Qed.

Lemma same_sym : forall K K', same K K' -> same K' K.
Proof. intros K K' H x; symmetry; apply H. Qed.

Lemma same_without : forall K K' n, same K K' -> same (without n K) (without n K').
Proof. intros K K' n H (m & v); rewrite !in_without, (H (m, v)); tauto. Qed.

Lemma binds_same : forall ps vs K K', same K K' -> binds ps vs K -> binds ps vs K'.
Proof.
  induction ps as [|p r IH]; intros vs K K' H; cbn [binds].
  - intros [-> ->]; split; [reflexivity|]. apply same_nil, same_sym, H.
  - assert (Hkw : by_kw p (binds r []) K -> by_kw p (binds r []) K').
    { intros [(n & v & Hn & Hin & Hv & Hk)|(Hno & Hd & Hk)]; [left|right].
      - exists n, v; refine (conj Hn (conj _ (conj Hv _))); [apply H; exact Hin|].
        exact (IH [] _ _ (same_without _ _ n H) Hk).
      - refine (conj _ (conj Hd (IH [] _ _ H Hk))).
        intros n Hn Hin; exact (Hno n Hn (same_fst _ _ _ (same_sym _ _ H) Hin)). }
    destruct (p_kind p).
    + destruct vs as [|v vs]; intros [A B]; split; eauto.
    + destruct vs as [|v vs]; [exact Hkw|]. intros [A B]; split; eauto.
    + intros [A B]; split; eauto.
    + intros [A B]; split; auto.
    + intros (A & B & C); refine (conj A (conj _ C)).
      rewrite Forall_forall in *; intros x Hx; apply B, H; exact Hx.
Qed.

(** ** The specification and [binds] *)

Lemma by_kw_ok : forall p r K, NoDup (map fst K) -> signature (p :: r) ->
  p_kind p = PositionalOrKeyword \/ p_kind p = KeywordOnly ->
  (kw_ok ty val (fun t v => fits t v = true) (p :: r) K <-> by_kw p (kw_ok ty val (fun t v => fits t v = true) r) K).
Proof.
  intros p r K Hnd Hsig Hk.
  destruct (p_name p) as [n|] eqn:En; [|exfalso; exact (has_name _ _ Hsig p (or_introl eq_refl) Hk En)].
  assert (Hn : named n p) by (split; assumption).
  assert (Hr : forall q, In q r -> ~ named n q) by (intros q Hq; exact (signature_named _ _ _ _ _ Hsig Hq Hn)).
  assert (Hv : ~ variadic p) by (intros [E|E]; destruct Hk as [E'|E']; rewrite E' in E; discriminate).
  destruct (in_dec N.eq_dec n (map fst K)) as [Hin|Hout].
  - apply in_map_iff in Hin as ((n' & v) & E & Hin); cbn in E; subst n'.
    rewrite (kw_take ty val _ p r n v K Hnd Hn Hr Hin). split.
    + intros [Hok Hrest]; left; exists n, v; auto.
    + intros [(m & w & Hm & Hw & Hok & Hrest)|(Hno & _)].
      * rewrite En in Hm; injection Hm as <-. rewrite (key_fun val _ _ _ _ Hnd Hin Hw); auto.
      * exfalso; apply (Hno n En); apply in_map_iff; exists (n, v); auto.
  - assert (Hno : forall m, named m p -> ~ In m (map fst K)).
    { intros m Hm; rewrite (named_inj _ _ _ _ Hm Hn); exact Hout. }
    rewrite (kw_skip ty val _ p r K Hv Hno). split.
    + intros [Hd Hrest]; right; refine (conj _ (conj Hd Hrest)).
      intros m Hm; apply Hno; split; assumption.
    + intros [(m & w & Hm & Hw & _)|(_ & Hd & Hrest)]; [exfalso|auto].
      rewrite En in Hm; injection Hm as <-. apply Hout; apply in_map_iff; exists (n, w); auto.
Qed.

Lemma by_kw_iff : forall p (k k' : list (N * val) -> Prop) K, (forall K', (K' = K \/ exists n, K' = without n K) -> (k K' <-> k' K')) ->
  (by_kw p k K <-> by_kw p k' K).
Proof.
  intros p k k' K H; unfold by_kw.
  rewrite (H K (or_introl eq_refl)).
  split; (intros [(n & v & A & B & C & D)|X]; [left|right; exact X]); exists n, v;
    refine (conj A (conj B (conj C _))); apply (H (without n K)); eauto.
Qed.

(** The keyword part. *)
Lemma binds_kw : forall ps K, signature ps -> NoDup (map fst K) ->
  (binds ps [] K <-> kw_ok ty val (fun t v => fits t v = true) ps K).
Proof.
  induction ps as [|p r IH]; intros K Hsig Hnd.
  - cbn [binds]; rewrite kw_nil; tauto.
  - assert (Hr : signature r) by exact (signature_tail _ _ _ Hsig).
    assert (Hby : by_kw p (binds r []) K <-> by_kw p (kw_ok ty val (fun t v => fits t v = true) r) K).
    { apply by_kw_iff; intros K' HK'. apply IH; [exact Hr|].
      destruct HK' as [->|(n & ->)]; [exact Hnd|apply without_nodup; exact Hnd]. }
    cbn [binds]; destruct (p_kind p) eqn:Ek.
    + rewrite IH by assumption. symmetry; apply kw_skip.
      * intros [E|E]; rewrite Ek in E; discriminate.
      * intros n [[E|E] _]; rewrite Ek in E; discriminate.
    + rewrite Hby; symmetry; apply by_kw_ok; auto.
    + rewrite IH by assumption. rewrite kw_star by exact Ek. split; [tauto|]. intros H; split; [constructor|exact H].
    + rewrite Hby; rewrite by_kw_ok by auto; tauto.
    + assert (E : r = []).
      { destruct r as [|q r]; [reflexivity|exfalso].
        pose proof (signature_rank _ _ _ q Hsig (or_introl eq_refl)) as Hq; rewrite Ek in Hq; cbn [rank] in Hq.
        apply (signature_variadic _ _ _ q Hsig (or_introl eq_refl)); [right; exact Ek|].
        rewrite Ek; destruct (p_kind q); cbn in Hq; try lia; reflexivity. }
      subst r; rewrite kw_star_star by exact Ek; cbn [binds]; tauto.
Qed.

(** Names of parameters that a positional argument reaches are not used by keyword. *)
Definition no_collision (ps : list param) (vs : list val) (K : list (N * val)) : Prop :=
  forall i p n, i < length vs -> nth_error ps i = Some p -> p_kind p = PositionalOrKeyword -> p_name p = Some n ->
    ~ In n (map fst K).

Lemma no_collision_late : forall p r vs K, signature (p :: r) -> 2 <= rank (p_kind p) -> no_collision (p :: r) vs K.
Proof.
  intros p r vs K Hsig Hp i q n _ Hq Hk. exfalso.
  destruct i as [|i].
  - cbn in Hq; injection Hq as <-; rewrite Hk in Hp; cbn in Hp; lia.
  - cbn [nth_error] in Hq. pose proof (signature_rank _ _ _ _ Hsig (nth_error_In _ _ Hq)) as H.
    rewrite Hk in H; cbn [rank] in H; lia.
Qed.

Lemma accepts_binds : forall ps vs K, signature ps -> NoDup (map fst K) ->
  (accepts (fun t v => fits t v = true) ps (mk_call vs K) <-> binds ps vs K /\ no_collision ps vs K).
Proof.
  induction ps as [|p r IH]; intros vs K Hsig Hnd.
  - rewrite accepts_nil; cbn [binds]. split; [|tauto]. intros H; split; [exact H|]. intros i p n _ Hi; destruct i; discriminate.
  - destruct vs as [|v vs].
    + rewrite accepts_kw, binds_kw by assumption. split; [|tauto]. intros H; split; [exact H|]. intros i q n Hi; cbn in Hi; lia.
    + assert (Hr : signature r) by exact (signature_tail _ _ _ Hsig).
      destruct (p_kind p) eqn:Ek.
      * rewrite (accepts_position ty val _ p r v vs K (or_introl Ek)), (IH vs K Hr Hnd); cbn [binds]; rewrite Ek; split.
        -- intros (Hok & (Hb & Hc) & _); refine (conj (conj Hok Hb) _).
           intros [|i] q n Hi Hq Hkq Hn; [cbn in Hq; injection Hq as <-; rewrite Ek in Hkq; discriminate|].
           exact (Hc i q n ltac:(cbn in Hi; lia) Hq Hkq Hn).
        -- intros ((Hok & Hb) & Hc); refine (conj Hok (conj (conj Hb _) _)).
           ++ intros i q n Hi Hq Hkq Hn; exact (Hc (S i) q n ltac:(cbn; lia) Hq Hkq Hn).
           ++ intros n [[E|E] _]; rewrite Ek in E; discriminate.
      * rewrite (accepts_position ty val _ p r v vs K (or_intror Ek)), (IH vs K Hr Hnd); cbn [binds]; rewrite Ek; split.
        -- intros (Hok & (Hb & Hc) & Hno); refine (conj (conj Hok Hb) _).
           intros [|i] q n Hi Hq Hkq Hn; [cbn in Hq; injection Hq as <-; exact (Hno n (conj (or_introl Ek) Hn))|].
           exact (Hc i q n ltac:(cbn in Hi; lia) Hq Hkq Hn).
        -- intros ((Hok & Hb) & Hc); refine (conj Hok (conj (conj Hb _) _)).
           ++ intros i q n Hi Hq Hkq Hn; exact (Hc (S i) q n ltac:(cbn; lia) Hq Hkq Hn).
           ++ intros n [_ Hn]; exact (Hc 0 p n ltac:(cbn; lia) eq_refl Ek Hn).
      * rewrite accepts_star by assumption. cbn [binds]; rewrite Ek, binds_kw by assumption.
        split; [|tauto]. intros H; split; [exact H|]. apply no_collision_late; [exact Hsig|rewrite Ek; cbn; lia].
      * split; [|cbn [binds]; rewrite Ek; intros ((E & _) & _); discriminate].
        intros H; pose proof (accepts_keyword_only _ _ _ _ _ _ _ Hsig (or_introl Ek) H); discriminate.
      * split; [|cbn [binds]; rewrite Ek; intros ((E & _) & _); discriminate].
        intros H; pose proof (accepts_keyword_only _ _ _ _ _ _ _ Hsig (or_intror Ek) H); discriminate.
Qed.

(** ** The iterator, for arguments of known number *)

Definition is_pos (a : arg) : Prop := a_kind a = Positional.
Definition is_kw (a : arg) : Prop := exists n, a_kind a = Keyword n.
Definition kv (a : arg) : N * val := (match a_kind a with Keyword n => n | _ => 0%N end, a_value a).
Definition definite (a : arg) : Prop := is_pos a \/ is_kw a.

(** The arguments that are still to come. *)
Definition rep (s : state) (q : list arg) : Prop :=
  match current_arg s with Some a => [a] | None => [] end ++ arguments s = q.

(** The state with other arguments, a current one being part of them. *)
Definition at_ (s : state) (q : list arg) (u : list arg) (tm : bool) : state :=
  mk_state q None (params s) u (current_starred_param s) (current_double_starred_param s) tm (arbitrary_length_handled s).

Lemma next_arg_cons : forall s a q, rep s (a :: q) -> definite a ->
  next_arg s = (Some a, at_ s q (unused_keyword_arguments s) (too_many_positional_arguments s)).
Proof.
  intros s a q H Ha. unfold rep in H. unfold next_arg, at_.
  assert (E : arbitrary_len a = false) by (unfold arbitrary_len; destruct Ha as [->|(n & ->)]; reflexivity).
  destruct (current_arg s) as [b|] eqn:Ec.
  - cbn [app] in H; injection H as -> <-. rewrite E. unfold set_current. reflexivity.
  - cbn [app] in H; rewrite H, E. unfold set_arguments; rewrite Ec; reflexivity.
Qed.

Lemma next_arg_nil : forall s, rep s [] -> next_arg s = (None, s).
Proof.
  intros s H; unfold rep in H; unfold next_arg.
  destruct (current_arg s); [discriminate|]. cbn [app] in H; rewrite H; reflexivity.
Qed.

Lemma rep_nil : forall s, rep s [] -> s = at_ s [] (unused_keyword_arguments s) (too_many_positional_arguments s).
Proof.
  intros s H; unfold rep in H; unfold at_. destruct s as [a c p u sp dp tm h]; cbn in *.
  destruct c; [discriminate|]. cbn in H; subst a; reflexivity.
Qed.

Lemma rep_at : forall s q u tm, rep (at_ s q u tm) q.
Proof. reflexivity. Qed.

Lemma rep_length : forall s q, rep s q -> length q < arguments_left s.
Proof.
  intros s q H; unfold rep in H; unfold arguments_left; subst q.
  destruct (current_arg s); cbn; lia.
Qed.

Lemma kw_name : forall a, is_kw a -> keyword_name a = Some (fst (kv a)).
Proof. intros a (n & H); unfold keyword_name, kv; rewrite H; reflexivity. Qed.

Lemma check_unused_some : forall n u a r, check_unused n u = Some (a, r) -> Forall is_kw u ->
  n = Some (fst (kv a)) /\ Permutation u (a :: r).
Proof.
  intros n u; induction u as [|b u IH]; cbn [check_unused]; intros a r H F; [discriminate|].
  inversion F as [|? ? Hb Hu]; subst. rewrite (kw_name b Hb) in H.
  destruct (name_is n (fst (kv b))) eqn:E.
  - injection H as <- <-. split; [|reflexivity].
    unfold name_is in E; destruct n as [m|]; [|discriminate]. apply N.eqb_eq in E; congruence.
  - destruct (check_unused n u) as [[c r']|] eqn:Ec; [|discriminate]. injection H as <- <-.
    destruct (IH c r' eq_refl Hu) as [-> Hp]. split; [reflexivity|].
    transitivity (b :: c :: r'); [constructor; exact Hp|constructor].
Qed.

Lemma check_unused_none : forall n u, check_unused n u = None -> Forall is_kw u ->
  forall m, n = Some m -> ~ In m (map fst (map kv u)).
Proof.
  intros n u; induction u as [|b u IH]; cbn [check_unused]; intros H F m Hm; [cbn; tauto|].
  inversion F as [|? ? Hb Hu]; subst. rewrite (kw_name b Hb) in H.
  destruct (name_is (Some m) (fst (kv b))) eqn:E; [discriminate|].
  destruct (check_unused (Some m) u) as [[c r']|] eqn:Ec; [discriminate|].
  cbn [map In]; intros [Hin|Hin].
  - cbn [name_is] in E; rewrite Hin, N.eqb_refl in E; discriminate.
  - exact (IH eq_refl Hu m eq_refl Hin).
Qed.

(** What the two arms that look for a keyword do to the keyword arguments [L] left. *)
Inductive taken (p : param) (L : list arg) (K' U' : list arg) : option arg -> Prop :=
| taken_some : forall a, p_name p = Some (fst (kv a)) -> Permutation L (a :: K' ++ U') -> taken p L K' U' (Some a)
| taken_none : (forall n, p_name p = Some n -> ~ In n (map fst (map kv L))) -> Permutation L (K' ++ U') -> taken p L K' U' None.

Lemma from_unused_taken : forall (p : ref) s u tm, Forall is_kw u ->
  exists U' f, from_unused p (at_ s [] u tm) = ((p, f), at_ s [] U' tm) /\ taken (snd p) u [] U' f.
Proof.
  intros p s u tm F. unfold from_unused; cbn [unused_keyword_arguments at_].
  destruct (check_unused (p_name (snd p)) u) as [[a r]|] eqn:E.
  - exists r, (Some a); split; [reflexivity|]. destruct (check_unused_some _ _ _ _ E F). constructor; assumption.
  - exists u, None; split; [reflexivity|]. constructor; [exact (check_unused_none _ _ E F)|reflexivity].
Qed.

Lemma taken_push : forall p a q u K' U' f, taken p (q ++ u ++ [a]) K' U' f -> taken p ((a :: q) ++ u) K' U' f.
Proof.
  intros p a q u K' U' f H.
  assert (P : Permutation ((a :: q) ++ u) (q ++ u ++ [a])).
  { cbn [app]. rewrite app_assoc. apply Permutation_cons_append. }
  destruct H as [b Hn Hp|Hn Hp].
  - constructor; [exact Hn|]. transitivity (q ++ u ++ [a]); assumption.
  - constructor; [|transitivity (q ++ u ++ [a]); assumption].
    intros n Hm Hin; apply (Hn n Hm). rewrite map_map in *.
    apply (Permutation_in _ (Permutation_map (fun x => fst (kv x)) P)); exact Hin.
Qed.

Lemma rep_push : forall s a q, rep (push_unused a (at_ s q (unused_keyword_arguments s) (too_many_positional_arguments s))) q.
Proof. reflexivity. Qed.

Lemma pk_taken : forall q fuel (p : ref) s, rep s q -> length q < fuel -> Forall is_kw q -> Forall is_kw (unused_keyword_arguments s) ->
  exists K' U' f, positional_or_keyword fuel p s = ((p, f), at_ s K' U' (too_many_positional_arguments s)) /\
    taken (snd p) (q ++ unused_keyword_arguments s) K' U' f.
Proof.
  induction q as [|a q IH]; intros fuel p s Hrep Hfuel Fq Fu; (destruct fuel as [|fuel]; [cbn in Hfuel; lia|]);
    cbn [positional_or_keyword].
  - rewrite (next_arg_nil s Hrep), (rep_nil s Hrep). cbn [at_ too_many_positional_arguments unused_keyword_arguments].
    destruct (from_unused_taken p s _ (too_many_positional_arguments s) Fu) as (U' & f & E & H).
    exists [], U', f; split; [exact E|exact H].
  - inversion Fq as [|? ? Ha Fq']; subst.
    rewrite (next_arg_cons s a q Hrep (or_intror Ha)), (kw_name a Ha).
    destruct (name_is (p_name (snd p)) (fst (kv a))) eqn:E.
    + exists q, (unused_keyword_arguments s), (Some a); split; [reflexivity|]. constructor; [|reflexivity].
      unfold name_is in E; destruct (p_name (snd p)) as [m|]; [|discriminate]. apply N.eqb_eq in E; congruence.
    + destruct (IH fuel p (push_unused a (at_ s q (unused_keyword_arguments s) (too_many_positional_arguments s)))) as (K' & U' & f & E' & H).
      * reflexivity.
      * cbn in Hfuel; lia.
      * exact Fq'.
      * cbn [unused_keyword_arguments push_unused set_unused at_]. apply Forall_app; split; [exact Fu|constructor; [exact Ha|constructor]].
      * exists K', U', f; split; [rewrite E'; reflexivity|]. apply taken_push; exact H.
Qed.

Lemma ko_taken_kw : forall q fuel (p : ref) s, rep s q -> length q < fuel -> Forall is_kw q -> Forall is_kw (unused_keyword_arguments s) ->
  exists K' U' f, keyword_only fuel p s = ((p, f), at_ s K' U' (too_many_positional_arguments s)) /\
    taken (snd p) (q ++ unused_keyword_arguments s) K' U' f.
Proof.
  induction q as [|a q IH]; intros fuel p s Hrep Hfuel Fq Fu; (destruct fuel as [|fuel]; [cbn in Hfuel; lia|]);
    cbn [keyword_only].
  - rewrite (next_arg_nil s Hrep), (rep_nil s Hrep). cbn [at_ too_many_positional_arguments unused_keyword_arguments].
    destruct (from_unused_taken p s _ (too_many_positional_arguments s) Fu) as (U' & f & E & H).
    exists [], U', f; split; [exact E|exact H].
  - inversion Fq as [|? ? Ha Fq']; subst.
    rewrite (next_arg_cons s a q Hrep (or_intror Ha)), (kw_name a Ha).
    replace (is_arbitrary_kwargs a) with false by (destruct Ha as (n & Ha); unfold is_arbitrary_kwargs; rewrite Ha; reflexivity).
    destruct (name_is (p_name (snd p)) (fst (kv a))) eqn:E.
    + exists q, (unused_keyword_arguments s), (Some a); split; [reflexivity|]. constructor; [|reflexivity].
      unfold name_is in E; destruct (p_name (snd p)) as [m|]; [|discriminate]. apply N.eqb_eq in E; congruence.
    + destruct (IH fuel p (push_unused a (at_ s q (unused_keyword_arguments s) (too_many_positional_arguments s)))) as (K' & U' & f & E' & H).
      * reflexivity.
      * cbn in Hfuel; lia.
      * exact Fq'.
      * cbn [unused_keyword_arguments push_unused set_unused at_]. apply Forall_app; split; [exact Fu|constructor; [exact Ha|constructor]].
      * exists K', U', f; split; [rewrite E'; reflexivity|]. apply taken_push; exact H.
Qed.

Lemma ko_taken : forall P q fuel (p : ref) s, rep s (P ++ q) -> length (P ++ q) < fuel -> Forall is_pos P ->
  Forall is_kw q -> Forall is_kw (unused_keyword_arguments s) ->
  exists K' U' f, keyword_only fuel p s =
      ((p, f), at_ s K' U' (match P with [] => too_many_positional_arguments s | _ => true end)) /\
    taken (snd p) (q ++ unused_keyword_arguments s) K' U' f.
Proof.
  induction P as [|a P IH]; intros q fuel p s Hrep Hfuel Fp Fq Fu.
  - exact (ko_taken_kw q fuel p s Hrep Hfuel Fq Fu).
  - destruct fuel as [|fuel]; [cbn in Hfuel; lia|]. cbn [keyword_only].
    inversion Fp as [|? ? Ha Fp']; subst. cbn [app] in Hrep.
    rewrite (next_arg_cons s a (P ++ q) Hrep (or_introl Ha)).
    unfold is_arbitrary_kwargs, keyword_name, arbitrary_len; rewrite Ha.
    destruct (IH q fuel p (set_too_many (at_ s (P ++ q) (unused_keyword_arguments s) (too_many_positional_arguments s)))) as (K' & U' & f & E & H).
    + reflexivity.
    + cbn in Hfuel; lia.
    + exact Fp'.
    + exact Fq.
    + exact Fu.
    + exists K', U', f; split; [rewrite E; destruct P; reflexivity|exact H].
Qed.

(** The result after the items from a state on. *)
Definition final (s : state) : bool :=
  negb (too_many_positional_arguments s) && negb (has_unused_arguments (arguments_left s) s) &&
  match unused_keyword_arguments s with [] => true | _ => false end.
Definition answer (fuel : nat) (s : state) : bool :=
  let (l, s) := items fuel s in forallb matches l && final s.

Lemma answer_some : forall fuel s i s', next (params s) s = (Some i, s') -> answer (S fuel) s = matches i && answer fuel s'.
Proof.
  intros fuel s i s' H; unfold answer; cbn [items]; rewrite H.
  destruct (items fuel s') as [l s'']; cbn [forallb]. rewrite andb_assoc; reflexivity.
Qed.

Lemma answer_none : forall fuel s s', next (params s) s = (None, s') -> answer (S fuel) s = final s'.
Proof. intros fuel s s' H; unfold answer; cbn [items]; rewrite H; reflexivity. Qed.

Lemma match_arguments_answer : forall ps args, match_arguments fits ps args = answer (S (length ps + length args)) (new ps args).
Proof.
  intros ps args; unfold match_arguments, run, answer. destruct (items _ _) as [l s].
  unfold final; rewrite !andb_assoc; reflexivity.
Qed.

Lemma final_iff : forall s q, rep s q -> Forall definite q ->
  (final s = true <-> too_many_positional_arguments s = false /\ q = [] /\ unused_keyword_arguments s = []).
Proof.
  intros s q Hrep F. unfold final. rewrite !andb_true_iff, !negb_true_iff.
  assert (E : has_unused_arguments (arguments_left s) s = match q with [] => false | _ => true end).
  { unfold arguments_left; cbn [has_unused_arguments]. destruct q as [|a q].
    - rewrite (next_arg_nil s Hrep); reflexivity.
    - inversion F as [|? ? Ha Fq]; subst. rewrite (next_arg_cons s a q Hrep Ha).
      replace (arbitrary_len a) with false; [reflexivity|].
      unfold arbitrary_len; destruct Ha as [->|(n & ->)]; reflexivity. }
  rewrite E. destruct q, (unused_keyword_arguments s); split; try tauto; try (intros ((A & B) & C); discriminate);
    try (intros (A & B & C); discriminate).
Qed.

Lemma item_ok : forall (p : ref) a, matches (p, Some a) = true <-> ok (snd p) (a_value a).
Proof.
  intros p a; unfold item_matches, CallFacts.ok; cbn [snd fst].
  destruct (p_type (snd p)) as [t|]; split.
  - intros H t' [= <-]; exact H.
  - intros H; exact (H t eq_refl).
  - intros _ t' [=].
  - reflexivity.
Qed.

(** A state between two parameters. *)
Record between (s : state) (P K : list arg) : Prop := {
  b_rep : rep s (P ++ K);
  b_pos : Forall is_pos P;
  b_kw : Forall is_kw K;
  b_unused : Forall is_kw (unused_keyword_arguments s);
  b_star : current_starred_param s = None;
  b_star_star : current_double_starred_param s = None
}.

Lemma definite_app : forall P K, Forall is_pos P -> Forall is_kw K -> Forall definite (P ++ K).
Proof.
  intros P K HP HK; apply Forall_app; split.
  - eapply Forall_impl; [|exact HP]; intros a Ha; left; exact Ha.
  - eapply Forall_impl; [|exact HK]; intros a Ha; right; exact Ha.
Qed.

Lemma next_unfold : forall (todo : list ref) (s : state), current_starred_param s = None -> current_double_starred_param s = None ->
  next todo s =
  match todo with
  | [] => (None, s)
  | p :: todo =>
      let s := set_params todo s in
      match p_kind (snd p) with
      | PositionalOrKeyword => let (i, s) := positional_or_keyword (arguments_left s) p s in (Some i, s)
      | KeywordOnly => let (i, s) := keyword_only (arguments_left s) p s in (Some i, s)
      | PositionalOnly => let (i, s) := positional_only p s in (Some i, s)
      | Star => next todo (set_starred (Some p) s)
      | StarStar => next todo (set_double_starred (Some p) s)
      end
  end.
Proof.
  intros todo s H1 H2. assert (E1 : starred s = (None, s)) by (unfold starred; rewrite H1; reflexivity).
  assert (E2 : double_starred s = (None, s)) by (unfold double_starred; rewrite H2; reflexivity).
  destruct todo; cbn [next]; rewrite E1, E2; reflexivity.
Qed.

Notation values := (map a_value).

(** Names occur once. *)
Definition once (L : list arg) : Prop := NoDup (map fst (map kv L)).

Lemma once_perm : forall L L', Permutation L L' -> once L -> once L'.
Proof.
  intros L L' P H; unfold once in *; rewrite map_map in *.
  exact (Permutation_NoDup (Permutation_map _ P) H).
Qed.

Lemma taken_kws : forall p L K' U' f, taken p L K' U' f -> Forall is_kw L ->
  Forall is_kw (K' ++ U') /\ match f with Some a => is_kw a | None => True end.
Proof.
  intros p L K' U' f [a Hn Hp|Hn Hp] F.
  - pose proof (Permutation_Forall Hp F) as H; inversion H; subst; auto.
  - split; [exact (Permutation_Forall Hp F)|exact I].
Qed.

Lemma perm_same : forall L L', Permutation L L' -> same (map kv L) (map kv L').
Proof.
  intros L L' P x; split; apply Permutation_in; [|apply Permutation_sym]; apply Permutation_map; exact P.
Qed.

(** A keyword taken out, in terms of [by_kw]. *)
Lemma taken_by_kw : forall (p : ref) L K' U' f (k : list (N * val) -> Prop), taken (snd p) L K' U' f -> once L ->
  (forall X Y, same X Y -> k X -> k Y) ->
  (matches (p, f) = true /\ k (map kv (K' ++ U')) <-> by_kw (snd p) k (map kv L)).
Proof.
  intros p L K' U' f k H Ho Hk. unfold by_kw. destruct H as [a Hn Hp|Hn Hp].
  - rewrite item_ok.
    assert (Hin : In (kv a) (map kv L)).
    { apply (perm_same _ _ Hp); left; reflexivity. }
    assert (Hs : same (map kv (K' ++ U')) (without (fst (kv a)) (map kv L))).
    { intros (m & w). rewrite in_without, (perm_same _ _ Hp (m, w)). cbn [map In].
      pose proof (once_perm _ _ Hp Ho) as Ho'. unfold once in Ho'; cbn [map] in Ho'.
      inversion Ho' as [|? ? Hnot _]; subst. split.
      - intros Hm; split; [right; exact Hm|]. intros ->. apply Hnot. apply (in_map fst) in Hm; exact Hm.
      - intros [[E|Hm] Hne]; [exfalso; apply Hne; rewrite E; reflexivity|exact Hm]. }
    split.
    + intros [Hok Hrest]; left; exists (fst (kv a)), (a_value a).
      refine (conj Hn (conj _ (conj Hok _))); [exact Hin|exact (Hk _ _ Hs Hrest)].
    + intros [(n & v & Hn' & Hv & Hok & Hrest)|(Hno & _)].
      * rewrite Hn in Hn'; injection Hn' as <-.
        assert (E : v = a_value a) by exact (key_fun val _ _ _ _ Ho Hv Hin).
        subst v; split; [exact Hok|exact (Hk _ _ (same_sym _ _ Hs) Hrest)].
      * exfalso; apply (Hno _ Hn). apply (in_map fst) in Hin; exact Hin.
  - unfold item_matches; cbn [snd fst]. pose proof (perm_same _ _ Hp) as Hs. split.
    + intros [Hd Hrest]; right; refine (conj Hn (conj Hd _)). exact (Hk _ _ (same_sym _ _ Hs) Hrest).
    + intros [(n & v & Hn' & Hv & _)|(_ & Hd & Hrest)].
      * exfalso; apply (Hn n Hn'). apply (in_map fst) in Hv; exact Hv.
      * split; [exact Hd|exact (Hk _ _ Hs Hrest)].
Qed.

(** ** Draining [*args] and [**kwargs] *)

Lemma answer_next : forall fuel s s', next (params s) s = next (params s') s' -> answer (S fuel) s = answer (S fuel) s'.
Proof. intros fuel s s' H; unfold answer; cbn [items]; rewrite H; reflexivity. Qed.

Lemma next_starred_some : forall (todo : list ref) (s : state) i s', starred s = (Some i, s') -> next todo s = (Some i, s').
Proof. intros todo s i s' H; destruct todo; cbn [next]; rewrite H; reflexivity. Qed.

Lemma next_starred_none : forall (todo : list ref) (s s' : state), starred s = (None, s') -> current_starred_param s' = None ->
  next todo s = next todo s'.
Proof.
  intros todo s s' H H'. assert (E : starred s' = (None, s')) by (unfold starred; rewrite H'; reflexivity).
  destruct todo; cbn [next]; rewrite H, E; reflexivity.
Qed.

Lemma star_drain : forall P K fuel (p : ref) s, current_starred_param s = Some p -> current_double_starred_param s = None ->
  rep s (P ++ K) -> Forall is_pos P -> Forall is_kw K -> Forall is_kw (unused_keyword_arguments s) -> length P < fuel ->
  exists fuel' s', fuel = length P + fuel' /\ params s' = params s /\ between s' [] K /\
    unused_keyword_arguments s' = unused_keyword_arguments s /\
    too_many_positional_arguments s' = too_many_positional_arguments s /\
    (answer fuel s = true <-> Forall (ok (snd p)) (values P) /\ answer fuel' s' = true).
Proof.
  induction P as [|a P IH]; intros K fuel p s Hs Hd Hrep FP FK FU Hf.
  - assert (Hex : exists s', starred s = (None, s') /\ params s' = params s /\ between s' [] K /\
      unused_keyword_arguments s' = unused_keyword_arguments s /\
      too_many_positional_arguments s' = too_many_positional_arguments s).
    { unfold starred; rewrite Hs. unfold arguments_left; cbn [maybe_exact_multi_arg]. cbn [app] in Hrep.
      destruct K as [|k K].
      - rewrite (next_arg_nil s Hrep). exists (set_starred None s).
        refine (conj eq_refl (conj eq_refl (conj _ (conj eq_refl eq_refl)))).
        constructor; try assumption; reflexivity.
      - inversion FK as [|? ? Hk FK']; subst. rewrite (next_arg_cons s k K Hrep (or_intror Hk)).
        replace (is_keyword_argument k) with true by (destruct Hk as (n & E); unfold is_keyword_argument; rewrite E; reflexivity).
        cbn [Bool.eqb andb]. eexists; refine (conj eq_refl (conj eq_refl (conj _ (conj eq_refl eq_refl)))).
        constructor; try assumption; reflexivity. }
    destruct Hex as (s' & E & Hp & Hb & Hu & Ht). exists fuel, s'.
    refine (conj eq_refl (conj Hp (conj Hb (conj Hu (conj Ht _))))).
    destruct fuel as [|fuel]; [cbn in Hf; lia|].
    rewrite (answer_next fuel s s').
    + split; [intros H; split; [constructor|exact H]|tauto].
    + rewrite Hp. apply next_starred_none; [exact E|apply Hb].
  - inversion FP as [|? ? Ha FP']; subst. destruct fuel as [|fuel]; [cbn in Hf; lia|].
    cbn [app] in Hrep.
    assert (E : starred s = (Some (p, Some a), set_current None (set_handled true
      (at_ s (P ++ K) (unused_keyword_arguments s) (too_many_positional_arguments s))))).
    { unfold starred; rewrite Hs. unfold arguments_left; cbn [maybe_exact_multi_arg].
      rewrite (next_arg_cons s a (P ++ K) Hrep (or_introl Ha)).
      replace (is_keyword_argument a) with false by (unfold is_keyword_argument; rewrite Ha; reflexivity). reflexivity. }
    destruct (IH K fuel p (set_current None (set_handled true (at_ s (P ++ K) (unused_keyword_arguments s) (too_many_positional_arguments s)))))
      as (fuel' & s' & H1 & H2 & H3 & H4 & H5 & H6); try assumption; [reflexivity|cbn in Hf; lia|].
    exists fuel', s'. refine (conj _ (conj H2 (conj H3 (conj H4 (conj H5 _))))); [cbn; lia|].
    rewrite (answer_some fuel s _ _ (next_starred_some _ _ _ _ E)), andb_true_iff, item_ok, H6. cbn [map].
    rewrite Forall_cons_iff; tauto.
Qed.

Lemma next_double : forall s : state, current_starred_param s = None -> params s = [] -> next (params s) s = double_starred s.
Proof.
  intros s Hs Hp. assert (E : starred s = (None, s)) by (unfold starred; rewrite Hs; reflexivity).
  rewrite Hp; cbn [next]; rewrite E. destruct (double_starred s) as [[i|] s']; reflexivity.
Qed.

Lemma star_star_drain : forall n P K fuel (p : ref) s, current_starred_param s = None -> current_double_starred_param s = Some p ->
  params s = [] -> rep s (P ++ K) -> Forall is_pos P -> Forall is_kw K -> Forall is_kw (unused_keyword_arguments s) ->
  n = length K + length (unused_keyword_arguments s) -> n < fuel ->
  (answer fuel s = true <-> too_many_positional_arguments s = false /\ P = [] /\
     Forall (ok (snd p)) (values (K ++ unused_keyword_arguments s))).
Proof.
  induction n as [|n IH]; intros P K fuel p s Hs Hd Hp Hrep FP FK FU Hn Hf; (destruct fuel as [|fuel]; [lia|]);
    pose proof (next_double s Hs Hp) as Hnext; unfold double_starred in Hnext; rewrite Hd in Hnext;
    unfold arguments_left in Hnext; cbn [maybe_exact_multi_arg] in Hnext.
  - assert (EK : K = []) by (destruct K; [reflexivity|cbn in Hn; lia]).
    assert (EU : unused_keyword_arguments s = []) by (destruct (unused_keyword_arguments s); [reflexivity|cbn in Hn; lia]).
    subst K; rewrite app_nil_r in Hrep. rewrite EU; cbn [app map].
    destruct P as [|a P].
    + rewrite (next_arg_nil s Hrep), EU in Hnext; cbn [rev] in Hnext.
      rewrite (answer_none _ _ _ Hnext), (final_iff (set_double_starred None s) [] Hrep (Forall_nil _)).
      cbn [too_many_positional_arguments unused_keyword_arguments set_double_starred]. rewrite EU.
      split; [|tauto]. intros (A & _); refine (conj A (conj eq_refl (Forall_nil _))).
    + inversion FP as [|? ? Ha FP']; subst.
      rewrite (next_arg_cons s a P Hrep (or_introl Ha)) in Hnext.
      replace (is_keyword_argument a) with false in Hnext by (unfold is_keyword_argument; rewrite Ha; reflexivity).
      replace (arbitrary_len a) with false in Hnext by (unfold arbitrary_len; rewrite Ha; reflexivity).
      cbn [Bool.eqb andb unused_keyword_arguments set_current at_] in Hnext. rewrite EU in Hnext; cbn [rev] in Hnext.
      rewrite (answer_none _ _ _ Hnext).
      rewrite (final_iff _ (a :: P)); [split; intros (_ & E & _); discriminate|reflexivity|].
      rewrite <- (app_nil_r (a :: P)); apply definite_app; [exact FP|constructor].
  - destruct P as [|a P].
    + cbn [app] in Hrep. destruct K as [|k K].
      * rewrite (next_arg_nil s Hrep) in Hnext.
        destruct (rev (unused_keyword_arguments s)) as [|u r] eqn:Er.
        { apply (f_equal (@rev _)) in Er; rewrite rev_involutive in Er; rewrite Er in Hn; cbn in Hn; lia. }
        assert (EU : unused_keyword_arguments s = rev r ++ [u]) by (rewrite <- (rev_involutive (unused_keyword_arguments s)), Er; reflexivity).
        rewrite EU in FU, Hn; apply Forall_app in FU as [FU Fu]. rewrite app_length in Hn; cbn in Hn.
        rewrite (answer_some _ _ _ _ Hnext), andb_true_iff, item_ok.
        rewrite (IH [] [] fuel p (set_unused (rev r) s)); try assumption; [|cbn; lia|lia].
        cbn [too_many_positional_arguments unused_keyword_arguments set_unused app]. rewrite EU, map_app, Forall_app. cbn [map].
        rewrite Forall_cons_iff. split; [|tauto]. intros (A & B & C & D); refine (conj B (conj C (conj D (conj A (Forall_nil _))))).
      * inversion FK as [|? ? Hk FK']; subst. rewrite (next_arg_cons s k K Hrep (or_intror Hk)) in Hnext.
        replace (is_keyword_argument k) with true in Hnext by (destruct Hk as (m & E); unfold is_keyword_argument; rewrite E; reflexivity).
        cbn [Bool.eqb] in Hnext.
        rewrite (answer_some _ _ _ _ Hnext), andb_true_iff, item_ok. cbn [length] in Hn.
        rewrite (IH [] K fuel p); try assumption; try reflexivity; [|cbn; lia|lia].
        cbn [too_many_positional_arguments unused_keyword_arguments set_current set_handled at_ app map].
        rewrite Forall_cons_iff. tauto.
    + inversion FP as [|? ? Ha FP']; subst. cbn [app] in Hrep.
      rewrite (next_arg_cons s a (P ++ K) Hrep (or_introl Ha)) in Hnext.
      replace (is_keyword_argument a) with false in Hnext by (unfold is_keyword_argument; rewrite Ha; reflexivity).
      replace (arbitrary_len a) with false in Hnext by (unfold arbitrary_len; rewrite Ha; reflexivity).
      cbn [Bool.eqb andb unused_keyword_arguments set_current at_] in Hnext.
      destruct (rev (unused_keyword_arguments s)) as [|u r] eqn:Er.
      * rewrite (answer_none _ _ _ Hnext).
        rewrite (final_iff _ (a :: P ++ K)); [split; intros (_ & E & _); discriminate|reflexivity|].
        exact (definite_app (a :: P) K FP FK).
      * assert (EU : unused_keyword_arguments s = rev r ++ [u]) by (rewrite <- (rev_involutive (unused_keyword_arguments s)), Er; reflexivity).
        rewrite EU in FU, Hn; apply Forall_app in FU as [FU Fu]. rewrite app_length in Hn; cbn in Hn.
        rewrite (answer_some _ _ _ _ Hnext), andb_true_iff.
        rewrite (IH (a :: P) K fuel p); try assumption; try reflexivity; [|cbn; lia|lia].
        split; [intros (_ & _ & E & _); discriminate|intros (_ & E & _); discriminate].
Qed.

(** ** The simulation *)

Lemma simulation : forall todo P K fuel s, params s = todo -> between s P K -> signature (map snd todo) ->
  once (K ++ unused_keyword_arguments s) ->
  length todo + length P + length K + length (unused_keyword_arguments s) < fuel ->
  (answer fuel s = true <-> too_many_positional_arguments s = false /\
     binds (map snd todo) (values P) (map kv (K ++ unused_keyword_arguments s))).
Proof.
  induction todo as [|p todo IH]; intros P K fuel s Hp Hb Hsig Ho Hf; (destruct fuel as [|fuel]; [lia|]);
    destruct Hb as [Hrep FP FK FU Hs Hd]; pose proof (next_unfold (params s) s Hs Hd) as Hnext; rewrite Hp in Hnext.
  - rewrite <- Hp in Hnext. rewrite (answer_none _ _ _ Hnext), (final_iff s (P ++ K) Hrep (definite_app P K FP FK)). cbn [map binds].
    split.
    + intros (A & B & C). apply app_eq_nil in B as [-> ->]. rewrite C. auto.
    + intros (A & B & C). apply map_eq_nil in B, C. subst P. apply app_eq_nil in C as [-> C]. auto.
  - cbn [map] in Hsig |- *. pose proof (signature_tail _ _ _ Hsig) as Hsig'. cbn [length] in Hf.
    rewrite <- Hp in Hnext.
    assert (Hrep' : rep (set_params todo s) (P ++ K)) by exact Hrep.
    assert (Hkw : forall (K' U' : list arg) f tm, taken (snd p) (K ++ unused_keyword_arguments s) K' U' f ->
      next (params s) s = (Some (p, f), at_ (set_params todo s) K' U' tm) ->
      (answer (S fuel) s = true <-> tm = false /\ by_kw (snd p) (binds (map snd todo) []) (map kv (K ++ unused_keyword_arguments s)))).
    { intros K' U' f tm Ht E. rewrite (answer_some _ _ _ _ E), andb_true_iff.
      destruct (taken_kws _ _ _ _ _ Ht (proj2 (Forall_app _ _ _) (conj FK FU))) as [HKU Hfa].
      apply Forall_app in HKU as [FK' FU'].
      assert (Hlen : length K' + length U' <= length K + length (unused_keyword_arguments s)).
      { rewrite <- !app_length. destruct Ht as [a _ Hperm|_ Hperm]; apply Permutation_length in Hperm; cbn in Hperm; lia. }
      assert (Ho' : once (K' ++ U')).
      { destruct Ht as [a _ Hperm|_ Hperm]; pose proof (once_perm _ _ Hperm Ho) as X; [inversion X; assumption|exact X]. }
      rewrite (IH [] K' fuel (at_ (set_params todo s) K' U' tm)).
      - cbn [too_many_positional_arguments unused_keyword_arguments at_ map].
        rewrite <- (taken_by_kw p _ _ _ _ _ Ht Ho (binds_same (map snd todo) [])). tauto.
      - reflexivity.
      - constructor; try assumption; [reflexivity|constructor].
      - exact Hsig'.
      - exact Ho'.
      - cbn; lia. }
    cbv zeta in Hnext. cbn [binds]. destruct (p_kind (snd p)) eqn:Ek.
    + unfold positional_only in Hnext. destruct P as [|a P].
      * cbn [app] in Hrep'. destruct K as [|k K].
        -- rewrite (next_arg_nil _ Hrep') in Hnext. rewrite (answer_some _ _ _ _ Hnext), andb_true_iff.
           rewrite (IH [] [] fuel (set_params todo s)); try assumption; try reflexivity.
           ++ cbn [item_matches snd fst map]. cbn [too_many_positional_arguments unused_keyword_arguments set_params]. tauto.
           ++ constructor; assumption.
           ++ cbn in Hf |- *; lia.
        -- inversion FK as [|? ? Hk FK']; subst. rewrite (next_arg_cons _ k K Hrep' (or_intror Hk)) in Hnext.
           replace (can_be_used_to_match_positional_param k) with false in Hnext
             by (destruct Hk as (m & E); unfold can_be_used_to_match_positional_param; rewrite E; reflexivity).
           rewrite (kw_name k Hk) in Hnext. rewrite (answer_some _ _ _ _ Hnext), andb_true_iff.
           assert (Hperm : Permutation ((k :: K) ++ unused_keyword_arguments s) (K ++ unused_keyword_arguments s ++ [k])).
           { cbn [app]. rewrite app_assoc. apply Permutation_cons_append. }
           rewrite (IH [] K fuel); try assumption; try reflexivity.
           ++ cbn [item_matches snd fst map]. cbn [too_many_positional_arguments unused_keyword_arguments set_params push_unused set_unused at_].
              split; (intros (A & B & C)).
              ** refine (conj B (conj A (binds_same _ _ _ _ (same_sym _ _ (perm_same _ _ Hperm)) C))).
              ** refine (conj B (conj A (binds_same _ _ _ _ (perm_same _ _ Hperm) C))).
           ++ constructor; try assumption; [reflexivity|]. cbn [unused_keyword_arguments push_unused set_unused at_].
              apply Forall_app; split; [exact FU|constructor; [exact Hk|constructor]].
           ++ exact (once_perm _ _ Hperm Ho).
           ++ cbn [unused_keyword_arguments push_unused set_unused at_]. rewrite app_length; cbn in Hf |- *; lia.
      * inversion FP as [|? ? Ha FP']; subst. cbn [app] in Hrep'. rewrite (next_arg_cons _ a (P ++ K) Hrep' (or_introl Ha)) in Hnext.
        replace (can_be_used_to_match_positional_param a) with true in Hnext
          by (unfold can_be_used_to_match_positional_param; rewrite Ha; reflexivity).
        rewrite (answer_some _ _ _ _ Hnext), andb_true_iff, item_ok.
        rewrite (IH P K fuel); try assumption; try reflexivity.
        -- cbn [map]; cbn [too_many_positional_arguments unused_keyword_arguments set_params at_]. tauto.
        -- constructor; try assumption; reflexivity.
        -- cbn in Hf |- *; lia.
    + destruct P as [|a P].
      * cbn [map]. destruct (pk_taken K (arguments_left (set_params todo s)) p (set_params todo s) Hrep' (rep_length _ _ Hrep') FK FU)
          as (K' & U' & f & E & Ht). rewrite E in Hnext. exact (Hkw _ _ _ _ Ht Hnext).
      * inversion FP as [|? ? Ha FP']; subst. cbn [app] in Hrep'.
        unfold arguments_left in Hnext; cbn [positional_or_keyword] in Hnext.
        rewrite (next_arg_cons _ a (P ++ K) Hrep' (or_introl Ha)) in Hnext.
        unfold keyword_name, is_arbitrary_kwargs in Hnext; rewrite Ha in Hnext.
        rewrite (answer_some _ _ _ _ Hnext), andb_true_iff, item_ok.
        rewrite (IH P K fuel); try assumption; try reflexivity.
        -- cbn [map]; cbn [too_many_positional_arguments unused_keyword_arguments set_params at_]. tauto.
        -- constructor; try assumption; reflexivity.
        -- cbn in Hf |- *; lia.
    + rewrite (answer_next fuel s (set_starred (Some p) (set_params todo s)) Hnext).
      destruct (star_drain P K (S fuel) p (set_starred (Some p) (set_params todo s)) eq_refl Hd Hrep FP FK FU)
        as (fuel' & s' & H1 & H2 & H3 & H4 & H5 & H6); [lia|].
      rewrite H6. rewrite (IH [] K fuel' s').
      * rewrite H4, H5. cbn [too_many_positional_arguments unused_keyword_arguments set_starred set_params map]. tauto.
      * rewrite H2; reflexivity.
      * exact H3.
      * exact Hsig'.
      * rewrite H4; exact Ho.
      * rewrite H4; cbn [unused_keyword_arguments set_starred set_params]. cbn; lia.
    + destruct (ko_taken P K (arguments_left (set_params todo s)) p (set_params todo s) Hrep' (rep_length _ _ Hrep') FP FK FU)
        as (K' & U' & f & E & Ht). rewrite E in Hnext. rewrite (Hkw _ _ _ _ Ht Hnext).
      cbn [too_many_positional_arguments set_params]. destruct P as [|a P].
      * cbn [map]. tauto.
      * split; [intros (A & _); discriminate|intros (_ & A & _); discriminate].
    + assert (E : todo = []).
      { destruct todo as [|q r]; [reflexivity|exfalso].
        pose proof (signature_rank _ _ _ (snd q) Hsig (or_introl eq_refl)) as Hq; rewrite Ek in Hq; cbn [rank] in Hq.
        apply (signature_variadic _ _ _ (snd q) Hsig (or_introl eq_refl)); [right; exact Ek|].
        rewrite Ek; destruct (p_kind (snd q)); cbn in Hq; try lia; reflexivity. }
      subst todo. rewrite (answer_next fuel s (set_double_starred (Some p) (set_params [] s)) Hnext).
      rewrite (star_star_drain _ P K (S fuel) p (set_double_starred (Some p) (set_params [] s)) Hs eq_refl eq_refl Hrep FP FK FU eq_refl)
        by (cbn [unused_keyword_arguments set_double_starred set_params]; lia).
      cbn [too_many_positional_arguments unused_keyword_arguments set_double_starred set_params map binds].
      rewrite !Forall_map. cbn [snd kv]. split.
      * intros (A & -> & C). auto.
      * intros (A & B & C & _). apply map_eq_nil in B. auto.
Qed.

End Proofs.
