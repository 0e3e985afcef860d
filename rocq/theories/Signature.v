(** Proofs about signature help. *)
From Coq Require Import List Bool NArith ZArith Arith Lia.
From Verif Require Import SignatureModel SignatureSpec.
Import ListNotations.
Open Scope list_scope.
Open Scope nat_scope.

Lemma text_eqb_iff : forall a b, text_eqb a b = true <-> a = b.
Proof.
  induction a as [|c a IH]; intros [|d b]; cbn; split; intros H; try discriminate H; try reflexivity.
  - apply andb_prop in H as [H1 H2]. apply N.eqb_eq in H1. apply IH in H2. subst. reflexivity.
  - injection H as -> ->. rewrite N.eqb_refl. apply IH. reflexivity.
Qed.
Lemma starts_with_iff : forall prefix t, starts_with t prefix = true <-> exists rest, t = prefix ++ rest.
Proof.
  induction prefix as [|c prefix IH]; intros t; cbn; [split; [intros _; exists t; reflexivity|reflexivity]|]. destruct t as [|d t]; [split; [discriminate|intros [r H]; discriminate H]|]. rewrite andb_true_iff, IH. split.
  - intros [H [r ->]]. apply N.eqb_eq in H. subst. exists r. reflexivity.
  - intros [r H]. injection H as -> ->. rewrite N.eqb_refl. split; [reflexivity|exists r; reflexivity].
Qed.
Lemma is_used_iff : forall s p name, p_name p = Some name -> is_used s p = true <-> In name (used_kwargs s).
Proof.
  intros s p name E. unfold is_used. rewrite E, existsb_exists. split; [intros (x & Hx & H); apply text_eqb_iff in H; subst; exact Hx|intros H; exists name; split; [exact H|apply text_eqb_iff; reflexivity]].
Qed.

(** ** The keyword *)
Lemma keyword_found : forall name ps k i, keyword_param name k ps = Some i -> exists j p, i = k + j /\ nth_error ps j = Some p /\
  ((by_name p /\ p_name p = Some name) \/ (p_kind p = StarStar /\ forall m q, m < j -> nth_error ps m = Some q -> by_name q -> p_name q <> Some name)).
Proof.
  intros name ps. induction ps as [|p ps IH]; intros k i E; [discriminate E|]. cbn in E.
  assert (R : keyword_param name (S k) ps = Some i -> (by_name p -> p_name p <> Some name) -> exists j q, i = k + j /\ nth_error (p :: ps) j = Some q /\
    ((by_name q /\ p_name q = Some name) \/ (p_kind q = StarStar /\ forall m r, m < j -> nth_error (p :: ps) m = Some r -> by_name r -> p_name r <> Some name))).
  { intros E' N. destruct (IH _ _ E') as (j & q & -> & Hq & C). exists (S j), q. split; [lia|]. split; [exact Hq|]. destruct C as [C|[C1 C2]]; [left; exact C|right]. split; [exact C1|].
    intros [|m] r L Hr; [injection Hr as <-; exact N|]. apply (C2 m r); [lia|exact Hr]. }
  destruct (p_kind p) eqn:K.
  - apply R; [exact E|]. intros [B|B]; congruence.
  - destruct (p_name p) as [n|] eqn:N; [|apply R; [exact E|intros _ X; discriminate X]]. destruct (text_eqb n name) eqn:T.
    + injection E as <-. apply text_eqb_iff in T. subst n. exists 0, p. split; [lia|]. split; [reflexivity|]. left. split; [left; exact K|exact N].
    + apply R; [exact E|]. intros _ X. injection X as ->. assert (text_eqb name name = true) by (apply text_eqb_iff; reflexivity). congruence.
  - destruct (p_name p) as [n|] eqn:N; [|apply R; [exact E|intros _ X; discriminate X]]. destruct (text_eqb n name) eqn:T.
    + injection E as <-. apply text_eqb_iff in T. subst n. exists 0, p. split; [lia|]. split; [reflexivity|]. left. split; [right; exact K|exact N].
    + apply R; [exact E|]. intros _ X. injection X as ->. assert (text_eqb name name = true) by (apply text_eqb_iff; reflexivity). congruence.
  - apply R; [exact E|]. intros [B|B]; congruence.
  - injection E as <-. exists 0, p. split; [lia|]. split; [reflexivity|]. right. split; [exact K|]. intros m q L. lia.
Qed.
Lemma keyword_none : forall name ps k, keyword_param name k ps = None -> forall p, In p ps -> p_kind p <> StarStar /\ (by_name p -> p_name p <> Some name).
Proof.
  intros name ps. induction ps as [|p ps IH]; intros k E q Hq; [destruct Hq|]. cbn in E. destruct Hq as [<-|Hq].
  - unfold by_name. destruct (p_kind p); try discriminate E; (split; [discriminate|]); try (intros [B|B]; discriminate B).
    + intros _ X. rewrite X in E. rewrite (proj2 (text_eqb_iff name name) eq_refl) in E. discriminate E.
    + intros _ X. rewrite X in E. rewrite (proj2 (text_eqb_iff name name) eq_refl) in E. discriminate E.
  - destruct (p_kind p); try discriminate E; try exact (IH _ E q Hq); (destruct (p_name p) as [n|]; [destruct (text_eqb n name); [discriminate E|]|]; exact (IH _ E q Hq)).
Qed.

Lemma star_star_last : forall ps i j p q, ordered ps -> nth_error ps i = Some p -> p_kind p = StarStar -> nth_error ps j = Some q -> j <= i.
Proof.
  intros ps i j p q O Hp K Hq. destruct (le_lt_dec j i) as [L|L]; [exact L|]. destruct (O i j p q L Hp Hq) as [R D]. specialize (D (or_intror K)). rewrite K in R, D. destruct (p_kind q); cbn in R; try lia. destruct (D eq_refl).
Qed.

Lemma keyword_right : forall ps name, ordered ps -> named ps ->
  match keyword_param name 0 ps with
  | Some i => forall j, takes_keyword ps name j <-> j = i
  | None => forall j, ~ takes_keyword ps name j
  end.
Proof.
  intros ps name O [Nm Nd]. destruct (keyword_param name 0 ps) as [i|] eqn:E.
  - destruct (keyword_found name ps 0 i E) as (j0 & p & -> & Hp & C). cbn [Nat.add]. assert (T : takes_keyword ps name j0).
    { exists p. split; [exact Hp|]. destruct C as [C|[K C]]; [left; exact C|right]. split; [exact K|]. intros q Hq B. apply In_nth_error in Hq as (m & Hm). destruct (Nat.eq_dec m j0) as [->|Ne].
      - rewrite Hp in Hm. injection Hm as <-. destruct B as [B|B]; congruence.
      - apply (C m q); [|exact Hm|exact B]. pose proof (star_star_last _ _ _ _ _ O Hp K Hm). lia. }
    intros j. split; [|intros ->; exact T]. intros (q & Hq & D). destruct T as (p' & Hp' & C'). rewrite Hp in Hp'. injection Hp' as <-.
    destruct D as [[B1 N1]|[K1 N1]], C' as [[B2 N2]|[K2 N2]].
    + apply (Nd j j0 q p); try assumption. congruence.
    + destruct (N2 q (nth_error_In _ _ Hq) B1 N1).
    + destruct (N1 p (nth_error_In _ _ Hp) B2 N2).
    + pose proof (star_star_last _ _ _ _ _ O Hp K2 Hq). pose proof (star_star_last _ _ _ _ _ O Hq K1 Hp). lia.
  - intros j (q & Hq & C). destruct (keyword_none name ps 0 E q (nth_error_In _ _ Hq)) as [K N]. destruct C as [[B N']|[K' _]]; [exact (N B N')|exact (K K')].
Qed.

(** ** The other loop: the first parameter that stops it *)
Definition counts (s : scanned) (p : param) : bool :=
  match p_kind p with
  | PositionalOnly => negb (had_kwargs s)
  | PositionalOrKeyword => negb (had_kwargs s) || negb (is_used s p)
  | _ => false
  end.
Definition stops (s : scanned) (e : Z) (n : nat) (p : param) : bool :=
  match p_kind p with
  | PositionalOnly | PositionalOrKeyword => counts s p && (e <=? Z.of_nat n + 1)%Z
  | Star => negb (had_kwargs s)
  | StarStar => true
  | KeywordOnly =>
      match p_name p with
      | Some name => negb (is_used s p) && match potential s with Some prefix => starts_with name prefix | None => true end
      | None => false
      end
  end.
Definition counted (s : scanned) (ps : list param) : nat := length (filter (counts s) ps).

Lemma first_stop : forall s ps e v k, had_kwargs s = false \/ Forall (fun p => p_kind p <> PositionalOnly) ps ->
  match other_param s e v k ps with
  | (Some i, v') => v' = v /\ exists j p, i = k + j /\ nth_error ps j = Some p /\ stops s e (counted s (firstn j ps)) p = true /\
      forall m q, m < j -> nth_error ps m = Some q -> stops s e (counted s (firstn m ps)) q = false
  | (None, v') => v' = false /\ forall m q, nth_error ps m = Some q -> stops s e (counted s (firstn m ps)) q = false
  end.
Proof.
  intros s ps. induction ps as [|p ps IH]; intros e v k H; [cbn; split; [reflexivity|intros [|m] q Hq; discriminate Hq]|].
  assert (H' : had_kwargs s = false \/ Forall (fun p => p_kind p <> PositionalOnly) ps) by (destruct H as [H|H]; [left; exact H|right; inversion H; assumption]).
  assert (Stop : stops s e 0 p = true -> other_param s e v k (p :: ps) = (Some k, v) ->
    match other_param s e v k (p :: ps) with
    | (Some i, v') => v' = v /\ exists j p', i = k + j /\ nth_error (p :: ps) j = Some p' /\ stops s e (counted s (firstn j (p :: ps))) p' = true /\
        forall m q, m < j -> nth_error (p :: ps) m = Some q -> stops s e (counted s (firstn m (p :: ps))) q = false
    | (None, v') => v' = false /\ forall m q, nth_error (p :: ps) m = Some q -> stops s e (counted s (firstn m (p :: ps))) q = false
    end).
  { intros St ->. split; [reflexivity|]. exists 0, p. split; [lia|]. split; [reflexivity|]. split; [exact St|]. intros m q L. lia. }
  assert (Next : forall e', (e' = if counts s p then e - 1 else e)%Z -> stops s e 0 p = false -> other_param s e v k (p :: ps) = other_param s e' v (S k) ps ->
    match other_param s e v k (p :: ps) with
    | (Some i, v') => v' = v /\ exists j p', i = k + j /\ nth_error (p :: ps) j = Some p' /\ stops s e (counted s (firstn j (p :: ps))) p' = true /\
        forall m q, m < j -> nth_error (p :: ps) m = Some q -> stops s e (counted s (firstn m (p :: ps))) q = false
    | (None, v') => v' = false /\ forall m q, nth_error (p :: ps) m = Some q -> stops s e (counted s (firstn m (p :: ps))) q = false
    end).
  { intros e' Ee St ->. specialize (IH e' v (S k) H').
    assert (Sh : forall j q, stops s e (counted s (firstn (S j) (p :: ps))) q = stops s e' (counted s (firstn j ps)) q).
    { intros j q. unfold counted. cbn [firstn filter]. rewrite Ee. unfold stops. destruct (counts s p); [|reflexivity]. cbn [length].
      destruct (p_kind q); try reflexivity; f_equal; apply eq_true_iff_eq; rewrite !Z.leb_le; lia. }
    destruct (other_param s e' v (S k) ps) as [[i|] v'].
    - destruct IH as [-> (j & q & -> & Hq & S1 & S2)]. split; [reflexivity|]. exists (S j), q. split; [lia|]. split; [exact Hq|]. split; [rewrite Sh; exact S1|].
      intros [|m] r L Hr; [injection Hr as <-; exact St|]. rewrite Sh. apply S2; [lia|exact Hr].
    - destruct IH as [-> S2]. split; [reflexivity|]. intros [|m] r Hr; [injection Hr as <-; exact St|]. rewrite Sh. apply S2. exact Hr. }
  assert (Z1 : (e - 1 <=? 0)%Z = (e <=? Z.of_nat 0 + 1)%Z) by (apply eq_true_iff_eq; rewrite !Z.leb_le; lia).
  destruct (p_kind p) eqn:K.
  - assert (Hk : had_kwargs s = false) by (destruct H as [H|H]; [exact H|inversion H; contradiction]).
    assert (C : counts s p = true) by (unfold counts; rewrite K, Hk; reflexivity).
    destruct (e - 1 <=? 0)%Z eqn:Le.
    + apply Stop; [unfold stops; rewrite K, C, <- Z1; reflexivity|]. cbn. rewrite K, Hk, Le. reflexivity.
    + apply (Next (e - 1)%Z); [rewrite C; reflexivity|unfold stops; rewrite K, C, <- Z1; reflexivity|]. cbn [other_param]. rewrite K, Hk, Le. reflexivity.
  - destruct (counts s p) eqn:C.
    + assert (X : other_param s e v k (p :: ps) = if (e - 1 <=? 0)%Z then (Some k, v) else other_param s (e - 1)%Z v (S k) ps).
      { cbn [other_param]. rewrite K. unfold counts in C. rewrite K in C. destruct (had_kwargs s); cbn in *; [|reflexivity]. destruct (is_used s p); [discriminate C|reflexivity]. }
      destruct (e - 1 <=? 0)%Z eqn:Le.
      * apply Stop; [unfold stops; rewrite K, C, <- Z1; reflexivity|exact X].
      * apply (Next (e - 1)%Z); [reflexivity|unfold stops; rewrite K, C, <- Z1; reflexivity|exact X].
    + apply (Next e); [reflexivity|unfold stops; rewrite K, C; reflexivity|]. cbn [other_param]. rewrite K. unfold counts in C. rewrite K in C. destruct (had_kwargs s); cbn in *; [|discriminate C]. destruct (is_used s p); [reflexivity|discriminate C].
  - assert (C : counts s p = false) by (unfold counts; rewrite K; reflexivity).
    destruct (stops s e 0 p) eqn:St.
    + apply Stop; [reflexivity|]. unfold stops in St. rewrite K in St. cbn. rewrite K. destruct (p_name p); [|discriminate St]. destruct (is_used s p); [discriminate St|]. destruct (potential s); [|reflexivity]. cbn in St. rewrite St. reflexivity.
    + apply (Next e); [rewrite C; reflexivity|reflexivity|]. unfold stops in St. rewrite K in St. cbn [other_param]. rewrite K. destruct (p_name p); [|reflexivity]. destruct (is_used s p); [reflexivity|]. destruct (potential s); [|discriminate St]. cbn in St. rewrite St. reflexivity.
  - assert (C : counts s p = false) by (unfold counts; rewrite K; reflexivity).
    destruct (had_kwargs s) eqn:Hk.
    + apply (Next e); [rewrite C; reflexivity|unfold stops; rewrite K, Hk; reflexivity|]. cbn [other_param]. rewrite K, Hk. reflexivity.
    + apply Stop; [unfold stops; rewrite K, Hk; reflexivity|]. cbn. rewrite K, Hk. reflexivity.
  - apply Stop; [unfold stops; rewrite K; reflexivity|]. cbn. rewrite K. reflexivity.
Qed.

(** ** The arguments *)
Definition name_of (a : argument) : option text := match a with PositionalOrKeywordName n => Some n | _ => None end.
Lemma scan_positional : forall args s, Forall is_positional args -> args <> [] ->
  fold_left scan_one args s = mk_scanned (expected_positional s + Z.of_nat (length args)) None (used_kwargs s) (had_kwargs s) (had_star_args s) (name_of (last args StarArgs)).
Proof.
  intros args. induction args as [|a args IH]; intros s F Ne; [destruct (Ne eq_refl)|]. apply Forall_cons_iff in F as [Pa F]. cbn [fold_left].
  assert (E : scan_one s a = mk_scanned (expected_positional s + 1) None (used_kwargs s) (had_kwargs s) (had_star_args s) (name_of a)) by (destruct Pa as [->|[n ->]]; reflexivity).
  rewrite E. destruct args as [|b args].
  - cbn. reflexivity.
  - rewrite IH; [|exact F|discriminate]. change (last (a :: b :: args) StarArgs) with (last (b :: args) StarArgs). cbn [expected_positional used_kwargs had_kwargs had_star_args]. f_equal. cbn [length]. lia.
Qed.
Lemma scan_keywords : forall names s, names <> [] ->
  fold_left scan_one (map Keyword names) s = mk_scanned (expected_positional s) (Some (last names [])) (used_kwargs s ++ names) true (had_star_args s) None.
Proof.
  intros names. induction names as [|n names IH]; intros s Ne; [destruct (Ne eq_refl)|]. cbn [map fold_left]. destruct names as [|m names]; [reflexivity|].
  rewrite IH; [|discriminate]. cbn [scan_one expected_positional used_kwargs had_star_args]. rewrite <- app_assoc. reflexivity.
Qed.

Lemma could_become_iff : forall a name, is_positional a -> could_become a name <-> match name_of a with Some prefix => starts_with name prefix | None => true end = true.
Proof. intros a name [->|[n ->]]; cbn; [tauto|]. rewrite starts_with_iff. tauto. Qed.

Lemma before_positional : forall ps j p m q, ordered ps -> nth_error ps j = Some p -> rank (p_kind p) <= 2 -> m < j -> nth_error ps m = Some q -> by_position q.
Proof.
  intros ps j p m q O Hp R L Hq. destruct (O m j q p L Hq Hp) as [R' D]. unfold by_position. destruct (p_kind q) eqn:K; cbn in R'; auto; try lia.
  destruct (p_kind p) eqn:K'; cbn in R, R'; try lia. destruct (D (or_introl eq_refl) eq_refl).
Qed.

Lemma filter_all : forall {A} (f : A -> bool) l, (forall x, In x l -> f x = true) -> filter f l = l.
Proof. intros A f l. induction l as [|x l IH]; intros H; [reflexivity|]. cbn. rewrite (H x (or_introl eq_refl)), IH; [reflexivity|]. intros y Hy. apply H. right. exact Hy. Qed.
Lemma firstn_nth : forall {A} (l : list A) n x, In x (firstn n l) -> exists m, m < n /\ nth_error l m = Some x.
Proof.
  intros A l. induction l as [|y l IH]; intros [|n] x H; try destruct H as []; cbn in H.
  - subst. exists 0. split; [lia|reflexivity].
  - destruct (IH n x H) as (m & L & E). exists (S m). split; [lia|exact E].
Qed.

(** Without keyword arguments *)
Lemma counted_all : forall s ps j p, had_kwargs s = false -> ordered ps -> nth_error ps j = Some p -> rank (p_kind p) <= 2 -> counted s (firstn j ps) = j.
Proof.
  intros s ps j p Hk O Hp R. unfold counted. rewrite filter_all.
  - apply firstn_length_le. apply Nat.lt_le_incl, nth_error_Some. congruence.
  - intros q Hq. apply firstn_nth in Hq as (m & L & Hm). unfold counts. rewrite Hk. destruct (before_positional ps j p m q O Hp R L Hm) as [->| ->]; reflexivity.
Qed.

Section Positional.
Variables (ps : list param) (args : list argument).
Hypotheses (O : ordered ps) (Nm : named ps) (F : Forall is_positional args) (Ne : args <> []).
Let s := scan args.
Let k := length args - 1.

Lemma positional_scan : s = mk_scanned (Z.of_nat (length args)) None [] false false (name_of (last args StarArgs)).
Proof. unfold s, scan. rewrite scan_positional by assumption. reflexivity. Qed.

Lemma calc_positional : calc_current_param args ps = other_param s (Z.of_nat (length args)) true 0 ps.
Proof. unfold calc_current_param. fold s. rewrite positional_scan at 1. cbn [for_kwarg]. f_equal. rewrite positional_scan. cbn. lia. Qed.

Lemma length_args : Z.of_nat (length args) = (Z.of_nat k + 1)%Z.
Proof. unfold k. destruct args; [destruct (Ne eq_refl)|cbn; lia]. Qed.

Lemma last_positional : is_positional (last args StarArgs).
Proof. rewrite Forall_forall in F. apply F. destruct args as [|a l]; [destruct (Ne eq_refl)|]. rewrite (app_removelast_last StarArgs (l := a :: l)) at 2 by discriminate. apply in_or_app. right. left. reflexivity. Qed.

Lemma stop_iff : forall j p, nth_error ps j = Some p -> stops s (Z.of_nat (length args)) (counted s (firstn j ps)) p = true <->
  (by_position p /\ k <= j) \/ p_kind p = Star \/ (p_kind p = KeywordOnly /\ exists name, p_name p = Some name /\ could_become (last args StarArgs) name) \/ p_kind p = StarStar.
Proof.
  intros j p Hp. assert (Hk : had_kwargs s = false) by (rewrite positional_scan; reflexivity). unfold stops, by_position. destruct (p_kind p) eqn:K.
  - rewrite (counted_all s ps j p Hk O Hp) by (rewrite K; cbn; lia). unfold counts. rewrite K, Hk. cbn [negb andb]. rewrite Z.leb_le, length_args. split; [intros H; left; split; [auto|lia]|].
    intros [[_ H]|[H|[[H _]|H]]]; try discriminate H. lia.
  - rewrite (counted_all s ps j p Hk O Hp) by (rewrite K; cbn; lia). unfold counts. rewrite K, Hk. cbn [negb orb andb]. rewrite Z.leb_le, length_args. split; [intros H; left; split; [auto|lia]|].
    intros [[_ H]|[H|[[H _]|H]]]; try discriminate H. lia.
  - assert (U : is_used s p = false) by (unfold is_used; rewrite positional_scan; destruct (p_name p); reflexivity). rewrite U. rewrite positional_scan. cbn [potential negb andb]. split.
    + intros H. right. right. left. split; [reflexivity|]. destruct (p_name p) as [n|]; [|discriminate H]. exists n. split; [reflexivity|]. apply could_become_iff; [exact last_positional|exact H].
    + intros [[[H|H] _]|[H|[[_ (n & En & H)]|H]]]; try discriminate H. rewrite En. apply (could_become_iff _ _ last_positional). exact H.
  - rewrite Hk. cbn. split; [auto|reflexivity].
  - split; [auto|reflexivity].
Qed.

Theorem positional_right :
  (forall i, takes_positional ps k i -> calc_current_param args ps = (Some i, true)) /\
  ((forall i, ~ takes_positional ps k i) ->
   let begins i := exists p, nth_error ps i = Some p /\ ((p_kind p = KeywordOnly /\ exists name, p_name p = Some name /\ could_become (last args StarArgs) name) \/ p_kind p = StarStar) in
   match calc_current_param args ps with
   | (Some i, valid) => valid = true /\ begins i /\ forall j, j < i -> ~ begins j
   | (None, valid) => valid = false /\ forall j, ~ begins j
   end).
Proof.
  rewrite calc_positional. assert (Hk : had_kwargs s = false) by (rewrite positional_scan; reflexivity).
  pose proof (first_stop s ps (Z.of_nat (length args)) true 0 (or_introl Hk)) as FS. split.
  - intros i (p & Hp & T).
    assert (St : stops s (Z.of_nat (length args)) (counted s (firstn i ps)) p = true).
    { apply stop_iff; [exact Hp|]. destruct T as [[B ->]|[K _]]; [left; split; [exact B|lia]|right; left; exact K]. }
    destruct (other_param s (Z.of_nat (length args)) true 0 ps) as [[x|] v].
    + destruct FS as [-> (j & q & -> & Hq & S1 & S2)]. cbn [Nat.add]. f_equal. f_equal. destruct (lt_eq_lt_dec j i) as [[L|L]|L]; [|exact L|].
      * exfalso. assert (R : rank (p_kind p) <= 2) by (destruct T as [[[->| ->] _]|[-> _]]; cbn; lia). assert (B : by_position q) by exact (before_positional ps i p j q O Hp R L Hq).
        apply (stop_iff j q Hq) in S1. assert (k <= j) by (destruct S1 as [[_ S1]|[S1|[[S1 _]|S1]]]; [exact S1| | |]; destruct B; congruence).
        destruct T as [[_ ->]|[K N]]; [lia|]. assert (k < i) by lia. destruct (nth_error ps k) as [r|] eqn:Er; [|apply nth_error_None in Er; assert (i < length ps) by (apply nth_error_Some; congruence); lia].
        exact (N r eq_refl (before_positional ps i p k r O Hp R H0 Er)).
      * rewrite (S2 i p L Hp) in St. discriminate St.
    + destruct FS as [_ S2]. rewrite (S2 i p Hp) in St. discriminate St.
  - intros NT begins.
    assert (SB : forall j p, nth_error ps j = Some p -> stops s (Z.of_nat (length args)) (counted s (firstn j ps)) p = true <-> begins j).
    { intros j p Hp. rewrite (stop_iff j p Hp). unfold begins. split.
      - intros [[B L]|[K|[K|K]]].
        + exfalso. destruct (nth_error ps k) as [r|] eqn:Er; [|apply nth_error_None in Er; assert (j < length ps) by (apply nth_error_Some; congruence); lia].
          apply (NT k). exists r. split; [exact Er|]. left. split; [|reflexivity]. destruct (Nat.eq_dec k j) as [E|E]; [subst j; rewrite Er in Hp; injection Hp as ->; exact B|].
          apply (before_positional ps j p k r O Hp); [destruct B as [->| ->]; cbn; lia|lia|exact Er].
        + exfalso. destruct (nth_error ps k) as [r|] eqn:Er.
          * assert (D : by_position r \/ ~ by_position r) by (unfold by_position; destruct (p_kind r); auto; right; intros [X|X]; discriminate X).
            destruct D as [B|B]; [apply (NT k); exists r; split; [exact Er|left; split; [exact B|reflexivity]]|]. apply (NT j). exists p. split; [exact Hp|]. right. split; [exact K|]. intros q Hq. injection (eq_trans (eq_sym Er) Hq) as <-. exact B.
          * apply (NT j). exists p. split; [exact Hp|]. right. split; [exact K|]. intros q Hq. congruence.
        + exists p. auto.
        + exists p. auto.
      - intros (q & Hq & C). rewrite Hp in Hq. injection Hq as <-. tauto. }
    destruct (other_param s (Z.of_nat (length args)) true 0 ps) as [[x|] v].
    + destruct FS as [-> (j & q & -> & Hq & S1 & S2)]. cbn [Nat.add]. split; [reflexivity|]. split; [apply (SB j q Hq); exact S1|]. intros m L B. destruct B as (r & Hr & C).
      assert (X : begins m) by (exists r; auto). apply (SB m r Hr) in X. rewrite (S2 m r L Hr) in X. discriminate X.
    + destruct FS as [-> S2]. split; [reflexivity|]. intros m B. destruct B as (r & Hr & C). assert (X : begins m) by (exists r; auto). apply (SB m r Hr) in X. rewrite (S2 m r Hr) in X. discriminate X.
Qed.
End Positional.

(** Behind keyword arguments *)
Section Keywords.
Variables (ps : list param) (pos : list argument) (names : list text) (a : argument).
Hypotheses (O : ordered ps) (Nm : named ps) (F : Forall is_positional pos) (Ne : names <> []) (Pa : is_positional a).
Hypothesis No : Forall (fun p => p_kind p <> PositionalOnly) ps.
(** No parameter is given twice *)
Hypothesis Once : forall i p name, i < length pos -> nth_error ps i = Some p -> p_name p = Some name -> ~ In name names.
Let args := pos ++ map Keyword names ++ [a].
Let s := scan args.

Lemma keywords_scan : s = mk_scanned (Z.of_nat (length pos) + 1) None names true false (name_of a).
Proof.
  unfold s, scan, args. rewrite !fold_left_app. set (s0 := mk_scanned 0 None [] false false None).
  assert (E : exists q, fold_left scan_one pos s0 = mk_scanned (Z.of_nat (length pos)) None [] false false q).
  { destruct pos as [|b l]; [exists None; reflexivity|]. rewrite scan_positional; [|exact F|discriminate]. cbn [s0 expected_positional used_kwargs had_kwargs had_star_args]. eexists. f_equal. }
  destruct E as [q ->]. rewrite scan_keywords by exact Ne. cbn [expected_positional used_kwargs had_kwargs had_star_args fold_left app]. destruct Pa as [->|[n ->]]; reflexivity.
Qed.

Lemma keywords_counted : forall j p, nth_error ps j = Some p -> p_kind p = PositionalOrKeyword -> counts s p = true ->
  (length pos <= counted s (firstn j ps) <-> length pos <= j).
Proof.
  intros j p Hp K C. assert (L : j < length ps) by (apply nth_error_Some; congruence).
  assert (Le : counted s (firstn j ps) <= j).
  { unfold counted. assert (G : forall l : list param, length (filter (counts s) l) <= length l) by (induction l as [|x l IH]; cbn; [lia|destruct (counts s x); cbn; lia]). specialize (G (firstn j ps)). rewrite firstn_length_le in G by lia. exact G. }
  split; [lia|]. intros H. unfold counted. rewrite <- (firstn_skipn (length pos) (firstn j ps)), filter_app, app_length. rewrite filter_all.
  - rewrite firstn_length_le; [lia|]. rewrite firstn_length_le; lia.
  - intros q Hq. rewrite firstn_firstn, Nat.min_l in Hq by lia. apply firstn_nth in Hq as (m & Lm & Hm).
    assert (B : by_position q) by (apply (before_positional ps j p m q O Hp); [rewrite K; cbn; lia|lia|exact Hm]).
    rewrite Forall_forall in No. assert (Kq : p_kind q = PositionalOrKeyword) by (destruct B as [B|B]; [destruct (No q (nth_error_In _ _ Hm) B)|exact B]).
    unfold counts. rewrite Kq. apply orb_true_iff. right. apply negb_true_iff. destruct (is_used s q) eqn:U; [|reflexivity]. exfalso.
    destruct (p_name q) as [n|] eqn:En; [|unfold is_used in U; rewrite En in U; discriminate U]. apply (is_used_iff s q n En) in U. rewrite keywords_scan in U. exact (Once m q n Lm Hm En U).
Qed.

Theorem keywords_right : match calc_current_param args ps with
  | (Some i, valid) => valid = true /\ still_free ps (length pos) names a i /\ forall j, j < i -> ~ still_free ps (length pos) names a j
  | (None, valid) => valid = false /\ forall j, ~ still_free ps (length pos) names a j
  end.
Proof.
  assert (E : calc_current_param args ps = other_param s (Z.of_nat (length pos) + 1)%Z true 0 ps).
  { unfold calc_current_param. fold s. rewrite keywords_scan at 1. cbn [for_kwarg]. f_equal. rewrite keywords_scan. cbn. lia. }
  rewrite E. pose proof (first_stop s ps (Z.of_nat (length pos) + 1)%Z true 0 (or_intror No)) as FS.
  assert (SB : forall j p, nth_error ps j = Some p -> stops s (Z.of_nat (length pos) + 1)%Z (counted s (firstn j ps)) p = true <-> still_free ps (length pos) names a j).
  { intros j p Hp. assert (In p ps) as Hin by exact (nth_error_In _ _ Hp).
    assert (W : still_free ps (length pos) names a j <-> (p_kind p = PositionalOrKeyword /\ length pos <= j /\ forall name, p_name p = Some name -> ~ In name names) \/
      (p_kind p = KeywordOnly /\ exists name, p_name p = Some name /\ ~ In name names /\ could_become a name) \/ p_kind p = StarStar).
    { split; [intros (q & Hq & C); rewrite Hp in Hq; injection Hq as <-; exact C|intros C; exists p; auto]. }
    rewrite W. unfold stops. destruct (p_kind p) eqn:K.
    - rewrite Forall_forall in No. destruct (No p Hin K).
    - destruct (p_name p) as [n|] eqn:En; [|destruct (proj1 Nm p Hin (or_introl K) En)].
      assert (U : counts s p = true <-> ~ In n names).
      { unfold counts. rewrite K. assert (Hk : had_kwargs s = true) by (rewrite keywords_scan; reflexivity). rewrite Hk. cbn [negb orb]. pose proof (is_used_iff s p n En) as I1. assert (I2 : used_kwargs s = names) by (rewrite keywords_scan; reflexivity). rewrite I2 in I1.
        rewrite negb_true_iff, <- not_true_iff_false. tauto. }
      rewrite andb_true_iff, Z.leb_le. split.
      + intros [C L]. left. split; [reflexivity|]. split; [apply (keywords_counted j p Hp K C); lia|]. intros name X. injection X as <-. apply U. exact C.
      + intros [[_ [L N]]|[[X _]|X]]; try discriminate X. assert (C : counts s p = true) by (apply U; exact (N n eq_refl)). split; [exact C|]. apply (keywords_counted j p Hp K C) in L. lia.
    - destruct (p_name p) as [n|] eqn:En; [|destruct (proj1 Nm p Hin (or_intror K) En)]. pose proof (is_used_iff s p n En) as I1. assert (I2 : used_kwargs s = names) by (rewrite keywords_scan; reflexivity). rewrite I2 in I1.
      assert (I3 : potential s = name_of a) by (rewrite keywords_scan; reflexivity). rewrite I3, andb_true_iff, negb_true_iff, <- not_true_iff_false, I1, <- (could_become_iff a n Pa). split.
      + intros [C1 C2]. right. left. split; [reflexivity|]. exists n. auto.
      + intros [[X _]|[[_ (m & X & C)]|X]]; try discriminate X. injection X as <-. exact C.
    - assert (Hk : had_kwargs s = true) by (rewrite keywords_scan; reflexivity). rewrite Hk. split; [discriminate|]. intros [[X _]|[[X _]|X]]; discriminate X.
    - split; [auto|reflexivity]. }
  destruct (other_param s (Z.of_nat (length pos) + 1)%Z true 0 ps) as [[x|] v].
  - destruct FS as [-> (j & q & -> & Hq & S1 & S2)]. cbn [Nat.add]. split; [reflexivity|]. split; [apply (SB j q Hq); exact S1|]. intros m L B. pose proof B as (r & Hr & _). apply (SB m r Hr) in B. rewrite (S2 m r L Hr) in B. discriminate B.
  - destruct FS as [-> S2]. split; [reflexivity|]. intros m B. pose proof B as (r & Hr & _). apply (SB m r Hr) in B. rewrite (S2 m r Hr) in B. discriminate B.
Qed.
End Keywords.

(** ** Labels *)
Lemma len_app : forall a b, len (a ++ b) = len a + len b.
Proof. induction a as [|c a IH]; intros b; cbn [app len fold_right]; [reflexivity|]. fold (len (a ++ b)) (len a). rewrite IH. lia. Qed.
Lemma utf8_len_pos : forall c, 1 <= utf8_len c.
Proof. intros c. unfold utf8_len. destruct (c <? 128)%N; [lia|]. destruct (c <? 2048)%N; [lia|]. destruct (c <? 65536)%N; lia. Qed.
Lemma prefix_at : forall a b, prefix_bytes (len a) (a ++ b) = Some a.
Proof.
  induction a as [|c a IH]; intros b; [destruct b; reflexivity|]. cbn [len fold_right app]. fold (len a). pose proof (utf8_len_pos c). destruct (utf8_len c + len a) as [|n] eqn:E; [lia|]. cbn [prefix_bytes].
  destruct (Nat.leb_spec (utf8_len c) (S n)) as [_|L]; [|lia]. replace (S n - utf8_len c) with (len a) by lia. rewrite IH. reflexivity.
Qed.

(** The name of the parameter stands behind [pre] in the rest of the label. *)
Lemma add_param_splits : forall label p, exists pre post, fst (add_param label p) = pre ++ shown_name p ++ post /\ snd (add_param label p) = (len pre + 1, len (pre ++ shown_name p) + 1) /\
  exists mid, pre = label ++ mid.
Proof.
  intros label p. unfold add_param, shown_name. set (l1 := match label with [] => label | _ => label ++ comma end). set (l2 := match p_kind p with Star => l1 ++ star | StarStar => l1 ++ star ++ star | _ => l1 end).
  assert (M : exists mid, l2 = label ++ mid).
  { assert (M1 : exists mid, l1 = label ++ mid) by (unfold l1; destruct label; [exists []; reflexivity|eexists; reflexivity]). destruct M1 as [m ->]. unfold l2. destruct (p_kind p); rewrite <- ?app_assoc; eauto. }
  destruct (p_name p) as [n|].
  - exists l2, (colon ++ p_type p ++ if p_default p then default_mark else []). split; [cbn; destruct (p_default p); rewrite <- ?app_assoc, ?app_nil_r; reflexivity|]. split; [reflexivity|exact M].
  - exists l2, (if p_default p then default_mark else []). split; [cbn; destruct (p_default p); rewrite <- ?app_assoc, ?app_nil_r; reflexivity|]. split; [reflexivity|exact M].
Qed.
Lemma add_params_extends : forall ps label, exists post, fst (add_params label ps) = label ++ post.
Proof.
  induction ps as [|p ps IH]; intros label; [exists []; cbn; rewrite app_nil_r; reflexivity|]. cbn. destruct (add_param_splits label p) as (pre & post & E & _ & (mid & Em)). destruct (add_param label p) as [l o]. cbn in E. subst l pre.
  destruct (IH ((label ++ mid) ++ shown_name p ++ post)) as (q & Eq). destruct (add_params _ ps) as [l2 r]. cbn in *. subst l2. exists (mid ++ (shown_name p ++ post) ++ q). rewrite <- !app_assoc. reflexivity.
Qed.
Lemma add_params_splits : forall ps label i p, nth_error ps i = Some p ->
  exists pre post, fst (add_params label ps) = pre ++ shown_name p ++ post /\ nth_error (snd (add_params label ps)) i = Some (len pre + 1, len (pre ++ shown_name p) + 1) /\ len label <= len pre.
Proof.
  induction ps as [|q ps IH]; intros label i p Hp; [destruct i; discriminate Hp|]. cbn [add_params]. destruct (add_param_splits label q) as (pre & post & E & Eo & (mid & Em)). destruct (add_param label q) as [l o] eqn:Ea. cbn in E, Eo.
  destruct i as [|i].
  - injection Hp as <-. destruct (add_params_extends ps l) as (r & Er). destruct (add_params l ps) as [l2 r2]. cbn in *. subst. exists (label ++ mid), (post ++ r). split; [rewrite <- !app_assoc; reflexivity|]. split; [reflexivity|rewrite len_app; lia].
  - destruct (IH l i p Hp) as (pre2 & post2 & E2 & Eo2 & Le). destruct (add_params l ps) as [l2 r2]. cbn in *. exists pre2, post2. split; [exact E2|]. split; [exact Eo2|]. rewrite E, !len_app in Le. rewrite Em, len_app in Le. lia.
Qed.
Lemma add_params_count : forall ps label, length (snd (add_params label ps)) = length ps.
Proof. induction ps as [|p ps IH]; intros label; [reflexivity|]. cbn. destruct (add_param label p) as [l o]. specialize (IH l). destruct (add_params l ps). cbn in *. lia. Qed.

Lemma add_params_apart : forall ps label i a b c d, nth_error (snd (add_params label ps)) i = Some (a, b) -> nth_error (snd (add_params label ps)) (S i) = Some (c, d) -> b <= c.
Proof.
  induction ps as [|q ps IH]; intros label i a b c d H1 H2; [destruct i; discriminate H1|]. cbn [add_params] in *. destruct (add_param_splits label q) as (pre & post & E & Eo & _). destruct (add_param label q) as [l o]. cbn in E, Eo.
  destruct i as [|i].
  - destruct ps as [|p ps]; [destruct (add_params l []) eqn:X; cbn in X; injection X as <- <-; discriminate H2|]. destruct (add_params_splits (p :: ps) l 0 p eq_refl) as (pre2 & post2 & _ & E2 & Le). destruct (add_params l (p :: ps)) as [l2 r2]. cbn in H1, H2, E2.
    rewrite E2 in H2. injection H2 as <- _. injection H1 as H1. rewrite Eo in H1. injection H1 as _ <-. rewrite E, !len_app in Le. rewrite len_app. lia.
  - specialize (IH l i a b c d). destruct (add_params l ps) as [l2 r2]. cbn in *. exact (IH H1 H2).
Qed.

Lemma add_param_shown : forall label p, fst (add_param label p) = match label with [] => shown p | _ => label ++ [44; 32]%N ++ shown p end.
Proof.
  intros label p. unfold add_param, shown, shown_name, comma, star, colon, default_mark.
  destruct label as [|c l]; destruct (p_kind p), (p_name p) as [n|], (p_default p); cbn [fst snd]; cbn; rewrite <- ?app_assoc, ?app_nil_r; cbn; reflexivity.
Qed.
Lemma add_params_shown : forall ps label, Forall (fun p => shown p <> []) ps ->
  fst (add_params label ps) = match label, ps with [], _ => separated (map shown ps) | _, [] => label | _, _ => label ++ [44; 32]%N ++ separated (map shown ps) end.
Proof.
  induction ps as [|p ps IH]; intros label F; [destruct label; reflexivity|]. apply Forall_cons_iff in F as [Np F]. cbn [add_params]. pose proof (add_param_shown label p) as E. destruct (add_param label p) as [l o]. cbn in E. specialize (IH l F). destruct (add_params l ps) as [l2 r2]. cbn [fst] in *. rewrite IH.
  assert (Nl : l <> []) by (rewrite E; destruct label; [exact Np|discriminate]). destruct l as [|c l]; [destruct (Nl eq_refl)|]. rewrite E. destruct label as [|d label], ps as [|q ps]; cbn [map separated]; rewrite <- ?app_assoc; reflexivity.
Qed.

Lemma slice_at : forall {A} (a b c : list A), firstn (length (a ++ b) - length a) (skipn (length a) (a ++ b ++ c)) = b.
Proof.
  intros A a b c. rewrite app_length. replace (length a + length b - length a) with (length b) by lia. rewrite skipn_app, skipn_all, Nat.sub_diag. cbn [app skipn]. rewrite firstn_app, Nat.sub_diag, firstn_all. cbn. apply app_nil_r.
Qed.

Theorem labels_right : forall ps ret i p, nth_error ps i = Some p -> exists a b x y pre,
  nth_error (snd (add_params [] ps)) i = Some (a, b) /\
  prefix_bytes a (signature_label ps ret) = Some pre /\ prefix_bytes b (signature_label ps ret) = Some (pre ++ shown_name p) /\
  utf16_code_units_name_range (signature_label ps ret) (a, b) = Some (x, y) /\
  firstn (y - x) (skipn x (encode_utf16 (signature_label ps ret))) = encode_utf16 (shown_name p).
Proof.
  intros ps ret i p Hp. destruct (add_params_splits ps [] i p Hp) as (pre & post & E & Eo & _). set (rest := post ++ [41; 32; 45; 62; 32]%N ++ ret).
  assert (L : signature_label ps ret = ([40]%N ++ pre) ++ shown_name p ++ rest) by (unfold signature_label, rest; rewrite E, <- !app_assoc; reflexivity).
  assert (L1 : len pre + 1 = len ([40]%N ++ pre)) by (rewrite len_app; cbn; lia).
  assert (L2 : len (pre ++ shown_name p) + 1 = len (([40]%N ++ pre) ++ shown_name p)) by (rewrite !len_app; cbn; lia).
  assert (P1 : prefix_bytes (len pre + 1) (signature_label ps ret) = Some ([40]%N ++ pre)) by (rewrite L, L1; apply prefix_at).
  assert (P2 : prefix_bytes (len (pre ++ shown_name p) + 1) (signature_label ps ret) = Some (([40]%N ++ pre) ++ shown_name p)) by (rewrite L, L2, app_assoc; apply prefix_at).
  exists (len pre + 1), (len (pre ++ shown_name p) + 1), (length (encode_utf16 ([40]%N ++ pre))), (length (encode_utf16 (([40]%N ++ pre) ++ shown_name p))), ([40]%N ++ pre).
  split; [exact Eo|]. split; [exact P1|]. split; [exact P2|]. split; [unfold utf16_code_units_name_range; cbn [fst snd]; rewrite P1, P2; reflexivity|].
  rewrite L. unfold encode_utf16. rewrite !(flat_map_app utf16 ([40]%N ++ pre)), (flat_map_app utf16 (shown_name p)). apply slice_at.
Qed.

Lemma first_active_right : forall l k, match first_active k l with
  | (Some i, c) => exists j, i = k + j /\ nth_error l j = Some (c, true) /\ forall m c' v, m < j -> nth_error l m = Some (c', v) -> v = false
  | (None, c) => c = None /\ forall m c' v, nth_error l m = Some (c', v) -> v = false
  end.
Proof.
  induction l as [|[c v] l IH]; intros k; [cbn; split; [reflexivity|intros [|m] c v H; discriminate H]|]. cbn. destruct v.
  - exists 0. split; [lia|]. split; [reflexivity|]. intros m c' v L. lia.
  - specialize (IH (S k)). destruct (first_active (S k) l) as [[i|] c2].
    + destruct IH as (j & -> & H1 & H2). exists (S j). split; [lia|]. split; [exact H1|]. intros [|m] c' v L H; [injection H as _ <-; reflexivity|]. apply (H2 m c' v); [lia|exact H].
    + destruct IH as [-> H2]. split; [reflexivity|]. intros [|m] c' v H; [injection H as _ <-; reflexivity|exact (H2 m c' v H)].
Qed.
