(** C49, continued: calls with [*xs] and [**kws], whose number of values and whose names are not known. *)
From Coq Require Import List NArith Arith Bool Lia Permutation.
From Verif Require Import CallModel CallSpec CallFacts CallProofs CallOpen CallOpenFacts CallProps.
Import ListNotations.

(** ** Specification *)

(** A call [f(v1, ..., *xs, n1=w1, ..., **kws)]; all that is known of [xs] and [kws] is what their values are. *)
Record open_call (val : Type) : Type := mk_open {
  o_position : list val;
  o_star : option val;
  o_name : list (N * val);
  o_star_star : option val
}.
Arguments mk_open {val} o_position o_star o_name o_star_star.
Arguments o_position {val} o.
Arguments o_star {val} o.
Arguments o_name {val} o.
Arguments o_star_star {val} o.

Definition optional {A B} (f : A -> B) (x : option A) : list B := match x with Some a => [f a] | None => [] end.

(** The arguments as the checker sees them. *)
Definition open_arguments {val} (o : open_call val) : list (arg val) :=
  let n := length (o_position o) in
  numbered positional_arg 0 (o_position o) ++
  optional (fun a => mk_arg n ManyPositional false a) (o_star o) ++
  numbered keyword_arg (S n) (o_name o) ++
  optional (fun b => mk_arg (S n + length (o_name o)) ManyKeywords true b) (o_star_star o).

(** A call that the open one can turn out to be when it is executed. *)
Definition expansion {val} (o : open_call val) (c : call val) : Prop :=
  (exists m, by_position c = o_position o ++ match o_star o with Some a => repeat a m | None => [] end) /\
  (exists E, by_name c = o_name o ++ match o_star_star o with Some b => map (fun n => (n, b)) E | None => [] end) /\
  distinct_names c.

(** A name that is given by keyword is also the name of a parameter that gets, or may get, a positional argument. *)
Definition may_collide {ty val} (ps : list (param ty)) (o : open_call val) : Prop :=
  exists i p n, (i < length (o_position o) \/ o_star o <> None) /\ nth_error ps i = Some p /\ p_kind p = PositionalOrKeyword /\
    p_name p = Some n /\ In n (map fst (o_name o)).
(** A parameter that may get its value from [*xs] or from [**kws]. *)
Definition ambiguous {ty val} (ps : list (param ty)) (o : open_call val) : Prop :=
  o_star o <> None /\ o_star_star o <> None /\
  exists i p, length (o_position o) <= i /\ nth_error ps i = Some p /\ p_kind p = PositionalOrKeyword.

(** The call is executed without a TypeError from the binding of arguments. *)
Notation runs := (accepts (fun _ _ => True)).

(** ** Proofs *)

Section Props.
Variables (ty val : Type) (fits : ty -> val -> bool).
Notation right_type := (fun t v => fits t v = true).
Notation filled := (filled ty val).
Notation unfilled := (unfilled ty).
Notation may_give := (may_give ty val).
Notation fresh := (fresh ty val).
Notation given := (given val).
Notation places := (places ty).

Lemma match_open : forall ps (o : open_call val), signature ps -> NoDup (map fst (o_name o)) ->
  (match_arguments fits ps (open_arguments o) = true <->
   binds_open ty val fits ps (o_position o) (o_star o) (o_name o) (o_star_star o)).
Proof.
  intros ps [P x K y] Hsig Hc. cbn [o_position o_star o_name o_star_star] in *. rewrite match_arguments_answer.
  destruct (numbered_positional val P 0) as [FP EP].
  destruct (numbered_keyword val K (S (length P))) as [FK EK].
  assert (Esnd : map snd (combine (seq 0 (length ps)) ps) = ps) by (apply map_snd_combine; apply seq_length).
  unfold open_arguments; cbn [o_position o_star o_name o_star_star].
  set (X := optional (fun a => mk_arg (length P) ManyPositional false a) x).
  set (Y := optional (fun b => mk_arg (S (length P) + length K) ManyKeywords true b) y).
  rewrite (simulation_open ty val fits (combine (seq 0 (length ps)) ps) (numbered positional_arg 0 P) X (numbered keyword_arg (S (length P)) K) Y [] _ _ false).
  - rewrite app_nil_r, EP, EK.
    replace (map snd (combine (seq 0 (length ps)) ps)) with ps by (symmetry; exact Esnd).
    replace (first_value val X) with x by (destruct x; reflexivity). replace (first_value val Y) with y by (destruct y; reflexivity). tauto.
  - constructor; reflexivity.
  - exact FP.
  - destruct x as [a|]; [right; eexists; split; reflexivity|left; reflexivity].
  - exact FK.
  - constructor.
  - destruct y as [b|]; [right; eexists; split; reflexivity|left; reflexivity].
  - replace (map snd (combine (seq 0 (length ps)) ps)) with ps by (symmetry; exact Esnd). exact Hsig.
  - unfold once. rewrite app_nil_r, EK. exact Hc.
  - assert (El : @length (ref ty) (combine (seq 0 (length ps)) ps) = length ps) by (etransitivity; [apply combine_length|rewrite seq_length; lia]).
    rewrite El. cbn [length]. lia.
Qed.

Lemma places_spec : forall ps i (p : param ty), signature ps -> nth_error ps i = Some p -> (positional p <-> i < places ps).
Proof.
  induction ps as [|q r IH]; intros i p Hsig Hi; [destruct i; discriminate|].
  destruct (le_lt_dec 2 (rank (p_kind q))) as [Hl|Hl].
  - rewrite (no_places ty q r Hsig Hl). split; [|lia]. intros Hp; exfalso.
    assert (Hr : rank (p_kind q) <= rank (p_kind p)).
    { destruct i as [|i]; cbn [nth_error] in Hi; [injection Hi as ->; lia|]. exact (signature_rank _ _ _ _ Hsig (nth_error_In _ _ Hi)). }
    destruct Hp as [E|E]; rewrite E in Hr; cbn in Hr; lia.
  - assert (Hq : positional q) by (destruct (p_kind q) eqn:E; cbn in Hl; try lia; [left|right]; exact E).
    assert (Ep : places (q :: r) = S (places r)).
    { unfold CallOpenFacts.places; cbn [filter]. replace (positional_b ty q) with true; [reflexivity|].
      unfold positional_b; destruct Hq as [E|E]; rewrite E; reflexivity. }
    rewrite Ep. destruct i as [|i]; cbn [nth_error] in Hi.
    + injection Hi as ->. split; [lia|auto].
    + rewrite (IH i p (signature_tail _ _ _ Hsig) Hi). lia.
Qed.

Lemma places_length : forall ps : list (param ty), places ps <= length ps.
Proof. intros ps; unfold CallOpenFacts.places. induction ps as [|p ps IH]; [apply le_n|]. cbn [filter]. destruct (positional_b ty p); cbn; lia. Qed.

Lemma exists_fresh : forall (ps : list (param ty)) (K : list (N * val)), exists f, fresh f ps K.
Proof.
  intros ps K.
  set (names := flat_map (fun p => match p_name p with Some n => [n] | None => [] end) ps ++ map fst K).
  exists (N.succ (fold_right N.max 0%N names)).
  assert (H : forall n, In n names -> (n <= fold_right N.max 0 names)%N).
  { generalize names. clear. induction names as [|m l IH]; intros n; [intros []|]. cbn [fold_right]. intros [->|Hn]; [lia|].
    specialize (IH n Hn); lia. }
  split.
  - intros p Hp [_ Hn]. assert (Hin : In (N.succ (fold_right N.max 0%N names)) names).
    { apply in_or_app; left. apply in_flat_map. exists p; split; [exact Hp|]. rewrite Hn; left; reflexivity. }
    apply H in Hin; lia.
  - intros Hn. assert (Hin : In (N.succ (fold_right N.max 0%N names)) names) by (apply in_or_app; right; exact Hn).
    apply H in Hin; lia.
Qed.

Lemma exists_names : forall (ps us : list (param ty)) (K : list (N * val)) f, (forall p, In p us -> p_kind p = PositionalOrKeyword \/ p_kind p = KeywordOnly) ->
  exists E, may_give f us ps K E /\ NoDup E.
Proof.
  intros ps us K f Hus.
  set (star_star := fun p : param ty => match p_kind p with StarStar => true | _ => false end).
  exists (nodup N.eq_dec (filter (fun n => negb (existsb (N.eqb n) (map fst K))) (flat_map (fun p => match p_name p with Some n => [n] | None => [] end) us) ++
    (if existsb star_star ps then [f] else []))).
  split; [|apply NoDup_nodup]. intros n. rewrite nodup_In, in_app_iff, filter_In, negb_true_iff, in_flat_map.
  assert (HK : existsb (N.eqb n) (map fst K) = false <-> ~ In n (map fst K)).
  { rewrite <- not_true_iff_false, existsb_exists. split.
    - intros H Hin; apply H; exists n; split; [exact Hin|apply N.eqb_refl].
    - intros H (m & Hm & E). apply N.eqb_eq in E; subst m. exact (H Hm). }
  rewrite HK.
  assert (Hs : In n (if existsb star_star ps then [f] else []) <-> n = f /\ exists p, In p ps /\ p_kind p = StarStar).
  { destruct (existsb star_star ps) eqn:E.
    - apply existsb_exists in E as (p & Hp & E). unfold star_star in E. split.
      + intros [<-|[]]; split; [reflexivity|]. exists p; split; [exact Hp|]. destruct (p_kind p); try discriminate; reflexivity.
      + intros [-> _]; left; reflexivity.
    - split; [intros []|]. intros (_ & p & Hp & Hk). assert (B : existsb star_star ps = true); [|congruence].
      apply existsb_exists; exists p; split; [exact Hp|]. unfold star_star; rewrite Hk; reflexivity. }
  rewrite Hs. split; (intros [A|A]; [left|right; exact A]).
  - destruct A as [(p & Hp & Hn) A]. split; [exact A|]. exists p; split; [exact Hp|]. split; [exact (Hus p Hp)|].
    destruct (p_name p) as [m|]; [|destruct Hn]. destruct Hn as [->|[]]; reflexivity.
  - destruct A as [A (p & Hp & _ & Hn)]. split; [|exact A]. exists p; split; [exact Hp|]. rewrite Hn; left; reflexivity.
Qed.

Lemma unfilled_kinds : forall ps k (p : param ty), In p (unfilled ps k) -> p_kind p = PositionalOrKeyword \/ p_kind p = KeywordOnly.
Proof. intros ps k p H. apply in_unfilled in H as [[_ H]|[_ H]]; auto. Qed.

(** The call in which [*xs] and [**kws] give as much as they can: [f] stands for a name that no parameter has. *)
Record largest (ps : list (param ty)) (o : open_call val) (f : N) (E : list N) : Prop := {
  l_sig : signature ps;
  l_names : NoDup (map fst (o_name o));
  l_fresh : fresh f ps (o_name o);
  l_gives : may_give f (unfilled ps (length (filled ps (o_position o) (o_star o)))) ps (o_name o) E;
  l_once : NoDup E
}.
Definition largest_call (ps : list (param ty)) (o : open_call val) (E : list N) : call val :=
  mk_call (filled ps (o_position o) (o_star o)) (o_name o ++ given (o_star_star o) E).

Lemma exists_largest : forall ps o, signature ps -> NoDup (map fst (o_name o)) -> exists f E, largest ps o f E.
Proof.
  intros ps o Hsig Hnd. destruct (exists_fresh ps (o_name o)) as (f & Hf).
  destruct (exists_names ps (unfilled ps (length (filled ps (o_position o) (o_star o)))) (o_name o) f (unfilled_kinds _ _)) as (E & HE & HE').
  exists f, E. constructor; assumption.
Qed.

Lemma nodup_app : forall (A B : list N), NoDup A -> NoDup B -> (forall n, In n A -> ~ In n B) -> NoDup (A ++ B).
Proof.
  induction A as [|a A IH]; intros B HA HB H; [exact HB|]. inversion HA; subst. cbn [app]. constructor.
  - rewrite in_app_iff. intros [C|C]; [contradiction|]. exact (H a (or_introl eq_refl) C).
  - apply IH; try assumption. intros n Hn; apply H; right; exact Hn.
Qed.

Lemma largest_distinct : forall ps o f E, largest ps o f E -> distinct_names (largest_call ps o E).
Proof.
  intros ps o f E [A B C D F]. unfold distinct_names, largest_call; cbn [by_name]. rewrite map_app.
  destruct (o_star_star o) as [b|]; [|cbn [CallOpenFacts.given map]; rewrite app_nil_r; exact B].
  rewrite fst_given. apply nodup_app; [exact B|exact F|]. intros n Hn HE. apply D in HE as [[HE _]|[-> _]]; [exact (HE Hn)|].
  exact (proj2 C Hn).
Qed.

Lemma largest_expansion : forall ps o f E, largest ps o f E -> expansion o (largest_call ps o E).
Proof.
  intros ps o f E H. refine (conj _ (conj _ (largest_distinct _ _ _ _ H))).
  - exists (extra_places ty ps (length (o_position o))). unfold largest_call, CallOpenFacts.filled; cbn [by_position].
    destruct (o_star o); [reflexivity|rewrite app_nil_r; reflexivity].
  - exists E. unfold largest_call, CallOpenFacts.given; cbn [by_name]. destruct (o_star_star o); reflexivity.
Qed.

Lemma filled_length : forall (ps : list (param ty)) (P : list val) x, length P <= length (filled ps P x) /\
  (x = None -> length (filled ps P x) = length P) /\
  (x <> None -> length (filled ps P x) = Nat.max (length P) (places ps) + (if existsb (star_b ty) ps then 1 else 0)).
Proof.
  intros ps P [a|]; unfold CallOpenFacts.filled, extra_places.
  - rewrite app_length, repeat_length. refine (conj _ (conj _ _)); [lia|discriminate|lia].
  - refine (conj _ (conj _ _)); [lia|reflexivity|contradiction].
Qed.

Lemma nth_repeat_some : forall (a v : val) m i, nth_error (repeat a m) i = Some v -> v = a.
Proof. intros a v m i H. apply nth_error_In in H. exact (repeat_spec _ _ _ H). Qed.

Lemma filled_nth : forall (ps : list (param ty)) (P : list val) x i, i < length (filled ps P x) ->
  nth_error (filled ps P x) i = if i <? length P then nth_error P i else x.
Proof.
  intros ps P x i Hi. destruct (Nat.ltb_spec i (length P)) as [Hl|Hl]; destruct x as [a|]; unfold CallOpenFacts.filled in *.
  - apply nth_error_app1; exact Hl.
  - reflexivity.
  - destruct (nth_error (P ++ repeat a (extra_places ty ps (length P))) i) as [v|] eqn:E.
    + rewrite nth_error_app2 in E by exact Hl. rewrite (nth_repeat_some _ _ _ _ E). reflexivity.
    + apply nth_error_None in E. lia.
  - lia.
Qed.

Lemma star_exists : forall ps : list (param ty), existsb (star_b ty) ps = true <-> exists j p, nth_error ps j = Some p /\ p_kind p = Star.
Proof.
  intros ps. rewrite existsb_exists. split.
  - intros (p & Hp & E). apply In_nth_error in Hp as (j & Hj). exists j, p; split; [exact Hj|].
    unfold star_b in E; destruct (p_kind p); try discriminate; reflexivity.
  - intros (j & p & Hj & E). exists p; split; [exact (nth_error_In _ _ Hj)|]. unfold star_b; rewrite E; reflexivity.
Qed.

(** A name from [**kws] is not that of a parameter filled by position. *)
Lemma given_unfilled : forall ps o f E n j p, largest ps o f E -> nth_error ps j = Some p -> named n p -> In n E ->
  ~ In n (map fst (o_name o)) /\ (positional p -> length (filled ps (o_position o) (o_star o)) <= j).
Proof.
  intros ps o f E n j p [A B C D F] Hj Hp HE. apply D in HE as [(Hn & q & Hq & Hnq)|[-> _]].
  - split; [exact Hn|]. intros Hpos. apply in_unfilled in Hq as [[Hq Hk]|[(i & Hi & Hq) Hk]].
    + exfalso. apply In_nth_error in Hq as (i & Hq). pose proof (one_named _ _ A n i j q p Hq Hj Hnq Hp) as E'. subst i.
      rewrite Hj in Hq; injection Hq as <-. destruct Hpos as [E'|E']; rewrite E' in Hk; discriminate.
    + pose proof (one_named _ _ A n i j q p Hq Hj Hnq Hp) as E'. subst i. exact Hi.
  - exfalso. exact (proj1 C p (nth_error_In _ _ Hj) Hp).
Qed.

Lemma largest_collision : forall ps o f E, largest ps o f E -> ~ may_collide ps o ->
  no_collision ty val ps (filled ps (o_position o) (o_star o)) (o_name o ++ given (o_star_star o) E).
Proof.
  intros ps o f E Hl Hno i p n Hi Hp Hk Hn Hin. rewrite map_app in Hin. apply in_app_or in Hin as [Hin|Hin].
  - apply Hno. exists i, p, n. refine (conj _ (conj Hp (conj Hk (conj Hn Hin)))).
    destruct (o_star o) as [a|] eqn:Ex; [right; discriminate|left]. exact Hi.
  - apply in_given_fst in Hin as [_ Hin].
    destruct (given_unfilled ps o f E n i p Hl Hp (conj (or_introl Hk) Hn) Hin) as [_ H]. specialize (H (or_intror Hk)). lia.
Qed.

Lemma match_largest : forall ps o f E, largest ps o f E -> ~ may_collide ps o ->
  (match_arguments fits ps (open_arguments o) = true <-> accepts right_type ps (largest_call ps o E)).
Proof.
  intros ps o f E Hl Hno. pose proof Hl as [A B C D F]. rewrite match_open by assumption.
  rewrite (fullest ty val fits ps (o_position o) (o_star o) (o_name o) (o_star_star o) f E A C D).
  unfold largest_call. rewrite (accepts_binds ty val fits ps _ _ A (largest_distinct _ _ _ _ Hl)).
  pose proof (largest_collision _ _ _ _ Hl Hno). tauto.
Qed.

(** Every call that runs is accepted if the largest one is. *)
Lemma sound_largest : forall ps o f E c, largest ps o f E -> ~ ambiguous ps o -> accepts right_type ps (largest_call ps o E) ->
  expansion o c -> runs ps c -> accepts right_type ps c.
Proof.
  intros ps o f E [vs K] Hl Hamb [A B _ _] [(m & HP) [(E' & HK) Hnd]] [R1 R2 R3 R4]. pose proof Hl as [Hsig Hnames Hfresh Hgives Honce].
  unfold largest_call in A, B. unfold distinct_names in Hnd. cbn [by_position by_name] in *. subst vs K.
  destruct (filled_length ps (o_position o) (o_star o)) as (Hlen & Hlen0 & Hlen1).
  constructor; cbn [by_position by_name]; [| |exact R3|exact R4].
  - intros i v Hv. destruct (lt_dec i (length (o_position o))) as [Hi|Hi].
    + rewrite nth_error_app1 in Hv by exact Hi. apply (A i v). rewrite filled_nth by lia.
      destruct (Nat.ltb_spec i (length (o_position o))); [exact Hv|lia].
    + destruct (R1 i v Hv) as (j & Hj & _). rewrite nth_error_app2 in Hv by lia.
      destruct (o_star o) as [a|] eqn:Ex; [|destruct (i - length (o_position o)); discriminate].
      apply nth_repeat_some in Hv; subst v. specialize (Hlen1 ltac:(discriminate)).
      destruct (lt_dec i (length (filled ps (o_position o) (Some a)))) as [Hi'|Hi'].
      * apply (A i a). rewrite filled_nth by exact Hi'. destruct (Nat.ltb_spec i (length (o_position o))); [lia|reflexivity].
      * pose proof Hj as (p & Hp & [[Hpos ->]|[Hstar Hnot]]).
        { apply (places_spec ps j p Hsig Hp) in Hpos. lia. }
        assert (Hs : existsb (star_b ty) ps = true) by (apply star_exists; eauto). rewrite Hs in Hlen1.
        set (k := length (filled ps (o_position o) (Some a))) in *.
        destruct (A (k - 1) a) as (j' & (p' & Hp' & Hr) & Hacc).
        { rewrite filled_nth by lia. destruct (Nat.ltb_spec (k - 1) (length (o_position o))); [lia|reflexivity]. }
        assert (Ej : j' = j).
        { destruct Hr as [[Hpos' Eq']|[Hstar' _]]; [apply (places_spec ps j' p' Hsig Hp') in Hpos'; lia|].
          apply (one_variadic _ _ Hsig j' j p' p Hp' Hp); [left; exact Hstar'|congruence]. }
        subst j'. exists j; split; [exact Hj|exact Hacc].
  - intros n v Hin. apply in_app_or in Hin as [Hin|Hin].
    + apply (B n v). apply in_or_app; left; exact Hin.
    + change (In (n, v) (given (o_star_star o) E')) in Hin. destruct (R2 n v (in_or_app _ _ _ (or_intror Hin))) as (j & Hj & _).
      assert (HnE : In n (map fst (o_name o ++ given (o_star_star o) E'))).
      { rewrite map_app; apply in_or_app; right. apply (in_map fst) in Hin; exact Hin. }
      assert (Hno : ~ In n (map fst (o_name o))).
      { change (NoDup (map fst (o_name o ++ given (o_star_star o) E'))) in Hnd. rewrite map_app in Hnd.
        intros Hn. apply (in_map fst) in Hin; cbn [fst] in Hin. clear - Hnd Hn Hin. revert Hnd Hn.
        induction (map fst (o_name o)) as [|k l IH]; intros Hnd Hn; [destruct Hn|]. cbn [app] in Hnd. inversion Hnd; subst.
        destruct Hn as [->|Hn]; [|exact (IH H2 Hn)]. apply H1, in_or_app; right; exact Hin. }
      apply in_given in Hin as [Hy Hin].
      pose proof Hj as (p & Hp & [Hnp|[Hss Hnot]]).
      * apply (B n v). apply in_or_app; right. apply in_given; split; [exact Hy|]. apply Hgives; left; split; [exact Hno|].
        exists p; split; [|exact Hnp]. apply in_unfilled. destruct Hnp as [[Hk|Hk] Hn]; [right|left; split; [exact (nth_error_In _ _ Hp)|exact Hk]].
        split; [|exact Hk]. exists j; split; [|exact Hp].
        assert (Hpos : length (o_position o) <= j).
        { destruct (le_lt_dec (length (o_position o)) j) as [H|H]; [exact H|exfalso].
          apply (R3 j n j); [rewrite app_length; lia|exact HnE| |exact Hj].
          exists p; split; [exact Hp|]. left; split; [right; exact Hk|reflexivity]. }
        destruct (o_star o) as [a|] eqn:Ex; [exfalso|rewrite (Hlen0 eq_refl); exact Hpos].
        apply Hamb. refine (conj _ (conj _ _)); [congruence|congruence|]. exists j, p; auto.
      * destruct (B f v) as (j' & (p' & Hp' & [Hr|[Hr _]]) & Hacc).
        { apply in_or_app; right. apply in_given; split; [exact Hy|]. apply Hgives; right; split; [reflexivity|].
          exists p; split; [exact (nth_error_In _ _ Hp)|exact Hss]. }
        { exfalso; exact (proj1 Hfresh p' (nth_error_In _ _ Hp') Hr). }
        assert (j' = j) by (apply (one_variadic _ _ Hsig j' j p' p Hp' Hp); [right; exact Hr|congruence]). subst j'. eauto.
Qed.

(** If some call runs then the largest one does. *)
Lemma runs_largest : forall ps o f E c, largest ps o f E -> ~ may_collide ps o -> expansion o c -> runs ps c -> runs ps (largest_call ps o E).
Proof.
  intros ps o f E [vs K] Hl Hno [(m & HP) [(E' & HK) _]] [R1 R2 R3 R4]. pose proof Hl as [Hsig Hnames Hfresh Hgives Honce].
  unfold largest_call. cbn [by_position by_name] in *. subst vs K.
  destruct (filled_length ps (o_position o) (o_star o)) as (Hlen & Hlen0 & Hlen1).
  assert (Hval : forall j (p : param ty) (v : val), nth_error ps j = Some p -> accepts_value (fun _ _ => True) ps j v).
  { intros j p v Hj; exists p; split; [exact Hj|auto]. }
  assert (Hprefix : forall i, i < length (o_position o) -> exists j, receives_position ps i j).
  { intros i Hi. destruct (nth_error (o_position o) i) as [v|] eqn:Ev; [|apply nth_error_None in Ev; lia].
    destruct (R1 i v) as (j & Hj & _); [rewrite nth_error_app1 by exact Hi; exact Ev|]. eauto. }
  assert (Hplace : forall i, i < length (filled ps (o_position o) (o_star o)) -> exists j, receives_position ps i j).
  { intros i Hi. destruct (lt_dec i (length (o_position o))) as [Hl'|Hl']; [exact (Hprefix i Hl')|].
    destruct (o_star o) as [a|]; [|rewrite (Hlen0 eq_refl) in Hi; lia]. rewrite Hlen1 in Hi by discriminate.
    destruct (lt_dec i (places ps)) as [Hp|Hp].
    - destruct (nth_error ps i) as [p|] eqn:Ep; [|apply nth_error_None in Ep; pose proof (places_length ps); lia].
      exists i, p; split; [exact Ep|]. left; split; [apply (places_spec ps i p Hsig Ep); exact Hp|reflexivity].
    - destruct (existsb (star_b ty) ps) eqn:Es; [|lia]. apply star_exists in Es as (j & p & Hj & Hs).
      exists j, p; split; [exact Hj|]. right; split; [exact Hs|]. intros q Hq Hpos. apply (places_spec ps i q Hsig Hq) in Hpos. lia. }
  constructor; cbn [by_position by_name].
  - intros i v Hv. assert (Hi : i < length (filled ps (o_position o) (o_star o))) by (apply nth_error_Some; congruence).
    destruct (Hplace i Hi) as (j & Hj). exists j; split; [exact Hj|]. destruct Hj as (p & Hp & _). exact (Hval j p v Hp).
  - intros n v Hin. apply in_app_or in Hin as [Hin|Hin].
    + exact (R2 n v (in_or_app _ _ _ (or_introl Hin))).
    + apply in_given in Hin as [Hy Hin].
      assert (Hj : exists j, receives_name ps n j).
      { apply Hgives in Hin as [(_ & p & Hp & Hn)|(-> & p & Hp & Hk)].
        - assert (Hin : In p ps) by (apply in_unfilled in Hp as [[Hp _]|[(i & _ & Hp) _]]; [exact Hp|exact (nth_error_In _ _ Hp)]).
          apply In_nth_error in Hin as (j & Hj). exists j, p; auto.
        - apply In_nth_error in Hp as (j & Hj). exists j, p; split; [exact Hj|]. right; split; [exact Hk|]. exact (proj1 Hfresh). }
      destruct Hj as (j & Hj). exists j; split; [exact Hj|]. destruct Hj as (p & Hp & _). exact (Hval j p v Hp).
  - intros i n j Hi Hn (p & Hp & Hpos) (p' & Hp' & Hname). rewrite Hp in Hp'; injection Hp' as <-.
    assert (Hkind : p_kind p = PositionalOrKeyword /\ i = j /\ p_name p = Some n).
    { destruct Hpos as [[[E1|E1] ->]|[E1 _]], Hname as [[[E2|E2] E3]|[E2 _]]; rewrite E1 in E2; try discriminate; auto. }
    destruct Hkind as (Hk & -> & Hpn). rewrite map_app in Hn. apply in_app_or in Hn as [Hn|Hn].
    + apply Hno. exists j, p, n. refine (conj _ (conj Hp (conj Hk (conj Hpn Hn)))).
      destruct (o_star o) as [a|]; [right; discriminate|left]. rewrite (Hlen0 eq_refl) in Hi. exact Hi.
    + apply in_given_fst in Hn as [_ Hn].
      destruct (given_unfilled ps o f E n j p Hl Hp (conj (or_introl Hk) Hpn) Hn) as [_ H]. specialize (H (or_intror Hk)). lia.
  - intros j p Hj Hreq.
    assert (Hby : positional p -> j < length (filled ps (o_position o) (o_star o)) ->
      exists i, i < length (filled ps (o_position o) (o_star o)) /\ receives_position ps i j).
    { intros Hp Hlt. exists j; split; [exact Hlt|]. exists p; split; [exact Hj|]. left; auto. }
    destruct (R4 j p Hj Hreq) as [(i & Hi & Hr)|(n & Hn & Hr)].
    + left. pose proof Hr as (q & Hq & Hcase). rewrite Hj in Hq; injection Hq as <-.
      destruct Hcase as [[Hpos ->]|[Hs _]]; [|exfalso; apply (proj1 Hreq); left; exact Hs].
      apply (Hby Hpos). destruct (o_star o) as [a|].
      * rewrite Hlen1 by discriminate. apply (places_spec ps j p Hsig Hj) in Hpos. lia.
      * rewrite app_nil_r in Hi. lia.
    + rewrite map_app in Hn. apply in_app_or in Hn as [Hn|Hn].
      * right. exists n; split; [|exact Hr]. rewrite map_app; apply in_or_app; left; exact Hn.
      * assert (Hy : o_star_star o <> None) by (destruct (o_star_star o); [discriminate|destruct Hn]).
        pose proof Hr as (q & Hq & Hcase). rewrite Hj in Hq; injection Hq as <-.
        destruct Hcase as [Hname|[Hs _]]; [|exfalso; apply (proj1 Hreq); right; exact Hs].
        destruct (in_dec N.eq_dec n (map fst (o_name o))) as [Hin|Hin].
        { right. exists n; split; [|exact Hr]. rewrite map_app; apply in_or_app; left; exact Hin. }
        destruct (le_lt_dec (length (filled ps (o_position o) (o_star o))) j) as [Hle|Hlt].
        { right. exists n; split; [|exact Hr]. rewrite map_app; apply in_or_app; right. apply in_given_fst; split; [exact Hy|].
          apply Hgives; left; split; [exact Hin|]. exists p; split; [|exact Hname]. apply in_unfilled.
          destruct Hname as [[Hk|Hk] _]; [right; split; [exists j; auto|exact Hk]|left; split; [exact (nth_error_In _ _ Hj)|exact Hk]]. }
        destruct Hname as [[Hk|Hk] Hpn]; [left; apply (Hby (or_intror Hk) Hlt)|].
        right. exists n; split; [|exact Hr]. rewrite map_app; apply in_or_app; right. apply in_given_fst; split; [exact Hy|].
        apply Hgives; left; split; [exact Hin|]. exists p; split; [|split; [right; exact Hk|exact Hpn]]. apply in_unfilled.
        left; split; [exact (nth_error_In _ _ Hj)|exact Hk].
Qed.

(** No missed error: whatever [xs] and [kws] hold, a call that runs gets values of the right types. *)
Theorem C49_open_sound_partial : forall ps o c, signature ps -> NoDup (map fst (o_name o)) -> ~ may_collide ps o -> ~ ambiguous ps o ->
  match_arguments fits ps (open_arguments o) = true -> expansion o c -> runs ps c -> accepts right_type ps c.
Proof.
  intros ps o c Hsig Hnd Hno Hamb H Hc Hr. destruct (exists_largest ps o Hsig Hnd) as (f & E & Hl).
  apply (match_largest ps o f E Hl Hno) in H. exact (sound_largest ps o f E c Hl Hamb H Hc Hr).
Qed.

(** An accepted call can be executed. *)
Theorem C49_open_possible_partial : forall ps o, signature ps -> NoDup (map fst (o_name o)) -> ~ may_collide ps o ->
  match_arguments fits ps (open_arguments o) = true -> exists c, expansion o c /\ accepts right_type ps c.
Proof.
  intros ps o Hsig Hnd Hno H. destruct (exists_largest ps o Hsig Hnd) as (f & E & Hl).
  apply (match_largest ps o f E Hl Hno) in H. exists (largest_call ps o E); split; [exact (largest_expansion _ _ _ _ Hl)|exact H].
Qed.

(** No false error. *)
Theorem C49_open_complete_partial : forall ps o, signature ps -> NoDup (map fst (o_name o)) -> ~ may_collide ps o ->
  (exists c, expansion o c /\ runs ps c) -> (forall c, expansion o c -> runs ps c -> accepts right_type ps c) ->
  match_arguments fits ps (open_arguments o) = true.
Proof.
  intros ps o Hsig Hnd Hno (c & Hc & Hr) H. destruct (exists_largest ps o Hsig Hnd) as (f & E & Hl).
  apply (match_largest ps o f E Hl Hno). apply H; [exact (largest_expansion _ _ _ _ Hl)|].
  exact (runs_largest ps o f E c Hl Hno Hc Hr).
Qed.

End Props.

(** ** What the checker gets wrong *)

(** [def f(a: int)] called as [f( *ints, **strings)] is accepted: [a] is only compared with [ints].  The call with
    [a] in [strings] and no [ints] runs. *)
Definition only_a : list (param nat) := [par PositionalOrKeyword 1 false 1].
Definition both_open : open_call nat := mk_open [] (Some 1) [] (Some 2).
Theorem C49_open_ambiguous_refuted : signature only_a /\ ~ may_collide only_a both_open /\
  match_arguments Nat.eqb only_a (open_arguments both_open) = true /\
  exists c, expansion both_open c /\ runs only_a c /\ ~ accepts (fun t v => Nat.eqb t v = true) only_a c.
Proof.
  split; [apply signature_check; reflexivity|]. split; [intros (i & p & n & _ & _ & _ & _ & [])|]. split; [reflexivity|].
  exists (mk_call [] [(1%N, 2)]).
  assert (Hnd : distinct_names (mk_call [] [(1%N, 2)])) by (unfold distinct_names; cbn; repeat constructor; cbn; tauto).
  assert (Hsig : signature only_a) by (apply signature_check; reflexivity).
  split; [refine (conj _ (conj _ Hnd)); [exists 0; reflexivity|exists [1%N]; reflexivity]|]. split.
  - apply (accepts_weaken nat nat (fun _ _ => true = true)); [auto|].
    apply (C49_sound_partial nat nat (fun _ _ => true) only_a); [exact Hsig|exact Hnd| |reflexivity].
    intros (p & [<-|[]] & E); discriminate.
  - intros H. apply (C49_complete nat nat Nat.eqb only_a _ Hsig Hnd) in H. discriminate.
Qed.

(** [def f(a: int, **kw: str)] called as [f( *ints, a="")] is accepted: the string is taken for a part of [kw]; if [ints]
    is empty it is given to [a]. *)
Definition a_and_others : list (param nat) := [par PositionalOrKeyword 1 false 1; par StarStar 2 false 2].
Definition star_and_a : open_call nat := mk_open [] (Some 1) [(1%N, 2)] None.
Theorem C49_open_collide_refuted : signature a_and_others /\ ~ ambiguous a_and_others star_and_a /\
  match_arguments Nat.eqb a_and_others (open_arguments star_and_a) = true /\
  exists c, expansion star_and_a c /\ runs a_and_others c /\ ~ accepts (fun t v => Nat.eqb t v = true) a_and_others c.
Proof.
  split; [apply signature_check; reflexivity|]. split; [intros (_ & H & _); apply H; reflexivity|]. split; [reflexivity|].
  exists (mk_call [] [(1%N, 2)]).
  assert (Hnd : distinct_names (mk_call [] [(1%N, 2)])) by (unfold distinct_names; cbn; repeat constructor; cbn; tauto).
  assert (Hsig : signature a_and_others) by (apply signature_check; reflexivity).
  assert (Hno : ~ collides a_and_others (mk_call [] [(1%N, 2)])) by (intros (i & p & n & H & _); cbn in H; lia).
  split; [refine (conj _ (conj _ Hnd)); [exists 0; reflexivity|exists []; reflexivity]|]. split.
  - apply (accepts_weaken nat nat (fun _ _ => true = true)); [auto|].
    apply (C49_exact_partial nat nat (fun _ _ => true) a_and_others); [exact Hsig|exact Hnd|exact Hno|reflexivity].
  - intros H. apply (C49_complete nat nat Nat.eqb a_and_others _ Hsig Hnd) in H. discriminate.
Qed.

(** [def f(a: int, b: int)] called as [f( *ints, b=1)] is rejected, though the call is right whenever it runs. *)
Definition a_and_b : list (param nat) := [par PositionalOrKeyword 1 false 1; par PositionalOrKeyword 2 false 1].
Definition star_and_b : open_call nat := mk_open [] (Some 1) [(2%N, 1)] None.
Theorem C49_open_rejects_refuted : signature a_and_b /\
  match_arguments Nat.eqb a_and_b (open_arguments star_and_b) = false /\
  (exists c, expansion star_and_b c /\ runs a_and_b c) /\
  (forall c, expansion star_and_b c -> runs a_and_b c -> accepts (fun t v => Nat.eqb t v = true) a_and_b c).
Proof.
  assert (Hsig : signature a_and_b) by (apply signature_check; reflexivity).
  split; [exact Hsig|]. split; [reflexivity|].
  assert (Hnd : forall vs, distinct_names (mk_call vs [(2%N, 1)])) by (intros vs; unfold distinct_names; cbn; repeat constructor; cbn; tauto).
  assert (Hany : ~ takes_any_name a_and_b) by (intros (p & [<-|[<-|[]]] & E); discriminate).
  split.
  - exists (mk_call [1] [(2%N, 1)]). split; [refine (conj _ (conj _ (Hnd [1]))); [exists 1; reflexivity|exists []; reflexivity]|].
    apply (accepts_weaken nat nat (fun _ _ => true = true)); [auto|].
    apply (C49_sound_partial nat nat (fun _ _ => true) a_and_b); [exact Hsig|apply Hnd|exact Hany|reflexivity].
  - intros [vs K] [(m & HP) [(E & HK) _]] Hr. cbn in HP, HK. subst vs K.
    apply (accepts_weaken nat nat _ (fun _ _ => true = true)) in Hr; [|auto].
    apply (C49_complete nat nat (fun _ _ => true) a_and_b _ Hsig (Hnd _)) in Hr.
    apply (C49_sound_partial nat nat Nat.eqb a_and_b); [exact Hsig|apply Hnd|exact Hany|].
    destruct m as [|[|m]]; [discriminate|reflexivity|exfalso]. apply match_binds in Hr; [|exact Hsig|apply Hnd].
    cbn in Hr. destruct Hr as (_ & _ & _ & Hr). discriminate.
Qed.

(** ** Examples *)

(** [def f(a, /, b, c=0, *xs, d, e=0, **kw)] called as [f(1, *xs, d=5, **kws)] with values of the types that are compared. *)
Definition same_types : list (param nat) :=
  [par PositionalOnly 1 false 1; par PositionalOrKeyword 2 false 2; par PositionalOrKeyword 3 true 2; par Star 4 false 2;
   par KeywordOnly 5 false 5; par KeywordOnly 6 true 6; par StarStar 7 false 6].
Example C49_open_sample :
  match_arguments Nat.eqb same_types (open_arguments (mk_open [1] (Some 2) [(5%N, 5)] (Some 6))) = true /\
  match_arguments Nat.eqb same_types (open_arguments (mk_open [1] (Some 3) [(5%N, 5)] (Some 6))) = false /\
  match_arguments Nat.eqb same_types (open_arguments (mk_open [1] (Some 2) [(5%N, 5)] (Some 5))) = false /\
  match_arguments Nat.eqb same_types (open_arguments (mk_open [1] (Some 2) [] None)) = false /\
  match_arguments Nat.eqb same_types (open_arguments (mk_open [1; 2; 2; 2] None [] (Some 6))) = false.
Proof. vm_compute; auto 10. Qed.

(** The hypotheses of the theorems are met: [f(1, 2, 2, *xs, d=5, **kws)]. *)
Example C49_open_used : forall c, expansion (mk_open [1; 2; 2] (Some 2) [(5%N, 5)] (Some 6)) c -> runs same_types c ->
  accepts (fun t v => Nat.eqb t v = true) same_types c.
Proof.
  intros c. apply (C49_open_sound_partial nat nat Nat.eqb).
  - apply signature_check; reflexivity.
  - cbn; repeat constructor; cbn; tauto.
  - intros (i & p & n & _ & Hp & Hk & Hn & [<-|[]]).
    destruct i as [|[|[|[|[|[|[|i]]]]]]]; cbn in Hp; try (injection Hp as <-; discriminate). destruct i; discriminate.
  - intros (_ & _ & i & p & Hi & Hp & Hk). cbn in Hi.
    destruct i as [|[|[|[|[|[|[|i]]]]]]]; cbn in Hp; try lia; try (injection Hp as <-; discriminate). destruct i; discriminate.
  - reflexivity.
Qed.

Print Assumptions C49_open_sound_partial.
Print Assumptions C49_open_possible_partial.
Print Assumptions C49_open_complete_partial.
Print Assumptions C49_open_ambiguous_refuted.
Print Assumptions C49_open_collide_refuted.
Print Assumptions C49_open_rejects_refuted.
