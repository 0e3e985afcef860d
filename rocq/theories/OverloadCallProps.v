(** C51: overloaded functions are safe to call as the checker says. *)
From Coq Require Import List NArith Arith Bool Lia.
From Verif Require Import CallModel CallSpec CallProps CallPlain OverloadModel OverloadSpec OverloadProps OverloadTypes OverloadValues OverloadSplit OverloadCall.
Import ListNotations.

(** A call with types for arguments, executed with values of these types *)
Definition of_types (value_of : type -> value -> Prop) (c : call type) (w : call value) : Prop :=
  Forall2 value_of (by_position c) (by_position w) /\
  Forall2 (fun x y => fst x = fst y /\ value_of (snd x) (snd y)) (by_name c) (by_name w).

Lemma Forall2_nth_left : forall A B (R : A -> B -> Prop) l k, Forall2 R l k -> forall i y, nth_error k i = Some y -> exists x, nth_error l i = Some x /\ R x y.
Proof.
  intros A B R l k H; induction H as [|x y l k Hxy H IH]; intros i z Hz; [destruct i; discriminate|].
  destruct i as [|i]; cbn in *; [injection Hz as <-; exists x; auto|]. exact (IH i z Hz).
Qed.
Lemma Forall2_in_right : forall A B (R : A -> B -> Prop) l k, Forall2 R l k -> forall y, In y k -> exists x, In x l /\ R x y.
Proof.
  intros A B R l k H; induction H as [|x y l k Hxy H IH]; intros z Hz; [destruct Hz|].
  destruct Hz as [<-|Hz]; [exists x; cbn; auto|]. destruct (IH z Hz) as [x' [Hx' Hr]]; exists x'; cbn; auto.
Qed.
Lemma Forall2_len : forall A B (R : A -> B -> Prop) l k, Forall2 R l k -> length l = length k.
Proof. intros A B R l k H; induction H; cbn; congruence. Qed.

(** The values are accepted where their types are. *)
Lemma accepts_values : forall (fits : type -> type -> Prop) (value_of : type -> value -> Prop) ps c w, accepts fits ps c -> of_types value_of c w ->
  (forall s, In s (by_position c) \/ In s (map snd (by_name c)) -> forall t v, fits t s -> value_of s v -> value_of t v) ->
  accepts value_of ps w.
Proof.
  intros fits value_of ps c w [A B C D] [Hp Hn] Hf.
  assert (Hlen : length (by_position w) = length (by_position c)) by (symmetry; exact (Forall2_len _ _ _ _ _ Hp)).
  assert (Hnames : map fst (by_name w) = map fst (by_name c)).
  { clear -Hn. induction Hn as [|x y l k [Hxy _] H IH]; [reflexivity|]. cbn; rewrite IH, Hxy; reflexivity. }
  constructor.
  - intros i v Hv. destruct (Forall2_nth_left _ _ _ _ _ Hp i v Hv) as [s [Hs Hsv]]. destruct (A i s Hs) as [j [Hj [p [Hpj Ht]]]].
    exists j. split; [exact Hj|]. exists p. split; [exact Hpj|]. intros t Et.
    apply (Hf s); [left; exact (nth_error_In _ _ Hs)|exact (Ht t Et)|exact Hsv].
  - intros n v Hv. destruct (Forall2_in_right _ _ _ _ _ Hn (n, v) Hv) as [[m s] [Hs [Em Hsv]]]. cbn in Em, Hsv; subst m.
    destruct (B n s Hs) as [j [Hj [p [Hpj Ht]]]]. exists j. split; [exact Hj|]. exists p. split; [exact Hpj|]. intros t Et.
    apply (Hf s); [right; exact (in_map snd _ _ Hs)|exact (Ht t Et)|exact Hsv].
  - intros i n j. rewrite Hlen, Hnames. apply C.
  - intros j p Hj Hr. rewrite Hlen, Hnames. exact (D j p Hj Hr).
Qed.

Section Safe.
Variable instance : N -> value -> Prop.
Variable class_object : nat -> type -> value -> Prop.
Notation value_of := (value_of instance class_object).
Variable fits : type -> type -> bool.
Variable any_arguments : variant -> list argument -> option (list (nat * type)).
Variables (handled similar had_error : variant -> list argument -> bool).
Variable is_equal_type : type -> type -> bool.
Variable simplified_union : type -> type -> type.
Variable mypy_compatible : bool.
(** A type without Any that fits has no other values, and a union has the values of both types. *)
Hypothesis fits_sound : forall t s v, static s -> fits t s = true -> value_of s v -> value_of t v.
Hypothesis union_exact : forall s t v, value_of (simplified_union s t) v <-> value_of s v \/ value_of t v.

Notation match_signature := (match_signature fits any_arguments handled similar had_error).
Notation resolve := (resolve fits any_arguments handled similar had_error is_equal_type simplified_union mypy_compatible).
Notation split := maybe_union_like_with_materializations.
Notation accepted := (accepted match_signature).
Notation takes := (takes match_signature).
Notation chosen := (chosen (fun _ a => Some (a_value a)) split override).
Notation choice := (choice (fun _ a => Some (a_value a)) split override).

Definition below (s t : type) : Prop := forall v, value_of s v -> value_of t v.

Lemma takes_match : forall c v args, takes c v args <-> match_arguments fits (v_params v) args = true.
Proof.
  intros c v args; unfold OverloadSpec.takes, OverloadCall.match_signature; cbn [fst].
  destruct (match_arguments fits (v_params v) args); [|split; [intros []|discriminate]].
  destruct (any_arguments v args); split; auto.
Qed.

Lemma taken_values : forall v c0 w, signature (v_params v) -> distinct_names c0 -> ~ collides (v_params v) c0 ->
  Forall static (by_position c0) -> Forall static (map snd (by_name c0)) -> of_types value_of c0 w ->
  match_arguments fits (v_params v) (arguments_of c0) = true -> accepts value_of (v_params v) w.
Proof.
  intros v c0 w Hsig Hd Hc Hs1 Hs2 Hw Hm. rewrite Forall_forall in Hs1, Hs2.
  apply (C49_exact_partial type type fits) in Hm; [|assumption..].
  apply (accepts_values _ _ _ _ _ Hm Hw). intros s Hs t x Hf Hx. apply (fits_sound t s); [|exact Hf|exact Hx].
  destruct Hs as [Hs|Hs]; [exact (Hs1 s Hs)|exact (Hs2 s Hs)].
Qed.

(** Members for the positional arguments, and the call with them *)
Lemma pick_positions : forall ts ws i (c : context type), Forall2 value_of ts ws -> Forall regular ts -> Forall static ts -> exists us,
  Forall2 value_of us ws /\ Forall static us /\ length us = length ts /\
  exists args', choice c (numbered positional_arg i ts) args' /\ map (plain_arg type) args' = numbered positional_arg i us.
Proof.
  intros ts ws i c H; revert i; induction H as [|t w ts ws Htw H IH]; intros i Hr Hs.
  - exists []. split; [constructor|]. split; [constructor|]. split; [reflexivity|]. exists []. split; [constructor|reflexivity].
  - inversion Hr as [|x l Hrt Hr']; subst. inversion Hs as [|x l Hst Hs']; subst.
    destruct (IH (S i) Hr' Hs') as [us [Hus [Hsu [Hlen [args' [Hc Hp]]]]]].
    destruct (split t) as [l|] eqn:E.
    + destruct (proj2 (all_covered instance class_object t l E) Hrt w Htw) as [u [Hu Huw]].
      exists (u :: us). split; [constructor; assumption|]. split.
      { constructor; [|exact Hsu]. pose proof (static_members t l E Hst) as Hm. rewrite Forall_forall in Hm. exact (Hm u Hu). }
      split; [cbn; congruence|]. exists (override (positional_arg i t) u :: args'). split.
      * constructor; [|exact Hc]. unfold OverloadSpec.chosen. cbn [a_value positional_arg]. rewrite E. exists u; auto.
      * cbn [map numbered]. rewrite Hp. reflexivity.
    + exists (t :: us). split; [constructor; assumption|]. split; [constructor; assumption|]. split; [cbn; congruence|].
      exists (positional_arg i t :: args'). split.
      * constructor; [|exact Hc]. unfold OverloadSpec.chosen. cbn [a_value positional_arg]. rewrite E. reflexivity.
      * cbn [map numbered]. rewrite Hp. reflexivity.
Qed.

Lemma keep_names : forall K i (c : context type), (forall n t, In (n, t) K -> split t = None) ->
  choice c (numbered keyword_arg i K) (numbered keyword_arg i K) /\ map (plain_arg type) (numbered keyword_arg i K) = numbered keyword_arg i K.
Proof.
  intros K; induction K as [|[n t] K IH]; intros i c H; [split; [constructor|reflexivity]|].
  destruct (IH (S i) c) as [A B]; [intros m u Hin; apply (H m u); right; exact Hin|]. split.
  - constructor; [|exact A]. unfold OverloadSpec.chosen. cbn [a_value keyword_arg snd]. rewrite (H n t); [reflexivity|left; reflexivity].
  - cbn [map numbered]. rewrite B. reflexivity.
Qed.

Lemma find_matching_unions : forall c vs args r, ~ reported match_signature c vs args (resolve c vs args) -> r = fst (resolve c vs args) ->
  (exists i, r = Single i /\ accepted c vs args i) \/
  (exists t, r = OverloadModel.Union t /\
     forall args', choice c args args' -> exists v, In v vs /\ takes c v args' /\ below (v_return v) t) \/
  r = NotFound /\ exists i, accepted c vs args i.
Proof.
  intros c vs args r Hr ->.
  assert (Hx : forall a b, below a (simplified_union a b)) by (intros a b v Hv; apply union_exact; left; exact Hv).
  assert (Hy : forall a b, below b (simplified_union a b)) by (intros a b v Hv; apply union_exact; right; exact Hv).
  assert (Hz : forall a b c, below a c -> below b c -> below (simplified_union a b) c)
    by (intros a b d Ha Hb v Hv; apply union_exact in Hv; destruct Hv as [Hv|Hv]; [exact (Ha v Hv)|exact (Hb v Hv)]).
  assert (Hn : forall a, below Never a) by (intros a v []).
  pose proof (C51_result type argument type variant match_signature v_return v_guard type_eqb is_equal_type
    (fun _ a => Some (a_value a)) split override Any Never simplified_union (fun _ v _ => v_return v) (fun a => should_do_union_math (a_value a))
    mypy_compatible members_nonempty below (fun a v H => H) (fun a b c H1 H2 v H => H2 v (H1 v H)) Hn Hx Hy Hz c vs args) as H.
  destruct H as [[i [E Hi]]|[[t [E [_ [Hres _]]]]|[E Hi]]].
  - intros _. split; reflexivity.
  - exact Hr.
  - left. exists i. auto.
  - right; left. exists t. split; [exact E|]. intros args' Hc. destruct (Hres args' Hc) as [v [[i [Hi [[w [Hw Hl]] _]]] Hb]].
    exists v. rewrite Hi in Hw. injection Hw as <-. refine (conj (nth_error_In _ _ Hi) (conj Hl Hb)).
  - right; right. auto.
Qed.

(** A call without an error: whatever values of their types the arguments have, a variant accepts them, and what it returns is a
    value of the type of the call (unless the type had to be guessed because of an Any).
    Left out: keyword arguments that are unions, tuples with combinations that are not
    tried, [**kwargs] with the name of a parameter. *)
Theorem C51_sound_partial : forall c vs c0 w, distinct_names c0 ->
  (forall v, In v vs -> signature (v_params v) /\ ~ collides (v_params v) c0) ->
  Forall regular (by_position c0) -> Forall static (by_position c0) -> Forall static (map snd (by_name c0)) ->
  (forall n t, In (n, t) (by_name c0) -> split t = None) ->
  ~ reported match_signature c vs (arguments_of c0) (resolve c vs (arguments_of c0)) ->
  of_types value_of c0 w ->
  exists v, In v vs /\ accepts value_of (v_params v) w /\
    (fst (resolve c vs (arguments_of c0)) <> NotFound -> exists t,
       result_type is_equal_type mypy_compatible vs (fst (resolve c vs (arguments_of c0))) = Some t /\
       forall x, value_of (v_return v) x -> value_of t x).
Proof.
  intros c vs c0 w Hd Hvs Hreg Hs1 Hs2 Hk Hrep Hw.
  destruct (find_matching_unions c vs (arguments_of c0) _ Hrep eq_refl) as [[i [-> [v [Hv [Ht _]]]]]|[[t [-> Hres]]|[-> [i [v [Hv [Ht _]]]]]]].
  - apply takes_match in Ht. pose proof (nth_error_In _ _ Hv) as Hin. destruct (Hvs v Hin) as [Hsig Hc].
    exists v. split; [exact Hin|]. split; [apply (taken_values v c0); assumption|]. intros _. exists (v_return v). cbn [result_type].
    rewrite Hv. auto.
  - destruct Hw as [Hw1 Hw2]. destruct (pick_positions _ _ 0 c Hw1 Hreg Hs1) as [us [Hus [Hsu [Hlen [args' [Hch Hpl]]]]]].
    destruct (keep_names (by_name c0) (length (by_position c0)) c Hk) as [Hch2 Hpl2].
    destruct (Hres (args' ++ numbered keyword_arg (length (by_position c0)) (by_name c0))) as [v [Hin [Ht Hb]]].
    { unfold arguments_of. apply Forall2_app; assumption. }
    exists v. split; [exact Hin|]. destruct (Hvs v Hin) as [Hsig Hc]. split.
    + apply takes_match in Ht. rewrite <- match_plain in Ht. rewrite map_app, Hpl, Hpl2, <- Hlen in Ht.
      apply (taken_values v (mk_call us (by_name c0))); [exact Hsig|exact Hd| |exact Hsu|exact Hs2|split; [exact Hus|exact Hw2]|exact Ht].
      intros [j [p [n [Hj Hx]]]]. apply Hc. exists j, p, n. cbn [by_position by_name] in Hj, Hx. rewrite <- Hlen. split; assumption.
    + intros _. exists t. split; [reflexivity|exact Hb].
  - apply takes_match in Ht. pose proof (nth_error_In _ _ Hv) as Hin. destruct (Hvs v Hin) as [Hsig Hc].
    exists v. split; [exact Hin|]. split; [apply (taken_values v c0); assumption|]. intros Hx; exfalso; apply Hx; reflexivity.
Qed.

End Safe.

(** ** The type of an undecided call *)
Section Fallback.
Variable instance : N -> value -> Prop.
Variable class_object : nat -> type -> value -> Prop.
Notation value_of := (value_of instance class_object).
Variable is_equal_type : type -> type -> bool.
Hypothesis equal_values : forall s t v, is_equal_type s t = true -> (value_of s v <-> value_of t v).

(** No union, also not as an item of a tuple *)
Fixpoint no_unions (t : type) : Prop :=
  match t with
  | OverloadTypes.Union _ _ => False
  | Tuple l => (fix all (l : list type) : Prop := match l with [] => True | x :: l => no_unions x /\ all l end) l
  | _ => True
  end.

Lemma no_unions_items : forall l, no_unions (Tuple l) <-> Forall no_unions l.
Proof.
  cbn [no_unions]. induction l as [|x l IH]; [split; [intros _; constructor|intros _; exact I]|]. split.
  - intros [A B]. constructor; [exact A|]. apply IH; exact B.
  - intros H; inversion H; subst; split; [assumption|]. apply IH; assumption.
Qed.

Notation merge := (merge_matching_parts is_equal_type).

Fixpoint merge_items (l k : list type) : list type :=
  match l, k with x :: l, y :: k => merge x y :: merge_items l k | _, _ => [] end.

Lemma merge_tuple : forall l k, merge (Tuple l) (Tuple k) = if Nat.eqb (length l) (length k) then Tuple (merge_items l k) else Any.
Proof.
  intros l k. cbn [merge_matching_parts]. destruct (Nat.eqb (length l) (length k)); [|reflexivity]. reflexivity.
Qed.

Lemma merge_above : forall s t, no_unions s -> no_unions (merge s t) /\
  (forall v, value_of s v \/ value_of t v -> value_of (merge s t) v).
Proof.
  assert (Hdef : forall s t, no_unions s -> (merge s t = if is_equal_type s t then s else Any) ->
    no_unions (merge s t) /\ (forall v, value_of s v \/ value_of t v -> value_of (merge s t) v)).
  { intros s t Hs ->. destruct (is_equal_type s t) eqn:E; [|split; [exact I|intros; exact I]]. split; [exact Hs|].
    intros v [Hv|Hv]; [exact Hv|]. apply (equal_values s t v E); exact Hv. }
  intros s; induction s as [n| |b|e n|e n i|u us _ _|s _|l IH| |] using type_induction; intros t Hs; try (apply Hdef; [exact Hs|reflexivity]).
  - destruct t; try (split; [exact I|intros; exact I]). cbn. destruct (N.eqb_spec n n0) as [->|_]; split; try exact I; intros v Hv; [|exact I].
    destruct Hv; assumption.
  - destruct Hs.
  - destruct t as [ | | | | | | |k| | ]; try (split; [exact I|intros; exact I]). rewrite merge_tuple.
    destruct (Nat.eqb_spec (length l) (length k)) as [Hlen|_]; [|split; [exact I|intros; exact I]].
    apply no_unions_items in Hs.
    assert (H : Forall no_unions (merge_items l k) /\ forall vs, Forall2 value_of l vs \/ Forall2 value_of k vs -> Forall2 value_of (merge_items l k) vs).
    { revert k Hlen; induction l as [|x l IHl]; intros [|y k] Hlen; try discriminate Hlen.
      - split; [constructor|]. intros vs [H|H]; exact H.
      - inversion IH as [|z zs Hx IH']; subst. inversion Hs as [|z zs Hsx Hs']; subst. injection Hlen as Hlen.
        destruct (Hx y Hsx) as [Hu Hv]. destruct (IHl IH' Hs' k Hlen) as [Hus Hvs]. cbn [merge_items]. split; [constructor; assumption|].
        intros vs [H|H]; inversion H; subst; constructor; try (apply Hv; auto); apply Hvs; auto. }
    split; [apply no_unions_items, H|]. intros v Hv. apply has_tuple.
    destruct Hv as [Hv|Hv]; apply has_tuple in Hv; destruct Hv as [vs [-> Hv]]; exists vs; (split; [reflexivity|]); apply H; auto.
Qed.

(** If the variant remains open, the type of the call has the values that any of the variants returns.
    Left out: unions, when mypy is imitated. *)
Theorem C51_fallback_partial : forall mypy_compatible ts t, (mypy_compatible = true -> Forall no_unions ts) ->
  fallback is_equal_type mypy_compatible ts = Some t -> forall s v, In s ts -> value_of s v -> value_of t v.
Proof.
  intros mypy ts t Hm H. destruct ts as [|first others]; [discriminate H|]. cbn [fallback] in H. destruct mypy.
  - injection H as <-. specialize (Hm eq_refl). inversion Hm as [|z zs Hf _]; subst. clear Hm.
    assert (Hfold : forall l f, no_unions f -> forall s v, In s (f :: l) -> value_of s v -> value_of (fold_left merge l f) v).
    { intros l; induction l as [|x l IH]; intros f Hn s v Hs Hv; cbn [fold_left].
      - destruct Hs as [<-|[]]; exact Hv.
      - destruct (merge_above f x Hn) as [Hu Ha]. destruct Hs as [<-|[<-|Hs]].
        + apply (IH (merge f x) Hu (merge f x)); [left; reflexivity|]. apply Ha; left; exact Hv.
        + apply (IH (merge f x) Hu (merge f x)); [left; reflexivity|]. apply Ha; right; exact Hv.
        + apply (IH (merge f x) Hu s); [right; exact Hs|exact Hv]. }
    exact (Hfold others first Hf).
  - destruct (forallb (is_equal_type first) others) eqn:E; injection H as <-; [|intros; exact I].
    rewrite forallb_forall in E. intros s v [<-|Hs] Hv; [exact Hv|]. apply (equal_values first s v (E s Hs)); exact Hv.
Qed.

End Fallback.

(** ** Tuples *)

(** The members have the values of the type, for a tuple if no combination is left out. *)
Theorem C51_members_partial : forall instance class_object t us, maybe_union_like_with_materializations t = Some us -> regular t ->
  forall v, value_of instance class_object t v <-> exists u, In u us /\ value_of instance class_object u v.
Proof.
  intros instance class_object t us H Hr v. destruct (all_covered instance class_object t us H) as [A B]. split.
  - exact (B Hr v).
  - intros [u [Hu Hv]]. exact (A u v Hu Hv).
Qed.

(** The members of [tuple[u, u]] with a union [u]: only the pairs of twice the same member.  Thus a call with a value of another pair is
    accepted although no variant takes it. *)
Theorem C51_pairs_refuted : forall u us, S (length us) * S (length us) <= 20 -> us <> [] ->
  exists l, maybe_union_like_with_materializations (Tuple [OverloadTypes.Union u us; OverloadTypes.Union u us]) = Some l /\
    forall t, In t l <-> exists x, In x (u :: us) /\ t = Tuple [x; x].
Proof.
  intros u us Hlen Hne. set (k := u :: us).
  change (maybe_union_like_with_materializations (Tuple [OverloadTypes.Union u us; OverloadTypes.Union u us]))
    with (split_tuple [OverloadTypes.Union u us; OverloadTypes.Union u us] [Some k; Some k]).
  unfold split_tuple. cbn [forallb is_none andb combine add_items].
  assert (Hk : length k = S (length us)) by reflexivity.
  assert (H1 : add_item (OverloadTypes.Union u us) (Some k) [[]] = Some (map (fun x => [x]) k)).
  { unfold add_item. cbn [length]. replace (MAX_MATERIALIZATIONS <? length k * 1) with false.
    2:{ symmetry. apply Nat.ltb_ge. unfold MAX_MATERIALIZATIONS. nia. }
    f_equal. cbn [repeat concat]. rewrite app_nil_r. clear. induction k as [|x k IH]; [reflexivity|]. cbn in *. rewrite IH. reflexivity. }
  rewrite H1. unfold add_item. rewrite map_length.
  replace (MAX_MATERIALIZATIONS <? length k * length k) with false.
  2:{ symmetry. apply Nat.ltb_ge. unfold MAX_MATERIALIZATIONS. rewrite Hk. lia. }
  assert (H2 : map (fun x : list type * type => fst x ++ [snd x]) (combine (concat (repeat (map (fun x => [x]) k) (length k))) (concat (repeat k (length k))))
    = concat (repeat (map (fun x => [x; x]) k) (length k))).
  { generalize (length k). intros n; induction n as [|n IH]; [reflexivity|]. cbn [repeat concat].
    assert (Hc : forall (a : list (list type)) (b : list type) a' b', length a = length b -> combine (a ++ a') (b ++ b') = combine a b ++ combine a' b').
    { intros a; induction a as [|x a IHa]; intros [|y b] a' b' Hl; try discriminate Hl; [reflexivity|]. cbn. rewrite IHa; [reflexivity|]. injection Hl; auto. }
    rewrite Hc by apply map_length. rewrite map_app, IH. f_equal. clear. induction k as [|x k IH]; [reflexivity|]. cbn in *. rewrite IH. reflexivity. }
  rewrite H2, copies_length, map_length, Hk.
  destruct (S (length us) * S (length us) <=? 1) eqn:E.
  { apply Nat.leb_le in E. destruct us; [congruence|cbn in E; lia]. }
  eexists. split; [reflexivity|]. intros t. rewrite in_map_iff. split.
  - intros [c [<- Hc]]. apply in_copies in Hc. apply in_map_iff in Hc. destruct Hc as [x [<- Hx]]. exists x; auto.
  - intros [x [Hx ->]]. exists [x; x]. split; [reflexivity|]. cbn [repeat concat]. apply in_or_app. left. apply in_map_iff. exists x; auto.
Qed.

(** ** A small world: classes 0, 1, 2, ... with one value each *)
Definition one_value (n : N) (v : value) : Prop := v = Other n.
Definition no_class (d : nat) (t : type) (v : value) : Prop := False.
Notation small := (value_of one_value no_class).

Definition small_fits (t s : type) : bool :=
  type_eqb t s ||
  match s with
  | Any => true
  | OverloadTypes.Union v vs => match t with OverloadTypes.Union u us => forallb (fun x => existsb (type_eqb x) (u :: us)) (v :: vs) | _ => false end
  | _ => match t with OverloadTypes.Union u us => existsb (type_eqb s) (u :: us) | _ => false end
  end.
Definition small_any (v : variant) (args : list argument) : option (list (nat * type)) :=
  match args, v_params v with
  | a :: _, p :: _ => match a_value a, p_type p with Any, Some t => Some [(a_index a, t)] | _, _ => None end
  | _, _ => None
  end.
Definition yes (v : variant) (args : list argument) : bool := true.
Definition no (v : variant) (args : list argument) : bool := false.
Definition small_union (s t : type) : type := OverloadTypes.Union s [t].

Notation small_resolve := (resolve small_fits small_any yes no no type_eqb small_union true).
Notation small_match := (OverloadCall.match_signature small_fits small_any yes no no).

Lemma type_eqb_eq : forall s t, type_eqb s t = true -> s = t.
Proof.
  assert (Hl : forall l, Forall (fun s => forall t, type_eqb s t = true -> s = t) l -> forall k,
    (fix all2 (l k : list type) : bool :=
         match l, k with [], [] => true | x :: l, y :: k => type_eqb x y && all2 l k | _, _ => false end) l k = true -> l = k).
  { intros l H; induction H as [|x l Hx H IH]; intros [|y k] E; try discriminate E; [reflexivity|].
    apply andb_prop in E. destruct E as [E1 E2]. rewrite (Hx y E1), (IH k E2). reflexivity. }
  intros s; induction s as [n| |b|e n|e n i|u us IHu IHus|s IH|l IH| |] using type_induction; intros t H; destruct t; try discriminate H; try reflexivity; cbn in H.
  - apply N.eqb_eq in H; congruence.
  - apply Bool.eqb_prop in H; congruence.
  - apply andb_prop in H. destruct H as [A B]. apply N.eqb_eq in A. apply Nat.eqb_eq in B. congruence.
  - apply andb_prop in H. destruct H as [A C]. apply andb_prop in A. destruct A as [A B].
    apply N.eqb_eq in A. apply Nat.eqb_eq in B, C. congruence.
  - apply andb_prop in H. destruct H as [A B]. rewrite (IHu _ A), (Hl us IHus _ B). reflexivity.
  - rewrite (IH _ H). reflexivity.
  - rewrite (Hl l IH _ H). reflexivity.
Qed.

Lemma small_fits_sound : forall t s v, static s -> small_fits t s = true -> small s v -> small t v.
Proof.
  intros t s v Hs H Hv. unfold small_fits in H. apply orb_prop in H. destruct H as [H|H].
  { apply type_eqb_eq in H. subst t. exact Hv. }
  assert (Hone : forall u us, existsb (type_eqb s) (u :: us) = true -> small (OverloadTypes.Union u us) v).
  { intros u us E. apply existsb_exists in E. destruct E as [x [Hx E]]. apply type_eqb_eq in E. subst x. apply has_union. exists s; auto. }
  destruct s; try (destruct t; try discriminate H; apply Hone; exact H); [|destruct Hs].
  destruct t; try discriminate H. apply has_union in Hv. destruct Hv as [x [Hx Hv]].
  rewrite forallb_forall in H. specialize (H x Hx). apply existsb_exists in H. destruct H as [y [Hy E]]. apply type_eqb_eq in E. subst y.
  apply has_union. exists x; auto.
Qed.

Lemma small_union_exact : forall s t v, small (small_union s t) v <-> small s v \/ small t v.
Proof.
  intros s t v. unfold small_union. split.
  - intros H. apply has_union in H. destruct H as [x [[<-|[<-|[]]] Hx]]; auto.
  - intros [H|H]; apply has_union; [exists s|exists t]; cbn; auto.
Qed.

Definition int := Class 0.
Definition str := Class 1.
Definition bytes := Class 2.
Definition int_or_str := OverloadTypes.Union int [str].
Definition typed (k : kind) (n : N) (t : type) : param type := mk_param k (Some n) false (Some t).
Definition f1 (t r : type) : variant := mk_variant [typed PositionalOrKeyword 1 t] r false.

(** Overloads for [tuple[int, int]] and [tuple[str, str]] accept a [tuple[int | str, int | str]]. *)
Theorem C51_tuple_refuted : exists vs c0 w, distinct_names c0 /\
  (forall v, In v vs -> signature (v_params v) /\ ~ collides (v_params v) c0) /\
  Forall static (by_position c0) /\ by_name c0 = [] /\
  ~ reported small_match Unknown vs (arguments_of c0) (small_resolve Unknown vs (arguments_of c0)) /\
  of_types small c0 w /\ forall v, In v vs -> ~ accepts small (v_params v) w.
Proof.
  exists [f1 (Tuple [int; int]) int; f1 (Tuple [str; str]) str], (mk_call [Tuple [int_or_str; int_or_str]] []),
    (mk_call [TupleValue [Other 0; Other 1]] []).
  split; [constructor|]. split.
  { intros v Hv. split.
    - destruct Hv as [<-|[<-|[]]]; apply signature_check; reflexivity.
    - intros [i [p [n [_ [_ [_ [_ []]]]]]]]. }
  split; [repeat constructor|]. split; [reflexivity|]. split.
  { intros [H|[i [H _]]]; vm_compute in H; [apply H; reflexivity|discriminate H]. }
  split.
  { split; [|constructor]. constructor; [|constructor]. apply has_tuple. eexists. split; [reflexivity|].
    constructor; [left; reflexivity|]. constructor; [right; left; reflexivity|constructor]. }
  intros v Hv [A _ _ _]. destruct (A 0 _ eq_refl) as [j [[p [Hp [[_ <-]|[Hk _]]]] [q [Hq Ht]]]].
  - destruct Hv as [<-|[<-|[]]]; cbn in Hq; injection Hq as <-; specialize (Ht _ eq_refl); apply has_tuple in Ht; destruct Ht as [l [E Ht]];
      injection E as <-; inversion Ht as [|x y l1 l2 Hx Hr]; subst; inversion Hr as [|x y l1 l2 Hy _]; subst; [discriminate Hy|discriminate Hx].
  - destruct Hv as [<-|[<-|[]]]; destruct j as [|[|j]]; try discriminate Hp; injection Hp as <-; discriminate Hk.
Qed.

(** The members of [tuple[bool]] would be tried, and each is taken by an overload, but they are not tried. *)
Theorem C51_tried_refuted : exists vs c0,
  (forall v, In v vs -> signature (v_params v)) /\
  taken_apart small_match (fun _ a => Some (a_value a)) maybe_union_like_with_materializations override Unknown vs (arguments_of c0) /\
  reported small_match Unknown vs (arguments_of c0) (small_resolve Unknown vs (arguments_of c0)).
Proof.
  exists [f1 (Tuple [BoolLiteral true]) int; f1 (Tuple [BoolLiteral false]) str], (mk_call [Tuple [Bool]] []).
  split; [intros v [<-|[<-|[]]]; apply signature_check; reflexivity|]. split.
  - split.
    + exists 1. split; [|lia]. eapply a_union; [reflexivity|reflexivity|constructor].
    + intros args' H. inversion H as [|a b l1 l2 Hab Hl]; subst. inversion Hl; subst. unfold chosen in Hab. cbn in Hab.
      destruct Hab as [u [[<-|[<-|[]]] ->]]; eexists.
      * split; [left; reflexivity|vm_compute; exact I].
      * split; [right; left; reflexivity|vm_compute; exact I].
  - left. vm_compute. discriminate.
Qed.

(** A type that has members is tried member by member, also in [type[...]]; a tuple is only tried if one of its items is a union. *)
Theorem C51_tried_partial : forall t us, maybe_union_like_with_materializations t = Some us ->
  (forall items, t = Tuple items -> exists x l, In x items /\ maybe_union_like x = Some l) -> should_do_union_math t = true.
Proof.
  assert (L : forall t l, maybe_union_like t = Some l -> is_union_like t = true).
  { intros t; induction t as [| | | | | |t IH| | |] using type_ind; intros l H; try discriminate H; [reflexivity|].
    cbn in *. destruct (maybe_union_like t) as [k|]; [exact (IH k eq_refl)|discriminate H]. }
  intros t us H Ht. destruct (maybe_union_like t) as [l|] eqn:E.
  - unfold should_do_union_math. rewrite (L t l E). reflexivity.
  - unfold should_do_union_math. destruct t; cbn in H, E; try rewrite E in H; try discriminate; try reflexivity; try (apply orb_true_r).
    destruct (Ht _ eq_refl) as [x [l [Hx Hl]]]. apply existsb_exists. exists x. split; [exact Hx|exact (L x l Hl)].
Qed.

(** [type[int | str]] has members. *)
Example C51_tried_case : maybe_union_like_with_materializations (TypeOf (OverloadTypes.Union int [str])) = Some [TypeOf int; TypeOf str].
Proof. reflexivity. Qed.

(** A keyword argument that is a union: its name is lost.  Each member alone is accepted, but not the union. *)
Definition kw (t : type) : variant := mk_variant [typed KeywordOnly 1 t] t false.
Theorem C51_keyword_refuted : let vs := [kw int; kw str] in let call t := arguments_of (mk_call [] [(1%N, t)]) in
  (forall v, In v vs -> signature (v_params v)) /\
  (forall t, In t [int; str] -> ~ reported small_match Unknown vs (call t) (small_resolve Unknown vs (call t))) /\
  reported small_match Unknown vs (call int_or_str) (small_resolve Unknown vs (call int_or_str)).
Proof.
  cbv zeta. split; [intros v [<-|[<-|[]]]; apply signature_check; reflexivity|]. split.
  - intros t Ht [H|[i [H Hn]]]; destruct Ht as [<-|[<-|[]]]; vm_compute in H; try (apply H; reflexivity); injection H as <-; apply Hn;
      eexists; (split; [reflexivity|]); (split; [vm_compute; exact I|reflexivity]).
  - left. vm_compute. discriminate.
Qed.

(** [def f(a: int | bytes, b: str | ...)] as four overloads and [f(b=x, a=y)] with the types exchanged: accepted. *)
Definition ab (s t : type) : variant := mk_variant [typed PositionalOrKeyword 1 s; typed PositionalOrKeyword 2 t] s false.
Theorem C51_names_refuted : exists vs c0 w, distinct_names c0 /\
  (forall v, In v vs -> signature (v_params v) /\ ~ collides (v_params v) c0) /\ by_position c0 = [] /\ Forall static (map snd (by_name c0)) /\
  ~ reported small_match Unknown vs (arguments_of c0) (small_resolve Unknown vs (arguments_of c0)) /\
  of_types small c0 w /\ forall v, In v vs -> ~ accepts small (v_params v) w.
Proof.
  exists [ab int str; ab int (Class 3); ab bytes str; ab bytes (Class 3)],
    (mk_call [] [(2%N, OverloadTypes.Union int [bytes]); (1%N, OverloadTypes.Union str [Class 3])]),
    (mk_call [] [(2%N, Other 0); (1%N, Other 1)]).
  split; [repeat constructor; cbn; intros H; repeat (destruct H as [H|H]; try discriminate H); exact H|]. split.
  { intros v Hv. split.
    - destruct Hv as [<-|[<-|[<-|[<-|[]]]]]; apply signature_check; reflexivity.
    - intros [i [p [n [Hi _]]]]. cbn in Hi. lia. }
  split; [reflexivity|]. split; [repeat constructor|]. split.
  { intros [H|[i [H _]]]; vm_compute in H; [apply H; reflexivity|discriminate H]. }
  split.
  { split; [constructor|]. constructor; [split; [reflexivity|left; reflexivity]|]. constructor; [split; [reflexivity|left; reflexivity]|constructor]. }
  intros v Hv [_ B _ _]. destruct (B 2%N (Other 0) (or_introl eq_refl)) as [j [[p [Hp Hn]] [q [Hq Ht]]]].
  rewrite Hq in Hp. injection Hp as <-.
  assert (Hj : j = 1).
  { destruct Hn as [[_ Hn]|[Hk _]]; destruct Hv as [<-|[<-|[<-|[<-|[]]]]]; destruct j as [|[|j]]; try reflexivity;
      cbn in Hq; try (destruct j; discriminate Hq); injection Hq as <-; first [discriminate Hn|discriminate Hk]. }
  subst j. destruct Hv as [<-|[<-|[<-|[<-|[]]]]]; cbn in Hq; injection Hq as <-; specialize (Ht _ eq_refl); discriminate Ht.
Qed.

(** [f( *xs)] with [xs: list[int | str]]: the members are tried as one positional argument.  Overloads [f( *a: int)] and [f( *a: str)]
    accept it, but neither takes the list [[1, ""]]. *)
Definition star (t : type) : variant := mk_variant [typed Star 1 t] t false.
Theorem C51_star_refuted : let vs := [star int; star str] in let args := [mk_arg 0 ManyPositional false int_or_str] in
  (forall v, In v vs -> signature (v_params v)) /\
  ~ reported small_match Unknown vs args (small_resolve Unknown vs args) /\
  exists l, Forall (small int_or_str) l /\ forall v, In v vs -> ~ accepts small (v_params v) (mk_call l []).
Proof.
  cbv zeta. split; [intros v [<-|[<-|[]]]; apply signature_check; reflexivity|]. split.
  { intros [H|[i [H _]]]; vm_compute in H; [apply H; reflexivity|discriminate H]. }
  exists [Other 0; Other 1]. split; [constructor; [left; reflexivity|]; constructor; [right; left; reflexivity|constructor]|].
  intros v Hv [A _ _ _].
  destruct Hv as [<-|[<-|[]]].
  - destruct (A 1 _ eq_refl) as [j [_ [q [Hq Ht]]]]. destruct j as [|[|j]]; try discriminate Hq. injection Hq as <-.
    specialize (Ht _ eq_refl). discriminate Ht.
  - destruct (A 0 _ eq_refl) as [j [_ [q [Hq Ht]]]]. destruct j as [|[|j]]; try discriminate Hq. injection Hq as <-.
    specialize (Ht _ eq_refl). discriminate Ht.
Qed.

(** An argument of type Any, and overloads that return [int | str] and [int | str | bytes]: the type of the call is [int | str] (when
    mypy is imitated), although the second overload may be the one that is executed. *)
Theorem C51_fallback_refuted : exists vs args t v x,
  ~ reported small_match Unknown vs args (small_resolve Unknown vs args) /\
  result_type type_eqb true vs (fst (small_resolve Unknown vs args)) = Some t /\
  In v vs /\ takes small_match Unknown v args /\ small (v_return v) x /\ ~ small t x.
Proof.
  exists [f1 int int_or_str; f1 str (OverloadTypes.Union int [str; bytes])], (arguments_of (mk_call [Any] [])), int_or_str,
    (f1 str (OverloadTypes.Union int [str; bytes])), (Other 2).
  split; [intros [H|[i [H _]]]; vm_compute in H; [apply H; reflexivity|discriminate H]|].
  split; [vm_compute; reflexivity|]. split; [right; left; reflexivity|]. split; [vm_compute; exact I|].
  split; [right; right; left; reflexivity|]. intros [H|[H|[]]]; discriminate H.
Qed.

(** ** Cases *)

(** Two arguments that are unions or bools and one by name; the result is the union of the four results. *)
Definition three (s t r : type) : variant :=
  mk_variant [typed PositionalOnly 1 s; typed PositionalOrKeyword 2 t; typed KeywordOnly 3 bytes] r false.
Definition three_variants : list variant :=
  [three int (BoolLiteral true) int; three int (BoolLiteral false) str; three str (OverloadTypes.Union (BoolLiteral true) [BoolLiteral false]) bytes].
Definition three_call : call type := mk_call [int_or_str; Bool] [(3%N, bytes)].

Example C51_sound_sample : distinct_names three_call /\
  (forall v, In v three_variants -> signature (v_params v) /\ ~ collides (v_params v) three_call) /\
  Forall regular (by_position three_call) /\ Forall static (by_position three_call) /\ Forall static (map snd (by_name three_call)) /\
  (forall n t, In (n, t) (by_name three_call) -> maybe_union_like_with_materializations t = None).
Proof.
  split; [repeat constructor; intros []|]. split.
  { intros v Hv. split.
    - destruct Hv as [<-|[<-|[<-|[]]]]; apply signature_check; reflexivity.
    - intros [i [p [n [_ [Hp [Hk [Hn [E|[]]]]]]]]]. cbn in E. subst n.
      destruct Hv as [<-|[<-|[<-|[]]]]; destruct i as [|[|[|i]]]; cbn in Hp; try (destruct i; discriminate Hp); injection Hp as <-;
        first [discriminate Hk|discriminate Hn]. }
  split; [repeat constructor|]. split; [repeat constructor|]. split; [repeat constructor|].
  intros n t [[= <- <-]|[]]. reflexivity.
Qed.

(** What the theorem then says, and the result *)
Example C51_sound_case :
  small_resolve Unknown three_variants (arguments_of three_call) =
    (OverloadModel.Union (small_union (small_union Never (small_union (small_union Never int) str))
       (small_union (small_union Never bytes) bytes)), []) /\
  forall w, of_types small three_call w -> exists v, In v three_variants /\ accepts small (v_params v) w.
Proof.
  split; [vm_compute; reflexivity|]. intros w Hw. destruct C51_sound_sample as [A [B [C [D [E F]]]]].
  destruct (C51_sound_partial one_value no_class small_fits small_any yes no no type_eqb small_union true small_fits_sound small_union_exact
    Unknown three_variants three_call w A B C D E F) as [v [Hv [Ha _]]].
  - intros [H|[i [H _]]]; vm_compute in H; [apply H; reflexivity|discriminate H].
  - exact Hw.
  - exists v; auto.
Qed.

(** A tuple with all combinations: [tuple[bool, int | str | bytes]] *)
Example C51_regular_case : regular (Tuple [Bool; OverloadTypes.Union int [str; bytes]]) /\
  option_map (@length type) (maybe_union_like_with_materializations (Tuple [Bool; OverloadTypes.Union int [str; bytes]])) = Some 6.
Proof.
  split; [|reflexivity]. apply regular_items. split; [repeat constructor|].
  intros i j t u us vs Hij Hi Hj Ht Hu. destruct i as [|[|i]], j as [|[|j]]; try lia; cbn in Hi, Hj; try (destruct j; discriminate Hj); try (destruct i; discriminate Hi).
  injection Hi as <-. injection Hj as <-. injection Ht as <-. injection Hu as <-. reflexivity.
Qed.

(** The first variant that takes the arguments; with Any the first, if the results are the same; else none. *)
Example C51_choice_cases :
  small_resolve Unknown [f1 str int; f1 int str; f1 int_or_str bytes] (arguments_of (mk_call [int] [])) = (Single 1, []) /\
  small_resolve Unknown [f1 str int; f1 int int] (arguments_of (mk_call [Any] [])) = (Single 0, []) /\
  small_resolve Unknown [f1 str int; f1 int str] (arguments_of (mk_call [Any] [])) = (NotFound, []) /\
  small_resolve (Explicit int) [f1 str int; f1 int str] (arguments_of (mk_call [bytes] [])) = (NotFound, [OverloadMismatch]).
Proof. vm_compute. refine (conj eq_refl (conj eq_refl (conj eq_refl eq_refl))). Qed.

(** Five unions are too many. *)
Definition five (t : type) : variant := mk_variant [typed Star 1 t] t false.
Example C51_too_many_case :
  small_resolve Unknown [five int; five str] (arguments_of (mk_call [int_or_str; int_or_str; int_or_str; int_or_str; int_or_str] [])) =
    (NotFound, [OverloadTooManyUnions; OverloadMismatch]).
Proof. vm_compute. reflexivity. Qed.

(** A fallback of tuples: [tuple[int, str]] and [tuple[int, bytes]] give [tuple[int, Any]]. *)
Example C51_fallback_case : Forall no_unions [Tuple [int; str]; Tuple [int; bytes]] /\
  fallback type_eqb true [Tuple [int; str]; Tuple [int; bytes]] = Some (Tuple [int; Any]).
Proof. split; [repeat constructor|reflexivity]. Qed.

Print Assumptions C51_sound_partial.
Print Assumptions C51_members_partial.
Print Assumptions C51_fallback_partial.
Print Assumptions C51_pairs_refuted.
Print Assumptions C51_tuple_refuted.
Print Assumptions C51_tried_refuted.
Print Assumptions C51_tried_partial.
Print Assumptions C51_keyword_refuted.
Print Assumptions C51_names_refuted.
Print Assumptions C51_star_refuted.
Print Assumptions C51_fallback_refuted.
Print Assumptions C51_plain.
Print Assumptions C51_any.
Print Assumptions C51_any_undecided.
Print Assumptions C51_unhandled.
Print Assumptions C51_reported.
Print Assumptions C51_result.
Print Assumptions C51_union.
Print Assumptions C51_no_panic.
Print Assumptions C51_message.
