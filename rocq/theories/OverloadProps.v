(** C51: calls of overloaded functions (the choice of the variant). *)
From Coq Require Import List Arith Bool Lia.
From Verif Require Import OverloadModel OverloadSpec OverloadProofs OverloadMath.
Import ListNotations.

Section Choice.
Variables (expected arg ty variant : Type).
Variable match_signature : context expected -> variant -> list arg -> signature_match ty * bool.
Variables (return_type : variant -> ty) (has_guard : variant -> bool).
Variables (type_eqb is_equal_type : ty -> ty -> bool).
Variable infer : context expected -> arg -> option ty.
Variable union_like : ty -> option (list ty).
Variable override : arg -> ty -> arg.
Variables (any_type never : ty) (simplified_union : ty -> ty -> ty).
Variable as_union_math_type : context expected -> variant -> list arg -> ty.
Variable worth_splitting : arg -> bool.
Variable mypy_compatible : bool.

Notation rounds := (rounds _ _ _ _ match_signature return_type has_guard type_eqb is_equal_type).
Notation check := (check_union_math _ _ _ _ match_signature infer union_like override any_type never simplified_union as_union_math_type).
Notation search_with := (search_with _ _ _ _ match_signature return_type has_guard type_eqb is_equal_type infer union_like override
  any_type never simplified_union as_union_math_type worth_splitting mypy_compatible).
Notation find := (find_matching_function _ _ _ _ match_signature return_type has_guard type_eqb is_equal_type infer union_like override
  any_type never simplified_union as_union_math_type worth_splitting mypy_compatible).
Notation accepted := (accepted match_signature).
Notation nearly := (nearly match_signature).
Notation plain := (plain match_signature).
Notation by_any := (by_any match_signature).
Notation takes := (takes match_signature).
Notation conflicts := (conflicts match_signature return_type has_guard (fun t u => type_eqb t u = true) (fun t u => is_equal_type t u = true)).
Notation taken_apart := (taken_apart match_signature infer union_like override).
Notation choice := (choice infer union_like override).
Notation reported := (reported match_signature).

Lemma plain_range : forall c vs args j, plain c vs args j -> j < length vs.
Proof. intros c vs args j [_ [v [H _]]]. apply nth_error_Some. rewrite H. discriminate. Qed.
Lemma accepted_range : forall c vs args j, accepted c vs args j -> j < length vs.
Proof. intros c vs args j [v [H _]]. apply nth_error_Some. rewrite H. discriminate. Qed.
Lemma nearly_range : forall c vs args j, nearly c vs args j -> j < length vs.
Proof. intros c vs args j [v [H _]]. apply nth_error_Some. rewrite H. discriminate. Qed.
Lemma plain_not_any : forall c vs args j, plain c vs args j -> ~ by_any c vs args j.
Proof.
  intros c vs args j [_ [v [Hv Hf]]] [_ [w [l [Hw Hl]]]]. rewrite Hv in Hw. injection Hw as <-. rewrite Hf in Hl. discriminate Hl.
Qed.

Lemma find_decided : forall c vs args r l, search_with c vs args = (inl r, l) -> find c vs args = (r, l).
Proof. intros c vs args r l H. unfold find_matching_function. rewrite H. reflexivity. Qed.

(** The first variant that simply takes the arguments is used. *)
Theorem C51_plain : forall c vs args k, least (plain c vs args) k -> (forall j, j < k -> ~ by_any c vs args j) ->
  find c vs args = (Single k, []).
Proof.
  intros c vs args k [Hp Hl] Hn. apply find_decided. unfold OverloadModel.search_with.
  pose proof (rounds_all _ _ _ _ match_signature return_type has_guard type_eqb is_equal_type c args vs) as H.
  destruct (rounds c args 0 vs (mk_search ty variant None None None None)) as [r|s].
  - destruct H as [m [Hm [Hb Hr]]]. destruct r as [i|t| |].
    + destruct Hr as [-> [Hpm Hnm]]. destruct (Nat.lt_trichotomy m k) as [Hx|[->|Hx]]; [exfalso; exact (Hl m Hx Hpm)|reflexivity|exfalso; exact (Hb k Hx Hp)].
    + destruct Hr.
    + destruct Hr as [i [Hi [[Hia _] _]]]. exfalso.
      destruct (Nat.lt_trichotomy k m) as [Hx|[Hx|Hx]]; [exact (Hb k Hx Hp)| |apply (Hn i); [lia|exact Hia]].
      subst m. exact (Hn i Hi Hia).
    + destruct Hr.
  - exfalso. exact (la_plain _ _ _ _ _ _ _ _ _ _ _ _ _ _ H k (plain_range _ _ _ _ Hp) Hp).
Qed.

(** The first that takes them because of an Any is used, if no later one is a reason not to decide ... *)
Theorem C51_any : forall c vs args i, least (by_any c vs args) i -> (forall j, j < i -> ~ plain c vs args j) ->
  (forall j, i < j -> ~ conflicts c vs args i j) -> find c vs args = (Single i, []).
Proof.
  intros c vs args i [Hi Hl] Hn Hc. apply find_decided. unfold OverloadModel.search_with.
  pose proof (rounds_all _ _ _ _ match_signature return_type has_guard type_eqb is_equal_type c args vs) as H.
  assert (Hafter : forall m, i < m -> ~ plain c vs args m).
  { intros m Hm Hp. apply (Hc m Hm). split; [exact (proj1 Hp)|]. destruct Hi as [_ [v [l [Hv Hf]]]]. destruct Hp as [_ [w [Hw Hg]]].
    exists v, w, l. rewrite Hg. refine (conj Hv (conj Hw (conj Hf I))). }
  destruct (rounds c args 0 vs (mk_search ty variant None None None None)) as [r|s].
  - exfalso. destruct H as [m [Hm [Hb Hr]]]. destruct r as [k|t| |]; try exact Hr.
    + destruct Hr as [-> [Hpm Hnm]]. destruct (Nat.lt_trichotomy m i) as [Hx|[Hx|Hx]].
      * exact (Hn m Hx Hpm).
      * subst m. exact (plain_not_any _ _ _ _ Hpm Hi).
      * exact (Hafter m Hx Hpm).
    + destruct Hr as [k [Hk [Hlk Hcf]]]. assert (k = i) by (apply (least_unique (by_any c vs args)); [exact Hlk|split; assumption]). subst k.
      exact (Hc m Hk Hcf).
  - pose proof (la_any _ _ _ _ _ _ _ _ _ _ _ _ _ _ H) as Ha.
    destruct (multi_any_match _ _ s) as [[[k v] l]|].
    + destruct Ha as [_ [_ [_ [Hk _]]]]. assert (k = i) by (apply (least_unique (by_any c vs args)); [exact Hk|split; assumption]). subst k. reflexivity.
    + exfalso. exact (Ha i (accepted_range _ _ _ _ (proj1 Hi)) Hi).
Qed.

(** ... else nothing is decided, and nothing is reported. *)
Theorem C51_any_undecided : forall c vs args i j, least (by_any c vs args) i -> (forall j, j < i -> ~ plain c vs args j) ->
  i < j -> conflicts c vs args i j -> find c vs args = (NotFound, []).
Proof.
  intros c vs args i j [Hi Hl] Hn Hij Hc. apply find_decided. unfold OverloadModel.search_with.
  pose proof (rounds_all _ _ _ _ match_signature return_type has_guard type_eqb is_equal_type c args vs) as H.
  destruct (rounds c args 0 vs (mk_search ty variant None None None None)) as [r|s].
  - destruct H as [m [Hm [Hb Hr]]]. destruct r as [k|t| |]; try (exfalso; exact Hr).
    + destruct Hr as [-> [Hpm Hnm]]. exfalso. destruct (Nat.lt_trichotomy m i) as [Hx|[Hx|Hx]].
      * exact (Hn m Hx Hpm).
      * subst m. exact (plain_not_any _ _ _ _ Hpm Hi).
      * exact (Hnm i Hx Hi).
    + reflexivity.
  - exfalso. pose proof (la_any _ _ _ _ _ _ _ _ _ _ _ _ _ _ H) as Ha.
    destruct (multi_any_match _ _ s) as [[[k v] l]|].
    + destruct Ha as [_ [_ [_ [Hk Hcs]]]]. assert (k = i) by (apply (least_unique (by_any c vs args)); [exact Hk|split; assumption]). subst k.
      exact (Hcs j Hij (accepted_range _ _ _ _ (proj1 Hc)) Hc).
    + exact (Ha i (accepted_range _ _ _ _ (proj1 Hi)) Hi).
Qed.

(** A variant that leaves the rest of a [*xs] or [**kws] aside is used if there is no other. *)
Theorem C51_unhandled : forall c vs args i, least (accepted c vs args) i ->
  (forall j, ~ plain c vs args j) -> (forall j, ~ by_any c vs args j) -> find c vs args = (Single i, []).
Proof.
  intros c vs args i Hi Hp Hn. apply find_decided. unfold OverloadModel.search_with.
  pose proof (rounds_all _ _ _ _ match_signature return_type has_guard type_eqb is_equal_type c args vs) as H.
  destruct (rounds c args 0 vs (mk_search ty variant None None None None)) as [r|s].
  - exfalso. destruct H as [m [Hm [Hb Hr]]]. destruct r as [k|t| |]; try exact Hr.
    + destruct Hr as [-> [Hpm _]]. exact (Hp m Hpm).
    + destruct Hr as [k [_ [[Hk _] _]]]. exact (Hn k Hk).
  - pose proof (la_any _ _ _ _ _ _ _ _ _ _ _ _ _ _ H) as Ha. pose proof (la_arbitrary _ _ _ _ _ _ _ _ _ _ _ _ _ _ H) as Hr.
    destruct (multi_any_match _ _ s) as [[[k v] l]|].
    + exfalso. destruct Ha as [_ [_ [_ [[Hk _] _]]]]. exact (Hn k Hk).
    + destruct (first_arbitrary_length_not_handled _ _ s) as [k|].
      * rewrite (least_unique (accepted c vs args) k i (proj2 Hr) Hi). reflexivity.
      * exfalso. exact (Hn i (Hr i (accepted_range _ _ _ _ (proj1 Hi)) (proj1 Hi))).
Qed.

Hypothesis members_exist : forall t us, union_like t = Some us -> us <> [].
Variable below : ty -> ty -> Prop.
Hypothesis below_refl : forall a, below a a.
Hypothesis below_trans : forall a b c, below a b -> below b c -> below a c.
Hypothesis never_below : forall a, below never a.
Hypothesis union_left : forall a b, below a (simplified_union a b).
Hypothesis union_right : forall a b, below b (simplified_union a b).
Hypothesis union_least : forall a b c, below a c -> below b c -> below (simplified_union a b) c.

(** Are the members of unions tried? *)
Definition tried (c : context expected) (vs : list variant) (args : list arg) : Prop :=
  (exists a, In a args /\ worth_splitting a = true) /\ (mypy_compatible = true -> forall i, ~ nearly c vs args i).

(** The type for all choices of members: above the result of the first variant for each, and no bigger. *)
Definition result_for (c : context expected) (vs : list variant) (args : list arg) (t : ty) : Prop :=
  (forall args', choice c args args' -> exists v, first_taking match_signature c vs args' v /\ below (as_union_math_type c v args') t) /\
  (forall b, (forall args' v, choice c args args' -> first_taking match_signature c vs args' v -> below (as_union_math_type c v args') b) -> below t b).

(** There are five unions or more. *)
Definition too_many (c : context expected) (args : list arg) : Prop := exists n, unions infer union_like c args n /\ 5 <= n.

(** The variant named in the error message: the nearest to some choice of members, if these
    are tried and any is near; else the first that nearly takes the arguments. *)
Definition near (c : context expected) (vs : list variant) (args : list arg) (i : nat) : Prop :=
  exists args', choice c args args' /\ nearest match_signature c vs args' i.
Definition to_blame (c : context expected) (vs : list variant) (args : list arg) (o : option nat) : Prop :=
  tried c vs args /\ ~ too_many c args /\ (exists i, o = Some i /\ least (near c vs args) i) \/
  (tried c vs args -> too_many c args \/ forall i, ~ near c vs args i) /\
    match o with Some i => least (nearly c vs args) i | None => forall i, ~ nearly c vs args i end.

(** What the search with one context leads to. *)
Definition searched (c : context expected) (vs : list variant) (args : list arg) (r : (overload_result ty + search ty variant) * list issue) : Prop :=
  (exists k, accepted c vs args k) /\ snd r = [] /\
    (fst r = inl NotFound \/ exists i, fst r = inl (Single i) /\ accepted c vs args i) \/
  (forall k, ~ accepted c vs args k) /\ tried c vs args /\ taken_apart c vs args /\ snd r = [] /\
    (exists t, fst r = inl (Union t) /\ result_for c vs args t) \/
  (forall k, ~ accepted c vs args k) /\ ~ (tried c vs args /\ taken_apart c vs args) /\
    (tried c vs args /\ too_many c args /\ snd r = [OverloadTooManyUnions] \/ ~ (tried c vs args /\ too_many c args) /\ snd r = []) /\
    exists s, fst r = inr s /\ to_blame c vs args (first_similar _ _ s) /\
      match had_error_in_func _ _ s with
      | Some i => exists v, nth_error vs i = Some v /\ snd (match_signature c v args) = true
      | None => forall v, In v vs -> snd (match_signature c v args) = false
      end.

Lemma unions_unique : forall c args n, unions infer union_like c args n -> forall m, unions infer union_like c args m -> m = n.
Proof.
  intros c args n Hu. induction Hu as [|a args t us n Ei Eu Hu IH|a args n Hn Hu IH]; intros m Hm;
    inversion Hm as [|a' args' t' us' m' Ei' Eu' Hm'|a' args' m' Hn' Hm']; subst.
  - reflexivity.
  - f_equal. apply IH; assumption.
  - exfalso. rewrite (Hn' t Ei) in Eu. discriminate Eu.
  - exfalso. rewrite (Hn t' Ei') in Eu'. discriminate Eu'.
  - apply IH; assumption.
Qed.

Lemma search_spec : forall c vs args, searched c vs args (search_with c vs args).
Proof.
  intros c vs args. unfold searched, OverloadModel.search_with.
  pose proof (rounds_all _ _ _ _ match_signature return_type has_guard type_eqb is_equal_type c args vs) as H.
  destruct (rounds c args 0 vs (mk_search ty variant None None None None)) as [r|s].
  - left. cbn [fst snd]. destruct H as [m [Hm [Hb Hr]]]. destruct r as [k|t| |]; try (exfalso; exact Hr).
    + destruct Hr as [-> [Hpm _]]. refine (conj (ex_intro _ m (proj1 Hpm)) (conj eq_refl (or_intror _))). exists m. split; [reflexivity|exact (proj1 Hpm)].
    + destruct Hr as [i [_ [[Hi _] _]]]. refine (conj (ex_intro _ i (proj1 Hi)) (conj eq_refl (or_introl eq_refl))).
  - pose proof (la_any _ _ _ _ _ _ _ _ _ _ _ _ _ _ H) as Ha. pose proof (la_arbitrary _ _ _ _ _ _ _ _ _ _ _ _ _ _ H) as Hr.
    pose proof (la_similar _ _ _ _ _ _ _ _ _ _ _ _ _ _ H) as Hs.
    destruct (multi_any_match _ _ s) as [[[k v] l]|].
    { left. destruct Ha as [_ [_ [_ [[Hk _] _]]]]. refine (conj (ex_intro _ k (proj1 Hk)) (conj eq_refl (or_intror _))). exists k. split; [reflexivity|exact (proj1 Hk)]. }
    destruct (first_arbitrary_length_not_handled _ _ s) as [k|].
    { left. destruct Hr as [_ [Hk _]]. refine (conj (ex_intro _ k Hk) (conj eq_refl (or_intror _))). exists k. split; [reflexivity|exact Hk]. }
    right. assert (Hno : forall k, ~ accepted c vs args k).
    { intros k Hk. pose proof (accepted_range _ _ _ _ Hk) as Hx. exact (Ha k Hx (Hr k Hx Hk)). }
    assert (Hsim : match first_similar _ _ s with Some i => least (nearly c vs args) i | None => forall i, ~ nearly c vs args i end).
    { destruct (first_similar _ _ s) as [i|]; [exact (proj2 Hs)|]. intros i Hi. exact (Hs i (nearly_range _ _ _ _ Hi) Hi). }
    assert (Herr : match had_error_in_func _ _ s with
      | Some i => exists v, nth_error vs i = Some v /\ snd (match_signature c v args) = true
      | None => forall v, In v vs -> snd (match_signature c v args) = false
      end).
    { pose proof (la_error _ _ _ _ _ _ _ _ _ _ _ _ _ _ H) as He. destruct (had_error_in_func _ _ s) as [i|]; [exact (proj2 He)|].
      intros v Hv. destruct (In_nth_error _ _ Hv) as [j Hj]. apply (He j v); [|exact Hj]. apply nth_error_Some. rewrite Hj. discriminate. }
    assert (Htried : (match first_similar _ _ s with None => true | Some _ => false end || negb mypy_compatible) && existsb worth_splitting args = true <-> tried c vs args).
    { rewrite andb_true_iff, orb_true_iff, existsb_exists. unfold tried. split.
      - intros [Hx Hw]. split; [exact Hw|]. intros Hmy i. destruct Hx as [Hx|Hx]; [|rewrite Hmy in Hx; discriminate Hx].
        destruct (first_similar _ _ s); [discriminate Hx|]. exact (Hsim i).
      - intros [Hw Hmy]. split; [|exact Hw]. destruct mypy_compatible; [|right; reflexivity]. left.
        destruct (first_similar _ _ s) as [i|]; [|reflexivity]. exfalso. exact (Hmy eq_refl i (proj1 Hsim)). }
    destruct ((match first_similar _ _ s with None => true | Some _ => false end || negb mypy_compatible) && existsb worth_splitting args).
    + assert (Ht : tried c vs args) by (apply Htried; reflexivity). clear Htried.
      destruct (unions_exist _ _ _ infer union_like c args) as [n Hu].
      destruct (Nat.lt_ge_cases n MAX_UNIONS) as [Hlt|Hge].
      * pose proof (check_few _ _ _ _ match_signature infer union_like override any_type never simplified_union as_union_math_type
          members_exist below below_refl below_trans never_below union_left union_right union_least c vs args n Hu [] 0 Hlt) as Hf.
        assert (Hmis : (exists x, (exists args', choice c args args' /\ x = [] ++ args') /\ nobody _ _ _ _ match_signature c vs x) ->
           ~ (tried c vs args /\ taken_apart c vs args)).
        { intros [x [[args' [Hc ->]] Hnb]] [_ [_ Hx]]. destruct (Hx args' Hc) as [v [Hv Hvt]]. exact (Hnb v Hv Hvt). }
        assert (Hfew : ~ too_many c args).
        { intros [m [Hm Hm5]]. rewrite (unions_unique c args n Hu m Hm) in Hm5. unfold MAX_UNIONS in Hlt. lia. }
        assert (Hnear : forall i, least_nearest _ _ _ _ match_signature c vs (fun x => exists args', choice c args args' /\ x = [] ++ args') i -> least (near c vs args) i).
        { intros i [[x [[args' [Hc ->]] Hi]] Hl]. split; [exists args'; split; [exact Hc|exact Hi]|].
          intros j Hj [args'' [Hc' Hi']]. specialize (Hl args'' j (ex_intro _ args'' (conj Hc' eq_refl)) Hi'). lia. }
        destruct (fst (check c vs args [] 0)) as [i|i t| | |]; cbn [fst snd].
        -- right. refine (conj Hno (conj (Hmis (proj1 Hf)) (conj _ _))); [right; split; [intros [_ Hx]; exact (Hfew Hx)|reflexivity]|].
           eexists. split; [reflexivity|]. cbn. split; [|exact Herr].
           left. refine (conj Ht (conj Hfew _)). exists i. split; [reflexivity|exact (Hnear i (proj2 Hf))].
        -- left. refine (conj Hno (conj Ht (conj _ (conj eq_refl _)))).
           ++ split; [exists n; split; [exact Hu|exact Hlt]|]. intros args' Hc. destruct Hf as [Hf _].
              destruct (Hf args' (ex_intro _ args' (conj Hc eq_refl))) as [v [[j [Hj [[w [Hw Hwt]] _]]] _]]. exists w.
              split; [exact (nth_error_In _ _ Hw)|exact Hwt].
           ++ exists t. split; [reflexivity|]. destruct Hf as [Hf [Hg _]]. split.
              ** intros args' Hc. exact (Hf args' (ex_intro _ args' (conj Hc eq_refl))).
              ** intros b Hb. apply Hg. intros x v [args' [Hc ->]]. exact (Hb args' v Hc).
        -- right. refine (conj Hno (conj (Hmis (proj1 Hf)) (conj _ _))); [right; split; [intros [_ Hx]; exact (Hfew Hx)|reflexivity]|].
           eexists. split; [reflexivity|]. split; [|exact Herr]. right. split; [|exact Hsim]. intros _. right.
           intros i [args' [Hc Hi]]. exact (proj2 Hf args' i (ex_intro _ args' (conj Hc eq_refl)) Hi).
        -- destruct Hf.
        -- destruct Hf.
      * rewrite (check_many _ _ _ _ match_signature infer union_like override any_type never simplified_union as_union_math_type
          members_exist c vs args n Hu [] 0 Hge). cbn [fst snd]. right.
        assert (Hmany : too_many c args) by (exists n; split; [exact Hu|exact Hge]).
        refine (conj Hno (conj _ (conj _ _))).
        -- intros [_ [[m [Hm Hm5]] _]]. rewrite (unions_unique c args n Hu m Hm) in Hm5. unfold MAX_UNIONS in Hge. lia.
        -- left. refine (conj Ht (conj Hmany eq_refl)).
        -- eexists. split; [reflexivity|]. split; [|exact Herr]. right. split; [intros _; left; exact Hmany|exact Hsim].
    + right. assert (Hnt : ~ tried c vs args) by (intros Ht; apply Htried in Ht; discriminate Ht).
      cbn [fst snd]. refine (conj Hno (conj _ (conj _ _))).
      * intros [Ht _]. exact (Hnt Ht).
      * right. split; [intros [Ht _]; exact (Hnt Ht)|reflexivity].
      * eexists. split; [reflexivity|]. split; [|exact Herr]. right. split; [intros Ht; exfalso; exact (Hnt Ht)|exact Hsim].
Qed.

(** The context changes nothing (it does not, for functions without type variables). *)
Definition no_effect (c : context expected) : Prop :=
  (forall v args, match_signature c v args = match_signature Unknown v args) /\ (forall a, infer c a = infer Unknown a).

Section NoEffect.
Variable c : context expected.
Hypothesis same : no_effect c.

Lemma takes_same : forall v args, takes c v args <-> takes Unknown v args.
Proof. intros v args; unfold OverloadSpec.takes. rewrite (proj1 same). reflexivity. Qed.
Lemma accepted_same : forall vs args i, accepted c vs args i <-> accepted Unknown vs args i.
Proof.
  intros vs args i; split; intros [v [Hv [Ht Hs]]]; exists v; (split; [exact Hv|]); (split; [apply takes_same; exact Ht|]).
  - rewrite <- (proj1 same). exact Hs.
  - rewrite (proj1 same). exact Hs.
Qed.
Lemma nearly_same : forall vs args i, nearly c vs args i <-> nearly Unknown vs args i.
Proof.
  intros vs args i; split; intros [v [Hv Ht]]; exists v; (split; [exact Hv|]).
  - rewrite <- (proj1 same). destruct Ht as [Ht|[Ht Hs]]; [left; exact Ht|right; split; [apply takes_same; exact Ht|exact Hs]].
  - rewrite (proj1 same). destruct Ht as [Ht|[Ht Hs]]; [left; exact Ht|right; split; [apply takes_same; exact Ht|exact Hs]].
Qed.
Lemma tried_same : forall vs args, tried c vs args <-> tried Unknown vs args.
Proof.
  intros vs args; unfold tried; split; intros [H1 H2]; (split; [exact H1|]); intros Hm i Hn; apply (H2 Hm i); apply nearly_same; exact Hn.
Qed.
Lemma choice_same : forall args args', choice c args args' <-> choice Unknown args args'.
Proof.
  intros args args'; split; intros H; induction H as [|a b l l' Hab H IH]; constructor; try exact IH; unfold chosen in *.
  - rewrite <- (proj2 same). exact Hab.
  - rewrite (proj2 same). exact Hab.
Qed.
Lemma unions_same : forall args n, unions infer union_like c args n <-> unions infer union_like Unknown args n.
Proof.
  intros args n; split; intros H; induction H as [|a args t us n Ei Eu H IH|a args n Hn H IH].
  - constructor.
  - rewrite (proj2 same) in Ei. exact (a_union _ _ _ _ _ _ a args t us n Ei Eu IH).
  - apply no_union; [|exact IH]. rewrite <- (proj2 same). exact Hn.
  - constructor.
  - rewrite <- (proj2 same) in Ei. exact (a_union _ _ _ _ _ _ a args t us n Ei Eu IH).
  - apply no_union; [|exact IH]. rewrite (proj2 same). exact Hn.
Qed.
Lemma apart_same : forall vs args, taken_apart c vs args <-> taken_apart Unknown vs args.
Proof.
  intros vs args; split; intros [[n [Hu Hn]] H]; (split; [exists n; split; [apply unions_same; exact Hu|exact Hn]|]); intros args' Hc.
  - destruct (H args' (proj2 (choice_same args args') Hc)) as [v [Hv Ht]]. exists v. split; [exact Hv|apply takes_same; exact Ht].
  - destruct (H args' (proj1 (choice_same args args') Hc)) as [v [Hv Ht]]. exists v. split; [exact Hv|apply takes_same; exact Ht].
Qed.
End NoEffect.

Lemma give_up_reported : forall c vs args s l, (forall k, ~ accepted c vs args k) ->
  let (r, l') := give_up ty variant s in reported c vs args (r, l ++ l').
Proof.
  intros c vs args s l H. unfold give_up. destruct (first_similar _ _ s) as [i|].
  - right. exists i. split; [reflexivity|exact (H i)].
  - left. cbn [snd]. destruct l; discriminate.
Qed.

(** Which calls are reported: those that no variant accepts, unless the members of unions are tried
    and some variant takes whatever members the arguments are. *)
Theorem C51_reported : forall c vs args, (has_explicit_type c = true -> no_effect c) ->
  (reported c vs args (find c vs args) <->
   (forall k, ~ accepted c vs args k) /\ ~ (tried c vs args /\ taken_apart c vs args)).
Proof.
  intros c vs args Hc. pose proof (search_spec c vs args) as H. unfold find_matching_function.
  destruct (search_with c vs args) as [r l]. unfold searched in H. cbn [fst snd] in H.
  destruct H as [[[k Hk] [-> Hr]]|[[Hno [Ht [Ha [-> [t [-> Hres]]]]]]|[Hno [Hn [Hl [s [-> [Hb He]]]]]]]].
  - split; [|intros [Hx _]; exfalso; exact (Hx k Hk)]. intros Hrep. exfalso.
    destruct Hr as [->|[i [-> Hi]]]; destruct Hrep as [Hx|[j [Hj Hx]]]; cbn [fst snd] in *; try (apply Hx; reflexivity); try discriminate Hj.
    injection Hj as <-. exact (Hx Hi).
  - split; [|intros [_ Hx]; exfalso; exact (Hx (conj Ht Ha))]. intros [Hx|[j [Hj _]]]; exfalso; cbn [fst snd] in *; [apply Hx; reflexivity|discriminate Hj].
  - split; [intros _; split; assumption|]. intros _.
    destruct (has_explicit_type c).
    + specialize (Hc eq_refl). pose proof (search_spec Unknown vs args) as H.
      destruct (search_with Unknown vs args) as [r' l']. unfold searched in H. cbn [fst snd] in H.
      destruct H as [[[k Hk] _]|[[_ [Ht [Ha _]]]|[Hno' [_ [_ [s' [-> _]]]]]]].
      * exfalso. apply (Hno k). apply (accepted_same c Hc). exact Hk.
      * exfalso. apply Hn. split; [apply (tried_same c Hc)|apply (apart_same c Hc)]; assumption.
      * pose proof (give_up_reported c vs args s' (l ++ l') Hno) as Hg. destruct (give_up ty variant s') as [r2 l2].
        rewrite <- app_assoc in Hg. exact Hg.
    + pose proof (give_up_reported c vs args s l Hno) as Hg. destruct (give_up ty variant s) as [r2 l2]. exact Hg.
Qed.

(** A union as the answer: the type for all choices of members. *)
Theorem C51_union : forall c vs args t, fst (find c vs args) = Union t ->
  exists c', (c' = c \/ c' = Unknown) /\ taken_apart c' vs args /\ result_for c' vs args t.
Proof.
  intros c vs args t. pose proof (search_spec c vs args) as H. unfold find_matching_function.
  destruct (search_with c vs args) as [r l]. unfold searched in H. cbn [fst snd] in H.
  assert (Hgive : forall s l, fst (let (r, l') := give_up ty variant s in (r, l ++ l')) = Union t -> False).
  { intros s l0. unfold give_up. destruct (first_similar _ _ s); cbn [fst]; discriminate. }
  destruct H as [[_ [_ [->|[i [-> _]]]]]|[[_ [_ [Ha [_ [t' [-> Hres]]]]]]|[_ [_ [_ [s [-> _]]]]]]]; cbn [fst]; try discriminate.
  - intros [= <-]. exists c. refine (conj (or_introl eq_refl) (conj Ha Hres)).
  - destruct (has_explicit_type c); [|intros Hx; exfalso; exact (Hgive s l Hx)].
    pose proof (search_spec Unknown vs args) as H. destruct (search_with Unknown vs args) as [r' l']. unfold searched in H. cbn [fst snd] in H.
    destruct H as [[_ [_ [->|[i [-> _]]]]]|[[_ [_ [Ha [_ [t' [-> Hres]]]]]]|[_ [_ [_ [s' [-> _]]]]]]]; cbn [fst]; try discriminate.
    + intros [= <-]. exists Unknown. refine (conj (or_intror eq_refl) (conj Ha Hres)).
    + intros Hx; exfalso. apply (Hgive s' (l ++ l')). destruct (give_up ty variant s') as [r2 l2]. exact Hx.
Qed.

(** Without an error: the variant that is used takes the arguments, or the members were tried and each
    choice of them is taken, or it is left open which of the variants that take them is meant. *)
Theorem C51_result : forall c vs args, (has_explicit_type c = true -> no_effect c) -> ~ reported c vs args (find c vs args) ->
  (exists i, fst (find c vs args) = Single i /\ accepted c vs args i) \/
  (exists t, fst (find c vs args) = Union t /\ taken_apart c vs args /\ result_for c vs args t) \/
  fst (find c vs args) = NotFound /\ exists i, accepted c vs args i.
Proof.
  intros c vs args Hc Hrep. pose proof (C51_reported c vs args Hc) as [_ Hiff]. pose proof (search_spec c vs args) as H.
  unfold find_matching_function. destruct (search_with c vs args) as [r l]. unfold searched in H. cbn [fst snd] in H.
  destruct H as [[[k Hk] [-> Hr]]|[[Hno [Ht [Ha [-> [t [-> Hres]]]]]]|[Hno [Hn _]]]].
  - destruct Hr as [->|[i [-> Hi]]]; cbn [fst]; [right; right; split; [reflexivity|exists k; exact Hk]|left; exists i; auto].
  - right; left. exists t. auto.
  - exfalso. apply Hrep, Hiff. split; assumption.
Qed.

(** The [unwrap] does not panic. *)
Theorem C51_no_panic : forall c vs args, fst (find c vs args) <> Panicked.
Proof.
  intros c vs args. pose proof (search_spec c vs args) as H. unfold find_matching_function.
  destruct (search_with c vs args) as [r l]. unfold searched in H. cbn [fst snd] in H.
  assert (Hgive : forall s l, fst (let (r, l') := give_up ty variant s in (r, l ++ l')) <> Panicked).
  { intros s l0. unfold give_up. destruct (first_similar _ _ s); cbn [fst]; discriminate. }
  destruct H as [[_ [_ [->|[i [-> _]]]]]|[[_ [_ [_ [_ [t [-> _]]]]]]|[_ [_ [_ [s [-> _]]]]]]]; cbn [fst]; try discriminate.
  destruct (has_explicit_type c); [|exact (Hgive s l)].
  pose proof (search_spec Unknown vs args) as H. destruct (search_with Unknown vs args) as [r' l']. unfold searched in H. cbn [fst snd] in H.
  destruct H as [[_ [_ [->|[i [-> _]]]]]|[[_ [_ [_ [_ [t [-> _]]]]]]|[_ [_ [_ [s' [-> _]]]]]]]; cbn [fst]; try discriminate.
  pose proof (Hgive s' (l ++ l')) as Hg. destruct (give_up ty variant s') as [r2 l2]. exact Hg.
Qed.

(** What is reported: too many unions if they were to be tried, then the errors of the variant to blame,
    or a mismatch with all variants together with the errors in the arguments. *)
Theorem C51_message : forall c vs args, has_explicit_type c = false -> reported c vs args (find c vs args) ->
  exists l, (tried c vs args /\ too_many c args /\ l = [OverloadTooManyUnions] \/ ~ (tried c vs args /\ too_many c args) /\ l = []) /\
    ((exists i, find c vs args = (Single i, l) /\ to_blame c vs args (Some i)) \/
     to_blame c vs args None /\
     ((exists i v, find c vs args = (NotFound, l ++ [OverloadMismatch; ErrorsInArguments i]) /\
        nth_error vs i = Some v /\ snd (match_signature c v args) = true) \/
      find c vs args = (NotFound, l ++ [OverloadMismatch]) /\ forall v, In v vs -> snd (match_signature c v args) = false)).
Proof.
  intros c vs args Hc Hrep. apply C51_reported in Hrep; [|rewrite Hc; discriminate].
  pose proof (search_spec c vs args) as H. unfold find_matching_function.
  destruct (search_with c vs args) as [r l]. unfold searched in H. cbn [fst snd] in H. destruct Hrep as [Hr1 Hr2].
  destruct H as [[[k Hk] _]|[[_ [Ht [Ha _]]]|[Hno [Hn [Hl [s [-> [Hb He]]]]]]]].
  - exfalso; exact (Hr1 k Hk).
  - exfalso; exact (Hr2 (conj Ht Ha)).
  - exists l. split; [exact Hl|]. rewrite Hc. unfold give_up. destruct (first_similar _ _ s) as [i|].
    + left. exists i. rewrite app_nil_r. split; [reflexivity|exact Hb].
    + right. split; [exact Hb|]. destruct (had_error_in_func _ _ s) as [i|].
      * left. destruct He as [v [Hv Hs]]. exists i, v. refine (conj eq_refl (conj Hv Hs)).
      * right. split; [reflexivity|exact He].
Qed.

End Choice.
