(** C50: when the parameters of a function match those of a callable type, every call that the type allows can be made. *)
From Coq Require Import List NArith Arith Bool Lia Permutation.
From Verif Require Import CallModel CallSpec CallFacts CallProofs CallProps ParamsModel ParamsProofs.
Import ListNotations.

(** ** Specification *)

Section Spec.
Context {ty val : Type} (fits : ty -> val -> Prop).

(** A function with the parameters [ps2] can be called in every way in which one with the parameters [ps1] can. *)
Definition stands_for (ps1 ps2 : list (param ty)) : Prop :=
  forall c : call val, distinct_names c -> accepts fits ps1 c -> accepts fits ps2 c.

(** The values of [p1] are values of [p2]. *)
Definition narrower (p1 p2 : param ty) : Prop :=
  forall v : val, (forall t, p_type p1 = Some t -> fits t v) -> forall t, p_type p2 = Some t -> fits t v.

Definition has (k : kind) (ps : list (param ty)) : Prop := exists p, In p ps /\ p_kind p = k.
Definition all_annotated (ps : list (param ty)) : Prop := forall p, In p ps -> p_type p <> None.

(** Keyword-only parameters with a default meet parameters with a default. *)
Definition same_defaults (ps1 ps2 : list (param ty)) : Prop :=
  forall n p1 p2, In p1 ps1 -> In p2 ps2 -> p_kind p1 = KeywordOnly -> named n p1 -> named n p2 ->
    p_default p1 = true -> p_default p2 = true.

(** A parameter that can be named, in the place of one that cannot: calls do not use the name. *)
Definition names_free (ps1 ps2 : list (param ty)) : Prop :=
  forall i p1 p2 n, nth_error ps1 i = Some p1 -> nth_error ps2 i = Some p2 -> p_kind p1 = PositionalOnly ->
    p_kind p2 = PositionalOrKeyword -> p_name p2 = Some n -> ~ has StarStar ps1 /\ forall q, In q ps1 -> ~ named n q.

(** Types of the parameters that a name can reach. *)
Definition same_names_narrower (ps1 ps2 : list (param ty)) : Prop :=
  (forall n p1 p2, In p1 ps1 -> In p2 ps2 -> p_kind p1 = KeywordOnly -> named n p1 -> named n p2 -> narrower p1 p2) /\
  (forall n p1 p2, In p1 ps1 -> In p2 ps2 -> p_kind p1 = StarStar -> named n p2 -> (forall q, In q ps1 -> ~ named n q) -> narrower p1 p2).

End Spec.

(** ** Theorems *)

Section Props.
Variables (ty val : Type) (fits : ty -> val -> Prop).
Variables (type_match type_same : ty -> ty -> bool) (is_any : ty -> bool) (precise : bool).
(** What the comparison of types promises. *)
Hypothesis match_sound : forall a b, type_match a b = true -> forall v, fits a v -> fits b v.
Hypothesis same_sound : forall a b, type_same a b = true -> forall v, fits a v -> fits b v.

Notation matches := (matches_simple_params type_match type_same is_any precise false).
Notation no_any ps1 := (precise = true \/ forall p, In p ps1 -> variadic p -> any_type is_any p = false).

(** Matching parameters stand for each other.  Missing for the full statement: the three conditions that the code does not check (see the
    refutations below). *)
Theorem C50_sound_partial : forall ps1 ps2, signature ps1 -> signature ps2 -> all_annotated ps1 -> all_annotated ps2 -> no_any ps1 ->
  same_defaults ps1 ps2 -> names_free ps1 ps2 -> (has StarStar ps2 -> has KeywordOnly ps1 -> same_names_narrower fits ps1 ps2) ->
  matches ps1 ps2 = true -> stands_for fits ps1 ps2.
Proof.
  intros ps1 ps2 Hs1 Hs2 Ha1 Ha2 Hany Hd Hf Ht Hm [vs K] Hc Hacc.
  apply (positional_phase ty val fits type_match type_same is_any precise match_sound same_sound ps1 ps2 [] [] None vs K); try assumption.
  - intros p Hp _; exact (Ha2 p Hp).
  - intros i p1 p2 n A B C D E (p & Hp & F). destruct (Hf i p1 p2 n A B C D E) as [G1 G2].
    destruct F as [F|F]; [exact (G2 p Hp F)|apply G1; exists p; split; assumption].
  - intros n p1 p2 A B C D E F. exact (Hd n p1 p2 A E B C F D).
  - intros Hss Hko n v q Hin Hq Hnq Hpk. destruct (Ht Hss Hko) as [T1 T2].
    destruct Hacc as [_ B _ _]. destruct (B n v Hin) as (j & (p & Hp & Hr) & (p' & Hp' & Hv)). rewrite Hp in Hp'; injection Hp' as <-.
    apply nth_error_In in Hp. destruct Hr as [Hr|[Hr Hno]].
    + destruct Hr as [[Hk|Hk] Hnm]; [destruct (Hpk p Hp Hk); split; auto|].
      exact (T1 n p q Hp Hq Hk (conj (or_intror Hk) Hnm) Hnq v Hv).
    + exact (T2 n p q Hp Hq Hr Hnq Hno v Hv).
Qed.

(** Functions whose parameters are all of the ordinary kinds [a], [a=1], [*args] and [**kwargs]: no condition. *)
Theorem C50_ordinary : forall ps1 ps2, signature ps1 -> signature ps2 -> all_annotated ps1 -> all_annotated ps2 -> no_any ps1 ->
  ~ has PositionalOnly ps1 -> ~ has KeywordOnly ps1 ->
  matches ps1 ps2 = true -> stands_for fits ps1 ps2.
Proof.
  intros ps1 ps2 Hs1 Hs2 Ha1 Ha2 Hany Hpo Hko. apply C50_sound_partial; try assumption.
  - intros n p1 p2 H1 _ Hk; destruct Hko; exists p1; auto.
  - intros i p1 p2 n H1 _ Hk; destruct Hpo; exists p1; split; [exact (nth_error_In _ _ H1)|exact Hk].
  - intros _ H; destruct (Hko H).
Qed.

(** [Callable[[A, B], R]], with or without defaults: the answer, exactly. *)
Theorem C50_callable : forall ps1 ps2, signature ps1 -> signature ps2 -> all_annotated ps1 ->
  (forall p, In p ps1 -> p_kind p = PositionalOnly) ->
  (forall i j p q, i < j -> nth_error ps1 i = Some p -> nth_error ps1 j = Some q -> p_default p = true -> p_default q = true) ->
  (forall a b, type_match a b = false -> exists v, fits a v /\ ~ fits b v) -> (forall t, exists v, fits t v) ->
  (matches ps1 ps2 = true <-> stands_for fits ps1 ps2).
Proof.
  intros ps1 ps2 Hs1 Hs2 Ha1 Hpo Hl Hc Hi.
  unfold matches_simple_params.
  rewrite (callable_exact ty val fits type_match type_same is_any precise match_sound Hc Hi ps1 ps2 [] [] None Hs1 Hs2 Hpo Ha1 Hl). split.
  - intros H [vs K] _ Hacc. pose proof (accepts_no_names ty val fits ps1 vs K Hpo Hacc) as ->. exact (H vs Hacc).
  - intros H vs Hacc. apply H; [constructor|exact Hacc].
Qed.

End Props.

(** A function can be assigned to its own type. *)
Theorem C50_reflexive : forall ty (type_match type_same : ty -> ty -> bool) is_any precise ignore_names ps,
  (forall t, type_match t t = true) -> signature ps ->
  matches_simple_params type_match type_same is_any precise ignore_names ps ps = true.
Proof. intros ty tm ts ia pr ig ps Hr Hs. apply matches_refl; assumption. Qed.

(** Together with C49: a call that is accepted for the declared type goes through with the function that is there, and
    would have been accepted for it. *)
Theorem C50_call_partial : forall ty val (fits : ty -> val -> bool) type_match type_same is_any precise ps1 ps2 c,
  (forall a b, type_match a b = true -> forall v, fits a v = true -> fits b v = true) ->
  (forall a b, type_same a b = true -> forall v, fits a v = true -> fits b v = true) ->
  signature ps1 -> signature ps2 -> all_annotated ps1 -> all_annotated ps2 ->
  precise = true \/ (forall p, In p ps1 -> variadic p -> any_type is_any p = false) ->
  ~ has PositionalOnly ps1 -> ~ has KeywordOnly ps1 ->
  matches_simple_params type_match type_same is_any precise false ps1 ps2 = true ->
  distinct_names c -> ~ collides ps1 c -> match_arguments fits ps1 (arguments_of c) = true ->
  accepts (fun t v => fits t v = true) ps2 c /\ match_arguments fits ps2 (arguments_of c) = true.
Proof.
  intros ty val fits tm ts ia pr ps1 ps2 c Hm Hsm Hs1 Hs2 Ha1 Ha2 Hany Hpo Hko Hmat Hc Hcol Hcall.
  assert (H : accepts (fun t v => fits t v = true) ps2 c).
  { apply (C50_ordinary ty val (fun t v => fits t v = true) tm ts ia pr Hm Hsm ps1 ps2 Hs1 Hs2 Ha1 Ha2 Hany Hpo Hko Hmat c Hc).
    apply (C49_exact_partial ty val fits ps1 c Hs1 Hc Hcol); exact Hcall. }
  split; [exact H|]. exact (C49_complete ty val fits ps2 c Hs2 Hc H).
Qed.

(** ** Concrete types: 0 is int (value 0), 1 is str (value 1), 2 is object, 3 is Any *)

Definition of_type (t v : nat) : bool := (t =? v) || (2 <=? t).
Definition subtype (a b : nat) : bool := (a =? b) || (2 <=? b).
Definition equal_type (a b : nat) : bool := a =? b.
Definition anything (t : nat) : bool := t =? 3.
Notation typed := (fun t v => of_type t v = true).
Notation matching_params precise := (matches_simple_params subtype equal_type anything precise false).

Lemma subtype_sound : forall a b, subtype a b = true -> forall v, of_type a v = true -> of_type b v = true.
Proof.
  intros a b H v Hv. unfold subtype in H; unfold of_type in *. apply orb_true_iff in H as [H|H].
  - apply Nat.eqb_eq in H; subst b; exact Hv.
  - rewrite H. apply orb_true_r.
Qed.

Lemma equal_sound : forall a b, equal_type a b = true -> forall v, of_type a v = true -> of_type b v = true.
Proof. intros a b H v Hv. apply Nat.eqb_eq in H; subst b; exact Hv. Qed.

(** Matched, and yet there is a call that only the first allows. *)
Definition breaks (precise : bool) (ps1 ps2 : list (param nat)) : Prop :=
  signature ps1 /\ signature ps2 /\ all_annotated ps1 /\ all_annotated ps2 /\ matching_params precise ps1 ps2 = true /\ ~ stands_for typed ps1 ps2.

Lemma breaks_by : forall precise ps1 ps2 (K : list (N * nat)) (vs : list nat),
  signature_b ps1 && signature_b ps2 && forallb (fun p => match p_type p with Some _ => true | None => false end) (ps1 ++ ps2) = true ->
  matching_params precise ps1 ps2 = true -> NoDup (map fst K) ->
  (vs = [] \/ forall p, In p ps1 -> p_kind p <> PositionalOrKeyword) ->
  match_arguments of_type ps1 (arguments_of (mk_call vs K)) = true -> match_arguments of_type ps2 (arguments_of (mk_call vs K)) = false ->
  breaks precise ps1 ps2.
Proof.
  intros precise ps1 ps2 K vs Hb Hm Hc Hv H1 H2. apply andb_true_iff in Hb as [Hs Ha]. apply andb_true_iff in Hs as [Hs1 Hs2].
  rewrite forallb_forall in Ha. apply signature_check in Hs1, Hs2.
  refine (conj Hs1 (conj Hs2 (conj _ (conj _ (conj Hm _))))).
  - intros p Hp E. specialize (Ha p). rewrite E in Ha. discriminate Ha. apply in_app_iff; left; exact Hp.
  - intros p Hp E. specialize (Ha p). rewrite E in Ha. discriminate Ha. apply in_app_iff; right; exact Hp.
  - intros H. assert (Hacc : accepts typed ps1 (mk_call vs K)).
    { apply (C49_exact_partial nat nat of_type ps1 (mk_call vs K) Hs1 Hc); [|exact H1].
      intros (i & p & n & Hi & Hp & Hk & _). destruct Hv as [->|Hv]; [cbn in Hi; lia|]. exact (Hv p (nth_error_In _ _ Hp) Hk). }
    specialize (H (mk_call vs K) Hc Hacc). apply (C49_complete nat nat of_type ps2 (mk_call vs K) Hs2 Hc) in H. congruence.
Qed.

(** The default of a keyword-only parameter is compared with that of the next parameter, not with that of the one of its name:
    [def f( *args, a)] is accepted for [( *, a=...)], which can be called without arguments. *)
Theorem C50_default_refuted :
  breaks true [par KeywordOnly 1 true 0] [par Star 9 false 0; par KeywordOnly 1 false 0] /\
  breaks true [par KeywordOnly 2 true 0; par KeywordOnly 1 false 0] [par KeywordOnly 1 true 0; par KeywordOnly 2 false 0].
Proof.
  split.
  - apply (breaks_by _ _ _ [] []); try reflexivity; [constructor|left; reflexivity].
  - apply (breaks_by _ _ _ [(1%N, 0)] []); try reflexivity; [repeat constructor; intros []|left; reflexivity].
Qed.

(** With [**kwargs], a parameter that was passed over is not compared any more:
    [( *, a: int, b: str)] and [def f( *, b: int = 0, a: int, **kw: str)]; [( *, a: int, **kw: int)] and [def f( *, b: str = s, a: int, **kw: int)]. *)
Theorem C50_passed_over_refuted :
  breaks true [par KeywordOnly 1 false 0; par KeywordOnly 2 false 1]
              [par KeywordOnly 2 true 0; par KeywordOnly 1 false 0; par StarStar 9 false 1] /\
  breaks true [par KeywordOnly 1 false 0; par StarStar 9 false 0]
              [par KeywordOnly 2 true 1; par KeywordOnly 1 false 0; par StarStar 9 false 0].
Proof.
  assert (Hnd : NoDup [1%N; 2%N]) by (constructor; [intros [E|[]]; discriminate|repeat constructor; intros []]).
  split.
  - apply (breaks_by _ _ _ [(1%N, 0); (2%N, 1)] []); try reflexivity; [exact Hnd|left; reflexivity].
  - apply (breaks_by _ _ _ [(1%N, 0); (2%N, 0)] []); try reflexivity; [exact Hnd|left; reflexivity].
Qed.

(** [(a: int, /, *, b: int)] and [def f(b: int, **kw: int)]: with [f(0, b=0)] the parameter [b] gets two values. *)
Theorem C50_name_taken_refuted :
  breaks true [par PositionalOnly 1 false 0; par KeywordOnly 2 false 0] [par PositionalOrKeyword 2 false 0; par StarStar 9 false 0].
Proof.
  unfold breaks. refine (conj _ (conj _ (conj _ (conj _ (conj eq_refl _))))).
  - apply signature_check; reflexivity.
  - apply signature_check; reflexivity.
  - intros p [<-|[<-|[]]]; discriminate.
  - intros p [<-|[<-|[]]]; discriminate.
  - intros H. specialize (H (mk_call [0] [(2%N, 0)])). assert (Hc : distinct_names (mk_call [0] [(2%N, 0)])) by (repeat constructor; intros []).
    specialize (H Hc). assert (Hacc : accepts typed [par PositionalOnly 1 false 0; par KeywordOnly 2 false 0] (mk_call [0] [(2%N, 0)])).
    { apply (C49_sound_partial nat nat of_type); [apply signature_check; reflexivity|exact Hc| |reflexivity].
      intros (p & [<-|[<-|[]]] & E); discriminate. }
    destruct (H Hacc) as [_ _ C _]. apply (C 0 2%N 0).
    + cbn; lia.
    + left; reflexivity.
    + eexists; split; [reflexivity|]. left. split; [right|]; reflexivity.
    + eexists; split; [reflexivity|]. left. split; [left|]; reflexivity.
Qed.

(** [( *args: int, **kwargs: Any)] is taken for arbitrary parameters; [def f(x: str)] is accepted, but not [f(0)]. *)
Theorem C50_trivial_suffix_refuted : breaks false [par Star 8 false 0; par StarStar 9 false 3] [par PositionalOrKeyword 1 false 1].
Proof.
  apply (breaks_by _ _ _ [] [0]); try reflexivity; [constructor|]. right. intros p [<-|[<-|[]]]; discriminate.
Qed.

(** The order of keyword-only parameters matters although no call can see it: [def f( *, a: int, b: int = 0)] is refused for
    [( *, b: int = ..., a: int)]. *)
Theorem C50_order_refuted : exists ps1 ps2, signature ps1 /\ signature ps2 /\ Permutation ps1 ps2 /\
  (forall type_match type_same is_any precise ignore_names, matches_simple_params type_match type_same is_any precise ignore_names ps1 ps2 = false) /\
  forall fits : nat -> nat -> Prop, stands_for fits ps1 ps2.
Proof.
  exists [par KeywordOnly 2 true 0; par KeywordOnly 1 false 0], [par KeywordOnly 1 false 0; par KeywordOnly 2 true 0].
  refine (conj _ (conj _ (conj (perm_swap _ _ _) (conj _ _)))).
  - apply signature_check; reflexivity.
  - apply signature_check; reflexivity.
  - reflexivity.
  - intros fits [vs K] Hc Hacc. assert (E : vs = []).
    { refine (accepts_keyword_only _ _ _ _ _ _ _ _ _ Hacc); [apply signature_check; reflexivity|left; reflexivity]. }
    subst vs. apply accepts_kw. apply accepts_kw in Hacc. revert Hacc. apply kw_params. intros p; cbn [In]; tauto.
Qed.

(** [def f(a: int = 0, *args: int)] can be called like [( *args: int)] and is refused. *)
Theorem C50_star_refuted : exists ps1 ps2, signature ps1 /\ signature ps2 /\
  matching_params true ps1 ps2 = false /\ matching_params false ps1 ps2 = false /\ stands_for typed ps1 ps2.
Proof.
  assert (S1 : signature [par Star 9 false 0]) by (apply signature_check; reflexivity).
  assert (S2 : signature [par PositionalOnly 1 true 0; par Star 9 false 0]) by (apply signature_check; reflexivity).
  exists [par Star 9 false 0], [par PositionalOnly 1 true 0; par Star 9 false 0].
  refine (conj S1 (conj S2 (conj eq_refl (conj eq_refl _)))).
  intros [vs K] Hc Hacc. apply (accepts_star nat nat typed _ _ _ _ S1 eq_refl) in Hacc as [A B]. destruct vs as [|v vs].
  - apply accepts_kw. apply kw_nil in B; subst K. split; [intros n v []|]. intros p [<-|[<-|[]]] [Hv Hd]; [discriminate|].
    exfalso; apply Hv; left; reflexivity.
  - inversion A as [|? ? A1 A2]; subst. apply accepts_position; [left; reflexivity|]. refine (conj _ (conj _ _)).
    + exact A1.
    + apply (accepts_star nat nat typed _ _ _ _ S1 eq_refl); split; assumption.
    + intros n [[E|E] _]; discriminate.
Qed.

(** ** Non-vacuity *)

(** [(a: int, b: int = ..., *args: int, **kw: str)] and [def f(a: int, b: object = 0, *args: object, **kw: str)] *)
Definition declared : list (param nat) :=
  [par PositionalOrKeyword 1 false 0; par PositionalOrKeyword 2 true 0; par Star 8 false 0; par StarStar 9 false 1].
Definition given : list (param nat) :=
  [par PositionalOrKeyword 1 false 0; par PositionalOrKeyword 2 true 2; par Star 8 false 2; par StarStar 9 false 1].

Example C50_ordinary_used : matching_params true declared given = true /\ matching_params true given declared = false /\ stands_for typed declared given.
Proof.
  refine (conj eq_refl (conj eq_refl _)).
  apply (C50_ordinary nat nat typed subtype equal_type anything true subtype_sound equal_sound).
  - apply signature_check; reflexivity.
  - apply signature_check; reflexivity.
  - intros p [<-|[<-|[<-|[<-|[]]]]]; discriminate.
  - intros p [<-|[<-|[<-|[<-|[]]]]]; discriminate.
  - left; reflexivity.
  - intros (p & [<-|[<-|[<-|[<-|[]]]]] & E); discriminate.
  - intros (p & [<-|[<-|[<-|[<-|[]]]]] & E); discriminate.
  - reflexivity.
Qed.

(** [(a: int, /, *, c: int, b: str)] and [def f(x: object, *, b: str, c: int, d: int = 0, **kw: int)] *)
Definition declared2 : list (param nat) := [par PositionalOnly 1 false 0; par KeywordOnly 3 false 0; par KeywordOnly 2 false 1].
Definition given2 : list (param nat) :=
  [par PositionalOrKeyword 7 false 2; par KeywordOnly 2 false 1; par KeywordOnly 3 false 0; par KeywordOnly 4 true 0; par StarStar 9 false 0].

Example C50_sound_used : matching_params true declared2 given2 = true /\ stands_for typed declared2 given2 /\
  accepts typed given2 (mk_call [0] [(2%N, 1); (3%N, 0)]).
Proof.
  assert (H : stands_for typed declared2 given2).
  { apply (C50_sound_partial nat nat typed subtype equal_type anything true subtype_sound equal_sound).
    - apply signature_check; reflexivity.
    - apply signature_check; reflexivity.
    - intros p [<-|[<-|[<-|[]]]]; discriminate.
    - intros p [<-|[<-|[<-|[<-|[<-|[]]]]]]; discriminate.
    - left; reflexivity.
    - intros n p1 p2 [<-|[<-|[<-|[]]]] _ _ _ _ E; discriminate.
    - intros i p1 p2 n H1 H2 E1 E2 En. destruct i as [|[|[|i]]]; cbn in H1; try (destruct i); try discriminate; injection H1 as <-; try discriminate.
      cbn in H2; injection H2 as <-. cbn in En; injection En as <-. split.
      + intros (p & [<-|[<-|[<-|[]]]] & E); discriminate.
      + intros q [<-|[<-|[<-|[]]]] [_ E]; discriminate.
    - intros _ _. split.
      + intros n p1 p2 [<-|[<-|[<-|[]]]] [<-|[<-|[<-|[<-|[<-|[]]]]]] E1 [_ E2] [_ E3]; cbn in E2, E3; try discriminate E1;
          rewrite <- E2 in E3; try discriminate E3; intros v Hv; exact Hv.
      + intros n p1 p2 [<-|[<-|[<-|[]]]] _ E; discriminate.
    - reflexivity. }
  refine (conj eq_refl (conj H _)).
  assert (Hc : distinct_names (mk_call [0] [(2%N, 1); (3%N, 0)])).
  { constructor; [intros [E|[]]; discriminate|repeat constructor; intros []]. }
  apply H; [exact Hc|]. apply (C49_sound_partial nat nat of_type); [apply signature_check; reflexivity|exact Hc| |reflexivity].
  intros (p & [<-|[<-|[<-|[]]]] & E); discriminate.
Qed.

(** Callable[[int, str], R] *)
Example C50_callable_used :
  (matching_params true [par PositionalOnly 1 false 0; par PositionalOnly 2 false 1]
     [par PositionalOrKeyword 3 false 2; par Star 8 false 1; par KeywordOnly 4 true 0] = true <->
   stands_for typed [par PositionalOnly 1 false 0; par PositionalOnly 2 false 1]
     [par PositionalOrKeyword 3 false 2; par Star 8 false 1; par KeywordOnly 4 true 0]) /\
  ~ stands_for typed [par PositionalOnly 1 false 0; par PositionalOnly 2 false 1] [par PositionalOrKeyword 3 false 2; par KeywordOnly 4 true 1].
Proof.
  assert (G : forall ps2, signature_b ps2 = true ->
    (matching_params true [par PositionalOnly 1 false 0; par PositionalOnly 2 false 1] ps2 = true <->
     stands_for typed [par PositionalOnly 1 false 0; par PositionalOnly 2 false 1] ps2)).
  { intros ps2 H2. apply (C50_callable nat nat typed subtype equal_type anything true subtype_sound).
    - apply signature_check; reflexivity.
    - apply signature_check; exact H2.
    - intros p [<-|[<-|[]]]; discriminate.
    - intros p [<-|[<-|[]]]; reflexivity.
    - intros [|[|i]] j p q _ H; cbn in H; [injection H as <-|injection H as <-|destruct i; discriminate]; intros _ E; discriminate.
    - intros a b E. unfold subtype in E. apply orb_false_iff in E as [E1 E2]. exists a. unfold of_type. rewrite Nat.eqb_refl. split; [reflexivity|].
      rewrite Nat.eqb_sym, E1, E2; discriminate.
    - intros t; exists t. unfold of_type; rewrite Nat.eqb_refl; reflexivity. }
  split; [apply G; reflexivity|]. intros H. apply G in H; [discriminate H|reflexivity].
Qed.

Print Assumptions C50_sound_partial.
Print Assumptions C50_ordinary.
Print Assumptions C50_callable.
Print Assumptions C50_reflexive.
Print Assumptions C50_call_partial.
Print Assumptions C50_default_refuted.
Print Assumptions C50_passed_over_refuted.
Print Assumptions C50_name_taken_refuted.
Print Assumptions C50_trivial_suffix_refuted.
Print Assumptions C50_order_refuted.
Print Assumptions C50_star_refuted.
