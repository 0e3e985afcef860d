(** C57: the type shown for a name is not wider than needed in functions without loops whose conditions are about that name:
    the values of the types shown at a place are exactly those found there by executions. *)
From Coq Require Import List NArith ZArith Bool Lia.
From Verif Require Import FlowModel FlowSpec FlowTame FlowProofs FlowCheck FlowWorld FlowProps FlowExact.
Import ListNotations.

Section Laws.
Variables (type test value : Type).
Variables (error never : type) (is_never is_any any_in none_in could_be_a_literal : type -> bool).
Variables (remove_none avoid_implicit_literal : type -> type) (union simplified_union : type -> type -> type)
          (common_sub_type : type -> type -> option type).
Variables (split : test -> type -> option (type * type)) (truthiness : test).
Variables (declared : key -> type) (explicit_any : key -> bool).
Variables (has : type -> value -> Prop) (passes : test -> value -> bool).
Variable (regular : type -> Prop).

(** What is asked of types so that nothing is shown that is not needed: unions and common subtypes are exact, only [Never] is without values, and
    the types that tests divide are closed under them *)
Record exact_laws : Prop := {
  exact_union : forall a b v, has (simplified_union a b) v <-> has a v \/ has b v;
  exact_common : forall a b t v, common_sub_type a b = Some t -> (has t v <-> has a v /\ has b v);
  exact_disjoint : forall a b v, common_sub_type a b = None -> has a v -> ~ has b v;
  exact_never : forall t v, is_never t = true -> ~ has t v;
  exact_some : forall t, is_never t = false -> exists v, has t v;
  exact_closed_union : forall a b, regular a -> regular b -> regular (simplified_union a b);
  exact_closed_common : forall a b t, regular a -> regular b -> common_sub_type a b = Some t -> regular t
}.

Notation guarded := (guarded type test value is_any could_be_a_literal avoid_implicit_literal split truthiness declared explicit_any has passes).
Notation elifs := (elifs type test error never is_never is_any any_in none_in could_be_a_literal remove_none avoid_implicit_literal union
                     simplified_union common_sub_type split truthiness declared explicit_any).
Notation function := (function type test error never is_never is_any any_in none_in could_be_a_literal remove_none avoid_implicit_literal union
                        simplified_union common_sub_type split truthiness declared explicit_any).
Notation runs := (runs type test value truthiness declared has passes).
Notation well_typed := (well_typed type value declared has).

(** Every value of a type that is shown is found there, from some value of the name at the start, whatever else there is *)
Theorem C57_exact_partial : exact_laws -> forall n params body l r, NoDup params -> regular (declared (Name n)) ->
  (exists v, has (declared (Name n)) v) -> guarded n regular body -> elifs body (start type params) -> In (l, r) (function params body) ->
  exists t, r = Revealed _ t /\ forall v, has t v ->
    exists v0, has (declared (Name n)) v0 /\
    forall a, well_typed a -> a (Name n) = Some v0 -> exists ev o b, runs body a ev o b /\ In (l, v) ev.
Proof.
  intros [L1 L2 L3 L4 L5 L6 L7] n params body l r Hn Hr Hv Gu El Hi.
  exact (function_exact type test value error never is_never is_any any_in none_in could_be_a_literal remove_none avoid_implicit_literal union
           simplified_union common_sub_type split truthiness declared explicit_any has passes n L1 L2 L3 L4 L5 regular L6 L7 Hr params body Hn Hv Gu El l r Hi).
Qed.

Notation assignable := (assignable type value is_any could_be_a_literal avoid_implicit_literal declared explicit_any has regular).
Notation about n := (about type test value split truthiness has passes n regular).
Notation ending n := (ending type test value is_any could_be_a_literal avoid_implicit_literal split truthiness declared explicit_any has passes n regular).
Notation leaving n := (leaving type test value is_any could_be_a_literal avoid_implicit_literal split truthiness declared explicit_any has passes n regular).
Notation branching := (branching type test is_any any_in none_in could_be_a_literal avoid_implicit_literal declared explicit_any).

Lemma assignable_keeps : forall k t, assignable k t ->
  name k /\ keeps type is_any any_in none_in could_be_a_literal avoid_implicit_literal declared explicit_any k t.
Proof.
  intros k t [H1 [H2 [H3 _]]]. split; [exact H1|]. unfold keeps, removing. unfold saved_type in H3. cbv zeta. rewrite H2. cbn [orb]. now rewrite H3.
Qed.

Lemma about_names : forall n c, about n c -> names_only type test c.
Proof.
  intros n. induction c as [g k|ws t|k t|c IH|a IHa b IHb|a IHa b IHb]; intros H; cbn [FlowExact.about names_only] in *.
  - destruct H as [-> _]. now exists n.
  - apply H.
  - exact H.
  - now apply IH.
  - destruct H. split; [now apply IHa|now apply IHb].
  - destruct H. split; [now apply IHa|now apply IHb].
Qed.

Lemma ending_branching : forall n params s, ending n s -> branching params s.
Proof.
  intros n params. induction s as [|l k|k e|k|a IHa b IHb|c a IHa elif b IHb|c body IHbody orelse IHorelse|k t body IHbody orelse IHorelse| | | | |c
                 |body IHbody hs orelse finally IHfinally|body IHbody]; intros H; cbn [FlowExact.ending FlowProps.branching] in *; try exact Logic.I; try contradiction.
  - destruct e as [t|k']; [|contradiction]. now apply assignable_keeps.
  - destruct H. split; [now apply IHa|now apply IHb].
  - destruct H as [H1 [H2 H3]]. split; [now apply (about_names n)|]. split; [now apply IHa|now apply IHb].
Qed.

Lemma leaving_branching : forall n params s, leaving n s -> branching params s.
Proof.
  intros n params. induction s as [|l k|k e|k|a IHa b IHb|c a IHa elif b IHb|c body IHbody orelse IHorelse|k t body IHbody orelse IHorelse| | | | |c
                 |body IHbody hs orelse finally IHfinally|body IHbody]; intros H; cbn [FlowExact.leaving FlowProps.branching] in *; try exact Logic.I; try contradiction.
  destruct H. split; [now apply (ending_branching n)|now apply IHb].
Qed.

Lemma guarded_branching : forall n params s, guarded n regular s -> branching params s.
Proof.
  intros n params. induction s as [|l k|k e|k|a IHa b IHb|c a IHa elif b IHb|c body IHbody orelse IHorelse|k t body IHbody orelse IHorelse| | | | |c
                 |body IHbody hs orelse finally IHfinally|body IHbody]; intros H; cbn [FlowExact.guarded FlowProps.branching] in *; try exact Logic.I; try contradiction.
  - destruct e as [t|k']; [|contradiction]. now apply assignable_keeps.
  - destruct H. split; [now apply IHa|now apply IHb].
  - destruct H as [H1 [H2 H3]]. split; [now apply (about_names n)|].
    split; [destruct H2 as [H2|H2]; [now apply (ending_branching n)|now apply (leaving_branching n)]|destruct H3 as [H3|H3]; [now apply (ending_branching n)|now apply (leaving_branching n)]].
  - now apply (about_names n).
Qed.

(** Together with that nothing is missing: the types shown at a place have exactly the values that are found there *)
Theorem C57_exactly_partial :
  laws type test value is_never is_any avoid_implicit_literal union simplified_union common_sub_type split has passes -> exact_laws ->
  forall n params body l v, NoDup params -> regular (declared (Name n)) ->
  (exists v, has (declared (Name n)) v) -> guarded n regular body -> elifs body (start type params) ->
  (exists t, In (l, Revealed _ t) (function params body) /\ has t v) <->
  (exists a ev o b, well_typed a /\ runs body a ev o b /\ In (l, v) ev).
Proof.
  intros L X n params body l v Hn Hr Hv Gu El. split.
  - intros [t [Hi Ht]]. destruct (C57_exact_partial X n params body l _ Hn Hr Hv Gu El Hi) as [t' [E K]]. injection E as <-.
    destruct (K v Ht) as [v0 [K1 K2]].
    assert (W : well_typed (fun k => if equals k (Name n) then Some v0 else None)).
    { intros k w H. destruct (equals k (Name n)) eqn:Q; [|discriminate]. apply equals_eq in Q as ->. now injection H as <-. }
    destruct (K2 _ W) as [ev [o [b [R I0]]]]; [now rewrite equals_refl|]. eexists _, ev, o, b. split; [exact W|]. now split.
  - intros [a [ev [o [b [W [R I0]]]]]].
    pose proof (C56_branches type test value error never is_never is_any any_in none_in could_be_a_literal remove_none avoid_implicit_literal union
      simplified_union common_sub_type split truthiness declared explicit_any has passes L params body a ev o b Hn (guarded_branching n params body Gu) W R) as Ri.
    exact (Ri l v I0).
Qed.
End Laws.

(** ** Such types exist *)
Definition united (t : ty) : Prop := match t with TAny => False | TUnion _ => True end.

Lemma has_member : forall b, exists v, class_of v = b.
Proof. intros []; [exists (VInt true)|exists (VStr true)|exists VNone|exists VObj]; reflexivity. Qed.

Theorem C57_exact_world : exact_laws ty val is_never join meet has united.
Proof.
  constructor.
  - intros a b v. split; [|apply join_has]. destruct a as [|l]; [now left|]. destruct b as [|m]; [now right|]. unfold has. cbn [join hasb].
    rewrite mem_app, mem_filter. destruct (mem (class_of v) l); [now left|]. cbn [orb negb]. rewrite andb_true_r. now right.
  - intros a b t v E. split; [|intros [H1 H2]; now apply (meet_has a b)]. unfold has. destruct a as [|l], b as [|m]; cbn [meet] in E.
    + injection E as <-. now split.
    + injection E as <-. now split.
    + injection E as <-. now split.
    + destruct (filter (fun x => mem x m) l) as [|y r] eqn:F; [discriminate|]. injection E as <-. cbn [hasb]. rewrite <- F, mem_filter. intros H.
      apply andb_prop in H. exact H.
  - exact meet_none.
  - exact never_has.
  - intros [|[|b l]] H; [exists VNone; reflexivity|discriminate|]. destruct (has_member b) as [v <-]. exists v. unfold has. cbn [hasb mem existsb].
    now rewrite (proj2 (base_eqb_eq _ _) eq_refl).
  - intros [|l] [|m] H1 H2; try contradiction. exact Logic.I.
  - intros [|l] [|m] t H1 H2 E; try contradiction. cbn [meet] in E. destruct (filter (fun x => mem x m) l); [discriminate|]. injection E as <-. exact Logic.I.
Qed.

Lemma none_sharp : sharp ty tst val split_type has passes united IsNone.
Proof.
  intros [|l] H; [contradiction|]. eexists _, _. split; [reflexivity|]. split; [exact Logic.I|]. split; [exact Logic.I|].
  intros v. unfold has. cbn [hasb passes]. unfold only, without. rewrite !mem_filter.
  destruct (mem (class_of v) l), (base_eqb BNone (class_of v)); cbn [andb negb]; split; split; (intros [H1 H2]; congruence) || (intros H1; try discriminate; now split).
Qed.

Lemma int_sharp : sharp ty tst val split_type has passes united IsInt.
Proof.
  intros [|l] H; [contradiction|]. eexists _, _. split; [reflexivity|]. split; [exact Logic.I|]. split; [exact Logic.I|].
  intros v. unfold has. cbn [hasb passes]. unfold only, without. rewrite !mem_filter.
  destruct (mem (class_of v) l), (base_eqb BInt (class_of v)); cbn [andb negb]; split; split; (intros [H1 H2]; congruence) || (intros H1; try discriminate; now split).
Qed.

Lemma call_open : open ty tst val split_type Truthy has passes int_or_str.
Proof. split; [reflexivity|]. intros b. exists (VInt b). split; reflexivity. Qed.

(** ** An example
<<
    def f(x: int | str | None):
        if x is None and g():
            reveal_type(x)       # 1: None
            x = 1
        elif isinstance(x, int):
            reveal_type(x)       # 2: int
            x = ""
        reveal_type(x)           # 3: int | str | None
        if x is None:
            return
        reveal_type(x)           # 4: int | str
        assert not isinstance(x, int)
        reveal_type(x)           # 5: str
>> *)
Notation is_int k := (CTest ty tst IsInt k).
Definition narrowed : stmt ty tst :=
  SIf _ _ (CAnd _ _ (is_none x) call) (reveal 1 x ;; x <- int) true (SIf _ _ (is_int x) (reveal 2 x ;; x <- str) false skip) ;;
  reveal 3 x ;; iff (is_none x) (SReturn _ _) ;; reveal 4 x ;; SAssert _ _ (CNot _ _ (is_int x)) ;; reveal 5 x.

Example narrowed_shown : analysis int_str_none [0%N] narrowed =
  [(1%N, Revealed _ none); (2%N, Revealed _ int); (3%N, Revealed _ (TUnion [BInt; BStr; BNone])); (4%N, Revealed _ (TUnion [BInt; BStr])); (5%N, Revealed _ str)].
Proof. vm_compute. reflexivity. Qed.

Lemma int_assignable : forall t, t = int \/ t = str ->
  assignable ty val is_any (fun _ => true) (fun t => t) (fun _ => int_str_none) (fun _ => false) has united x t.
Proof.
  intros t H. split; [now exists 0%N|]. split; [reflexivity|]. destruct H as [->| ->].
  - split; [reflexivity|]. split; [exact Logic.I|]. split; [|exists (VInt true); reflexivity]. intros [] H; try discriminate; split; reflexivity.
  - split; [reflexivity|]. split; [exact Logic.I|]. split; [|exists (VStr true); reflexivity]. intros [] H; try discriminate; split; reflexivity.
Qed.

Example narrowed_exactly : forall l v,
  (exists t, In (l, Revealed _ t) (analysis int_str_none [0%N] narrowed) /\ has t v) <->
  (exists a ev o b, well_typed ty val (fun _ => int_str_none) has a /\ execution int_str_none narrowed a ev o b /\ In (l, v) ev).
Proof.
  intros l v. apply (C57_exactly_partial ty tst val TAny (TUnion []) is_never is_any is_any none_in (fun _ => true) no_none (fun t => t) join join meet split_type
    Truthy (fun _ => int_str_none) (fun _ => false) has passes united C56_world C57_exact_world 0%N [0%N] narrowed l v).
  - repeat constructor. intros [].
  - exact Logic.I.
  - exists VNone. reflexivity.
  - pose proof none_sharp as P1. pose proof int_sharp as P2. pose proof call_open as P3.
    pose proof (int_assignable int (or_introl eq_refl)) as P4. pose proof (int_assignable str (or_intror eq_refl)) as P5.
    unfold narrowed. cbn [guarded ending leaving about]. unfold x in *. tauto.
  - vm_compute. tauto.
Qed.

(** ** Where more is shown than is found *)
(** A value of a type that is shown is found there by no execution *)
Definition too_wide (t : ty) (params : list N) (body : stmt ty tst) : Prop :=
  exists l u v, In (l, Revealed _ u) (analysis t params body) /\ has u v /\
  forall a ev o b, well_typed ty val (fun _ => t) has a -> execution t body a ev o b -> ~ In (l, v) ev.

Ltac undo :=
  repeat match goal with
  | H : runs _ _ _ _ _ _ _ ?s _ _ _ _ |- _ =>
      lazymatch s with SSeq _ _ _ _ => idtac | SIf _ _ _ _ _ _ => idtac | SReveal _ _ _ _ => idtac | SSkip _ _ => idtac | SReturn _ _ => idtac | SAssert _ _ _ => idtac end;
      inversion H; clear H; subst
  | H : runs _ _ _ _ _ _ _ (if ?r then _ else _) _ _ _ _ |- _ => destruct r eqn:?
  | H : holds _ _ _ _ _ _ _ (CTest _ _ _ _) _ _ _ |- _ => inversion H; clear H; subst
  | H : holds _ _ _ _ _ _ _ (CCall _ _ [] _) _ _ _ |- _ => inversion H; clear H; subst
  | H : assigned _ _ _ _ [] _ _ |- _ => inversion H; clear H; subst
  | H : In _ (_ ++ _) |- _ => apply in_app_or in H; destruct H as [H|H]
  | H : In _ [] |- _ => destruct H
  | H : In _ [_] |- _ => destruct H as [H|[]]; injection H as; subst
  | H : ?s ?k = Some ?v, H' : ?s ?k = Some ?w |- _ => rewrite H in H'; injection H' as; subst
  end; try discriminate; try congruence.

(** (1) What all branches narrow is forgotten where they meet, unless something was assigned.
<<
    def f(x: int | None):
        if g():
            if x is None:
                return
        else:
            if x is None:
                return
        reveal_type(x)       # shown: int | None
>> *)
Theorem C57_branches_narrowed_refuted :
  too_wide int_or_none [0%N] (SIf _ _ call (iff (is_none x) (SReturn _ _)) false (iff (is_none x) (SReturn _ _)) ;; reveal 1 x).
Proof.
  exists 1%N, int_or_none, VNone. split; [vm_compute; now left|]. split; [reflexivity|]. intros a ev o b W R Hi. unfold execution in R. undo.
Qed.

(** (2) So is what a branch is left with.
<<
    def f(x: int | str | None):
        if x is None:
            pass
        else:
            assert isinstance(x, int)
        reveal_type(x)       # shown: int | str | None
>> *)
Theorem C57_assert_in_branch_refuted :
  too_wide int_str_none [0%N] (SIf _ _ (is_none x) skip false (SAssert _ _ (is_int x)) ;; reveal 1 x).
Proof.
  exists 1%N, int_str_none, (VStr true). split; [vm_compute; now left|]. split; [reflexivity|]. intros a ev o b W R Hi. unfold execution in R. undo.
Qed.

(** (3) The condition of an [elif], and what is in it, is looked at even if it cannot be reached.
<<
    def f(x: int):
        if isinstance(x, int):
            pass
        elif g():
            reveal_type(x)   # shown: int
>> *)
Theorem C57_dead_elif_refuted :
  too_wide int [0%N] (SIf _ _ (is_int x) skip true (SIf _ _ call (reveal 1 x) false skip)).
Proof.
  exists 1%N, int, (VInt true). split; [vm_compute; now left|]. split; [reflexivity|]. intros a ev o b W R Hi. unfold execution in R. undo.
Qed.

Print Assumptions C57_exact_partial.
Print Assumptions C57_exactly_partial.
Print Assumptions C57_exact_world.
Print Assumptions C57_branches_narrowed_refuted.
Print Assumptions C57_assert_in_branch_refuted.
Print Assumptions C57_dead_elif_refuted.
