(** Proofs that answers do not depend on the number of steps, and that types are not rejected wrongly *)
From Coq Require Import List NArith Bool Lia.
From Verif Require Import TupleModel SubtypeModel SubtypeProofs SubtypeSound.
Import ListNotations.
Open Scope N_scope.

(** ** More steps give the same answer *)
Definition extends (a b : answer) : Prop := forall o, a = Some o -> b = Some o.

Lemma extends_refl : forall a, extends a a.
Proof. intros a o H. exact H. Qed.

Lemma extends_then : forall a b f g, extends a b -> (forall m, extends (f m) (g m)) -> extends (then_ a f) (then_ b g).
Proof. intros [m|] b f g H F o E; [|discriminate E]. rewrite (H m eq_refl). exact (F m o E). Qed.

Lemma extends_or : forall a b f g, extends a b -> extends (f tt) (g tt) -> extends (or_else a f) (or_else b g).
Proof.
  intros a b f g H F. apply extends_then; [exact H|]. intros m. destruct (holds m); [apply extends_refl|].
  apply extends_then; [exact F|]. intros n. apply extends_refl.
Qed.

Lemma extends_both : forall a b c d, extends a b -> extends c d -> extends (both a c) (both b d).
Proof. intros a b c d H F. apply extends_then; [exact H|]. intros m. apply extends_then; [exact F|]. intros n. apply extends_refl. Qed.

Lemma extends_each : forall {A} (f g : A -> answer) l, (forall x, extends (f x) (g x)) -> extends (each f l) (each g l).
Proof.
  intros A f g l H. induction l as [|x l IH]; cbn; [apply extends_refl|]. apply extends_then; [apply H|]. intros m.
  apply extends_then; [exact IH|]. intros n. apply extends_refl.
Qed.

Lemma extends_all : forall {A} (f g : A -> answer) l, (forall x, extends (f x) (g x)) -> extends (all f l) (all g l).
Proof.
  intros A f g l H. induction l as [|x l IH]; cbn; [apply extends_refl|]. apply extends_then; [apply H|]. intros m.
  destruct (holds m); [exact IH|apply extends_refl].
Qed.

Lemma extends_any : forall {A} (f g : A -> answer) l, (forall x, extends (f x) (g x)) -> extends (any f l) (any g l).
Proof.
  intros A f g l H. unfold any. generalize Yes. induction l as [|x l IH]; intros r; cbn; [apply extends_refl|]. apply extends_then; [apply H|]. intros m.
  destruct (holds m); [apply extends_refl|apply IH].
Qed.

Section Monotone.
Variables (p : program) (ask ask' : question -> answer).
Hypothesis H : forall q, extends (ask q) (ask' q).

Ltac step :=
  repeat match goal with
  | |- extends (then_ _ _) (then_ _ _) => apply extends_then; [|intro]
  | |- extends (or_else _ _) (or_else _ _) => apply extends_or
  | |- extends (both _ _) (both _ _) => apply extends_both
  | |- extends (each _ _) (each _ _) => apply extends_each; intro
  | |- extends (all _ _) (all _ _) => apply extends_all; intro
  | |- extends (any _ _) (any _ _) => apply extends_any; intro
  | |- extends (ask _) (ask' _) => apply H
  | |- extends (matches _ _ _ _ _) (matches _ _ _ _ _) => apply H
  | |- extends (is_super_type_of _ _ _ _) _ => apply H
  | |- extends (is_sub_type_of _ _ _ _) _ => apply H
  | |- extends (is_same_type _ _ _ _) _ => apply H
  | |- extends (against _ _ _ _ _) _ => unfold against
  | |- extends (item_matches _ _ _ _) _ => unfold item_matches
  | |- extends (Some _) (Some _) => apply extends_refl
  | |- extends (match ?x with _ => _ end) _ => destruct x
  end.

Lemma extends_class : forall v r c1 gs1 c2 gs2, extends (matches_class p ask v r c1 gs1 c2 gs2) (matches_class p ask' v r c1 gs1 c2 gs2).
Proof. intros. unfold matches_class, argument_matches, generic_matches. step. Qed.

Lemma extends_class_against : forall v r c1 gs1 t2, extends (matches_class_against_type p ask v r c1 gs1 t2) (matches_class_against_type p ask' v r c1 gs1 t2).
Proof. intros. destruct t2; cbn [matches_class_against_type]; try apply extends_class; step. apply extends_class. Qed.

Lemma extends_union : forall r ts1 t2, extends (union_is_super_type_of p ask r ts1 t2) (union_is_super_type_of p ask' r ts1 t2).
Proof. intros. unfold union_is_super_type_of, bound_matches. step. Qed.

Lemma extends_union_internal : forall v r ts1 t2, extends (union_internal p ask v r ts1 t2) (union_internal p ask' v r ts1 t2).
Proof. intros. unfold union_internal. destruct v; try apply extends_union. step. Qed.

Lemma extends_unpack : forall v r w1 a2, extends (match_unpack ask v r w1 a2) (match_unpack ask' v r w1 a2).
Proof. intros. unfold match_unpack. cbv zeta. step. Qed.

Lemma extends_tuple : forall v r a1 a2, extends (match_tuple ask v r a1 a2) (match_tuple ask' v r a1 a2).
Proof. intros. destruct a1, a2; cbn [match_tuple]; unfold match_arbitrary_len_vs_unpack; try apply extends_unpack; step. Qed.

Lemma extends_internal : forall v r t1 t2, extends (matches_internal p ask v r t1 t2) (matches_internal p ask' v r t1 t2).
Proof.
  intros. destruct t1; cbn [matches_internal]; try apply extends_refl; try apply extends_class_against; try apply extends_union_internal.
  - destruct t2; try apply extends_refl. apply extends_class.
  - destruct t2; try apply extends_refl. apply extends_then; [apply extends_tuple|]. intros m. apply extends_refl.
  - step.
  - destruct t2; try (destruct t1; apply extends_refl); [destruct t1; try apply extends_refl; apply extends_union_internal|]. step.
Qed.

Lemma extends_other : forall v r t1 t2, extends (check_other_side p ask v r t1 t2) (check_other_side p ask' v r t1 t2).
Proof. intros. destruct t2; cbn [check_other_side]; try apply extends_refl; cbv zeta; step. Qed.

Lemma extends_mro : forall r t1 l, extends (match_mro p ask r t1 l) (match_mro p ask' r t1 l).
Proof.
  intros r t1 l. induction l as [|t l IH]; cbn; [apply extends_refl|]. apply extends_then; [apply extends_internal|]. intros m. destruct (plain m); [exact IH|apply extends_refl].
Qed.

Lemma extends_super : forall r t1 t2, extends (super_type_of p ask r t1 t2) (super_type_of p ask' r t1 t2).
Proof.
  intros. unfold super_type_of. destruct (negb (looks_at_mro t1)).
  - apply extends_then; [apply extends_internal|]. intros m. destruct (plain m); [|apply extends_refl]. apply extends_or; [apply extends_refl|apply extends_other].
  - apply extends_then; [apply extends_mro|]. intros m. destruct (plain m); [|apply extends_refl].
    apply extends_or; [apply extends_or; [apply extends_refl|apply extends_other]|]. destruct t2; cbn [check_promotion]; step.
Qed.

Lemma extends_respond : forall q, extends (respond p ask q) (respond p ask' q).
Proof.
  intros q. destruct q as [v r t1 t2|r ts1 t2|v r c1 gs1 t2|r t1 c2]; cbn [respond].
  - destruct v; [|apply extends_super|apply extends_super]. apply extends_or; [apply extends_internal|apply extends_other].
  - apply extends_union.
  - apply extends_class_against.
  - unfold check_class_promotion. step.
Qed.
End Monotone.

Theorem run_more : forall p fuel q, extends (run p fuel q) (run p (S fuel) q).
Proof.
  intros p fuel. induction fuel as [|fuel IH]; intros q; [intros o H; discriminate H|]. cbn [run]. apply extends_respond. exact IH.
Qed.

Theorem run_extends : forall p fuel fuel' q, (fuel <= fuel')%nat -> extends (run p fuel q) (run p fuel' q).
Proof.
  intros p fuel fuel' q H. induction H as [|n H IH]; [apply extends_refl|]. intros o E. exact (run_more p n q o (IH o E)).
Qed.

Theorem run_once : forall p fuel fuel' q o o', run p fuel q = Some o -> run p fuel' q = Some o' -> o = o'.
Proof.
  intros p fuel fuel' q o o' H H'. destruct (PeanoNat.Nat.le_ge_cases fuel fuel') as [L|L].
  - rewrite (run_extends p _ _ q L o H) in H'. injection H' as ->. reflexivity.
  - rewrite (run_extends p _ _ q L o' H') in H. injection H as ->. reflexivity.
Qed.

(** ** Answers that are yes *)
Definition yes (a : answer) : Prop := forall o, a = Some o -> o = Yes.

Lemma yes_some : yes (Some Yes).
Proof. intros o H. injection H as <-. reflexivity. Qed.

Lemma yes_then : forall a f, yes a -> yes (f Yes) -> yes (then_ a f).
Proof. intros [m|] f H F o E; [|discriminate E]. rewrite (H m eq_refl) in E. exact (F o E). Qed.

Lemma yes_or_left : forall a f, yes a -> yes (or_else a f).
Proof. intros a f H. apply yes_then; [exact H|]. apply yes_some. Qed.

Lemma yes_or_right : forall a f, yes (f tt) -> yes (or_else a f).
Proof.
  intros [m|] f H o E; [|discriminate E]. cbn in E. destruct (holds m) eqn:Em; [injection E as <-; exact (holds_yes m Em)|].
  destruct (f tt) as [n|]; [|discriminate E]. rewrite (H n eq_refl) in E. injection E as <-. reflexivity.
Qed.

Lemma yes_both : forall a b, yes a -> yes b -> yes (both a b).
Proof. intros a b H F. apply yes_then; [exact H|]. apply yes_then; [exact F|]. apply yes_some. Qed.

Lemma yes_each : forall {A} (f : A -> answer) l, Forall (fun x => yes (f x)) l -> yes (each f l).
Proof. intros A f l H. induction H as [|x l Hx H IH]; cbn; [apply yes_some|]. apply yes_then; [exact Hx|]. apply yes_then; [exact IH|]. apply yes_some. Qed.

Lemma yes_all : forall {A} (f : A -> answer) l, Forall (fun x => yes (f x)) l -> yes (all f l).
Proof. intros A f l H. induction H as [|x l Hx H IH]; cbn; [apply yes_some|]. apply yes_then; [exact Hx|exact IH]. Qed.

Lemma yes_any : forall {A} (f : A -> answer) l x, In x l -> yes (f x) -> yes (any f l).
Proof.
  intros A f l x Hx H. unfold any. generalize Yes as r. induction l as [|y l IH]; [destruct Hx|]. intros r o E. cbn in E.
  destruct (f y) as [m|] eqn:Ey; [|discriminate E]. cbn in E. destruct (holds m) eqn:Em; [injection E as <-; exact (holds_yes m Em)|].
  destruct Hx as [->|Hx]; [rewrite (H m Ey) in Em; discriminate Em|]. exact (IH Hx _ o E).
Qed.

Section Complete.
Variable p : program.

(** *** A type accepts itself *)
(** Not: intersections, a union within a union, and [type[N]] of a NewType *)
Definition plain_member (t : type) : Prop := match t with Union _ | TypeOf (Union _) => False | _ => True end.

Fixpoint reflexive (t : type) : Prop :=
  match t with
  | Class _ gs | Dataclass _ gs => Forall (fun s => s) (map reflexive gs)
  | Tuple (FixedLen ts) => Forall (fun s => s) (map reflexive ts)
  | Tuple (ArbitraryLen t) => reflexive t
  | Tuple (WithUnpack (mk_unpack b (TypeVarTuple _) a)) => Forall (fun s => s) (map reflexive b) /\ Forall (fun s => s) (map reflexive a)
  | Tuple (WithUnpack (mk_unpack b (Many t) a)) =>
      Forall (fun s => s) (map reflexive b) /\ reflexive t /\ Forall (fun s => s) (map reflexive a)
  | Union ts => Forall plain_member ts /\ Forall (fun s => s) (map reflexive ts)
  | Intersection _ | TypeOf (NewType _) => False
  | TypeOf t => reflexive t
  | _ => True
  end.

Definition self_accepted (fuel : nat) (t : type) : Prop := forall v r, yes (run p fuel (Matches v r t t)).

Lemma self_step : forall fuel t, (forall v r, v <> Contravariant -> yes (matches_internal p (run p fuel) v r t t)) -> self_accepted (S fuel) t.
Proof.
  intros fuel t H v r. cbn [run respond].
  assert (G : forall r, yes (super_type_of p (run p fuel) r t t)).
  { clear v r. intros r. unfold super_type_of. destruct (negb (looks_at_mro t)).
    - apply yes_then; [apply H; discriminate|]. apply yes_some.
    - apply yes_then; [|apply yes_some]. cbn [match_mro mro]. apply yes_then; [apply H; discriminate|]. apply yes_some. }
  destruct v; [|apply G|apply G]. apply yes_or_left. apply H. discriminate.
Qed.

Lemma self_class : forall fuel v r c gs, Forall (self_accepted fuel) gs -> yes (matches_class p (run p fuel) v r c gs c gs).
Proof.
  intros fuel v r c gs H. unfold matches_class. rewrite N.eqb_refl. cbn [negb]. destruct (variances p c) as [|x l]; [apply yes_some|].
  apply yes_then; [|apply yes_some]. apply yes_each. generalize (x :: l) as vs. clear x l. induction H as [|g gs Hg H IH]; intros vs; [constructor|].
  destruct vs as [|u vs]; cbn [zip3]; [constructor|]. constructor; [|apply IH]. unfold argument_matches, generic_matches, matches. cbn [fst snd]. destruct r; apply Hg.
Qed.

Lemma self_pairs : forall fuel v r ts, Forall (self_accepted fuel) ts -> yes (each (item_matches (run p fuel) v r) (pairs ts ts)).
Proof. intros fuel v r ts H. apply yes_each. induction H as [|t ts Ht H IH]; cbn; constructor; [apply Ht|exact IH]. Qed.

Lemma rest_self : forall {A} (l : list A), rest l l = [].
Proof. intros A l. unfold rest. apply skipn_all. Qed.

Lemma self_tuple : forall fuel v r b u a, Forall (self_accepted fuel) b -> Forall (self_accepted fuel) a ->
  (forall t, u = Many t -> self_accepted fuel t) -> yes (match_unpack (run p fuel) v r (mk_unpack b u a) (WithUnpack (mk_unpack b u a))).
Proof.
  intros fuel v r b u a Hb Ha Hu. cbn [match_unpack before middle after]. rewrite !rest_self. apply yes_then.
  - apply yes_both; apply self_pairs; [exact Hb|]. apply Forall_rev. exact Ha.
  - replace (rest a (rev a)) with (@nil type) by (unfold rest; rewrite <- (rev_length a), skipn_all; reflexivity). rewrite !PeanoNat.Nat.ltb_irrefl.
    destruct u as [n|t]; cbn [rev].
    + unfold type_var_tuple_matches. rewrite N.eqb_refl. apply yes_some.
    + apply yes_both; [apply yes_some|]. apply (Hu t eq_refl).
Qed.

Lemma Forall_out : forall {A} (P : A -> Prop) (Q : A -> nat -> Prop) l, Forall (fun t => P t -> forall n, Q t n) l -> Forall (fun s => s) (map P l) ->
  forall n, Forall (fun t => Q t n) l.
Proof. intros A P Q l H HP n. apply Forall_of_map in HP. induction H as [|x l Hx H IH]; [constructor|]. inversion HP; subst. constructor; auto. Qed.

Lemma self_union : forall fuel r ts, Forall plain_member ts -> Forall (self_accepted fuel) ts -> (forall n, Forall (self_accepted n) ts) ->
  yes (union_is_super_type_of p (run p fuel) r ts (Union ts)).
Proof.
  intros fuel r ts Hm Hs Hn. cbn [union_is_super_type_of]. destruct (same_union p ts ts); [apply yes_some|]. apply yes_all.
  rewrite Forall_forall. intros t Ht. destruct fuel as [|fuel]; [intros o E; discriminate E|]. cbn [run respond].
  assert (G : yes (then_ (bound_matches p (run p fuel) r ts t) (fun m => if holds m then Some m else any (fun t1 => is_super_type_of (run p fuel) r t1 t) ts))).
  { intros o E. destruct (bound_matches p (run p fuel) r ts t) as [m|]; [|discriminate E]. cbn in E. destruct (holds m) eqn:Em; [injection E as <-; exact (holds_yes m Em)|].
    revert o E. apply (yes_any _ _ t Ht). assert (F := Hn fuel). rewrite Forall_forall in F. apply F. exact Ht. }
  rewrite Forall_forall in Hm. specialize (Hm t Ht). destruct t; try exact G.
  - cbn [union_is_super_type_of]. destruct ((c =? bool_class p) && _); [apply yes_some|exact G].
  - destruct Hm.
  - destruct t; try exact G. destruct Hm.
Qed.

Lemma self_accepted_all : forall t, reflexive t -> forall fuel, self_accepted fuel t.
Proof.
  intros t. induction t using type_induction; intros Hr fuel; (destruct fuel as [|fuel]; [intros v r o E; discriminate E|]);
    try (apply self_step; intros v r _; cbn [matches_internal]; rewrite ?N.eqb_refl; apply yes_some).
  - apply self_step. intros v r _. cbn [matches_internal matches_class_against_type]. apply self_class. exact (Forall_out _ _ _ H Hr fuel).
  - apply self_step. intros v r _. cbn [matches_internal]. apply self_class. exact (Forall_out _ _ _ H Hr fuel).
  - apply self_step. intros v r _. destruct l; cbn; rewrite ?N.eqb_refl, ?eqb_reflx; apply yes_some.
  - apply self_step. intros v r _. cbn [matches_internal match_tuple]. apply yes_then; [|apply yes_some]. rewrite PeanoNat.Nat.eqb_refl.
    apply self_pairs. exact (Forall_out _ _ _ H Hr fuel).
  - apply self_step. intros v r _. cbn [matches_internal match_tuple]. apply yes_then; [|apply yes_some]. apply IHt. exact Hr.
  - apply self_step. intros v r _. cbn [matches_internal match_tuple]. apply yes_then; [|apply yes_some]. destruct Hr as [Hb Ha].
    apply self_tuple; [exact (Forall_out _ _ _ H Hb fuel)|exact (Forall_out _ _ _ H0 Ha fuel)|discriminate].
  - apply self_step. intros v r _. cbn [matches_internal match_tuple]. apply yes_then; [|apply yes_some]. destruct Hr as [Hb [Ht Ha]].
    apply self_tuple; [exact (Forall_out _ _ _ H Hb fuel)|exact (Forall_out _ _ _ H0 Ha fuel)|]. intros t' E. injection E as <-. exact (IHt Ht fuel).
  - destruct Hr as [Hm Hr]. assert (Hn := Forall_out _ _ _ H Hr).
    assert (U : forall n r, yes (union_is_super_type_of p (run p n) r ts (Union ts))) by (intros n r; exact (self_union n r ts Hm (Hn n) Hn)).
    apply self_step. intros v r Hv. cbn [matches_internal union_internal]. destruct v; [|apply U|destruct (Hv eq_refl)].
    assert (S1 : forall r, yes (run p fuel (Matches Covariant r (Union ts) (Union ts)))).
    { clear r. intros r. destruct fuel as [|n]; [intros o E; discriminate E|]. cbn [run respond]. unfold super_type_of. cbn [looks_at_mro negb].
      apply yes_then; [apply U|apply yes_some]. }
    apply yes_both; [apply S1|]. destruct fuel as [|n]; [intros o E; discriminate E|]. cbn [is_sub_type_of matches run respond]. apply (S1 (negb r)).
  - destruct Hr.
  - apply self_step. intros v r _. cbn [matches_internal].
    assert (G : yes (then_ (matches (run p fuel) v r t t) (fun m => Some (if is_union_like t then m else similar_if_false m))) -> yes match t with
      | NewType _ => Some no | _ => then_ (matches (run p fuel) v r t t) (fun m => Some (if is_union_like t then m else similar_if_false m)) end).
    { destruct t; try (intros E; exact E). destruct Hr. }
    apply G. apply yes_then; [apply IHt; destruct t; try exact Hr; destruct Hr|]. destruct (is_union_like t); apply yes_some.
Qed.

(** *** Object accepts every value *)
Definition yes_or_plain (a : answer) : Prop := forall o, a = Some o -> o = Yes \/ plain o = true.

Lemma yp_bool : forall b, yes_or_plain (Some (of_bool b)).
Proof. intros b o E. injection E as <-. destruct b; [left|right]; reflexivity. Qed.

Lemma yp_no : yes_or_plain (Some no).
Proof. exact (yp_bool false). Qed.

Lemma yp_or : forall a f, yes_or_plain a -> yes_or_plain (f tt) -> yes_or_plain (or_else a f).
Proof.
  intros [m|] f Ha Hf o E; [|discriminate E]. cbn in E. destruct (Ha m eq_refl) as [->|Hm]; [injection E as <-; left; reflexivity|].
  destruct (holds m) eqn:Em; [injection E as <-; right; exact Hm|]. destruct (f tt) as [n|]; [|discriminate E]. cbn in E. rewrite Hm, orb_true_r in E.
  injection E as <-. exact (Hf n eq_refl).
Qed.

Lemma object_accepts_all : variances p (object p) = [] -> forall fuel r,
  (forall t, yes (run p fuel (Matches Covariant r (Class (object p) []) t))) /\
  (forall t, yes_or_plain (run p fuel (ClassAgainst Covariant r (object p) [] t))).
Proof.
  intros Hv fuel. induction fuel as [|fuel IH]; intros r; [split; intros t o E; discriminate E|]. destruct (IH r) as [IHm IHc].
  assert (M : forall c2 gs2, yes_or_plain (matches_class p (run p fuel) Covariant r (object p) [] c2 gs2)).
  { intros c2 gs2. unfold matches_class. rewrite Hv. destruct (negb _); [apply yp_no|apply (yp_bool true)]. }
  assert (C : forall t, yes_or_plain (matches_class_against_type p (run p fuel) Covariant r (object p) [] t)).
  { intros t. destruct t; cbn [matches_class_against_type]; try apply yp_no; try apply M; try apply yp_bool.
    apply yp_or; [|apply yp_bool]. destruct t; try apply yp_no.
    - destruct (metaclass p c); [apply yp_bool|apply yp_or; apply yp_bool|]. destruct (is_protocol p (object p)); [apply yp_no|].
      apply yp_or; [|apply yp_bool]. intros o E. left. exact (IHm _ o E).
    - destruct (kind_of p n); [apply yp_no|apply IHc|apply (yp_bool true)]. }
  split; [|exact C]. intros t. cbn [run respond]. unfold super_type_of. cbn [looks_at_mro negb]. apply yes_then; [|apply yes_some].
  assert (G : forall l, yes (match_mro p (run p fuel) r (Class (object p) []) (l ++ [Class (object p) []]))).
  { intros l. induction l as [|x l IHl]; cbn [app match_mro].
    - apply yes_then; [|apply yes_some]. cbn [matches_internal matches_class_against_type]. unfold matches_class. rewrite N.eqb_refl, Hv. apply yes_some.
    - intros o E. destruct (matches_internal p (run p fuel) Covariant r (Class (object p) []) x) as [m|] eqn:Em; [|discriminate E]. cbn in E.
      cbn [matches_internal] in Em. destruct (C x m Em) as [->|Hm]; [injection E as <-; reflexivity|]. rewrite Hm in E. exact (IHl o E). }
  exact (G (t :: behind p t)).
Qed.

(** *** Every type accepts [Never] *)
Lemma never_accepted : variances p (object p) = [] -> forall fuel r t, yes (run p fuel (Matches Covariant r t Never)).
Proof.
  intros Hv fuel. induction fuel as [|fuel IH]; intros r t; [intros o E; discriminate E|]. cbn [run respond].
  assert (O : forall r, yes (or_else (Some no) (fun _ => check_other_side p (run p fuel) Covariant r t Never))) by (intros r'; apply yes_or_right; apply yes_some).
  unfold super_type_of. destruct t; cbn [looks_at_mro negb matches_internal];
    try (apply (O r)); try (intros o E; injection E as <-; reflexivity).
  - intros o E. cbn [match_mro mro behind app matches_internal matches_class_against_type then_ plain no] in E. unfold matches_class in E.
    revert o E. destruct (N.eqb_spec c (object p)) as [->|Hne]; cbn [negb].
    + rewrite Hv. apply yes_some.
    + cbn [then_ plain no]. apply yes_or_left. apply yes_or_right. apply yes_some.
  - unfold union_internal, union_is_super_type_of. cbn [bound_matches then_ holds no].
    assert (G : forall ts, yes (any (fun t1 => is_super_type_of (run p fuel) r t1 Never) ts)).
    { intros us. destruct us as [|u us]; [apply yes_some|]. apply (yes_any _ _ u); [left; reflexivity|]. apply IH. }
    apply yes_then; [apply G|apply yes_some].
  - apply yes_then; [|apply yes_some]. apply yes_all. rewrite Forall_forall. intros u _. apply IH.
  - destruct t; apply (O r).
Qed.

(** *** A union is accepted where all its members are *)
Lemma union_value_accepted : forall fuel r t us, is_union_like t = false -> match t with Intersection _ => False | _ => True end ->
  (forall n u, In u us -> yes (run p n (Matches Covariant r t u))) -> yes (run p fuel (Matches Covariant r t (Union us))).
Proof.
  intros fuel r t us Hu Hi H. destruct fuel as [|fuel]; [intros o E; discriminate E|]. cbn [run respond].
  assert (O : yes (check_other_side p (run p fuel) Covariant r t (Union us))).
  { cbn [check_other_side]. rewrite Hu. apply yes_all. rewrite Forall_forall. intros u Hin. apply H. exact Hin. }
  assert (O' : yes (or_else (Some no) (fun _ => check_other_side p (run p fuel) Covariant r t (Union us)))) by (apply yes_or_right; exact O).
  unfold super_type_of. destruct t; cbn [looks_at_mro negb matches_internal]; try exact O'; try (intros o E; injection E as <-; reflexivity).
  - cbn [match_mro mro behind app matches_internal matches_class_against_type].
    destruct (_ && _ && _); [apply yes_some|]. cbn [of_bool then_ plain no]. unfold matches_class. destruct (N.eqb_spec c (object p)) as [->|Hne]; cbn [negb].
    + destruct (variances p (object p)) as [|v vs]; [apply yes_some|]. cbn [zip3]. destruct gs; cbn; apply yes_some.
    + cbn [then_ plain no]. apply yes_or_left. apply yes_or_right. exact O.
  - cbn [match_mro mro behind app matches_internal then_ plain no]. apply yes_or_left. apply yes_or_right. exact O.
  - cbn [match_mro mro behind app matches_internal then_ plain no]. apply yes_or_left. apply yes_or_right. exact O.
  - discriminate Hu.
  - destruct Hi.
  - destruct t; try exact O'. discriminate Hu.
Qed.

(** *** A union accepts its members *)
Lemma member_accepted : forall fuel r t ts, In t ts -> reflexive t -> plain_member t -> yes (run p fuel (Matches Covariant r (Union ts) t)).
Proof.
  intros fuel r t ts Hin Hr Hm. destruct fuel as [|fuel]; [intros o E; discriminate E|]. cbn [run respond].
  unfold super_type_of. cbn [looks_at_mro negb matches_internal]. apply yes_then; [|apply yes_some]. unfold union_internal.
  assert (G : yes (then_ (bound_matches p (run p fuel) r ts t) (fun m => if holds m then Some m else any (fun t1 => is_super_type_of (run p fuel) r t1 t) ts))).
  { intros o E. destruct (bound_matches p (run p fuel) r ts t) as [m|]; [|discriminate E]. cbn in E. destruct (holds m) eqn:Em; [injection E as <-; exact (holds_yes m Em)|].
    revert o E. apply (yes_any _ _ t Hin). apply (self_accepted_all t Hr). }
  destruct t; try exact G.
  - cbn [union_is_super_type_of]. destruct ((c =? bool_class p) && _); [apply yes_some|exact G].
  - destruct Hm.
  - destruct t; try exact G. destruct Hm.
Qed.
End Complete.
