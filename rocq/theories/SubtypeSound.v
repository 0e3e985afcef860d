(** Proofs that a type which is accepted has no values outside of the expected type *)
From Coq Require Import List NArith Bool Lia.
From Verif Require Import TupleModel TupleSpec SubtypeModel SubtypeSpec SubtypeProofs.
Import ListNotations.
Open Scope N_scope.

(** ** Answers *)
Lemma then_yes : forall a f, then_ a f = Some Yes -> exists m, a = Some m /\ f m = Some Yes.
Proof. intros [m|] f H; [exists m; auto|discriminate H]. Qed.

Lemma and_yes : forall m n, and m n = Yes -> m = Yes /\ n = Yes.
Proof. intros [[] r|] n H; cbn in H; try discriminate H; [destruct n as [[] ?|]; discriminate H|auto]. Qed.

Lemma holds_yes : forall m, holds m = true -> m = Yes.
Proof. intros [s r|] H; [discriminate H|reflexivity]. Qed.

Lemma or_else_yes : forall a b, or_else a b = Some Yes -> a = Some Yes \/ b tt = Some Yes.
Proof.
  intros a b H. apply then_yes in H. destruct H as [m [-> H]]. destruct (holds m) eqn:Em; [left; rewrite (holds_yes m Em); reflexivity|right].
  apply then_yes in H. destruct H as [n [-> H]]. injection H as H. destruct (holds n) eqn:En; [rewrite (holds_yes n En); reflexivity|].
  cbn [orb] in H. destruct (plain m); [rewrite H; reflexivity|]. rewrite H in Em. discriminate Em.
Qed.

Lemma both_yes : forall a b, both a b = Some Yes -> a = Some Yes /\ b = Some Yes.
Proof.
  intros a b H. apply then_yes in H. destruct H as [m [-> H]]. apply then_yes in H. destruct H as [n [-> H]]. injection H as H.
  apply and_yes in H. destruct H as [-> ->]. auto.
Qed.

Lemma similar_yes : forall m, similar_if_false m = Yes -> m = Yes.
Proof. intros [s r|] H; [discriminate H|reflexivity]. Qed.

Lemma of_bool_yes : forall b, of_bool b = Yes -> b = true.
Proof. intros [] H; [reflexivity|discriminate H]. Qed.

Lemma some_of_bool_yes : forall b, Some (of_bool b) = Some Yes -> b = true.
Proof. intros b H. apply of_bool_yes. injection H as H. exact H. Qed.

Lemma each_yes : forall {A} (f : A -> answer) l, each f l = Some Yes -> Forall (fun x => f x = Some Yes) l.
Proof.
  intros A f l. induction l as [|x l IH]; intros H; [constructor|]. cbn in H. apply then_yes in H. destruct H as [m [Hm H]].
  apply then_yes in H. destruct H as [n [Hn H]]. injection H as H. apply and_yes in H. destruct H as [-> ->]. constructor; [exact Hm|exact (IH Hn)].
Qed.

Lemma all_yes : forall {A} (f : A -> answer) l, all f l = Some Yes -> Forall (fun x => f x = Some Yes) l.
Proof.
  intros A f l. induction l as [|x l IH]; intros H; [constructor|]. cbn in H. apply then_yes in H. destruct H as [m [Hm H]].
  destruct (holds m) eqn:E; [|discriminate H]. rewrite (holds_yes m E) in Hm. constructor; [exact Hm|exact (IH H)].
Qed.

Lemma any_from_yes : forall {A} (f : A -> answer) l r, any_from f l r = Some Yes -> r = Yes /\ l = [] \/ exists x, In x l /\ f x = Some Yes.
Proof.
  intros A f l. induction l as [|x l IH]; intros r H; cbn in H; [injection H as ->; left; auto|right]. apply then_yes in H. destruct H as [m [Hm H]].
  destruct (holds m) eqn:E; [rewrite (holds_yes m E) in Hm; exists x; split; [left; reflexivity|exact Hm]|].
  destruct (IH _ H) as [[E1 _]|[y [Hy Hf]]]; [|exists y; split; [right; exact Hy|exact Hf]].
  destruct r as [[] r|]; [discriminate E1| |]; rewrite E1 in E; discriminate E.
Qed.

Lemma any_yes : forall {A} (f : A -> answer) l, l <> [] -> any f l = Some Yes -> exists x, In x l /\ f x = Some Yes.
Proof. intros A f l Hl H. destruct (any_from_yes f l Yes H) as [[_ E]|E]; [destruct (Hl E)|exact E]. Qed.

Lemma filter_length_le : forall {A} (f : A -> bool) l, (length (filter f l) <= length l)%nat.
Proof. intros A f l. induction l as [|x l IH]; cbn; [lia|]. destruct (f x); cbn; lia. Qed.

(** ** The meaning of the questions *)
Section Sound.
Context {V : Type}.
Variables (p : program) (w : world V) (env : N -> V -> Prop).
Hypothesis Hp : proper p.
Hypothesis Hw : lawful p w env.
Notation has := (has w env).
Notation fine := (fine p None).
Notation fine_value := (fine_value p None).

Definition sound (q : question) : Prop :=
  match q with
  | Matches v _ t1 t2 =>
      match v with
      | Covariant => fine t1 -> fine_value t2 -> within (has t2) (has t1)
      | Contravariant => fine_value t1 -> fine t2 -> within (has t1) (has t2)
      | Invariant => (fine t1 -> fine t2 -> forall x, has t2 x <-> has t1 x) /\
          (forall c1 gs1 c2 gs2, t1 = Class c1 gs1 -> t2 = Class c2 gs2 -> c1 = c2)
      end
  | UnionSuper _ ts1 t2 => fine (Union ts1) -> fine_value t2 -> within (has t2) (has (Union ts1))
  | ClassAgainst v _ c1 gs1 t2 =>
      match v with
      | Covariant => fine (Class c1 gs1) -> fine_value t2 -> within (has t2) (has (Class c1 gs1))
      | Contravariant => True
      | Invariant => fine (Class c1 gs1) -> fine t2 -> (forall x, has t2 x <-> has (Class c1 gs1) x) /\ (forall t, t2 <> TypeOf t)
      end
  | Promotion _ t1 c2 => fine t1 -> forall s x, instance w c2 s x -> has t1 x
  end.

Definition instance_related := instance_same p w (law_arguments _ _ _ Hw).

Lemma typable_members : forall ts, typable p None (Union ts) -> Forall (typable p None) ts.
Proof. intros ts H. apply Forall_of_map. exact H. Qed.

Lemma fine_members : forall ts, fine (Union ts) -> Forall fine ts.
Proof. intros ts [_ [_ [_ H]]]. apply Forall_of_map. exact H. Qed.

Lemma fine_union_of_types : forall ts, fine (TypeOf (Union ts)) -> fine (Union (map TypeOf ts)).
Proof.
  intros ts [Ht [Hn [_ [_ Hf]]]]. apply typable_members in Ht. apply Forall_of_map in Hf. cbn [SubtypeSpec.fine].
  split; [destruct ts; [destruct (Hn eq_refl)|discriminate]|]. split; [|split].
  - intros Hc. exfalso. assert (E : filter (fun t => match t with Literal (LBool _) => true | _ => false end) (map TypeOf ts) = []).
    { clear. induction ts as [|t ts IH]; [reflexivity|exact IH]. } rewrite E in Hc. cbn in Hc. lia.
  - intros E. destruct (E eq_refl).
  - apply map_of_Forall. apply Forall_map. rewrite Forall_forall in *. intros t Hin. exact (conj (Ht t Hin) (Hf t Hin)).
Qed.

Lemma has_union_of_types : forall ts x, has (TypeOf (Union ts)) x <-> has (Union (map TypeOf ts)) x.
Proof.
  intros ts x. rewrite has_union. split.
  - intros [y [Hy H]]. apply has_union in H. destruct H as [t [Ht H]]. exists (TypeOf t). split; [apply in_map; exact Ht|]. exists y. auto.
  - intros [s [Hs H]]. apply in_map_iff in Hs. destruct Hs as [t [<- Ht]]. destruct H as [y [Hy H]]. exists y. split; [exact Hy|].
    apply has_union. exists t. auto.
Qed.

Lemma not_any : forall t, fine t -> is_any t = false.
Proof. intros t H. destruct t; try reflexivity. destruct H. Qed.

Section Step.
Variable ask : question -> answer.
Hypothesis IH : forall q, ask q = Some Yes -> sound q.

Lemma matches_sound : forall v r t1 t2, matches ask v r t1 t2 = Some Yes -> fine t1 -> fine t2 -> related v (has t2) (has t1).
Proof.
  intros v r t1 t2 H H1 H2. assert (S1 := IH _ H). cbn in S1. destruct v; cbn.
  - exact (proj1 S1 H1 H2).
  - exact (S1 H1 (fine_is_value p _ _ H2)).
  - exact (S1 (fine_is_value p _ _ H1) H2).
Qed.

Lemma generic_sound : forall v r t1 t2, generic_matches ask v r t1 t2 = Some Yes -> fine t1 -> fine t2 -> related v (has t2) (has t1).
Proof.
  intros v r t1 t2 H H1 H2. unfold generic_matches in H. destruct r; [|exact (matches_sound _ _ _ _ H H1 H2)].
  assert (S1 := matches_sound _ _ _ _ H H2 H1). destruct v; cbn in *; [intros x; symmetry; apply S1|exact S1|exact S1].
Qed.

Lemma zip3_at : forall {A B C} (l : list A) (m : list B) (n : list C) i x y z, nth_error l i = Some x -> nth_error m i = Some y -> nth_error n i = Some z ->
  In (x, y, z) (zip3 l m n).
Proof.
  intros A B C l. induction l as [|a l IHl]; intros m n i x y z Hx Hy Hz; [destruct i; discriminate Hx|].
  destruct m as [|b m]; [destruct i; discriminate Hy|]. destruct n as [|c n]; [destruct i; discriminate Hz|]. destruct i as [|i]; cbn in *.
  - injection Hx as ->. injection Hy as ->. injection Hz as ->. left. reflexivity.
  - right. exact (IHl m n i x y z Hx Hy Hz).
Qed.

Lemma nth_map_inv : forall {A B} (f : A -> B) l i b, nth_error (map f l) i = Some b -> exists a, nth_error l i = Some a /\ f a = b.
Proof.
  intros A B f l. induction l as [|x l IHl]; intros i b H; destruct i as [|i]; cbn in H; try discriminate H.
  - injection H as <-. exists x. auto.
  - exact (IHl i b H).
Qed.

Lemma class_arguments : forall v r c1 gs1 c2 gs2, matches_class p ask v r c1 gs1 c2 gs2 = Some Yes ->
  length gs1 = length (variances p c1) -> length gs2 = length (variances p c2) -> Forall fine gs1 -> Forall fine gs2 ->
  c1 = c2 /\ forall i u a b, nth_error (variances p c1) i = Some u -> nth_error gs2 i = Some a -> nth_error gs1 i = Some b ->
    related (variance_of_argument v u) (has a) (has b).
Proof.
  intros v r c1 gs1 c2 gs2 H Hl1 Hl2 Hg1 Hg2. unfold matches_class in H. destruct (c1 =? c2) eqn:E; cbn [negb] in H; [|discriminate H].
  apply N.eqb_eq in E. subst c2. split; [reflexivity|]. intros i u a b Hu Ha Hb.
  assert (H' : each (argument_matches ask v r) (zip3 gs1 gs2 (variances p c1)) = Some Yes).
  { destruct (variances p c1) as [|x l] eqn:Ev; [destruct i; discriminate Hu|]. apply then_yes in H. destruct H as [m [Hm H]].
    injection H as H. apply similar_yes in H. subst m. exact Hm. }
  apply each_yes in H'. rewrite Forall_forall in H', Hg1, Hg2. specialize (H' (b, a, u) (zip3_at _ _ _ _ _ _ _ Hb Ha Hu)).
  unfold argument_matches in H'. cbn [fst snd] in H'.
  exact (generic_sound _ _ _ _ H' (Hg1 b (nth_error_In _ _ Hb)) (Hg2 a (nth_error_In _ _ Ha))).
Qed.

Lemma class_covariant : forall r c1 gs1 c2 gs2, matches_class p ask Covariant r c1 gs1 c2 gs2 = Some Yes ->
  length gs1 = length (variances p c1) -> length gs2 = length (variances p c2) -> Forall fine gs1 -> Forall fine gs2 ->
  within (instance w c2 (map has gs2)) (instance w c1 (map has gs1)).
Proof.
  intros r c1 gs1 c2 gs2 H Hl1 Hl2 Hg1 Hg2. destruct (class_arguments _ _ _ _ _ _ H Hl1 Hl2 Hg1 Hg2) as [<- Ha]. intros x.
  apply (law_arguments _ _ _ Hw); [rewrite map_length; exact Hl2|rewrite map_length; exact Hl1|]. intros i u a b Hu Hx Hy.
  destruct (nth_map_inv _ _ _ _ Hx) as [a' [Ha' <-]]. destruct (nth_map_inv _ _ _ _ Hy) as [b' [Hb' <-]]. exact (Ha i u a' b' Hu Ha' Hb').
Qed.

Lemma same_arguments : forall c gs1 gs2, length gs1 = length (variances p c) -> length gs2 = length (variances p c) ->
  (forall i u a b, nth_error (variances p c) i = Some u -> nth_error gs2 i = Some a -> nth_error gs1 i = Some b -> forall x, has a x <-> has b x) ->
  forall x, instance w c (map has gs2) x <-> instance w c (map has gs1) x.
Proof.
  intros c gs1 gs2 Hl1 Hl2 Ha x. apply instance_related; [rewrite map_length; exact Hl2|]. apply Forall2_same_nth; [rewrite !map_length; congruence|].
  intros i a b Hx Hy. destruct (nth_map_inv _ _ _ _ Hx) as [a' [Ha' <-]]. destruct (nth_map_inv _ _ _ _ Hy) as [b' [Hb' <-]].
  destruct (nth_error (variances p c) i) as [u|] eqn:Hu; [exact (Ha i u a' b' Hu Ha' Hb')|]. exfalso. apply nth_error_None in Hu.
  assert (i < length gs2)%nat by (apply nth_error_Some; congruence). lia.
Qed.

Lemma class_invariant : forall r c1 gs1 c2 gs2, matches_class p ask Invariant r c1 gs1 c2 gs2 = Some Yes ->
  length gs1 = length (variances p c1) -> length gs2 = length (variances p c2) -> Forall fine gs1 -> Forall fine gs2 ->
  forall x, instance w c2 (map has gs2) x <-> instance w c1 (map has gs1) x.
Proof.
  intros r c1 gs1 c2 gs2 H Hl1 Hl2 Hg1 Hg2. destruct (class_arguments _ _ _ _ _ _ H Hl1 Hl2 Hg1 Hg2) as [<- Ha].
  exact (same_arguments c1 gs1 gs2 Hl1 Hl2 Ha).
Qed.

Lemma dataclass_sound : forall r c1 gs1 c2 gs2, matches_class p ask Covariant r c1 gs1 c2 gs2 = Some Yes ->
  fine (Dataclass c1 gs1) -> fine (Dataclass c2 gs2) -> forall x, has (Dataclass c2 gs2) x <-> has (Dataclass c1 gs1) x.
Proof.
  intros r c1 gs1 c2 gs2 H [Hl1 [Hv1 Hg1]] [Hl2 [_ Hg2]]. apply Forall_of_map in Hg1. apply Forall_of_map in Hg2.
  destruct (class_arguments _ _ _ _ _ _ H Hl1 Hl2 Hg1 Hg2) as [<- Ha]. apply (same_arguments c1 gs1 gs2 Hl1 Hl2).
  intros i u a b Hu Hx Hy. assert (E := Ha i u a b Hu Hx Hy). rewrite Forall_forall in Hv1. assert (Hi := Hv1 u (nth_error_In _ _ Hu)). subst u. exact E.
Qed.

Lemma literal_class : forall l x, literal_value w l x -> instance w (fallback p l) [] x.
Proof.
  intros [n s|b|s|s] x H; cbn [fallback].
  - exact (law_int _ _ _ Hw _ _ _ H).
  - apply (law_bool _ _ _ Hw). destruct b; [left|right]; exact H.
  - exact (law_text _ _ _ Hw _ (law_str _ _ _ Hw _ _ H)).
  - exact (law_bytes _ _ _ Hw _ _ H).
Qed.

Lemma literal_variances : forall l, variances p (fallback p l) = [].
Proof. intros l. refine (proj1 (proper_literals _ Hp _ _)). destruct l; cbn; auto. Qed.

Lemma literal_bases : forall l, incomplete p (fallback p l) = false.
Proof. intros l. refine (proj2 (proper_literals _ Hp _ _)). destruct l; cbn; auto. Qed.

Lemma builtin_variances : forall c, In c [int_class p; bool_class p; str_class p; bytes_class p] -> variances p c = [].
Proof. intros c H. exact (proj1 (proper_literals _ Hp c H)). Qed.

Lemma fine_class : forall c gs, fine (Class c gs) -> length gs = length (variances p c) /\ Forall fine gs.
Proof. intros c gs [Hl [_ [_ [_ [_ [_ Hg]]]]]]. split; [exact Hl|]. apply Forall_of_map. exact Hg. Qed.

Lemma fine_value_class : forall c gs, fine_value (Class c gs) -> length gs = length (variances p c) /\ Forall fine gs.
Proof. intros c gs [Hl [_ Hg]]. split; [exact Hl|]. apply Forall_of_map. exact Hg. Qed.

Lemma bool_literals : forall ts, (2 <= bool_literal_count ts)%nat -> distinct_bools ts -> forall x, instance w (bool_class p) [] x -> has (Union ts) x.
Proof.
  intros ts Hc Hd x H. apply has_union. apply (law_bool _ _ _ Hw) in H. destruct (Hd Hc) as [Ht Hf].
  destruct H as [H|H]; [exists (Literal (LBool true))|exists (Literal (LBool false))]; auto.
Qed.

Lemma only_bool_literals : forall ts, bool_literal_count ts = length ts -> forall x, has (Union ts) x -> instance w (bool_class p) [] x.
Proof.
  intros ts Hc x H. apply has_union in H. destruct H as [t [Ht H]]. assert (E : is_bool_literal t = true).
  { clear H. revert t Ht. unfold bool_literal_count in Hc. induction ts as [|s ts IHt]; intros t Hin; [destruct Hin|]. destruct Hin as [<-|Ht]; cbn [filter length] in Hc.
    - destruct (is_bool_literal s) eqn:E; [reflexivity|]. assert (L := filter_length_le is_bool_literal ts). lia.
    - destruct (is_bool_literal s) eqn:E; cbn [length] in Hc; [apply IHt; [lia|exact Ht]|]. assert (L := filter_length_le is_bool_literal ts). lia. }
  destruct t; try discriminate E. destruct l; try discriminate E. exact (literal_class (LBool b) x H).
Qed.

(** [matches_class_against_type] *)
Lemma type_never_same : forall r c1 gs1 t, fine (Class c1 gs1) -> fine (TypeOf t) ->
  matches_class_against_type p ask Invariant r c1 gs1 (TypeOf t) <> Some Yes.
Proof.
  intros r c1 gs1 t H1 H2 H. cbn [matches_class_against_type] in H. assert (H1' := H1). destruct H1' as [_ [_ [_ [Hm [Hb [Hg _]]]]]].
  apply or_else_yes in H. destruct H as [H|H]; [|apply some_of_bool_yes, N.eqb_eq in H; exact (Hb H)].
  destruct t; try discriminate H.
  - assert (A : forall b, Some (of_bool (b && false)) <> Some Yes).
    { intros b. rewrite andb_false_r. discriminate. }
    destruct (metaclass p c) as [| |d] eqn:Em.
    + exact (A _ H).
    + destruct H2 as [_ [_ [_ [Hu _]]]]. exact (Hu Em).
    + destruct (is_protocol p c1); [discriminate H|]. apply or_else_yes in H. destruct H as [H|H]; [|exact (A _ H)].
      apply IH in H. cbn in H. assert (E := proj2 H c1 gs1 d [] eq_refl eq_refl). subst d. exact (Hm c Em).
  - destruct H2 as [Ht _]. cbn in Ht. unfold constrained in Ht. destruct (kind_of p n) as [|b|cs] eqn:Ek; [discriminate H| |exact (Ht I)].
    assert (K := proper_kinds _ Hp n). rewrite Ek in K. apply IH in H. exact (proj2 (H H1 K) b eq_refl).
Qed.

Lemma type_covariant : forall r c1 gs1 t, fine (Class c1 gs1) -> fine (TypeOf t) ->
  matches_class_against_type p ask Covariant r c1 gs1 (TypeOf t) = Some Yes -> within (has (TypeOf t)) (has (Class c1 gs1)).
Proof.
  intros r c1 gs1 t H1 H2 H. cbn [matches_class_against_type] in H. assert (H1' := H1). destruct H1' as [_ [_ [_ [Hm [Hb [Hg _]]]]]].
  apply or_else_yes in H. destruct H as [H|H]; [|apply some_of_bool_yes, N.eqb_eq in H; destruct (Hb H)].
  destruct t; try discriminate H.
  - assert (A : Some (of_bool ((c1 =? generic_alias p) && negb match gs with [] => true | _ => false end && true)) <> Some Yes).
    { apply N.eqb_neq in Hg. rewrite Hg. discriminate. }
    destruct (metaclass p c) as [| |d] eqn:Em.
    + destruct (A H).
    + destruct H2 as [_ [_ [_ [Hu _]]]]. destruct (Hu Em).
    + destruct (is_protocol p c1); [discriminate H|]. apply or_else_yes in H. destruct H as [H|H]; [|destruct (A H)].
      apply IH in H. cbn in H. specialize (H H1 (proper_metaclasses _ Hp c d Em)). intros x [y [Hy Hx]]. apply H. cbn [SubtypeSpec.has map].
      exact (law_metaclasses _ _ _ Hw _ _ _ _ _ Em Hx Hy).
  - destruct H2 as [Ht _]. cbn in Ht. unfold constrained in Ht. destruct (kind_of p n) as [|b|cs] eqn:Ek; [discriminate H| |destruct (Ht I)].
    assert (K := proper_kinds _ Hp n). rewrite Ek in K. apply IH in H. specialize (H H1 K). intros x [y [Hy Hx]]. apply H. exists y.
    split; [exact Hy|]. assert (L := law_kinds _ _ _ Hw n). rewrite Ek in L. exact (L y Hx).
Qed.

Lemma class_against_covariant : forall r c1 gs1 t2, matches_class_against_type p ask Covariant r c1 gs1 t2 = Some Yes ->
  fine (Class c1 gs1) -> fine_value t2 -> within (has t2) (has (Class c1 gs1)).
Proof.
  intros r c1 gs1 t2 H H1 H2. destruct (fine_class _ _ H1) as [Hl1 Hg1]. destruct t2; try discriminate H.
  - cbn [matches_class_against_type] in H. destruct (fine_value_class _ _ H2) as [Hl2 Hg2]. exact (class_covariant _ _ _ _ _ H Hl1 Hl2 Hg1 Hg2).
  - cbn [matches_class_against_type] in H.
    assert (E := class_covariant _ _ _ _ _ H Hl1 ltac:(rewrite literal_variances; reflexivity) Hg1 ltac:(constructor)).
    intros x Hx. apply E. exact (literal_class l x Hx).
  - cbn [matches_class_against_type] in H. rewrite andb_true_r in H. apply some_of_bool_yes, N.eqb_eq in H. subst c1. intros x Hx.
    assert (E : gs1 = []). { rewrite builtin_variances in Hl1 by (cbn; auto). destruct gs1; [reflexivity|discriminate Hl1]. }
    subst gs1. exact (law_text _ _ _ Hw _ Hx).
  - cbn [matches_class_against_type] in H. apply some_of_bool_yes in H. apply andb_prop in H. destruct H as [H Hn]. apply andb_prop in H. destruct H as [H Hc].
    apply N.eqb_eq in H. apply PeanoNat.Nat.eqb_eq in Hc. apply PeanoNat.Nat.eqb_eq in Hn. subst c1.
    assert (E : gs1 = []). { rewrite builtin_variances in Hl1 by (cbn; auto). destruct gs1; [reflexivity|discriminate Hl1]. }
    subst gs1. exact (only_bool_literals ts ltac:(congruence)).
  - exact (type_covariant r c1 gs1 t2 H1 H2 H).
Qed.

Lemma class_against_invariant : forall r c1 gs1 t2, matches_class_against_type p ask Invariant r c1 gs1 t2 = Some Yes ->
  fine (Class c1 gs1) -> fine t2 -> (forall x, has t2 x <-> has (Class c1 gs1) x) /\ (forall t, t2 <> TypeOf t).
Proof.
  intros r c1 gs1 t2 H H1 H2. destruct (fine_class _ _ H1) as [Hl1 Hg1]. destruct t2; try discriminate H.
  - cbn [matches_class_against_type] in H. destruct (fine_class _ _ H2) as [Hl2 Hg2]. split; [|discriminate].
    exact (class_invariant _ _ _ _ _ H Hl1 Hl2 Hg1 Hg2).
  - cbn [matches_class_against_type] in H. rewrite andb_false_r in H. discriminate H.
  - split; [|discriminate]. cbn [matches_class_against_type] in H. apply some_of_bool_yes in H. apply andb_prop in H. destruct H as [H Hn].
    apply andb_prop in H. destruct H as [H Hc]. apply N.eqb_eq in H. apply PeanoNat.Nat.eqb_eq in Hc. apply PeanoNat.Nat.eqb_eq in Hn. subst c1.
    assert (E : gs1 = []). { rewrite builtin_variances in Hl1 by (cbn; auto). destruct gs1; [reflexivity|discriminate Hl1]. }
    subst gs1. intros x. split; [exact (only_bool_literals ts ltac:(congruence) x)|]. apply (bool_literals ts ltac:(lia)). exact (proj1 (proj2 H2)).
  - destruct (type_never_same r c1 gs1 t2 H1 H2 H).
Qed.

(** [union_is_super_type_of] *)
Lemma union_sound : forall r ts1 t2, union_is_super_type_of p ask r ts1 t2 = Some Yes -> fine (Union ts1) -> fine_value t2 ->
  within (has t2) (has (Union ts1)).
Proof.
  intros r ts1 t2 H H1 H2.
  assert (M : then_ (bound_matches p ask r ts1 t2) (fun m => if holds m then Some m else any (fun t1 => is_super_type_of ask r t1 t2) ts1) = Some Yes ->
    within (has t2) (has (Union ts1))).
  { clear H. intros H. apply then_yes in H. destruct H as [m [Hm H]]. destruct (holds m) eqn:E.
    - apply holds_yes in E. subst m. unfold bound_matches in Hm. destruct t2; try discriminate Hm. destruct (kind_of p n) as [|b|cs] eqn:Ek; try discriminate Hm.
      apply IH in Hm. assert (K := proper_kinds _ Hp n). rewrite Ek in K. specialize (Hm H1 (fine_is_value p _ _ (proj2 K))).
      intros x Hx. apply Hm. assert (L := law_kinds _ _ _ Hw n). rewrite Ek in L. exact (L x Hx).
    - apply any_yes in H; [|exact (proj1 H1)]. destruct H as [t [Ht H]]. apply IH in H. cbn in H. assert (F := fine_members _ H1).
      rewrite Forall_forall in F. intros x Hx. apply has_union. exists t. split; [exact Ht|]. exact (H (F t Ht) H2 x Hx). }
  destruct t2; try exact (M H).
  - cbn [union_is_super_type_of] in H. destruct ((c =? bool_class p) && Nat.eqb (bool_literal_count ts1) 2) eqn:E; [|exact (M H)].
    apply andb_prop in E. destruct E as [E1 E2]. apply N.eqb_eq in E1. apply PeanoNat.Nat.eqb_eq in E2. subst c.
    destruct (fine_value_class _ _ H2) as [Hl2 _]. rewrite builtin_variances in Hl2 by (cbn; auto). destruct gs; [|discriminate Hl2].
    exact (bool_literals ts1 ltac:(lia) (proj1 (proj2 H1))).
  - cbn [union_is_super_type_of] in H. destruct (same_union p ts1 ts) eqn:E; [intros x Hx; exact (law_same_union _ _ _ Hw _ _ _ E Hx)|].
    apply all_yes in H. rewrite Forall_forall in H. intros x Hx. apply has_union in Hx. destruct Hx as [t [Ht Hx]]. assert (F := fine_members _ H2).
    rewrite Forall_forall in F. exact (IH _ (H t Ht) H1 (fine_is_value p _ _ (F t Ht)) x Hx).
  - destruct t2; try exact (M H). cbn [union_is_super_type_of] in H. intros x Hx. apply has_union_of_types in Hx.
    exact (IH _ H H1 (fine_union_of_types ts H2) x Hx).
Qed.

Lemma union_internal_covariant : forall r ts1 t2, union_internal p ask Covariant r ts1 t2 = Some Yes -> fine (Union ts1) -> fine_value t2 ->
  within (has t2) (has (Union ts1)).
Proof. exact union_sound. Qed.

Lemma union_internal_invariant : forall r ts1 t2, union_internal p ask Invariant r ts1 t2 = Some Yes -> fine (Union ts1) -> fine t2 ->
  forall x, has t2 x <-> has (Union ts1) x.
Proof.
  intros r ts1 t2 H H1 H2 x. apply both_yes in H. destruct H as [Ha Hb]. apply IH in Ha. apply IH in Hb. cbn [sound] in Ha, Hb.
  split; [exact (Ha H1 (fine_is_value p _ _ H2) x)|exact (Hb (fine_is_value p _ _ H1) H2 x)].
Qed.

(** [match_tuple_type_arguments] *)
Lemma pairs_related : forall v r ts1 ts2, each (item_matches ask v r) (pairs ts1 ts2) = Some Yes -> length ts1 = length ts2 -> Forall fine ts1 -> Forall fine ts2 ->
  Forall2 (fun t2 t1 => related v (has t2) (has t1)) ts2 ts1.
Proof.
  intros v r ts1 ts2 H Hl H1 H2. apply each_yes in H. revert ts2 H Hl H2. induction H1 as [|t1 ts1 Ht1 H1 IHt]; intros [|t2 ts2] H Hl H2; try discriminate Hl; constructor.
  - inversion H2; subst. inversion H; subst. exact (matches_sound _ _ _ _ H6 Ht1 H4).
  - inversion H2; subst. inversion H; subst. apply IHt; [exact H7|injection Hl as Hl; exact Hl|exact H5].
Qed.

Lemma related_maps : forall v ts2 ts1, v <> Contravariant -> Forall2 (fun t2 t1 => related v (has t2) (has t1)) ts2 ts1 ->
  Forall2 within (map has ts2) (map has ts1).
Proof.
  intros v ts2 ts1 Hv H. induction H as [|t2 t1 ts2 ts1 Ht H IHl]; constructor; [|exact IHl]. destruct v; cbn in Ht.
  - intros x. apply Ht.
  - exact Ht.
  - destruct (Hv eq_refl).
Qed.

Lemma related_maps_back : forall ts2 ts1, Forall2 (fun t2 t1 => related Invariant (has t2) (has t1)) ts2 ts1 ->
  Forall2 within (map has ts1) (map has ts2).
Proof. intros ts2 ts1 H. induction H as [|t2 t1 ts2 ts1 Ht H IHl]; constructor; [|exact IHl]. intros x. apply Ht. Qed.

Lemma tvt_yes : forall n a, type_var_tuple_matches n a = Yes -> (exists t, a = ArbitraryLen t /\ is_any t = true) \/
  a = WithUnpack (mk_unpack [] (TypeVarTuple n) []).
Proof.
  intros n a H. apply of_bool_yes in H. destruct a as [ts|t|[[|] [m|t] [|]]]; try discriminate H; [left; exists t; auto|right].
  apply N.eqb_eq in H. subst m. reflexivity.
Qed.

Lemma rev_related : forall v l m, Forall2 (fun t2 t1 => related v (has t2) (has t1)) (rev l) (rev m) ->
  Forall2 (fun t2 t1 => related v (has t2) (has t1)) l m.
Proof.
  intros v l m H. assert (G : forall l m, Forall2 (fun t2 t1 => related v (has t2) (has t1)) l m -> Forall2 (fun t2 t1 => related v (has t2) (has t1)) (rev l) (rev m)).
  { clear. intros l m H. induction H; [constructor|]. cbn [rev]. apply Forall2_app; [assumption|]. constructor; [assumption|constructor]. }
  apply G in H. rewrite !rev_involutive in H. exact H.
Qed.

Lemma rest_nil : forall {A} (l m : list A), rest l m = [] -> (length m <= length l)%nat.
Proof. intros A l m H. unfold rest in H. apply (f_equal (@length A)) in H. rewrite skipn_length in H. cbn in H. lia. Qed.

Definition related_types (v : variance) (t2 t1 : type) : Prop :=
  match v with Covariant => within (has t2) (has t1) | _ => forall x, has t2 x <-> has t1 x end.

Lemma tuple_sound : forall v r a1 a2, v <> Contravariant -> match_tuple ask v r a1 a2 = Some Yes -> fine (Tuple a1) -> fine (Tuple a2) ->
  related_types v (Tuple a2) (Tuple a1).
Proof.
  intros v r a1 a2 Hv H H1 H2. destruct a1 as [ts1|t1|[b1 [n1|t1] a1]]; destruct a2 as [ts2|t2|[b2 [n2|t2] a2]]; cbn [match_tuple] in H;
    try discriminate H; try (destruct H1; fail); try (destruct H2; fail).
  - destruct (Nat.eqb (length ts1) (length ts2)) eqn:E; [|discriminate H]. apply PeanoNat.Nat.eqb_eq in E.
    cbn [SubtypeSpec.fine] in H1, H2. apply Forall_of_map in H1. apply Forall_of_map in H2. assert (F := pairs_related _ _ _ _ H E H1 H2).
    destruct v; [|exact (fun x => fixed_within w _ _ x (related_maps _ _ _ Hv F))|destruct (Hv eq_refl)].
    intros x. split; apply fixed_within; [exact (related_maps _ _ _ Hv F)|exact (related_maps_back _ _ F)].
  - cbn [SubtypeSpec.fine] in H2. rewrite (not_any _ H2) in H. discriminate H.
  - cbn [SubtypeSpec.fine] in H1, H2. destruct v; [rewrite (not_any _ H1) in H; discriminate H| |destruct (Hv eq_refl)].
    apply all_yes in H. apply Forall_of_map in H2. intros x [vs [Hx Hs]]. exists vs. split; [exact Hx|]. cbn in Hs |- *. rewrite Forall_forall in H.
    rewrite Forall_forall in H2 |- *. intros y Hy. apply (In_nth_error) in Hy. destruct Hy as [i Hi].
    assert (Hl : length (map has ts2) = length vs). { clear - Hs. induction Hs; cbn in *; congruence. }
    destruct (nth_error (map has ts2) i) as [s|] eqn:Es.
    + assert (A := Forall2_at _ _ _ _ _ _ Hs Es Hi). destruct (nth_map_inv _ _ _ _ Es) as [t [Ht <-]].
      exact (matches_sound _ _ _ _ (H t (nth_error_In _ _ Ht)) H1 (H2 t (nth_error_In _ _ Ht)) y A).
    + apply nth_error_None in Es. assert (i < length vs)%nat by (apply nth_error_Some; congruence). lia.
  - cbn [SubtypeSpec.fine] in H1, H2. assert (M := matches_sound _ _ _ _ H H1 H2).
    destruct v; cbn in M; [|exact (fun x => arbitrary_within w _ _ x M)|destruct (Hv eq_refl)].
    intros x. split; apply arbitrary_within; intros y; apply M.
  - cbn [SubtypeSpec.fine] in H1. apply both_yes in H. destruct H as [H _]. apply both_yes in H. destruct H as [_ H]. cbn [middle] in H. injection H as H.
    apply tvt_yes in H. destruct H as [[t [E Ha]]|E]; [injection E as <-; rewrite (not_any _ H1) in Ha; discriminate Ha|discriminate E].
  - cbn [match_unpack before after middle] in H. apply then_yes in H. destruct H as [m [_ H]]. destruct (Nat.ltb _ _); [discriminate H|].
    apply both_yes in H. destruct H as [_ H]. injection H as H. apply tvt_yes in H. destruct H as [[t [E _]]|E]; discriminate E.
  - cbn [match_unpack before after middle] in H. cbn [SubtypeSpec.fine] in H2. rewrite (not_any _ H2) in H. destruct b1; [|discriminate H]. destruct a1; [|discriminate H].
    injection H as H. apply tvt_yes in H. destruct H as [[t [E Ha]]|E]; [injection E as <-; rewrite (not_any _ H2) in Ha; discriminate Ha|discriminate E].
  - cbn [match_unpack before after middle] in H. apply then_yes in H. destruct H as [m [Hm H]].
    destruct (Nat.ltb (length b2) (length b1)) eqn:Eb; [discriminate H|]. destruct (Nat.ltb (length a2) (length a1)) eqn:Ea; [discriminate H|].
    injection H as H. apply and_yes in H. destruct H as [-> H]. apply tvt_yes in H. destruct H as [[t [E _]]|E]; [discriminate E|]. injection E as E1 E2 E3.
    apply both_yes in Hm. destruct Hm as [Mb Ma]. apply PeanoNat.Nat.ltb_ge in Eb, Ea. apply rest_nil in E1.
    apply (f_equal (@length type)) in E3. rewrite rev_length in E3. unfold rest in E3. rewrite skipn_length, rev_length in E3. cbn in E3.
    cbn [SubtypeSpec.fine] in H1, H2. destruct H1 as [Hb1 Ha1]. destruct H2 as [Hb2 Ha2].
    apply Forall_of_map in Hb1. apply Forall_of_map in Ha1. apply Forall_of_map in Hb2. apply Forall_of_map in Ha2.
    assert (Fb := pairs_related _ _ _ _ Mb ltac:(lia) Hb1 Hb2).
    assert (Fa := rev_related _ _ _ (pairs_related _ _ _ _ Ma ltac:(rewrite !rev_length; lia) (Forall_rev Ha1) (Forall_rev Ha2))).
    subst n2. destruct v; [| |destruct (Hv eq_refl)].
    + intros x. split; apply unpack_within; try (intros vs Hvs; exact Hvs).
      * exact (related_maps _ _ _ Hv Fb).
      * exact (related_maps _ _ _ Hv Fa).
      * exact (related_maps_back _ _ Fb).
      * exact (related_maps_back _ _ Fa).
    + intros x. apply unpack_within; try (intros vs Hvs; exact Hvs); [exact (related_maps _ _ _ Hv Fb)|exact (related_maps _ _ _ Hv Fa)].
Qed.

Lemma same_literal_eq : forall l1 l2, same_literal l1 l2 = true -> l1 = l2.
Proof.
  intros [n s|b|s|s] [m r|c|r|r] H; try discriminate H; cbn in H.
  - apply andb_prop in H. destruct H as [H1 H2]. apply N.eqb_eq in H1. apply eqb_prop in H2. congruence.
  - apply eqb_prop in H. congruence.
  - apply N.eqb_eq in H. congruence.
  - apply N.eqb_eq in H. congruence.
Qed.

(** [matches_internal] *)
Lemma internal_covariant : forall r t1 t2, matches_internal p ask Covariant r t1 t2 = Some Yes -> fine t1 -> fine_value t2 -> within (has t2) (has t1).
Proof.
  intros r t1 t2 H H1 H2. destruct t1; cbn [matches_internal] in H.
  - destruct H1.
  - destruct t2; try discriminate H. intros x Hx; exact Hx.
  - destruct t2; try discriminate H. intros x Hx; exact Hx.
  - exact (class_against_covariant _ _ _ _ H H1 H2).
  - destruct t2; try discriminate H. intros x Hx. apply (dataclass_sound _ _ _ _ _ H H1 H2). exact Hx.
  - destruct t2; try discriminate H. apply some_of_bool_yes, same_literal_eq in H. subst l0. intros x Hx; exact Hx.
  - destruct H1.
  - destruct t2; try discriminate H. apply then_yes in H. destruct H as [m [Hm H]]. injection H as H. apply similar_yes in H. subst m.
    exact (tuple_sound Covariant _ _ _ ltac:(discriminate) Hm H1 H2).
  - exact (union_internal_covariant _ _ _ H H1 H2).
  - apply all_yes in H. intros x Hx. apply has_intersection. intros t Ht. rewrite Forall_forall in H. assert (M := IH _ (H t Ht)). cbn [sound] in M.
    destruct H1 as [_ H1]. apply Forall_of_map in H1. rewrite Forall_forall in H1. exact (M (H1 t Ht) H2 x Hx).
  - apply some_of_bool_yes in H. destruct t2; try discriminate H; apply N.eqb_eq in H; subst; intros x Hx; [exact Hx|exists m; exact Hx].
  - apply some_of_bool_yes in H. destruct t2; try discriminate H. apply andb_prop in H. destruct H as [Ha Hb]. apply N.eqb_eq in Ha, Hb. subst. intros x Hx; exact Hx.
  - apply some_of_bool_yes in H. destruct t2; try discriminate H. apply N.eqb_eq in H. subst. intros x Hx; exact Hx.
  - apply some_of_bool_yes in H. destruct t2; try discriminate H. apply N.eqb_eq in H. subst. intros x Hx; exact Hx.
  - assert (C : forall c gs, match t1 with Any => Some (of_bool (is_metaclass p c)) | _ => Some no end = Some Yes -> within (has (Class c gs)) (has (TypeOf t1))).
    { intros c gs E. destruct t1; try discriminate E. destruct H1 as [_ []]. }
    destruct t2; try (destruct t1; discriminate H); try exact (C _ _ H).
    + destruct t1; try discriminate H. intros x Hx. apply has_union_of_types.
      exact (union_internal_covariant _ _ _ H (fine_union_of_types _ H1) H2 x Hx).
    + assert (M : then_ (matches ask Covariant r t1 t2) (fun m => Some (if is_union_like t2 then m else similar_if_false m)) = Some Yes ->
        within (has (TypeOf t2)) (has (TypeOf t1))).
      { clear H. intros H. apply then_yes in H. destruct H as [m [Hm H]]. injection H as H. assert (E : m = Yes) by (destruct (is_union_like t2); [exact H|exact (similar_yes m H)]).
        subst m. assert (M := matches_sound _ _ _ _ Hm (proj2 H1) (proj2 H2)). intros x [y [Hy Hx]]. exists y. split; [exact Hy|exact (M y Hx)]. }
      destruct t2; try exact (M H). discriminate H.
Qed.

Lemma internal_invariant : forall r t1 t2, matches_internal p ask Invariant r t1 t2 = Some Yes -> fine t1 -> fine t2 -> forall x, has t2 x <-> has t1 x.
Proof.
  intros r t1 t2 H H1 H2. destruct t1; cbn [matches_internal] in H.
  - destruct H1.
  - destruct t2; try discriminate H. tauto.
  - destruct t2; try discriminate H. tauto.
  - exact (proj1 (class_against_invariant _ _ _ _ H H1 H2)).
  - destruct t2; try discriminate H. exact (dataclass_sound _ _ _ _ _ H H1 H2).
  - destruct t2; try discriminate H. apply some_of_bool_yes, same_literal_eq in H. subst l0. tauto.
  - destruct H1.
  - destruct t2; try discriminate H. apply then_yes in H. destruct H as [m [Hm H]]. injection H as H. apply similar_yes in H. subst m.
    exact (tuple_sound Invariant _ _ _ ltac:(discriminate) Hm H1 H2).
  - exact (union_internal_invariant _ _ _ H H1 H2).
  - apply both_yes in H. destruct H as [Ha Hb]. apply IH in Ha. apply IH in Hb. cbn [sound] in Ha, Hb. intros x.
    split; [exact (Ha H1 (fine_is_value p _ _ H2) x)|exact (Hb (fine_is_value p _ _ H1) H2 x)].
  - apply some_of_bool_yes in H. destruct t2; try discriminate H; apply N.eqb_eq in H; subst; tauto.
  - apply some_of_bool_yes in H. destruct t2; try discriminate H. apply andb_prop in H. destruct H as [Ha Hb]. apply N.eqb_eq in Ha, Hb. subst. tauto.
  - apply some_of_bool_yes in H. destruct t2; try discriminate H. apply N.eqb_eq in H. subst. tauto.
  - apply some_of_bool_yes in H. destruct t2; try discriminate H. apply N.eqb_eq in H. subst. tauto.
  - assert (C : forall c, match t1 with Any => Some (of_bool (is_metaclass p c)) | _ => Some no end <> Some Yes).
    { intros c E. destruct t1; try discriminate E. destruct H1 as [_ []]. }
    destruct t2; try (destruct t1; discriminate H); try (destruct (C _ H); fail).
    + destruct t1; try discriminate H. intros x. rewrite has_union_of_types.
      exact (union_internal_invariant _ _ _ H (fine_union_of_types _ H1) H2 x).
    + assert (M : then_ (matches ask Invariant r t1 t2) (fun m => Some (if is_union_like t2 then m else similar_if_false m)) = Some Yes ->
        forall x, has (TypeOf t2) x <-> has (TypeOf t1) x).
      { clear H. intros H. apply then_yes in H. destruct H as [m [Hm H]]. injection H as H. assert (E : m = Yes) by (destruct (is_union_like t2); [exact H|exact (similar_yes m H)]).
        subst m. assert (M := matches_sound _ _ _ _ Hm (proj2 H1) (proj2 H2)). intros x. cbn [SubtypeSpec.has].
        split; intros [y [Hy Hx]]; exists y; (split; [exact Hy|]); apply M; exact Hx. }
      destruct t2; try exact (M H). discriminate H.
Qed.

(** [check_other_side] *)
Lemma other_covariant : forall r t1 t2, check_other_side p ask Covariant r t1 t2 = Some Yes -> fine t1 -> fine_value t2 -> within (has t2) (has t1).
Proof.
  intros r t1 t2 H H1 H2. destruct t2; cbn [check_other_side] in H; try discriminate H.
  - destruct H2.
  - intros x [].
  - destruct (is_union_like t1); [discriminate H|]. apply all_yes in H. rewrite Forall_forall in H. intros x Hx. apply has_union in Hx. destruct Hx as [t [Ht Hx]].
    assert (M := IH _ (H t Ht)). cbn [sound] in M. assert (F := fine_members _ H2). rewrite Forall_forall in F.
    exact (M H1 (fine_is_value p _ _ (F t Ht)) x Hx).
  - destruct H2 as [Hn H2]. apply any_yes in H; [|exact Hn]. destruct H as [t [Ht H]]. apply IH in H. cbn [sound] in H. apply Forall_of_map in H2.
    rewrite Forall_forall in H2. intros x Hx. rewrite has_intersection in Hx. exact (H H1 (fine_is_value p _ _ (H2 t Ht)) x (Hx t Ht)).
  - apply IH in H. cbn [sound] in H. intros x Hx. apply (H H1 (fine_is_value p _ _ (proper_newtypes _ Hp n))). exact (law_newtypes _ _ _ Hw n x Hx).
  - assert (K := proper_kinds _ Hp n). assert (L := law_kinds _ _ _ Hw n). destruct (kind_of p n) as [|b|cs]; [discriminate H| |].
    + apply IH in H. cbn [sound] in H. intros x Hx. exact (H H1 (fine_is_value p _ _ (proj2 K)) x (L x Hx)).
    + apply then_yes in H. destruct H as [m [Hm H]]. apply some_of_bool_yes, holds_yes in H. subst m. apply all_yes in Hm. rewrite Forall_forall in Hm, K.
      intros x Hx. specialize (L x Hx). rewrite Exists_exists in L. destruct L as [t [Ht Hx']]. assert (M := IH _ (Hm t Ht)). cbn [sound] in M.
      exact (M H1 (fine_is_value p _ _ (K t Ht)) x Hx').
Qed.

Lemma other_invariant : forall r t1 t2, check_other_side p ask Invariant r t1 t2 = Some Yes -> fine t1 -> fine t2 -> forall x, has t2 x <-> has t1 x.
Proof.
  intros r t1 t2 H H1 H2. destruct t2; cbn [check_other_side] in H; try discriminate H.
  - destruct H2.
  - destruct (is_union_like t1); [discriminate H|]. apply both_yes in H. destruct H as [H Hs]. apply IH in Hs. cbn [sound] in Hs.
    intros x. split; [|exact (Hs (fine_is_value p _ _ H1) H2 x)].
    apply all_yes in H. rewrite Forall_forall in H. intros Hx. apply has_union in Hx. destruct Hx as [t [Ht Hx]].
    assert (M := IH _ (H t Ht)). cbn [sound] in M. assert (F := fine_members _ H2). rewrite Forall_forall in F.
    exact (M H1 (fine_is_value p _ _ (F t Ht)) x Hx).
Qed.

(** The MRO *)
Lemma mro_fine : forall t2 t, fine_value t2 -> In t (mro p t2) -> fine_value t.
Proof.
  intros t2 t H2 [<-|Ht]; [exact H2|]. apply in_app_or in Ht. destruct Ht as [Ht|[<-|[]]].
  - unfold behind in Ht.
    assert (G : forall c gs, length gs = length (variances p c) -> Forall fine gs -> In t (map (substitute gs) (bases p c)) -> fine_value t).
    { intros c gs Hl Hg Hin. apply in_map_iff in Hin. destruct Hin as [b [<- Hb]]. apply fine_value_substitute; [exact Hg|]. rewrite Hl.
      exact (proper_bases _ Hp c b Hb). }
    destruct t2; try (destruct Ht; fail).
    + destruct (fine_value_class _ _ H2) as [Hl Hg]. exact (G _ _ Hl Hg Ht).
    + destruct H2 as [Hl [_ Hg]]. apply Forall_of_map in Hg. exact (G _ _ Hl Hg Ht).
    + destruct Ht as [<-|Ht]; [split; [rewrite literal_variances; reflexivity|split; [apply literal_bases|constructor]]|].
      apply (G _ _) in Ht; [exact Ht|rewrite literal_variances; reflexivity|constructor].
    + apply (G _ _) in Ht; [exact Ht|symmetry; exact (proper_tuple _ Hp)|]. constructor; [|constructor]. exact (proper_entries _ Hp a H2).
    + apply (G _ _) in Ht; [exact Ht|rewrite (proper_enums _ Hp); reflexivity|constructor].
    + apply (G _ _) in Ht; [exact Ht|rewrite (proper_enums _ Hp); reflexivity|constructor].
  - destruct (proper_object _ Hp) as [Hl Hi]. cbn. rewrite Hl. split; [reflexivity|]. split; [exact Hi|constructor].
Qed.

Lemma has_tuple : forall a x, has (Tuple a) x -> exists vs, tuple_value w x vs.
Proof. intros [ts|t|[b [n|t] a]] x [vs [H _]]; exists vs; exact H. Qed.

Lemma mro_within : forall t2 t, fine_value t2 -> In t (mro p t2) -> within (has t2) (has t).
Proof.
  intros t2 t H2 [<-|Ht]; [intros x Hx; exact Hx|]. apply in_app_or in Ht. destruct Ht as [Ht|[<-|[]]]; [|intros x _; exact (law_object _ _ _ Hw x)].
  unfold behind in Ht.
  assert (S1 : forall c gs b x, In b (bases p c) -> SubtypeSpec.has w (arguments (map has gs)) b x -> has (substitute gs b) x).
  { intros c gs b x Hb Hx. apply (has_substitute p w (law_arguments _ _ _ Hw) env gs _ b (proper_bases _ Hp c b Hb)). exact Hx. }
  assert (G : forall c gs x, length gs = length (variances p c) -> In t (map (substitute gs) (bases p c)) -> instance w c (map has gs) x -> has t x).
  { intros c gs x Hl Hin Hx. apply in_map_iff in Hin. destruct Hin as [b [<- Hb]]. apply (S1 c gs b x Hb).
    apply (law_bases _ _ _ Hw c _ b x); [rewrite map_length; exact Hl|exact Hb|exact Hx]. }
  destruct t2; try (destruct Ht; fail); intros x Hx.
  - destruct (fine_value_class _ _ H2) as [Hl _]. exact (G _ _ x Hl Ht Hx).
  - destruct H2 as [Hl _]. exact (G _ _ x Hl Ht Hx).
  - destruct Ht as [<-|Ht]; [exact (literal_class l x Hx)|]. exact (G _ [] x ltac:(rewrite literal_variances; reflexivity) Ht (literal_class l x Hx)).
  - apply in_map_iff in Ht. destruct Ht as [b [<- Hb]]. apply (S1 _ _ _ x Hb). destruct (has_tuple a x Hx) as [vs Hvs].
    exact (law_tuple _ _ _ Hw x vs _ b Hvs (law_entries _ _ _ Hw a x vs Hx Hvs) Hb).
  - destruct Hx as [m Hx]. exact (G _ [] x ltac:(rewrite (proper_enums _ Hp); reflexivity) Ht (law_members _ _ _ Hw _ _ _ Hx)).
  - exact (G _ [] x ltac:(rewrite (proper_enums _ Hp); reflexivity) Ht (law_members _ _ _ Hw _ _ _ Hx)).
Qed.

Lemma match_mro_sound : forall r t1 l, match_mro p ask r t1 l = Some Yes -> fine t1 -> Forall fine_value l -> exists t, In t l /\ within (has t) (has t1).
Proof.
  intros r t1 l. induction l as [|t l IHl]; intros H H1 Hl; [discriminate H|]. inversion Hl; subst. cbn in H. apply then_yes in H. destruct H as [m [Hm H]].
  destruct (plain m) eqn:E.
  - destruct (IHl H H1 H4) as [t' [Ht Hw']]. exists t'. split; [right; exact Ht|exact Hw'].
  - injection H as ->. exists t. split; [left; reflexivity|]. exact (internal_covariant _ _ _ Hm H1 H3).
Qed.

Lemma promotion_sound : forall r t1 t2, check_promotion p ask r t1 t2 = Some Yes -> fine t1 -> fine_value t2 -> within (has t2) (has t1).
Proof.
  intros r t1 t2 H H1 H2. destruct t2; cbn [check_promotion] in H; try discriminate H; intros x Hx.
  - destruct H2 as [_ [Hi _]]. rewrite Hi in H. cbn [andb] in H. exact (IH _ H H1 _ x Hx).
  - exact (IH _ H H1 _ x (literal_class l x Hx)).
  - destruct Hx as [m Hx]. exact (IH _ H H1 _ x (law_members _ _ _ Hw _ _ _ Hx)).
  - exact (IH _ H H1 _ x (law_members _ _ _ Hw _ _ _ Hx)).
Qed.

Lemma super_sound : forall r t1 t2, super_type_of p ask r t1 t2 = Some Yes -> fine t1 -> fine_value t2 -> within (has t2) (has t1).
Proof.
  intros r t1 t2 H H1 H2. unfold super_type_of in H. destruct (looks_at_mro t1); cbn [negb] in H; apply then_yes in H; destruct H as [m [Hm H]].
  - destruct (plain m) eqn:E.
    + apply or_else_yes in H. destruct H as [H|H]; [|exact (promotion_sound _ _ _ H H1 H2)].
      apply or_else_yes in H. destruct H as [H|H]; [|exact (other_covariant _ _ _ H H1 H2)].
      apply or_else_yes in H. destruct H as [H|H]; [injection H as ->; discriminate E|].
      unfold protocol_matches in H. destruct t1; try discriminate H. destruct (is_protocol p c) eqn:Ep; [|discriminate H]. injection H as H.
      intros x. exact (law_protocols _ _ _ Hw c gs t2 x H1 H2 Ep H).
    + injection H as ->. destruct (match_mro_sound _ _ _ Hm H1) as [t [Ht Hw']].
      * apply Forall_forall. intros t. exact (mro_fine t2 t H2).
      * intros x Hx. apply Hw'. exact (mro_within t2 t H2 Ht x Hx).
  - destruct (plain m) eqn:E; [|injection H as ->; exact (internal_covariant _ _ _ Hm H1 H2)].
    apply or_else_yes in H. destruct H as [H|H]; [injection H as ->; discriminate E|exact (other_covariant _ _ _ H H1 H2)].
Qed.

Lemma respond_sound : forall q, respond p ask q = Some Yes -> sound q.
Proof.
  intros q H. destruct q as [v r t1 t2|r ts1 t2|v r c1 gs1 t2|r t1 c2]; cbn [respond] in H.
  - destruct v; cbn [sound].
    + split.
      * intros H1 H2. apply or_else_yes in H. destruct H as [H|H]; [exact (internal_invariant _ _ _ H H1 H2)|exact (other_invariant _ _ _ H H1 H2)].
      * intros c1 gs1 c2 gs2 -> ->. apply or_else_yes in H. destruct H as [H|H]; [|discriminate H].
        cbn [matches_internal matches_class_against_type] in H. unfold matches_class in H. destruct (c1 =? c2) eqn:E; [apply N.eqb_eq; exact E|discriminate H].
    + exact (super_sound _ _ _ H).
    + intros H1 H2. exact (super_sound _ _ _ H H2 H1).
  - exact (union_sound _ _ _ H).
  - destruct v; cbn [sound]; [exact (class_against_invariant _ _ _ _ H)|exact (class_against_covariant _ _ _ _ H)|exact I].
  - cbn [sound]. intros H1 s x Hx. assert (G : match promote_to p c2 with
      | Some d => or_else (is_same_type ask r t1 (Class d [])) (fun _ => ask (Promotion r t1 d)) | None => Some no end = Some Yes) by (destruct t1; try exact H; discriminate H).
    clear H. destruct (promote_to p c2) as [d|] eqn:E; [|discriminate G]. apply or_else_yes in G. assert (Hd := law_promotions _ _ _ Hw _ _ _ _ E Hx). destruct G as [G|G].
    + apply (matches_sound _ _ _ _ G H1 (proper_promotions _ Hp _ _ E)). exact Hd.
    + exact (IH _ G H1 [] x Hd).
Qed.
End Step.

Theorem run_sound : forall fuel q, run p fuel q = Some Yes -> sound q.
Proof.
  intros fuel. induction fuel as [|fuel IHf]; intros q H; [discriminate H|]. exact (respond_sound (run p fuel) IHf q H).
Qed.
End Sound.
