From Coq Require Import List Arith Bool Lia Permutation.
From Verif Require Import UnionModel UnionSpec.
Import ListNotations.

Lemma insert_by_perm : forall {T} key (x : T * nat) l, Permutation (x :: l) (insert_by T key x l).
Proof. intros T key x l. induction l as [|y r IH]; cbn [insert_by]; [reflexivity|]. destruct (key x <=? key y); [reflexivity|]. rewrite perm_swap. constructor. exact IH. Qed.
Lemma sort_by_perm : forall {T} key (l : list (T * nat)), Permutation l (sort_by_key T key l).
Proof. intros T key l. induction l as [|x l IH]; [constructor|]. cbn [sort_by_key fold_right]. rewrite <- insert_by_perm. constructor. exact IH. Qed.
Lemma in_sort_by : forall {T} key (l : list (T * nat)) x, In x (sort_by_key T key l) <-> In x l.
Proof. intros T key l x. split; apply Permutation_in; [apply Permutation_sym|]; apply sort_by_perm. Qed.

Lemma pairs_perm : forall {A} (R : A -> A -> Prop), (forall x y, R x y -> R y x) -> forall l l', Permutation l l' -> ForallOrdPairs R l -> ForallOrdPairs R l'.
Proof.
  intros A R S l l' P. induction P as [|x l l' P IH|x y l|l l' l'' P1 IH1 P2 IH2]; intros H; auto.
  - inversion H as [|? ? F H']; subst. constructor; [|apply IH; exact H']. rewrite Forall_forall in *. intros z I. apply F. exact (Permutation_in z (Permutation_sym P) I).
  - inversion H as [|? ? F H']; subst. inversion H' as [|? ? F' H'']; subst. assert (R y x) by (inversion F; assumption). constructor; [constructor; [apply S; assumption|exact F']|]. constructor; [|exact H'']. inversion F; assumption.
Qed.
Lemma pairs_app : forall {A} (R : A -> A -> Prop) l l', ForallOrdPairs R l -> ForallOrdPairs R l' -> (forall x y, In x l -> In y l' -> R x y) -> ForallOrdPairs R (l ++ l').
Proof.
  intros A R l l' H H' C. induction H as [|x l F H IH]; [exact H'|]. cbn [app]. constructor.
  - apply Forall_app. split; [exact F|]. rewrite Forall_forall. intros y I. apply C; [left; reflexivity|exact I].
  - apply IH. intros a b I J. apply C; [right; exact I|exact J].
Qed.
Lemma pairs_nth : forall {A} (R : A -> A -> Prop), (forall x y, R x y -> R y x) -> forall l, ForallOrdPairs R l -> forall i j x y, i <> j -> nth_error l i = Some x -> nth_error l j = Some y -> R x y.
Proof.
  intros A R S l H. induction H as [|z l F H IH]; intros [|i] [|j] x y D X Y; cbn in X, Y; try discriminate; try lia.
  - injection X as ->. rewrite Forall_forall in F. apply F. exact (nth_error_In _ _ Y).
  - injection Y as ->. rewrite Forall_forall in F. apply S, F. exact (nth_error_In _ _ X).
  - apply (IH i j x y); [lia|exact X|exact Y].
Qed.
Lemma pairs_filter : forall {A} (R : A -> A -> Prop) f l, ForallOrdPairs R l -> ForallOrdPairs R (filter f l).
Proof.
  intros A R f l H. induction H as [|x l F H IH]; [constructor|]. cbn [filter]. destruct (f x); [|exact IH]. constructor; [|exact IH]. rewrite Forall_forall in *. intros y I. apply filter_In in I. apply F, I.
Qed.
Lemma pairs_impl : forall {A} (R Q : A -> A -> Prop) l, (forall x y, R x y -> Q x y) -> ForallOrdPairs R l -> ForallOrdPairs Q l.
Proof. intros A R Q l I H. induction H as [|x l F H IH]; constructor; [|exact IH]. rewrite Forall_forall in *. intros y J. apply I, F, J. Qed.

Section Union.
Variables (T Val : Type).
Variable kind_of : T -> kind.
Variable eqb : T -> T -> bool.
Variables is_object has_any is_calculating is_recursive_with_generics unknown_type_param : T -> bool.
Variables unknown_class class_ : T -> option nat.
Variables equal_without_unpacking is_super_type_of : T -> T -> bool.
Variable bool_type : T.
Variable enum_type : nat -> T.
Variable enum_len : nat -> nat.
Variable fallback_type : T -> T.
Variable priority : T -> nat.
Variable order : list (T * nat) -> list (T * nat).
Hypothesis order_permuted : forall l, Permutation l (order l).
Notation merge_into := (merge_into T eqb has_any is_calculating is_recursive_with_generics unknown_class class_ is_super_type_of).
Notation state := (state T).
Notation add_type := (add_type T kind_of eqb is_object has_any is_calculating is_recursive_with_generics unknown_type_param unknown_class class_ equal_without_unpacking is_super_type_of).
Notation add_types := (add_types T kind_of eqb is_object has_any is_calculating is_recursive_with_generics unknown_type_param unknown_class class_ equal_without_unpacking is_super_type_of).
Notation contract_enums := (try_contracting_enum_members T kind_of enum_type enum_len).
Notation contract_bools := (contract_bool_literals T kind_of bool_type).
Notation simplify := (merge_simplified_union_type T kind_of eqb is_object has_any is_calculating is_recursive_with_generics unknown_type_param unknown_class class_
  equal_without_unpacking is_super_type_of bool_type enum_type enum_len fallback_type priority order).

(** The types that are compared with others. *)
Definition plain (t : T) : Prop := has_any t = false /\ is_calculating t = false /\ is_recursive_with_generics t = false.

(** ** What the loop over the entries does *)
Lemma merge_into_from : forall l t l', merge_into l t = Some l' -> forall e, In e l' -> In e l \/ fst e = t.
Proof.
  induction l as [|c r IH]; intros t l' H e I; cbn [UnionModel.merge_into] in H; [discriminate|].
  assert (K : option_map (cons c) (merge_into r t) = Some l' -> In e (c :: r) \/ fst e = t).
  { destruct (merge_into r t) as [r'|] eqn:E; [|discriminate]. intros Q. injection Q as <-. destruct I as [<-|I]; [left; left; reflexivity|]. destruct (IH t r' E e I) as [J|J]; [left; right; exact J|right; exact J]. }
  destruct (has_any (fst c)).
  - destruct (same_class (unknown_class (fst c)) (class_ t)); [|exact (K H)]. injection H as <-. destruct I as [<-|I]; [right; reflexivity|left; right; exact I].
  - destruct (is_calculating t); [discriminate|]. destruct (is_recursive_with_generics (fst c)); [exact (K H)|]. destruct (is_calculating (fst c)).
    + destruct (eqb t (fst c)); [|exact (K H)]. injection H as <-. left. exact I.
    + destruct (is_super_type_of t (fst c)).
      * injection H as <-. destruct I as [<-|I]; [right; reflexivity|]. apply filter_In in I. left. right. apply I.
      * destruct (is_super_type_of (fst c) t); [|exact (K H)]. injection H as <-. left. exact I.
Qed.

Lemma merge_into_unrelated : forall l t, merge_into l t = None -> is_calculating t = false -> forall e, In e l -> plain (fst e) -> is_super_type_of t (fst e) = false /\ is_super_type_of (fst e) t = false.
Proof.
  induction l as [|c r IH]; intros t H C e I (P1 & P2 & P3); [destruct I|]. cbn [UnionModel.merge_into] in H.
  assert (K : option_map (cons c) (merge_into r t) = None -> In e r -> is_super_type_of t (fst e) = false /\ is_super_type_of (fst e) t = false).
  { intros Q J. apply (IH t); [|exact C|exact J|repeat split; assumption]. destruct (merge_into r t); [discriminate|reflexivity]. }
  rewrite C in H. destruct I as [->|I].
  - rewrite P1, P3, P2 in H. destruct (is_super_type_of t (fst e)); [discriminate|]. destruct (is_super_type_of (fst e) t); [discriminate|]. split; reflexivity.
  - apply K; [|exact I]. destruct (has_any (fst c)); [destruct (same_class _ _); [discriminate|exact H]|]. destruct (is_recursive_with_generics (fst c)); [exact H|].
    destruct (is_calculating (fst c)); [destruct (eqb t (fst c)); [discriminate|exact H]|]. destruct (is_super_type_of t (fst c)); [discriminate|]. destruct (is_super_type_of (fst c) t); [discriminate|exact H].
Qed.

(** The types do not contain each other. *)
Definition apart (x y : T * nat) : Prop := plain (fst x) -> plain (fst y) -> is_super_type_of (fst x) (fst y) = false /\ is_super_type_of (fst y) (fst x) = false.
Lemma apart_sym : forall x y, apart x y -> apart y x.
Proof. intros x y H P Q. destruct (H Q P). split; assumption. Qed.
Hypothesis super_refl : forall a, is_super_type_of a a = true.
Hypothesis super_trans : forall a b c, is_super_type_of a b = true -> is_super_type_of b c = true -> is_super_type_of a c = true.

Lemma merge_into_apart : forall l t l', Forall (fun e => unknown_class (fst e) = None) l -> has_any t = false -> merge_into l t = Some l' -> ForallOrdPairs apart l -> ForallOrdPairs apart l'.
Proof.
  intros l t l' U At H A.
  (* generalised: every entry is unrelated to what [t] is found to contain *)
  enough (G : ForallOrdPairs apart l' /\ forall x, plain (fst x) -> plain t -> (forall e, In e l -> apart x e) -> is_super_type_of t (fst x) = false -> is_super_type_of (fst x) t = false -> Forall (apart x) l') by apply G.
  revert l' U H A. induction l as [|c r IH]; intros l' U H A; cbn [UnionModel.merge_into] in H; [discriminate|].
  assert (Uc := Forall_inv U). assert (Ur := Forall_inv_tail U). cbn beta in Uc. inversion A as [|? ? F Ar]; subst.
  assert (K : ((~ plain (fst c) \/ ~ plain t) \/ (is_super_type_of t (fst c) = false /\ is_super_type_of (fst c) t = false)) -> option_map (cons c) (merge_into r t) = Some l' ->
    ForallOrdPairs apart l' /\ forall x, plain (fst x) -> plain t -> (forall e, In e (c :: r) -> apart x e) -> is_super_type_of t (fst x) = false -> is_super_type_of (fst x) t = false -> Forall (apart x) l').
  { intros Rel Q. destruct (merge_into r t) as [r'|] eqn:E; [|discriminate]. injection Q as <-. destruct (IH r' Ur eq_refl Ar) as [A' X]. split.
    - constructor; [|exact A']. destruct Rel as [[NP|NP]|[R1 R2]].
      + rewrite Forall_forall. intros y _ P _. contradiction.
      + rewrite Forall_forall in *. intros y I. destruct (merge_into_from _ _ _ E y I) as [J|J]; [exact (F y J)|]. intros _ P. rewrite J in P. contradiction.
      + rewrite Forall_forall in *. intros y I P1 P2. destruct (merge_into_from _ _ _ E y I) as [J|J]; [exact (F y J P1 P2)|]. rewrite J. auto.
    - intros x Px Pt Hx S1 S2. constructor; [apply Hx; left; reflexivity|]. apply X; [exact Px|exact Pt| |exact S1|exact S2]. intros e I. apply Hx. right. exact I. }
  destruct (has_any (fst c)) eqn:Ac.
  - rewrite Uc in H. cbn [same_class] in H. apply K; [left; left; intros (P & _); congruence|exact H].
  - destruct (is_calculating t) eqn:Ct; [discriminate|]. destruct (is_recursive_with_generics (fst c)) eqn:Rc; [apply K; [left; left; intros (_ & _ & P); congruence|exact H]|].
    destruct (is_calculating (fst c)) eqn:Cc.
    + destruct (eqb t (fst c)); [|apply K; [left; left; intros (_ & P & _); congruence|exact H]]. injection H as <-. split; [exact A|]. intros x _ _ Hx _ _. rewrite Forall_forall. intros e I. exact (Hx e I).
    + destruct (is_super_type_of t (fst c)) eqn:S1.
      * injection H as <-. assert (Pc : plain (fst c)) by (repeat split; assumption). split.
        -- constructor; [|apply pairs_filter; exact Ar]. rewrite Forall_forall in *. intros e I. apply filter_In in I. destruct I as [I N]. intros _ (P1 & P2 & P3). rewrite P1, P2, P3 in N. cbn [orb] in N.
           apply negb_true_iff in N. cbn [fst]. split; [exact N|]. destruct (is_super_type_of (fst e) t) eqn:S2; [|reflexivity]. destruct (F e I Pc) as [_ B]; [repeat split; assumption|].
           assert (Z := super_trans _ _ _ S2 S1). congruence.
        -- intros x Px Pt Hx X1 X2. constructor; [intros _ _; cbn [fst]; split; assumption|]. rewrite Forall_forall. intros e I. apply filter_In in I. apply Hx. right. apply I.
      * destruct (is_super_type_of (fst c) t) eqn:S2; [|apply K; [right; split; reflexivity|exact H]]. injection H as <-. split; [exact A|]. intros x _ _ Hx _ _. rewrite Forall_forall. intros e I. exact (Hx e I).
Qed.

(** ** Values *)
Variable denote : T -> Val -> Prop.
Definition below (a b : T) : Prop := forall v, denote a v -> denote b v.
Hypothesis super_sound : forall a b, is_super_type_of a b = true -> below b a.
Hypothesis eqb_sound : forall a b, eqb a b = true -> below a b /\ below b a /\ has_any a = has_any b.
Hypothesis equal_sound : forall a b, equal_without_unpacking a b = true -> below a b /\ below b a.
Hypothesis equal_unknown : forall a b, equal_without_unpacking a b = true -> unknown_class b = None -> unknown_class a = None.
Hypothesis unknown_has_any : forall a, has_any a = false -> unknown_class a = None /\ unknown_type_param a = false.
Hypothesis object_all : forall a, is_object a = true -> forall v, denote a v.
Hypothesis literal_value : forall a b x, kind_of a = LiteralValue x -> kind_of b = LiteralValue x -> below a b.
Hypothesis literal_fallback : forall a x, kind_of a = LiteralValue x -> below a (fallback_type a).

Definition known (t : T) : Prop := unknown_class t = None.
Definition covered (l : list (T * nat)) (t : T) : Prop := exists e, In e l /\ known (fst e) /\ below t (fst e).

Lemma below_refl : forall a, below a a.
Proof. intros a v H. exact H. Qed.
Lemma below_trans : forall a b c, below a b -> below b c -> below a c.
Proof. intros a b c H K v D. apply K, H, D. Qed.

Lemma merge_into_covers : forall l t l', has_any t = false -> merge_into l t = Some l' -> covered l' t /\ forall e, In e l -> known (fst e) -> covered l' (fst e).
Proof.
  induction l as [|c r IH]; intros t l' At H; cbn [UnionModel.merge_into] in H; [discriminate|].
  assert (Kt : known t) by (apply unknown_has_any; exact At).
  assert (Self : forall e l, In e l -> known (fst e) -> covered l (fst e)) by (intros e l0 I K; exists e; split; [exact I|]; split; [exact K|apply below_refl]).
  assert (K : option_map (cons c) (merge_into r t) = Some l' -> covered l' t /\ forall e, In e (c :: r) -> known (fst e) -> covered l' (fst e)).
  { destruct (merge_into r t) as [r'|] eqn:E; [|discriminate]. intros Q. injection Q as <-. destruct (IH t r' At E) as [(e0 & I0 & K0 & B0) X]. split; [exists e0; split; [right; exact I0|auto]|].
    intros e [<-|I] Ke; [apply Self; [left; reflexivity|exact Ke]|]. destruct (X e I Ke) as (e1 & I1 & K1). exists e1. split; [right; exact I1|exact K1]. }
  destruct (has_any (fst c)) eqn:Ac.
  - destruct (same_class (unknown_class (fst c)) (class_ t)) eqn:Sc; [|exact (K H)]. injection H as <-. split; [exists (t, snd c); split; [left; reflexivity|]; split; [exact Kt|apply below_refl]|].
    intros e [<-|I] Ke; [|apply Self; [right; exact I|exact Ke]]. unfold known in Ke. rewrite Ke in Sc. discriminate.
  - destruct (is_calculating t); [discriminate|]. destruct (is_recursive_with_generics (fst c)); [exact (K H)|]. destruct (is_calculating (fst c)).
    + destruct (eqb t (fst c)) eqn:E; [|exact (K H)]. injection H as <-. split; [|intros e I Ke; exact (Self e _ I Ke)]. exists c. split; [left; reflexivity|]. destruct (eqb_sound _ _ E) as (B & _ & An). split; [apply unknown_has_any; exact Ac|exact B].
    + destruct (is_super_type_of t (fst c)) eqn:S1.
      * injection H as <-. assert (Ct : covered ((t, snd c) :: filter (fun e => has_any (fst e) || is_calculating (fst e) || is_recursive_with_generics (fst e) || negb (is_super_type_of t (fst e))) r) t)
          by (exists (t, snd c); split; [left; reflexivity|]; split; [exact Kt|apply below_refl]).
        split; [exact Ct|]. intros e [<-|I] Ke.
        -- exists (t, snd c). split; [left; reflexivity|]. split; [exact Kt|]. exact (super_sound _ _ S1).
        -- destruct (has_any (fst e) || is_calculating (fst e) || is_recursive_with_generics (fst e) || negb (is_super_type_of t (fst e))) eqn:Fe.
           ++ apply Self; [|exact Ke]. right. apply filter_In. split; [exact I|exact Fe].
           ++ apply orb_false_iff in Fe. destruct Fe as [_ Fe]. apply negb_false_iff in Fe. exists (t, snd c). split; [left; reflexivity|]. split; [exact Kt|exact (super_sound _ _ Fe)].
      * destruct (is_super_type_of (fst c) t) eqn:S2; [|exact (K H)]. injection H as <-. split; [|intros e I Ke; exact (Self e _ I Ke)].
        exists c. split; [left; reflexivity|]. split; [apply unknown_has_any; exact Ac|exact (super_sound _ _ S2)].
Qed.

(** ** Enum members *)
Variable member : nat -> nat -> Val -> Prop.
Variable truth : bool -> Val -> Prop.
Hypothesis member_plain : forall t e i, kind_of t = EnumMember e i -> i < enum_len e /\ plain t.
Hypothesis member_same : forall a b e i, kind_of a = EnumMember e i -> kind_of b = EnumMember e i -> is_super_type_of a b = true.
Hypothesis member_values : forall t e i v, kind_of t = EnumMember e i -> (denote t v <-> member e i v).
Hypothesis enum_values : forall e v, denote (enum_type e) v <-> exists i, i < enum_len e /\ member e i v.
Hypothesis class_kind : forall t, class_ t <> None -> kind_of t = OtherType.
Hypothesis bool_values : forall v, denote bool_type v <-> truth true v \/ truth false v.
Hypothesis bool_literal : forall t b v, kind_of t = BoolLiteral b -> (denote t v <-> truth b v).

Definition distinct (x y : T * nat) : Prop := forall e i, kind_of (fst x) = EnumMember e i -> kind_of (fst y) = EnumMember e i -> False.
Lemma distinct_sym : forall x y, distinct x y -> distinct y x.
Proof. intros x y H e i A B. exact (H e i B A). Qed.

Lemma merge_into_distinct : forall l t l', merge_into l t = Some l' -> ForallOrdPairs distinct l -> ForallOrdPairs distinct l'.
Proof.
  intros l t l' H A.
  enough (G : ForallOrdPairs distinct l' /\ forall x, (forall e, In e l -> distinct x e) -> distinct x (t, 0) -> Forall (distinct x) l') by apply G.
  revert l' H A. induction l as [|c r IH]; intros l' H A; cbn [UnionModel.merge_into] in H; [discriminate|]. inversion A as [|? ? F Ar]; subst.
  assert (K : distinct c (t, 0) -> option_map (cons c) (merge_into r t) = Some l' ->
    ForallOrdPairs distinct l' /\ forall x, (forall e, In e (c :: r) -> distinct x e) -> distinct x (t, 0) -> Forall (distinct x) l').
  { intros D Q. destruct (merge_into r t) as [r'|] eqn:E; [|discriminate]. injection Q as <-. destruct (IH r' eq_refl Ar) as [A' X]. split.
    - constructor; [|exact A']. apply X; [|exact D]. rewrite Forall_forall in F. exact F.
    - intros x Hx Dx. constructor; [apply Hx; left; reflexivity|]. apply X; [|exact Dx]. intros e I. apply Hx. right. exact I. }
  assert (Keep : Some (c :: r) = Some l' -> ForallOrdPairs distinct l' /\ forall x, (forall e, In e (c :: r) -> distinct x e) -> distinct x (t, 0) -> Forall (distinct x) l').
  { intros Q. injection Q as <-. split; [exact A|]. intros x Hx _. rewrite Forall_forall. exact Hx. }
  assert (Np : ~ plain (fst c) -> distinct c (t, 0)) by (intros N e i Q _; apply N; exact (proj2 (member_plain _ _ _ Q))).
  destruct (has_any (fst c)) eqn:Ac.
  - destruct (same_class (unknown_class (fst c)) (class_ t)) eqn:Sc; [|apply K; [apply Np; intros (P & _); congruence|exact H]]. injection H as <-.
    assert (Kt : kind_of t = OtherType) by (apply class_kind; intros N; rewrite N in Sc; destruct (unknown_class (fst c)); discriminate).
    split.
    + constructor; [|exact Ar]. rewrite Forall_forall. intros y _ e i Q. cbn [fst] in Q. congruence.
    + intros x Hx Dx. constructor; [exact Dx|]. rewrite Forall_forall. intros e I. apply Hx. right. exact I.
  - destruct (is_calculating t) eqn:Ct; [discriminate|]. destruct (is_recursive_with_generics (fst c)) eqn:Rc; [apply K; [apply Np; intros (_ & _ & P); congruence|exact H]|].
    destruct (is_calculating (fst c)) eqn:Cc; [destruct (eqb t (fst c)); [exact (Keep H)|apply K; [apply Np; intros (_ & P & _); congruence|exact H]]|].
    destruct (is_super_type_of t (fst c)) eqn:S1.
    + injection H as <-. split.
      * constructor; [|apply pairs_filter; exact Ar]. rewrite Forall_forall. intros y I e i Q1 Q2. cbn [fst] in Q1. apply filter_In in I. destruct I as [_ N]. destruct (member_plain _ _ _ Q2) as (_ & P1 & P2 & P3). rewrite P1, P2, P3 in N.
        rewrite (member_same _ _ _ _ Q1 Q2) in N. discriminate.
      * intros x Hx Dx. constructor; [exact Dx|]. rewrite Forall_forall. intros e I. apply filter_In in I. apply Hx. right. apply I.
    + assert (Dc : distinct c (t, 0)) by (intros e i Q1 Q2; cbn [fst] in Q2; assert (Z := member_same _ _ _ _ Q2 Q1); congruence). destruct (is_super_type_of (fst c) t); [exact (Keep H)|exact (K Dc H)].
Qed.

(** ** The loop over the types *)
Definition literal (t : T) : Prop := exists x, kind_of t = LiteralValue x.
Record inv (P : list (T * nat)) (s : state) : Prop := {
  inv_from : forall e, In e (new_types T s) -> In (fst e) (map fst P) /\ ~ literal (fst e);
  inv_literals : forall k e, In (k, e) (literal_values T s) -> In (fst e) (map fst P) /\ kind_of (fst e) = LiteralValue k;
  inv_covered : forall t, In t (map fst P) -> unknown_type_param t = false -> known t ->
    (exists k e, kind_of t = LiteralValue k /\ In (k, e) (literal_values T s)) \/ covered (new_types T s) t;
  inv_true : had_true T s = true -> exists t, In t (map fst P) /\ kind_of t = BoolLiteral true;
  inv_false : had_false T s = true -> exists t, In t (map fst P) /\ kind_of t = BoolLiteral false;
  inv_distinct : ForallOrdPairs distinct (new_types T s) }.

Lemma covered_app : forall l l' t, covered l t -> covered (l ++ l') t.
Proof. intros l l' t (e & I & K). exists e. split; [apply in_or_app; left; exact I|exact K]. Qed.
Lemma covered_self : forall l (e : T * nat), known (fst e) -> covered (l ++ [e]) (fst e).
Proof. intros l e K. exists e. split; [apply in_or_app; right; left; reflexivity|]. split; [exact K|apply below_refl]. Qed.
Lemma pairs_snoc : forall {A} (R : A -> A -> Prop) l x, ForallOrdPairs R l -> (forall y, In y l -> R y x) -> ForallOrdPairs R (l ++ [x]).
Proof. intros A R l x H F. apply pairs_app; [exact H|constructor; constructor|]. intros y z I [<-|[]]. exact (F y I). Qed.

Lemma or_insert_in : forall m k (e : T * nat) x, In x (or_insert T m k e) -> In x m \/ x = (k, e).
Proof. intros m k e x. unfold or_insert. destruct (existsb _ m); [auto|]. rewrite in_app_iff. intros [I|[I|[]]]; auto. Qed.
Lemma or_insert_keeps : forall m k (e : T * nat) x, In x m -> In x (or_insert T m k e).
Proof. intros m k e x I. unfold or_insert. destruct (existsb _ m); [exact I|]. apply in_or_app. left. exact I. Qed.
Lemma or_insert_has : forall m k (e : T * nat), exists e', In (k, e') (or_insert T m k e).
Proof.
  intros m k e. unfold or_insert. destruct (existsb (fun x => fst x =? k) m) eqn:E; [|exists e; apply in_or_app; right; left; reflexivity].
  apply existsb_exists in E. destruct E as ([k' e'] & I & Q). apply Nat.eqb_eq in Q. cbn [fst] in Q. subst k'. exists e'. exact I.
Qed.

Lemma not_literal : forall t, (forall x, kind_of t <> LiteralValue x) -> ~ literal t.
Proof. intros t H (x & K). exact (H x K). Qed.

(** The state stays the same, or the type is added at the end. *)
Lemma inv_skip : forall P s (e : T * nat), inv P s -> (unknown_type_param (fst e) = false -> known (fst e) -> covered (new_types T s) (fst e)) -> inv (P ++ [e]) s.
Proof.
  intros P s e [F L C Tr Fa D] K. rewrite <- (rev_involutive P) in *. split.
  - intros x I. rewrite map_app, in_app_iff. destruct (F x I). auto.
  - intros k x I. rewrite map_app, in_app_iff. destruct (L k x I). auto.
  - intros t I U Kn. rewrite map_app, in_app_iff in I. destruct I as [I|[<-|[]]]; [exact (C t I U Kn)|right; exact (K U Kn)].
  - intros H. destruct (Tr H) as (t & I & Q). exists t. rewrite map_app, in_app_iff. auto.
  - intros H. destruct (Fa H) as (t & I & Q). exists t. rewrite map_app, in_app_iff. auto.
  - exact D.
Qed.
Lemma inv_push : forall P s (e : T * nat) he ht hf, inv P s -> ~ literal (fst e) -> (forall y, In y (new_types T s) -> distinct y e) ->
  (ht = true -> had_true T s = true \/ kind_of (fst e) = BoolLiteral true) -> (hf = true -> had_false T s = true \/ kind_of (fst e) = BoolLiteral false) ->
  inv (P ++ [e]) (mk_state T (new_types T s ++ [e]) (literal_values T s) he ht hf).
Proof.
  intros P s e he ht hf [F L C Tr Fa D] Nl Ds Ht Hf. split; cbn [new_types literal_values had_true had_false].
  - intros x I. rewrite map_app, in_app_iff. apply in_app_or in I. destruct I as [I|[<-|[]]]; [destruct (F x I); auto|]. split; [right; left; reflexivity|exact Nl].
  - intros k x I. rewrite map_app, in_app_iff. destruct (L k x I). auto.
  - intros t I U Kn. rewrite map_app, in_app_iff in I. destruct I as [I|[<-|[]]]; [|right; apply covered_self; exact Kn]. destruct (C t I U Kn) as [A|A]; [left; exact A|right; apply covered_app; exact A].
  - intros H. destruct (Ht H) as [A|A]; [destruct (Tr A) as (t & I & Q); exists t; rewrite map_app, in_app_iff; auto|exists (fst e); rewrite map_app, in_app_iff; split; [right; left; reflexivity|exact A]].
  - intros H. destruct (Hf H) as [A|A]; [destruct (Fa A) as (t & I & Q); exists t; rewrite map_app, in_app_iff; auto|exists (fst e); rewrite map_app, in_app_iff; split; [right; left; reflexivity|exact A]].
  - apply pairs_snoc; assumption.
Qed.

Lemma add_type_literal : forall P s (e : T * nat) x, inv P s -> kind_of (fst e) = LiteralValue x ->
  inv (P ++ [e]) (mk_state T (new_types T s) (or_insert T (literal_values T s) x e) (had_enum_member T s) (had_true T s) (had_false T s)).
Proof.
  intros P s e x [F L C Tr Fa D] K. split; cbn [new_types literal_values had_true had_false].
  - intros y I. rewrite map_app, in_app_iff. destruct (F y I). auto.
  - intros k y I. rewrite map_app, in_app_iff. apply or_insert_in in I. destruct I as [I|I]; [destruct (L k y I); auto|]. injection I as -> ->. split; [right; left; reflexivity|exact K].
  - intros t I U Kn. rewrite map_app, in_app_iff in I. destruct I as [I|[<-|[]]].
    + destruct (C t I U Kn) as [(k & y & Q & J)|A]; [left; exists k, y; split; [exact Q|apply or_insert_keeps; exact J]|right; exact A].
    + left. destruct (or_insert_has (literal_values T s) x e) as (y & J). exists x, y. auto.
  - intros H. destruct (Tr H) as (t & I & Q). exists t. rewrite map_app, in_app_iff. auto.
  - intros H. destruct (Fa H) as (t & I & Q). exists t. rewrite map_app, in_app_iff. auto.
  - exact D.
Qed.

Lemma add_type_inv : forall P s e s', inv P s -> add_type s e = Some s' -> inv (P ++ [e]) s'.
Proof.
  intros P s e s' V H. unfold UnionModel.add_type in H.
  assert (G : ~ literal (fst e) -> (forall k, k = kind_of (fst e) ->
    (if is_object (fst e) then None
     else if has_any (fst e) then
        if match unknown_class (fst e) with Some c => existsb (fun x => same_class (Some c) (class_ (fst x))) (new_types T s) | None => false end then Some s
        else if negb (existsb (fun x => equal_without_unpacking (fst x) (fst e)) (new_types T s)) && negb (unknown_type_param (fst e)) then
          Some (set_new_types T s (new_types T s ++ [e]))
        else Some s
      else if existsb (fun x => eqb (fst x) (fst e)) (new_types T s) then Some s
      else if is_recursive_with_generics (fst e) then
        if existsb (fun x => eqb (fst x) (fst e)) (new_types T s) then Some s
        else Some (set_new_types T s (new_types T s ++ [e]))
      else
        match merge_into (new_types T s) (fst e) with
        | Some l => Some (set_new_types T s l)
        | None =>
            Some (mk_state T (new_types T s ++ [e]) (literal_values T s)
              (match k with EnumMember _ _ => true | _ => had_enum_member T s end)
              (match k with BoolLiteral true => true | _ => had_true T s end)
              (match k with BoolLiteral false => true | _ => had_false T s end))
        end) = Some s' -> inv (P ++ [e]) s')).
  { clear H. intros Nl k Ek H. destruct (is_object (fst e)); [discriminate|].
    assert (Np : ~ plain (fst e) -> forall y, distinct y e) by (intros N y a i _ Q; apply N; exact (proj2 (member_plain _ _ _ Q))).
    assert (Push : (forall y, In y (new_types T s) -> distinct y e) -> inv (P ++ [e]) (set_new_types T s (new_types T s ++ [e]))) by (intros Ds; apply inv_push; auto).
    destruct (has_any (fst e)) eqn:Ae.
    - assert (Push' := Push (fun y _ => Np ltac:(intros (A & _); congruence) y)).
      destruct (unknown_class (fst e)) as [c|] eqn:Uc.
      + assert (Sk : inv (P ++ [e]) s) by (apply inv_skip; [exact V|intros _ Kn; unfold known in Kn; congruence]).
        destruct (existsb (fun x => same_class (Some c) (class_ (fst x))) (new_types T s)); [injection H as <-; exact Sk|].
        destruct (negb (existsb (fun x => equal_without_unpacking (fst x) (fst e)) (new_types T s)) && negb (unknown_type_param (fst e))); injection H as <-; assumption.
      + destruct (existsb (fun x => equal_without_unpacking (fst x) (fst e)) (new_types T s)) eqn:Ex; cbn [negb andb] in H.
        * injection H as <-. apply inv_skip; [exact V|]. intros _ Kn. apply existsb_exists in Ex. destruct Ex as (x & I & Q). exists x. split; [exact I|]. split; [exact (equal_unknown _ _ Q Kn)|apply (equal_sound _ _ Q)].
        * destruct (unknown_type_param (fst e)) eqn:Ut; cbn [negb] in H; injection H as <-; [|exact Push']. apply inv_skip; [exact V|congruence].
    - destruct (existsb (fun x => eqb (fst x) (fst e)) (new_types T s)) eqn:Ex.
      + injection H as <-. apply inv_skip; [exact V|]. intros _ Kn. apply existsb_exists in Ex. destruct Ex as (x & I & Q). destruct (eqb_sound _ _ Q) as (_ & B & An). exists x. split; [exact I|]. split; [apply unknown_has_any; congruence|exact B].
      + destruct (is_recursive_with_generics (fst e)) eqn:Re; [injection H as <-; apply Push; intros y _; apply Np; intros (_ & _ & A); congruence|].
        destruct (merge_into (new_types T s) (fst e)) as [l|] eqn:M.
        * injection H as <-. destruct (merge_into_covers _ _ _ Ae M) as [Ce Cl]. assert (V' := V). destruct V' as [F L C Tr Fa D]. split; cbn [set_new_types new_types literal_values had_true had_false].
          -- intros x I. rewrite map_app, in_app_iff. destruct (merge_into_from _ _ _ M x I) as [J|J]; [destruct (F x J); auto|]. rewrite J. split; [right; left; reflexivity|exact Nl].
          -- intros k' x I. rewrite map_app, in_app_iff. destruct (L k' x I). auto.
          -- intros t I U Kn. rewrite map_app, in_app_iff in I. destruct I as [I|[<-|[]]]; [|right; exact Ce]. destruct (C t I U Kn) as [A|(x & Ix & Kx & Bx)]; [left; exact A|right].
             destruct (Cl x Ix Kx) as (y & Iy & Ky & By). exists y. split; [exact Iy|]. split; [exact Ky|exact (below_trans _ _ _ Bx By)].
          -- intros Q. destruct (Tr Q) as (t & I & Qt). exists t. rewrite map_app, in_app_iff. auto.
          -- intros Q. destruct (Fa Q) as (t & I & Qt). exists t. rewrite map_app, in_app_iff. auto.
          -- exact (merge_into_distinct _ _ _ M D).
        * injection H as <-. apply inv_push; [exact V|exact Nl| | |].
          -- intros y I a i Q1 Q2. destruct (member_plain _ _ _ Q2) as (_ & _ & Cc & _). destruct (member_plain _ _ _ Q1) as (_ & Py). destruct (merge_into_unrelated _ _ M Cc y I Py) as [Z _].
             rewrite (member_same _ _ _ _ Q2 Q1) in Z. discriminate.
          -- subst k. destruct (kind_of (fst e)) as [x|[|]|a i|]; auto.
          -- subst k. destruct (kind_of (fst e)) as [x|[|]|a i|]; auto. }
  destruct (kind_of (fst e)) as [x|b|a i|] eqn:K.
  - injection H as <-. apply add_type_literal; assumption.
  - apply (G ltac:(intros (y & Q); congruence) (BoolLiteral b) eq_refl). exact H.
  - apply (G ltac:(intros (y & Q); congruence) (EnumMember a i) eq_refl). exact H.
  - apply (G ltac:(intros (y & Q); congruence) OtherType eq_refl). exact H.
Qed.

Lemma inv_start : inv [] (mk_state T [] [] false false false).
Proof. split; cbn; try contradiction; try discriminate. constructor. Qed.

Lemma add_types_inv : forall ts P s, inv P s -> match add_types s ts with inl t => is_object t = true /\ In t (map fst (P ++ ts)) | inr s' => inv (P ++ ts) s' end.
Proof.
  induction ts as [|e ts IH]; intros P s V; cbn [UnionModel.add_types]; [rewrite app_nil_r; exact V|]. destruct (add_type s e) as [s'|] eqn:A.
  - replace (P ++ e :: ts) with ((P ++ [e]) ++ ts) by (rewrite <- app_assoc; reflexivity). apply IH. exact (add_type_inv _ _ _ _ V A).
  - split; [|rewrite map_app, in_app_iff; right; left; reflexivity]. unfold UnionModel.add_type in A.
    destruct (kind_of (fst e)) as [x|b|a i|]; [discriminate| | |]; (destruct (is_object (fst e)) eqn:O; [reflexivity|]); exfalso; revert A;
      (destruct (has_any (fst e)); [destruct (match unknown_class (fst e) with Some c => _ | None => false end); [discriminate|]; destruct (negb _ && negb _); discriminate|]);
      (destruct (existsb _ (new_types T s)); [discriminate|]); (destruct (is_recursive_with_generics (fst e)); [discriminate|]); destruct (merge_into (new_types T s) (fst e)); discriminate.
Qed.

(** ** Enums of which all members are there *)
Definition index_of (x : T * nat) : nat := match kind_of (fst x) with EnumMember _ i => i | _ => 0 end.
Lemma of_enum_spec : forall e x, of_enum T kind_of e x = true <-> exists i, kind_of (fst x) = EnumMember e i.
Proof.
  intros e x. unfold of_enum. destruct (kind_of (fst x)) as [y|b|a i|]; split; try discriminate; try (intros (j & Q); discriminate).
  - intros Q. apply Nat.eqb_eq in Q. subst a. exists i. reflexivity.
  - intros (j & Q). injection Q as -> ->. apply Nat.eqb_refl.
Qed.
Lemma all_members : forall e l, ForallOrdPairs distinct l -> enum_len e <= enum_count T kind_of e l -> forall i, i < enum_len e -> exists x, In x l /\ kind_of (fst x) = EnumMember e i.
Proof.
  intros e l D L i B. unfold enum_count in L. assert (D' := pairs_filter _ (of_enum T kind_of e) _ D). set (f := filter (of_enum T kind_of e) l) in *.
  assert (Hf : forall x, In x f -> In x l /\ exists j, kind_of (fst x) = EnumMember e j) by (intros x I; apply filter_In in I; destruct I as [I Q]; apply of_enum_spec in Q; auto).
  assert (N : NoDup (map index_of f)).
  { clear -D' Hf. induction D' as [|x f F D IH]; [constructor|]. cbn [map]. constructor; [|apply IH; intros y I; apply Hf; right; exact I]. intros I. apply in_map_iff in I. destruct I as (y & Q & I).
    rewrite Forall_forall in F. specialize (F y I). destruct (Hf x (or_introl eq_refl)) as (_ & j & Kx). destruct (Hf y (or_intror I)) as (_ & k & Ky). unfold index_of in Q. rewrite Kx, Ky in Q. subst k. exact (F e j Kx Ky). }
  assert (Inc : incl (map index_of f) (seq 0 (enum_len e))).
  { intros j I. apply in_map_iff in I. destruct I as (x & <- & I). destruct (Hf x I) as (_ & k & K). unfold index_of. rewrite K. apply in_seq. destruct (member_plain _ _ _ K). lia. }
  assert (Inc' : incl (seq 0 (enum_len e)) (map index_of f)) by (apply NoDup_length_incl; [exact N|rewrite seq_length, map_length; exact L|exact Inc]).
  assert (J : In i (map index_of f)) by (apply Inc', in_seq; lia). apply in_map_iff in J. destruct J as (x & Q & I). destruct (Hf x I) as (Il & k & K). exists x. split; [exact Il|]. unfold index_of in Q. rewrite K in Q. congruence.
Qed.
Lemma first_member_spec : forall e l x i, In x l -> kind_of (fst x) = EnumMember e i -> exists y j, first_member T kind_of e l = Some j /\ In y l /\ kind_of (fst y) = EnumMember e j.
Proof.
  intros e l x i I K. unfold first_member. destruct (filter (of_enum T kind_of e) l) as [|y r] eqn:F.
  - exfalso. assert (J : In x (filter (of_enum T kind_of e) l)) by (apply filter_In; split; [exact I|apply of_enum_spec; exists i; exact K]). rewrite F in J. destruct J.
  - assert (J : In y (filter (of_enum T kind_of e) l)) by (rewrite F; left; reflexivity). apply filter_In in J. destruct J as [J Q]. apply of_enum_spec in Q. destruct Q as (j & Q). exists y, j. rewrite Q. auto.
Qed.

(** What becomes of an entry. *)
Lemma contract_entry_cases : forall l x, contract_entry T kind_of enum_type enum_len l x = [x] \/
  (exists e i, kind_of (fst x) = EnumMember e i /\ enum_len e <= enum_count T kind_of e l /\ first_member T kind_of e l = Some i /\ contract_entry T kind_of enum_type enum_len l x = [(enum_type e, snd x)]) \/
  (exists e i, kind_of (fst x) = EnumMember e i /\ enum_len e <= enum_count T kind_of e l /\ contract_entry T kind_of enum_type enum_len l x = []).
Proof.
  intros l x. unfold contract_entry. destruct (kind_of (fst x)) as [y|b|e i|]; auto. destruct (enum_len e <=? enum_count T kind_of e l) eqn:L; [|auto]. apply Nat.leb_le in L.
  destruct (first_member T kind_of e l) as [j|] eqn:F; [|auto]. destruct (j =? i) eqn:E; [apply Nat.eqb_eq in E; subst j; right; left; exists e, i; auto|right; right; exists e, i; auto].
Qed.

Hypothesis enum_known : forall e, known (enum_type e).
Hypothesis bool_known : known bool_type.
Hypothesis enum_kind : forall e, kind_of (enum_type e) = OtherType.
Hypothesis bool_kind : kind_of bool_type = OtherType.

Lemma contract_enums_covers : forall l, ForallOrdPairs distinct l -> forall e, In e l -> known (fst e) -> covered (contract_enums l) (fst e).
Proof.
  intros l D x I K. unfold try_contracting_enum_members. destruct (contract_entry_cases l x) as [E|[(e & i & Ke & L & F & E)|(e & i & Ke & L & E)]].
  - exists x. split; [apply in_flat_map; exists x; split; [exact I|rewrite E; left; reflexivity]|]. split; [exact K|apply below_refl].
  - exists (enum_type e, snd x). split; [apply in_flat_map; exists x; split; [exact I|rewrite E; left; reflexivity]|]. split; [apply enum_known|]. intros v H. apply enum_values. exists i. split; [apply (member_plain _ _ _ Ke)|]. apply (member_values _ _ _ _ Ke). exact H.
  - destruct (first_member_spec _ _ _ _ I Ke) as (y & j & F & Iy & Ky). exists (enum_type e, snd y). split; [|split; [apply enum_known|]].
    + apply in_flat_map. exists y. split; [exact Iy|]. unfold contract_entry. rewrite Ky. apply Nat.leb_le in L. rewrite L, F, Nat.eqb_refl. left. reflexivity.
    + intros v H. apply enum_values. exists i. split; [apply (member_plain _ _ _ Ke)|]. apply (member_values _ _ _ _ Ke). exact H.
Qed.
Lemma contract_enums_from : forall l, ForallOrdPairs distinct l -> forall x, In x (contract_enums l) -> (In x l) \/ (kind_of (fst x) = OtherType /\ forall v, denote (fst x) v -> exists y, In y l /\ denote (fst y) v).
Proof.
  intros l D x I. unfold try_contracting_enum_members in I. apply in_flat_map in I. destruct I as (y & Iy & I). destruct (contract_entry_cases l y) as [E|[(e & i & Ke & L & F & E)|(e & i & Ke & L & E)]]; rewrite E in I.
  - destruct I as [<-|[]]. left. exact Iy.
  - destruct I as [<-|[]]. right. split; [apply enum_kind|]. cbn [fst]. intros v H. apply enum_values in H. destruct H as (j & B & M). destruct (all_members e l D L j B) as (z & Iz & Kz). exists z. split; [exact Iz|]. apply (member_values _ _ _ _ Kz). exact M.
  - destruct I.
Qed.

Lemma contract_bools_covers : forall l first, (first = true \/ True) -> forall e, In e l -> known (fst e) ->
  covered (contract_bools first l) (fst e) \/ (first = false /\ below (fst e) bool_type).
Proof.
  intros l first _. revert first. induction l as [|x l IH]; intros first e I K; [destruct I|]. cbn [contract_bool_literals].
  assert (Cons : forall y l, covered l (fst e) -> covered (y :: l) (fst e)) by (intros y l' (z & Iz & Kz); exists z; split; [right; exact Iz|exact Kz]).
  assert (Lb : forall b, kind_of (fst x) = BoolLiteral b -> below (fst x) bool_type) by (intros b Q v H; apply bool_values; apply (bool_literal _ _ v Q) in H; destruct b; auto).
  destruct (kind_of (fst x)) as [y|b|a i|] eqn:Kx.
  - destruct I as [<-|I]; [left; exists x; split; [left; reflexivity|]; split; [exact K|apply below_refl]|]. destruct (IH first e I K) as [C|C]; [left; apply Cons; exact C|right; exact C].
  - destruct first.
    + left. destruct I as [<-|I]; [exists (bool_type, snd x); split; [left; reflexivity|]; split; [exact bool_known|exact (Lb b eq_refl)]|].
      destruct (IH false e I K) as [C|[_ C]]; [apply Cons; exact C|exists (bool_type, snd x); split; [left; reflexivity|]; split; [exact bool_known|exact C]].
    + destruct I as [<-|I]; [right; split; [reflexivity|exact (Lb b eq_refl)]|exact (IH false e I K)].
  - destruct I as [<-|I]; [left; exists x; split; [left; reflexivity|]; split; [exact K|apply below_refl]|]. destruct (IH first e I K) as [C|C]; [left; apply Cons; exact C|right; exact C].
  - destruct I as [<-|I]; [left; exists x; split; [left; reflexivity|]; split; [exact K|apply below_refl]|]. destruct (IH first e I K) as [C|C]; [left; apply Cons; exact C|right; exact C].
Qed.
Lemma contract_bools_from : forall l first x, In x (contract_bools first l) -> In x l \/ fst x = bool_type.
Proof.
  induction l as [|y l IH]; intros first x I; cbn [contract_bool_literals] in I; [destruct I|].
  assert (G : forall f, In x (contract_bools f l) -> In x (y :: l) \/ fst x = bool_type) by (intros f J; destruct (IH f x J); [left; right|right]; assumption).
  destruct (kind_of (fst y)); try (destruct I as [<-|I]; [left; left; reflexivity|exact (G _ I)]). destruct first; [destruct I as [<-|I]; [right; reflexivity|exact (G _ I)]|exact (G _ I)].
Qed.

(** ** The result *)
Theorem simplify_sound : forall types v, means denote (simplify types) v -> means denote types v.
Proof.
  intros types v (x & I & H). unfold merge_simplified_union_type in I. assert (V := add_types_inv types [] _ inv_start). cbn [app] in V.
  assert (Back : In (fst x) (map fst types) -> means denote types v) by (intros J; apply in_map_iff in J; destruct J as (y & Q & J); exists y; split; [exact J|rewrite Q; exact H]).
  destruct (add_types (mk_state T [] [] false false false) types) as [t|s].
  - destruct I as [<-|[]]. apply Back. apply V.
  - cbn zeta in I. apply in_sort_by, in_app_or in I. destruct V as [F L C Tr Fa D]. destruct I as [I|I].
    + apply in_sort_by in I. assert (J : In x (order (map snd (literal_values T s)))) by (destruct (if had_false T s && had_true T s then _ else _); [exact I|apply filter_In in I; apply I]).
      apply (Permutation_in _ (Permutation_sym (order_permuted _))) in J. apply in_map_iff in J. destruct J as ([k y] & <- & J). apply Back. apply (L k y J).
    + set (l := if had_enum_member T s then contract_enums (new_types T s) else new_types T s) in *.
      assert (Fl : forall y w, In y l -> denote (fst y) w -> means denote types w).
      { intros y w J Hy. assert (Z : exists z, In z (new_types T s) /\ denote (fst z) w).
        { unfold l in J. destruct (had_enum_member T s); [|exists y; auto]. destruct (contract_enums_from _ D y J) as [J'|[_ J']]; [exists y; auto|exact (J' w Hy)]. }
        destruct Z as (z & Iz & Hz). destruct (F z Iz) as [Jz _]. apply in_map_iff in Jz. destruct Jz as (u & Q & Ju). exists u. split; [exact Ju|rewrite Q; exact Hz]. }
      destruct (had_false T s && had_true T s) eqn:B; [|exact (Fl x v I H)]. apply andb_true_iff in B. destruct B as [B1 B2].
      destruct (contract_bools_from _ _ _ I) as [J|J]; [exact (Fl x v J H)|]. rewrite J in H. apply bool_values in H.
      destruct H as [H|H]; [destruct (Tr B2) as (t & Jt & Q)|destruct (Fa B1) as (t & Jt & Q)]; apply in_map_iff in Jt; destruct Jt as (u & <- & Ju); exists u; (split; [exact Ju|]); apply (bool_literal _ _ v Q); exact H.
Qed.

Theorem simplify_complete : forall types t v, In t types -> unknown_type_param (fst t) = false -> unknown_class (fst t) = None -> denote (fst t) v -> means denote (simplify types) v.
Proof.
  intros types t v I U K H. unfold merge_simplified_union_type. assert (V := add_types_inv types [] _ inv_start). cbn [app] in V.
  destruct (add_types (mk_state T [] [] false false false) types) as [o|s].
  - exists (o, 0). split; [left; reflexivity|]. apply object_all. apply V.
  - cbn zeta. destruct V as [F L C Tr Fa D]. set (l := if had_enum_member T s then contract_enums (new_types T s) else new_types T s).
    set (m := if had_false T s && had_true T s then contract_bools true l else l).
    assert (Cm : covered (new_types T s) (fst t) -> covered m (fst t)).
    { intros (x & Ix & Kx & Bx). assert (Cl : covered l (fst t)).
      { unfold l. destruct (had_enum_member T s); [|exists x; auto]. destruct (contract_enums_covers _ D x Ix Kx) as (y & Iy & Ky & By). exists y. split; [exact Iy|]. split; [exact Ky|exact (below_trans _ _ _ Bx By)]. }
      unfold m. destruct (had_false T s && had_true T s); [|exact Cl]. destruct Cl as (y & Iy & Ky & By). destruct (contract_bools_covers l true (or_intror Logic.I) y Iy Ky) as [(z & Iz & Kz & Bz)|[Q _]]; [|discriminate].
      exists z. split; [exact Iz|]. split; [exact Kz|exact (below_trans _ _ _ By Bz)]. }
    destruct (C (fst t) (in_map fst _ _ I) U K) as [(k & e & Q & J)|Cv].
    + destruct (L k e J) as [_ Ke]. assert (He : denote (fst e) v) by exact (literal_value _ _ _ Q Ke v H).
      assert (Je : In e (order (map snd (literal_values T s)))) by (apply (Permutation_in _ (order_permuted _)); apply in_map_iff; exists (k, e); auto).
      destruct m as [|y m'] eqn:Em.
      * exists e. split; [|exact He]. apply in_sort_by, in_or_app. left. apply in_sort_by. exact Je.
      * rewrite <- Em in *. destruct (existsb (fun x => eqb (fst x) (fallback_type (fst e))) m) eqn:Ex.
        -- apply existsb_exists in Ex. destruct Ex as (x & Ix & Qx). exists x. split; [apply in_sort_by, in_or_app; right; exact Ix|]. destruct (eqb_sound _ _ Qx) as (_ & B & _). apply B. exact (literal_fallback _ _ Ke v He).
        -- exists e. split; [|exact He]. apply in_sort_by, in_or_app. left. apply in_sort_by. apply filter_In. split; [exact Je|]. rewrite Ex. reflexivity.
    + destruct (Cm Cv) as (x & Ix & _ & Bx). exists x. split; [|exact (Bx v H)]. apply in_sort_by, in_or_app. right. exact Ix.
Qed.

(** ** No redundant entries *)
Hypothesis enum_above : forall t e i, kind_of t = EnumMember e i -> is_super_type_of (enum_type e) t = true.
Hypothesis enum_atoms : forall t e, plain t -> is_super_type_of (enum_type e) t = true -> exists i, i < enum_len e /\ forall m, kind_of m = EnumMember e i -> is_super_type_of t m = true.
Hypothesis bool_above : forall t b, kind_of t = BoolLiteral b -> is_super_type_of bool_type t = true.
Hypothesis bool_same : forall a b x, kind_of a = BoolLiteral x -> kind_of b = BoolLiteral x -> is_super_type_of a b = true.
Hypothesis bool_plain : forall t b, kind_of t = BoolLiteral b -> plain t.
Hypothesis bool_atoms : forall t, plain t -> is_super_type_of bool_type t = true -> exists b, forall m, kind_of m = BoolLiteral b -> is_super_type_of t m = true.
Hypothesis bool_whole : forall t m b, plain t -> (forall x, kind_of t <> BoolLiteral x) -> kind_of m = BoolLiteral b -> is_super_type_of t m = true -> is_super_type_of t bool_type = true.

Hypothesis bool_exists : forall b, exists t, kind_of t = BoolLiteral b.

Lemma add_type_apart : forall s e s', Forall (fun x => unknown_class (fst x) = None) (new_types T s) -> add_type s e = Some s' -> ForallOrdPairs apart (new_types T s) -> ForallOrdPairs apart (new_types T s').
Proof.
  intros s e s' U H A. unfold UnionModel.add_type in H.
  assert (Push : ~ plain (fst e) -> ForallOrdPairs apart (new_types T s ++ [e])) by (intros N; apply pairs_snoc; [exact A|]; intros y _ _ P; contradiction).
  assert (G : forall k,
    (if is_object (fst e) then None
     else if has_any (fst e) then
        if match unknown_class (fst e) with Some c => existsb (fun x => same_class (Some c) (class_ (fst x))) (new_types T s) | None => false end then Some s
        else if negb (existsb (fun x => equal_without_unpacking (fst x) (fst e)) (new_types T s)) && negb (unknown_type_param (fst e)) then
          Some (set_new_types T s (new_types T s ++ [e]))
        else Some s
      else if existsb (fun x => eqb (fst x) (fst e)) (new_types T s) then Some s
      else if is_recursive_with_generics (fst e) then
        if existsb (fun x => eqb (fst x) (fst e)) (new_types T s) then Some s
        else Some (set_new_types T s (new_types T s ++ [e]))
      else
        match merge_into (new_types T s) (fst e) with
        | Some l => Some (set_new_types T s l)
        | None =>
            Some (mk_state T (new_types T s ++ [e]) (literal_values T s)
              (match k with EnumMember _ _ => true | _ => had_enum_member T s end)
              (match k with BoolLiteral true => true | _ => had_true T s end)
              (match k with BoolLiteral false => true | _ => had_false T s end))
        end) = Some s' -> ForallOrdPairs apart (new_types T s')).
  { clear H. intros k H. destruct (is_object (fst e)); [discriminate|]. destruct (has_any (fst e)) eqn:Ae.
    - destruct (match unknown_class (fst e) with Some c => _ | None => false end); [injection H as <-; exact A|]. destruct (negb _ && negb _); injection H as <-; [|exact A]. apply Push. intros (P & _). congruence.
    - destruct (existsb _ (new_types T s)); [injection H as <-; exact A|]. destruct (is_recursive_with_generics (fst e)) eqn:Re; [injection H as <-; apply Push; intros (_ & _ & P); congruence|].
      destruct (merge_into (new_types T s) (fst e)) as [l|] eqn:M; injection H as <-; cbn [set_new_types new_types]; [exact (merge_into_apart _ _ _ U Ae M A)|].
      apply pairs_snoc; [exact A|]. intros y I Py Pe. assert (Ce : is_calculating (fst e) = false) by apply Pe. destruct (merge_into_unrelated _ _ M Ce y I Py). split; assumption. }
  destruct (kind_of (fst e)) as [x|b|a i|]; [injection H as <-; exact A|exact (G (BoolLiteral b) H)|exact (G (EnumMember a i) H)|exact (G OtherType H)].
Qed.
Lemma add_types_apart : forall ts P s s', inv P s -> Forall (fun x => unknown_class (fst x) = None) (P ++ ts) -> ForallOrdPairs apart (new_types T s) -> add_types s ts = inr s' -> ForallOrdPairs apart (new_types T s').
Proof.
  induction ts as [|e ts IH]; intros P s s' V U A H; cbn [UnionModel.add_types] in H; [injection H as <-; exact A|]. destruct (add_type s e) as [s1|] eqn:E; [|discriminate].
  apply (IH (P ++ [e]) s1 s' (add_type_inv _ _ _ _ V E)); [rewrite <- app_assoc; exact U| |exact H]. apply (add_type_apart s e s1); [|exact E|exact A].
  rewrite Forall_forall in *. intros x I. destruct (inv_from _ _ V x I) as [J _]. apply in_map_iff in J. destruct J as (y & Q & J). rewrite <- Q. apply U, in_or_app. left. exact J.
Qed.

Lemma pairs_flat_map : forall {A} (R : A -> A -> Prop) (f : A -> list A) l, ForallOrdPairs (fun x y => forall a b, In a (f x) -> In b (f y) -> R a b) l -> (forall x, In x l -> ForallOrdPairs R (f x)) -> ForallOrdPairs R (flat_map f l).
Proof.
  intros A R f l H. induction H as [|x l F H IH]; intros S; [constructor|]. cbn [flat_map]. apply pairs_app; [apply S; left; reflexivity|apply IH; intros y I; apply S; right; exact I|].
  intros a b Ia Ib. apply in_flat_map in Ib. destruct Ib as (y & Iy & Ib). rewrite Forall_forall in F. exact (F y Iy a b Ia Ib).
Qed.
Lemma pairs_in : forall {A} (R : A -> A -> Prop), (forall x y, R x y -> R y x) -> forall l, ForallOrdPairs R l -> ForallOrdPairs (fun x y => In x l /\ In y l /\ R x y) l.
Proof.
  intros A R S l H. induction H as [|x l F H IH]; constructor.
  - rewrite Forall_forall in *. intros y I. split; [left; reflexivity|]. split; [right; exact I|exact (F y I)].
  - apply (pairs_impl (fun x y => In x l /\ In y l /\ R x y)); [|exact IH]. intros a b (I & J & K). split; [right; exact I|]. split; [right; exact J|exact K].
Qed.
Lemma pairs_both : forall {A} (R Q : A -> A -> Prop) l, ForallOrdPairs R l -> ForallOrdPairs Q l -> ForallOrdPairs (fun x y => R x y /\ Q x y) l.
Proof.
  intros A R Q l H. induction H as [|x l F H IH]; intros K; [constructor|]. inversion K as [|? ? G K']; subst. constructor; [|exact (IH K')]. rewrite Forall_forall in *. intros y I. split; [exact (F y I)|exact (G y I)].
Qed.
(** Two entries of different kinds. *)
Lemma apart_in : forall l, ForallOrdPairs apart l -> forall x y, In x l -> In y l -> kind_of (fst x) <> kind_of (fst y) -> apart x y.
Proof.
  intros l A x y I J N. destruct (ForallOrdPairs_In A x y I J) as [->|[H|H]]; [contradiction N; reflexivity|exact H|apply apart_sym; exact H].
Qed.

Lemma contract_enums_apart : forall l, ForallOrdPairs distinct l -> ForallOrdPairs apart l -> ForallOrdPairs apart (contract_enums l).
Proof.
  intros l D A. unfold try_contracting_enum_members.
  (* an enum of which all members are there, and another entry *)
  assert (X : forall x e i y, In x l -> In y l -> kind_of (fst x) = EnumMember e i -> enum_len e <= enum_count T kind_of e l -> (forall j, kind_of (fst y) <> EnumMember e j) -> plain (fst y) ->
    is_super_type_of (enum_type e) (fst y) = false /\ is_super_type_of (fst y) (enum_type e) = false).
  { intros x e i y Ix Iy Kx L Ny Py. split.
    - destruct (is_super_type_of (enum_type e) (fst y)) eqn:S; [|reflexivity]. exfalso. destruct (enum_atoms _ _ Py S) as (j & B & M). destruct (all_members e l D L j B) as (m & Im & Km). specialize (M _ Km).
      destruct (apart_in l A y m Iy Im) as [Z _]; [rewrite Km; apply Ny|exact Py|exact (proj2 (member_plain _ _ _ Km))|]. congruence.
    - destruct (is_super_type_of (fst y) (enum_type e)) eqn:S; [|reflexivity]. exfalso. assert (Z := super_trans _ _ _ S (enum_above _ _ _ Kx)).
      destruct (apart_in l A y x Iy Ix) as [Z' _]; [rewrite Kx; apply Ny|exact Py|exact (proj2 (member_plain _ _ _ Kx))|]. congruence. }
  apply pairs_flat_map.
  - apply (pairs_impl (fun x y => In x l /\ In y l /\ (apart x y /\ distinct x y))); [|apply pairs_in; [intros x y [H K]; split; [apply apart_sym; exact H|apply distinct_sym; exact K]|apply pairs_both; assumption]].
    intros x y (Ix & Iy & Axy & Dxy) a b Ia Ib.
    assert (NotMember : forall z e, In z l -> enum_len e <= enum_count T kind_of e l -> contract_entry T kind_of enum_type enum_len l z = [z] -> forall j, kind_of (fst z) <> EnumMember e j).
    { intros z e Iz L Q j K. unfold contract_entry in Q. rewrite K in Q. apply Nat.leb_le in L. rewrite L in Q. destruct (first_member_spec _ _ _ _ Iz K) as (w & k & F & _). rewrite F in Q. destruct (k =? j); [|discriminate].
      injection Q as Q. assert (Kz : kind_of (fst z) = OtherType) by (rewrite <- Q; apply enum_kind). congruence. }
    destruct (contract_entry_cases l x) as [Ex|[(e & i & Kx & Lx & Fx & Ex)|(e & i & Kx & Lx & Ex)]]; rewrite Ex in Ia; destruct (contract_entry_cases l y) as [Ey|[(e2 & i2 & Ky & Ly & Fy & Ey)|(e2 & i2 & Ky & Ly & Ey)]]; rewrite Ey in Ib; try destruct Ia as [<-|[]]; try destruct Ib as [<-|[]]; try contradiction.
    + exact Axy.
    + intros P _. cbn [fst]. destruct (X y e2 i2 x Iy Ix Ky Ly (NotMember x e2 Ix Ly Ex) P). split; assumption.
    + intros _ P. cbn [fst]. exact (X x e i y Ix Iy Kx Lx (NotMember y e Iy Lx Ey) P).
    + intros _ _. cbn [fst]. assert (Ne : e <> e2) by (intros ->; assert (i = i2) by congruence; subst i2; exact (Dxy _ _ Kx Ky)).
      assert (Px := proj2 (member_plain _ _ _ Kx)). assert (Py := proj2 (member_plain _ _ _ Ky)). split.
      * destruct (is_super_type_of (enum_type e) (enum_type e2)) eqn:S; [|reflexivity]. exfalso. assert (Z := super_trans _ _ _ S (enum_above _ _ _ Ky)).
        destruct (X x e i y Ix Iy Kx Lx) as [Z' _]; [intros j Q; congruence|exact Py|congruence].
      * destruct (is_super_type_of (enum_type e2) (enum_type e)) eqn:S; [|reflexivity]. exfalso. assert (Z := super_trans _ _ _ S (enum_above _ _ _ Kx)).
        destruct (X y e2 i2 x Iy Ix Ky Ly) as [Z' _]; [intros j Q; congruence|exact Px|congruence].
  - intros x _. destruct (contract_entry_cases l x) as [E|[(e & i & _ & _ & _ & E)|(e & i & _ & _ & E)]]; rewrite E; repeat constructor.
Qed.

Lemma contract_bools_apart : forall l first, ForallOrdPairs apart l -> ForallOrdPairs apart (contract_bools first l).
Proof.
  intros l first A.
  assert (X : forall x b y, apart x y -> kind_of (fst x) = BoolLiteral b -> (forall c, kind_of (fst y) <> BoolLiteral c) -> plain (fst y) -> is_super_type_of bool_type (fst y) = false /\ is_super_type_of (fst y) bool_type = false).
  { intros x b y H Kx Ny Py. destruct (H (bool_plain _ _ Kx) Py) as [_ H2]. assert (S2 : is_super_type_of (fst y) bool_type = false).
    { destruct (is_super_type_of (fst y) bool_type) eqn:S; [|reflexivity]. assert (Z := super_trans _ _ _ S (bool_above _ _ Kx)). congruence. }
    split; [|exact S2]. destruct (is_super_type_of bool_type (fst y)) eqn:S; [|reflexivity]. exfalso. destruct (bool_atoms _ Py S) as (c & M). destruct (Bool.bool_dec c b) as [->|N]; [specialize (M _ Kx); congruence|].
    destruct (bool_exists c) as (m & Km). assert (Z := bool_whole _ _ _ Py Ny Km (M _ Km)). congruence. }
  revert first. induction A as [|x l F A IH]; intros first; cbn [contract_bool_literals]; [constructor|].
  assert (Keep : (forall c, kind_of (fst x) <> BoolLiteral c) -> ForallOrdPairs apart (x :: contract_bools first l)).
  { intros N. constructor; [|apply IH]. rewrite Forall_forall in *. intros y I.
    assert (Z : (In y l) \/ exists z, In z l /\ fst y = bool_type /\ exists c, kind_of (fst z) = BoolLiteral c).
    { clear -I. revert first I. induction l as [|w l IHl]; intros first I; cbn [contract_bool_literals] in I; [destruct I|].
      assert (G : forall f, In y (contract_bools f l) -> In y (w :: l) \/ exists z, In z (w :: l) /\ fst y = bool_type /\ exists c, kind_of (fst z) = BoolLiteral c).
      { intros f J. destruct (IHl f J) as [K|(z & K & Q)]; [left; right; exact K|right; exists z; split; [right; exact K|exact Q]]. }
      destruct (kind_of (fst w)) as [u|c|a i|] eqn:Kw; try (destruct I as [<-|I]; [left; left; reflexivity|exact (G _ I)]).
      destruct first; [destruct I as [<-|I]; [right; exists w; split; [left; reflexivity|]; split; [reflexivity|exists c; exact Kw]|exact (G _ I)]|exact (G _ I)]. }
    destruct Z as [J|(z & Iz & Q & c & Kz)]; [exact (F y J)|]. intros Px _. rewrite Q. destruct (X z c x (apart_sym _ _ (F z Iz)) Kz N Px). split; assumption. }
  destruct (kind_of (fst x)) as [u|b|a i|] eqn:Kx; try (apply Keep; intros c Q; discriminate).
  destruct first; [|apply IH]. constructor; [|apply IH]. rewrite Forall_forall in *. intros y I _ Py. cbn [fst].
  assert (Z : In y l /\ forall c, kind_of (fst y) <> BoolLiteral c).
  { clear -I. induction l as [|w l IHl]; cbn [contract_bool_literals] in I; [destruct I|].
    destruct (kind_of (fst w)) as [u|c|a i|] eqn:Kw; try (destruct I as [<-|I]; [split; [left; reflexivity|intros c Q; congruence]|destruct (IHl I) as [J N]; split; [right; exact J|exact N]]). destruct (IHl I) as [J N]; split; [right; exact J|exact N]. }
  destruct Z as [J N]. exact (X x b y (F y J) Kx N Py).
Qed.

Theorem simplify_apart : forall types, Forall (fun x => unknown_class (fst x) = None) types ->
  forall i j x y, i <> j -> nth_error (simplify types) i = Some x -> nth_error (simplify types) j = Some y -> plain (fst x) -> plain (fst y) -> ~ literal (fst x) -> ~ literal (fst y) ->
  is_super_type_of (fst x) (fst y) = false.
Proof.
  intros types U i j x y D X Y Px Py Lx Ly.
  assert (G : ForallOrdPairs (fun x y => ~ literal (fst x) -> ~ literal (fst y) -> apart x y) (simplify types)).
  { unfold merge_simplified_union_type. assert (V := add_types_inv types [] _ inv_start). cbn [app] in V. destruct (add_types (mk_state T [] [] false false false) types) as [o|s] eqn:E; [repeat constructor|]. cbn zeta.
    assert (A : ForallOrdPairs apart (new_types T s)) by (apply (add_types_apart types [] _ s inv_start U ltac:(constructor) E)). assert (Ds := inv_distinct _ _ V).
    eapply pairs_perm; [|apply sort_by_perm|]; [intros a b H L1 L2; apply apart_sym, H; assumption|]. apply pairs_app.
    - eapply pairs_perm; [|apply sort_by_perm|]; [intros a b H L1 L2; apply apart_sym, H; assumption|].
      assert (Lit : forall z, In z (order (map snd (literal_values T s))) -> literal (fst z)).
      { intros z I. apply (Permutation_in _ (Permutation_sym (order_permuted _))) in I. apply in_map_iff in I. destruct I as ([k z'] & <- & I). exists k. apply (inv_literals _ _ V _ _ I). }
      assert (Lp : ForallOrdPairs (fun x y => ~ literal (fst x) -> ~ literal (fst y) -> apart x y) (order (map snd (literal_values T s)))).
      { revert Lit. generalize (order (map snd (literal_values T s))) as m. induction m as [|z m IH]; intros Lit; constructor; [|apply IH; intros w I; apply Lit; right; exact I].
        rewrite Forall_forall. intros w _ N. contradiction N. apply Lit. left. reflexivity. }
      destruct (if had_false T s && had_true T s then _ else _); [exact Lp|apply pairs_filter; exact Lp].
    - apply (pairs_impl apart); [auto|]. assert (Al : ForallOrdPairs apart (if had_enum_member T s then contract_enums (new_types T s) else new_types T s)) by (destruct (had_enum_member T s); [apply contract_enums_apart; assumption|exact A]).
      destruct (had_false T s && had_true T s); [apply contract_bools_apart; exact Al|exact Al].
    - intros a b Ia _ N _. contradiction N. apply in_sort_by in Ia. assert (J : In a (order (map snd (literal_values T s)))) by (destruct (if had_false T s && had_true T s then _ else _); [exact Ia|apply filter_In in Ia; apply Ia]).
      apply (Permutation_in _ (Permutation_sym (order_permuted _))) in J. apply in_map_iff in J. destruct J as ([k z'] & <- & J). exists k. apply (inv_literals _ _ V _ _ J). }
  assert (Sy : forall a b : T * nat, (~ literal (fst a) -> ~ literal (fst b) -> apart a b) -> ~ literal (fst b) -> ~ literal (fst a) -> apart b a) by (intros a b H L1 L2; apply apart_sym, H; assumption).
  exact (proj1 (pairs_nth _ Sy _ G i j x y D X Y Lx Ly Px Py)).
Qed.
End Union.
