(** Comparing with one value after the other *)
From Coq Require Import List NArith ZArith Bool Lia Permutation.
From Verif Require Import TupleModel TupleSpec SubtypeModel SubtypeSpec NarrowModel NarrowProofs NarrowIsModel NarrowIsSpec NarrowIs.
Import ListNotations.
Open Scope N_scope.

(** ** The parts of unions *)
Lemma in_sorted : forall x ts, In x (sort_for_priority ts) <-> In x ts.
Proof. intros x ts. split; apply Permutation_in; [|apply Permutation_sym]; apply sort_perm. Qed.

Lemma in_push : forall x ts t, In x (push ts t) <-> In x ts \/ x = t.
Proof.
  intros x ts t. unfold push. destruct (mem t ts) eqn:E.
  - apply mem_in in E. split; [now left|]. intros [H|H]; [exact H|now subst].
  - rewrite in_app_iff. cbn [In]. split; [intros [H|[H|[]]]|intros [H|H]]; auto.
Qed.

Lemma in_push_all : forall x us ts, In x (fold_left push us ts) <-> In x ts \/ In x us.
Proof.
  intros x. induction us as [|u us IH]; intros ts; cbn [fold_left In]; [tauto|]. rewrite IH, in_push.
  split; intros H; repeat destruct H as [H|H]; auto.
Qed.

Lemma in_parts_join : forall x t u, In x (parts (join t u)) <-> In x (parts t) \/ In x (parts u).
Proof.
  intros x t u.
  assert (Pair : parts t = [t] -> In x (parts (match u with
      | Union us => if mem t us then Union us else Union (sort_for_priority (us ++ [t]))
      | _ => if same t u || is_never u then t else Union (sort_for_priority [t; u])
      end)) <-> In x [t] \/ In x (parts u)).
  { intros Pt. assert (One : parts u = [u] -> In x (parts (if same t u || is_never u then t else Union (sort_for_priority [t; u]))) <-> In x [t] \/ In x (parts u)).
    { intros Pu. rewrite Pu. destruct (same t u || is_never u) eqn:E.
      - rewrite Pt. apply orb_prop in E as [E|E]; [apply same_eq in E as <-; tauto|]. destruct u; discriminate.
      - cbn [parts]. rewrite in_sorted. cbn [In]. tauto. }
    destruct u; try (apply One; reflexivity).
    - rewrite orb_true_r, Pt. cbn [parts In]. tauto.
    - destruct (mem t ts) eqn:E; cbn [parts].
      + apply mem_in in E. cbn [In]. split; [now right|]. intros [[<-|[]]|H]; assumption.
      + rewrite in_sorted, in_app_iff. tauto. }
  destruct t; try (exact (Pair eq_refl)).
  - cbn [join parts In]. tauto.
  - cbn [join parts]. rewrite in_sorted. destruct u; try (rewrite in_push; cbn [parts In]; split; intros [H|H]; auto; destruct H as [H|[]]; auto).
    + cbn [parts In]. tauto.
    + apply in_push_all.
Qed.

Lemma join_never : forall t u, join t u = Never -> t = Never /\ u = Never.
Proof.
  intros t u H. destruct t; try discriminate; cbn [join] in H; auto.
  all: destruct u; try discriminate; try (destruct (same _ _ || _); discriminate); try (destruct (mem _ _); discriminate).
Qed.

Lemma in_parts_all : forall x ts t, In x (parts (fold_left join ts t)) <-> In x (parts t) \/ exists u, In u ts /\ In x (parts u).
Proof.
  intros x. induction ts as [|u ts IH]; intros t; cbn [fold_left].
  - split; [now left|]. intros [H|[u [[] _]]]. exact H.
  - rewrite IH, in_parts_join. split.
    + intros [[H|H]|[y [H1 H2]]]; [now left| |]; right; [exists u|exists y]; (split; [|assumption]); [now left|now right].
    + intros [H|[y [[<-|H1] H2]]]; [now left; left|now left; right|]. right. now exists y.
Qed.

Lemma in_dec_type : forall (t : type) ts, In t ts \/ ~ In t ts.
Proof.
  intros t ts. destruct (mem t ts) eqn:E; [left; now apply mem_in|right]. intros H. unfold mem in E. apply not_true_iff_false in E. apply E, existsb_exists.
  exists t. split; [exact H|apply same_refl].
Qed.

Section Exhausts.
Variables (p : program) (accepts : type -> type -> bool) (ellipsis : N) (custom_eq : type -> bool) (member_count : N -> N) (is_flag : N -> bool)
          (kind_of_enum : N -> enum_kind).
Notation one_singleton := (split_off_singleton_of p accepts custom_eq kind_of_enum).
Notation singleton_sides := (split_off_singleton p accepts custom_eq kind_of_enum).
Notation member_sides := (split_off_enum_member p custom_eq member_count is_flag kind_of_enum).
Notation narrow := (narrow_is_or_eq p accepts ellipsis custom_eq member_count is_flag kind_of_enum).
Notation members := (members member_count).

(** Types with finitely many values *)
Definition finite (t : type) : Prop :=
  match t with
  | NoneType | Literal _ | EnumMember _ _ => True
  | Enum e => is_flag e = false /\ 0 < member_count e
  | Class c _ => c = bool_class p
  | _ => False
  end.

(** ... and these values, as types *)
Definition values_of (t : type) : list type :=
  match t with
  | Enum e => map (EnumMember e) (members e)
  | Class _ _ => [Literal (LBool true); Literal (LBool false)]
  | _ => [t]
  end.

Definition values (t : type) : list type := flat_map values_of (parts t).

Definition is_value (t : type) : Prop := match t with NoneType | Literal _ | EnumMember _ _ => True | _ => False end.

(** What is left after a comparison that is false *)
Definition otherwise (is_eq : bool) (t o : type) : type :=
  match narrow t o is_eq true with Some (_, Some falsey) => falsey | _ => t end.

Definition after_all (is_eq : bool) (t : type) (os : list type) : type := fold_left (otherwise is_eq) os t.

(** What is left of a part *)
Definition left_of (o t : type) : list type :=
  match o with
  | EnumMember e m => rest p member_count is_flag e m t
  | _ =>
      if same o t then []
      else match o, t with
           | Literal (LBool b), Class _ _ => [Literal (LBool (negb b))]
           | _, _ => [t]
           end
  end.

Hypothesis bool_is_not_object : bool_class p <> object p.

Lemma one_left : forall is_eq o t s, is_value o -> match o with EnumMember _ _ => False | _ => True end -> finite t ->
  snd (one_singleton o is_eq s t) = fold_left join (left_of o t) (snd s).
Proof.
  intros is_eq o t s Ho He Ft.
  assert (O : match t with Literal _ => False | _ => True end -> snd (split_off_other p accepts custom_eq kind_of_enum o s t) = fold_left join (left_of o t) (snd s)).
  { intros Lt. unfold split_off_other. destruct o; try contradiction.
    - cbn [left_of]. destruct (same NoneType t); [reflexivity|]. reflexivity.
    - cbn [left_of]. destruct (same (Literal l) t); [reflexivity|].
      destruct t; try contradiction; try (rewrite no_bool_split by reflexivity; destruct (custom_eq _); [destruct l; reflexivity|];
        destruct (accepts _ _); [destruct l; reflexivity|]; destruct (is_int_or_str_enum _ _); destruct l; reflexivity).
      cbn [finite] in Ft. subst c. unfold maybe_split_bool_from_literal. cbn [of_class]. rewrite N.eqb_refl.
      destruct l; try reflexivity; destruct (custom_eq _); try reflexivity; destruct (accepts _ _); reflexivity. }
  destruct t; try contradiction; try (exact (O Logic.I)); cbn [split_off_singleton_of].
  - cbn [finite] in Ft. subst c. rewrite (proj2 (N.eqb_neq _ _) bool_is_not_object). exact (O Logic.I).
  - destruct o; try contradiction; try reflexivity. cbn [left_of same]. destruct (same_literal l l0) eqn:E.
    + apply same_literal_eq in E as <-. rewrite same_literal_refl. reflexivity.
    + replace (same_literal l0 l) with false; [destruct l0; reflexivity|]. symmetry. destruct (same_literal l0 l) eqn:F; [|reflexivity].
      apply same_literal_eq in F as ->. now rewrite same_literal_refl in E.
Qed.

Lemma all_left : forall is_eq o ts s, is_value o -> match o with EnumMember _ _ => False | _ => True end -> Forall finite ts ->
  snd (fold_left (one_singleton o is_eq) ts s) = fold_left join (flat_map (left_of o) ts) (snd s).
Proof.
  intros is_eq o ts s Ho He F. revert s. induction F as [|t ts H _ IH]; intros s; cbn [fold_left flat_map]; [reflexivity|].
  rewrite IH, one_left, fold_left_app by assumption. reflexivity.
Qed.

(** [==] is not defined by the types, and there are no enums of ints or strings. *)
Definition usual (is_eq : bool) : Prop := is_eq = true -> (forall t, custom_eq t = false) /\ (forall e, kind_of_enum e = Normal).

Lemma otherwise_left : forall is_eq o t, is_value o -> usual is_eq -> Forall finite (parts t) ->
  otherwise is_eq t o = fold_left join (flat_map (left_of o) (parts t)) Never.
Proof.
  intros is_eq o t Ho U F. unfold otherwise.
  assert (S : match o with EnumMember _ _ => False | _ => True end -> snd (singleton_sides t o is_eq) = fold_left join (flat_map (left_of o) (parts t)) Never).
  { intros He. exact (all_left is_eq o (parts t) nothing Ho He F). }
  destruct o; try contradiction; cbn [narrow_is_or_eq].
  - destruct is_eq; [exact (S Logic.I)|]. destruct t; exact (S Logic.I).
  - rewrite orb_true_r. exact (S Logic.I).
  - rewrite member_sides_split. replace (aborts_all p custom_eq kind_of_enum e m is_eq (parts t)) with false; [reflexivity|].
    symmetry. unfold aborts_all. apply not_true_is_false. intros X. apply existsb_exists in X as [u [X1 X2]]. rewrite Forall_forall in F. specialize (F u X1).
    apply andb_prop in X2 as [X2 _]. unfold aborts in X2. apply andb_prop in X2 as [-> X2]. destruct (U eq_refl) as [U1 U2].
    destruct u; try contradiction; rewrite ?U1, ?U2 in X2; try discriminate.
    + cbn [of_class finite] in X2, F. subst c. rewrite N.eqb_sym, (proj2 (N.eqb_neq _ _) bool_is_not_object) in X2. discriminate.
    + unfold is_int_or_str_enum in X2. rewrite U2, andb_false_r in X2. discriminate.
Qed.

Lemma in_members' : forall e m, In m (members e) <-> m < member_count e.
Proof. apply in_members. Qed.

(** What is left is a finite type with the other values. *)
Lemma left_values : forall o t a, is_value o -> finite t ->
  Forall finite (left_of o t) /\ (In a (flat_map values_of (left_of o t)) <-> In a (values_of t) /\ a <> o).
Proof.
  intros o t a Ho Ft.
  assert (Same : forall u, finite u -> ~ In o (values_of u) -> Forall finite [u] /\ (In a (flat_map values_of [u]) <-> In a (values_of u) /\ a <> o)).
  { intros u Fu N. split; [now constructor|]. cbn [flat_map]. rewrite app_nil_r. split; [|tauto]. intros H. split; [exact H|]. intros ->. exact (N H). }
  assert (Gone : finite o -> Forall finite [] /\ (In a (flat_map values_of []) <-> In a (values_of o) /\ a <> o)).
  { intros _. split; [constructor|]. cbn [flat_map]. split; [intros []|]. destruct o; try contradiction; cbn [values_of In]; intros [[H|[]] N]; now subst. }
  assert (Plain : match o with EnumMember _ _ => False | _ => True end -> Forall finite (left_of o t) /\ (In a (flat_map values_of (left_of o t)) <-> In a (values_of t) /\ a <> o)).
  { intros He.
    assert (L : left_of o t = if same o t then []
      else match o, t with
           | Literal (LBool b), Class _ _ => [Literal (LBool (negb b))]
           | _, _ => [t]
           end) by (destruct o; try contradiction; reflexivity).
    rewrite L. destruct (same o t) eqn:E; [apply same_eq in E as <-; exact (Gone Ft)|]. assert (Ne : o <> t) by (intros ->; now rewrite same_refl in E).
    destruct o as [| | | | | [| b| |] | | | | | | | | | ]; try contradiction; destruct t; try contradiction; try (apply Same; [exact Ft|]; cbn [values_of In]; intros X; repeat destruct X as [X|X]; congruence).
    - apply Same; [exact Ft|]. cbn [values_of]. intros X. apply in_map_iff in X as [k [X _]]. discriminate.
    - apply Same; [exact Ft|]. cbn [values_of]. intros X. apply in_map_iff in X as [k [X _]]. discriminate.
    - split; [now constructor|]. cbn [flat_map values_of app In]. destruct b; cbn [negb]; split.
      + intros [<-|[]]. split; [auto|discriminate].
      + intros [[<-|[<-|[]]] X]; [congruence|auto].
      + intros [<-|[]]. split; [auto|discriminate].
      + intros [[<-|[<-|[]]] X]; [auto|congruence].
    - apply Same; [exact Ft|]. cbn [values_of]. intros X. apply in_map_iff in X as [k [X _]]. discriminate.
    - apply Same; [exact Ft|]. cbn [values_of]. intros X. apply in_map_iff in X as [k [X _]]. discriminate.
    - apply Same; [exact Ft|]. cbn [values_of]. intros X. apply in_map_iff in X as [k [X _]]. discriminate. }
  destruct o as [| | | | | | | | | | |e m| | | ]; try contradiction; try exact (Plain Logic.I). cbn [left_of].
  destruct t; try contradiction; try (apply Same; [exact Ft|]; cbn [values_of In]; intros X; repeat destruct X as [X|X]; congruence).
  - cbn [rest finite] in *. subst c. rewrite N.eqb_sym, (proj2 (N.eqb_neq _ _) bool_is_not_object).
    apply Same; [reflexivity|]. cbn [values_of In]. intros [X|[X|[]]]; discriminate.
  - cbn [rest]. destruct (N.eqb_spec e e0) as [<-|Ne].
    + destruct Ft as [Ft1 Ft2]. rewrite Ft1. unfold others. split.
      * apply Forall_forall. intros x X. apply in_map_iff in X as [n [<- _]]. exact Logic.I.
      * cbn [values_of]. rewrite in_flat_map. split.
        -- intros [x [X1 X2]]. apply in_map_iff in X1 as [n [<- X1]]. apply filter_In in X1 as [X1 X3]. cbn [values_of In] in X2. destruct X2 as [<-|[]].
           split; [now apply in_map|]. intros X. injection X as ->. now rewrite N.eqb_refl in X3.
        -- intros [X1 X2]. apply in_map_iff in X1 as [n [<- X1]]. exists (EnumMember e n). split; [|now left]. apply in_map, filter_In. split; [exact X1|].
           apply negb_true_iff, N.eqb_neq. congruence.
    + apply Same; [exact Ft|]. cbn [values_of]. intros X. apply in_map_iff in X as [n [X _]]. congruence.
  - cbn [rest]. destruct (is_member e m (EnumMember e0 m0)) eqn:X; cbn [is_member] in X.
    + apply andb_prop in X as [X1 X2]. apply N.eqb_eq in X1, X2. subst. exact (Gone Logic.I).
    + apply Same; [exact Logic.I|]. cbn [values_of In]. intros [Y|[]]. injection Y as -> ->. now rewrite !N.eqb_refl in X.
Qed.

Lemma finite_parts : forall t, finite t -> parts t = [t].
Proof. intros [] H; try contradiction; reflexivity. Qed.

Lemma values_inhabited : forall t, finite t -> exists a, In a (values_of t).
Proof.
  intros [] H; try contradiction; cbn [values_of]; try (eexists; left; reflexivity).
  destruct H as [_ H]. exists (EnumMember e 0). apply in_map, in_members'. exact H.
Qed.

(** All values are gone, exactly if the type is Never. *)
Lemma never_left : forall ts, Forall finite ts -> fold_left join ts Never = Never <-> forall a, ~ In a (flat_map values_of ts).
Proof.
  intros ts F. split.
  - intros H a X. apply in_flat_map in X as [t [X1 X2]]. rewrite Forall_forall in F.
    assert (Y : In t (parts (fold_left join ts Never))).
    { apply in_parts_all. right. exists t. split; [exact X1|]. rewrite (finite_parts t (F t X1)). now left. }
    rewrite H in Y. exact Y.
  - intros H. destruct F as [|t ts Ft F]; [reflexivity|]. destruct (values_inhabited t Ft) as [a A]. destruct (H a). cbn [flat_map]. apply in_or_app. now left.
Qed.

Lemma otherwise_values : forall is_eq o t, is_value o -> usual is_eq -> Forall finite (parts t) ->
  Forall finite (parts (otherwise is_eq t o)) /\ (forall a, In a (values (otherwise is_eq t o)) <-> In a (values t) /\ a <> o).
Proof.
  intros is_eq o t Ho U F. rewrite otherwise_left by assumption.
  assert (L : Forall finite (flat_map (left_of o) (parts t))).
  { apply Forall_forall. intros x X. apply in_flat_map in X as [u [X1 X2]]. rewrite Forall_forall in F.
    destruct (left_values o u Any Ho (F u X1)) as [Y _]. rewrite Forall_forall in Y. exact (Y x X2). }
  assert (P : forall x, In x (parts (fold_left join (flat_map (left_of o) (parts t)) Never)) <-> In x (flat_map (left_of o) (parts t))).
  { intros x. rewrite in_parts_all. cbn [parts In]. rewrite Forall_forall in L. split.
    - intros [[]|[u [X1 X2]]]. rewrite (finite_parts u (L u X1)) in X2. destruct X2 as [<-|[]]. exact X1.
    - intros X. right. exists x. split; [exact X|]. rewrite (finite_parts x (L x X)). now left. }
  split; [apply Forall_forall; intros x X; apply P in X; rewrite Forall_forall in L; exact (L x X)|].
  intros a. unfold values. rewrite !in_flat_map. rewrite Forall_forall in F. split.
  - intros [x [X1 X2]]. apply P in X1. apply in_flat_map in X1 as [u [X0 X1]]. destruct (left_values o u a Ho (F u X0)) as [_ Y].
    assert (Z : In a (flat_map values_of (left_of o u))) by (apply in_flat_map; now exists x). apply Y in Z as [Z1 Z2].
    split; [now exists u|exact Z2].
  - intros [[u [X1 X2]] N]. destruct (left_values o u a Ho (F u X1)) as [_ Y]. assert (Z := proj2 Y (conj X2 N)).
    apply in_flat_map in Z as [x [Z1 Z2]]. exists x. split; [|exact Z2]. apply P, in_flat_map. now exists u.
Qed.

Lemma after_all_values : forall is_eq os t, Forall is_value os -> usual is_eq -> Forall finite (parts t) ->
  Forall finite (parts (after_all is_eq t os)) /\ (forall a, In a (values (after_all is_eq t os)) <-> In a (values t) /\ ~ In a os).
Proof.
  intros is_eq os t Ho U. revert t. induction Ho as [|o os Ho _ IH]; intros t F; cbn [after_all fold_left].
  - split; [exact F|]. cbn [In]. tauto.
  - destruct (otherwise_values is_eq o t Ho U F) as [F1 V1]. destruct (IH _ F1) as [F2 V2]. split; [exact F2|].
    intros a. unfold after_all in V2. rewrite V2, V1. cbn [In]. split.
    + intros [[H1 H2] H3]. split; [exact H1|]. intros [H|H]; [now symmetry in H|exact (H3 H)].
    + intros [H1 H2]. split; [split; [exact H1|]|]; intros H; apply H2; auto.
Qed.

Lemma never_iff : forall is_eq os t, Forall is_value os -> usual is_eq -> Forall finite (parts t) -> os <> [] ->
  after_all is_eq t os = Never <-> forall a, In a (values t) -> In a os.
Proof.
  intros is_eq os t Ho U F Ne. destruct (after_all_values is_eq os t Ho U F) as [F1 V1].
  assert (L : exists t' o, after_all is_eq t os = otherwise is_eq t' o /\ is_value o /\ Forall finite (parts t')).
  { destruct (exists_last Ne) as [os' [o ->]]. exists (after_all is_eq t os'), o. unfold after_all. rewrite fold_left_app. split; [reflexivity|].
    apply Forall_app in Ho as [H1 H2]. split; [exact (Forall_inv H2)|]. exact (proj1 (after_all_values is_eq os' t H1 U F)). }
  assert (N : after_all is_eq t os = Never <-> forall a, ~ In a (values (after_all is_eq t os))).
  { split; [intros H a; rewrite H; exact (fun x => x)|]. intros H. destruct L as [t' [o [L1 [L2 L3]]]]. rewrite L1 in *. rewrite otherwise_left by assumption.
    apply never_left.
    - apply Forall_forall. intros x X. apply in_flat_map in X as [u [X1 X2]]. rewrite Forall_forall in L3.
      destruct (left_values o u Any L2 (L3 u X1)) as [Y _]. rewrite Forall_forall in Y. exact (Y x X2).
    - intros a X. apply (H a). apply otherwise_values; try assumption. unfold values. apply in_flat_map in X as [x [X1 X2]]. apply in_flat_map in X1 as [u [X0 X1]].
      rewrite Forall_forall in L3. destruct (left_values o u a L2 (L3 u X0)) as [_ Y].
      assert (Z : In a (flat_map values_of (left_of o u))) by (apply in_flat_map; now exists x). apply Y in Z as [Z1 Z2]. split; [|exact Z2].
      apply in_flat_map. now exists u. }
  rewrite N. split.
  - intros H a X. destruct (in_dec_type a os) as [Y|Y]; [exact Y|]. destruct (H a). apply V1. auto.
  - intros H a X. apply V1 in X as [X1 X2]. exact (X2 (H a X1)).
Qed.
End Exhausts.
