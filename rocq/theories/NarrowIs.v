(** The two sides of a comparison *)
From Coq Require Import List NArith ZArith Bool Lia Permutation.
From Verif Require Import TupleModel TupleSpec SubtypeModel SubtypeSpec NarrowModel NarrowProofs NarrowIsModel NarrowIsSpec.
Import ListNotations.
Open Scope N_scope.

Section Sides.
Context {V : Type}.
Variables (w : world V) (env : N -> V -> Prop).
Notation has := (has w env).
Variables (p : program) (accepts : type -> type -> bool) (ellipsis : N) (custom_eq : type -> bool) (member_count : N -> N) (is_flag : N -> bool)
          (kind_of_enum : N -> enum_kind).
Notation one_singleton := (split_off_singleton_of p accepts custom_eq kind_of_enum).
Notation singleton_sides := (split_off_singleton p accepts custom_eq kind_of_enum).
Notation one_member := (split_off_member_of p custom_eq member_count is_flag kind_of_enum).
Notation member_sides := (split_off_enum_member p custom_eq member_count is_flag kind_of_enum).
Notation narrow := (narrow_is_or_eq p accepts ellipsis custom_eq member_count is_flag kind_of_enum).

(** ** Singletons *)
Lemma has_truthy : forall s t v, has (fst (add_truthy s t)) v <-> has (fst s) v \/ has t v.
Proof. intros s t v. apply has_join. Qed.

Lemma has_falsey : forall s t v, has (snd (add_falsey s t)) v <-> has (snd s) v \/ has t v.
Proof. intros s t v. apply has_join. Qed.

Definition extends (f : sides -> sides) : Prop := forall s v,
  (has (fst (f s)) v <-> has (fst s) v \/ has (fst (f nothing)) v) /\ (has (snd (f s)) v <-> has (snd s) v \/ has (snd (f nothing)) v).

Lemma extends_truthy : forall t, extends (fun s => add_truthy s t).
Proof.
  intros t s v. rewrite !has_truthy. cbn [nothing fst snd add_truthy SubtypeSpec.has]. tauto.
Qed.

Lemma extends_falsey : forall t, extends (fun s => add_falsey s t).
Proof. intros t s v. rewrite !has_falsey. cbn [nothing fst snd add_falsey SubtypeSpec.has]. tauto. Qed.

Lemma extends_both : forall f g, extends f -> extends g -> extends (fun s => g (f s)).
Proof.
  intros f g F G s v. destruct (F s v) as [F1 F2], (G (f s) v) as [G1 G2], (G (f nothing) v) as [H1 H2].
  split; [rewrite G1, H1, F1|rewrite G2, H2, F2]; tauto.
Qed.

Lemma extends_same : extends (fun s => s).
Proof. intros s v. cbn [nothing fst snd SubtypeSpec.has]. tauto. Qed.

Lemma one_extends : forall o is_eq t, extends (fun s => one_singleton o is_eq s t).
Proof.
  intros o is_eq t.
  assert (Both : forall a b, extends (fun s => add_falsey (add_truthy s a) b)).
  { intros a b. exact (extends_both _ _ (extends_truthy a) (extends_falsey b)). }
  assert (Others : extends (fun s => split_off_other p accepts custom_eq kind_of_enum o s t)).
  { unfold split_off_other. destruct (same o t); [apply extends_truthy|]. destruct o; try apply extends_falsey.
    destruct (maybe_split_bool_from_literal p t l) as [[tr fa]|]; [apply Both|]. destruct (custom_eq t); [apply Both|].
    destruct (accepts t (Literal l)); [apply Both|]. destruct (is_int_or_str_enum kind_of_enum t); [apply Both|apply extends_falsey]. }
  destruct t; try exact Others; cbn [split_off_singleton_of].
  - apply Both.
  - destruct (c =? object p); [apply Both|exact Others].
  - destruct o; try apply extends_falsey. destruct (same_literal l l0); [apply extends_truthy|apply extends_falsey].
  - apply Both.
Qed.

Lemma fold_extends : forall (step : sides -> type -> sides) ts, (forall t, extends (fun s => step s t)) -> forall s v,
  (has (fst (fold_left step ts s)) v <-> has (fst s) v \/ exists t, In t ts /\ has (fst (step nothing t)) v) /\
  (has (snd (fold_left step ts s)) v <-> has (snd s) v \/ exists t, In t ts /\ has (snd (step nothing t)) v).
Proof.
  intros step ts H. induction ts as [|t ts IH]; intros s v; cbn [fold_left].
  - split; (split; [now left|]); (intros [A|[t [[] _]]]; exact A).
  - destruct (IH (step s t) v) as [I1 I2], (H t s v) as [H1 H2]. rewrite I1, H1, I2, H2. split; split.
    + intros [[A|A]|[u [A B]]]; [now left| |]; right; [exists t|exists u]; (split; [|assumption]); [now left|now right].
    + intros [A|[u [[<-|A] B]]]; [now left; left|now left; right|right; now exists u].
    + intros [[A|A]|[u [A B]]]; [now left| |]; right; [exists t|exists u]; (split; [|assumption]); [now left|now right].
    + intros [A|[u [[<-|A] B]]]; [now left; left|now left; right|right; now exists u].
Qed.

Lemma has_singleton_sides : forall t o is_eq v,
  (has (fst (singleton_sides t o is_eq)) v <-> exists u, In u (parts t) /\ has (fst (one_singleton o is_eq nothing u)) v) /\
  (has (snd (singleton_sides t o is_eq)) v <-> exists u, In u (parts t) /\ has (snd (one_singleton o is_eq nothing u)) v).
Proof.
  intros t o is_eq v. destruct (fold_extends (one_singleton o is_eq) (parts t) (one_extends o is_eq) nothing v) as [H1 H2].
  unfold split_off_singleton. rewrite H1, H2. cbn [nothing fst snd SubtypeSpec.has]. tauto.
Qed.

(** ** Members of enums *)
(** The parts of a type for which nothing is narrowed, that can be the member, and what else they can be *)
Definition aborts (e : N) (is_eq : bool) (t : type) : bool :=
  is_eq &&
  match t with
  | Any => true
  | EnumMember f n => custom_eq t
  | Enum f => negb (e =? f) && (custom_eq t || is_int_or_str_enum kind_of_enum t)
  | NoneType => custom_eq t
  | _ => of_class (object p) t || match kind_of_enum e with IntEnum => of_class (int_class p) t | StrEnum => of_class (str_class p) t | Normal => false end || custom_eq t
  end.

Definition is_member (e m : N) (t : type) : bool := match t with EnumMember f n => (e =? f) && (m =? n) | _ => false end.

Definition found (e m : N) (t : type) : bool :=
  match t with
  | Any => true
  | EnumMember _ _ => is_member e m t
  | Enum f => (e =? f) && existsb (N.eqb m) (members member_count e)
  | Class c _ => object p =? c
  | _ => false
  end.

Definition others (e m : N) : list type := map (EnumMember e) (filter (fun n => negb (n =? m)) (members member_count e)).

Definition rest (e m : N) (t : type) : list type :=
  match t with
  | Any => [t; t]
  | EnumMember _ _ => if is_member e m t then [] else [t]
  | Enum f => if e =? f then if is_flag e then [t] else others e m else [t]
  | Class c _ => if object p =? c then [t; t] else [t]
  | _ => [t]
  end.

Lemma add_each : forall e m ns s,
  fold_left (fun s n => if n =? m then (EnumMember e m, snd s) else if is_flag e then s else add_falsey s (EnumMember e n)) ns s =
  (if existsb (N.eqb m) ns then EnumMember e m else fst s,
   if is_flag e then snd s else fold_left join (map (EnumMember e) (filter (fun n => negb (n =? m)) ns)) (snd s)).
Proof.
  intros e m. induction ns as [|n ns IH]; intros s; cbn [fold_left existsb filter map].
  - destruct s, (is_flag e); reflexivity.
  - rewrite IH, (N.eqb_sym m n). destruct (n =? m); cbn [negb orb fst snd fold_left map].
    + f_equal. now destruct (existsb (N.eqb m) ns).
    + destruct (is_flag e); reflexivity.
Qed.

Lemma one_member_step : forall e m is_eq s t,
  one_member e m is_eq (Some s) t =
  if aborts e is_eq t && negb (is_member e m t) then None
  else Some (if found e m t then EnumMember e m else fst s, fold_left join (rest e m t) (snd s)).
Proof.
  intros e m is_eq s t.
  assert (Keep : forall s (t : type), is_int_or_str_enum kind_of_enum t = false -> keep_unless_custom custom_eq kind_of_enum is_eq s t =
    if is_eq && custom_eq t then None else Some (add_falsey s t)).
  { intros r u H. unfold keep_unless_custom. unfold is_int_or_str_enum in H. now rewrite H, orb_false_r. }
  assert (Single : forall t : type, is_int_or_str_enum kind_of_enum t = false -> of_class (object p) t = false ->
    (if is_eq && match kind_of_enum e with
              | IntEnum => of_class (int_class p) t || custom_eq t
              | StrEnum => of_class (str_class p) t || custom_eq t
              | Normal => false
              end
          then None
          else keep_unless_custom custom_eq kind_of_enum is_eq s t) =
    if is_eq && (of_class (object p) t || match kind_of_enum e with IntEnum => of_class (int_class p) t | StrEnum => of_class (str_class p) t | Normal => false end || custom_eq t)
    then None else Some (fst s, join (snd s) t)).
  { intros u H1 H2. rewrite Keep, H2 by exact H1. clear H2. cbn [orb]. unfold add_falsey.
    destruct is_eq; cbn [andb]; [|reflexivity]. destruct (kind_of_enum e), (custom_eq u), (of_class (int_class p) u), (of_class (str_class p) u); reflexivity. }
  destruct t; cbn [split_off_member_of is_member found rest of_class fold_left negb] in *; rewrite ?andb_true_r;
    try match goal with |- context [aborts _ _ ?t] => exact (Single t eq_refl eq_refl) end.
  - unfold aborts. destruct is_eq; [reflexivity|]. now rewrite Keep by reflexivity.
  - exact (Keep s NoneType eq_refl).
  - destruct (N.eqb_spec (object p) c) as [E|E].
    + unfold aborts. cbn [of_class]. rewrite (proj2 (N.eqb_eq (object p) c) E). destruct is_eq; [reflexivity|]. now rewrite Keep by reflexivity.
    + exact (Single (Class c gs) eq_refl (proj2 (N.eqb_neq _ _) E)).
  - unfold aborts. destruct (N.eqb_spec e e0) as [<-|E]; cbn [negb andb].
    + rewrite andb_false_r. unfold add_members, others. rewrite add_each. f_equal. f_equal; destruct (is_flag e); reflexivity.
    + unfold keep_unless_custom. reflexivity.
  - unfold aborts. destruct ((e =? e0) && (m =? m0)); cbn [negb]; rewrite ?andb_false_r, ?andb_true_r; [reflexivity|]. apply Keep. reflexivity.
Qed.

Definition aborts_all (e m : N) (is_eq : bool) (ts : list type) : bool :=
  existsb (fun t => aborts e is_eq t && negb (is_member e m t)) ts.

Lemma members_split : forall e m is_eq ts s,
  fold_left (one_member e m is_eq) ts (Some s) =
  if aborts_all e m is_eq ts then None
  else Some (if existsb (found e m) ts then EnumMember e m else fst s, fold_left join (flat_map (rest e m) ts) (snd s)).
Proof.
  intros e m is_eq. induction ts as [|t ts IH]; intros s; cbn [fold_left aborts_all existsb flat_map].
  - now destruct s.
  - rewrite one_member_step. destruct (aborts e is_eq t && negb (is_member e m t)); cbn [orb].
    + clear. induction ts as [|t ts IH]; [reflexivity|exact IH].
    + rewrite IH. cbn [fst snd]. rewrite fold_left_app. fold (aborts_all e m is_eq ts). destruct (aborts_all e m is_eq ts); [reflexivity|].
      f_equal. f_equal. destruct (found e m t); cbn [orb]; [|reflexivity]. now destruct (existsb (found e m) ts).
Qed.

Lemma member_sides_split : forall t e m is_eq,
  member_sides t e m is_eq =
  if aborts_all e m is_eq (parts t) then None
  else Some (if existsb (found e m) (parts t) then EnumMember e m else Never, fold_left join (flat_map (rest e m) (parts t)) Never).
Proof. intros t e m is_eq. apply members_split. Qed.

(** ** Sound *)
Variable test : V -> V -> bool.

Definition is_type_variable (t : type) : Prop := match t with TypeVar _ => True | _ => False end.
Definition is_object (t : type) : Prop := match t with Class c _ => c = object p | _ => False end.
Definition is_exact (t : type) : Prop := match t with Literal _ | NoneType => True | _ => False end.

(** The parts of a type that may have the values of [o] *)
Definition recognized (o t : type) : Prop :=
  match o with
  | EnumMember e _ => t = Any \/ is_object t \/ t = o \/ t = Enum e
  | Literal _ => t = Any \/ is_type_variable t \/ is_object t \/ t = o \/ ~ is_exact t /\ accepts t o = true
  | _ => t = Any \/ is_type_variable t \/ is_object t \/ t = o
  end.

(** The parts of a type that remain in both branches of [==] *)
Definition open_to (o t : type) : Prop :=
  match o, t with
  | EnumMember _ _, _ => False
  | _, (Any | TypeVar _) => True
  | Literal _, Class c _ => c <> object p /\ c <> bool_class p /\ custom_eq t = true
  | Literal _, Enum _ => custom_eq t = true \/ is_int_or_str_enum kind_of_enum t = true /\ accepts t o = false
  | _, _ => False
  end.

Definition suits (is_eq : bool) (o t : type) : Prop :=
  is_eq = true /\ open_to o t \/ compares_plainly w env test t o /\ (recognized o t \/ disjoint w env t o).

(** bool has two values. *)
Definition two_bools : Prop := forall s v, instance w (bool_class p) s v -> literal_value w (LBool true) v \/ literal_value w (LBool false) v.
(** Enums have the members that are declared, and flags may have others. *)
Definition declared_members : Prop := forall e n v, is_flag e = false -> member_value w e n v -> n < member_count e.

Definition allowed (s : sides) (passed : bool) (v : V) : Prop := has (if passed then fst s else snd s) v.

Lemma in_members : forall e m, In m (members member_count e) <-> m < member_count e.
Proof.
  intros e m. unfold members, up_to. rewrite in_map_iff. split.
  - intros [k [<- H]]. apply in_seq in H. lia.
  - intros H. exists (N.to_nat m). split; [lia|]. apply in_seq. lia.
Qed.

Lemma no_bool_split : forall t l, of_class (bool_class p) t = false -> maybe_split_bool_from_literal p t l = None.
Proof. intros t l H. unfold maybe_split_bool_from_literal. rewrite H. now destruct l. Qed.

Lemma one_sound : forall is_eq o t v u, two_bools ->
  match o with EnumMember _ _ => False | _ => True end ->
  suits is_eq o t -> has t v -> has o u -> allowed (one_singleton o is_eq nothing t) (test v u) v.
Proof.
  intros is_eq o t v u Two Ho S Ht Hu. unfold allowed.
  assert (J : forall a, join Never a = a) by reflexivity.
  destruct S as [[-> O]|[P R]].
  - destruct t; cbn [open_to] in O; try (destruct o; contradiction).
    + cbn. destruct (test v u); rewrite ?J; exact Logic.I.
    + destruct o; try contradiction. destruct O as [O1 [O2 O3]]. cbn [split_off_singleton_of]. unfold split_off_other.
      apply N.eqb_neq in O1, O2. rewrite O1. cbn [same]. rewrite N.eqb_sym in O2. rewrite no_bool_split, O3 by exact O2. unfold add_both, add_falsey, add_truthy, nothing. cbn [fst snd]. rewrite !J. now destruct (test v u).
    + destruct o; try contradiction. cbn [split_off_singleton_of]. unfold split_off_other. cbn [same]. cbn [open_to] in O. rewrite no_bool_split by reflexivity.
      unfold add_both, add_falsey, add_truthy, nothing. destruct (custom_eq (Enum e)).
      * cbn [fst snd]. rewrite !J. now destruct (test v u).
      * destruct O as [O|[O1 O2]]; [discriminate|]. rewrite O2, O1. cbn [fst snd]. rewrite !J. now destruct (test v u).
    + cbn. destruct (test v u); rewrite ?J; destruct o; try contradiction; exact Ht.
  - specialize (P v u Ht Hu). destruct (test v u) eqn:E.
    + (* it passes, and is of type [o] *)
      assert (Hv : has o v) by now apply P. clear P.
      destruct R as [R|R]; [|destruct (R v Ht Hv)].
      assert (O : o = t \/ (exists l, o = Literal l /\ accepts t o = true) -> has (fst (split_off_other p accepts custom_eq kind_of_enum o nothing t)) v).
      { unfold split_off_other. intros [O|[l [-> O]]]; [rewrite <- O, same_refl; exact Hv|].
        destruct (same (Literal l) t); [exact Hv|]. destruct (maybe_split_bool_from_literal p t l) as [[tr fa]|] eqn:M.
        - destruct l; try discriminate M. cbn [maybe_split_bool_from_literal] in M. destruct (of_class (bool_class p) t); [|discriminate].
          injection M as <- <-. exact Hv.
        - destruct (custom_eq t); [exact Ht|]. rewrite O. exact Hv. }
      assert (C : t = Any \/ is_type_variable t \/ is_object t \/ o = t \/ (exists l, o = Literal l /\ ~ is_exact t /\ accepts t o = true)).
      { destruct o; cbn [recognized] in R; try contradiction;
          first [destruct R as [R|[R|[R|[R|R]]]]; subst; eauto 8|destruct R as [R|[R|[R|R]]]; subst; auto]. }
      assert (C' : t = Any \/ is_type_variable t \/ is_object t \/ (o = t \/ (exists l, o = Literal l /\ accepts t o = true))).
      { destruct C as [C|[C|[C|[C|[l [C1 [_ C2]]]]]]]; eauto 8. }
      destruct t; try (apply O; destruct C' as [C'|[C'|[C'|C']]]; [discriminate|contradiction|contradiction|exact C']).
      * cbn. destruct is_eq; rewrite ?J; [exact Logic.I|exact Hv].
      * cbn [split_off_singleton_of]. destruct (N.eqb_spec c (object p)) as [Z|Z]; [exact Hv|].
        apply O. destruct C' as [C'|[C'|[C'|C']]]; [discriminate|contradiction|contradiction|exact C'].
      * cbn [split_off_singleton_of]. destruct C as [C|[C|[C|[C|[l' [_ [C _]]]]]]]; [discriminate|contradiction|contradiction| |destruct C; exact Logic.I].
        subst o. rewrite same_literal_refl. exact Ht.
      * cbn. destruct is_eq; rewrite ?J; [exact Ht|exact Hv].
    + assert (N : ~ has o v) by (intros A; apply P in A; congruence). clear P R.
      assert (O : has (snd (split_off_other p accepts custom_eq kind_of_enum o nothing t)) v).
      { unfold split_off_other. destruct (same o t) eqn:S; [apply same_eq in S; subst t; contradiction|].
        destruct o; try exact Ht. destruct (maybe_split_bool_from_literal p t l) as [[tr fa]|] eqn:M.
        - destruct l as [| b| |]; try discriminate M. cbn [maybe_split_bool_from_literal] in M. destruct t; cbn [of_class] in M; try discriminate.
          destruct (N.eqb_spec (bool_class p) c) as [<-|]; [|discriminate]. injection M as <- <-. cbn.
          destruct (Two _ _ Ht) as [B|B], b; try contradiction; exact B.
        - destruct (custom_eq t); [exact Ht|]. apply has_falsey. now right. }
      destruct t; try exact O.
      * exact Logic.I.
      * cbn [split_off_singleton_of]. destruct (c =? object p); [exact Ht|exact O].
      * cbn [split_off_singleton_of]. destruct o; try exact Ht. destruct (same_literal l l0) eqn:S; [|exact Ht]. apply same_literal_eq in S as <-. contradiction.
      * exact Ht.
Qed.

Lemma singleton_sound : forall is_eq o t v u, two_bools -> match o with EnumMember _ _ => False | _ => True end ->
  Forall (suits is_eq o) (parts t) -> has t v -> has o u -> allowed (singleton_sides t o is_eq) (test v u) v.
Proof.
  intros is_eq o t v u Two Ho S Ht Hu. apply has_parts in Ht as [a [A1 A2]]. rewrite Forall_forall in S.
  pose proof (one_sound is_eq o a v u Two Ho (S a A1) A2 Hu) as H. unfold allowed in *.
  destruct (has_singleton_sides t o is_eq v) as [H1 H2].
  destruct (test v u); [apply H1|apply H2]; now exists a.
Qed.

(** What remains of a type where it is compared with None: all but None *)
Lemma without_none : forall is_eq t v, has t v -> ~ none_value w v -> has (snd (singleton_sides t NoneType is_eq)) v.
Proof.
  intros is_eq t v Ht Hn. apply has_singleton_sides. apply has_parts in Ht as [a [A1 A2]]. exists a. split; [exact A1|].
  destruct a; try exact A2; cbn [split_off_singleton_of]; [exact (False_ind _ (Hn A2))|]. destruct (c =? object p); exact A2.
Qed.

Lemma member_sound : forall is_eq e m t s v u, declared_members -> (is_flag e = true -> m < member_count e) ->
  Forall (suits is_eq (EnumMember e m)) (parts t) -> has t v -> has (EnumMember e m) u ->
  member_sides t e m is_eq = Some s -> allowed s (test v u) v.
Proof.
  intros is_eq e m t s v u M Fl S Ht Hu E. rewrite member_sides_split in E.
  destruct (aborts_all e m is_eq (parts t)) eqn:Ab; [discriminate|]. injection E as <-. unfold allowed.
  apply has_parts in Ht as [a [A1 A2]]. rewrite Forall_forall in S. specialize (S a A1).
  destruct S as [[_ []]|[P R]]. specialize (P v u A2 Hu).
  assert (Ab' : aborts e is_eq a && negb (is_member e m a) = false).
  { unfold aborts_all in Ab. destruct (aborts e is_eq a && negb (is_member e m a)) eqn:X; [|reflexivity].
    rewrite <- Ab. symmetry. apply existsb_exists. now exists a. }
  destruct (test v u).
  - assert (Hv : has (EnumMember e m) v) by now apply P. cbn [fst].
    replace (existsb (found e m) (parts t)) with true; [exact Hv|]. symmetry. apply existsb_exists. exists a. split; [exact A1|].
    destruct R as [R|R]; [|destruct (R v A2 Hv)]. cbn [recognized] in R. destruct R as [R|[R|[R|R]]].
    + now subst a.
    + destruct a; try contradiction. cbn [found is_object] in *. subst c. apply N.eqb_refl.
    + subst a. cbn [found is_member]. now rewrite !N.eqb_refl.
    + subst a. cbn [found]. rewrite N.eqb_refl. cbn [andb]. apply existsb_exists. exists m. split; [|apply N.eqb_refl].
      apply in_members. destruct (is_flag e) eqn:F; [now apply Fl|]. exact (M e m v F Hv).
  - assert (Hv : ~ has (EnumMember e m) v) by (intros H; apply P in H; discriminate). cbn [snd].
    apply has_join_all. right. assert (X : exists b, In b (rest e m a) /\ has b v).
    { destruct a; try (eexists; split; [left; reflexivity|exact A2]).
      - cbn [rest]. destruct (object p =? c); (eexists; split; [left; reflexivity|exact A2]).
      - cbn [rest]. destruct (N.eqb_spec e e0) as [<-|Ne]; [|eexists; split; [left; reflexivity|exact A2]].
        destruct (is_flag e) eqn:F; [eexists; split; [left; reflexivity|exact A2]|].
        destruct A2 as [n A2]. exists (EnumMember e n). split; [|exact A2]. apply in_map. apply filter_In. split.
        + apply in_members. exact (M e n v F A2).
        + destruct (N.eqb_spec n m) as [->|]; [contradiction|reflexivity].
      - cbn [rest]. destruct (is_member e m (EnumMember e0 m0)) eqn:X; [|eexists; split; [left; reflexivity|exact A2]].
        cbn [is_member] in X. apply andb_prop in X as [X1 X2]. apply N.eqb_eq in X1, X2. subst. contradiction. }
    destruct X as [b [B1 B2]]. exists b. split; [|exact B2]. apply in_flat_map. now exists a.
Qed.

(** What the comparison is about: the type itself, but the only member of an enum *)
Definition subject (o : type) : type := match o with Enum e => if member_count e =? 1 then EnumMember e 0 else o | _ => o end.

Definition is_singleton (o : type) : bool :=
  match o with
  | NoneType | EnumMember _ _ | Literal _ => true
  | Enum e => member_count e =? 1
  | Class c _ => c =? ellipsis
  | _ => false
  end.

(** The conditions on a part of the type of [x] *)
Definition part_suits (is_eq : bool) (o t : type) : Prop :=
  if is_singleton o then suits is_eq (subject o) t else t = NoneType -> never_passes w env test NoneType o.

Lemma remove_none_sound : forall is_eq t v u, (has NoneType v -> test v u = false) -> has t v ->
  branch_allows w env (if test v u then Some (snd (singleton_sides t NoneType is_eq)) else None) v.
Proof.
  intros is_eq t v u H Ht. destruct (test v u); [|exact Logic.I]. apply without_none; [exact Ht|]. intros N. specialize (H N). discriminate.
Qed.

Lemma narrow_sound : forall is_eq literals t o truthy falsey, two_bools -> declared_members ->
  match subject o with EnumMember e m => is_flag e = true -> m < member_count e | _ => True end ->
  (forall u, has o u -> has (subject o) u) ->
  Forall (part_suits is_eq o) (parts t) ->
  narrow t o is_eq literals = Some (truthy, falsey) -> splits w env test t o truthy falsey.
Proof.
  intros is_eq literals t o truthy falsey Two M Fl Sub S E v u Ht Hu.
  assert (Remove : (mem NoneType (parts t) = true -> never_passes w env test NoneType o) ->
    match t with
    | Union ts =>
        if mem NoneType ts then
          let falsey := snd (singleton_sides t NoneType is_eq) in
          if accepts o falsey || accepts falsey o then Some (Some falsey, None) else None
        else None
    | _ => None
    end = Some (truthy, falsey) -> branch_allows w env (if test v u then truthy else falsey) v).
  { intros N. destruct t; try discriminate. cbn [parts] in N. destruct (mem NoneType ts) eqn:X; [|discriminate]. cbn zeta.
    destruct (_ || _); [|discriminate]. injection 1 as <- <-. apply (remove_none_sound is_eq); [|exact Ht]. intros A. exact (N eq_refl v u A Hu). }
  assert (Frames : forall s, (truthy, falsey) = frames s -> allowed s (test v u) v -> branch_allows w env (if test v u then truthy else falsey) v).
  { intros s Es A. unfold frames in Es. injection Es as -> ->. unfold allowed in A. destruct (test v u); exact A. }
  assert (Member : forall e m, has (EnumMember e m) u -> (is_flag e = true -> m < member_count e) ->
    Forall (suits is_eq (EnumMember e m)) (parts t) -> option_map frames (member_sides t e m is_eq) = Some (truthy, falsey) ->
    branch_allows w env (if test v u then truthy else falsey) v).
  { intros e m Hm F Su X. destruct (member_sides t e m is_eq) as [s|] eqn:Y; [|discriminate]. apply (Frames s); [cbn [option_map] in X; congruence|].
    exact (member_sound is_eq e m t s v u M F Su Ht Hm Y). }
  assert (NotNone : forall b, is_singleton o = false -> mem NoneType (parts t) = b -> b = true -> never_passes w env test NoneType o).
  { intros b X Y ->. apply mem_in in Y. rewrite Forall_forall in S. specialize (S _ Y). unfold part_suits in S. rewrite X in S. exact (S eq_refl). }
  unfold part_suits in S.
  destruct o; cbn [narrow_is_or_eq subject is_singleton] in *; try (exact (Remove (NotNone _ eq_refl eq_refl) E)).
  - (* None *) destruct is_eq.
    + injection E as <- <-. pose proof (singleton_sound true NoneType t v u Two Logic.I S Ht Hu) as A. unfold allowed in A.
      destruct (test v u); [exact Logic.I|exact A].
    + pose proof (singleton_sound false NoneType t v u Two Logic.I S Ht Hu) as A. destruct t; try (refine (Frames _ _ A); congruence).
      injection E as <- <-. unfold allowed in A. cbn in A. destruct (test v u); exact A.
  - (* a class *) destruct (c =? ellipsis); [refine (Frames _ _ (singleton_sound is_eq (Class c gs) t v u Two Logic.I S Ht Hu)); congruence|].
    exact (Remove (NotNone _ eq_refl eq_refl) E).
  - (* a literal *) destruct (negb is_eq || literals).
    + refine (Frames _ _ (singleton_sound is_eq (Literal l) t v u Two Logic.I S Ht Hu)); congruence.
    + apply Remove; [|exact E]. intros X a b Ha Hb. apply mem_in in X. rewrite Forall_forall in S. destruct (S _ X) as [[_ []]|[P R]].
      specialize (P a b Ha Hb). destruct (test a b); [|reflexivity]. assert (Hl : has (Literal l) a) by now apply P.
      destruct R as [[R|[[]|[[]|[R|[R _]]]]]|R]; [discriminate|discriminate|destruct R; exact Logic.I|destruct (R a Ha Hl)].
  - (* an enum *) destruct (member_count e =? 1) eqn:X.
    + exact (Member e 0 (Sub u Hu) Fl S E).
    + exact (Remove (NotNone _ eq_refl eq_refl) E).
  - exact (Member e m Hu Fl S E).
Qed.


(** ** Nothing is lost *)
Lemma one_covers : forall is_eq o t v, two_bools -> has t v ->
  has (fst (one_singleton o is_eq nothing t)) v \/ has (snd (one_singleton o is_eq nothing t)) v.
Proof.
  intros is_eq o t v Two Ht.
  assert (O : has (fst (split_off_other p accepts custom_eq kind_of_enum o nothing t)) v \/ has (snd (split_off_other p accepts custom_eq kind_of_enum o nothing t)) v).
  { unfold split_off_other. destruct (same o t) eqn:S; [apply same_eq in S as ->; left; exact Ht|].
    destruct o; try (right; exact Ht). destruct (maybe_split_bool_from_literal p t l) as [[tr fa]|] eqn:M.
    - destruct l as [| b| |]; try discriminate M. cbn [maybe_split_bool_from_literal] in M. destruct t; cbn [of_class] in M; try discriminate.
      destruct (N.eqb_spec (bool_class p) c) as [<-|]; [|discriminate]. injection M as <- <-. cbn.
      destruct (Two _ _ Ht) as [B|B], b; auto.
    - destruct (custom_eq t); [now left|]. right. apply has_falsey. now right. }
  destruct t; try exact O; cbn [split_off_singleton_of].
  - right. exact Logic.I.
  - destruct (c =? object p); [right; exact Ht|exact O].
  - destruct o; try (right; exact Ht). destruct (same_literal l l0); [left|right]; exact Ht.
  - right. exact Ht.
Qed.

Lemma members_cover : forall is_eq e m t s v, declared_members -> has t v ->
  member_sides t e m is_eq = Some s -> has (fst s) v \/ has (snd s) v.
Proof.
  intros is_eq e m t s v M Ht E. rewrite member_sides_split in E. destruct (aborts_all e m is_eq (parts t)); [discriminate|]. injection E as <-. cbn [fst snd].
  apply has_parts in Ht as [a [A1 A2]].
  assert (X : found e m a = true /\ has (EnumMember e m) v \/ exists b, In b (rest e m a) /\ has b v).
  { destruct a; try (right; eexists; split; [left; reflexivity|exact A2]).
    - right. cbn [rest]. destruct (object p =? c); (eexists; split; [left; reflexivity|exact A2]).
    - cbn [rest found]. destruct (N.eqb_spec e e0) as [<-|Ne]; [|right; eexists; split; [left; reflexivity|exact A2]]. cbn [andb].
      destruct (is_flag e) eqn:F; [right; eexists; split; [left; reflexivity|exact A2]|].
      destruct A2 as [n A2]. pose proof (M e n v F A2) as B. apply in_members in B. destruct (N.eqb_spec n m) as [->|Nm].
      + left. split; [|exact A2]. apply existsb_exists. exists m. split; [exact B|apply N.eqb_refl].
      + right. exists (EnumMember e n). split; [|exact A2]. apply in_map. apply filter_In. split; [exact B|]. now apply negb_true_iff, N.eqb_neq.
    - cbn [rest found]. destruct (is_member e m (EnumMember e0 m0)) eqn:X; [left|right; eexists; split; [left; reflexivity|exact A2]].
      split; [reflexivity|]. cbn [is_member] in X. apply andb_prop in X as [X1 X2]. apply N.eqb_eq in X1, X2. subst. exact A2. }
  destruct X as [[X1 X2]|[b [B1 B2]]].
  - left. replace (existsb (found e m) (parts t)) with true; [exact X2|]. symmetry. apply existsb_exists. now exists a.
  - right. apply has_join_all. right. exists b. split; [|exact B2]. apply in_flat_map. now exists a.
Qed.

Lemma narrow_covers : forall is_eq literals t o truthy falsey, two_bools -> declared_members ->
  narrow t o is_eq literals = Some (truthy, falsey) -> forall v, has t v -> branch_allows w env truthy v \/ branch_allows w env falsey v.
Proof.
  intros is_eq literals t o truthy falsey Two M E v Ht.
  assert (Frames : forall s, (truthy, falsey) = frames s -> has (fst s) v \/ has (snd s) v -> branch_allows w env truthy v \/ branch_allows w env falsey v).
  { intros s Es A. unfold frames in Es. injection Es as -> ->. exact A. }
  assert (Single : forall o, has (fst (singleton_sides t o is_eq)) v \/ has (snd (singleton_sides t o is_eq)) v).
  { intros x. destruct (has_singleton_sides t x is_eq v) as [H1 H2]. apply has_parts in Ht as [a [A1 A2]].
    destruct (one_covers is_eq x a v Two A2) as [H|H]; [left; apply H1|right; apply H2]; now exists a. }
  assert (Member : forall e m, option_map frames (member_sides t e m is_eq) = Some (truthy, falsey) -> branch_allows w env truthy v \/ branch_allows w env falsey v).
  { intros e m X. destruct (member_sides t e m is_eq) as [s|] eqn:Y; [|discriminate]. apply (Frames s); [cbn [option_map] in X; congruence|].
    exact (members_cover is_eq e m t s v M Ht Y). }
  assert (Remove : match t with
    | Union ts =>
        if mem NoneType ts then
          let falsey := snd (singleton_sides t NoneType is_eq) in
          if accepts o falsey || accepts falsey o then Some (Some falsey, None) else None
        else None
    | _ => None
    end = Some (truthy, falsey) -> branch_allows w env truthy v \/ branch_allows w env falsey v).
  { destruct t; try discriminate. destruct (mem NoneType ts); [|discriminate]. cbn zeta. destruct (_ || _); [|discriminate].
    injection 1 as <- <-. now right. }
  destruct o; cbn [narrow_is_or_eq] in E; try exact (Remove E).
  - destruct is_eq; [injection E as <- <-; now left|].
    destruct t; try (refine (Frames (singleton_sides _ NoneType false) _ (Single NoneType)); congruence).
    injection E as <- <-. now right.
  - destruct (c =? ellipsis); [|exact (Remove E)]. refine (Frames (singleton_sides t (Class c gs) is_eq) _ (Single _)). congruence.
  - destruct (negb is_eq || literals); [|exact (Remove E)]. refine (Frames (singleton_sides t (Literal l) is_eq) _ (Single _)). congruence.
  - destruct (member_count e =? 1); [exact (Member e 0 E)|exact (Remove E)].
  - exact (Member e m E).
Qed.

(** ** Nothing is added *)
(** [object] and [bool] are not generic. *)
Definition written_plainly (t : type) : Prop := match t with Class c gs => c = object p \/ c = bool_class p -> gs = [] | _ => True end.

Record builtin_laws : Prop := mk_builtin_laws {
  law_object : forall v, instance w (object p) [] v;
  law_bools : forall b v, literal_value w (LBool b) v -> instance w (bool_class p) [] v;
  law_accepts : forall t l v, accepts t (Literal l) = true -> literal_value w l v -> has t v
}.

Lemma one_within : forall is_eq o t v, builtin_laws -> written_plainly t -> (is_eq = true \/ ~ is_type_variable t) ->
  has (fst (one_singleton o is_eq nothing t)) v \/ has (snd (one_singleton o is_eq nothing t)) v -> has t v.
Proof.
  intros is_eq o t v [Lo Lb La] Pl TV.
  assert (O : has (fst (split_off_other p accepts custom_eq kind_of_enum o nothing t)) v \/ has (snd (split_off_other p accepts custom_eq kind_of_enum o nothing t)) v -> has t v).
  { unfold split_off_other. destruct (same o t) eqn:S; [apply same_eq in S as ->; intros [H|H]; [exact H|destruct H]|].
    destruct o; try (intros [H|H]; [destruct H|exact H]). destruct (maybe_split_bool_from_literal p t l) as [[tr fa]|] eqn:M.
    - destruct l as [| b| |]; try discriminate M. cbn [maybe_split_bool_from_literal] in M. destruct t; cbn [of_class] in M; try discriminate.
      destruct (N.eqb_spec (bool_class p) c) as [<-|]; [|discriminate]. injection M as <- <-. cbn. cbn [written_plainly] in Pl.
      rewrite (Pl (or_intror eq_refl)). intros [H|H]; exact (Lb _ _ H).
    - destruct (custom_eq t); [intros [H|H]; exact H|]. rewrite has_falsey. destruct (accepts t (Literal l)) eqn:A.
      + intros [H|[H|H]]; [|destruct H|exact H]. exact (La t l v A H).
      + destruct (is_int_or_str_enum kind_of_enum t); intros [H|[H|H]]; try exact H; destruct H. }
  destruct t; try exact O; cbn [split_off_singleton_of].
  - intros _. exact Logic.I.
  - destruct (N.eqb_spec c (object p)) as [->|]; [|exact O]. intros _. cbn [written_plainly] in Pl. rewrite (Pl (or_introl eq_refl)). apply Lo.
  - destruct o; try (intros [H|H]; [destruct H|exact H]). destruct (same_literal l l0); intros [H|H]; try exact H; destruct H.
  - destruct TV as [->|TV]; [|destruct TV; exact Logic.I]. intros [H|H]; exact H.
Qed.

Lemma members_within : forall is_eq e m t s v, builtin_laws -> Forall written_plainly (parts t) ->
  member_sides t e m is_eq = Some s -> has (fst s) v \/ has (snd s) v -> has t v.
Proof.
  intros is_eq e m t s v [Lo Lb La] Pl E. rewrite member_sides_split in E. destruct (aborts_all e m is_eq (parts t)); [discriminate|]. injection E as <-. cbn [fst snd].
  rewrite Forall_forall in Pl. intros [H|H].
  - destruct (existsb (found e m) (parts t)) eqn:F; [|destruct H]. apply existsb_exists in F as [a [F1 F2]]. apply has_parts. exists a. split; [exact F1|].
    specialize (Pl a F1). destruct a; cbn [found] in F2; try discriminate.
    + exact Logic.I.
    + apply N.eqb_eq in F2 as <-. cbn [written_plainly] in Pl. rewrite (Pl (or_introl eq_refl)). apply Lo.
    + apply andb_prop in F2 as [F2 _]. apply N.eqb_eq in F2 as <-. now exists m.
    + cbn [is_member] in F2. apply andb_prop in F2 as [F2 F3]. apply N.eqb_eq in F2 as <-. apply N.eqb_eq in F3 as <-. exact H.
  - apply has_join_all in H as [[]|[b [B1 B2]]]. apply in_flat_map in B1 as [a [B0 B1]]. apply has_parts. exists a. split; [exact B0|].
    destruct a; cbn [rest In] in B1; try (destruct B1 as [<-|[]]; exact B2).
    + exact Logic.I.
    + destruct (object p =? c); cbn [In] in B1; [destruct B1 as [<-|[<-|[]]]|destruct B1 as [<-|[]]]; exact B2.
    + destruct (N.eqb_spec e e0) as [<-|]; [|destruct B1 as [<-|[]]; exact B2]. destruct (is_flag e); [destruct B1 as [<-|[]]; exact B2|].
      apply in_map_iff in B1 as [n [<- _]]. now exists n.
    + destruct (is_member e m (EnumMember e0 m0)); [destruct B1|]. destruct B1 as [<-|[]]. exact B2.
Qed.

Lemma narrow_within : forall is_eq literals t o truthy falsey, builtin_laws -> Forall written_plainly (parts t) ->
  is_eq = true \/ Forall (fun u => ~ is_type_variable u) (parts t) ->
  narrow t o is_eq literals = Some (truthy, falsey) -> forall u v, truthy = Some u \/ falsey = Some u -> has u v -> has t v.
Proof.
  intros is_eq literals t o truthy falsey B Pl TV E u v Hu Hv.
  assert (Single : forall o, has (fst (singleton_sides t o is_eq)) v \/ has (snd (singleton_sides t o is_eq)) v -> has t v).
  { intros x H. destruct (has_singleton_sides t x is_eq v) as [H1 H2]. apply has_parts.
    assert (X : exists a, In a (parts t) /\ (has (fst (one_singleton x is_eq nothing a)) v \/ has (snd (one_singleton x is_eq nothing a)) v)).
    { destruct H as [H|H]; [apply H1 in H|apply H2 in H]; destruct H as [a [A1 A2]]; exists a; auto. }
    destruct X as [a [A1 A2]]. exists a. split; [exact A1|]. rewrite Forall_forall in Pl. apply (one_within is_eq x a v B (Pl a A1)); [|exact A2].
    destruct TV as [TV|TV]; [now left|right]. rewrite Forall_forall in TV. exact (TV a A1). }
  assert (Frames : forall s, (truthy, falsey) = frames s -> has (fst s) v \/ has (snd s) v).
  { intros s Es. unfold frames in Es. injection Es as -> ->. destruct Hu as [Hu|Hu]; injection Hu as <-; auto. }
  assert (Member : forall e m, option_map frames (member_sides t e m is_eq) = Some (truthy, falsey) -> has t v).
  { intros e m X. destruct (member_sides t e m is_eq) as [s|] eqn:Y; [|discriminate]. apply (members_within is_eq e m t s v B Pl Y). apply Frames. cbn [option_map] in X; congruence. }
  assert (Remove : match t with
    | Union ts =>
        if mem NoneType ts then
          let falsey := snd (singleton_sides t NoneType is_eq) in
          if accepts o falsey || accepts falsey o then Some (Some falsey, None) else None
        else None
    | _ => None
    end = Some (truthy, falsey) -> has t v).
  { intros X. destruct t; try discriminate. destruct (mem NoneType ts); [|discriminate]. cbn zeta in X. destruct (_ || _); [|discriminate].
    injection X as <- <-. apply (Single NoneType). right. destruct Hu as [Hu|Hu]; [|discriminate]. injection Hu as <-. exact Hv. }
  destruct o; cbn [narrow_is_or_eq] in E; try exact (Remove E).
  - destruct is_eq.
    + injection E as <- <-. destruct Hu as [Hu|Hu]; [discriminate|]. injection Hu as <-. apply (Single NoneType). now right.
    + destruct t; try (apply (Single NoneType), Frames; congruence).
      destruct TV as [TV|TV]; [discriminate|]. destruct (Forall_inv TV). exact Logic.I.
  - destruct (c =? ellipsis); [|exact (Remove E)]. apply (Single (Class c gs)), Frames. congruence.
  - destruct (negb is_eq || literals); [|exact (Remove E)]. apply (Single (Literal l)), Frames. congruence.
  - destruct (member_count e =? 1); [exact (Member e 0 E)|exact (Remove E)].
  - exact (Member e m E).
Qed.
End Sides.
