(** Proofs about narrowing by truth *)
From Coq Require Import List NArith ZArith Bool Lia.
From Verif Require Import TupleModel TupleSpec SubtypeModel SubtypeSpec NarrowModel NarrowSpec NarrowProofs NarrowLen NarrowIsModel NarrowTruthSpec.
Import ListNotations.
Open Scope N_scope.

Section Truth.
Context {V : Type}.
Variables (w : world V) (env : N -> V -> Prop).
Notation has := (has w env).
Variables (bool_of : V -> option bool) (len_of : V -> option N).
Notation truth := (truth bool_of len_of).
Variables (p : program) (is_final : N -> bool) (returned_by enum_returned_by : N -> bool -> returned) (named_tuple : N -> option N) (empty : N).
Notation split_single := (split_single p is_final returned_by enum_returned_by named_tuple empty).
Notation split := (split_truthy_and_falsey p is_final returned_by enum_returned_by named_tuple empty).
Hypothesis laws : truth_laws w bool_of len_of p empty.

(** The parts of a type, through all unions *)
Fixpoint leaves (t : type) : list type :=
  match t with
  | Union ts => flat_map leaves ts
  | Never => []
  | _ => [t]
  end.

(** What a part must be like: all methods are as they are declared, and a class that has no [__bool__] does not get one in a subclass where its
    length or that it is final decides.  An int that is false is 0, a str is empty. *)
Definition leaf_suits (t : type) : Prop :=
  match t with
  | Class c gs =>
      let s := has t in
      if c =? bool_class p then True
      else if c =? int_class p then forall v, s v -> truth v = false -> literal_value w (LInt 0 false) v
      else if c =? str_class p then forall v, s v -> truth v = false -> literal_value w (LStr empty) v
      else if c =? bytes_class p then forall v, s v -> truth v = false -> literal_value w (LBytes empty) v
      else
        as_declared bool_of len_of (returned_by c) empty s /\
        (forall n v, named_tuple c = Some n -> s v -> len_of v = Some n) /\
        (named_tuple c <> None \/ is_final c = true \/ returned_by c false <> NoMethod -> none_added bool_of (returned_by c) s) /\
        (is_final c = true -> no_len_added len_of (returned_by c) s)
  | Enum e | EnumMember e _ =>
      as_declared bool_of len_of (enum_returned_by e) empty (has t) /\ none_added bool_of (enum_returned_by e) (has t) /\ no_len_added len_of (enum_returned_by e) (has t)
  | _ => True
  end.

Definition side (s : sides) (b : bool) : type := if b then fst s else snd s.

Lemma checked : forall t l s v, check_literal t l = Some s -> has t v -> truth v = literal_truth empty l -> has (side s (truth v)) v.
Proof.
  intros t l s v E Ht T. rewrite T. destruct l as [n neg|b|x|x]; cbn [check_literal literal_truth] in *; try discriminate E.
  - destruct (n =? 0); injection E as <-; exact Ht.
  - destruct b; injection E as <-; exact Ht.
Qed.

Lemma checked_is_number : forall t l s, check_literal t l = Some s -> is_number l.
Proof. intros t l s E. destruct l; try exact Logic.I; discriminate E. Qed.

Lemma by_bool : forall t methods l s v P, as_declared bool_of len_of methods empty P -> methods true = Always l -> P v -> check_literal t l = Some s -> has t v ->
  has (side s (truth v)) v.
Proof.
  intros t methods l s v P D E Pv C Ht. apply (checked t l s v C Ht). unfold NarrowTruthSpec.truth.
  now rewrite (law_bool_returns _ _ _ _ _ D l v E (checked_is_number t l s C) Pv).
Qed.

Lemma by_len : forall t methods l s v P, as_declared bool_of len_of methods empty P -> bool_of v = None -> methods false = Always l -> P v -> check_literal t l = Some s ->
  has t v -> has (side s (truth v)) v.
Proof.
  intros t methods l s v P D B E Pv C Ht. apply (checked t l s v C Ht). unfold NarrowTruthSpec.truth. rewrite B.
  destruct (law_len_returns _ _ _ _ _ D l v E (checked_is_number t l s C) Pv) as [n [-> H]]. exact H.
Qed.

Lemma enum_sound : forall t e s v, as_declared bool_of len_of (enum_returned_by e) empty (has t) -> none_added bool_of (enum_returned_by e) (has t) ->
  no_len_added len_of (enum_returned_by e) (has t) ->
  or_else (narrow_by_return_literal t (enum_returned_by e true)) (or_else (narrow_by_return_literal t (enum_returned_by e false)) (always_true t)) = Some s ->
  has t v -> has (side s (truth v)) v.
Proof.
  intros t e s v D N1 N2 E Ht. destruct (enum_returned_by e true) as [| |l] eqn:B; cbn [narrow_by_return_literal or_else] in E; [|discriminate E|exact (by_bool t _ l s v _ D B Ht E Ht)].
  destruct (enum_returned_by e false) as [| |l] eqn:L; cbn [narrow_by_return_literal or_else] in E; [|discriminate E|exact (by_len t _ l s v _ D (N1 B v Ht) L Ht E Ht)].
  injection E as <-. unfold NarrowTruthSpec.truth. rewrite (N1 B v Ht), (N2 L v Ht). exact Ht.
Qed.

Lemma class_sound : forall c gs s v, leaf_suits (Class c gs) -> split_single (Class c gs) = Some s -> has (Class c gs) v -> has (side s (truth v)) v.
Proof.
  intros c gs s v Su E Ht. cbn [leaf_suits] in Su. cbn [NarrowIsModel.split_single] in E. cbv zeta in Su.
  destruct (N.eqb_spec c (bool_class p)) as [->|_].
  { injection E as <-. destruct (law_bool _ _ _ _ _ laws _ v Ht) as [H|H]; rewrite (law_literal _ _ _ _ _ laws _ v H); exact H. }
  assert (W : forall l, (has (Class c gs) v -> truth v = false -> literal_value w l v) -> Some (Class c gs, Literal l) = Some s -> has (side s (truth v)) v).
  { intros l H X. injection X as <-. destruct (truth v) eqn:T; [exact Ht|exact (H Ht eq_refl)]. }
  destruct (c =? int_class p); [exact (W _ (Su v) E)|]. destruct (c =? str_class p); [exact (W _ (Su v) E)|]. destruct (c =? bytes_class p); [exact (W _ (Su v) E)|].
  clear W. destruct Su as [D [Nt [N1 N2]]].
  destruct (returned_by c true) as [| |l] eqn:B; cbn [narrow_by_return_literal or_else] in E; [|discriminate E|exact (by_bool _ _ l s v _ D B Ht E Ht)].
  destruct (named_tuple c) as [n|] eqn:T.
  { assert (B0 : bool_of v = None) by (apply N1; [left; discriminate|exact B|exact Ht]).
    apply (checked _ _ s v E Ht). unfold NarrowTruthSpec.truth. rewrite B0, (Nt n v eq_refl Ht). reflexivity. }
  destruct (returned_by c false) as [| |l] eqn:L; cbn [narrow_by_return_literal or_else] in E; [|discriminate E|].
  - destruct (is_final c); [|discriminate E]. injection E as <-. assert (B0 : bool_of v = None) by (apply N1; [right; left; reflexivity|exact B|exact Ht]).
    unfold NarrowTruthSpec.truth. rewrite B0, (N2 eq_refl L v Ht). exact Ht.
  - assert (B0 : bool_of v = None) by (apply N1; [right; right; discriminate|exact B|exact Ht]). exact (by_len _ _ l s v _ D B0 L Ht E Ht).
Qed.

Lemma single_sound : forall t s v, leaf_suits t -> split_single t = Some s -> has t v -> has (side s (truth v)) v.
Proof.
  intros t s v Su E Ht. destruct t; try discriminate E.
  - injection E as <-. rewrite (law_none _ _ _ _ _ laws v Ht). exact Ht.
  - exact (class_sound _ _ s v Su E Ht).
  - exact (checked _ l s v E Ht (law_literal _ _ _ _ _ laws l v Ht)).
  - destruct a as [ts|t|u]; try discriminate E. injection E as <-. apply has_arbitrary in Ht as [vs [H1 H2]]. rewrite (law_tuple _ _ _ _ _ laws v vs H1).
    destruct vs as [|x vs].
    + apply has_fixed. exists []. split; [exact H1|constructor].
    + apply has_variable. exists [x], vs, []. rewrite app_nil_r. repeat split; [exact H1| |exact (Forall_inv_tail H2)|constructor].
      constructor; [exact (Forall_inv H2)|constructor].
  - destruct Su as [D [N1 N2]]. exact (enum_sound _ e s v D N1 N2 E Ht).
  - destruct Su as [D [N1 N2]]. exact (enum_sound _ e s v D N1 N2 E Ht).
Qed.

(** ** Unions *)
Lemma has_sides : forall (A : Type) (f : A -> sides) rs s b v,
  has (side (fold_left (fun s r => join_sides s (f r)) rs s) b) v <-> has (side s b) v \/ exists r, In r rs /\ has (side (f r) b) v.
Proof.
  intros A f. induction rs as [|r rs IH]; intros s b v; cbn [fold_left].
  - split; [now left|]. intros [H|[r [[] _]]]. exact H.
  - rewrite IH. assert (J : has (side (join_sides s (f r)) b) v <-> has (side s b) v \/ has (side (f r) b) v) by (destruct b; cbn [side join_sides fst snd]; apply has_join).
    rewrite J. split.
    + intros [[H|H]|[q [Q1 Q2]]]; [now left|right; exists r; split; [now left|exact H]|right; exists q; split; [now right|exact Q2]].
    + intros [H|[q [[<-|Q1] Q2]]]; [left; now left|left; now right|right; now exists q].
Qed.

Lemma no_never : forall b v, ~ has (side nothing b) v.
Proof. intros [] v H; exact H. Qed.

Theorem truth_sound : forall t s v, Forall leaf_suits (leaves t) -> split t = Some s -> has t v -> has (side s (truth v)) v.
Proof.
  intros t. induction t as [| | |c gs _|c gs _|l| |ts _|t _|b n a _ _|b t a _ _ _|ts IH|ts _| | | | |t _] using type_rect'; intros s v F E Ht;
    try (exact (single_sound _ s v (Forall_inv F) E Ht)).
  - contradiction Ht.
  - cbn [split_truthy_and_falsey] in E. cbv zeta in E. destruct (existsb _ _); [|discriminate E]. injection E as <-.
    apply (proj2 (has_sides _ (fun r => either (snd r) (fst r)) _ nothing (truth v) v)). right. apply has_union in Ht as [t [T1 T2]].
    exists (t, split t). split; [exact (in_map (fun t => (t, split t)) ts t T1)|]. cbn [fst snd]. unfold either, or_else.
    rewrite Forall_forall in IH. assert (F' : Forall leaf_suits (leaves t)).
    { apply Forall_forall. intros u U. rewrite Forall_forall in F. apply F. cbn [leaves]. apply in_flat_map. now exists t. }
    destruct (split t) as [s|] eqn:E; [exact (IH t T1 s v F' E T2)|]. destruct (truth v); exact T2.
Qed.

(** ** No other values *)
Lemma checked_within : forall t l s v b, check_literal t l = Some s -> has (side s b) v -> has t v.
Proof.
  intros t [n neg|c|x|x] s v b E H; cbn [check_literal] in E; try discriminate E.
  - destruct (n =? 0); injection E as <-; destruct b; try exact H; contradiction H.
  - destruct c; injection E as <-; destruct b; try exact H; contradiction H.
Qed.

Definition plain_builtin (t : type) : Prop :=
  match t with Class c gs => c = bool_class p \/ c = int_class p \/ c = str_class p \/ c = bytes_class p -> gs = [] | _ => True end.

Lemma single_within : forall t s v b, plain_builtin t -> split_single t = Some s -> has (side s b) v -> has t v.
Proof.
  intros t s v b Pl E H.
  assert (True_ : forall t, always_true t = Some s -> has (side s b) v -> has t v) by (intros u X Y; injection X as <-; destruct b; [exact Y|contradiction Y]).
  assert (Enum_ : forall t e, or_else (narrow_by_return_literal t (enum_returned_by e true)) (or_else (narrow_by_return_literal t (enum_returned_by e false)) (always_true t)) = Some s -> has t v).
  { intros u e X. destruct (enum_returned_by e true) as [| |l]; cbn [narrow_by_return_literal or_else] in X; [|discriminate X|exact (checked_within u l s v b X H)].
    destruct (enum_returned_by e false) as [| |l]; cbn [narrow_by_return_literal or_else] in X; [exact (True_ u X H)|discriminate X|exact (checked_within u l s v b X H)]. }
  destruct t; try discriminate E.
  - injection E as <-. destruct b; [contradiction H|exact H].
  - cbn [NarrowIsModel.split_single] in E. cbn [plain_builtin] in Pl.
    destruct (N.eqb_spec c (bool_class p)) as [->|_].
    { rewrite Pl by auto. injection E as <-. destruct b; exact (law_enough _ _ _ _ _ laws _ v H). }
    destruct (N.eqb_spec c (int_class p)) as [->|_]; [injection E as <-; destruct b; [exact H|]; rewrite Pl by auto; exact (law_zero _ _ _ _ _ laws v H)|].
    destruct (N.eqb_spec c (str_class p)) as [->|_]; [injection E as <-; destruct b; [exact H|]; rewrite Pl by auto; exact (law_empty _ _ _ _ _ laws v H)|].
    destruct (N.eqb_spec c (bytes_class p)) as [->|_]; [injection E as <-; destruct b; [exact H|]; rewrite Pl by auto; exact (law_empty_bytes _ _ _ _ _ laws v H)|].
    destruct (returned_by c true) as [| |l]; cbn [narrow_by_return_literal or_else] in E; [|discriminate E|exact (checked_within _ l s v b E H)].
    destruct (named_tuple c) as [n|]; [exact (checked_within _ _ s v b E H)|].
    destruct (returned_by c false) as [| |l]; cbn [narrow_by_return_literal or_else] in E; [|discriminate E|exact (checked_within _ l s v b E H)].
    destruct (is_final c); [exact (True_ _ E H)|discriminate E].
  - exact (checked_within _ l s v b E H).
  - destruct a as [ts|t|u]; try discriminate E. injection E as <-. apply has_arbitrary. destruct b.
    + apply has_variable in H as [x [y [z [H1 [H2 [H3 H4]]]]]]. exists (x ++ y ++ z). split; [exact H1|]. inversion H2 as [|? a ? x' A1 A2]; subst. inversion A2; subst. inversion H4; subst.
      apply Forall_app. split; [constructor; [exact A1|constructor]|]. apply Forall_app. split; [exact H3|constructor].
    + apply has_fixed in H as [vs [H1 H2]]. exists vs. split; [exact H1|]. inversion H2. constructor.
  - exact (Enum_ _ e E).
  - exact (Enum_ _ e E).
Qed.

Theorem truth_within : forall t s v b, Forall plain_builtin (leaves t) -> split t = Some s -> has (side s b) v -> has t v.
Proof.
  intros t. induction t as [| | |c gs _|c gs _|l| |ts _|t _|b' n a _ _|b' t a _ _ _|ts IH|ts _| | | | |t _] using type_rect'; intros s v b F E H;
    try (exact (single_within _ s v b (Forall_inv F) E H)).
  - injection E as <-. exact (False_ind _ (no_never b v H)).
  - cbn [split_truthy_and_falsey] in E. cbv zeta in E. destruct (existsb _ _); [|discriminate E]. injection E as <-.
    apply (proj1 (has_sides _ (fun r => either (snd r) (fst r)) _ nothing b v)) in H as [H|[r [R1 R2]]]; [exact (False_ind _ (no_never b v H))|].
    apply in_map_iff in R1 as [t [<- T1]]. cbn [fst snd] in R2. apply has_union. exists t. split; [exact T1|]. unfold either, or_else in R2.
    rewrite Forall_forall in IH. assert (F' : Forall plain_builtin (leaves t)).
    { apply Forall_forall. intros u U. rewrite Forall_forall in F. apply F. cbn [leaves]. apply in_flat_map. now exists t. }
    destruct (split t) as [s|] eqn:E; [exact (IH t T1 s v b F' E R2)|]. destruct b; exact R2.
Qed.

(** ** Types whose truth is known *)
Definition known (t : type) : Prop :=
  match t with
  | NoneType => True
  | Literal l => is_number l
  | Class c _ => c = bool_class p
  | Tuple (ArbitraryLen _) => True
  | Enum e | EnumMember e _ => enum_returned_by e true = NoMethod /\ enum_returned_by e false = NoMethod
  | _ => False
  end.

Lemma known_single : forall t, known t -> leaf_suits t -> exists s, split_single t = Some s /\ forall b v, has (side s b) v -> truth v = b.
Proof.
  intros t K Su. assert (E : forall t e, enum_returned_by e true = NoMethod /\ enum_returned_by e false = NoMethod ->
    as_declared bool_of len_of (enum_returned_by e) empty (has t) /\ none_added bool_of (enum_returned_by e) (has t) /\ no_len_added len_of (enum_returned_by e) (has t) ->
    exists s, or_else (narrow_by_return_literal t (enum_returned_by e true)) (or_else (narrow_by_return_literal t (enum_returned_by e false)) (always_true t)) = Some s /\
      forall b v, has (side s b) v -> truth v = b).
  { intros u e [K1 K2] [D [N1 N2]]. rewrite K1, K2. exists (u, Never). split; [reflexivity|]. intros [] v H; [|contradiction H].
    unfold NarrowTruthSpec.truth. now rewrite (N1 K1 v H), (N2 K2 v H). }
  destruct t; try contradiction K.
  - exists (Never, NoneType). split; [reflexivity|]. intros [] v H; [contradiction H|exact (law_none _ _ _ _ _ laws v H)].
  - cbn [known] in K. subst c. cbn [NarrowIsModel.split_single]. rewrite N.eqb_refl. eexists. split; [reflexivity|]. intros [] v H; exact (law_literal _ _ _ _ _ laws _ v H).
  - destruct l as [n neg|c|x|x]; try contradiction K; cbn [NarrowIsModel.split_single check_literal].
    + destruct (n =? 0) eqn:Z; eexists; (split; [reflexivity|]); intros [] v H; try contradiction H; pose proof (law_literal _ _ _ _ _ laws _ v H) as T; cbn [literal_truth] in T; rewrite Z in T; exact T.
    + destruct c; eexists; (split; [reflexivity|]); intros [] v H; try contradiction H; exact (law_literal _ _ _ _ _ laws _ v H).
  - destruct a as [ts|t|u]; try contradiction K. eexists. split; [reflexivity|]. intros [] v H.
    + apply has_variable in H as [x [y [z [H1 [H2 _]]]]]. rewrite (law_tuple _ _ _ _ _ laws v _ H1). inversion H2. reflexivity.
    + apply has_fixed in H as [vs [H1 H2]]. rewrite (law_tuple _ _ _ _ _ laws v _ H1). inversion H2. reflexivity.
  - exact (E (Enum e) e K Su).
  - exact (E (EnumMember e m) e K Su).
Qed.

Lemma known_splits : forall t v, Forall known (leaves t) -> Forall leaf_suits (leaves t) -> split t = None -> ~ has t v.
Proof.
  intros t. induction t as [| | |c gs _|c gs _|l| |ts _|t _|b' n a _ _|b' t a _ _ _|ts IH|ts _| | | | |t _] using type_rect'; intros v K F E H;
    try (destruct (known_single _ (Forall_inv K) (Forall_inv F)) as [s' [E' X]]; pose proof (eq_trans (eq_sym E) E') as Y; discriminate Y).
  - exact H.
  - cbn [split_truthy_and_falsey] in E. cbv zeta in E. destruct (existsb _ _) eqn:X; [discriminate E|]. apply has_union in H as [t [T1 T2]].
    rewrite Forall_forall in IH. assert (F' : forall P, Forall P (leaves (Union ts)) -> Forall P (leaves t)).
    { intros P Y. apply Forall_forall. intros u U. rewrite Forall_forall in Y. apply Y. cbn [leaves]. apply in_flat_map. now exists t. }
    apply (IH t T1 v (F' _ K) (F' _ F)); [|exact T2]. destruct (split t) as [s|] eqn:S; [|reflexivity].
    assert (Y : existsb (fun r => match snd r with Some _ => true | None => false end) (map (fun t => (t, split t)) ts) = true).
    { apply existsb_exists. exists (t, split t). split; [exact (in_map (fun t => (t, split t)) ts t T1)|]. cbn [snd]. now rewrite S. }
    congruence.
Qed.

Theorem truth_known : forall t s v b, Forall known (leaves t) -> Forall leaf_suits (leaves t) -> split t = Some s -> has (side s b) v -> truth v = b.
Proof.
  intros t. induction t as [| | |c gs _|c gs _|l| |ts _|t _|b' n a _ _|b' t a _ _ _|ts IH|ts _| | | | |t _] using type_rect'; intros s v b K F E H;
    try (destruct (known_single _ (Forall_inv K) (Forall_inv F)) as [s' [E' X]]; pose proof (eq_trans (eq_sym E) E') as Y; injection Y as <-; exact (X b v H)).
  - injection E as <-. exact (False_ind _ (no_never b v H)).
  - cbn [split_truthy_and_falsey] in E. cbv zeta in E. destruct (existsb _ _); [|discriminate E]. injection E as <-.
    apply (proj1 (has_sides _ (fun r => either (snd r) (fst r)) _ nothing b v)) in H as [H|[r [R1 R2]]]; [exact (False_ind _ (no_never b v H))|].
    apply in_map_iff in R1 as [t [<- T1]]. cbn [fst snd] in R2. unfold either, or_else in R2.
    rewrite Forall_forall in IH. assert (F' : forall P, Forall P (leaves (Union ts)) -> Forall P (leaves t)).
    { intros P X. apply Forall_forall. intros u U. rewrite Forall_forall in X. apply X. cbn [leaves]. apply in_flat_map. now exists t. }
    destruct (split t) as [s|] eqn:E; [exact (IH t T1 s v b (F' _ K) (F' _ F) E R2)|].
    exfalso. apply (known_splits t v (F' _ K) (F' _ F) E). destruct b; exact R2.
Qed.
(** ** [x or y] and [x and y] *)
Section InferredInd.
Variable P : inferred -> Prop.
Hypothesis Hsimple : forall t b, P (Simple t b).
Hypothesis Hone : forall l, Forall P l -> P (OneOf l).
Fixpoint inferred_rect' (i : inferred) : P i :=
  match i with
  | Simple t b => Hsimple t b
  | OneOf l => Hone l ((fix all (l : list inferred) : Forall P l := match l with [] => Forall_nil P | i :: l => Forall_cons i (inferred_rect' i) (all l) end) l)
  end.
End InferredInd.

Variable simplified_union_of : list type -> type.
Notation as_type := (as_type simplified_union_of).
Notation split_inferred := (split_inferred p is_final returned_by enum_returned_by named_tuple empty simplified_union_of).
Notation describes := (describes w env bool_of len_of).

(** The parts whose truth is asked *)
Fixpoint asked (i : inferred) : list type :=
  match i with
  | Simple t None => leaves t
  | Simple t (Some _) => []
  | OneOf l => flat_map asked l
  end.

Definition union_law : Prop := forall ts v, has (simplified_union_of ts) v <-> exists t, In t ts /\ has t v.

Lemma describes_one : forall l v, describes (OneOf l) v <-> exists i, In i l /\ describes i v.
Proof.
  intros l v. cbn [NarrowTruthSpec.describes]. rewrite Exists_exists. split.
  - intros [q [Q1 Q2]]. apply in_map_iff in Q1 as [i [<- Q1]]. now exists i.
  - intros [i [I1 I2]]. exists (describes i). split; [now apply in_map|exact I2].
Qed.

Lemma described_type : union_law -> forall i v, describes i v -> has (as_type i) v.
Proof.
  intros U i. induction i as [t b|l IH] using inferred_rect'; intros v H.
  - destruct b; [exact (proj1 H)|exact H].
  - apply describes_one in H as [i [I1 I2]]. cbn [NarrowIsModel.as_type]. apply U. exists (as_type i). split; [now apply in_map|].
    rewrite Forall_forall in IH. exact (IH i I1 v I2).
Qed.

Theorem inferred_sound : union_law -> forall i s v, Forall leaf_suits (asked i) -> split_inferred i = Some s -> describes i v -> has (side s (truth v)) v.
Proof.
  intros U i. induction i as [t b|l IH] using inferred_rect'; intros s v F E H.
  - destruct b as [[]|].
    + injection E as <-. destruct H as [H ->]. exact H.
    + injection E as <-. destruct H as [H ->]. exact H.
    + exact (truth_sound t s v F E H).
  - cbn [NarrowIsModel.split_inferred] in E. injection E as <-. apply describes_one in H as [i [I1 I2]].
    apply (proj2 (has_sides _ (fun r => either (snd r) (as_type (fst r))) _ nothing (truth v) v)). right.
    exists (i, split_inferred i). split; [exact (in_map (fun i => (i, split_inferred i)) l i I1)|]. cbn [fst snd]. unfold either, or_else.
    rewrite Forall_forall in IH. assert (F' : Forall leaf_suits (asked i)).
    { apply Forall_forall. intros u X. rewrite Forall_forall in F. apply F. cbn [asked]. apply in_flat_map. now exists i. }
    destruct (split_inferred i) as [s|] eqn:E; [exact (IH i I1 s v F' E I2)|]. pose proof (described_type U i v I2) as T. destruct (truth v); exact T.
Qed.

Theorem inferred_within : union_law -> forall i s v b, Forall plain_builtin (asked i) -> split_inferred i = Some s -> has (side s b) v -> has (as_type i) v.
Proof.
  intros U i. induction i as [t b|l IH] using inferred_rect'; intros s v c F E H.
  - destruct b as [[]|]; [injection E as <-; destruct c; [exact H|contradiction H]|injection E as <-; destruct c; [contradiction H|exact H]|].
    exact (truth_within t s v c F E H).
  - cbn [NarrowIsModel.split_inferred] in E. injection E as <-.
    apply (proj1 (has_sides _ (fun r => either (snd r) (as_type (fst r))) _ nothing c v)) in H as [H|[r [R1 R2]]]; [exact (False_ind _ (no_never c v H))|].
    apply in_map_iff in R1 as [i [<- I1]]. cbn [fst snd] in R2. cbn [NarrowIsModel.as_type]. apply U. exists (as_type i). split; [now apply in_map|]. unfold either, or_else in R2.
    rewrite Forall_forall in IH. assert (F' : Forall plain_builtin (asked i)).
    { apply Forall_forall. intros u X. rewrite Forall_forall in F. apply F. cbn [asked]. apply in_flat_map. now exists i. }
    destruct (split_inferred i) as [s|] eqn:E; [exact (IH i I1 s v c F' E R2)|]. destruct c; exact R2.
Qed.

Lemma as_type_combine : union_law -> forall i j v, has (as_type (combine i j)) v <-> has (as_type i) v \/ has (as_type j) v.
Proof.
  intros U i j v. unfold combine.
  assert (O : forall l, has (as_type (OneOf l)) v <-> exists k, In k l /\ has (as_type k) v).
  { intros l. cbn [NarrowIsModel.as_type]. rewrite (U (map as_type l) v). split.
    - intros [t [T1 T2]]. apply in_map_iff in T1 as [k [<- T1]]. now exists k.
    - intros [k [K1 K2]]. exists (as_type k). split; [now apply in_map|exact K2]. }
  assert (R : (exists k, In k (match j with OneOf l => l | _ => [j] end) /\ has (as_type k) v) <-> has (as_type j) v).
  { destruct j as [t b|l]; [|symmetry; apply O]. split; [intros [k [[<-|[]] H]]; exact H|]. intros H. eexists. split; [now left|exact H]. }
  destruct i as [t b|l].
  - rewrite O. rewrite <- R. split.
    + intros [k [[<-|K] H]]; [now left|right; now exists k].
    + intros [H|[k [K H]]]; [exists (Simple t b); split; [now left|exact H]|exists k; split; [now right|exact H]].
  - rewrite O, (O l). rewrite <- R. split.
    + intros [k [K H]]. apply in_app_or in K as [K|K]; [left|right]; now exists k.
    + intros [[k [K H]]|[k [K H]]]; exists k; (split; [apply in_or_app; auto|exact H]).
Qed.

Lemma describes_combine : forall i j v, describes (combine i j) v <-> describes i v \/ describes j v.
Proof.
  intros i j v. unfold combine.
  assert (R : (exists k, In k (match j with OneOf l => l | _ => [j] end) /\ describes k v) <-> describes j v).
  { destruct j as [t b|l]; [|symmetry; apply describes_one]. split; [intros [k [[<-|[]] H]]; exact H|]. intros H. eexists. split; [now left|exact H]. }
  destruct i as [t b|l].
  - rewrite describes_one. rewrite <- R. split.
    + intros [k [[<-|K] H]]; [now left|right; now exists k].
    + intros [H|[k [K H]]]; [exists (Simple t b); split; [now left|exact H]|exists k; split; [now right|exact H]].
  - rewrite describes_one, (describes_one l). rewrite <- R. split.
    + intros [k [K H]]. apply in_app_or in K as [K|K]; [left|right]; now exists k.
    + intros [[k [K H]]|[k [K H]]]; exists k; (split; [apply in_or_app; auto|exact H]).
Qed.
End Truth.
