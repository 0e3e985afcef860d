(** C59: what a comparison of [len(x)] tells about [x] *)
From Coq Require Import List NArith ZArith Bool Lia Permutation Sorted.
From Verif Require Import TupleModel TupleSpec SubtypeModel SubtypeSpec NarrowModel NarrowSpec NarrowProofs NarrowLen.
Import ListNotations.
Open Scope N_scope.

(** Every value of the type of [x] is in the type that is shown where it can come: with [len(x) op n] in the first branch,
    without in the other one. *)
Theorem C59_sound : forall (V : Type) (w : world V) env named_tuple len_of, measured w named_tuple len_of ->
  forall right op n t truthy falsey, narrow_len_comparison named_tuple right op n t = Narrowed truthy falsey ->
  keeps w env t (fun v => len_test right op n (Z.of_N (len_of v))) truthy falsey.
Proof.
  intros V w env named len_of M right op n t truthy falsey E v H. rewrite comparison_kind in E. unfold narrow_len in E.
  destruct (Z.ltb_spec n 0) as [Z|Z]; [destruct (snd (kind_of_comparison right op)); discriminate|]. rewrite (test_kind len_of right op n v Z).
  destruct (narrow_len_side named (Z.to_N n) (fst (kind_of_comparison right op)) false t) as [a|] eqn:A; [|destruct (snd (kind_of_comparison right op)); discriminate].
  destruct (narrow_len_side named (Z.to_N n) (fst (kind_of_comparison right op)) true t) as [b|] eqn:B; [|destruct (snd (kind_of_comparison right op)); discriminate].
  destruct (side_narrowed w env named len_of M _ _ _ _ _ A) as [A1 _]. destruct (side_narrowed w env named len_of M _ _ _ _ _ B) as [B1 _].
  destruct (passes len_of (fst (kind_of_comparison right op)) (Z.to_N n) v) eqn:P; destruct (snd (kind_of_comparison right op)); cbn [swap] in E; injection E as <- <-; cbn [xorb]; auto.
Qed.

(** Nothing is shown that [x] cannot be. *)
Theorem C59_within : forall (V : Type) (w : world V) env named_tuple len_of, measured w named_tuple len_of ->
  forall right op n t truthy falsey, narrow_len_comparison named_tuple right op n t = Narrowed truthy falsey ->
  forall v, has w env truthy v \/ has w env falsey v -> has w env t v.
Proof.
  intros V w env named len_of M right op n t truthy falsey E v. rewrite comparison_kind in E. unfold narrow_len in E.
  destruct (n <? 0)%Z; [destruct (snd (kind_of_comparison right op)); discriminate|].
  destruct (narrow_len_side named (Z.to_N n) (fst (kind_of_comparison right op)) false t) as [a|] eqn:A; [|destruct (snd (kind_of_comparison right op)); discriminate].
  destruct (narrow_len_side named (Z.to_N n) (fst (kind_of_comparison right op)) true t) as [b|] eqn:B; [|destruct (snd (kind_of_comparison right op)); discriminate].
  destruct (side_narrowed w env named len_of M _ _ _ _ _ A) as [_ [A1 _]]. destruct (side_narrowed w env named len_of M _ _ _ _ _ B) as [_ [B1 _]].
  destruct (snd (kind_of_comparison right op)); cbn [swap] in E; injection E as <- <-; intros [H|H]; auto.
Qed.

(** The types with a length that is known from the type: tuples, but not of a TypeVarTuple, and named tuples *)
Definition countable (named_tuple : N -> option N) (t : type) : Prop :=
  match t with
  | Tuple (WithUnpack (mk_unpack _ (TypeVarTuple _) _)) => False
  | Tuple _ => True
  | Class c _ => named_tuple c <> None
  | _ => False
  end.

Definition is_ordering (op : operator) : bool := match op with OpEq | OpNe => false | _ => true end.

(** With a small number and [<], [>], [<=] or [>=] it is exactly the values that can come there. *)
Theorem C59_exact : forall (V : Type) (w : world V) env named_tuple len_of, measured w named_tuple len_of ->
  forall right op n t truthy falsey, narrow_len_comparison named_tuple right op n t = Narrowed truthy falsey ->
  Forall (countable named_tuple) (parts t) -> is_ordering op = true -> (n <= 7)%Z ->
  exactly w env t (fun v => len_test right op n (Z.of_N (len_of v))) truthy /\
  exactly w env t (fun v => negb (len_test right op n (Z.of_N (len_of v)))) falsey.
Proof.
  intros V w env named len_of M right op n t truthy falsey E C O S. rewrite comparison_kind in E. unfold narrow_len in E.
  assert (Plain : snd (kind_of_comparison right op) = false) by (destruct op; discriminate || reflexivity). rewrite Plain in E.
  assert (NotEq : fst (kind_of_comparison right op) <> Equals) by (destruct right, op; discriminate).
  destruct (Z.ltb_spec n 0) as [Z|Z]; [discriminate|].
  destruct (narrow_len_side named (Z.to_N n) (fst (kind_of_comparison right op)) false t) as [a|] eqn:A; [|discriminate].
  destruct (narrow_len_side named (Z.to_N n) (fst (kind_of_comparison right op)) true t) as [b|] eqn:B; [|discriminate].
  injection E as <- <-.
  assert (P : forall negative, Forall (precise_part named (Z.to_N n) (fst (kind_of_comparison right op)) negative) (parts t)).
  { intros negative. apply (Forall_impl _ (P := countable named)); [|exact C]. intros [| | |c gs| | | |[ts|u|[l [m|u] r]]| | | | | | |] H; cbn [countable precise_part precise] in *; try exact H.
    - split; [lia|congruence].
    - split; [lia|congruence]. }
  destruct (side_narrowed w env named len_of M _ _ _ _ _ A) as [_ [_ A1]]. destruct (side_narrowed w env named len_of M _ _ _ _ _ B) as [_ [_ B1]].
  split; intros v; rewrite (test_kind len_of right op n v Z), Plain, xorb_false_l.
  - exact (A1 (P false) v).
  - rewrite (B1 (P true) v). cbn [negb]. now rewrite negb_true_iff.
Qed.

(** With [==], the branch where the length is [n] is exact, and the other one is where no tuple has a variable length. *)
Theorem C59_equal : forall (V : Type) (w : world V) env named_tuple len_of, measured w named_tuple len_of ->
  forall right n t truthy falsey, narrow_len_comparison named_tuple right OpEq n t = Narrowed truthy falsey ->
  Forall (countable named_tuple) (parts t) -> (n <= 7)%Z ->
  exactly w env t (fun v => (Z.of_N (len_of v) =? n)%Z) truthy /\
  ((forall a, In (Tuple a) (parts t) -> exists ts, a = FixedLen ts) -> exactly w env t (fun v => negb (Z.of_N (len_of v) =? n)%Z) falsey).
Proof.
  intros V w env named len_of M right n t truthy falsey E C S. cbn [narrow_len_comparison] in E. unfold narrow_len in E.
  destruct (Z.ltb_spec n 0) as [Z|Z]; [discriminate|].
  destruct (narrow_len_side named (Z.to_N n) Equals false t) as [a|] eqn:A; [|discriminate].
  destruct (narrow_len_side named (Z.to_N n) Equals true t) as [b|] eqn:B; [|discriminate].
  injection E as <- <-.
  destruct (side_narrowed w env named len_of M _ _ _ _ _ A) as [_ [_ A1]]. destruct (side_narrowed w env named len_of M _ _ _ _ _ B) as [_ [_ B1]].
  assert (Test : forall v, (Z.of_N (len_of v) =? n)%Z = passes len_of Equals (Z.to_N n) v).
  { intros v. rewrite passes_compared, Z2N.id by exact Z. reflexivity. }
  split.
  - intros v. rewrite Test. apply A1. apply (Forall_impl _ (P := countable named)); [|exact C].
    intros [| | |c gs| | | |[ts|u|[l [m|u] r]]| | | | | | |] H; cbn [countable precise_part precise] in *; try exact H; (split; [lia|reflexivity]).
  - intros F v. rewrite Test, negb_true_iff. apply B1. rewrite Forall_forall in *. intros u Hu. specialize (C u Hu).
    destruct u as [| | |c gs| | | |[ts|u|[l [m|u] r]]| | | | | | |]; cbn [countable precise_part precise] in *; try exact C; try exact Logic.I.
    + destruct (F _ Hu). discriminate.
    + destruct (F _ Hu). discriminate.
Qed.

(** A comparison of [len(x)] with an int literal that is not negative narrows, or there is no answer at all: exactly where a tuple
    with [*tuple[T, ...]] has more other items than the number it is compared with, and that number is not above 8. *)
Theorem C59_crashes : forall named_tuple right op n t,
  narrow_len_comparison named_tuple right op n t = Crashed <->
  (0 <= n)%Z /\ is_ordering op = true /\
  exists b u a, In (Tuple (WithUnpack (mk_unpack b (Many u) a))) (parts t) /\
    let least := if match op with OpGt => negb right | OpLt => right | OpLe => negb right | _ => right end then (n + 1)%Z else n in
    (least < Z.of_nat (length b + length a) /\ least <= 8)%Z.
Proof.
  intros named right op n t. rewrite comparison_kind.
  assert (S : forall r, (if snd (kind_of_comparison right op) then swap else fun x => x) r = Crashed <-> r = Crashed).
  { intros r. destruct (snd _), r; cbn [swap]; split; congruence. }
  rewrite S, narrow_len_crash. split.
  - intros [H1 [u [H2 H3]]]. split; [exact H1|]. destruct u as [| | |c gs| | | |[ts|u|[b [m|u] a]]| | | | | | |]; try contradiction.
    cbn [stuck_tuple] in H3. destruct H3 as [H3 [H4 H5]]. split; [now destruct op|]. exists b, u, a. split; [exact H2|].
    unfold len in *. destruct right, op; cbn [kind_of_comparison fst bound negb] in *; try congruence; lia.
  - intros [H1 [H2 [b [u [a [H3 H4]]]]]]. split; [exact H1|]. exists (Tuple (WithUnpack (mk_unpack b (Many u) a))). split; [exact H3|].
    cbn [stuck_tuple]. unfold len. split; [destruct right, op; discriminate|]. destruct right, op; cbn [kind_of_comparison fst bound negb] in *; try discriminate; lia.
Qed.

Theorem C59_narrows : forall named_tuple right op n t, (0 <= n)%Z -> narrow_len_comparison named_tuple right op n t <> NotNarrowed.
Proof.
  intros named right op n t H. rewrite comparison_kind. unfold narrow_len. destruct (Z.ltb_spec n 0); [lia|].
  destruct (narrow_len_side named (Z.to_N n) (fst (kind_of_comparison right op)) false t), (narrow_len_side named (Z.to_N n) (fst (kind_of_comparison right op)) true t); destruct (snd (kind_of_comparison right op)); discriminate.
Qed.

(** ** Examples *)
Inductive value := VInt | VStr | VNone | VTuple (l : list value).

Definition int : type := Class 1 [].
Definition str : type := Class 2 [].

Definition small : world value := mk_world value
  (fun c _ v => match v with VInt => c = 1 \/ c = 0 | VStr => c = 2 \/ c = 0 | _ => c = 0 end)
  (fun _ _ => False) (fun v => v = VNone) (fun _ => False)
  (fun v l => v = VTuple l) (fun _ _ => False) (fun _ _ _ => False) (fun _ _ => False) (fun _ _ => False).

Definition nothing_named (c : N) : option N := None.
Definition length_of (v : value) : N := match v with VTuple l => N.of_nat (length l) | _ => 0 end.

Lemma small_measured : measured small nothing_named length_of.
Proof. split; [intros v vs ->; reflexivity|discriminate]. Qed.

(** [x: tuple[int, ...] | None] and [len(x) > 1] *)
Example C59_greater : narrow_len_comparison nothing_named false OpGt 1 (Union [Tuple (ArbitraryLen int); NoneType]) =
  Narrowed (Union [of_variable_len [int; int] int []; NoneType])
           (Union [of_fixed_len []; of_fixed_len [int]; NoneType]).
Proof. reflexivity. Qed.

(** [x: tuple[int, *tuple[str, ...]]] and [3 >= len(x)] *)
Example C59_unpack : narrow_len_comparison nothing_named true OpGe 3 (of_variable_len [int] str []) =
  Narrowed (Union [of_fixed_len [int]; of_fixed_len [int; str]; of_fixed_len [int; str; str]]) (of_variable_len [int; str; str; str] str []).
Proof. reflexivity. Qed.

Example C59_value : forall v, has small (fun _ _ => False) (of_variable_len [int] str []) v -> length_of v <= 3 ->
  has small (fun _ _ => False) (Union [of_fixed_len [int]; of_fixed_len [int; str]; of_fixed_len [int; str; str]]) v.
Proof.
  intros v H1 H2. pose proof (C59_sound value small (fun _ _ => False) _ _ small_measured true OpGe 3%Z _ _ _ C59_unpack v H1) as H.
  cbn [len_test compared] in H. rewrite Z.geb_leb in H. destruct (Z.leb_spec (Z.of_N (length_of v)) 3); [exact H|lia].
Qed.

(** [x: tuple[int, str, *tuple[int, ...]]] and [len(x) >= 1]: always true, and there is no answer *)
Theorem C59_answered_refuted : ~ forall named_tuple right op n t, narrow_len_comparison named_tuple right op n t <> Crashed.
Proof. intros H. exact (H nothing_named false OpGe 1%Z (of_variable_len [int; str] int []) eq_refl). Qed.

(** ... and [if len(x) < 1] *)
Example C59_lower_crashes : narrow_len_comparison nothing_named false OpLt 1 (of_variable_len [int; str] int []) = Crashed.
Proof. reflexivity. Qed.

(** But not [len(x) == 1] *)
Example C59_equal_unreachable : narrow_len_comparison nothing_named false OpEq 1 (of_variable_len [int; str] int []) =
  Narrowed Never (of_variable_len [int; str] int []).
Proof. reflexivity. Qed.

(** ** The order in which a union is shown *)
Definition shown_first (t : type) : Prop := match t with Literal _ | EnumMember _ _ => True | _ => False end.
Definition shown_last (t : type) : Prop := match t with NoneType | TypeVar _ | Any => True | _ => False end.

(** Literals come first, None late, type variables behind it, and Any at the end. *)
Definition comes_before (t u : type) : Prop :=
  shown_first t /\ ~ shown_first u \/ ~ shown_last t /\ shown_last u \/
  match t, u with NoneType, (TypeVar _ | Any) | TypeVar _, Any => True | _, _ => False end.

Definition well_ordered (ts : list type) : Prop := StronglySorted (fun t u => ~ comes_before u t) ts.

Lemma before_priority : forall t u, comes_before t u -> priority t < priority u.
Proof.
  intros t u [[H1 H2]|[[H1 H2]|H]].
  - assert (P : priority t = 0) by (destruct t; try contradiction H1; reflexivity). rewrite P.
    destruct u; try (exfalso; exact (H2 Logic.I)); cbn [priority]; try reflexivity; destruct (has_type_vars _); reflexivity.
  - assert (P : priority t <= 2) by (destruct t; try (exfalso; exact (H1 Logic.I)); cbn [priority]; try destruct (has_type_vars _); lia).
    destruct u; try contradiction H2; cbn [priority]; lia.
  - destruct t; try contradiction H; destruct u; try contradiction H; reflexivity.
Qed.

Lemma sorted_insert : forall t ts, StronglySorted (fun t u => priority t <= priority u) ts -> StronglySorted (fun t u => priority t <= priority u) (insert t ts).
Proof.
  intros t ts. induction ts as [|u ts IH]; intros H; cbn [insert]; [constructor; constructor|]. inversion H as [|a l H1 H2]; subst.
  destruct (N.leb_spec (priority t) (priority u)) as [L|L].
  - constructor; [exact H|]. constructor; [exact L|]. eapply Forall_impl; [|exact H2]. cbn beta. intros x. lia.
  - constructor; [exact (IH H1)|]. apply Forall_forall. intros x X. apply (Permutation_in _ (insert_perm t ts)) in X as [<-|X]; [lia|].
    rewrite Forall_forall in H2. exact (H2 x X).
Qed.

Lemma sorted_sort : forall ts, well_ordered (sort_for_priority ts).
Proof.
  intros ts. assert (S : StronglySorted (fun t u => priority t <= priority u) (sort_for_priority ts)).
  { induction ts as [|t ts IH]; cbn [sort_for_priority]; [constructor|exact (sorted_insert t _ IH)]. }
  unfold well_ordered. induction S as [|t l H1 IH H2]; constructor; [exact IH|]. eapply Forall_impl; [|exact H2]. cbn beta. intros u L B.
  apply before_priority in B. lia.
Qed.

Lemma ordered_one : forall t, well_ordered [t].
Proof. intros t. constructor; constructor. Qed.

(** Unions stay in order when they are built and when parts are taken away. *)
Theorem C59_order : forall t u keep, well_ordered (parts u) -> (forall x us, In x (parts u) -> x <> Union us) -> well_ordered (parts (join t u)) /\ well_ordered (parts (retain_in_union keep u)).
Proof.
  intros t u keep U Flat. split.
  - assert (P : t <> Never -> well_ordered (parts (match u with
      | Union us => if mem t us then Union us else Union (sort_for_priority (us ++ [t]))
      | _ => if same t u || is_never u then t else Union (sort_for_priority [t; u]) end)) \/ exists ts, t = Union ts).
    { intros N. destruct (parts t) as [|x [|y l]] eqn:E.
      - destruct t; try discriminate E; [contradiction|]. right. eexists. reflexivity.
      - left. assert (W : well_ordered (parts t)) by (rewrite E; apply ordered_one).
        destruct u; try (destruct (same t _ || is_never _); [exact W|apply sorted_sort]). destruct (mem t ts); [exact U|apply sorted_sort].
      - destruct t; try discriminate E. right. eexists. reflexivity. }
    destruct t; try (match type of P with ?A -> _ => assert (N : A) by discriminate end; destruct (P N) as [Q|[ts' X]]; [exact Q|discriminate X]); [exact U|apply sorted_sort].
  - assert (One : parts u = [u] -> well_ordered (parts (if keep u then u else Never))) by (intros X; destruct (keep u); [rewrite X; apply ordered_one|constructor]).
    destruct u; try (exact (One eq_refl)); [constructor|]. cbn [retain_in_union]. destruct (filter keep ts) as [|x [|y l]] eqn:E; cbn [from_union_entries]; [constructor| |apply sorted_sort].
    assert (X : In x ts) by (assert (Y : In x (filter keep ts)) by (rewrite E; now left); now apply filter_In in Y).
    destruct x; try apply ordered_one; [constructor|]. exfalso. exact (Flat _ ts0 X eq_refl).
Qed.

Example C59_order_shown : parts (join (Union [NoneType; Any]) (Literal (LInt 1 false))) = [Literal (LInt 1 false); NoneType; Any].
Proof. reflexivity. Qed.

Print Assumptions C59_sound.
Print Assumptions C59_order.
Print Assumptions C59_within.
Print Assumptions C59_exact.
Print Assumptions C59_equal.
Print Assumptions C59_crashes.
Print Assumptions C59_narrows.
Print Assumptions C59_answered_refuted.
