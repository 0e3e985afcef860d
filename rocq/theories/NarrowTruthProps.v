(** C61: what [if x:], [x or y] and [x and y] tell about [x] *)
From Coq Require Import List NArith ZArith Bool Lia.
From Verif Require Import TupleModel TupleSpec SubtypeModel SubtypeSpec NarrowModel NarrowSpec NarrowProofs NarrowIsModel NarrowTruthSpec NarrowTruth.
Import ListNotations.
Open Scope N_scope.

Section Properties.
Context {V : Type}.
Variables (w : world V) (env : N -> V -> Prop).
Notation has := (has w env).
Variables (bool_of : V -> option bool) (len_of : V -> option N).
Notation truth := (truth bool_of len_of).
Variables (p : program) (is_final : N -> bool) (returned_by enum_returned_by : N -> bool -> returned) (named_tuple : N -> option N) (empty : N).
Notation split := (split_truthy_and_falsey p is_final returned_by enum_returned_by named_tuple empty).
Notation leaf_suits := (leaf_suits w env bool_of len_of p is_final returned_by enum_returned_by named_tuple empty).
Notation truth_laws := (truth_laws w bool_of len_of p empty).

(** In both branches, [x] has a type that has its value. *)
Theorem C61_sound : forall t truthy falsey, truth_laws -> Forall leaf_suits (leaves t) -> split t = Some (truthy, falsey) -> keeps w env t truth truthy falsey.
Proof.
  intros t truthy falsey L F E v H. exact (truth_sound w env bool_of len_of p is_final returned_by enum_returned_by named_tuple empty L t _ v F E H).
Qed.

(** No value is possible in a branch that [x] did not have before. *)
Theorem C61_within : forall t truthy falsey v, truth_laws -> Forall (plain_builtin p) (leaves t) -> split t = Some (truthy, falsey) -> has truthy v \/ has falsey v -> has t v.
Proof.
  intros t truthy falsey v L F E [H|H].
  - exact (truth_within w env bool_of len_of p is_final returned_by enum_returned_by named_tuple empty L t _ v true F E H).
  - exact (truth_within w env bool_of len_of p is_final returned_by enum_returned_by named_tuple empty L t _ v false F E H).
Qed.

(** Both branches have exactly the values that get there, where the truth of all parts is known (None, bool, literals of numbers, [tuple[T, ...]], enums). *)
Theorem C61_exact : forall t truthy falsey, truth_laws -> Forall leaf_suits (leaves t) -> Forall (plain_builtin p) (leaves t) -> Forall (known p enum_returned_by) (leaves t) ->
  split t = Some (truthy, falsey) -> exactly w env t truth truthy /\ exactly w env t (fun v => negb (truth v)) falsey.
Proof.
  intros t truthy falsey L F B K E. split; intros v; split.
  - intros H. split; [exact (C61_within t _ _ v L B E (or_introl H))|].
    exact (truth_known w env bool_of len_of p is_final returned_by enum_returned_by named_tuple empty L t _ v true K F E H).
  - intros [H T]. pose proof (C61_sound t _ _ L F E v H) as X. now rewrite T in X.
  - intros H. split; [exact (C61_within t _ _ v L B E (or_intror H))|].
    apply negb_true_iff. exact (truth_known w env bool_of len_of p is_final returned_by enum_returned_by named_tuple empty L t _ v false K F E H).
  - intros [H T]. apply negb_true_iff in T. pose proof (C61_sound t _ _ L F E v H) as X. now rewrite T in X.
Qed.

(** ** [x or y] and [x and y] *)
Variable simplified_union_of : list type -> type.
Notation as_type := (as_type simplified_union_of).
Notation or := (check_disjunction p is_final returned_by enum_returned_by named_tuple empty simplified_union_of).
Notation and := (check_conjunction p is_final returned_by enum_returned_by named_tuple empty simplified_union_of).
Notation describes := (describes w env bool_of len_of).
Notation union_law := (union_law w env simplified_union_of).

(** [x or y] is [x] if that is true, otherwise [y]; and [y] is only looked at by the checker if [x] may be false.  What is known about the value afterwards is true
    of it. *)
Theorem C61_or : forall left right v u, truth_laws -> union_law -> Forall leaf_suits (asked left) -> describes left v ->
  (truth v = false -> exists j, right = Some j /\ describes j u) ->
  describes (or left right) (if truth v then v else u) /\ has (as_type (or left right)) (if truth v then v else u).
Proof.
  intros left right v u L U F H R.
  assert (D : describes (or left right) (if truth v then v else u)); [|split; [exact D|exact (described_type w env bool_of len_of simplified_union_of U _ _ D)]].
  unfold check_disjunction. destruct right as [j|].
  - apply describes_combine. destruct (truth v) eqn:T.
    + left. split; [|exact T]. destruct (split_inferred _ _ _ _ _ _ _ left) as [[tr fa]|] eqn:E.
      * pose proof (inferred_sound w env bool_of len_of p is_final returned_by enum_returned_by named_tuple empty L simplified_union_of U left _ v F E H) as X. now rewrite T in X.
      * exact (described_type w env bool_of len_of simplified_union_of U left v H).
    + right. destruct (R eq_refl) as [j' [Ej Hj]]. injection Ej as ->. exact Hj.
  - destruct (truth v); [exact H|]. destruct (R eq_refl) as [j' [Ej _]]. discriminate Ej.
Qed.

Theorem C61_and : forall left right v u, truth_laws -> union_law -> Forall leaf_suits (asked left) -> describes left v ->
  (truth v = true -> exists j, right = Some j /\ describes j u) ->
  describes (and left right) (if truth v then u else v) /\ has (as_type (and left right)) (if truth v then u else v).
Proof.
  intros left right v u L U F H R.
  assert (D : describes (and left right) (if truth v then u else v)); [|split; [exact D|exact (described_type w env bool_of len_of simplified_union_of U _ _ D)]].
  unfold check_conjunction. destruct right as [j|].
  - apply describes_combine. destruct (truth v) eqn:T.
    + right. destruct (R eq_refl) as [j' [Ej Hj]]. injection Ej as ->. exact Hj.
    + left. split; [|exact T]. destruct (split_inferred _ _ _ _ _ _ _ left) as [[tr fa]|] eqn:E.
      * pose proof (inferred_sound w env bool_of len_of p is_final returned_by enum_returned_by named_tuple empty L simplified_union_of U left _ v F E H) as X. now rewrite T in X.
      * exact (described_type w env bool_of len_of simplified_union_of U left v H).
  - destruct (truth v); [|exact H]. destruct (R eq_refl) as [j' [Ej _]]. discriminate Ej.
Qed.

(** The type of [x or y] and [x and y] has no other values than [x] and [y] have. *)
Theorem C61_operands : forall left right v, truth_laws -> union_law -> Forall (plain_builtin p) (asked left) ->
  has (as_type (or left (Some right))) v \/ has (as_type (and left (Some right))) v -> has (as_type left) v \/ has (as_type right) v.
Proof.
  intros x y v L U B [H|H].
  - unfold check_disjunction in H. apply (as_type_combine w env simplified_union_of U) in H as [H|H]; [|now right]. left. cbn [NarrowIsModel.as_type] in H.
    destruct (split_inferred _ _ _ _ _ _ _ x) as [[tr fa]|] eqn:E; [|exact H].
    exact (inferred_within w env bool_of len_of p is_final returned_by enum_returned_by named_tuple empty L simplified_union_of U x _ v true B E H).
  - unfold check_conjunction in H. apply (as_type_combine w env simplified_union_of U) in H as [H|H]; [|now right]. left. cbn [NarrowIsModel.as_type] in H.
    destruct (split_inferred _ _ _ _ _ _ _ x) as [[tr fa]|] eqn:E; [|exact H].
    exact (inferred_within w env bool_of len_of p is_final returned_by enum_returned_by named_tuple empty L simplified_union_of U x _ v false B E H).
Qed.

(** ... and exactly these, where the truth of all parts of [x] is known. *)
Theorem C61_operands_exact : forall t right v, truth_laws -> union_law -> Forall leaf_suits (leaves t) -> Forall (plain_builtin p) (leaves t) -> Forall (known p enum_returned_by) (leaves t) ->
  (has (as_type (or (Simple t None) (Some right))) v <-> has t v /\ truth v = true \/ has (as_type right) v) /\
  (has (as_type (and (Simple t None) (Some right))) v <-> has t v /\ truth v = false \/ has (as_type right) v).
Proof.
  intros t right v L U F B K. unfold check_disjunction, check_conjunction. rewrite !(as_type_combine w env simplified_union_of U). cbn [split_inferred NarrowIsModel.as_type].
  destruct (split t) as [[tr fa]|] eqn:E.
  - destruct (C61_exact t tr fa L F B K E) as [X Y]. rewrite (X v), (Y v), negb_true_iff. split; reflexivity.
  - pose proof (known_splits w env bool_of len_of p is_final returned_by enum_returned_by named_tuple empty L t v K F E) as N. split; tauto.
Qed.
End Properties.

(** ** Values of Python *)
(** The classes: [class MyInt(int)] is 8, a class with [def __len__(self) -> Literal[1]] is 20 and 21 is a subclass with a [__bool__] of its own, a named tuple with two fields is 22
    and 23 is a subclass with a [__bool__] of its own, [@final class F] is 24, a class with [def __bool__(self) -> Literal[False]] is 25.  The enums: 0 has no methods, for 1 [__bool__] returns
    [Literal[False]].  The text 0 is empty. *)
Inductive tv := TNone | TBool (b : bool) | TInt (n : N) | TMyInt (n : N) | TStr (s : N) | TTuple (vs : list tv) | TObject (c : N) | TMember (e m : N).

Definition bool_of_tv (v : tv) : option bool :=
  match v with
  | TNone => Some false
  | TBool b => Some b
  | TInt n | TMyInt n => Some (negb (n =? 0))
  | TObject 21 | TObject 23 | TObject 25 | TMember 1 _ => Some false
  | _ => None
  end.
Definition len_of_tv (v : tv) : option N :=
  match v with
  | TStr s => Some s
  | TTuple vs => Some (N.of_nat (length vs))
  | TObject 20 | TObject 21 => Some 1
  | TObject 22 | TObject 23 => Some 2
  | _ => None
  end.

Definition tv_program : program := {|
  object := 0; bool_class := 2; int_class := 1; str_class := 3; bytes_class := 4; tuple_class := 5; bare_type := 6; generic_alias := 7;
  variances := fun _ => []; bases := fun _ => []; metaclass := fun _ => NoMetaclass; is_metaclass := fun _ => false; incomplete := fun _ => false;
  promote_to := fun _ => None; is_protocol := fun _ => false; check_protocol := fun _ _ _ => Yes; enum_class := fun e => 15 + e; newtype_type := fun _ => Class 1 [];
  kind_of := fun _ => Unrestricted; entries := fun _ => Class 0 []; same_union := fun _ _ => false
|}.
Definition tv_instance (c : N) (v : tv) : Prop :=
  match c, v with
  | 0, _ => True
  | 1, (TInt _ | TBool _ | TMyInt _) => True
  | 2, TBool _ => True
  | 3, TStr _ => True
  | 8, TMyInt _ => True
  | 20, (TObject 20 | TObject 21) => True
  | 22, (TObject 22 | TObject 23) => True
  | 24, TObject 24 => True
  | 25, TObject 25 => True
  | _, _ => False
  end.
Definition tv_world : world tv := {|
  instance := fun c _ => tv_instance c;
  literal_value := fun l v => match l, v with LInt n false, TInt m => n = m | LBool b, TBool c => b = c | LStr s, TStr t => s = t | _, _ => False end;
  none_value := fun v => v = TNone;
  literal_text := fun _ => False;
  tuple_value := fun v vs => v = TTuple vs;
  stands_for := fun _ _ => False;
  member_value := fun e m v => v = TMember e m;
  made_by := fun _ _ => False;
  class_of := fun _ _ => False
|}.
Definition tv_env (_ : N) (_ : tv) : Prop := False.
Definition tv_final (c : N) : bool := c =? 24.
Definition tv_methods (c : N) (is_bool : bool) : returned :=
  match c, is_bool with 20, false => Always (LInt 1 false) | 22, false => Anything | 25, true => Always (LBool false) | _, _ => NoMethod end.
Definition tv_enum_methods (e : N) (is_bool : bool) : returned := match e, is_bool with 1, true => Always (LBool false) | _, _ => NoMethod end.
Definition tv_named_tuple (c : N) : option N := if c =? 22 then Some 2 else None.
Notation tv_split := (split_truthy_and_falsey tv_program tv_final tv_methods tv_enum_methods tv_named_tuple 0).
Notation tv_suits := (leaf_suits tv_world tv_env bool_of_tv len_of_tv tv_program tv_final tv_methods tv_enum_methods tv_named_tuple 0).
Notation tv_has := (has tv_world tv_env).

Lemma tv_laws : truth_laws tv_world bool_of_tv len_of_tv tv_program 0.
Proof.
  constructor.
  - intros v H. cbn in H. now subst v.
  - intros l v H. destruct l as [n []|b|s|s], v; try contradiction H; cbn in H; subst; reflexivity.
  - intros v vs H. cbn in H. subst v. destruct vs; reflexivity.
  - intros s v H. destruct v as [|[]| | | | | |]; try contradiction H; cbn; auto.
  - intros b v H. destruct v; try contradiction H. exact Logic.I.
  - intros v H. destruct v; try contradiction H. exact Logic.I.
  - intros v H. destruct v; try contradiction H. exact Logic.I.
  - intros v H. destruct v; contradiction H.
Qed.

Definition tv_bool : type := Class 2 [].
Definition tv_int : type := Class 1 [].
Definition tv_type : type := Union [tv_bool; Tuple (ArbitraryLen tv_int); EnumMember 0 1; Literal (LInt 7 false); NoneType].

Lemma tv_type_suits : Forall tv_suits (leaves tv_type) /\ Forall (plain_builtin tv_program) (leaves tv_type) /\ Forall (known tv_program tv_enum_methods) (leaves tv_type).
Proof.
  split; [|split]; repeat apply Forall_cons; try apply Forall_nil; cbn; auto.
  split; [constructor; intros; discriminate|]. split; intros _ v H; cbn in H; subst v; reflexivity.
Qed.

(** [x: bool | tuple[int, ...] | Color.GREEN | Literal[7] | None] *)
Example C61_exact_premises : exists truthy falsey, tv_split tv_type = Some (truthy, falsey) /\
  exactly tv_world tv_env tv_type (truth bool_of_tv len_of_tv) truthy /\ exactly tv_world tv_env tv_type (fun v => negb (truth bool_of_tv len_of_tv v)) falsey /\
  (exists v, tv_has truthy v) /\ (exists v, tv_has falsey v).
Proof.
  assert (X : exists truthy falsey, tv_split tv_type = Some (truthy, falsey)) by (vm_compute; do 2 eexists; reflexivity). destruct X as [truthy [falsey E]].
  exists truthy, falsey. split; [exact E|]. destruct tv_type_suits as [S [B K]].
  destruct (C61_exact tv_world tv_env bool_of_tv len_of_tv tv_program tv_final tv_methods tv_enum_methods tv_named_tuple 0 tv_type truthy falsey tv_laws S B K E) as [X Y].
  split; [exact X|]. split; [exact Y|]. split.
  - exists (TInt 7). apply X. split; [|reflexivity]. apply has_union. exists (Literal (LInt 7 false)). split; [cbn; auto|reflexivity].
  - exists TNone. apply Y. split; [|reflexivity]. apply has_union. exists NoneType. split; [cbn; auto 10|reflexivity].
Qed.

(** [x: F | Falsy] with [@final class F] and a class whose [__bool__] returns [Literal[False]] *)
Example C61_sound_premises : keeps tv_world tv_env (Union [Class 24 []; Class 25 []]) (truth bool_of_tv len_of_tv) (Class 24 []) (Class 25 []).
Proof.
  apply (C61_sound tv_world tv_env bool_of_tv len_of_tv tv_program tv_final tv_methods tv_enum_methods tv_named_tuple 0); [exact tv_laws| |reflexivity].
  assert (O : forall c v, c = 24 \/ c = 25 -> tv_has (Class c []) v -> v = TObject c).
  { intros c v [-> | ->] H; cbn in H; destruct v; try contradiction H;
      repeat (match type of H with context [match ?q with _ => _ end] => destruct q; try contradiction H; try reflexivity end). }
  repeat apply Forall_cons; [..|apply Forall_nil]; cbn [NarrowTruth.leaf_suits]; cbn [tv_program bool_class int_class str_class bytes_class N.eqb Pos.eqb].
  - split; [constructor; intros; discriminate|]. split; [discriminate|]. split.
    + intros _ _ v H. apply O in H as ->; auto.
    + intros _ _ v H. apply O in H as ->; auto.
  - split; [constructor|split; [discriminate|split]].
    + intros l v E _ H. apply O in H as ->; auto. injection E as <-. reflexivity.
    + intros; discriminate.
    + intros [H|[H|H]]; exfalso; [apply H; reflexivity|discriminate H|apply H; reflexivity].
    + discriminate.
Qed.

(** [x or y], and [x and y], where [x] is as above and [y] an int *)
Example C61_operands_premises : forall v,
  let union := fun ts => fold_left join ts Never in
  let or := check_disjunction tv_program tv_final tv_methods tv_enum_methods tv_named_tuple 0 union (Simple tv_type None) (Some (Simple tv_int None)) in
  tv_has (as_type union or) v <-> tv_has tv_type v /\ truth bool_of_tv len_of_tv v = true \/ tv_has tv_int v.
Proof.
  intros v union or. destruct tv_type_suits as [S [B K]].
  refine (proj1 (C61_operands_exact tv_world tv_env bool_of_tv len_of_tv tv_program tv_final tv_methods tv_enum_methods tv_named_tuple 0 union tv_type (Simple tv_int None) v tv_laws _ S B K)).
  intros ts u. unfold union. rewrite has_join_all. cbn [has]. split; [intros [[]|H]; exact H|now right].
Qed.

(** [None or 5] and [7 and 5] *)
Example C61_or_premises : let union := fun ts => fold_left join ts Never in
  let or := check_disjunction tv_program tv_final tv_methods tv_enum_methods tv_named_tuple 0 union (Simple tv_type None) (Some (Simple tv_int None)) in
  let and := check_conjunction tv_program tv_final tv_methods tv_enum_methods tv_named_tuple 0 union (Simple tv_type None) (Some (Simple tv_int None)) in
  tv_has (as_type union or) (TInt 5) /\ tv_has (as_type union and) (TInt 5).
Proof.
  cbv zeta. set (union := fun ts => fold_left join ts Never). destruct tv_type_suits as [S _].
  assert (U : union_law tv_world tv_env union).
  { intros ts u. unfold union. rewrite has_join_all. cbn [has]. split; [intros [[]|H]; exact H|now right]. }
  split.
  - refine (proj2 (C61_or tv_world tv_env bool_of_tv len_of_tv tv_program tv_final tv_methods tv_enum_methods tv_named_tuple 0 union (Simple tv_type None) (Some (Simple tv_int None)) TNone (TInt 5) tv_laws U S _ _)).
    + apply has_union. exists NoneType. split; [cbn; auto 10|reflexivity].
    + intros _. eexists. split; [reflexivity|exact Logic.I].
  - refine (proj2 (C61_and tv_world tv_env bool_of_tv len_of_tv tv_program tv_final tv_methods tv_enum_methods tv_named_tuple 0 union (Simple tv_type None) (Some (Simple tv_int None)) (TInt 7) (TInt 5) tv_laws U S _ _)).
    + apply has_union. exists (Literal (LInt 7 false)). split; [cbn; auto 10|reflexivity].
    + intros _. eexists. split; [reflexivity|exact Logic.I].
Qed.

(** ** Where the narrowed type does not have the value *)
Definition truth_wrong (t : type) (v : tv) : Prop := exists truthy falsey, tv_split t = Some (truthy, falsey) /\ tv_has t v /\
  ~ tv_has (if truth bool_of_tv len_of_tv v then truthy else falsey) v.

(** [x: int] and [not x]: [x] is said to be [Literal[0]], but may be False, or of a subclass of int. *)
Theorem C61_int_refuted : truth_wrong tv_int (TBool false) /\ truth_wrong tv_int (TMyInt 0) /\ tv_split tv_int = Some (tv_int, Literal (LInt 0 false)).
Proof. split; [|split; [|reflexivity]]; do 2 eexists; (split; [reflexivity|]); (split; [exact Logic.I|]); intros H; exact H. Qed.

(** A class with a [__len__] that returns 1, or a named tuple with fields, is said to be true always; a subclass may have a [__bool__]. *)
Theorem C61_len_refuted : truth_wrong (Class 20 []) (TObject 21) /\ tv_split (Class 20 []) = Some (Class 20 [], Never) /\
  truth_wrong (Class 22 []) (TObject 23) /\ tv_split (Class 22 []) = Some (Class 22 [], Never).
Proof.
  split; [|split; [reflexivity|split; [|reflexivity]]]; do 2 eexists; (split; [reflexivity|]); (split; [exact Logic.I|]); intros H; exact H.
Qed.

Print Assumptions C61_sound.
Print Assumptions C61_within.
Print Assumptions C61_exact.
Print Assumptions C61_or.
Print Assumptions C61_and.
Print Assumptions C61_operands.
Print Assumptions C61_operands_exact.
Print Assumptions C61_int_refuted.
Print Assumptions C61_len_refuted.
