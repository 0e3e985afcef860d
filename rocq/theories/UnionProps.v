(** C16: the simplification of a union keeps its meaning, and leaves no member that another one covers. *)
From Coq Require Import List Arith Bool Permutation Lia.
From Verif Require Import UnionModel UnionSpec UnionProofs.
From Verif Require EqualModel.
Import ListNotations.

(** No values are added. *)
Theorem C16_sound : forall o Val (denote : T o -> Val -> Prop), truthful o denote ->
  forall types v, means denote (simplify o types) v -> means denote types v.
Proof.
  intros o Val denote L types v. destruct (member_values o denote L) as (member & Hm1 & Hm2). destruct (bool_values o denote L) as (truth & Hb1 & Hb2).
  unfold simplify. destruct L. apply (simplify_sound (T o) Val) with (member := member) (truth := truth); assumption.
Qed.

(** The values of all types are kept, but for those whose generics are not known yet. *)
Theorem C16_complete_partial : forall o Val (denote : T o -> Val -> Prop), truthful o denote ->
  forall types t v, In t types -> unknown_type_param o (fst t) = false -> unknown_class o (fst t) = None -> denote (fst t) v ->
  means denote (simplify o types) v.
Proof.
  intros o Val denote L types t v. destruct (member_values o denote L) as (member & Hm1 & Hm2). destruct (bool_values o denote L) as (truth & Hb1 & Hb2).
  unfold simplify. destruct L. apply (simplify_complete (T o) Val) with (member := member) (truth := truth); assumption.
Qed.

(** So without such types the meaning is the same. *)
Theorem C16_same_meaning_partial : forall o Val (denote : T o -> Val -> Prop), truthful o denote ->
  forall types, Forall (fun t => unknown_type_param o (fst t) = false /\ unknown_class o (fst t) = None) types ->
  forall v, means denote (simplify o types) v <-> means denote types v.
Proof.
  intros o Val denote L types F v. split; [apply C16_sound; exact L|].
  intros (t & Ht & Hv). rewrite Forall_forall in F. destruct (F t Ht) as [F1 F2]. exact (C16_complete_partial o Val denote L types t v Ht F1 F2 Hv).
Qed.

(** No member is a super type of another one: of types without [Any], that are not being inferred, and are not literals. *)
Theorem C16_apart_partial : forall o Val (denote : T o -> Val -> Prop), truthful o denote -> well_ordered o ->
  forall types, Forall (fun t => unknown_class o (fst t) = None) types ->
  forall i j x y, i <> j -> nth_error (simplify o types) i = Some x -> nth_error (simplify o types) j = Some y ->
  plain_type o (fst x) -> plain_type o (fst y) -> ~ literal_type o (fst x) -> ~ literal_type o (fst y) ->
  is_super_type_of o (fst x) (fst y) = false.
Proof.
  intros o Val denote L W types F. unfold simplify. destruct L, W.
  eapply (simplify_apart (T o) Val); eassumption.
Qed.

(** Where the members are shown: those of earlier types before those of later ones. *)
Lemma with_format_index_app {A} m l1 : forall i l2, with_format_index A m i (l1 ++ l2) = with_format_index A m i l1 ++ with_format_index A m (i + length l1) l2.
Proof.
  induction l1 as [|t l1 IH]; intros i l2; cbn; [rewrite Nat.add_0_r; reflexivity|]. rewrite IH, <- app_assoc. replace (S i + length l1) with (i + S (length l1)) by lia. reflexivity.
Qed.
Lemma format_index_below {A} m l : Forall (Forall (fun e : A * nat => snd e < m)) l -> forall i e, In e (with_format_index A m i l) -> i * m <= snd e < (i + length l) * m.
Proof.
  induction 1 as [|t l Ht Hl IH]; cbn; intros i e He; [contradiction|]. apply in_app_or in He. destruct He as [He|He].
  - apply in_map_iff in He. destruct He as (x & <- & Hx). rewrite Forall_forall in Ht. specialize (Ht x Hx). cbn. nia.
  - specialize (IH _ _ He). nia.
Qed.
Lemma highest_covers {A} (l : list (list (A * nat))) : Forall (fun t => forall e, t = [e] -> snd e <= 1) l -> Forall (Forall (fun e : A * nat => snd e < highest_union_format_index A l + 1)) l.
Proof.
  intros F. apply Forall_forall. intros t Ht. apply Forall_forall. intros e He. rewrite Forall_forall in F. specialize (F t Ht).
  assert (B : snd e <= highest_of A t).
  { unfold highest_of. destruct t as [|a [|b t]]; [contradiction|destruct He as [<-|[]]; apply F; reflexivity|].
    assert (M : Forall (fun k => k <= list_max (map snd (a :: b :: t))) (map snd (a :: b :: t))) by (apply list_max_le; apply le_n).
    rewrite Forall_forall in M. apply M. apply in_map. exact He. }
  assert (C : highest_of A t <= highest_union_format_index A l).
  { unfold highest_union_format_index. assert (M : Forall (fun k => k <= list_max (map (highest_of A) l)) (map (highest_of A) l)) by (apply list_max_le; apply le_n).
    rewrite Forall_forall in M. apply M. apply in_map. exact Ht. }
  lia.
Qed.
Theorem C16_shown_in_order : forall A (before after : list (list (A * nat))),
  Forall (fun t => forall e, t = [e] -> snd e <= 1) (before ++ after) ->
  let m := highest_union_format_index A (before ++ after) + 1 in
  exists l1 l2, with_format_index A m 0 (before ++ after) = l1 ++ l2 /\
    map fst l1 = map fst (List.concat before) /\ map fst l2 = map fst (List.concat after) /\
    forall x y, In x l1 -> In y l2 -> snd x < snd y.
Proof.
  intros A before after F m. assert (M := highest_covers _ F). fold m in M. apply Forall_app in M. destruct M as [M1 M2].
  assert (N : forall l i, map fst (with_format_index A m i l) = map fst (List.concat l)).
  { induction l as [|t l IH]; intros i; cbn; [reflexivity|]. rewrite !map_app, IH, map_map. reflexivity. }
  exists (with_format_index A m 0 before), (with_format_index A m (length before) after).
  refine (conj _ (conj (N _ _) (conj (N _ _) _))); [apply (with_format_index_app m before 0 after)|].
  intros x y Hx Hy. apply (format_index_below m _ M1) in Hx. apply (format_index_below m _ M2) in Hy. lia.
Qed.
Example shown_example : let before := [[(1, 0)]; [(2, 0); (3, 1)]] in let after := [[(4, 0); (5, 1); (6, 3)]; [(7, 0)]] in
  map snd (with_format_index nat (highest_union_format_index nat (before ++ after) + 1) 0 (before ++ after)) = [0; 4; 5; 8; 9; 11; 12].
Proof. reflexivity. Qed.

(** ** A world of types *)
Inductive ex_ty := Object | Int | Str | Bool | True_ | False_ | LitInt (n : nat) | Enum (e : bool) | Mem (e i : bool) | ListInt | SeqInt | ListAny | ListUnknown | Unknown.
Inductive ex_val := VInt (n : nat) | VStr | VBool (b : bool) | VMem (e i : bool) | VListInt | VListStr | VTupInt.
Definition ex_dec : forall a b : ex_ty, {a = b} + {a <> b}.
Proof. decide equality; try apply bool_dec; apply Nat.eq_dec. Defined.
Definition ex_eqb (a b : ex_ty) : bool := if ex_dec a b then true else false.
Definition enum_no (e : bool) : nat := if e then 1 else 0.
Definition ex_super (a b : ex_ty) : bool :=
  ex_eqb a b || match a, b with
  | Object, _ => true
  | Int, (Bool | True_ | False_ | LitInt _) => true
  | Bool, (True_ | False_) => true
  | Enum e, Mem e' _ => Bool.eqb e e'
  | SeqInt, ListInt => true
  | _, _ => false
  end.
Definition ex_any (a : ex_ty) : bool := match a with ListAny | ListUnknown | Unknown => true | _ => false end.
Definition ex_denote (t : ex_ty) (v : ex_val) : Prop :=
  match t, v with
  | Object, _ => True
  | Int, (VInt _ | VBool _) => True
  | Str, VStr => True
  | Bool, VBool _ => True
  | True_, VBool b => b = true
  | False_, VBool b => b = false
  | LitInt n, VInt k => n = k
  | Enum e, VMem e' _ => e = e'
  | Mem e i, VMem e' i' => e = e' /\ i = i'
  | ListInt, VListInt => True
  | SeqInt, (VListInt | VTupInt) => True
  | (ListAny | ListUnknown), (VListInt | VListStr) => True
  | Unknown, _ => True
  | _, _ => False
  end.
(** [equal]: [is_equal_type_without_unpacking_recursive_types]; enum numbers above 1 do not exist and are never asked for, but have an answer. *)
Definition ex_ops (equal : ex_ty -> ex_ty -> bool) : ops := {|
  T := ex_ty;
  kind_of := fun t => match t with LitInt n => LiteralValue n | True_ => BoolLiteral true | False_ => BoolLiteral false | Mem e i => EnumMember (enum_no e) (enum_no i) | _ => OtherType end;
  eqb := ex_eqb;
  is_object := fun t => match t with Object => true | _ => false end;
  has_any := ex_any;
  is_calculating := fun _ => false;
  is_recursive_with_generics := fun _ => false;
  unknown_type_param := fun t => match t with Unknown => true | _ => false end;
  unknown_class := fun t => match t with ListUnknown => Some 5 | _ => None end;
  class_ := fun t => match t with Int => Some 1 | Str => Some 2 | Bool => Some 3 | ListInt | ListAny | ListUnknown => Some 5 | SeqInt => Some 6 | _ => None end;
  equal_type := equal;
  is_super_type_of := ex_super;
  bool_type := Bool;
  enum_type := fun n => Enum (n =? 1);
  enum_len := fun n => 2;
  fallback_type := fun _ => Int;
  priority := fun t => match t with Unknown => 2 | ListAny => 1 | _ => 0 end;
  order := @rev (ex_ty * nat) |}.

Lemma ex_eqb_eq a b : ex_eqb a b = true <-> a = b.
Proof. unfold ex_eqb. destruct (ex_dec a b); split; congruence. Qed.
Lemma enum_no_eq e n : enum_no e = n -> (n =? 1) = e.
Proof. intros <-. destruct e; reflexivity. Qed.
Lemma enum_no_inj e f : enum_no e = enum_no f -> e = f.
Proof. destruct e, f; cbn; congruence. Qed.
Lemma ex_super_denote a b : ex_super a b = true -> forall v, ex_denote b v -> ex_denote a v.
Proof.
  unfold ex_super. intros H v. apply orb_true_iff in H. destruct H as [H|H]; [apply ex_eqb_eq in H; subst; auto|].
  destruct a, b; try discriminate H; destruct v; cbn; auto. apply eqb_prop in H. intros [-> _]. exact H.
Qed.

Lemma ex_truthful : truthful (ex_ops ex_eqb) ex_denote.
Proof.
  constructor; cbn; try unfold subset; try unfold plain_type; cbn.
  - apply Permutation_rev.
  - exact ex_super_denote.
  - intros a b H. apply ex_eqb_eq in H. subst. auto.
  - intros a b H. apply ex_eqb_eq in H. subst. auto.
  - intros a b H. apply ex_eqb_eq in H. subst. auto.
  - intros [] H; try discriminate H; auto.
  - intros [] H v; try discriminate H; destruct v; exact I.
  - intros a b x; destruct a, b; try discriminate; intros [= ->] [= ->]; auto.
  - intros a x; destruct a; try discriminate. intros [= ->] v. destruct v; cbn; auto.
  - intros t e i; destruct t; try discriminate. intros [= <- <-]. split; [destruct i0; cbn; lia|auto].
  - intros a b e i; destruct a, b; try discriminate. intros [= <- <-] [= A B]. apply enum_no_inj in A. apply enum_no_inj in B. subst. unfold ex_super. rewrite (proj2 (ex_eqb_eq _ _) eq_refl). reflexivity.
  - exists (fun e i v => match v with VMem e' i' => e' = (e =? 1) /\ enum_no i' = i | _ => False end). split.
    + intros t e i v; destruct t; try discriminate. intros [= <- <-]. destruct v as [| | |e' i'| | |]; cbn; try tauto. rewrite (enum_no_eq e0 _ eq_refl). split; [intros [-> ->]; auto|intros [-> E]; apply enum_no_inj in E; auto].
    + intros e v. destruct v as [| | |e' i'| | |]; cbn; try (split; [tauto|intros (i & _ & F); exact F]).
      split; [intros <-; exists (enum_no i'); destruct i'; cbn; auto|intros (i & _ & -> & _); reflexivity].
  - intros []; cbn; congruence.
  - exists (fun b v => match v with VBool b' => b' = b | _ => False end). split.
    + intros [| |b| | | |]; cbn; try tauto. destruct b; tauto.
    + intros [] b v; try discriminate; intros [= <-]; destruct v; cbn; tauto.
  - reflexivity.
  - reflexivity.
  - reflexivity.
Qed.

Lemma ex_super_cases a b : ex_super a b = true -> a = b \/ (a <> b /\ match a, b with
  | Object, _ => True | Int, (Bool | True_ | False_ | LitInt _) => True | Bool, (True_ | False_) => True | Enum e, Mem e' _ => e = e' | SeqInt, ListInt => True | _, _ => False end).
Proof.
  intros H. destruct (ex_dec a b) as [E|E]; [left; exact E|right]. split; [exact E|]. unfold ex_super in H. apply orb_true_iff in H.
  destruct H as [H|H]; [apply ex_eqb_eq in H; contradiction|]. destruct a, b; try discriminate H; try exact I. apply eqb_prop. exact H.
Qed.
Lemma ex_super_refl a : ex_super a a = true.
Proof. unfold ex_super. rewrite (proj2 (ex_eqb_eq a a) eq_refl). reflexivity. Qed.
Lemma ex_well_ordered : well_ordered (ex_ops ex_eqb).
Proof.
  constructor; cbn; try unfold plain_type; cbn.
  - intros a b c H1 H2. destruct (ex_super_cases _ _ H1) as [->|[_ C1]]; [exact H2|]. destruct (ex_super_cases _ _ H2) as [->|[_ C2]]; [exact H1|].
    destruct a, b; try contradiction; try (destruct c; try contradiction; reflexivity).
  - intros t e i; destruct t; try discriminate. intros [= <- <-]. rewrite (enum_no_eq e0 _ eq_refl). unfold ex_super. rewrite Bool.eqb_reflx. apply orb_true_r.
  - intros t e _ H. destruct (ex_super_cases _ _ H) as [<-|[_ C]].
    + exists 0. split; [lia|]. intros [] H'; try discriminate. injection H' as <- _. rewrite (enum_no_eq e0 _ eq_refl). unfold ex_super. rewrite Bool.eqb_reflx. apply orb_true_r.
    + destruct t; try contradiction. exists (enum_no i). split; [destruct i; cbn; lia|]. intros [] H'; try discriminate. injection H' as A B. apply enum_no_inj in B. subst i0 e0. rewrite (enum_no_eq e1 _ A). apply ex_super_refl.
  - intros [] b; try discriminate; reflexivity.
  - intros [] b; try discriminate; auto.
  - intros t _ H. destruct (ex_super_cases _ _ H) as [<-|[_ C]]; [exists true; intros []; try discriminate; reflexivity|].
    destruct t; try contradiction; [exists true|exists false]; intros []; try discriminate; reflexivity.
  - intros t mm b _ N K H. destruct (ex_super_cases _ _ H) as [->|[_ C]]; [contradiction (N b)|]. destruct t, mm; try contradiction; try discriminate K; reflexivity.
  - intros []; [exists True_|exists False_]; reflexivity.
Qed.

(** [Literal[1] | True | SomeEnum.A | list[int] | False | list[?] | Literal[2] | SomeEnum.B | Sequence[int] | list[Any]]. *)
Definition ex_union : list (ex_ty * nat) := [(LitInt 1, 0); (True_, 1); (Mem true false, 2); (ListInt, 3); (False_, 4); (ListUnknown, 5); (LitInt 2, 6); (Mem true true, 7); (SeqInt, 8); (ListAny, 9)].
Example ex_simplified : map fst (simplify (ex_ops ex_eqb) ex_union) = [LitInt 1; LitInt 2; Bool; Enum true; SeqInt; ListAny].
Proof. vm_compute. reflexivity. Qed.
Example ex_with_int : map fst (simplify (ex_ops ex_eqb) ((Int, 0) :: ex_union)) = [Int; Enum true; SeqInt; ListAny].
Proof. vm_compute. reflexivity. Qed.

(** A class with generics that are not known yet is replaced by a later type of the same class, without looking at the rest. *)
Theorem C16_unknown_redundant_refuted : exists (o : ops) (Val : Type) (denote : T o -> Val -> Prop) types x y, truthful o denote /\ well_ordered o /\
  simplify o types = [x; y] /\ plain_type o (fst x) /\ plain_type o (fst y) /\ ~ literal_type o (fst x) /\ ~ literal_type o (fst y) /\ is_super_type_of o (fst y) (fst x) = true.
Proof.
  exists (ex_ops ex_eqb), ex_val, ex_denote, [(ListUnknown, 0); (SeqInt, 1); (ListInt, 2)], (ListInt, 0), (SeqInt, 1).
  refine (conj ex_truthful (conj ex_well_ordered (conj eq_refl (conj (conj eq_refl (conj eq_refl eq_refl)) (conj (conj eq_refl (conj eq_refl eq_refl)) (conj _ (conj _ eq_refl)))))));
    intros (v & H); discriminate H.
Qed.

(** The reason of an [Any] does not matter for equality, so [list[Any]] is left out next to [list[?]], and with it the list of strings. *)
Definition ex_equal (a b : ex_ty) : bool := ex_eqb a b || match a, b with ListAny, ListUnknown | ListUnknown, ListAny => true | _, _ => false end.
Theorem C16_explicit_any_refuted : exists (types types' : list (ex_ty * nat)) (t : ex_ty * nat) (v : ex_val), let o := ex_ops ex_equal in
  (forall a b, equal_type o a b = true -> subset (o := o) ex_denote a b /\ subset (o := o) ex_denote b a) /\
  In t types /\ unknown_type_param o (fst t) = false /\ unknown_class o (fst t) = None /\ ex_denote (fst t) v /\
  ~ means ex_denote (simplify o types) v /\
  Permutation types types' /\ means ex_denote (simplify o types') v.
Proof.
  exists [(ListUnknown, 0); (ListAny, 1); (ListInt, 2)], [(ListAny, 1); (ListUnknown, 0); (ListInt, 2)], (ListAny, 1), VListStr. cbn.
  refine (conj _ (conj _ (conj eq_refl (conj eq_refl (conj I (conj _ (conj (perm_swap _ _ _) _))))))).
  - intros a b H. unfold ex_equal in H. apply orb_true_iff in H. unfold subset. cbn. destruct H as [H|H]; [apply ex_eqb_eq in H; subst; auto|].
    destruct a, b; try discriminate H; split; intros []; auto.
  - right. left. reflexivity.
  - change (simplify (ex_ops ex_equal) [(ListUnknown, 0); (ListAny, 1); (ListInt, 2)]) with [(ListInt, 0)]. intros (e & [<-|[]] & F). exact F.
  - exists (ListAny, 1). split; [vm_compute; tauto|exact I].
Qed.

(** With the equality of EqualModel: [tuple[Any] | tuple[Any, Any]] becomes [tuple[Any]]. *)
Definition tup (n : nat) : EqualModel.ty := EqualModel.TTuple (EqualModel.FixedLen (repeat (EqualModel.TAny 1) n)).
Definition tup_ops : ops := {|
  T := EqualModel.ty; kind_of := fun _ => OtherType; eqb := fun _ _ => false; is_object := fun _ => false; has_any := fun _ => true; is_calculating := fun _ => false;
  is_recursive_with_generics := fun _ => false; unknown_type_param := fun _ => false; unknown_class := fun _ => None; class_ := fun _ => None;
  equal_type := EqualModel.is_equal_type false false; is_super_type_of := fun _ _ => false; bool_type := EqualModel.TOther 0; enum_type := fun _ => EqualModel.TOther 0;
  enum_len := fun _ => 0; fallback_type := fun t => t; priority := fun _ => 0; order := fun l => l |}.
(** The lengths of the tuples of a type. *)
Definition tuple_length (t : EqualModel.ty) (n : nat) : Prop := match t with EqualModel.TTuple (EqualModel.FixedLen l) => length l = n | _ => False end.
Theorem C16_tuple_any_refuted : exists types, (forall x, In x types -> has_any tup_ops (fst x) = true /\ unknown_class tup_ops (fst x) = None) /\
  means tuple_length types 2 /\ ~ means tuple_length (simplify tup_ops types) 2.
Proof.
  exists [(tup 1, 0); (tup 2, 1)]. refine (conj _ (conj _ _)).
  - intros x _. split; reflexivity.
  - exists (tup 2, 1). split; [right; left; reflexivity|reflexivity].
  - change (simplify tup_ops [(tup 1, 0); (tup 2, 1)]) with [(tup 1, 0)]. intros (e & [<-|[]] & F). discriminate F.
Qed.

Print Assumptions C16_sound.
Print Assumptions C16_complete_partial.
Print Assumptions C16_same_meaning_partial.
Print Assumptions C16_apart_partial.
Print Assumptions C16_shown_in_order.
Print Assumptions C16_unknown_redundant_refuted.
Print Assumptions C16_explicit_any_refuted.
Print Assumptions C16_tuple_any_refuted.
