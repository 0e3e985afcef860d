(** Proofs about unpacking: what is assigned to the names has the types, no panics, and which issues are reported. *)
From Coq Require Import List NArith Bool Lia PeanoNat.
From Verif Require Import TupleModel TupleSpec UnpackModel UnpackSpec.
Import ListNotations.
Local Open Scope nat_scope.

(** Induction over a type and the members of unions *)
Section TypeInd.
Variable Q : type -> Prop.
Hypothesis q_any : Q Any.
Hypothesis q_never : Q Never.
Hypothesis q_none : Q NoneType.
Hypothesis q_class : forall c gs, Q (Class c gs).
Hypothesis q_literal : forall s, Q (Literal s).
Hypothesis q_tuple : forall a, Q (Tuple a).
Hypothesis q_union : forall ts, Forall Q ts -> Q (Union ts).
Hypothesis q_var : forall n b, match b with Some t => Q t | None => True end -> Q (TypeVar n b).
Hypothesis q_new : forall n t, Q t -> Q (NewType n t).
Hypothesis q_rec : forall n t, Q t -> Q (Recursive n t).

Fixpoint type_induction (t : type) : Q t :=
  match t with
  | Any => q_any | Never => q_never | NoneType => q_none
  | Class c gs => q_class c gs | Literal s => q_literal s | Tuple a => q_tuple a
  | Union ts => q_union ts ((fix go ts : Forall Q ts := match ts with [] => Forall_nil Q | t :: ts => Forall_cons t (type_induction t) (go ts) end) ts)
  | TypeVar n b => q_var n b (match b with Some t => type_induction t | None => I end)
  | NewType n t => q_new n t (type_induction t)
  | Recursive n t => q_rec n t (type_induction t)
  end.
End TypeInd.

Fixpoint target_size (t : target) : nat :=
  match t with
  | Name _ => 1
  | Starred t => S (target_size t)
  | Targets ts => S (fold_right (fun t n => target_size t + n) 0 ts)
  end.

Definition targets_size (ts : list target) : nat := fold_right (fun t n => target_size t + n) 0 ts.

Lemma seq_clean a b bs : seq a b = Some ([], bs) ->
  exists bs1 bs2, a = Some ([], bs1) /\ b tt = Some ([], bs2) /\ bs = bs1 ++ bs2.
Proof.
  unfold seq. destruct a as [[is1 bs1]|]; [|discriminate]. destruct (b tt) as [[is2 bs2]|] eqn:Eb; [|discriminate].
  intros [= Hi Hb]. apply app_eq_nil in Hi. destruct Hi as [-> ->]. exists bs1, bs2. subst bs. auto.
Qed.

Lemma seq_result a b r : seq a b = Some r ->
  exists is1 bs1 is2 bs2, a = Some (is1, bs1) /\ b tt = Some (is2, bs2) /\ r = (is1 ++ is2, bs1 ++ bs2).
Proof.
  unfold seq. destruct a as [[is1 bs1]|]; [|discriminate]. destruct (b tt) as [[is2 bs2]|] eqn:Eb; [|discriminate].
  intros [= <-]. exists is1, bs1, is2, bs2. auto.
Qed.

Lemma in_sequence_cons {A} (f : A -> result) x l : in_sequence f (x :: l) = seq (f x) (fun _ => in_sequence f l).
Proof. reflexivity. Qed.

Lemma in_sequence_clean {A} (f : A -> result) l bs : in_sequence f l = Some ([], bs) ->
  forall x, In x l -> exists bs1, f x = Some ([], bs1) /\ incl bs1 bs.
Proof.
  revert bs. induction l as [|y l IH]; intros bs H x Hx; [destruct Hx|].
  rewrite in_sequence_cons in H. apply seq_clean in H. destruct H as (b1 & b2 & H1 & H2 & ->).
  destruct Hx as [->|Hx].
  - exists b1. split; [exact H1|]. apply incl_appl, incl_refl.
  - destruct (IH _ H2 _ Hx) as (b3 & H3 & Hi). exists b3. split; [exact H3|]. apply incl_appr, Hi.
Qed.

Lemma in_sequence_result {A} (f : A -> result) l is bs : in_sequence f l = Some (is, bs) ->
  forall x, In x l -> exists is1 bs1, f x = Some (is1, bs1) /\ incl bs1 bs /\ incl is1 is.
Proof.
  revert is bs. induction l as [|y l IH]; intros is bs H x Hx; [destruct Hx|].
  rewrite in_sequence_cons in H. apply seq_result in H. destruct H as (i1 & b1 & i2 & b2 & H1 & H2 & [= -> ->]).
  destruct Hx as [->|Hx].
  - exists i1, b1. split; [exact H1|]. split; apply incl_appl, incl_refl.
  - destruct (IH _ _ H2 _ Hx) as (i3 & b3 & H3 & Hi & Hj). exists i3, b3. split; [exact H3|]. split; apply incl_appr; assumption.
Qed.

Lemma Forall2_firstn {A B} (R : A -> B -> Prop) n l1 l2 : Forall2 R l1 l2 -> Forall2 R (firstn n l1) (firstn n l2).
Proof. intros H. revert n. induction H; intros [|n]; cbn; constructor; auto. Qed.
Lemma Forall2_skipn {A B} (R : A -> B -> Prop) n l1 l2 : Forall2 R l1 l2 -> Forall2 R (skipn n l1) (skipn n l2).
Proof. intros H. revert n. induction H; intros [|n]; cbn; auto. Qed.
Lemma Forall2_len {A B} (R : A -> B -> Prop) l1 l2 : Forall2 R l1 l2 -> length l1 = length l2.
Proof. induction 1; cbn; auto. Qed.
Lemma skipn_add {A} (l : list A) a b : skipn a (skipn b l) = skipn (a + b) l.
Proof. revert b. induction l as [|x l IH]; intros b; [rewrite !skipn_nil; reflexivity|]. destruct b; [rewrite Nat.add_0_r; reflexivity|]. rewrite <- plus_n_Sm. cbn. apply IH. Qed.
Lemma nth_skipn {A} (l : list A) i x : nth_error l i = Some x -> skipn i l = x :: skipn (S i) l.
Proof. revert i. induction l as [|y l IH]; intros [|i] H; cbn in *; try discriminate; [congruence|]. apply IH. exact H. Qed.
Lemma nth_skipn_none {A} (l : list A) i : nth_error l i = None -> skipn i l = [].
Proof. intros H. apply skipn_all2, nth_error_None, H. Qed.
Lemma app_same_length {A} (a b c d : list A) : a ++ b = c ++ d -> length b = length d -> a = c /\ b = d.
Proof.
  intros H Hl. assert (He : length a = length c) by (apply (f_equal (@length A)) in H; rewrite !app_length in H; lia).
  clear Hl. revert c He H. induction a as [|x a IH]; intros [|y c] He H; cbn in *; try discriminate; [auto|].
  injection H as -> H. destruct (IH c (eq_add_S _ _ He) H) as [-> ->]. auto.
Qed.
Lemma Forall_In2 {A B} (R : A -> B -> Prop) (Q : B -> Prop) l1 l2 : Forall2 R l1 l2 -> (forall x y, In x l1 -> R x y -> Q y) -> Forall Q l2.
Proof. intros H. induction H; intros HQ; constructor; [eapply HQ; [left; reflexivity|eassumption]|]. apply IHForall2. intros a b Ha. apply HQ. right. exact Ha. Qed.

Section Sound.
Context {V : Type}.
Variables (iterates list_value : V -> list V -> Prop) (has : type -> V -> Prop) (stands_for : N -> list V -> Prop).
Variables (list_class str_class object_class : N) (items : N -> list type -> class_items) (join union : list type -> type)
          (avoid_implicit_literal : type -> type) (defined : target -> bool).
Hypothesis L : lawful iterates list_value has stands_for list_class str_class object_class items join union avoid_implicit_literal.

Local Notation iter := (iter str_class items).
Local Notation assign_targets := (assign_targets list_class str_class object_class items join union avoid_implicit_literal defined).
Local Notation unpack_starred := (unpack_starred list_class object_class join union avoid_implicit_literal).
Local Notation assign_each := (assign_each list_class object_class join union avoid_implicit_literal defined assign_targets).
Local Notation assign_tuple_target := (assign_tuple_target list_class object_class join union avoid_implicit_literal defined assign_targets).
Local Notation assign_member := (assign_member list_class str_class object_class items join union avoid_implicit_literal defined assign_targets).
Local Notation is_tuple := (is_tuple has stands_for).
Local Notation assigned := (assigned iterates list_value).
Local Notation assigned_all := (assigned_all iterates list_value).

(** The values an iterator stands for before it is used *)
Fixpoint yields (it : iterator) (vs : list V) : Prop :=
  match it with
  | Items t => Forall (has t) vs
  | Fixed es i => Forall2 has (skipn i es) vs
  | Unpacked w i j =>
      exists l m r, vs = l ++ m ++ r /\ Forall2 has (skipn i (before w)) l /\ in_middle has stands_for (middle w) m /\ Forall2 has (skipn j (after w)) r
  | Several its => (fix any its := match its with [] => False | it :: its => yields it vs \/ any its end) its
  | AnyItems => True
  end.

Lemma yields_several its vs : yields (Several its) vs <-> exists it, In it its /\ yields it vs.
Proof.
  induction its as [|it its IH]; cbn [yields].
  - split; [intros []|intros (it & [] & _)].
  - split.
    + intros [H|H]; [exists it; split; [left; reflexivity|exact H]|]. apply IH in H. destruct H as (i & Hi & H). exists i. split; [right; exact Hi|exact H].
    + intros (i & [->|Hi] & H); [left; exact H|]. right. apply IH. exists i. auto.
Qed.

(** The values it stands for after a starred target was served *)
Definition yields_after (it : iterator) (vs : list V) : Prop :=
  match it with
  | Unpacked w i j => i = length (before w) /\ Forall2 has (skipn j (after w)) vs
  | _ => yields it vs
  end.

Lemma tuple_iter_yields a vs : is_tuple a vs -> yields (tuple_iter a) vs.
Proof. destruct a as [ts|t|w]; cbn [TupleSpec.is_tuple tuple_iter yields]; intros H; [rewrite skipn_O; exact H|exact H|]. rewrite !skipn_O. exact H. Qed.

Lemma class_iter_yields c gs v vs is it : class_iter items c gs = (is, it) -> has (Class c gs) v -> iterates v vs -> yields it vs.
Proof.
  unfold class_iter. destruct (items c gs) as [a|t|] eqn:E; intros [= <- <-] Hv Hi; [|cbn|exact I].
  - apply tuple_iter_yields. exact (has_tuple_base _ _ _ _ _ _ _ _ _ _ _ L _ _ _ _ _ E Hv Hi).
  - exact (has_items _ _ _ _ _ _ _ _ _ _ _ L _ _ _ _ _ E Hv Hi).
Qed.

Lemma iter_yields t : forall v vs, has t v -> iterates v vs -> yields (snd (iter t)) vs.
Proof.
  induction t as [| | |c gs|s|a|ts IH|n b IH|n t IH|n t IH] using type_induction; intros v vs Hv Hi; cbn [UnpackModel.iter snd].
  - cbn. apply Forall_forall. intros x _. apply (has_any _ _ _ _ _ _ _ _ _ _ _ L).
  - exfalso. exact (has_never _ _ _ _ _ _ _ _ _ _ _ L _ Hv).
  - exfalso. exact (has_none _ _ _ _ _ _ _ _ _ _ _ L _ _ Hv Hi).
  - destruct (class_iter items c gs) as [is it] eqn:E. cbn. exact (class_iter_yields _ _ _ _ _ _ E Hv Hi).
  - destruct (class_iter items str_class []) as [is it] eqn:E. cbn. refine (class_iter_yields _ _ _ _ _ _ E _ Hi).
    exact (has_literal _ _ _ _ _ _ _ _ _ _ _ L _ _ Hv).
  - destruct (has_tuple _ _ _ _ _ _ _ _ _ _ _ L _ _ Hv) as (ws & Hw & Ht). apply tuple_iter_yields.
    rewrite (iterates_once _ _ _ _ _ _ _ _ _ _ _ L _ _ _ Hw Hi). exact Ht.
  - destruct (has_union _ _ _ _ _ _ _ _ _ _ _ L _ _ Hv) as (t & Ht & Hvt). apply yields_several.
    exists (snd (iter t)). split; [rewrite map_map; apply (in_map (fun t => snd (iter t))); exact Ht|].
    rewrite Forall_forall in IH. exact (IH t Ht _ _ Hvt Hi).
  - destruct b as [t|]; cbn; [|exact I]. exact (IH _ _ (has_bound _ _ _ _ _ _ _ _ _ _ _ L _ _ _ Hv) Hi).
  - exact (IH _ _ (has_new_type _ _ _ _ _ _ _ _ _ _ _ L _ _ _ Hv) Hi).
  - exact (IH _ _ (has_recursive _ _ _ _ _ _ _ _ _ _ _ L _ _ _ Hv) Hi).
Qed.

Lemma members_complete t : forall v, has t v -> exists m, In m (members t) /\ has m v.
Proof.
  induction t as [| | |c gs|s|a|ts IH|n b IH|n t IH|n t IH] using type_induction; intros v Hv;
    try (eexists; split; [left; reflexivity|exact Hv]).
  - destruct (has_union _ _ _ _ _ _ _ _ _ _ _ L _ _ Hv) as (t & Ht & Hvt). rewrite Forall_forall in IH. specialize (IH t Ht v Hvt).
    cbn [members]. destruct t; try (eexists; split; [apply in_flat_map; eexists; split; [exact Ht|left; reflexivity]|exact Hvt]).
    destruct IH as (m & Hm & Hvm). exists m. split; [|exact Hvm]. apply in_flat_map. exists (Recursive n t). auto.
  - cbn [members]. exact (IH _ (has_recursive _ _ _ _ _ _ _ _ _ _ _ L _ _ _ Hv)).
Qed.

(** A type for a value that is given to a target: it has the type, or the type is the tuple for the list of a starred target *)
Definition fits (t : type) (v : V) : Prop := has t v \/ exists a vs, t = Tuple a /\ list_value v vs /\ is_tuple a vs.

Definition bound_well (bts : list (N * type)) (bvs : list (N * V)) : Prop :=
  Forall (fun b => exists t, In (fst b, t) bts /\ fits t (snd b)) bvs.

Lemma bound_well_incl b1 b2 bvs : incl b1 b2 -> bound_well b1 bvs -> bound_well b2 bvs.
Proof. intros Hi. apply Forall_impl. intros b (t & Ht & Hb). exists t. auto. Qed.

Lemma unpack_next_yields it v vs it' t : yields it (v :: vs) -> unpack_next it = Some (it', t) ->
  (forall w i j, it = Unpacked w i j -> i < length (before w)) -> has t v /\ yields it' vs.
Proof.
  unfold unpack_next, unpack_next_with. intros Hy Hu Hw. destruct it as [ty|es i|w i j|its|].
  - injection Hu as <- <-. split; [exact (Forall_inv Hy)|exact (Forall_inv_tail Hy)].
  - destruct (nth_error es i) as [ty|] eqn:E; [|discriminate]. injection Hu as <- <-. cbn [yields] in *. rewrite (nth_skipn _ _ _ E) in Hy.
    inversion Hy as [|? ? ? ? Ha Hb]. auto.
  - destruct (nth_error (before w) i) as [ty|] eqn:E.
    + injection Hu as <- <-. destruct Hy as (l & m & r & Hv & Hl & Hm & Hr). rewrite (nth_skipn _ _ _ E) in Hl.
      inversion Hl as [|? ? ? l' Ha Hb]. subst l. injection Hv as -> ->. split; [exact Ha|]. exists l', m, r. auto.
    + exfalso. apply nth_error_None in E. specialize (Hw w i j eq_refl). lia.
  - discriminate.
  - injection Hu as <- <-. split; [apply (has_any _ _ _ _ _ _ _ _ _ _ _ L)|exact I].
Qed.

Lemma unpack_next_yields_after it v vs it' t : yields_after it (v :: vs) -> unpack_next it = Some (it', t) -> has t v /\ yields_after it' vs.
Proof.
  intros Hy Hu. destruct it as [ty|es i|w i j|its|].
  - apply (unpack_next_yields _ _ _ _ _ Hy) in Hu as Hs; [|discriminate]. injection Hu as <- _. exact Hs.
  - apply (unpack_next_yields _ _ _ _ _ Hy) in Hu as Hs; [|discriminate]. unfold unpack_next, unpack_next_with in Hu.
    destruct (nth_error es i); [|discriminate]. injection Hu as <- _. exact Hs.
  - destruct Hy as [-> Hy]. unfold unpack_next, unpack_next_with in Hu.
    destruct (nth_error (before w) (length (before w))) eqn:E; [apply (f_equal (fun o => match o with Some _ => true | None => false end)) in E; rewrite (proj2 (nth_error_None _ _) (le_n _)) in E; discriminate|].
    destruct (nth_error (after w) j) as [ty|] eqn:E2; [|discriminate]. injection Hu as <- <-. rewrite (nth_skipn _ _ _ E2) in Hy.
    inversion Hy as [|? ? ? ? Ha Hb]. split; [exact Ha|]. split; [reflexivity|exact Hb].
  - discriminate.
  - injection Hu as <- <-. split; [apply (has_any _ _ _ _ _ _ _ _ _ _ _ L)|exact I].
Qed.

(** What is left of an iterator is long enough for the targets. *)
Definition long_enough (it : iterator) (before_ after_ : nat) : Prop :=
  match it with
  | Unpacked w i j => i + before_ <= length (before w) /\ after_ <= length (after w) /\ j = 0
  | _ => True
  end.

Lemma unpack_starred_yields it ms vs after_ tt_ joins it' e t l :
  yields it (ms ++ vs) -> length vs = after_ -> long_enough it 0 after_ -> unpack_starred it after_ tt_ joins = Some (it', e, t) ->
  list_value l ms -> fits t l /\ yields_after it' vs /\ (tt_ = false -> has t l).
Proof.
  intros Hy Hn Hlong Hu Hl. unfold UnpackModel.unpack_starred in Hu.
  set (gather := fun ts => if joins then join ts else union ts) in *.
  assert (Hg : forall ts t v, In t ts -> has t v -> has (gather ts) v).
  { intros ts t0 v. unfold gather. destruct joins; [apply (has_join _ _ _ _ _ _ _ _ _ _ _ L)|apply (has_simplified_union _ _ _ _ _ _ _ _ _ _ _ L)]. }
  assert (HL : forall ty, Forall (has ty) ms -> has (Class list_class [ty]) l) by (intros ty; apply (has_list _ _ _ _ _ _ _ _ _ _ _ L); exact Hl).
  destruct it as [ty|es i|w i j|its|].
  - injection Hu as <- <- <-. cbn in Hy. apply Forall_app in Hy. destruct Hy as [H1 H2]. specialize (HL _ H1). unfold fits. auto.
  - destruct (Nat.ltb_spec (length es) after_); [discriminate|]. destruct (Nat.ltb_spec (length es - after_) i); [discriminate|].
    injection Hu as <- <- <-. cbn [yields] in Hy.
    assert (Hlen : length (skipn i es) = length ms + after_) by (rewrite (Forall2_len _ _ _ Hy), app_length; lia).
    rewrite skipn_length in Hlen.
    assert (Hk : length es - after_ - i = length ms) by lia. rewrite Hk.
    assert (H1 : Forall2 has (firstn (length ms) (skipn i es)) ms).
    { apply (Forall2_firstn _ (length ms)) in Hy. rewrite firstn_app, Nat.sub_diag, firstn_O, app_nil_r, firstn_all in Hy. exact Hy. }
    assert (H2 : Forall2 has (skipn (length es - after_) es) vs).
    { apply (Forall2_skipn _ (length ms)) in Hy. rewrite skipn_app, Nat.sub_diag, skipn_O, skipn_all in Hy. cbn [app] in Hy.
      rewrite skipn_add in Hy. replace (length ms + i) with (length es - after_) in Hy by lia. exact Hy. }
    assert (H3 : has (Class list_class [gather (map avoid_implicit_literal (firstn (length ms) (skipn i es)))]) l).
    { apply HL. apply (Forall_In2 _ _ _ _ H1). intros x y Hx Hxy. apply (Hg _ (avoid_implicit_literal x)); [apply in_map; exact Hx|].
      apply (has_avoided _ _ _ _ _ _ _ _ _ _ _ L). exact Hxy. }
    destruct tt_.
    + split; [right; exists (FixedLen (firstn (length ms) (skipn i es))), ms; auto|]. split; [exact H2|discriminate].
    + unfold fits. auto.
  - injection Hu as <- <- <-. destruct Hlong as (Hi & Ha & ->). destruct Hy as (l1 & m & r & Hv & H1 & Hm & Hr). rewrite skipn_O in Hr.
    assert (Hr2 : length r = length (after w)) by (symmetry; exact (Forall2_len _ _ _ Hr)).
    rewrite <- (firstn_skipn (length (after w) - after_) r), !app_assoc in Hv.
    assert (Hs : length (skipn (length (after w) - after_) r) = after_) by (rewrite skipn_length; lia).
    apply app_same_length in Hv; [|rewrite Hs; exact Hn]. destruct Hv as [Hms ->].
    assert (HA : yields_after (Unpacked w (length (before w)) (length (after w) - after_)) (skipn (length (after w) - after_) r)).
    { split; [reflexivity|]. apply Forall2_skipn. exact Hr. }
    assert (HH : has (list_of list_class match middle w with
                     | TypeVarTuple _ => object object_class
                     | Many t0 => gather (skipn i (before w) ++ [t0] ++ firstn (length (after w) - after_) (after w))
                     end) l).
    { apply HL. destruct (middle w) as [n|t0].
      - apply Forall_forall. intros x _. apply (has_object _ _ _ _ _ _ _ _ _ _ _ L).
      - subst ms. apply Forall_app. split; [apply Forall_app; split|].
        + apply (Forall_In2 _ _ _ _ H1). intros x y Hx Hxy. apply (Hg _ x); [apply in_or_app; left; exact Hx|exact Hxy].
        + cbn in Hm. revert Hm. apply Forall_impl. intros y Hy. apply (Hg _ t0); [apply in_or_app; right; left; reflexivity|exact Hy].
        + apply (Forall2_firstn _ (length (after w) - after_)) in Hr. apply (Forall_In2 _ _ _ _ Hr). intros x y Hx Hxy.
          apply (Hg _ x); [apply in_or_app; right; right; exact Hx|exact Hxy]. }
    unfold fits. auto.
  - discriminate.
  - injection Hu as <- <- <-. assert (Hh : has (list_of list_class Any) l) by (apply HL; apply Forall_forall; intros x _; apply (has_any _ _ _ _ _ _ _ _ _ _ _ L)).
    unfold fits. repeat split; auto.
Qed.

(** The targets in front of and behind the star *)
Fixpoint star_before (ts : list target) : nat :=
  match ts with [] => 0 | Starred _ :: _ => 0 | _ :: ts => S (star_before ts) end.
Fixpoint star_after (ts : list target) : nat :=
  match ts with [] => 0 | Starred _ :: ts => length ts | _ :: ts => star_after ts end.
Fixpoint one_star (ts : list target) : bool :=
  match ts with [] => true | Starred _ :: ts => negb (existsb starred ts) | _ :: ts => one_star ts end.

Lemma count_after ts : forall b s a, s > 0 -> existsb starred ts = false -> count_targets ts b s a = (s, WithStar b (length ts + a)).
Proof.
  induction ts as [|t ts IH]; intros b s a Hs Hf; cbn [count_targets length].
  - replace (0 <? s) with true by (symmetry; apply Nat.ltb_lt; exact Hs). reflexivity.
  - destruct t as [n|t|ts']; cbn in Hf; [|discriminate|]; replace (0 <? s) with true by (symmetry; apply Nat.ltb_lt; exact Hs);
      rewrite (IH _ _ _ Hs Hf); f_equal; f_equal; lia.
Qed.

Lemma count_spec ts : forall b, one_star ts = true ->
  count_targets ts b 0 0 = if existsb starred ts then (1, WithStar (b + star_before ts) (star_after ts)) else (0, FixedLength (b + length ts)).
Proof.
  induction ts as [|t ts IH]; intros b Ho; cbn [count_targets existsb star_before star_after length one_star] in *.
  - rewrite Nat.add_0_r. reflexivity.
  - destruct t as [n|t|ts']; cbn [starred orb].
    + change (0 <? 0) with false. cbv iota. rewrite (IH _ Ho). rewrite <- !plus_n_Sm. reflexivity.
    + apply negb_true_iff in Ho. rewrite count_after by (lia || exact Ho). rewrite !Nat.add_0_r. reflexivity.
    + change (0 <? 0) with false. cbv iota. rewrite (IH _ Ho). rewrite <- !plus_n_Sm. reflexivity.
Qed.

Lemma count_stars ts : forall b s a, s <= fst (count_targets ts b s a) /\ (existsb starred ts = true -> s < fst (count_targets ts b s a)) /\
  (s = 0 -> one_star ts = false -> 1 < fst (count_targets ts b s a)).
Proof.
  induction ts as [|t ts IH]; intros b s a; cbn [count_targets existsb one_star].
  - repeat split; [cbn; lia|discriminate|discriminate].
  - destruct t as [n|t|ts']; cbn [starred orb].
    + destruct (0 <? s); apply IH.
    + destruct (IH b (S s) a) as (H1 & H2 & _). repeat split; [lia|intros _; lia|]. intros -> Ho. apply negb_false_iff in Ho. specialize (H2 Ho). lia.
    + destruct (0 <? s); apply IH.
Qed.

Lemma assigned_one_star ts vs bs : assigned_all ts vs bs -> one_star ts = true.
Proof.
  revert vs bs. induction ts as [|t ts IH]; intros vs bs H; [reflexivity|]. inversion H as [|t' v ts' vs' b1 b2 Hs Ha Hr|t' l ms ts' vs' b1 b2 Hs Hl Hlv Ha Hr]; subst.
  - destruct t as [n|t|ts2]; [|discriminate|]; cbn; exact (IH _ _ Hr).
  - cbn. rewrite Hs. reflexivity.
Qed.

Lemma assigned_free_length ts vs bs : assigned_all ts vs bs -> existsb starred ts = false -> length vs = length ts.
Proof.
  revert vs bs. induction ts as [|t ts IH]; intros vs bs H Hf; inversion H as [|t' v ts' vs' b1 b2 Hs Ha Hr|t' l ms ts' vs' b1 b2 Hs Hl Hlv Ha Hr]; subst; [reflexivity| |discriminate].
  cbn in Hf. apply orb_false_iff in Hf. cbn. f_equal. exact (IH _ _ Hr (proj2 Hf)).
Qed.

Definition well (bts : list (N * type)) (bvs : list (N * V)) : Prop := Forall (fun b => exists t, In (fst b, t) bts /\ has t (snd b)) bvs.

Lemma well_incl b1 b2 bvs : incl b1 b2 -> well b1 bvs -> well b2 bvs.
Proof. intros Hi. apply Forall_impl. intros b (t & Ht & Hb). exists t. auto. Qed.

Lemma well_app b1 b2 v1 v2 : well b1 v1 -> well b2 v2 -> well (b1 ++ b2) (v1 ++ v2).
Proof. intros H1 H2. apply Forall_app. split; [apply (well_incl b1), H1; apply incl_appl, incl_refl|apply (well_incl b2), H2; apply incl_appr, incl_refl]. Qed.

Definition suits (t : target) (ty : type) (v : V) : Prop := fits ty v /\ (is_targets t = false -> has ty v).

Definition sound (t : target) : Prop :=
  forall ty v is bts bvs, suits t ty v -> assign_targets t ty = Some (is, bts) -> assigned t v bvs -> well bts bvs.

Lemma has_suits t ty v : has ty v -> suits t ty v.
Proof. intros H. split; [left; exact H|auto]. Qed.

(** The targets below a target *)
Definition below (t : target) : target := match t with Starred t => t | _ => t end.

Lemma assign_each_item t ts a it : starred t = false ->
  assign_each (t :: ts) a it = match unpack_next it with None => None | Some (it, value) => seq (assign_targets t value) (fun _ => assign_each ts a it) end.
Proof. destruct t; [reflexivity|discriminate|reflexivity]. Qed.

Lemma assign_each_star t ts a it :
  assign_each (Starred t :: ts) a it =
  match unpack_starred it a (is_targets t) true with
  | None => None
  | Some (it, is_empty, value) => seq (assign_targets t (starred_value list_class defined t is_empty value)) (fun _ => assign_each ts a it)
  end.
Proof. reflexivity. Qed.

Lemma below_self t : starred t = false -> below t = t.
Proof. destruct t; [reflexivity|discriminate|reflexivity]. Qed.

Lemma assign_each_after ts : Forall (fun t => sound (below t)) ts -> existsb starred ts = false -> forall a it vs is bts bvs,
  yields_after it vs -> assigned_all ts vs bvs -> assign_each ts a it = Some (is, bts) -> well bts bvs.
Proof.
  induction ts as [|t ts IH]; intros HS Hf a it vs is bts bvs Hy Ha He.
  - inversion Ha. constructor.
  - cbn in Hf. apply orb_false_iff in Hf. destruct Hf as [Ht Hf].
    inversion Ha as [|t' v ts' vs' b1 b2 Hs Hav Hr|t' l ms ts' vs' b1 b2 Hs Hl Hlv Hav Hr]; subst; [|discriminate].
    rewrite (assign_each_item _ _ _ _ Ht) in He. destruct (unpack_next it) as [[it' ty]|] eqn:Eu; [|discriminate].
    apply seq_result in He. destruct He as (i1 & c1 & i2 & c2 & H1 & H2 & [= -> ->]).
    destruct (unpack_next_yields_after _ _ _ _ _ Hy Eu) as [Hh Hy'].
    apply well_app; [|exact (IH (Forall_inv_tail HS) Hf _ _ _ _ _ _ Hy' Hr H2)].
    pose proof (Forall_inv HS) as Hsnd. cbv beta in Hsnd. rewrite (below_self _ Ht) in Hsnd. exact (Hsnd _ _ _ _ _ (has_suits _ _ _ Hh) H1 Hav).
Qed.

(** The length of the iterator has been compared with the targets. *)
Definition ready (ts : list target) (it : iterator) : Prop :=
  match it with
  | Unpacked w i j => existsb starred ts = true /\ i + star_before ts <= length (before w) /\ star_after ts <= length (after w) /\ j = 0
  | _ => True
  end.

Lemma unpack_next_ready t ts it it' ty : starred t = false -> ready (t :: ts) it -> unpack_next it = Some (it', ty) ->
  ready ts it' /\ (forall w i j, it = Unpacked w i j -> i < length (before w)).
Proof.
  intros Ht Hr Hu. unfold unpack_next, unpack_next_with in Hu. destruct it as [x|es i|w i j|its|].
  - injection Hu as <- _. split; [exact I|discriminate].
  - destruct (nth_error es i); [|discriminate]. injection Hu as <- _. split; [exact I|discriminate].
  - assert (H : existsb starred ts = true /\ S i + star_before ts <= length (before w) /\ star_after ts <= length (after w) /\ j = 0).
    { destruct t as [n|t|ts2]; [|discriminate|]; cbn in Hr; cbn; destruct Hr as (h1 & h2 & h3 & h4); repeat split; auto; lia. }
    split.
    + destruct (nth_error (before w) i) as [x|] eqn:E; [injection Hu as <- _; exact H|]. apply nth_error_None in E. destruct H as (_ & H & _). lia.
    + intros w' i' j' [= <- <- <-]. destruct H as (_ & H & _). lia.
  - discriminate.
  - injection Hu as <- _. split; [exact I|discriminate].
Qed.

Lemma starred_suits t e ty l ms : list_value l ms -> fits ty l -> (is_targets t = false -> has ty l) ->
  suits t (starred_value list_class defined t e ty) l.
Proof.
  intros Hl Hf Hh. unfold starred_value. destruct (e && negb (is_targets t) && defined t); [|split; assumption].
  apply has_suits. apply (has_list _ _ _ _ _ _ _ _ _ _ _ L _ _ ms Hl). apply Forall_forall. intros x _. apply (has_any _ _ _ _ _ _ _ _ _ _ _ L).
Qed.

Lemma assign_each_sound ts : Forall (fun t => sound (below t)) ts -> forall a it vs is bts bvs,
  yields it vs -> ready ts it -> (existsb starred ts = true -> a = star_after ts) ->
  assigned_all ts vs bvs -> assign_each ts a it = Some (is, bts) -> well bts bvs.
Proof.
  induction ts as [|t ts IH]; intros HS a it vs is bts bvs Hy Hre Hc Ha He.
  - inversion Ha. constructor.
  - inversion Ha as [|t' v ts' vs' b1 b2 Hs Hav Hr|t' l ms ts' vs' b1 b2 Hs Hl Hlv Hav Hr]; subst.
    + rewrite (assign_each_item _ _ _ _ Hs) in He. destruct (unpack_next it) as [[it' ty]|] eqn:Eu; [|discriminate].
      apply seq_result in He. destruct He as (i1 & c1 & i2 & c2 & H1 & H2 & [= -> ->]).
      destruct (unpack_next_ready _ _ _ _ _ Hs Hre Eu) as [Hre' Hw].
      destruct (unpack_next_yields _ _ _ _ _ Hy Eu Hw) as [Hh Hy'].
      apply well_app.
      * pose proof (Forall_inv HS) as Hsnd. cbv beta in Hsnd. rewrite (below_self _ Hs) in Hsnd. exact (Hsnd _ _ _ _ _ (has_suits _ _ _ Hh) H1 Hav).
      * refine (IH (Forall_inv_tail HS) a _ _ _ _ _ Hy' Hre' _ Hr H2).
        intros Hst. destruct t as [n|t|ts2]; [|discriminate|]; apply Hc; exact Hst.
    + specialize (Hc eq_refl). cbn [star_after] in Hc. subst a. rewrite assign_each_star in He.
      destruct (unpack_starred it (length ts) (is_targets t') true) as [[[it' e] ty]|] eqn:Eu; [|discriminate].
      apply seq_result in He. destruct He as (i1 & c1 & i2 & c2 & H1 & H2 & [= -> ->]).
      assert (Hlong : long_enough it 0 (length ts)).
      { destruct it; try exact I. cbn in Hre. cbn. destruct Hre as (_ & h2 & h3 & h4). repeat split; auto. }
      destruct (unpack_starred_yields _ _ _ _ _ _ _ _ _ _ Hy Hl Hlong Eu Hlv) as (Hf & Hy' & Hh).
      apply well_app.
      * pose proof (Forall_inv HS) as Hsnd. cbv beta in Hsnd. cbn [below] in Hsnd. refine (Hsnd _ _ _ _ _ _ H1 Hav).
        exact (starred_suits _ _ _ _ _ Hlv Hf Hh).
      * exact (assign_each_after _ (Forall_inv_tail HS) Hs _ _ _ _ _ _ Hy' Hr H2).
Qed.

Lemma assign_any_sound ts : Forall (fun t => sound (below t)) ts -> forall vs is bts bvs,
  in_sequence (fun t => assign_targets t Any) ts = Some (is, bts) -> assigned_all ts vs bvs -> well bts bvs.
Proof.
  induction ts as [|t ts IH]; intros HS vs is bts bvs He Ha.
  - inversion Ha. constructor.
  - rewrite in_sequence_cons in He. apply seq_result in He. destruct He as (i1 & c1 & i2 & c2 & H1 & H2 & [= -> ->]).
    pose proof (Forall_inv HS) as Hsnd. cbv beta in Hsnd.
    inversion Ha as [|t' v ts' vs' b1 b2 Hs Hav Hr|t' l ms ts' vs' b1 b2 Hs Hl Hlv Hav Hr]; subst.
    + apply well_app; [|exact (IH (Forall_inv_tail HS) _ _ _ _ H2 Hr)]. rewrite (below_self _ Hs) in Hsnd.
      exact (Hsnd _ _ _ _ _ (has_suits _ _ _ (has_any _ _ _ _ _ _ _ _ _ _ _ L v)) H1 Hav).
    + apply well_app; [|exact (IH (Forall_inv_tail HS) _ _ _ _ H2 Hr)]. cbn [below] in Hsnd. cbn [UnpackModel.assign_targets] in H1.
      refine (Hsnd _ _ _ _ _ (has_suits _ _ _ _) H1 Hav). apply (has_list _ _ _ _ _ _ _ _ _ _ _ L _ _ ms Hlv).
      apply Forall_forall. intros x _. apply (has_any _ _ _ _ _ _ _ _ _ _ _ L).
Qed.

Lemma assign_tuple_target_sound ts it vs is bts bvs : Forall (fun t => sound (below t)) ts ->
  (forall w i j, it = Unpacked w i j -> i = 0 /\ j = 0) ->
  yields it vs -> assigned_all ts vs bvs -> assign_tuple_target ts it = Some (is, bts) -> well bts bvs.
Proof.
  intros HS H0 Hy Ha He. unfold UnpackModel.assign_tuple_target, targets_len_infos in He.
  destruct (iterator_len it) as [actual|] eqn:El; [|discriminate].
  rewrite (count_spec ts 0 (assigned_one_star _ _ _ Ha)) in He.
  destruct (existsb starred ts) eqn:Es; cbv iota zeta beta in He; cbn [plus] in He.
  - change (1 <? 1) with false in He. cbv iota in He. rewrite app_nil_r in He.
    destruct (length_issue (WithStar (star_before ts) (star_after ts)) actual) as [|x js] eqn:Ei.
    + refine (assign_each_sound ts HS _ _ _ _ _ _ Hy _ (fun _ => eq_refl) Ha He).
      destruct it as [x|es i|w i j|its|]; try exact I. destruct (H0 w i j eq_refl) as [-> ->]. cbn in El. injection El as <-. unfold length_issue in Ei.
      destruct (length (before w) <? star_before ts) eqn:E1; [discriminate|]. destruct (length (after w) <? star_after ts) eqn:E2; [discriminate|].
      apply Nat.ltb_ge in E1, E2. cbn. auto.
    + apply seq_result in He. destruct He as (i1 & c1 & i2 & c2 & H1 & H2 & [= -> ->]). injection H1 as <- <-. exact (assign_any_sound ts HS _ _ _ _ H2 Ha).
  - change (1 <? 0) with false in He. cbv iota in He. rewrite app_nil_r in He.
    destruct (length_issue (FixedLength (length ts)) actual) as [|x js] eqn:Ei.
    + refine (assign_each_sound ts HS _ _ _ _ _ _ Hy _ _ Ha He); [|rewrite Es; discriminate].
      destruct it as [x|es i|w i j|its|]; try exact I. cbn in El. injection El as <-. discriminate.
    + apply seq_result in He. destruct He as (i1 & c1 & i2 & c2 & H1 & H2 & [= -> ->]). injection H1 as <- <-. exact (assign_any_sound ts HS _ _ _ _ H2 Ha).
Qed.

(** Iterators that were not used yet *)
Fixpoint fresh (it : iterator) : Prop :=
  match it with
  | Unpacked w i j => i = 0 /\ j = 0
  | Several its => (fix all its := match its with [] => True | it :: its => fresh it /\ all its end) its
  | _ => True
  end.

Lemma fresh_several its : fresh (Several its) <-> Forall fresh its.
Proof.
  induction its as [|it its IH]; cbn [fresh]; [split; [constructor|auto]|]. split.
  - intros [H1 H2]. constructor; [exact H1|]. apply IH. exact H2.
  - intros H. split; [exact (Forall_inv H)|]. apply IH. exact (Forall_inv_tail H).
Qed.

Lemma tuple_iter_fresh a : fresh (tuple_iter a).
Proof. destruct a; cbn; auto. Qed.

Lemma class_iter_fresh c gs : fresh (snd (class_iter items c gs)).
Proof. unfold class_iter. destruct (items c gs); cbn; [apply tuple_iter_fresh|exact I|exact I]. Qed.

Lemma iter_fresh t : fresh (snd (iter t)).
Proof.
  induction t as [| | |c gs|s|a|ts IH|n b IH|n t IH|n t IH] using type_induction; cbn [UnpackModel.iter snd]; try exact I.
  - apply class_iter_fresh.
  - apply class_iter_fresh.
  - apply tuple_iter_fresh.
  - apply fresh_several. rewrite map_map. apply Forall_map. exact IH.
  - destruct b; [exact IH|exact I].
  - exact IH.
  - exact IH.
Qed.

Lemma fresh_unpacked it w i j : fresh it -> it = Unpacked w i j -> i = 0 /\ j = 0.
Proof. intros H ->. exact H. Qed.

Lemma iter_fits t v vs : fits t v -> iterates v vs -> yields (snd (iter t)) vs.
Proof.
  intros [H|(a & ws & -> & Hl & Ht)] Hi; [exact (iter_yields _ _ _ H Hi)|]. cbn. apply tuple_iter_yields.
  rewrite (iterates_once _ _ _ _ _ _ _ _ _ _ _ L _ _ _ (list_iterates _ _ _ _ _ _ _ _ _ _ _ L _ _ Hl) Hi). exact Ht.
Qed.

Lemma members_fits t v : fits t v -> exists m, In m (members t) /\ fits m v.
Proof.
  intros [H|(a & ws & -> & Hl & Ht)].
  - destruct (members_complete _ _ H) as (m & Hm & Hv). exists m. split; [exact Hm|left; exact Hv].
  - exists (Tuple a). split; [left; reflexivity|]. right. exists a, ws. auto.
Qed.

Theorem assign_sound t : sound t.
Proof.
  remember (target_size t) as n eqn:En. assert (Hn : target_size t <= n) by lia. clear En. revert t Hn.
  induction n as [|n IH]; intros t Hn; [destruct t; cbn in Hn; lia|].
  intros ty v jss bts bvs [Hf Hh] He Ha. destruct t as [x|t|ts].
  - inversion Ha. subst. cbn in He. injection He as _ <-. constructor; [|constructor]. exists ty. split; [left; reflexivity|exact (Hh eq_refl)].
  - inversion Ha.
  - inversion Ha as [|ts' v' vs bs Hi Hall]; subst. cbn [UnpackModel.assign_targets] in He.
    assert (HS : Forall (fun t => sound (below t)) ts).
    { apply Forall_forall. intros t Ht. apply IH. assert (target_size t < target_size (Targets ts)).
      { cbn. clear - Ht. induction ts as [|u ts IH]; [destruct Ht|]. cbn. destruct Ht as [->|Ht]; [lia|]. specialize (IH Ht). lia. }
      assert (target_size (below t) <= target_size t) by (destruct t; cbn; lia). lia. }
    destruct (members_fits _ _ Hf) as (m & Hm & Hfm).
    destruct (in_sequence_result _ _ _ _ He _ Hm) as (i0 & c & Hc & Hincl & _).
    unfold UnpackModel.assign_member in Hc. apply seq_result in Hc. destruct Hc as (i1 & c1 & i2 & c2 & H1 & H2 & [= -> ->]).
    destruct (iter m) as [is it] eqn:Eit. pose proof (iter_fits _ _ _ Hfm Hi) as Hy. pose proof (iter_fresh m) as Hfr. rewrite Eit in Hy, Hfr. cbn in Hy, Hfr.
    apply seq_result in H2. destruct H2 as (i3 & c3 & i4 & c4 & H3 & H4 & [= -> ->]).
    assert (Hw : well c4 bvs).
    { destruct it as [x|es i|w i j|its|].
      - exact (assign_tuple_target_sound _ _ _ _ _ _ HS (fun w i j => fresh_unpacked _ w i j Hfr) Hy Hall H4).
      - exact (assign_tuple_target_sound _ _ _ _ _ _ HS (fun w i j => fresh_unpacked _ w i j Hfr) Hy Hall H4).
      - exact (assign_tuple_target_sound _ _ _ _ _ _ HS (fun w i j => fresh_unpacked _ w i j Hfr) Hy Hall H4).
      - change (yields (Several its) vs) in Hy. apply yields_several in Hy. destruct Hy as (it & Hit & Hy).
        change (fresh (Several its)) in Hfr. apply fresh_several in Hfr. rewrite Forall_forall in Hfr.
        destruct (in_sequence_result _ _ _ _ H4 _ Hit) as (i5 & c5 & Hc5 & Hincl5 & _).
        apply (well_incl c5); [exact Hincl5|]. exact (assign_tuple_target_sound _ _ _ _ _ _ HS (fun w i j => fresh_unpacked _ w i j (Hfr _ Hit)) Hy Hall Hc5).
      - exact (assign_tuple_target_sound _ _ _ _ _ _ HS (fun w i j => fresh_unpacked _ w i j Hfr) Hy Hall H4). }
    apply (well_incl c4); [|exact Hw]. intros b Hb. apply Hincl. apply in_or_app. right. apply in_or_app. right. exact Hb.
Qed.

End Sound.
