(** Proofs about slices of tuple types, [+], [*] and the parts of tuples *)
From Coq Require Import List ZArith Bool Lia.
From Verif Require Import TupleModel TupleSpec TupleProofs.
Import ListNotations.
Open Scope Z_scope.

Lemma drop_last_app : forall {A} n (l r : list A), (n <= length r)%nat -> drop_last n (l ++ r) = l ++ drop_last n r.
Proof.
  intros A n l r H. unfold drop_last. rewrite rev_app_distr, skipn_app, rev_app_distr. rewrite rev_length.
  replace (n - length r)%nat with O by lia. cbn [skipn]. rewrite rev_involutive. reflexivity.
Qed.

Lemma skipn_app_le : forall {A} n (l r : list A), (n <= length l)%nat -> skipn n (l ++ r) = skipn n l ++ r.
Proof. intros A n l r H. rewrite skipn_app. replace (n - length l)%nat with O by lia. reflexivity. Qed.

Lemma sliced_In : forall {A} (l r : list A) start stop step v, sliced l start stop step r -> In v r -> In v l.
Proof.
  intros A l r start stop step v [_ H] Hv. apply In_nth_error in Hv. destruct Hv as [k Hk]. rewrite H in Hk. cbv zeta in Hk.
  match type of Hk with (if ?c then _ else _) = _ => destruct c end; [exact (nth_error_In _ _ Hk)|discriminate Hk].
Qed.

Section Sound.
Context {T V : Type}.
Variables (has : T -> V -> Prop) (stands_for : N -> list V -> Prop).
Variables (object error : T) (union : list T -> T) (avoid_implicit_literal : T -> T).
Notation is_tuple := (is_tuple has stands_for).
Notation get_slice := (get_slice object error union avoid_implicit_literal).
Notation union_of_entries := (union_of_entries object union avoid_implicit_literal).

Hypothesis has_object : forall v, has object v.
Hypothesis has_union : forall l t v, In t l -> has t v -> has (union l) v.
Hypothesis has_avoid : forall t v, has t v -> has (avoid_implicit_literal t) v.

Lemma simplified_values : forall w vs, is_tuple (simplified w) vs <-> is_tuple (WithUnpack w) vs.
Proof.
  intros [b m a] vs. unfold simplified. cbn [before middle after]. destruct b as [|x b]; [|reflexivity]. destruct m as [n|t]; [reflexivity|].
  destruct a as [|y a]; [|reflexivity]. cbn. split.
  - intros H. exists [], vs, []. rewrite app_nil_r. split; [reflexivity|]. split; [constructor|]. split; [exact H|constructor].
  - intros [l [m [r [-> [Hl [Hm Hr]]]]]]. inversion Hl; subst. inversion Hr; subst. rewrite app_nil_r. exact Hm.
Qed.

(** The slices that the code treats rightly: all but some with a negative step of a tuple with an unpack *)
Definition right_slice (a : args T) (start stop : option Z) (step : Z) : Prop :=
  match a with
  | WithUnpack w => step < 0 ->
      (exists e, stop = Some e /\ e < 0) \/
      (exists s, start = Some s /\ 0 <= s /\ (s <> Z.of_nat (length (before w)) \/ exists e, stop = Some e /\ s <= e)) \/
      (start = None /\ stop = None /\ exists t, middle w = Many t)
  | _ => True
  end.

Lemma slice_of_part : forall ts part vs start stop step r, Forall2 has ts part -> step <> 0 ->
  (forall x, sliced part start stop step x -> sliced vs start stop step x) ->
  sliced vs start stop step r -> Forall2 has (as_fixed_len_tuple ts start stop step) r.
Proof.
  intros ts part vs start stop step r H Hs Hx Hr.
  rewrite (sliced_unique _ _ _ _ _ _ Hr (Hx _ (fixed_sliced part start stop step Hs))). exact (Forall2_slice has _ _ start stop step H Hs).
Qed.

Lemma same_sign : forall start stop : option Z,
  match start, stop with Some s, Some e => (s <? 0) && (e <? 0) || (s >=? 0) && (e >=? 0) | _, _ => true end = true ->
  forall s e, start = Some s -> stop = Some e -> (s < 0 <-> e < 0).
Proof.
  intros start stop H s e -> ->. apply orb_true_iff in H. rewrite !andb_true_iff, !Z.geb_leb, !Z.ltb_lt, !Z.leb_le in H. lia.
Qed.

Lemma skipping_slice_sound : forall w start stop step b vs r, skipping_slice error w start stop step = ([], b) ->
  (step < 0 -> (exists e, stop = Some e /\ e < 0) \/ (exists s, start = Some s /\ 0 <= s) \/ (start = None /\ stop = None /\ exists t, middle w = Many t)) ->
  is_tuple (WithUnpack w) vs -> sliced vs start stop step r -> is_tuple b r.
Proof.
  intros w start stop step b vs r H Hright [l [m [q [-> [Hl [Hm Hq]]]]]] Hr.
  assert (Ll := Forall2_len _ _ _ Hl). assert (Lq := Forall2_len _ _ _ Hq).
  unfold skipping_slice in H. cbv zeta in H. destruct (step =? 1) eqn:E1.
  - apply Z.eqb_eq in E1. subst step.
    destruct ((value_or_zero start <? 0) || is_some_and stop (fun e => e >=? 0)) eqn:E2; [discriminate H|].
    destruct ((value_or_zero start >? len (before w)) || (- value_or_zero stop >? len (after w))) eqn:E3; [discriminate H|].
    injection H as <-. apply orb_false_iff in E2. destruct E2 as [E2 E4]. apply orb_false_iff in E3. destruct E3 as [E3 E5].
    apply Z.ltb_ge in E2. rewrite Z.gtb_ltb in E3, E5. apply Z.ltb_ge in E3. apply Z.ltb_ge in E5. unfold len in E3, E5.
    assert (Hstop : value_or_zero stop <= 0 /\ (value_or_zero stop = 0 -> stop = None)).
    { destruct stop as [e|]; cbn in *; [|split; [lia|reflexivity]]. rewrite Z.geb_leb in E4. apply Z.leb_gt in E4. split; [lia|]. intros Hz. lia. }
    set (i := Z.to_nat (value_or_zero start)). set (j := Z.to_nat (- value_or_zero stop)).
    assert (Hm2 : sliced (l ++ m ++ q) start stop 1 (skipn i (drop_last j (l ++ m ++ q)))).
    { apply sliced_middle; [rewrite !app_length; unfold i, j; lia|unfold i; lia|unfold j; lia|]. intros Hj. apply Hstop. unfold j in Hj. lia. }
    rewrite (sliced_unique _ _ _ _ _ _ Hr Hm2). apply simplified_values.
    rewrite app_assoc, drop_last_app by (unfold j; lia). rewrite <- app_assoc, skipn_app_le by (unfold i; lia).
    exists (skipn i l), m, (drop_last j q). split; [reflexivity|]. cbn [before middle after]. split; [apply Forall2_skipn; exact Hl|]. split; [exact Hm|].
    unfold drop_last. apply Forall2_rev. apply Forall2_skipn. apply Forall2_rev. exact Hq.
  - destruct (step =? -1) eqn:E6; [|discriminate H]. apply Z.eqb_eq in E6. subst step.
    destruct ((value_or_zero stop <? 0) || is_some_and start (fun e => e >=? 0)) eqn:E2; [discriminate H|].
    destruct ((value_or_zero stop >? len (before w)) || (- value_or_zero start >? len (after w))) eqn:E3; [discriminate H|].
    injection H as <-. apply orb_false_iff in E2. destruct E2 as [E2 E4]. apply Z.ltb_ge in E2.
    destruct (Hright ltac:(lia)) as [[e [-> He]]|[[s [-> Hs]]|[-> [-> [t Ht]]]]].
    + cbn in E2. lia.
    + cbn in E4. rewrite Z.geb_leb in E4. apply Z.leb_gt in E4. lia.
    + cbn [value_or_zero] in *. rewrite (sliced_unique _ _ _ _ _ _ Hr (sliced_rev _)). apply simplified_values. cbn [Z.opp Z.to_nat skipn].
      exists (rev q), (rev m), (rev l). rewrite !rev_app_distr, <- app_assoc. split; [reflexivity|]. cbn [before middle after].
      split; [apply Forall2_rev; exact Hq|]. split; [|apply Forall2_rev; exact Hl]. rewrite Ht in *. cbn in *. apply Forall_rev. exact Hm.
Qed.

Lemma unpack_slice_sound : forall w start stop step b vs r, step <> 0 -> unpack_slice error w start stop step = ([], b) ->
  right_slice (WithUnpack w) start stop step -> is_tuple (WithUnpack w) vs -> sliced vs start stop step r -> is_tuple b r.
Proof.
  intros w start stop step b vs r Hs H Hright [l [m [q [-> [Hl [Hm Hq]]]]]] Hr.
  assert (Ll := Forall2_len _ _ _ Hl). assert (Lq := Forall2_len _ _ _ Hq).
  unfold unpack_slice in H. cbv zeta in H.
  destruct (match start, stop with Some s, Some e => (s <? 0) && (e <? 0) || (s >=? 0) && (e >=? 0) | _, _ => true end) eqn:Esign.
  - assert (Hsign := same_sign _ _ Esign). cbn [andb] in H.
    destruct (is_some_and stop _) eqn:Estop.
    { (* it ends in the items before or, counted from the end, in those after *)
      injection H as <-. destruct stop as [e|]; [|discriminate Estop]. cbn in Estop. cbn [TupleSpec.is_tuple].
      destruct (step <? 0) eqn:Es; [apply Z.ltb_lt in Es|apply Z.ltb_ge in Es]; apply andb_true_iff in Estop; destruct Estop as [E1 E2].
      - apply Z.ltb_lt in E1. apply Z.leb_le in E2. unfold len in E2.
        apply (slice_of_part _ q (l ++ m ++ q) start (Some e) step r Hq Hs); [|exact Hr]. intros x Hx. rewrite app_assoc.
        apply suffix_down; [exact Es|exact E1|lia| |exact Hx]. intros s Hst. apply (Hsign s e Hst eq_refl). exact E1.
      - rewrite Z.geb_leb in E1. apply Z.leb_le in E1. apply Z.leb_le in E2. unfold len in E2.
        apply (slice_of_part _ l (l ++ m ++ q) start (Some e) step r Hl Hs); [|exact Hr]. intros x Hx.
        apply prefix_up; [lia|lia| |exact Hx]. intros s Hst. assert (A := Hsign s e Hst eq_refl). lia. }
    destruct (is_some_and start _) eqn:Estart.
    { injection H as <-. destruct start as [s|]; [|discriminate Estart]. cbn in Estart. cbn [TupleSpec.is_tuple].
      destruct (step <? 0) eqn:Es; [apply Z.ltb_lt in Es|apply Z.ltb_ge in Es]; apply andb_true_iff in Estart; destruct Estart as [E1 E2].
      - rewrite Z.geb_leb in E1. apply Z.leb_le in E1. apply Z.leb_le in E2. unfold len in E2.
        assert (He : forall e, stop = Some e -> 0 <= e) by (intros e Hst; assert (A := Hsign s e eq_refl Hst); lia).
        apply (slice_of_part _ l (l ++ m ++ q) (Some s) stop step r Hl Hs); [|exact Hr]. intros x Hx.
        apply prefix_down; [exact Es|exact E1| |exact He|lia|exact Hx].
        destruct (Hright Es) as [[e [Hst Hneg]]|[[s' [Hss [Hs0 Hcase]]]|[Hss _]]].
        + assert (A := He e Hst). lia.
        + injection Hss as <-. destruct Hcase as [Hne|Hex]; [left; lia|right; exact Hex].
        + discriminate Hss.
      - apply Z.ltb_lt in E1. apply Z.leb_le in E2. unfold len in E2.
        apply (slice_of_part _ q (l ++ m ++ q) (Some s) stop step r Hq Hs); [|exact Hr]. intros x Hx. rewrite app_assoc.
        apply suffix_up; [lia|exact E1|lia| |exact Hx]. intros e Hst. apply (Hsign s e eq_refl Hst). exact E1. }
    apply (skipping_slice_sound w start stop step b (l ++ m ++ q) r H); [|exists l, m, q; auto|exact Hr].
    intros Hneg. destruct (Hright Hneg) as [A|[[s [A1 [A2 _]]]|A]]; [left; exact A|right; left; exists s; auto|right; right; exact A].
  - cbn [andb] in H. apply (skipping_slice_sound w start stop step b (l ++ m ++ q) r H); [|exists l, m, q; auto|exact Hr].
    intros Hneg. destruct (Hright Hneg) as [A|[[s [A1 [A2 _]]]|A]]; [left; exact A|right; left; exists s; auto|right; right; exact A].
Qed.

Lemma slice_at_sound : forall a start stop step b vs r, slice_at error a start stop step = ([], b) -> right_slice a start stop step ->
  is_tuple a vs -> sliced vs start stop step r -> is_tuple b r.
Proof.
  intros a start stop step b vs r H Hright Ha Hr. unfold slice_at in H. destruct (step =? 0) eqn:E; [discriminate H|]. apply Z.eqb_neq in E.
  destruct a as [ts|t|w].
  - injection H as <-. apply (slice_of_part ts vs vs start stop step r Ha E); [auto|exact Hr].
  - injection H as <-. cbn in *. rewrite Forall_forall in *. intros v Hv. apply Ha. exact (sliced_In _ _ _ _ _ _ Hr Hv).
  - exact (unpack_slice_sound w start stop step b vs r E H Hright Ha Hr).
Qed.

Definition one_of_these (r : list V) (l : list (args T)) : Prop := exists b, In b l /\ is_tuple b r.

Lemma one_of_app : forall r x y, one_of_these r x \/ one_of_these r y -> one_of_these r (x ++ y).
Proof. intros r x y [[b [Hb H]]|[b [Hb H]]]; exists b; (split; [apply in_or_app; auto|exact H]). Qed.

(** A bound that is a literal for the code *)
Lemma run_bound : forall {R} (join : R -> R -> R) f i is r o, run_on_int_literals join f i = (is, Some r) -> bound_value (Some i) o ->
  exists z iz rz, o = Some z /\ f z = (iz, Some rz) /\ (is = [] -> iz = []) /\
    forall P : R -> Prop, (forall x y, P x \/ P y -> P (join x y)) -> P rz -> P r.
Proof.
  intros R join f i is r o H Ho. destruct (run_literals _ _ _ _ _ H) as [first [others [-> Hl]]].
  assert (Hn : ~ In None (first :: others)).
  { intros Hin. destruct (Hl _ Hin) as [z [iz [rz [E _]]]]. discriminate E. }
  destruct o as [z|]; [|destruct (Hn Ho)]. destruct Ho as [Ho|Ho]; [|destruct (Hn Ho)].
  destruct (Hl _ Ho) as [z' [iz [rz [E [E2 E3]]]]]. injection E as <-. exists z, iz, rz. auto.
Qed.

(** [callback_on_tuple_indexes]: an answer covers what the callback answers for the values of the bounds. *)
Lemma callback_covers : forall first second third f is l, callback_on_tuple_indexes first second third f = (is, Some l) -> is = [] ->
  forall start stop step (P : list (args T) -> Prop), (forall x y, P x \/ P y -> P (x ++ y)) ->
  bound_value first start -> bound_value second stop -> step_value third step ->
  (forall b, f start stop step = ([], b) -> P [b]) -> P l.
Proof.
  intros first second third f is l H Hi start stop step P Hj H1 H2 H3 Hf. subst is. unfold callback_on_tuple_indexes in H. cbv zeta in H.
  set (third_of := fun start stop : option Z => match third with
      | Some third => run_on_int_literals (@app (args T)) (fun step => one_tuple (f start stop step)) third
      | None => one_tuple (f start stop 1) end) in H.
  set (second_of := fun start : option Z => match second with
      | Some second => run_on_int_literals (@app (args T)) (fun i => third_of start (Some i)) second
      | None => third_of start None end) in H.
  assert (A3 : forall l3, third_of start stop = ([], Some l3) -> P l3).
  { intros l3 E. unfold third_of in E. destruct third as [third|].
    - assert (Hb : bound_value (Some third) (Some step)) by (destruct third; exact H3).
      destruct (run_bound _ _ _ _ _ _ E Hb) as [z [iz [rz [Ez [E2 [E3 E4]]]]]]. injection Ez as <-. apply (E4 P Hj).
      unfold one_tuple in E2. destruct (f start stop step) as [x b] eqn:Ef. cbn in E2. injection E2 as -> <-. apply Hf. rewrite (E3 eq_refl). reflexivity.
    - cbn in H3. subst step. unfold one_tuple in E. destruct (f start stop 1) as [x b] eqn:Ef. cbn in E. injection E as -> <-. apply Hf. reflexivity. }
  assert (A2 : forall l2, second_of start = ([], Some l2) -> P l2).
  { intros l2 E. unfold second_of in E. destruct second as [second|].
    - destruct (run_bound _ _ _ _ _ _ E H2) as [z [iz [rz [-> [E2 [E3 E4]]]]]]. apply (E4 P Hj). apply A3. rewrite (E3 eq_refl) in E2. exact E2.
    - destruct stop; [destruct H2|]. exact (A3 _ E). }
  destruct first as [first|].
  - destruct (run_bound _ _ _ _ _ _ H H1) as [z [iz [rz [-> [E2 [E3 E4]]]]]]. apply (E4 P Hj). apply A2. rewrite (E3 eq_refl) in E2. exact E2.
  - destruct start; [destruct H1|]. exact (A2 _ H).
Qed.

Lemma get_slice_sound : forall a first second third l, get_slice a first second third = ([], l) ->
  forall start stop step vs r, bound_value first start -> bound_value second stop -> step_value third step ->
  right_slice a start stop step -> is_tuple a vs -> sliced vs start stop step r -> exists b, In b l /\ is_tuple b r.
Proof.
  intros a first second third l H start stop step vs r H1 H2 H3 Hright Ha Hr. unfold TupleModel.get_slice in H.
  destruct (callback_on_tuple_indexes first second third (slice_at error a)) as [is [k|]] eqn:E; injection H as -> <-.
  - apply (callback_covers _ _ _ _ _ _ E eq_refl start stop step (one_of_these r)); try assumption; [apply one_of_app|].
    intros b Hb. exists b. split; [left; reflexivity|]. exact (slice_at_sound a start stop step b vs r Hb Hright Ha Hr).
  - exists (ArbitraryLen (union_of_entries a)). split; [left; reflexivity|]. cbn. apply Forall_forall. intros v Hv.
    exact (union_entries has stands_for object union avoid_implicit_literal has_object has_union has_avoid a vs v Ha (sliced_In _ _ _ _ _ _ Hr Hv)).
Qed.

(** ** [+] and [*] *)

Lemma tuple_add_sound : forall a b c xs ys, tuple_add a b = Some c -> is_tuple a xs -> is_tuple b ys -> is_tuple c (xs ++ ys).
Proof.
  intros a b c xs ys H Ha Hb. destruct a as [ts|t|u]; destruct b as [us|s|w]; try discriminate H; injection H as <-; cbn in *.
  - apply Forall2_app; assumption.
  - destruct Hb as [l [m [r [-> [Hl [Hm Hr]]]]]]. exists (xs ++ l), m, r. rewrite <- app_assoc. split; [reflexivity|].
    split; [apply Forall2_app; assumption|]. split; assumption.
  - destruct Ha as [l [m [r [-> [Hl [Hm Hr]]]]]]. exists l, m, (r ++ ys). rewrite <- !app_assoc. split; [reflexivity|]. split; [exact Hl|].
    split; [exact Hm|]. apply Forall2_app; assumption.
Qed.

(** And nothing is lost: every tuple of the sum is a sum. *)
Lemma tuple_add_exact : forall a b c zs, tuple_add a b = Some c -> is_tuple c zs -> exists xs ys, zs = xs ++ ys /\ is_tuple a xs /\ is_tuple b ys.
Proof.
  intros a b c zs H Hc. destruct a as [ts|t|u]; destruct b as [us|s|w]; try discriminate H; injection H as <-; cbn in *.
  - apply Forall2_app_split. exact Hc.
  - destruct Hc as [l [m [r [-> [Hl [Hm Hr]]]]]]. apply Forall2_app_split in Hl. destruct Hl as [x [y [-> [Hx Hy]]]].
    exists x, (y ++ m ++ r). rewrite <- app_assoc. split; [reflexivity|]. split; [exact Hx|]. exists y, m, r. auto.
  - destruct Hc as [l [m [r [-> [Hl [Hm Hr]]]]]]. apply Forall2_app_split in Hr. destruct Hr as [x [y [-> [Hx Hy]]]].
    exists (l ++ m ++ x), y. rewrite <- !app_assoc. split; [reflexivity|]. split; [|exact Hy]. exists l, m, x. auto.
Qed.

Lemma cycle_rounds : forall {A} (ts : list A) k, cycle_take (k * length ts) ts ts = concat (repeat ts k).
Proof.
  intros A ts. assert (G : forall rest n, cycle_take (length rest + n) rest ts = rest ++ cycle_take n [] ts).
  { intros rest; induction rest as [|x rest IH]; intros n; [reflexivity|]. cbn. rewrite IH. reflexivity. }
  assert (Z0 : forall k, cycle_take (k * length ts) [] ts = concat (repeat ts k)).
  { intros k; induction k as [|k IH]; [reflexivity|]. cbn [repeat concat Nat.mul]. rewrite <- IH.
    destruct ts as [|x ts]; [cbn; destruct (k * 0)%nat; reflexivity|]. change (length (x :: ts) + k * length (x :: ts))%nat with (S (length ts + k * length (x :: ts))).
    cbn [cycle_take app]. f_equal. rewrite G. reflexivity. }
  intros [|k]; [reflexivity|]. cbn [Nat.mul]. rewrite G, Z0. reflexivity.
Qed.

Lemma Forall2_repeat : forall ts (vs : list V) k, Forall2 has ts vs -> Forall2 has (concat (repeat ts k)) (concat (repeat vs k)).
Proof. intros ts vs k H. induction k as [|k IH]; [constructor|]. cbn. apply Forall2_app; assumption. Qed.

Lemma tuple_mul_sound : forall a i l vs z, tuple_mul a i = Some l -> is_tuple a vs -> index_value i z -> exists b, In b l /\ is_tuple b (times vs z).
Proof.
  intros a i l vs z H Ha Hz. destruct a as [ts|t|w]; [|injection H as <-|discriminate H].
  - unfold tuple_mul in H. match type of H with snd ?x = _ => destruct x as [is o] eqn:E end. cbn in H. subst o.
    destruct (run_literals _ _ _ _ _ E) as [first [others [-> Hl]]]. destruct Hz as [Hz|Hz]; [|destruct (Hl _ Hz) as [? [? [? [Hx _]]]]; discriminate Hx].
    destruct (Hl _ Hz) as [z' [iz [rz [E1 [E2 [_ E4]]]]]]. injection E1 as <-. apply (E4 (one_of_these (times vs z))); [apply one_of_app|].
    cbv zeta in E2. destruct (Z.max z 0 >? 10); [discriminate E2|]. injection E2 as _ <-. eexists. split; [left; reflexivity|].
    rewrite cycle_rounds. unfold times. replace (Z.to_nat (Z.max z 0)) with (Z.to_nat z) by lia. apply Forall2_repeat. exact Ha.
  - exists (ArbitraryLen t). split; [left; reflexivity|]. cbn in *. unfold times. rewrite Forall_forall in *. intros v Hv. apply Ha.
    induction (Z.to_nat z) as [|k IH]; [destruct Hv|]. cbn in Hv. apply in_app_or in Hv. destruct Hv as [Hv|Hv]; [exact Hv|exact (IH Hv)].
Qed.

(** ** Parts *)

Lemma add_before_and_after_values : forall a bs cs vs,
  (forall w, a = WithUnpack w -> cs = [] \/ after w = []) ->
  (is_tuple (add_before_and_after a bs cs) vs <-> exists x y z, vs = x ++ y ++ z /\ Forall2 has bs x /\ is_tuple a y /\ Forall2 has cs z).
Proof.
  intros a bs cs vs Hc.
  assert (M : forall x y : list T, merge_types x y = x ++ y) by (intros [|x xs] [|y ys]; cbn; rewrite ?app_nil_r; reflexivity).
  destruct a as [ts|t|w]; cbn [add_before_and_after].
  - cbn. split.
    + intros H. apply Forall2_app_split in H. destruct H as [x [y [-> [Hx Hy]]]]. apply Forall2_app_split in Hy. destruct Hy as [y' [z [-> [Hy Hz]]]].
      exists x, y', z. auto.
    + intros [x [y [z [-> [Hx [Hy Hz]]]]]]. apply Forall2_app; [exact Hx|]. apply Forall2_app; assumption.
  - assert (G : is_tuple (WithUnpack (mk_unpack bs (Many t) cs)) vs <-> exists x y z, vs = x ++ y ++ z /\ Forall2 has bs x /\ Forall (has t) y /\ Forall2 has cs z) by (cbn; reflexivity).
    destruct bs; [destruct cs|]; try exact G. cbn. split.
    + intros H. exists [], vs, []. rewrite app_nil_r. split; [reflexivity|]. split; [constructor|]. split; [exact H|constructor].
    + intros [x [y [z [-> [Hx [Hy Hz]]]]]]. inversion Hx; subst. inversion Hz; subst. rewrite app_nil_r. exact Hy.
  - cbn. rewrite !M. assert (Hcs : cs ++ after w = after w ++ cs).
    { destruct (Hc w eq_refl) as [-> | ->]; rewrite app_nil_r; reflexivity. }
    rewrite Hcs. split.
    + intros [l [m [r [-> [Hl [Hm Hr]]]]]]. apply Forall2_app_split in Hl. destruct Hl as [x [l' [-> [Hx Hl]]]].
      apply Forall2_app_split in Hr. destruct Hr as [r' [z [-> [Hr Hz]]]]. exists x, (l' ++ m ++ r'), z. rewrite <- !app_assoc. split; [reflexivity|].
      split; [exact Hx|]. split; [|exact Hz]. exists l', m, r'. auto.
    + intros [x [y [z [-> [Hx [[l [m [r [-> [Hl [Hm Hr]]]]]] Hz]]]]]]. exists (x ++ l), m, (r ++ z). rewrite <- !app_assoc. split; [reflexivity|].
      split; [apply Forall2_app; assumption|]. split; [exact Hm|]. apply Forall2_app; assumption.
Qed.

(** The values gathered so far *)
Definition gathered (g : gatherer T) (vs : list V) : Prop :=
  match g_unpack g with
  | None => g_after g = [] /\ Forall2 has (g_before g) vs
  | Some u => exists l m r, vs = l ++ m ++ r /\ Forall2 has (g_before g) l /\ in_middle has stands_for u m /\ Forall2 has (g_after g) r
  end.

Lemma into_tuple_values : forall g vs, (g_unpack g = None -> g_after g = []) -> (is_tuple (into_tuple_args g) vs <-> gathered g vs).
Proof.
  intros [b u a] vs Hg. unfold into_tuple_args, gathered. cbn [g_before g_unpack g_after] in *. destruct u as [u|].
  - assert (G : is_tuple (WithUnpack (mk_unpack b u a)) vs <-> exists l m r, vs = l ++ m ++ r /\ Forall2 has b l /\ in_middle has stands_for u m /\ Forall2 has a r) by (cbn; reflexivity).
    destruct u as [n|t]; [exact G|]. destruct b; [|exact G]. destruct a; [|exact G]. rewrite <- G. cbn. split.
    + intros H. exists [], vs, []. rewrite app_nil_r. split; [reflexivity|]. split; [constructor|]. split; [exact H|constructor].
    + intros [l [m [r [-> [Hl [Hm Hr]]]]]]. inversion Hl; subst. inversion Hr; subst. rewrite app_nil_r. exact Hm.
  - cbn. rewrite (Hg eq_refl). tauto.
Qed.

Lemma gathered_types : forall g ts vs, (g_unpack g = None -> g_after g = []) ->
  (gathered (add_types g ts) vs <-> exists x y, vs = x ++ y /\ gathered g x /\ Forall2 has ts y).
Proof.
  intros [b u a] ts vs Hg. unfold gathered, add_types. cbn [g_before g_unpack g_after] in *. destruct u as [u|]; cbn [g_before g_unpack g_after].
  - split.
    + intros [l [m [r [-> [Hl [Hm Hr]]]]]]. apply Forall2_app_split in Hr. destruct Hr as [r' [y [-> [Hr Hy]]]].
      exists (l ++ m ++ r'), y. rewrite <- !app_assoc. split; [reflexivity|]. split; [|exact Hy]. exists l, m, r'. auto.
    + intros [x [y [-> [[l [m [r [-> [Hl [Hm Hr]]]]]] Hy]]]]. exists l, m, (r ++ y). rewrite <- !app_assoc. split; [reflexivity|]. split; [exact Hl|].
      split; [exact Hm|]. apply Forall2_app; assumption.
  - rewrite (Hg eq_refl). split.
    + intros [_ H]. apply Forall2_app_split in H. destruct H as [x [y [-> [Hx Hy]]]]. exists x, y. auto.
    + intros [x [y [-> [[_ Hx] Hy]]]]. split; [reflexivity|]. apply Forall2_app; assumption.
Qed.

Lemma gather_values : forall ps g g' vs, gather ps g = Some g' -> (g_unpack g = None -> g_after g = []) ->
  (g_unpack g' = None -> g_after g' = []) /\
  (gathered g' vs <-> exists x y, vs = x ++ y /\ gathered g x /\ laid_out has stands_for ps y).
Proof.
  intros ps; induction ps as [|p ps IH]; intros g g' vs H Hg.
  - injection H as <-. split; [exact Hg|]. split.
    + intros Hv. exists vs, []. rewrite app_nil_r. split; [reflexivity|]. split; [exact Hv|constructor].
    + intros [x [y [-> [Hx Hy]]]]. inversion Hy; subst. rewrite app_nil_r. exact Hx.
  - destruct p as [t|a]; cbn [gather] in H.
    + assert (Ht : add_type g t = add_types g [t]) by reflexivity. rewrite Ht in H.
      assert (Hg1 : g_unpack (add_types g [t]) = None -> g_after (add_types g [t]) = []).
      { unfold add_types. destruct (g_unpack g) eqn:E; cbn; [discriminate|]. intros _. exact (Hg eq_refl). }
      destruct (IH _ _ vs H Hg1) as [A B]. split; [exact A|]. rewrite B. split.
      * intros [x [y [-> [Hx Hy]]]]. apply (gathered_types g [t] x Hg) in Hx. destruct Hx as [x' [z [-> [Hx Hz]]]].
        inversion Hz as [|? v ? z' Hv Hz']; subst. inversion Hz'; subst. exists x', (v :: y). rewrite <- app_assoc. split; [reflexivity|].
        split; [exact Hx|]. constructor; assumption.
      * intros [x [y [-> [Hx Hy]]]]. inversion Hy as [|? v ? y' Hv Hy'|]; subst. exists (x ++ [v]), y'. rewrite <- app_assoc. split; [reflexivity|].
        split; [|exact Hy']. apply (gathered_types g [t] _ Hg). exists x, [v]. split; [reflexivity|]. split; [exact Hx|]. constructor; [exact Hv|constructor].
    + destruct (add_tuple_args g a) as [g1|] eqn:E; [|discriminate H].
      assert (G : (g_unpack g1 = None -> g_after g1 = []) /\ forall vs, gathered g1 vs <-> exists x y, vs = x ++ y /\ gathered g x /\ is_tuple a y).
      { destruct a as [ts|t|w]; cbn [add_tuple_args] in E.
        - injection E as <-. split; [|intros k; exact (gathered_types g ts k Hg)].
          unfold add_types. destruct (g_unpack g) eqn:Eu; cbn; [discriminate|]. intros _. exact (Hg eq_refl).
        - unfold add_unpack in E. destruct (g_unpack g) eqn:Eu; [discriminate E|]. injection E as <-. cbn [g_unpack]. split; [discriminate|].
          intros k. unfold gathered. cbn [g_before g_unpack g_after]. rewrite Eu, (Hg eq_refl). cbn. split.
          + intros [l [m [r [-> [Hl [Hm Hr]]]]]]. inversion Hr; subst. rewrite app_nil_r. exists l, m. auto.
          + intros [x [y [-> [[_ Hx] Hy]]]]. exists x, y, []. rewrite app_nil_r. auto.
        - unfold add_with_unpack in E. destruct (g_unpack g) eqn:Eu; [discriminate E|]. injection E as <-. cbn [g_unpack]. split; [discriminate|].
          intros k. unfold gathered. cbn [g_before g_unpack g_after]. rewrite Eu, (Hg eq_refl). cbn. split.
          + intros [l [m [r [-> [Hl [Hm Hr]]]]]]. apply Forall2_app_split in Hl. destruct Hl as [x [y [-> [Hx Hy]]]].
            exists x, (y ++ m ++ r). rewrite <- !app_assoc. split; [reflexivity|]. split; [auto|]. exists y, m, r. auto.
          + intros [x [y [-> [[_ Hx] [l [m [r [-> [Hl [Hm Hr]]]]]]]]]]. exists (x ++ l), m, r. rewrite <- !app_assoc. split; [reflexivity|].
            split; [apply Forall2_app; assumption|]. auto. }
      destruct G as [G1 G2]. destruct (IH _ _ vs H G1) as [A B]. split; [exact A|]. rewrite B. split.
      * intros [x [y [-> [Hx Hy]]]]. apply G2 in Hx. destruct Hx as [x' [z [-> [Hx Hz]]]]. exists x', (z ++ y). rewrite <- app_assoc. split; [reflexivity|].
        split; [exact Hx|]. constructor; assumption.
      * intros [x [y [-> [Hx Hy]]]]. inversion Hy as [| |? z ? y' Hz Hy']; subst. exists (x ++ z), y'. rewrite <- app_assoc. split; [reflexivity|].
        split; [|exact Hy']. apply G2. exists x, z. auto.
Qed.

Lemma tuple_of_parts_values : forall ps a vs, tuple_of_parts ps = Some a -> (is_tuple a vs <-> laid_out has stands_for ps vs).
Proof.
  intros ps a vs H. unfold tuple_of_parts in H. destruct (gather ps empty_gatherer) as [g|] eqn:E; [|discriminate H]. injection H as <-.
  destruct (gather_values ps empty_gatherer g vs E (fun _ => eq_refl)) as [A B]. rewrite (into_tuple_values g vs A), B. split.
  - intros [x [y [-> [[_ Hx] Hy]]]]. inversion Hx; subst. exact Hy.
  - intros Hv. exists [], vs. split; [reflexivity|]. split; [|exact Hv]. split; [reflexivity|constructor].
Qed.

End Sound.
