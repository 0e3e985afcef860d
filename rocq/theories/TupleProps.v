(** C53: subscripts and other operations of tuples give the type of what Python gives. *)
From Coq Require Import List ZArith Bool Lia.
From Verif Require Import TupleModel TupleSpec TupleProofs TupleOps TupleExact.
Import ListNotations.
Open Scope Z_scope.

Section C53.
Context {T V : Type}.
Variables (has : T -> V -> Prop) (stands_for : N -> list V -> Prop).
Variables (object error : T) (union : list T -> T) (avoid_implicit_literal : T -> T).
Notation is_tuple := (is_tuple has stands_for).
Notation get_item := (get_item object error union avoid_implicit_literal).
Notation get_slice := (get_slice object error union avoid_implicit_literal).

Hypothesis has_object : forall v, has object v.
Hypothesis has_union : forall l t v, In t l -> has t v -> has (union l) v.
Hypothesis has_avoid : forall t v, has t v -> has (avoid_implicit_literal t) v.

(** [t[i]]: the item Python finds has the type that is inferred, for every tuple of the type of [t] and every value of the index. *)
Theorem C53_item : forall a i t vs z v, get_item a i = ([], t) -> is_tuple a vs -> index_value i z -> item vs z v -> has t v.
Proof. exact (get_item_sound has stands_for object error union avoid_implicit_literal has_object has_union has_avoid). Qed.

(** Without a report, an index of literals raises no IndexError (tuples of arbitrary length aside, which are never reported). *)
Theorem C53_item_exists : forall a i t vs z, get_item a i = ([], t) -> arbitrary a = false -> all_ints i -> is_tuple a vs -> index_value i z ->
  exists v, item vs z v.
Proof.
  intros a i t vs z H Hb Hi Ha Hz.
  assert (G : forall is r, run_on_int_literals (fun s t => union [s; t]) (item_at object error union a) i = (is, r) ->
    (is, match r with Some t => t | None => union_of_entries object union avoid_implicit_literal a end) = ([], t) -> exists v, item vs z v).
  { intros is r Hr He. injection He as -> _. destruct i as [first others|]; [|destruct Hi].
    destruct (run_answers (fun s t => union [s; t]) _ first others (item_at_answers object error union a) Hi) as [is [x [Hx _]]].
    rewrite Hr in Hx. injection Hx as <- ->. destruct (run_literals _ _ _ _ _ Hr) as [f [o [E Hl]]]. injection E as <- <-.
    destruct Hz as [Hz|Hz]; [|destruct (Hi Hz)]. destruct (Hl _ Hz) as [z' [iz [rz [E1 [E2 [E3 _]]]]]]. injection E1 as <-.
    apply (item_at_exists has stands_for object error union a z vs Hb); [|exact Ha]. rewrite E2. exact (E3 eq_refl). }
  unfold TupleModel.get_item in H. destruct a as [ts|t'|w]; [|discriminate Hb|].
  - destruct (run_on_int_literals _ (item_at object error union (FixedLen ts)) i) as [is r] eqn:E. exact (G is r eq_refl H).
  - destruct (run_on_int_literals _ (item_at object error union (WithUnpack w)) i) as [is r] eqn:E. exact (G is r eq_refl H).
Qed.

(** A report is right: for a value of the index and a tuple of the type there is an IndexError. *)
Theorem C53_item_reported : forall a i, all_ints i ->
  (match a with FixedLen ts => inhabited_types has ts | ArbitraryLen _ => True
    | WithUnpack w => inhabited_types has (before w) /\ inhabited_types has (after w) /\ in_middle has stands_for (middle w) [] end) ->
  fst (get_item a i) <> [] -> exists z vs, index_value i z /\ is_tuple a vs /\ forall v, ~ item vs z v.
Proof.
  intros a i Hi Ha H. destruct (shortest has stands_for a Ha) as [vs [Hvs Hs]].
  assert (G : fst (run_on_int_literals (fun s t => union [s; t]) (item_at object error union a) i) <> [] ->
    exists z vs, index_value i z /\ is_tuple a vs /\ forall v, ~ item vs z v).
  { intros Hr. destruct i as [first others|]; [|destruct Hi].
    destruct (run_answers (fun s t => union [s; t]) _ first others (item_at_answers object error union a) Hi) as [is [x [Hx Hz]]].
    rewrite Hx in Hr. cbn [fst] in Hr. destruct (Hz Hr) as [z [Hin Hf]]. exists z, vs. split; [left; exact Hin|]. split; [exact Hvs|].
    intros v. exact (item_at_reported has stands_for object error union a z vs v Hf Hvs Hs). }
  unfold TupleModel.get_item in H. destruct a as [ts|t|w]; [|destruct (H eq_refl)|].
  - destruct (run_on_int_literals _ (item_at object error union (FixedLen ts)) i) as [is r] eqn:E. exact (G H).
  - destruct (run_on_int_literals _ (item_at object error union (WithUnpack w)) i) as [is r] eqn:E. exact (G H).
Qed.

(** With one literal the type is not too wide: each of its values is that item of a tuple of the type of [t]. *)
Theorem C53_item_exact : (forall l v, has (union l) v -> exists t, In t l /\ has t v) ->
  forall a z t v, inhabited_args has a -> arbitrary a = false -> get_item a (Literals (Some z) []) = ([], t) -> has t v ->
  exists vs, is_tuple a vs /\ item vs z v.
Proof.
  intros Hu a z t v Ha Hb H Hv. apply (item_at_exact has stands_for object error union Hu a z t v Ha); [|exact Hv|destruct a; [exact I|discriminate Hb|exact I]].
  assert (Hs := item_at_answers object error union a z). unfold TupleModel.get_item in H. cbn [run_on_int_literals fold_left infer_literal] in H.
  destruct a as [ts|t'|w]; [|discriminate Hb|]; destruct (item_at object error union _ z) as [is [r|]]; cbn in Hs; try (destruct (Hs eq_refl));
    injection H as -> ->; reflexivity.
Qed.

(** [t[start:stop:step]]: Python's slice belongs to one of the tuple types that are inferred.  Left out are only tuples with an
    unpack and some bounds with a negative step (see [right_slice] and the theorems below). *)
Theorem C53_slice_partial : forall a first second third l, get_slice a first second third = ([], l) ->
  forall start stop step vs r, bound_value first start -> bound_value second stop -> step_value third step ->
  right_slice a start stop step -> is_tuple a vs -> sliced vs start stop step r -> exists b, In b l /\ is_tuple b r.
Proof. exact (get_slice_sound has stands_for object error union avoid_implicit_literal has_object has_union has_avoid). Qed.

(** Thus for all slices of tuples without an unpack. *)
Theorem C53_slice : forall a first second third l, get_slice a first second third = ([], l) ->
  (forall w, a <> WithUnpack w) ->
  forall start stop step vs r, bound_value first start -> bound_value second stop -> step_value third step ->
  is_tuple a vs -> sliced vs start stop step r -> exists b, In b l /\ is_tuple b r.
Proof.
  intros a first second third l H Hw start stop step vs r H1 H2 H3 Ha Hr.
  apply (C53_slice_partial a first second third l H start stop step vs r H1 H2 H3); [|exact Ha|exact Hr].
  destruct a as [ts|t|w]; [exact I|exact I|destruct (Hw w eq_refl)].
Qed.

(** With literal bounds, a slice of a tuple of fixed length has the types of exactly the items Python takes. *)
Theorem C53_slice_fixed : forall ts start stop step,
  step <> 0 -> exists ts', get_slice (FixedLen ts) (option_map (fun z => Literals (Some z) []) start) (option_map (fun z => Literals (Some z) []) stop)
    (Some (Literals (Some step) [])) = ([], [FixedLen ts']) /\ sliced ts start stop step ts'.
Proof.
  intros ts start stop step Hs. exists (as_fixed_len_tuple ts start stop step). split; [|exact (fixed_sliced ts start stop step Hs)].
  apply Z.eqb_neq in Hs. unfold TupleModel.get_slice, callback_on_tuple_indexes. cbv zeta.
  destruct start as [s|]; destruct stop as [e|]; cbn; unfold slice_at; rewrite Hs; reflexivity.
Qed.

(** A slice of literals that is within the items before or after the unpack of all tuples is exactly that slice of those items. *)
Theorem C53_slice_within : forall w part start stop step, step <> 0 ->
  (step > 0 /\ (exists e, stop = Some e /\ 0 <= e <= Z.of_nat (length (before w))) /\ (forall s, start = Some s -> 0 <= s) /\ part = before w \/
   step > 0 /\ (exists s, start = Some s /\ s < 0 /\ - s <= Z.of_nat (length (after w))) /\ (forall e, stop = Some e -> e < 0) /\ part = after w \/
   step < 0 /\ (exists e, stop = Some e /\ e < 0 /\ - e - 1 <= Z.of_nat (length (after w))) /\ (forall s, start = Some s -> s < 0) /\ part = after w) ->
  exists ts', get_slice (WithUnpack w) (option_map (fun z => Literals (Some z) []) start) (option_map (fun z => Literals (Some z) []) stop)
    (Some (Literals (Some step) [])) = ([], [FixedLen ts']) /\ sliced part start stop step ts'.
Proof.
  intros w part start stop step Hs H. exists (as_fixed_len_tuple part start stop step). split; [|exact (fixed_sliced part start stop step Hs)].
  assert (G : slice_at error (WithUnpack w) start stop step = ([], FixedLen (as_fixed_len_tuple part start stop step))).
  { unfold slice_at. apply Z.eqb_neq in Hs. rewrite Hs. apply Z.eqb_neq in Hs. unfold unpack_slice, is_some_and, len. cbv zeta.
    destruct H as [[Hp [[e [-> He]] [Hf ->]]]|[[Hp [[s [-> Hf]] [He ->]]]|[Hp [[e [-> He]] [Hf ->]]]]].
    - destruct (step <? 0) eqn:E; [apply Z.ltb_lt in E; lia|]. destruct start as [s|]; [assert (F := Hf s eq_refl)|];
        repeat match goal with |- context [?x <? ?y] => destruct (Z.ltb_spec x y); try lia | |- context [?x >=? ?y] => rewrite (Z.geb_leb x y)
          | |- context [?x <=? ?y] => destruct (Z.leb_spec x y); try lia end; reflexivity.
    - destruct (step <? 0) eqn:E; [apply Z.ltb_lt in E; lia|]. destruct stop as [e|]; [assert (F := He e eq_refl)|];
        repeat match goal with |- context [?x <? ?y] => destruct (Z.ltb_spec x y); try lia | |- context [?x >=? ?y] => rewrite (Z.geb_leb x y)
          | |- context [?x <=? ?y] => destruct (Z.leb_spec x y); try lia end; reflexivity.
    - destruct (step <? 0) eqn:E; [|apply Z.ltb_ge in E; lia]. destruct start as [s|]; [assert (F := Hf s eq_refl)|];
        repeat match goal with |- context [?x <? ?y] => destruct (Z.ltb_spec x y); try lia | |- context [?x >=? ?y] => rewrite (Z.geb_leb x y)
          | |- context [?x <=? ?y] => destruct (Z.leb_spec x y); try lia end; reflexivity. }
  unfold TupleModel.get_slice, callback_on_tuple_indexes. cbv zeta. destruct start as [s|]; destruct stop as [e|]; cbn [option_map run_on_int_literals fold_left infer_literal]; unfold one_tuple; cbn; rewrite ?G; reflexivity.
Qed.

(** A step that may be zero is reported. *)
Theorem C53_slice_zero : forall a first second third l, get_slice a first second (Some third) = ([], l) -> all_ints third ->
  (forall i, first = Some i -> all_ints i) -> (forall i, second = Some i -> all_ints i) -> ~ index_value third 0.
Proof.
  intros a first second third l H Ht Hf Hs H0. unfold TupleModel.get_slice in H.
  destruct (callback_on_tuple_indexes first second (Some third) (slice_at error a)) as [is r] eqn:E. injection H as -> _.
  assert (V1 : forall o, (forall i, o = Some i -> all_ints i) -> exists z, bound_value o z).
  { intros [i|] Hi; [|exists None; exact I]. specialize (Hi i eq_refl). destruct i as [[z|] others|]; [|destruct Hi; left; reflexivity|destruct Hi].
    exists (Some z). left. left. reflexivity. }
  destruct (V1 first Hf) as [start H1]. destruct (V1 second Hs) as [stop H2].
  destruct r as [l'|].
  - apply (callback_covers _ _ _ _ _ _ E eq_refl start stop 0 (fun _ => False)); [tauto|exact H1|exact H2|exact H0|].
    intros b Hb. discriminate Hb.
  - assert (A : forall (i : index) {R} (join : R -> R -> R) f, all_ints i -> (forall z, snd (f z) <> None) -> snd (run_on_int_literals join f i) <> None).
    { intros i R join f Hi Hz. destruct i as [x xs|]; [|destruct Hi]. destruct (run_answers join f x xs Hz Hi) as [is [y [-> _]]]. discriminate. }
    assert (E' := f_equal snd E). cbn [snd] in E'. revert E'. unfold callback_on_tuple_indexes. cbv zeta.
    assert (A3 : forall s e, snd (run_on_int_literals (@app (args T)) (fun step => one_tuple (slice_at error a s e step)) third) <> None).
    { intros s e. apply (A third _ _ _ Ht). intros z. unfold one_tuple. discriminate. }
    assert (A2 : forall s, snd (match second with Some second => run_on_int_literals (@app (args T)) (fun i =>
       run_on_int_literals (@app (args T)) (fun step => one_tuple (slice_at error a s (Some i) step)) third) second
       | None => run_on_int_literals (@app (args T)) (fun step => one_tuple (slice_at error a s None step)) third end) <> None).
    { intros s. destruct second as [i|]; [apply (A i _ _ _ (Hs i eq_refl)); intros z|]; apply A3. }
    destruct first as [i|]; [apply (A i _ _ _ (Hf i eq_refl)); intros z|]; apply A2.
Qed.

(** [t + u] and [t * k] *)
Theorem C53_add : forall a b c zs, tuple_add a b = Some c -> (is_tuple c zs <-> exists xs ys, zs = xs ++ ys /\ is_tuple a xs /\ is_tuple b ys).
Proof.
  intros a b c zs H. split; [exact (tuple_add_exact has stands_for a b c zs H)|]. intros [xs [ys [-> [Hx Hy]]]].
  exact (tuple_add_sound has stands_for a b c xs ys H Hx Hy).
Qed.

Theorem C53_mul : forall a i l vs z, tuple_mul a i = Some l -> is_tuple a vs -> index_value i z -> exists b, In b l /\ is_tuple b (times vs z).
Proof. exact (tuple_mul_sound has stands_for). Qed.

(** [tuple[..., *u, ...]]: its tuples are the values of the parts, one behind the other. *)
Theorem C53_parts : forall ps a vs, tuple_of_parts ps = Some a -> (is_tuple a vs <-> laid_out has stands_for ps vs).
Proof. exact (tuple_of_parts_values has stands_for). Qed.

(** A tuple put in the place of a TypeVarTuple, between other items.  Missing: a tuple with an unpack and items after it, if items follow here too. *)
Theorem C53_replaced_partial : forall a bs cs vs, (forall w, a = WithUnpack w -> cs = [] \/ after w = []) ->
  (is_tuple (add_before_and_after a bs cs) vs <-> exists x y z, vs = x ++ y ++ z /\ Forall2 has bs x /\ is_tuple a y /\ Forall2 has cs z).
Proof. exact (add_before_and_after_values has stands_for). Qed.

End C53.

(** ** A small world: a type is a list of values, or everything *)
Definition small_has (t : option (list N)) (v : N) : Prop := match t with Some l => In v l | None => True end.
Definition small_union (l : list (option (list N))) : option (list N) :=
  fold_right (fun t acc => match t, acc with Some l, Some k => Some (l ++ k) | _, _ => None end) (Some []) l.
Definition small_stands (n : N) (vs : list N) : Prop := vs = [1; 2]%N.
Notation small_tuple := (is_tuple small_has small_stands).
Notation small_item := (get_item None None small_union (fun t => t)).
Notation small_slice := (get_slice None None small_union (fun t => t)).
Definition int : option (list N) := Some [1%N].
Definition str : option (list N) := Some [2%N].
Definition bytes : option (list N) := Some [3%N].

Lemma small_has_union : forall l t v, In t l -> small_has t v -> small_has (small_union l) v.
Proof.
  intros l; induction l as [|s l IH]; intros t v Ht Hv; [destruct Ht|]. cbn [small_union fold_right]. fold (small_union l).
  destruct Ht as [->|Ht]; destruct t as [k|].
  - destruct (small_union l); [|exact I]. apply in_or_app. left. exact Hv.
  - exact I.
  - specialize (IH _ _ Ht Hv). destruct s; [|exact I]. destruct (small_union l); [|exact I]. apply in_or_app. right. exact IH.
  - specialize (IH _ _ Ht Hv). destruct s; [|exact I]. destruct (small_union l); [|exact I]. apply in_or_app. right. exact IH.
Qed.

Lemma small_union_has : forall l v, small_has (small_union l) v -> exists t, In t l /\ small_has t v.
Proof.
  intros l; induction l as [|s l IH]; intros v Hv; [destruct Hv|]. cbn [small_union fold_right] in Hv. fold (small_union l) in Hv.
  destruct s as [k|]; [|exists None; split; [left; reflexivity|exact I]].
  assert (G : In v k \/ small_has (small_union l) v).
  { destruct (small_union l); [|right; exact I]. apply in_app_or in Hv. exact Hv. }
  destruct G as [G|G]; [exists (Some k); split; [left; reflexivity|exact G]|]. destruct (IH v G) as [t [Ht Hh]]. exists t. split; [right; exact Ht|exact Hh].
Qed.

Definition int_strs : args (option (list N)) := WithUnpack (mk_unpack [int] (Many str) []).
Definition strs_int : args (option (list N)) := WithUnpack (mk_unpack [] (Many str) [int]).
Definition int_strs_bytes : args (option (list N)) := WithUnpack (mk_unpack [int] (Many str) [bytes]).
Definition lit (z : Z) : option index := Some (Literals (Some z) []).

(** The second item of [tuple[int, *tuple[str, ...], bytes]] is a [str] or [bytes], the third may be missing. *)
Example C53_item_case : small_item int_strs_bytes (Literals (Some 1) []) = ([], small_union [str; bytes]) /\
  fst (small_item int_strs_bytes (Literals (Some 2) [])) = [IndexOutOfRange (Some 2%nat)] /\
  fst (small_item int_strs_bytes (Literals (Some (-2)) [Some 0])) = [] /\
  inhabited_args small_has int_strs_bytes /\ in_middle small_has small_stands (Many str) [].
Proof.
  split; [reflexivity|]. split; [reflexivity|]. split; [reflexivity|]. split; [|constructor].
  split; [constructor; [exists 1%N; left; reflexivity|constructor]|]. split; [constructor; [exists 3%N; left; reflexivity|constructor]|].
  exists str, 2%N. split; [reflexivity|left; reflexivity].
Qed.

(** [t[1:-1]] and [t[::-1]] *)
Example C53_slice_case :
  small_slice int_strs_bytes (lit 1) (lit (-1)) None = ([], [ArbitraryLen str]) /\
  small_slice int_strs_bytes None None (lit (-1)) = ([], [WithUnpack (mk_unpack [bytes] (Many str) [int])]) /\
  right_slice int_strs_bytes None None (-1) /\ right_slice int_strs_bytes (Some 1) (Some (-1)) 1 /\
  small_tuple int_strs_bytes [1; 2; 2; 3]%N /\ sliced [1; 2; 2; 3]%N None None (-1) [3; 2; 2; 1]%N /\
  small_slice (FixedLen [int; str; bytes]) (lit (-1)) None (lit (-2)) = ([], [FixedLen [bytes; int]]).
Proof.
  split; [reflexivity|]. split; [reflexivity|]. split; [intros _; right; right; split; [reflexivity|split; [reflexivity|exists str; reflexivity]]|].
  split; [intros H; discriminate H|]. split; [|split; [exact (sliced_rev [1; 2; 2; 3]%N)|reflexivity]].
  exists [1]%N, [2; 2]%N, [3]%N. split; [reflexivity|]. split; [constructor; [left; reflexivity|constructor]|].
  split; [constructor; [left; reflexivity|constructor; [left; reflexivity|constructor]]|]. constructor; [left; reflexivity|constructor].
Qed.

(** [t[1::-1]] of a [tuple[int, *tuple[str, ...]]] is [(t[1], t[0])], but the type is [tuple[int]]. *)
Theorem C53_start_refuted : exists a start l vs r, small_slice a start None (lit (-1)) = ([], l) /\ bound_value start (Some 1) /\
  small_tuple a vs /\ sliced vs (Some 1) None (-1) r /\ forall b, In b l -> ~ small_tuple b r.
Proof.
  exists int_strs, (lit 1), [FixedLen [int]], [1; 2]%N, [2; 1]%N. split; [reflexivity|]. split; [left; left; reflexivity|]. split.
  { exists [1]%N, [2]%N, []. split; [reflexivity|]. split; [constructor; [left; reflexivity|constructor]|].
    split; [constructor; [left; reflexivity|constructor]|constructor]. }
  split; [exact (fixed_sliced [1; 2]%N (Some 1) None (-1) ltac:(lia))|]. intros b [<-|[]] H. apply Forall2_len in H. discriminate H.
Qed.

(** [t[:0:-1]] leaves out the first item, but the type keeps it. *)
Theorem C53_stop_refuted : exists a stop l vs r, small_slice a None stop (lit (-1)) = ([], l) /\ bound_value stop (Some 0) /\
  small_tuple a vs /\ sliced vs None (Some 0) (-1) r /\ forall b, In b l -> ~ small_tuple b r.
Proof.
  exists int_strs, (lit 0), [WithUnpack (mk_unpack [] (Many str) [int])], [1]%N, []. split; [reflexivity|]. split; [left; left; reflexivity|]. split.
  { exists [1]%N, [], []. split; [reflexivity|]. split; [constructor; [left; reflexivity|constructor]|]. split; constructor. }
  split; [exact (fixed_sliced [1]%N None (Some 0) (-1) ltac:(lia))|]. intros b [<-|[]] [l [m [q [E [_ [_ Hq]]]]]].
  apply Forall2_len in Hq. symmetry in E. apply app_eq_nil in E. destruct E as [_ E]. apply app_eq_nil in E. destruct E as [_ ->]. discriminate Hq.
Qed.

(** [t[-1::-1]] starts with the last item, but the type leaves it out. *)
Theorem C53_last_refuted : exists a start l vs r, small_slice a start None (lit (-1)) = ([], l) /\ bound_value start (Some (-1)) /\
  small_tuple a vs /\ sliced vs (Some (-1)) None (-1) r /\ forall b, In b l -> ~ small_tuple b r.
Proof.
  exists strs_int, (lit (-1)), [ArbitraryLen str], [1]%N, [1]%N. split; [reflexivity|]. split; [left; left; reflexivity|]. split.
  { exists [], [], [1]%N. split; [reflexivity|]. split; [constructor|]. split; [constructor|]. constructor; [left; reflexivity|constructor]. }
  split; [exact (fixed_sliced [1]%N (Some (-1)) None (-1) ltac:(lia))|]. intros b [<-|[]] H. inversion H as [|? ? Hx _]; subst.
  destruct Hx as [E|[]]; discriminate E.
Qed.

(** [t[::-1]] of a [tuple[*Ts]] is not a [tuple[*Ts]]. *)
Theorem C53_reversed_refuted : exists a l vs r, small_slice a None None (lit (-1)) = ([], l) /\
  small_tuple a vs /\ sliced vs None None (-1) r /\ forall b, In b l -> ~ small_tuple b r.
Proof.
  exists (WithUnpack (mk_unpack [] (TypeVarTuple 0) [])), [WithUnpack (mk_unpack [] (TypeVarTuple 0) [])], [1; 2]%N, [2; 1]%N. split; [reflexivity|].
  split; [exists [], [1; 2]%N, []; repeat (split; [constructor|]); constructor|]. split; [exact (sliced_rev [1; 2]%N)|].
  intros b [<-|[]] [l [m [q [E [Hl [Hm Hq]]]]]]. inversion Hl; subst. inversion Hq; subst. cbn in Hm. unfold small_stands in Hm. subst m. discriminate E.
Qed.

(** [tuple[int, *Ts, bytes]] with [*tuple[*tuple[str, ...], int]] for [*Ts] becomes [tuple[int, *tuple[str, ...], bytes, int]]: the items after are in the wrong order. *)
Theorem C53_replaced_refuted : exists a bs cs x y z, Forall2 small_has bs x /\ small_tuple a y /\ Forall2 small_has cs z /\
  ~ small_tuple (add_before_and_after a bs cs) (x ++ y ++ z).
Proof.
  exists strs_int, [int], [bytes], [1]%N, [1]%N, [3]%N. split; [constructor; [left; reflexivity|constructor]|]. split.
  { exists [], [], [1]%N. split; [reflexivity|]. split; [constructor|]. split; [constructor|]. constructor; [left; reflexivity|constructor]. }
  split; [constructor; [left; reflexivity|constructor]|]. intros [l [m [q [E [Hl [Hm Hq]]]]]]. cbn in Hl, Hm, Hq.
  inversion Hl as [|? v1 ? l' H1 Hl']; subst. inversion Hl'; subst. inversion Hq as [|? v2 ? q' H2 Hq']; subst. inversion Hq' as [|? v3 ? q'' H3 Hq'']; subst. inversion Hq''; subst.
  assert (Hlen := f_equal (@length N) E). rewrite !app_length in Hlen. cbn in Hlen. destruct m; [|cbn in Hlen; lia]. cbn in E. injection E as <- <- <-.
  destruct H2 as [H2|[]]. discriminate H2.
Qed.

(** [(1, "") * 2], [(1,) + t] and [tuple[int, *tuple[int, *tuple[str, ...]], bytes]] *)
Example C53_operators_case :
  tuple_mul (FixedLen [int; str]) (Literals (Some 2) [Some (-1)]) = Some [FixedLen [int; str; int; str]; FixedLen []] /\
  tuple_add (FixedLen [bytes]) int_strs = Some (WithUnpack (mk_unpack [bytes; int] (Many str) [])) /\
  tuple_of_parts [Item int; Unpacked int_strs; Item bytes] = Some (WithUnpack (mk_unpack [int; int] (Many str) [bytes])) /\
  tuple_of_parts [Unpacked (ArbitraryLen int)] = Some (ArbitraryLen int) /\
  tuple_of_parts [Unpacked int_strs; Unpacked int_strs] = None /\
  add_before_and_after int_strs [bytes] [bytes] = WithUnpack (mk_unpack [bytes; int] (Many str) [bytes]).
Proof. split; [reflexivity|]. split; [reflexivity|]. split; [reflexivity|]. split; [reflexivity|]. split; reflexivity. Qed.

(** The assumptions about types hold in the small world. *)
Example C53_world : (forall v, small_has None v) /\ (forall l t v, In t l -> small_has t v -> small_has (small_union l) v) /\
  (forall l v, small_has (small_union l) v -> exists t, In t l /\ small_has t v).
Proof. split; [intros v; exact I|]. split; [exact small_has_union|exact small_union_has]. Qed.

Print Assumptions C53_item.
Print Assumptions C53_item_exists.
Print Assumptions C53_item_reported.
Print Assumptions C53_item_exact.
Print Assumptions C53_slice_partial.
Print Assumptions C53_slice.
Print Assumptions C53_slice_fixed.
Print Assumptions C53_slice_within.
Print Assumptions C53_slice_zero.
Print Assumptions C53_add.
Print Assumptions C53_mul.
Print Assumptions C53_parts.
Print Assumptions C53_replaced_partial.
Print Assumptions C53_start_refuted.
Print Assumptions C53_stop_refuted.
Print Assumptions C53_last_refuted.
Print Assumptions C53_reversed_refuted.
Print Assumptions C53_replaced_refuted.
