(** Proofs about comparisons of [len] *)
From Coq Require Import List NArith ZArith Bool Lia.
From Verif Require Import TupleModel TupleSpec SubtypeModel SubtypeSpec NarrowModel NarrowSpec NarrowProofs.
Import ListNotations.
Open Scope N_scope.

Lemma up_to_in : forall i n, In i (up_to n) <-> i < n.
Proof.
  intros i n. unfold up_to. rewrite in_map_iff. split.
  - intros [k [<- H]]. apply in_seq in H. lia.
  - intros H. exists (N.to_nat i). split; [lia|]. apply in_seq. lia.
Qed.

Section Len.
Context {V : Type}.
Variables (w : world V) (env : N -> V -> Prop).
Notation has := (has w env).
Notation holds_of := (Forall2 (fun (s : V -> Prop) x => s x)).

Lemma map_repeated : forall t n, map has (repeated t n) = repeat (has t) (N.to_nat n).
Proof. intros t n. unfold repeated. induction (N.to_nat n) as [|k IH]; cbn [repeat map]; congruence. Qed.

Lemma repeat_items : forall (s : V -> Prop) n vs, holds_of (repeat s n) vs <-> length vs = n /\ Forall s vs.
Proof.
  intros s n. induction n as [|n IH]; intros vs; cbn [repeat].
  - split; [intros H; inversion H; subst; now split|]. intros [H _]. destruct vs; [constructor|discriminate].
  - split.
    + intros H. inversion H as [|a x l xs Hx Hl]; subst. apply IH in Hl as [E Hl]. cbn [length]. split; [now rewrite E|now constructor].
    + intros [E H]. destruct vs as [|x xs]; [discriminate|]. cbn [length] in E. constructor; [exact (Forall_inv H)|]. apply IH.
      split; [congruence|exact (Forall_inv_tail H)].
Qed.

Lemma items_length : forall ss vs, holds_of ss vs -> length vs = length ss.
Proof. intros ss vs H. induction H as [|s x ss vs _ _ IH]; cbn [length]; congruence. Qed.

Lemma has_fixed : forall ts v, has (Tuple (FixedLen ts)) v <-> exists vs, tuple_value w v vs /\ holds_of (map has ts) vs.
Proof. reflexivity. Qed.

Lemma has_arbitrary : forall t v, has (Tuple (ArbitraryLen t)) v <-> exists vs, tuple_value w v vs /\ Forall (has t) vs.
Proof. reflexivity. Qed.

Lemma has_variable : forall b t a v, has (of_variable_len b t a) v <->
  exists x y z, tuple_value w v (x ++ y ++ z) /\ holds_of (map has b) x /\ Forall (has t) y /\ holds_of (map has a) z.
Proof.
  intros b t a v. split.
  - intros [vs [H1 [x [y [z [-> [H2 [H3 H4]]]]]]]]. cbn in H2, H3, H4. exists x, y, z. repeat split; assumption.
  - intros [x [y [z [H1 [H2 [H3 H4]]]]]]. exists (x ++ y ++ z). split; [exact H1|]. exists x, y, z. repeat split; assumption.
Qed.

Lemma has_unpack : forall b u a v, has (Tuple (WithUnpack (mk_unpack b u a))) v ->
  exists vs, tuple_value w v vs /\ (length b + length a <= length vs)%nat.
Proof.
  intros b u a v H. assert (H' : exists x y z, tuple_value w v (x ++ y ++ z) /\ holds_of (map has b) x /\ holds_of (map has a) z).
  { destruct u; destruct H as [vs [H1 [x [y [z [-> [H2 [H3 H4]]]]]]]]; exists x, y, z; auto. }
  destruct H' as [x [y [z [H1 [H2 H4]]]]]. exists (x ++ y ++ z). split; [exact H1|].
  apply items_length in H2, H4. rewrite map_length in H2, H4. rewrite !app_length. lia.
Qed.

Lemma has_middle_fixed : forall b t a n v, has (of_fixed_len (b ++ repeated t n ++ a)) v <->
  exists x y z, tuple_value w v (x ++ y ++ z) /\ holds_of (map has b) x /\ (Forall (has t) y /\ length y = N.to_nat n) /\ holds_of (map has a) z.
Proof.
  intros b t a n v. unfold of_fixed_len. rewrite has_fixed, !map_app, map_repeated. split.
  - intros [vs [H1 H2]]. apply Forall2_app_inv_l in H2 as [x [r [H2 [H3 ->]]]]. apply Forall2_app_inv_l in H3 as [y [z [H3 [H4 ->]]]].
    apply repeat_items in H3 as [E H3]. exists x, y, z. auto.
  - intros [x [y [z [H1 [H2 [[H3 E] H4]]]]]]. exists (x ++ y ++ z). split; [exact H1|]. apply Forall2_app; [exact H2|]. apply Forall2_app; [|exact H4].
    now apply repeat_items.
Qed.

Lemma has_more : forall b t a n v, has (of_variable_len (b ++ repeated t n) t a) v <->
  exists x y z, tuple_value w v (x ++ y ++ z) /\ holds_of (map has b) x /\ (Forall (has t) y /\ N.to_nat n <= length y)%nat /\ holds_of (map has a) z.
Proof.
  intros b t a n v. rewrite has_variable, map_app, map_repeated. split.
  - intros [x [y [z [H1 [H2 [H3 H4]]]]]]. apply Forall2_app_inv_l in H2 as [x1 [x2 [H2 [H5 ->]]]]. apply repeat_items in H5 as [E H5].
    exists x1, (x2 ++ y), z. rewrite <- !app_assoc in *. rewrite app_length. repeat split; auto; [apply Forall_app; auto|lia].
  - intros [x [y [z [H1 [H2 [[H3 E] H4]]]]]]. exists (x ++ firstn (N.to_nat n) y), (skipn (N.to_nat n) y), z.
    rewrite <- (firstn_skipn (N.to_nat n) y) in H1, H3. apply Forall_app in H3 as [H3 H5].
    split; [|split; [|split; [exact H5|exact H4]]].
    + rewrite <- !app_assoc in *. exact H1.
    + apply Forall2_app; [exact H2|]. apply repeat_items. split; [rewrite firstn_length; lia|exact H3].
Qed.

Variables (named_tuple : N -> option N) (len_of : V -> N).
Hypothesis Hlen : measured w named_tuple len_of.

(** The test on a length *)
Definition passes (k : len_narrowing) (n : N) (v : V) : bool := matches_fixed_len (len_of v) n k.

Definition of_narrowed (r : narrowed) (t : type) : list type := match r with Crash => [] | Instead ts => ts | Stays => [t] end.

(** The tuple types where a side has exactly what belongs there *)
Definition precise (n : N) (a : args type) (negative : bool) (k : len_narrowing) : Prop :=
  match a with
  | FixedLen _ => True
  | ArbitraryLen _ => n <= 8 /\ (k = Equals -> negative = false)
  | WithUnpack (mk_unpack _ (TypeVarTuple _) _) => False
  | WithUnpack (mk_unpack _ (Many _) _) => n <= 7 /\ (k = Equals -> negative = false)
  end.

Lemma lower_than_spec : forall n k l, match fst (lower_than n k) with
  | Some lower => matches_fixed_len l n k = (if snd (lower_than n k) then negb (l <? lower) else l <? lower)
  | None => k = Equals /\ snd (lower_than n k) = false
  end.
Proof.
  intros n [] l; cbn [lower_than fst snd matches_fixed_len]; [split; reflexivity|..]; repeat match goal with |- context [?a <? ?b] => destruct (N.ltb_spec a b) end;
    repeat match goal with |- context [?a <=? ?b] => destruct (N.leb_spec a b) end; cbn [negb]; try reflexivity; lia.
Qed.

Lemma eqb_false_neq : forall a b, eqb a b = false -> a = negb b.
Proof. intros [] [] H; cbn in H; try discriminate; reflexivity. Qed.

Lemma fixed_len : forall ts v, has (of_fixed_len ts) v -> len_of v = len ts.
Proof.
  intros ts v H. apply has_fixed in H as [vs [H1 H2]]. rewrite (law_len w _ _ Hlen _ _ H1). unfold len. apply items_length in H2.
  rewrite map_length in H2. now rewrite H2.
Qed.

Lemma unique_len : forall v l m, tuple_value w v l -> tuple_value w v m -> length l = length m.
Proof. intros v l m H1 H2. apply (law_len w _ _ Hlen) in H1, H2. lia. Qed.

Lemma arbitrary_fixed : forall t n v, has (of_fixed_len (repeated t n)) v <-> has (Tuple (ArbitraryLen t)) v /\ len_of v = n.
Proof.
  intros t n v. unfold of_fixed_len. rewrite has_fixed, has_arbitrary, map_repeated. split.
  - intros [vs [H1 H2]]. apply repeat_items in H2 as [E H2]. split; [now exists vs|]. rewrite (law_len w _ _ Hlen _ _ H1). lia.
  - intros [[vs [H1 H2]] E]. exists vs. split; [exact H1|]. apply repeat_items. split; [|exact H2]. rewrite (law_len w _ _ Hlen _ _ H1) in E. lia.
Qed.

Lemma arbitrary_more : forall t n v, has (of_variable_len (repeated t n) t []) v <-> has (Tuple (ArbitraryLen t)) v /\ n <= len_of v.
Proof.
  intros t n v. rewrite (has_more [] t [] n v : has (of_variable_len (repeated t n) t []) v <-> _), has_arbitrary. split.
  - intros [x [y [z [H1 [H2 [[H3 E] H4]]]]]]. inversion H2; inversion H4; subst. cbn [app] in H1. rewrite app_nil_r in H1.
    split; [now exists y|]. rewrite (law_len w _ _ Hlen _ _ H1). lia.
  - intros [[vs [H1 H2]] E]. exists [], vs, []. cbn [app map]. rewrite app_nil_r. rewrite (law_len w _ _ Hlen _ _ H1) in E.
    split; [exact H1|]. split; [constructor|]. split; [split; [exact H2|lia]|constructor].
Qed.

Lemma middle_len : forall b (t : type) a v x y z, tuple_value w v (x ++ y ++ z) -> holds_of (map has b) x -> holds_of (map has a) z ->
  len_of v = len b + len a + N.of_nat (length y).
Proof.
  intros b t a v x y z H1 H2 H4. rewrite (law_len w _ _ Hlen _ _ H1). apply items_length in H2, H4. rewrite map_length in H2, H4.
  rewrite !app_length. unfold len. lia.
Qed.

Lemma variable_fixed : forall b t a n v, has (of_fixed_len (b ++ repeated t n ++ a)) v <->
  has (of_variable_len b t a) v /\ len_of v = len b + len a + n.
Proof.
  intros b t a n v. rewrite has_middle_fixed, has_variable. split.
  - intros [x [y [z [H1 [H2 [[H3 E] H4]]]]]]. split; [exists x, y, z; auto|]. rewrite (middle_len b t a v x y z H1 H2 H4). lia.
  - intros [[x [y [z [H1 [H2 [H3 H4]]]]]] E]. exists x, y, z. rewrite (middle_len b t a v x y z H1 H2 H4) in E. repeat split; auto. lia.
Qed.

Lemma variable_more : forall b t a n v, has (of_variable_len (b ++ repeated t n) t a) v <->
  has (of_variable_len b t a) v /\ len b + len a + n <= len_of v.
Proof.
  intros b t a n v. rewrite has_more, has_variable. split.
  - intros [x [y [z [H1 [H2 [[H3 E] H4]]]]]]. split; [exists x, y, z; auto|]. rewrite (middle_len b t a v x y z H1 H2 H4). lia.
  - intros [[x [y [z [H1 [H2 [H3 H4]]]]]] E]. exists x, y, z. rewrite (middle_len b t a v x y z H1 H2 H4) in E. repeat split; auto. lia.
Qed.

Lemma unpack_len : forall b u a v, has (Tuple (WithUnpack (mk_unpack b u a))) v -> len b + len a <= len_of v.
Proof.
  intros b u a v H. apply has_unpack in H as [vs [H1 H2]]. rewrite (law_len w _ _ Hlen _ _ H1). unfold len. lia.
Qed.

Lemma in_single : forall (t : type) v, (exists u, In u [t] /\ has u v) <-> has t v.
Proof. intros t v. split; [intros [u [[<-|[]] H]]; exact H|]. intros H. exists t. split; [now left|exact H]. Qed.

Lemma in_none : forall v, (exists u, In u [] /\ has u v) <-> False.
Proof. intros v. split; [intros [u [[] _]]|intros []]. Qed.

Lemma in_range : forall f n v, (exists u, In u (map f (up_to n)) /\ has u v) <-> exists i, i < n /\ has (f i) v.
Proof.
  intros f n v. split.
  - intros [u [H1 H2]]. apply in_map_iff in H1 as [i [<- H1]]. apply up_to_in in H1. now exists i.
  - intros [i [H1 H2]]. exists (f i). split; [|exact H2]. apply in_map. now apply up_to_in.
Qed.

(** What becomes of a tuple *)
Lemma tuple_narrowed : forall n a negative k,
  match narrow_len_for_tuples n a negative k with
  | Crash => True
  | Instead ts => forall v, (exists u, In u ts /\ has u v) <-> has (Tuple a) v /\ passes k n v = negb negative
  | Stays => precise n a negative k -> forall v, has (Tuple a) v -> passes k n v = negb negative
  end.
Proof.
  intros n a negative k. unfold narrow_len_for_tuples, passes. destruct a as [ts|t|[b u a]].
  - destruct (eqb (matches_fixed_len (len ts) n k) negative) eqn:E.
    + apply eqb_prop in E. intros v. rewrite in_none. split; [intros []|]. intros [H1 H2]. rewrite (fixed_len ts v H1) in H2. rewrite E in H2. now destruct negative.
    + apply eqb_false_neq in E. intros _ v H. now rewrite (fixed_len ts v H).
  - pose proof (fun l => lower_than_spec n k l) as L. destruct (N.leb_spec n max_precise_tuple_size) as [B|B].
    2: { intros [P _]. unfold max_precise_tuple_size in B. lia. }
    destruct (fst (lower_than n k)) as [lower|].
    + destruct (N.ltb_spec 0 lower) as [Z|Z].
      * destruct (eqb (snd (lower_than n k)) negative) eqn:E.
        -- apply eqb_prop in E. intros v. rewrite in_range. rewrite L, E. split.
           ++ intros [i [H1 H2]]. apply arbitrary_fixed in H2 as [H2 H3]. split; [exact H2|]. rewrite H3. destruct (N.ltb_spec i lower); [|lia]. now destruct negative.
           ++ intros [H1 H2]. exists (len_of v). destruct (N.ltb_spec (len_of v) lower); [|now destruct negative]. split; [assumption|]. now apply arbitrary_fixed.
        -- apply eqb_false_neq in E. intros v. rewrite in_single, arbitrary_more, L, E.
           destruct (N.ltb_spec (len_of v) lower); destruct negative; cbn [negb]; split; intros [H1 H2]; try (split; [exact H1|]); auto; lia || discriminate.
      * destruct (eqb (snd (lower_than n k)) negative) eqn:E.
        -- apply eqb_prop in E. intros v. rewrite in_none, L, E. split; [intros []|]. intros [_ H]. destruct (N.ltb_spec (len_of v) lower); [lia|]. now destruct negative.
        -- apply eqb_false_neq in E. intros _ v _. rewrite L, E. destruct (N.ltb_spec (len_of v) lower); [lia|]. now destruct negative.
    + destruct (L 0) as [-> E]. rewrite E. destruct negative; cbn [eqb].
      * intros [_ P]. specialize (P eq_refl). discriminate.
      * intros v. rewrite in_single, arbitrary_fixed. cbn [matches_fixed_len negb]. rewrite N.eqb_eq. reflexivity.
  - pose proof (fun l => lower_than_spec n k l) as L.
    destruct ((unwrap_or (n + 1) (fst (lower_than n k)) <=? len b + len a) && eqb (snd (lower_than n k)) negative) eqn:U.
    { apply andb_prop in U as [U E]. apply N.leb_le in U. apply eqb_prop in E. intros v. rewrite in_none. split; [intros []|]. intros [H1 H2].
      apply unpack_len in H1. specialize (L (len_of v)). destruct (fst (lower_than n k)) as [lower|]; cbn [unwrap_or] in U.
      - rewrite L, E in H2. destruct (N.ltb_spec (len_of v) lower); [lia|]. now destruct negative.
      - destruct L as [-> L]. rewrite L in E. subst negative. cbn [matches_fixed_len negb] in H2. apply N.eqb_eq in H2. lia. }
    destruct (N.ltb_spec max_precise_tuple_size (unwrap_or n (fst (lower_than n k)))) as [B|B].
    { destruct u as [m|t]; [intros []|]. intros [P _]. exfalso. unfold max_precise_tuple_size in B. destruct k; cbn [lower_than fst unwrap_or] in B; lia. }
    destruct u as [m|t]; [intros []|].
    destruct (fst (lower_than n k)) as [lower|].
    + unfold difference. destruct (N.ltb_spec lower (len b + len a)) as [D|D]; [exact Logic.I|].
      destruct (eqb (snd (lower_than n k)) negative) eqn:E.
      * apply eqb_prop in E. intros v. rewrite in_range. rewrite L, E. split.
        -- intros [i [H1 H2]]. apply variable_fixed in H2 as [H2 H3]. split; [exact H2|]. destruct (N.ltb_spec (len_of v) lower); [|lia]. now destruct negative.
        -- intros [H1 H2]. pose proof (unpack_len _ _ _ _ H1) as M. exists (len_of v - (len b + len a)). destruct (N.ltb_spec (len_of v) lower); [|now destruct negative].
           split; [lia|]. apply variable_fixed. split; [exact H1|lia].
      * apply eqb_false_neq in E. intros v. rewrite in_single, variable_more, L, E. change (Tuple (WithUnpack (mk_unpack b (Many t) a))) with (of_variable_len b t a).
        destruct (N.ltb_spec (len_of v) lower); destruct negative; cbn [negb]; split; intros [H1 H2]; try (split; [exact H1|]); auto; lia || discriminate.
    + destruct (L 0) as [-> E]. destruct negative; [intros [_ P]; specialize (P eq_refl); discriminate|].
      unfold difference. destruct (N.ltb_spec n (len b + len a)) as [D|D]; [exact Logic.I|].
      intros v. rewrite in_single, variable_fixed. cbn [matches_fixed_len negb]. rewrite N.eqb_eq. change (Tuple (WithUnpack (mk_unpack b (Many t) a))) with (of_variable_len b t a).
      split; intros [H1 H2]; (split; [exact H1|lia]).
Qed.

(** One part of a union *)
Definition precise_part (n : N) (k : len_narrowing) (negative : bool) (t : type) : Prop :=
  match t with
  | Tuple a => precise n a negative k
  | Class c _ => named_tuple c <> None
  | _ => False
  end.

Lemma part_narrowed : forall n k negative out t r, narrow_len_part named_tuple n k negative (Some out) t = Some r ->
  (forall v, has out v -> has r v) /\
  (forall v, has t v -> passes k n v = negb negative -> has r v) /\
  (forall v, has r v -> has out v \/ has t v) /\
  (precise_part n k negative t -> forall v, has r v -> has out v \/ has t v /\ passes k n v = negb negative).
Proof.
  intros n k negative out t r E.
  assert (Join : r = join out t -> (precise_part n k negative t -> forall v, has t v -> passes k n v = negb negative) ->
    (forall v, has out v -> has r v) /\ (forall v, has t v -> passes k n v = negb negative -> has r v) /\ (forall v, has r v -> has out v \/ has t v) /\
    (precise_part n k negative t -> forall v, has r v -> has out v \/ has t v /\ passes k n v = negb negative)).
  { intros -> Q. split; [intros v H; apply has_join; now left|]. split; [intros v H _; apply has_join; now right|].
    split; [intros v H; now apply has_join|]. intros P v H. apply has_join in H as [H|H]; [now left|right]. split; [exact H|]. now apply Q. }
  destruct t as [| | |c gs| | | |a| | | | | | |]; cbn [narrow_len_part] in E; try (injection E as <-; apply Join; [reflexivity|intros []]).
  - destruct (named_tuple c) as [fields|] eqn:F.
    + injection E as E.
      assert (Fields : forall v, has (Class c gs) v -> passes k n v = matches_fixed_len fields n k).
      { intros v H. unfold passes. now rewrite (law_fields w _ _ Hlen c fields _ v F H). }
      destruct (eqb (matches_fixed_len fields n k) negative) eqn:M.
      * apply eqb_prop in M. subst r. split; [auto|]. split; [|split; [auto|auto]]. intros v H H'. rewrite (Fields v H), M in H'. now destruct negative.
      * apply eqb_false_neq in M. apply Join; [now symmetry|]. intros _ v H. now rewrite (Fields v H).
    + injection E as <-. apply Join; [reflexivity|]. cbn [precise_part]. congruence.
  - pose proof (tuple_narrowed n a negative k) as T. destruct (narrow_len_for_tuples n a negative k) as [|ts|]; [discriminate| |].
    + injection E as <-.
      split; [intros v H; apply has_join_all; now left|]. split; [intros v H1 H2; apply has_join_all; right; apply T; now split|].
      split; [intros v H; apply has_join_all in H as [H|H]; [now left|right; now apply T in H]|].
      intros _ v H. apply has_join_all in H as [H|H]; [now left|right; now apply T in H].
    + injection E as <-. apply Join; [reflexivity|exact T].
Qed.

Lemma fold_crashed : forall n k negative ts, fold_left (narrow_len_part named_tuple n k negative) ts None = None.
Proof. intros n k negative ts. induction ts as [|t ts IH]; [reflexivity|exact IH]. Qed.

Lemma parts_narrowed : forall n k negative ts out r, fold_left (narrow_len_part named_tuple n k negative) ts (Some out) = Some r ->
  (forall v, has out v -> has r v) /\
  (forall t v, In t ts -> has t v -> passes k n v = negb negative -> has r v) /\
  (forall v, has r v -> has out v \/ exists t, In t ts /\ has t v) /\
  (Forall (precise_part n k negative) ts -> forall v, has r v -> has out v \/ (exists t, In t ts /\ has t v) /\ passes k n v = negb negative).
Proof.
  intros n k negative ts. induction ts as [|t ts IH]; intros out r E.
  - cbn [fold_left] in E. injection E as <-. split; [auto|]. split; [intros t v []|]. split; auto.
  - cbn [fold_left] in E. destruct (narrow_len_part named_tuple n k negative (Some out) t) as [o|] eqn:P.
    2: { rewrite fold_crashed in E. discriminate. }
    destruct (part_narrowed _ _ _ _ _ _ P) as [A1 [A2 [A3 A4]]]. destruct (IH o r E) as [B1 [B2 [B3 B4]]].
    split; [auto|]. split; [intros u v [<-|Hi] H1 H2; [auto|exact (B2 u v Hi H1 H2)]|]. split.
    + intros v H. destruct (B3 v H) as [H'|[u [H1 H2]]].
      * destruct (A3 v H') as [H''|H'']; [now left|right]. exists t. split; [now left|exact H''].
      * right. exists u. split; [now right|exact H2].
    + intros Q v H. destruct (B4 (Forall_inv_tail Q) v H) as [H'|[[u [H1 H2]] H3]].
      * destruct (A4 (Forall_inv Q) v H') as [H''|[H1 H2]]; [now left|right]. split; [|exact H2]. exists t. split; [now left|exact H1].
      * right. split; [|exact H3]. exists u. split; [now right|exact H2].
Qed.

Lemma side_narrowed : forall n k negative t r, narrow_len_side named_tuple n k negative t = Some r ->
  (forall v, has t v -> passes k n v = negb negative -> has r v) /\
  (forall v, has r v -> has t v) /\
  (Forall (precise_part n k negative) (parts t) -> forall v, has r v <-> has t v /\ passes k n v = negb negative).
Proof.
  intros n k negative t r E. destruct (parts_narrowed _ _ _ _ _ _ E) as [_ [A2 [A3 A4]]].
  assert (Into : forall v, has t v -> passes k n v = negb negative -> has r v).
  { intros v H1 H2. apply (has_parts w env t v) in H1 as [u [H1 H3]]. exact (A2 u v H1 H3 H2). }
  split; [exact Into|]. split.
  - intros v H. destruct (A3 v H) as [[]|H']. now apply has_parts.
  - intros Q v. split; [|intros [H1 H2]; now apply Into]. intros H. destruct (A4 Q v H) as [[]|[H1 H2]]. split; [|exact H2]. now apply has_parts.
Qed.

Lemma passes_compared : forall k n v, passes k n v = compared (match k with
  | Equals => OpEq | GreaterThan => OpGt | LowerThan => OpLt | GreaterEquals => OpGe | LowerEquals => OpLe end) (Z.of_N (len_of v)) (Z.of_N n).
Proof.
  intros k n v. unfold passes. destruct k; cbn [matches_fixed_len compared].
  - destruct (N.eqb_spec (len_of v) n), (Z.eqb_spec (Z.of_N (len_of v)) (Z.of_N n)); reflexivity || lia.
  - rewrite Z.gtb_ltb. destruct (N.ltb_spec n (len_of v)), (Z.ltb_spec (Z.of_N n) (Z.of_N (len_of v))); reflexivity || lia.
  - destruct (N.ltb_spec (len_of v) n), (Z.ltb_spec (Z.of_N (len_of v)) (Z.of_N n)); reflexivity || lia.
  - rewrite Z.geb_leb. destruct (N.leb_spec n (len_of v)), (Z.leb_spec (Z.of_N n) (Z.of_N (len_of v))); reflexivity || lia.
  - destruct (N.leb_spec (len_of v) n), (Z.leb_spec (Z.of_N (len_of v)) (Z.of_N n)); reflexivity || lia.
Qed.

(** The kind of narrowing of a comparison, and whether the sides are swapped *)
Definition kind_of_comparison (len_is_right : bool) (op : operator) : len_narrowing * bool :=
  match op with
  | OpEq => (Equals, false)
  | OpNe => (Equals, true)
  | OpGt => (if len_is_right then LowerThan else GreaterThan, false)
  | OpLt => (if len_is_right then GreaterThan else LowerThan, false)
  | OpGe => (if len_is_right then LowerEquals else GreaterEquals, false)
  | OpLe => (if len_is_right then GreaterEquals else LowerEquals, false)
  end.

Lemma comparison_kind : forall r op n t, narrow_len_comparison named_tuple r op n t =
  (if snd (kind_of_comparison r op) then swap else fun x => x) (narrow_len named_tuple n (fst (kind_of_comparison r op)) t).
Proof. intros [] [] n t; reflexivity. Qed.

Lemma test_kind : forall r op n v, (0 <= n)%Z ->
  len_test r op n (Z.of_N (len_of v)) = xorb (snd (kind_of_comparison r op)) (passes (fst (kind_of_comparison r op)) (Z.to_N n) v).
Proof.
  intros r op n v Hn. rewrite passes_compared, Z2N.id by exact Hn. unfold len_test.
  destruct r, op; cbn [kind_of_comparison fst snd compared xorb]; rewrite ?Z.gtb_ltb, ?Z.geb_leb; try rewrite (Z.eqb_sym n); try reflexivity;
    match goal with |- context [if ?b then _ else _] => now destruct b end.
Qed.
End Len.

(** ** Where there is no answer *)
Section Crash.
Variable named_tuple : N -> option N.

(** The first length that is on the other side *)
Definition bound (n : N) (k : len_narrowing) : N := match k with GreaterThan | LowerEquals => n + 1 | _ => n end.

Definition stuck_tuple (n : N) (k : len_narrowing) (t : type) : Prop :=
  match t with
  | Tuple (WithUnpack (mk_unpack b (Many _) a)) => k <> Equals /\ bound n k < len b + len a /\ bound n k <= 8
  | _ => False
  end.

Lemma tuple_crash : forall n a k, narrow_len_for_tuples n a false k = Crash \/ narrow_len_for_tuples n a true k = Crash <-> stuck_tuple n k (Tuple a).
Proof.
  intros n a k. unfold narrow_len_for_tuples. destruct a as [ts|t|[b u a]].
  - split; [|intros []]. intros [H|H]; revert H; destruct (eqb _ _); discriminate.
  - split; [|intros []]. intros [H|H]; revert H; destruct (n <=? _); try discriminate; destruct (fst _); try discriminate;
      try (destruct (0 <? _)); destruct (eqb _ _); discriminate.
  - destruct u as [m|t].
    + split; [|intros []]. intros [H|H]; revert H; destruct (_ && _); try discriminate; destruct (_ <? _); discriminate.
    + cbn [stuck_tuple]. unfold difference. split.
      * intros H. assert (Hs : exists negative, (if (unwrap_or (n + 1) (fst (lower_than n k)) <=? len b + len a) && eqb (snd (lower_than n k)) negative then False
          else unwrap_or n (fst (lower_than n k)) <= 8 /\
            match fst (lower_than n k) with Some lower => lower < len b + len a | None => negative = false /\ n < len b + len a end)).
        { destruct H as [H|H]; [exists false|exists true]; revert H; destruct (_ && _); try discriminate;
            destruct (N.ltb_spec max_precise_tuple_size (unwrap_or n (fst (lower_than n k)))) as [B|B]; try discriminate; unfold max_precise_tuple_size in B;
            destruct (fst (lower_than n k)) as [lower|]; cbn [unwrap_or] in B |- *.
          - destruct (N.ltb_spec lower (len b + len a)); [auto|]. destruct (eqb _ _); discriminate.
          - destruct (N.ltb_spec n (len b + len a)); [auto|]. discriminate.
          - destruct (N.ltb_spec lower (len b + len a)); [auto|]. destruct (eqb _ _); discriminate.
          - discriminate. }
        destruct Hs as [negative Hs]. destruct k; cbn [lower_than fst snd unwrap_or bound] in *.
        1: { exfalso. destruct negative; cbn [eqb] in Hs.
             - rewrite andb_false_r in Hs. now destruct Hs as [_ [H1 _]].
             - rewrite andb_true_r in Hs. destruct (N.leb_spec (n + 1) (len b + len a)); [exact Hs|]. lia. }
        all: split; [discriminate|]; match type of Hs with if ?c then _ else _ => destruct c end; [contradiction|]; lia.
      * intros [H1 [H2 H3]]. destruct k; cbn [lower_than fst snd unwrap_or bound] in *; [congruence|..]; [left|right|left|right]; cbn [eqb]; rewrite andb_false_r;
          unfold max_precise_tuple_size;
          repeat match goal with |- context [?x <? ?y] => destruct (N.ltb_spec x y); [lia || reflexivity|] end; lia || idtac.
        all: repeat match goal with |- context [?x <? ?y] => destruct (N.ltb_spec x y); [reflexivity|lia] end.
Qed.

Lemma part_crash : forall n k t out1 out2,
  narrow_len_part named_tuple n k false (Some out1) t = None \/ narrow_len_part named_tuple n k true (Some out2) t = None <-> stuck_tuple n k t.
Proof.
  intros n k t out1 out2. destruct t as [| | |c gs| | | |a| | | | | | |]; cbn [narrow_len_part]; try (split; [intros [H|H]; discriminate|intros []]).
  - split; [|intros []]. destruct (named_tuple c); intros [H|H]; discriminate.
  - rewrite <- tuple_crash. destruct (narrow_len_for_tuples n a false k), (narrow_len_for_tuples n a true k);
      split; intros [H|H]; try discriminate; auto.
Qed.

Lemma fold_crash : forall n k negative ts out, fold_left (narrow_len_part named_tuple n k negative) ts (Some out) = None <->
  exists t, In t ts /\ forall out, narrow_len_part named_tuple n k negative (Some out) t = None.
Proof.
  intros n k negative ts. 
  assert (Same : forall t out out', narrow_len_part named_tuple n k negative (Some out) t = None -> narrow_len_part named_tuple n k negative (Some out') t = None).
  { intros [| | |c gs| | | |a| | | | | | |] out out' H; cbn [narrow_len_part] in *; try discriminate.
    - destruct (named_tuple c); discriminate.
    - destruct (narrow_len_for_tuples n a negative k); [reflexivity|discriminate|discriminate]. }
  induction ts as [|t ts IH]; intros out; cbn [fold_left].
  - split; [discriminate|]. intros [t [[] _]].
  - destruct (narrow_len_part named_tuple n k negative (Some out) t) as [o|] eqn:E.
    + rewrite IH. split.
      * intros [u [H1 H2]]. exists u. split; [now right|exact H2].
      * intros [u [[<-|H1] H2]]; [rewrite H2 in E; discriminate|]. now exists u.
    + rewrite fold_crashed. split; [|reflexivity]. intros _. exists t. split; [now left|]. intros out'. exact (Same t out out' E).
Qed.

Lemma narrow_len_crash : forall n k t, narrow_len named_tuple n k t = Crashed <->
  (0 <= n)%Z /\ exists u, In u (parts t) /\ stuck_tuple (Z.to_N n) k u.
Proof.
  intros n k t. unfold narrow_len. destruct (Z.ltb_spec n 0) as [H|H]; [split; [discriminate|lia]|].
  assert (Crash : narrow_len_side named_tuple (Z.to_N n) k false t = None \/ narrow_len_side named_tuple (Z.to_N n) k true t = None <->
    exists u, In u (parts t) /\ stuck_tuple (Z.to_N n) k u).
  { unfold narrow_len_side. rewrite !fold_crash. split.
    - intros [[u [H1 H2]]|[u [H1 H2]]]; exists u; (split; [exact H1|]); apply (part_crash _ _ _ Never Never); auto.
    - intros [u [H1 H2]]. apply (part_crash _ _ _ Never Never) in H2 as [H2|H2]; [left|right]; exists u; (split; [exact H1|]); intros out.
      + destruct u as [| | |c gs| | | |a| | | | | | |]; cbn [narrow_len_part] in *; try discriminate; [now destruct (named_tuple c)|].
        destruct (narrow_len_for_tuples _ a false k); [reflexivity|discriminate|discriminate].
      + destruct u as [| | |c gs| | | |a| | | | | | |]; cbn [narrow_len_part] in *; try discriminate; [now destruct (named_tuple c)|].
        destruct (narrow_len_for_tuples _ a true k); [reflexivity|discriminate|discriminate]. }
  destruct (narrow_len_side named_tuple (Z.to_N n) k false t) as [a|], (narrow_len_side named_tuple (Z.to_N n) k true t) as [b|].
  - split; [discriminate|]. intros [_ C]. apply Crash in C as [C|C]; discriminate.
  - split; [|reflexivity]. intros _. split; [exact H|]. apply Crash. now right.
  - split; [|reflexivity]. intros _. split; [exact H|]. apply Crash. now left.
  - split; [|reflexivity]. intros _. split; [exact H|]. apply Crash. now left.
Qed.
End Crash.
