(** Proofs about loops, displays and sequence patterns *)
From Coq Require Import List NArith Bool Lia PeanoNat.
From Verif Require Import TupleModel TupleSpec UnpackModel UnpackSpec UnpackProofs.
Import ListNotations.
Local Open Scope nat_scope.

Section Other.
Context {V : Type}.
Variables (iterates list_value : V -> list V -> Prop) (has : type -> V -> Prop) (stands_for : N -> list V -> Prop).
Variables (list_class str_class object_class : N) (items : N -> list type -> class_items) (join union : list type -> type)
          (avoid_implicit_literal : type -> type).
Hypothesis L : lawful iterates list_value has stands_for list_class str_class object_class items join union avoid_implicit_literal.

Local Notation iter := (iter str_class items).
Local Notation infer_all := (infer_all object_class union).
Local Notation is_tuple := (is_tuple has stands_for).
Local Notation yields := (yields has stands_for).
Local Notation displayed := (displayed iterates has).
Local Notation in_middle := (in_middle has stands_for).
Local Notation unpack_starred := (unpack_starred list_class object_class join union avoid_implicit_literal).
Local Notation infer_tuple := (infer_tuple str_class object_class items join union avoid_implicit_literal).
Local Notation gather_entries := (gather_entries str_class items).
Local Notation list_generics := (list_generics str_class object_class items join union avoid_implicit_literal).

Lemma infer_all_sound : forall it, covered it -> fresh it -> forall vs, yields it vs -> Forall (has (infer_all it)) vs.
Proof.
  assert (HU : forall ts t v, In t ts -> has t v -> has (union ts) v) by (apply (has_simplified_union _ _ _ _ _ _ _ _ _ _ _ L)).
  fix IH 1. intros it Hc Hf vs Hy. destruct it as [t|es i|w i j|its|].
  - exact Hy.
  - cbn in *. apply (Forall_In2 _ _ _ _ Hy). intros x y Hx. exact (HU _ _ _ Hx).
  - cbn [UnpackModel.infer_all covered UnpackProofs.yields] in *. destruct Hf as [-> ->]. rewrite !skipn_O in *. destruct Hy as (l & m & r & -> & H1 & H2 & H3). destruct (middle w) as [n|t].
    + apply Forall_forall. intros x _. apply (HU _ (object object_class)); [left; reflexivity|]. apply (has_object _ _ _ _ _ _ _ _ _ _ _ L).
    + apply Forall_app. split; [|apply Forall_app; split].
      * apply (Forall_In2 _ _ _ _ H1). intros x y Hx. apply HU. apply in_or_app. left. exact Hx.
      * cbn in H2. revert H2. apply Forall_impl. intros x. apply HU. apply in_or_app. right. left. reflexivity.
      * apply (Forall_In2 _ _ _ _ H3). intros x y Hx. apply HU. destruct (Hc _ Hx) as [->|Hb]; apply in_or_app; [right; left; reflexivity|left; exact Hb].
  - cbn [UnpackModel.infer_all].
    assert (H : exists t, In t (map infer_all its) /\ Forall (has t) vs).
    { revert its Hc Hf Hy. fix IHs 1. intros [|it its] Hc Hf Hy; [destruct Hy|]. destruct Hc as [Hc1 Hc2], Hf as [Hf1 Hf2]. destruct Hy as [Hy|Hy].
      - exists (infer_all it). split; [left; reflexivity|]. exact (IH it Hc1 Hf1 vs Hy).
      - destruct (IHs its Hc2 Hf2 Hy) as (t & Ht & Hv). exists t. split; [right; exact Ht|exact Hv]. }
    destruct H as (t & Ht & Hv). revert Hv. apply Forall_impl. intros v. exact (HU _ _ _ Ht).
  - apply Forall_forall. intros x _. apply (has_any _ _ _ _ _ _ _ _ _ _ _ L).
Qed.

(** * Loops *)
Theorem loop_sound t v vs : covered (snd (iter t)) -> has t v -> iterates v vs -> Forall (has (infer_all (snd (iter t)))) vs.
Proof. intros Hc Hv Hi. apply infer_all_sound; [exact Hc|apply iter_fresh|]. exact (iter_yields _ _ _ _ _ _ _ _ _ _ _ L _ _ _ Hv Hi). Qed.

(** * Displays *)
(** The values that were put together so far *)
Definition gathered (g : gatherer) (vs : list V) : Prop :=
  match g_unpack g with
  | None => Forall2 has (g_before g) vs /\ g_after g = []
  | Some u => exists l m r, vs = l ++ m ++ r /\ Forall2 has (g_before g) l /\ in_middle u m /\ Forall2 has (g_after g) r
  end.

Lemma gathered_slice g ts us vs : gathered g us -> Forall2 has ts vs -> gathered (extend_from_slice g ts) (us ++ vs).
Proof.
  unfold gathered, extend_from_slice. intros Hg Hv. destruct (g_unpack g) as [u|] eqn:E; cbn; rewrite ?E.
  - destruct Hg as (l & m & r & -> & H1 & H2 & H3). exists l, m, (r ++ vs). rewrite !app_assoc. repeat split; auto. apply Forall2_app; assumption.
  - destruct Hg as [Hg Ha]. split; [apply Forall2_app; assumption|exact Ha].
Qed.

Lemma slice_arbitrary g ts : is_arbitrary_length (extend_from_slice g ts) = is_arbitrary_length g.
Proof. unfold extend_from_slice. destruct (g_unpack g); reflexivity. Qed.

Lemma gathered_iterator g it us vs g' : gathered g us -> yields it vs -> fresh it -> extend_from_iterator g it 0 = Some g' -> is_arbitrary_length g' = false ->
  gathered g' (us ++ vs).
Proof.
  intros Hg Hy Hf He Ha. unfold extend_from_iterator in He. destruct it as [t|es i|w i j|its|]; try (injection He as <-; discriminate).
  - change (length es <? 0) with false in He. cbv iota in He. rewrite Nat.sub_0_r in He. destruct (length es <? i); [discriminate|]. injection He as <-.
    apply gathered_slice; [exact Hg|]. rewrite <- (skipn_length i es), firstn_all. exact Hy.
  - destruct Hf as [-> ->]. destruct (g_unpack g) as [u|] eqn:E; [injection He as <-; discriminate|]. injection He as <-.
    unfold gathered in Hg. rewrite E in Hg. destruct Hg as [Hg Haf]. cbn in Hy. destruct Hy as (l & m & r & -> & H1 & H2 & H3).
    unfold extend_from_slice at 1. cbn [g_unpack]. unfold gathered. cbn [g_unpack g_before g_after]. unfold extend_from_slice. rewrite E. cbn [g_before g_after].
    exists (us ++ l), m, r. rewrite !app_assoc. repeat split; auto; [apply Forall2_app; assumption|]. rewrite Haf. exact H3.
Qed.

Lemma entries_gathered es : forall g us vs is g', gathered g us -> displayed es vs -> gather_entries es g = Some (is, g') -> is_arbitrary_length g' = false ->
  gathered g' (us ++ vs).
Proof.
  induction es as [|e es IH]; intros g us vs is g' Hg Hd He Ha.
  - inversion Hd. cbn in He. injection He as <- <-. rewrite app_nil_r. exact Hg.
  - inversion Hd as [|t v es' vs' Hv Hr|t v l es' vs' Hv Hi Hr]; subst.
    + cbn [UnpackModel.gather_entries] in He. change (us ++ v :: vs') with (us ++ [v] ++ vs'). rewrite app_assoc. refine (IH _ _ _ _ _ _ Hr He Ha).
      unfold gatherer_add. apply gathered_slice; [exact Hg|]. constructor; [exact Hv|constructor].
    + cbn [UnpackModel.gather_entries] in He. pose proof (iter_yields _ _ _ _ _ _ _ _ _ _ _ L _ _ _ Hv Hi) as Hy. pose proof (iter_fresh str_class items t) as Hf.
      destruct (iter t) as [is1 it]. cbn [snd] in Hy, Hf. destruct (extend_from_iterator g it 0) as [g1|] eqn:Eg; [|discriminate].
      destruct (is_arbitrary_length g1) eqn:E1; [injection He as <- <-; rewrite E1 in Ha; discriminate|].
      destruct (gather_entries es g1) as [[is2 g2]|] eqn:E2; [|discriminate]. injection He as <- <-. rewrite app_assoc.
      exact (IH _ _ _ _ _ (gathered_iterator _ _ _ _ _ Hg Hy Hf Eg E1) Hr E2 Ha).
Qed.

Definition entry_covered (e : entry) : Prop := match e with One _ => True | Star t => covered (snd (iter t)) end.

Lemma generics_sound es vs : Forall entry_covered es -> displayed es vs -> Forall (has (snd (list_generics es))) vs.
Proof.
  intros Hc Hd. unfold UnpackModel.list_generics. cbn [snd]. set (ts := map snd (map (entry_generic str_class object_class items union avoid_implicit_literal) es)).
  assert (H : Forall (fun v => exists t, In t ts /\ has t v) vs).
  { unfold ts. clear ts. induction Hd as [|t v es vs Hv Hd IH|t v l es vs Hv Hi Hd IH].
    - constructor.
    - constructor; [|revert IH; intros IH; specialize (IH (Forall_inv_tail Hc)); revert IH; apply Forall_impl; intros x (u & Hu & Hx); exists u; split; [right; exact Hu|exact Hx]].
      exists (avoid_implicit_literal t). split; [left; reflexivity|]. apply (has_avoided _ _ _ _ _ _ _ _ _ _ _ L). exact Hv.
    - apply Forall_app. split; [|specialize (IH (Forall_inv_tail Hc)); revert IH; apply Forall_impl; intros x (u & Hu & Hx); exists u; split; [right; exact Hu|exact Hx]].
      pose proof (loop_sound _ _ _ (Forall_inv Hc) Hv Hi) as Hl. revert Hl. apply Forall_impl. intros x Hx. exists (avoid_implicit_literal (infer_all (snd (iter t)))).
      split; [left; unfold entry_generic; destruct (iter t); reflexivity|]. apply (has_avoided _ _ _ _ _ _ _ _ _ _ _ L). exact Hx. }
  revert H. apply Forall_impl. intros v (t & Ht & Hv). exact (has_join _ _ _ _ _ _ _ _ _ _ _ L _ _ _ Ht Hv).
Qed.

Theorem display_sound es vs is a : infer_tuple es = Some (is, Tuple a) -> displayed es vs -> (forall t, a <> ArbitraryLen t) \/ Forall entry_covered es -> is_tuple a vs.
Proof.
  intros He Hd Hc. unfold UnpackModel.infer_tuple in He. destruct (gather_entries es no_items) as [[is1 g]|] eqn:E; [|discriminate].
  unfold into_tuple in He. destruct (is_arbitrary_length g) eqn:Ea.
  - cbn in He. injection He as _ <-. destruct Hc as [Hc|Hc]; [exfalso; exact (Hc _ eq_refl)|]. exact (generics_sound _ _ Hc Hd).
  - assert (Hg : gathered g vs) by (apply (entries_gathered es no_items [] vs is1 g); [split; [constructor|reflexivity]|exact Hd|exact E|exact Ea]).
    unfold gathered in Hg. destruct (g_unpack g) as [u|]; cbn in He; injection He as _ <-; [exact Hg|exact (proj1 Hg)].
Qed.

Theorem display_runs es : exists is a, infer_tuple es = Some (is, Tuple a).
Proof.
  assert (HS : forall t, (fix st it := match it with Fixed _ i => i = 0 | Several its => True | _ => True end) (snd (iter t))).
  { assert (HT : forall a, (fix st it := match it with Fixed _ i => i = 0 | Several its => True | _ => True end) (tuple_iter a)) by (intros []; cbn; auto).
    induction t as [| | |c gs|s|a|ts IH|n b IH|n t IH|n t IH] using type_induction; cbn [UnpackModel.iter snd]; try exact I.
    - unfold class_iter. destruct (items c gs); cbn [snd]; [apply HT|exact I|exact I].
    - unfold class_iter. destruct (items str_class []); cbn [snd]; [apply HT|exact I|exact I].
    - apply HT.
    - destruct b; [exact IH|exact I].
    - exact IH.
    - exact IH. }
  assert (HG : forall g, exists is g', gather_entries es g = Some (is, g')).
  { induction es as [|e es IH]; intros g; [do 2 eexists; reflexivity|]. destruct e as [t|t]; cbn [UnpackModel.gather_entries]; [apply IH|].
    specialize (HS t). destruct (iter t) as [is it]. cbn [snd] in HS.
    assert (Hx : exists g1, extend_from_iterator g it 0 = Some g1).
    { unfold extend_from_iterator. destruct it as [x|l i|w i j|its|]; try (eexists; reflexivity).
      - cbn in HS. subst i. change (length l <? 0) with false. cbv iota. rewrite Nat.sub_0_r. change (length l <? 0) with false. eexists. reflexivity.
      - destruct (g_unpack g); eexists; reflexivity. }
    destruct Hx as (g1 & ->). destruct (is_arbitrary_length g1); [do 2 eexists; reflexivity|]. destruct (IH g1) as (is2 & g2 & ->). do 2 eexists. reflexivity. }
  unfold UnpackModel.infer_tuple. destruct (HG no_items) as (is & g & ->). unfold into_tuple. destruct (is_arbitrary_length g); [do 2 eexists; reflexivity|].
  destruct (g_unpack g); do 2 eexists; reflexivity.
Qed.

(** * Sequence patterns *)
Section Patterns.
Context {P : Type}.
Variables (matches : P -> V -> Prop) (guards : P -> type -> type * type) (is_never : type -> bool) (name_defined : N -> bool).
Hypothesis G : pattern_laws has matches guards is_never.

Local Notation sequence_item := (@sequence_item P).
Local Notation aligned := (@aligned V list_value P).
Local Notation match_each := (match_each list_class object_class join union avoid_implicit_literal guards is_never name_defined).
Local Notation match_tuple := (match_tuple list_class object_class join union avoid_implicit_literal guards is_never name_defined).
Local Notation assign_sequence_patterns := (assign_sequence_patterns list_class guards).
Local Notation customized_after := (customized_after object_class).
Local Notation pattern_state := (@pattern_state P).

(** The types are given to the patterns and the names in order. *)
Definition pattern_fits (m : P * V) (t : P * type) : Prop := fst m = fst t /\ has (snd t) (snd m).
Definition rest_fits (m : N * V) (t : N * type) : Prop := fst m = fst t /\ has (snd t) (snd m).

Fixpoint one_rest (ps : list sequence_item) : bool :=
  match ps with [] => true | Rest _ :: ps => negb (existsb is_rest ps) | Entry _ :: ps => one_rest ps end.

Definition entries (ps : list sequence_item) : nat := length (filter (fun p => negb (is_rest p)) ps).

Lemma count_patterns_after (ps : list sequence_item) : forall n k, existsb is_rest ps = false -> count_patterns ps n k true = Some (n + length ps, k + length ps, true).
Proof.
  induction ps as [|p ps IH]; intros n k H; cbn [count_patterns length]; [rewrite !Nat.add_0_r; reflexivity|].
  destruct p; cbn in H; [|discriminate]. rewrite (IH _ _ H). f_equal. f_equal. f_equal; lia.
Qed.

Lemma no_rest_entries (ps : list sequence_item) : existsb is_rest ps = false -> entries ps = length ps.
Proof. unfold entries. induction ps as [|p ps IH]; intros H; [reflexivity|]. destruct p; cbn in *; [|discriminate]. rewrite (IH H). reflexivity. Qed.

Lemma count_patterns_spec (ps : list sequence_item) : forall n, one_rest ps = true -> count_patterns ps n 0 false = Some (n + entries ps, if existsb is_rest ps then rest_after ps else 0, existsb is_rest ps).
Proof.
  induction ps as [|p ps IH]; intros n H; cbn [count_patterns].
  - rewrite Nat.add_0_r. reflexivity.
  - destruct p as [p|x]; cbn [one_rest existsb is_rest orb rest_after] in *.
    + rewrite (IH _ H). f_equal. f_equal. f_equal. unfold entries. cbn. lia.
    + apply negb_true_iff in H. rewrite (count_patterns_after _ _ _ H). f_equal. f_equal. f_equal. change (entries (Rest x :: ps)) with (entries ps). rewrite (no_rest_entries _ H). reflexivity.
Qed.

Lemma count_patterns_none (ps : list sequence_item) : forall n k s, (count_patterns ps n k s = None) <-> (if s then existsb is_rest ps = true else one_rest ps = false).
Proof.
  induction ps as [|p ps IH]; intros n k s; cbn [count_patterns].
  - destruct s; split; discriminate.
  - destruct p as [p|x]; cbn [one_rest existsb is_rest orb].
    + apply IH.
    + destruct s; [split; reflexivity|]. rewrite (IH _ _ true). split; intros H; [rewrite H; reflexivity|apply negb_false_iff; exact H].
Qed.

Lemma aligned_one_rest ps vs ms rs : aligned ps vs ms rs -> one_rest ps = true.
Proof. induction 1 as [|p v ps vs ms rs H IH|n l l' ps vs ms rs Hr Hl H IH]; [reflexivity|exact IH|]. cbn. rewrite Hr. reflexivity. Qed.

Lemma aligned_length ps vs ms rs : aligned ps vs ms rs -> if existsb is_rest ps then entries ps <= length vs else length vs = length ps.
Proof.
  induction 1 as [|p v ps vs ms rs H IH|n l l' ps vs ms rs Hr Hl H IH]; [reflexivity| |].
  - cbn [existsb is_rest orb length]. destruct (existsb is_rest ps); [unfold entries in *; cbn; lia|lia].
  - cbn [existsb is_rest orb]. rewrite Hr in IH. rewrite app_length. change (entries (Rest n :: ps)) with (entries ps). rewrite (no_rest_entries _ Hr). lia.
Qed.

Lemma aligned_exists ps : forall vs, one_rest ps = true -> (if existsb is_rest ps then entries ps <= length vs else length vs = length ps) -> exists ms rs, aligned ps vs ms rs.
Proof.
  induction ps as [|p ps IH]; intros vs Ho Hl.
  - destruct vs; [|discriminate]. do 2 eexists. constructor.
  - destruct p as [p|n]; cbn [one_rest existsb is_rest orb] in *.
    + destruct vs as [|v vs]; [exfalso; destruct (existsb is_rest ps); [unfold entries in Hl; cbn in Hl; lia|discriminate]|].
      destruct (IH vs Ho) as (ms & rs & Hal); [destruct (existsb is_rest ps); [unfold entries in *; cbn in *; lia|cbn in Hl; lia]|]. do 2 eexists. constructor. exact Hal.
    + apply negb_true_iff in Ho. change (entries (Rest n :: ps)) with (entries ps) in Hl. rewrite (no_rest_entries _ Ho) in Hl.
      set (k := length vs - length ps). destruct (IH (skipn k vs)) as (ms & rs & Hal).
      * clear - Ho. induction ps as [|[p|x] ps IH]; [reflexivity|exact (IH Ho)|discriminate].
      * rewrite Ho, skipn_length. unfold k. lia.
      * destruct (list_exists _ _ _ _ _ _ _ _ _ _ _ L (firstn k vs)) as (l & Hlv). pose proof (al_rest list_value n l _ _ _ _ _ Ho Hlv Hal) as Hall. rewrite firstn_skipn in Hall. do 2 eexists. exact Hall.
Qed.

(** The iterator is where the patterns are: without a rest, in front of it, behind it. *)
Section Invariant.
Variables (normal after_stars : nat) (had : bool).

Definition loosely (w : with_unpack type) (bi ai : nat) (vs : list V) : Prop :=
  exists l m r, vs = l ++ m ++ r /\ Forall2 has (skipn bi (before w)) l /\ Forall (has (fallback_bound object_class (middle w))) m /\ Forall2 has (skipn ai (after w)) r.

Definition no_star (ps : list sequence_item) (i : nat) (w : with_unpack type) (bi ai : nat) (vs : list V) : Prop :=
  had = false /\ existsb is_rest ps = false /\ i + length ps = normal /\ bi <= length (before w) /\ loosely w bi ai vs /\ (ai = 0 \/ bi = length (before w) /\ length ps + ai = length (after w)).

Definition before_star (ps : list sequence_item) (i : nat) (w : with_unpack type) (bi ai : nat) (vs : list V) : Prop :=
  had = true /\ existsb is_rest ps = true /\ bi + rest_before ps <= length (before w) /\ after_stars <= length (after w) /\ ai = 0 /\ i + entries ps = normal /\ yields (UnpackModel.Unpacked w bi ai) vs.

Definition after_star (ps : list sequence_item) (i : nat) (w : with_unpack type) (bi ai : nat) (vs : list V) : Prop :=
  had = true /\ existsb is_rest ps = false /\ bi = length (before w) /\ i + length ps = normal + 1 /\ Forall2 has (skipn ai (after w)) vs.

Definition in_place (ps : list sequence_item) (i : nat) (it : iterator) (vs : list V) : Prop :=
  (existsb is_rest ps = true -> after_stars = rest_after ps) /\
  match it with
  | Fixed es k => k <= length es /\ Forall2 has (skipn k es) vs
  | UnpackModel.Unpacked w bi ai => no_star ps i w bi ai vs \/ before_star ps i w bi ai vs \/ after_star ps i w bi ai vs
  | _ => False
  end.

Lemma place_next p ps i it v vs : in_place (Entry p :: ps) i it (v :: vs) -> (existsb is_rest ps = false -> length vs = length ps) ->
  exists it' ty, unpack_next_with (customized_after normal i had) it = Some (it', ty) /\ has ty v /\ in_place ps (S i) it' vs.
Proof.
  intros [Hr Hp] Hlen. cbn [existsb is_rest orb rest_after] in Hr. unfold unpack_next_with. destruct it as [t|es k|w bi ai|its|]; try contradiction.
  - destruct Hp as [Hk Hv]. destruct (nth_error es k) as [ty|] eqn:E; [|rewrite (nth_skipn_none _ _ E) in Hv; inversion Hv].
    rewrite (nth_skipn _ _ _ E) in Hv. inversion Hv as [|? ? ? ? Ha Hb]; subst. exists (Fixed es (S k)), ty. split; [reflexivity|]. split; [exact Ha|].
    split; [exact Hr|]. split; [|exact Hb]. apply nth_error_Some. rewrite E. discriminate.
  - destruct Hp as [(Hh & Hno & Hn & Hble & Hy & Hai)|[(Hh & Hst & Hbi & Has & Hai & Hn & Hy)|(Hh & Hno & Hbi & Hn & Hv)]]; cbn [existsb is_rest orb rest_before length] in *.
    + destruct Hy as (l & m & r & Hvs & H1 & H2 & H3). destruct (nth_error (before w) bi) as [ty|] eqn:E.
      * rewrite (nth_skipn _ _ _ E) in H1. inversion H1 as [|? ? ? l' Ha Hb]; subst. injection Hvs as -> ->. exists (UnpackModel.Unpacked w (S bi) ai), ty. split; [reflexivity|]. split; [exact Ha|].
        split; [exact Hr|]. left. split; [exact Hh|]. split; [exact Hno|]. split; [lia|]. split; [apply nth_error_Some; rewrite E; discriminate|]. split; [exists l', m, r; auto|].
        destruct Hai as [->|[-> _]]; [left; reflexivity|]. exfalso. rewrite (proj2 (nth_error_None _ _) (le_n _)) in E. discriminate.
      * rewrite (nth_skipn_none _ _ E) in H1. inversion H1; subst l. cbn [app] in Hvs. apply nth_error_None in E.
        assert (Hbl : length (skipn ai (after w)) = length r) by exact (Forall2_len _ _ _ H3). rewrite skipn_length in Hbl.
        assert (Hmr : S (length vs) = length m + length r) by (rewrite <- app_length, <- Hvs; reflexivity). specialize (Hlen Hno).
        unfold UnpackModel.customized_after. rewrite Hh, Nat.add_0_r. destruct (Nat.ltb_spec (length (after w)) (normal - i)) as [Hlt|Hge].
        -- exists (UnpackModel.Unpacked w bi ai), (fallback_bound object_class (middle w)). split; [reflexivity|].
           destruct m as [|x m]; [exfalso; cbn in Hmr; lia|]. injection Hvs as -> ->. split; [exact (Forall_inv H2)|].
           assert (Hz : ai = 0) by (destruct Hai as [Hz|[_ Hz]]; [exact Hz|lia]). split; [exact Hr|]. left. split; [exact Hh|]. split; [exact Hno|]. split; [lia|]. split; [lia|]. split; [|left; exact Hz].
           exists [], m, r. cbn [app]. rewrite (skipn_all2 _ E). split; [reflexivity|]. split; [constructor|]. split; [exact (Forall_inv_tail H2)|exact H3].
        -- assert (Hm0 : m = [] /\ length r = S (length vs) /\ ai < length (after w)).
           { destruct m as [|x m]; [cbn in Hmr; repeat split; [lia|]; lia|]. exfalso. cbn in Hmr. destruct Hai as [->|[_ Hz]]; lia. }
           destruct Hm0 as (-> & Hrl & Hlt). cbn [app] in Hvs. subst r. destruct (nth_error (after w) ai) as [ty|] eqn:E2; [|apply nth_error_None in E2; lia].
           rewrite (nth_skipn _ _ _ E2) in H3. inversion H3 as [|? ? ? ? Ha Hb]; subst. cbn [option_map]. exists (UnpackModel.Unpacked w bi (S ai)), ty. split; [reflexivity|]. split; [exact Ha|].
           split; [exact Hr|].
           left. split; [exact Hh|]. split; [exact Hno|]. split; [lia|]. split; [lia|]. split; [exists [], [], vs; cbn [app]; rewrite (skipn_all2 _ E); auto|]. right. lia.
    + destruct (nth_error (before w) bi) as [ty|] eqn:E; [|apply nth_error_None in E; lia].
      destruct Hy as (l & m & r & Hvs & H1 & H2 & H3). rewrite (nth_skipn _ _ _ E) in H1. inversion H1 as [|? ? ? l' Ha Hb]; subst. injection Hvs as -> ->.
      exists (UnpackModel.Unpacked w (S bi) 0), ty. split; [reflexivity|]. split; [exact Ha|]. split; [exact Hr|]. right. left. split; [exact Hh|]. split; [exact Hst|]. split; [lia|]. split; [exact Has|].
      split; [reflexivity|]. split; [unfold entries in *; cbn in *; lia|]. exists l', m, r. auto.
    + specialize (Hlen Hno). rewrite Hbi. rewrite (proj2 (nth_error_None _ _) (le_n _)).
      assert (Hbl : length (skipn ai (after w)) = S (length vs)) by exact (Forall2_len _ _ _ Hv). rewrite skipn_length in Hbl.
      unfold UnpackModel.customized_after. rewrite Hh. destruct (Nat.ltb_spec (length (after w)) (normal - i + 1)) as [Hlt|Hge]; [exfalso; lia|].
      destruct (nth_error (after w) ai) as [ty|] eqn:E2; [|apply nth_error_None in E2; lia].
      rewrite (nth_skipn _ _ _ E2) in Hv. inversion Hv as [|? ? ? ? Ha Hb]; subst. cbn [option_map]. exists (UnpackModel.Unpacked w (length (before w)) (S ai)), ty. split; [reflexivity|]. split; [exact Ha|].
      split; [exact Hr|]. right. right. repeat split; auto. lia.
Qed.

Lemma place_star n ps i it l' vs l : in_place (Rest n :: ps) i it (l' ++ vs) -> length vs = length ps -> existsb is_rest ps = false -> list_value l l' ->
  exists it' e ty, unpack_starred it after_stars false false = Some (it', e, ty) /\ has ty l /\ in_place ps (S i) it' vs.
Proof.
  intros [Hr Hp] Hlen Hno Hl. specialize (Hr eq_refl). cbn [rest_after] in Hr.
  assert (Hr' : existsb is_rest ps = true -> after_stars = rest_after ps) by (rewrite Hno; discriminate).
  destruct it as [t|es k|w bi ai|its|]; try contradiction.
  - destruct Hp as [Hk Hv]. assert (Hsl : length (skipn k es) = length l' + length ps) by (rewrite (Forall2_len _ _ _ Hv), app_length; lia). rewrite skipn_length in Hsl.
    destruct (unpack_starred (Fixed es k) after_stars false false) as [[[it' e] ty]|] eqn:Eu.
    2:{ exfalso. unfold UnpackModel.unpack_starred in Eu. destruct (Nat.ltb_spec (length es) after_stars); [lia|]. destruct (Nat.ltb_spec (length es - after_stars) k); [lia|]. discriminate. }
    destruct (unpack_starred_yields _ _ _ _ _ _ _ _ _ _ _ L (Fixed es k) l' vs after_stars _ _ _ _ _ l Hv (eq_trans Hlen (eq_sym Hr)) I Eu Hl) as (_ & Hy & Hh).
    exists it', e, ty. split; [reflexivity|]. split; [exact (Hh eq_refl)|]. split; [exact Hr'|].
    unfold UnpackModel.unpack_starred in Eu. destruct (Nat.ltb_spec (length es) after_stars); [lia|]. destruct (Nat.ltb_spec (length es - after_stars) k); [lia|]. injection Eu as <- _ _. split; [lia|exact Hy].
  - destruct Hp as [(Hh & Hn & _)|[(Hh & Hst & Hbi & Has & Hai & Hn & Hy)|(Hh & Hn & _)]]; try discriminate. cbn [rest_before] in Hbi. rewrite Nat.add_0_r in Hbi.
    destruct (unpack_starred (UnpackModel.Unpacked w bi ai) after_stars false false) as [[[it' e] ty]|] eqn:Eu; [|discriminate].
    destruct (unpack_starred_yields _ _ _ _ _ _ _ _ _ _ _ L (UnpackModel.Unpacked w bi ai) l' vs after_stars _ _ _ _ _ l Hy (eq_trans Hlen (eq_sym Hr))
      ltac:(cbn; repeat split; auto; lia) Eu Hl) as (_ & Hy' & Hh').
    exists it', e, ty. split; [reflexivity|]. split; [exact (Hh' eq_refl)|]. split; [exact Hr'|]. unfold UnpackModel.unpack_starred in Eu. injection Eu as <- _ _.
    destruct Hy' as [_ Hy']. right. right. repeat split; auto. change (entries (Rest n :: ps)) with (entries ps) in Hn. rewrite (no_rest_entries _ Hno) in Hn. lia.
Qed.

Lemma place_extend n ps i it l' vs : in_place (Rest n :: ps) i it (l' ++ vs) -> length vs = length ps -> existsb is_rest ps = false -> forall g,
  exists g', extend_from_iterator g it after_stars = Some g' /\
             (forall es k, it = Fixed es k -> forall us, gathered g us -> gathered g' (us ++ l') /\ is_arbitrary_length g' = is_arbitrary_length g).
Proof.
  intros [Hr Hp] Hlen Hno g. specialize (Hr eq_refl). cbn [rest_after] in Hr. unfold extend_from_iterator. destruct it as [t|es k|w bi ai|its|]; try contradiction.
  - destruct Hp as [Hk Hv]. assert (Hsl : length (skipn k es) = length l' + length ps) by (rewrite (Forall2_len _ _ _ Hv), app_length; lia). rewrite skipn_length in Hsl.
    destruct (Nat.ltb_spec (length es) after_stars); [lia|]. destruct (Nat.ltb_spec (length es - after_stars) k); [lia|]. eexists. split; [reflexivity|].
    intros es' k' [= <- <-] us Hg. split; [|apply slice_arbitrary]. apply gathered_slice; [exact Hg|]. replace (length es - after_stars - k) with (length l') by lia.
    apply (Forall2_firstn _ (length l')) in Hv. rewrite firstn_app, Nat.sub_diag, firstn_O, app_nil_r, firstn_all in Hv. exact Hv.
  - destruct (g_unpack g); eexists; (split; [reflexivity|discriminate]).
Qed.

(** What the second loop does, for items that are aligned with the patterns *)
Lemma match_each_sound ps : forall i s vs ms rs, aligned ps vs ms rs -> in_place ps i (s_iterator s) vs ->
  match match_each normal after_stars had ps i s with
  | Some (Some s') =>
      (exists nm nr, s_matched s' = s_matched s ++ nm /\ s_rest s' = s_rest s ++ nr /\ Forall2 pattern_fits ms nm /\ Forall2 rest_fits rs nr) /\
      (s_unreachable s' = true -> Forall (fun m => matches (fst m) (snd m)) ms) /\
      (s_unreachable s' = true -> s_unreachable s = true)
  | Some None => ~ Forall (fun m => matches (fst m) (snd m)) ms
  | None => False
  end.
Proof.
  induction ps as [|p ps IH]; intros i s vs ms rs Ha Hp.
  - inversion Ha; subst. cbn. split; [exists [], []; rewrite !app_nil_r; auto|auto].
  - inversion Ha as [|p' v ps' vs' ms' rs' Hal|n l l' ps' vs' ms' rs' Hno Hl Hal]; subst.
    + cbn [UnpackModel.match_each].
      assert (Hlen : existsb is_rest ps = false -> length vs' = length ps) by (intros Hno; pose proof (aligned_length _ _ _ _ Hal) as H; rewrite Hno in H; exact H).
      destruct (place_next _ _ _ _ _ _ Hp Hlen) as (it' & ty & -> & Hh & Hp'). pose proof (matching _ _ _ _ G p' ty v Hh) as Hmat. pose proof (not_matching _ _ _ _ G p' ty v Hh) as Hnot. destruct (guards p' ty) as [t f] eqn:Eg. cbn [fst snd] in Hmat, Hnot.
      destruct (is_never t) eqn:Et.
      * intros HF. apply (never_empty _ _ _ _ G _ v Et). exact (Hmat (Forall_inv HF)).
      * set (s1 := mk_state it' (gatherer_add (s_gatherer s) t) (s_unreachable s && is_never f) (s_star s) (s_matched s ++ [(p', ty)]) (s_rest s)).
        specialize (IH (S i) s1 vs' ms' rs Hal Hp'). destruct (match_each normal after_stars had ps (S i) s1) as [[s'|]|].
        -- destruct IH as ((nm & nr & H1 & H2 & H3 & H4) & H5 & H6). split; [|split].
           ++ exists ((p', ty) :: nm), nr. unfold s1 in H1, H2. cbn in H1, H2. rewrite <- app_assoc in H1. repeat split; auto. constructor; [split; [reflexivity|exact Hh]|exact H3].
           ++ intros Hu. constructor; [|exact (H5 Hu)]. specialize (H6 Hu). cbn in H6. apply andb_true_iff in H6. cbn [fst snd]. destruct Hnot as [Hm|Hf]; [exact Hm|].
              exfalso. exact (never_empty _ _ _ _ G _ v (proj2 H6) Hf).
           ++ intros Hu. specialize (H6 Hu). cbn in H6. apply andb_true_iff in H6. exact (proj1 H6).
        -- intros HF. apply IH. exact (Forall_inv_tail HF).
        -- exact IH.
    + cbn [UnpackModel.match_each].
      assert (Hlen : length vs' = length ps) by (pose proof (aligned_length _ _ _ _ Hal) as H; rewrite Hno in H; exact H).
      destruct (place_star _ _ _ _ _ _ _ Hp Hlen Hno Hl) as (it' & e & ty & Eu & Hh & Hp').
      destruct (place_extend _ _ _ _ _ _ Hp Hlen Hno (s_gatherer s)) as (g & Eg & _). rewrite Eg.
      rewrite Eu. cbv zeta.
      set (rest := match n with Some n0 => [(n0, if e && name_defined n0 then list_of list_class Any else ty)] | None => [] end).
      set (s1 := mk_state it' g (s_unreachable s) true (s_matched s) (s_rest s ++ rest)).
      specialize (IH (S i) s1 vs' ms rs' Hal Hp'). destruct (match_each normal after_stars had ps (S i) s1) as [[s'|]|].
      * destruct IH as ((nm & nr & H1 & H2 & H3 & H4) & H5 & H6). split; [|auto]. exists nm, (rest ++ nr). unfold s1 in H1, H2. cbn in H1, H2. rewrite <- app_assoc in H2. repeat split; auto.
        unfold rest. destruct n as [n0|]; [|exact H4]. cbn [app]. constructor; [|exact H4]. split; [reflexivity|]. cbn [fst snd].
        destruct (e && name_defined n0); [|exact Hh]. apply (has_list _ _ _ _ _ _ _ _ _ _ _ L _ _ _ Hl). apply Forall_forall. intros x _. apply (has_any _ _ _ _ _ _ _ _ _ _ _ L).
      * exact IH.
      * exact IH.
Qed.

(** The iterators whose remaining items are exact: tuples of a known length, or no rest *)
Definition exact_items (it : iterator) : Prop := had = false \/ match it with Fixed _ _ => True | _ => False end.

Lemma next_exact f it it' ty : exact_items it -> unpack_next_with f it = Some (it', ty) -> exact_items it'.
Proof.
  intros [H|H] Hu; [left; exact H|]. right. destruct it; try contradiction. cbn in Hu. destruct (nth_error _ _); [|discriminate]. injection Hu as <- _. exact I.
Qed.

Lemma starred_exact it it' e ty : exact_items it -> unpack_starred it after_stars false false = Some (it', e, ty) -> exact_items it'.
Proof.
  intros [H|H] Hu; [left; exact H|]. right. destruct it; try contradiction. unfold UnpackModel.unpack_starred in Hu.
  destruct (_ <? _); [discriminate|]. destruct (_ <? _); [discriminate|]. injection Hu as <- _ _. exact I.
Qed.

Lemma match_each_truthy ps : forall i s vs ms rs us s', aligned ps vs ms rs -> in_place ps i (s_iterator s) vs -> exact_items (s_iterator s) ->
  gathered (s_gatherer s) us -> is_arbitrary_length (s_gatherer s) = false ->
  match_each normal after_stars had ps i s = Some (Some s') -> Forall (fun m => matches (fst m) (snd m)) ms ->
  gathered (s_gatherer s') (us ++ vs) /\ is_arbitrary_length (s_gatherer s') = false.
Proof.
  induction ps as [|p ps IH]; intros i s vs ms rs us s' Ha Hp Hex Hg Hna He HF.
  - inversion Ha; subst. cbn in He. injection He as <-. rewrite app_nil_r. auto.
  - inversion Ha as [|p' v ps' vs' ms' rs' Hal|n l l' ps' vs' ms' rs' Hno Hl Hal]; subst.
    + cbn [UnpackModel.match_each] in He.
      assert (Hlen : existsb is_rest ps = false -> length vs' = length ps) by (intros Hno; pose proof (aligned_length _ _ _ _ Hal) as H; rewrite Hno in H; exact H).
      destruct (place_next _ _ _ _ _ _ Hp Hlen) as (it' & ty & Eu & Hh & Hp'). rewrite Eu in He. pose proof (matching _ _ _ _ G p' ty v Hh) as Hmat. destruct (guards p' ty) as [t f]. cbn [fst snd] in Hmat.
      destruct (is_never t); [discriminate|]. change (us ++ v :: vs') with (us ++ [v] ++ vs'). rewrite app_assoc.
      apply (fun h1 h2 h3 h4 => IH _ _ _ _ _ (us ++ [v]) _ Hal h1 h2 h3 h4 He (Forall_inv_tail HF)); cbn [s_gatherer s_iterator]; [exact Hp'| | |].
      * exact (next_exact _ _ _ _ Hex Eu).
      * unfold gatherer_add. apply gathered_slice; [exact Hg|]. constructor; [|constructor]. exact (Hmat (Forall_inv HF)).
      * unfold gatherer_add. rewrite slice_arbitrary. exact Hna.
    + cbn [UnpackModel.match_each] in He.
      assert (Hlen : length vs' = length ps) by (pose proof (aligned_length _ _ _ _ Hal) as H; rewrite Hno in H; exact H).
      destruct (place_star _ _ _ _ _ _ _ Hp Hlen Hno Hl) as (it' & e & ty & Eu & Hh & Hp').
      destruct (place_extend _ _ _ _ _ _ Hp Hlen Hno (s_gatherer s)) as (g & Eg & Hfix). rewrite Eg, Eu in He. cbv zeta in He. rewrite app_assoc.
      assert (Hx : exists es k, s_iterator s = Fixed es k).
      { destruct Hex as [Hex|Hex]; [|destruct (s_iterator s); try contradiction; do 2 eexists; reflexivity]. destruct Hp as [_ Hp]. destruct (s_iterator s) as [x|es k|w bi ai|its|]; try contradiction; [do 2 eexists; reflexivity|].
        exfalso. destruct Hp as [(Hh1 & Hn & _)|[(Hh1 & _)|(Hh1 & Hn & _)]]; [discriminate| |discriminate]. rewrite Hh1 in Hex. discriminate. }
      destruct Hx as (es & k & Hx). destruct (Hfix es k Hx us Hg) as [Hg' Hna'].
      apply (fun h1 h2 h3 h4 => IH _ _ _ _ _ (us ++ l') _ Hal h1 h2 h3 h4 He HF); cbn [s_gatherer s_iterator]; [exact Hp'| | |].
      * exact (starred_exact _ _ _ _ Hex Eu).
      * exact Hg'.
      * rewrite Hna'. exact Hna.
Qed.
End Invariant.

(** The tuples whose patterns are assigned correctly: with a rest, the patterns in front of it and behind it have items of their own. *)
Definition own_items (a : args type) (ps : list sequence_item) : Prop :=
  match a with
  | WithUnpack w => existsb is_rest ps = true -> rest_before ps <= length (before w) /\ rest_after ps <= length (after w)
  | _ => True
  end.

Definition known (a : args type) (ps : list sequence_item) : Prop := match a with WithUnpack _ => existsb is_rest ps = false | _ => True end.

Lemma start_in_place a ps vs ms rs : (forall t, a <> ArbitraryLen t) -> own_items a ps -> is_tuple a vs -> aligned ps vs ms rs ->
  in_place (entries ps) (if existsb is_rest ps then rest_after ps else 0) (existsb is_rest ps) ps 0 (tuple_iter a) vs.
Proof.
  intros Hna Ho Ht Ha. split; [intros ->; reflexivity|]. destruct a as [ts|t|w]; cbn [tuple_iter].
  - split; [lia|]. rewrite skipn_O. exact Ht.
  - exact (Hna t eq_refl).
  - cbn in Ho. destruct (existsb is_rest ps) eqn:E.
    + destruct (Ho eq_refl) as [H1 H2]. right. left. pose proof (tuple_iter_yields has stands_for (WithUnpack w) _ Ht) as Hy. cbn [tuple_iter] in Hy. exact (conj eq_refl (conj E (conj H1 (conj H2 (conj eq_refl (conj eq_refl Hy)))))).
    + left. split; [reflexivity|]. split; [exact E|]. split; [rewrite (no_rest_entries _ E); lia|]. split; [lia|]. split; [|left; reflexivity].
      destruct Ht as (l & m & r & -> & H1 & H2 & H3). exists l, m, r. rewrite !skipn_O. repeat split; auto.
      destruct (middle w) as [n|t]; cbn in *; [|exact H2]. apply Forall_forall. intros x _. apply (has_object _ _ _ _ _ _ _ _ _ _ _ L).
Qed.

Lemma sequence_patterns_fit container ps : forall vs ms rs, Forall (has container) vs -> aligned ps vs ms rs ->
  exists ts nm nr, assign_sequence_patterns container ps = (ts, nm, nr) /\ Forall2 pattern_fits ms nm /\ Forall2 rest_fits rs nr /\
    (existsb is_rest ps = false -> Forall (fun m => matches (fst m) (snd m)) ms -> Forall2 has ts vs).
Proof.
  induction ps as [|p ps IH]; intros vs ms rs Hv Ha.
  - inversion Ha; subst. exists [], [], []. repeat split; constructor.
  - inversion Ha as [|p' v ps' vs' ms' rs' Hal|n l l' ps' vs' ms' rs' Hno Hl Hal]; subst.
    + destruct (IH _ _ _ (Forall_inv_tail Hv) Hal) as (ts & nm & nr & E & H1 & H2 & H3). cbn [UnpackModel.assign_sequence_patterns]. rewrite E.
      do 3 eexists. split; [reflexivity|]. split; [constructor; [split; [reflexivity|exact (Forall_inv Hv)]|exact H1]|]. split; [exact H2|].
      cbn [existsb is_rest orb]. intros Hno HF. constructor; [|exact (H3 Hno (Forall_inv_tail HF))]. exact (matching _ _ _ _ G _ _ _ (Forall_inv Hv) (Forall_inv HF)).
    + apply Forall_app in Hv. destruct Hv as [Hv1 Hv2]. destruct (IH _ _ _ Hv2 Hal) as (ts & nm & nr & E & H1 & H2 & H3). cbn [UnpackModel.assign_sequence_patterns]. rewrite E.
      destruct n as [n|]; (do 3 eexists; split; [reflexivity|]; split; [exact H1|]; split; [|intros H; discriminate H]).
      * constructor; [|exact H2]. split; [reflexivity|]. exact (has_list _ _ _ _ _ _ _ _ _ _ _ L _ _ _ Hl Hv1).
      * exact H2.
Qed.

Lemma Forall_or_arbitrary (a : args type) : (exists t, a = ArbitraryLen t) \/ (forall t, a <> ArbitraryLen t).
Proof. destruct a; [right; discriminate|left; eexists; reflexivity|right; discriminate]. Qed.

Definition fixed_items (a : args type) : nat := match a with FixedLen ts => length ts | WithUnpack w => length (before w) + length (after w) | ArbitraryLen _ => 0 end.
Definition is_unpack (a : args type) : bool := match a with WithUnpack _ => true | _ => false end.

Lemma match_tuple_fixed a ps : (forall t, a <> ArbitraryLen t) -> match_tuple a ps =
  match count_patterns ps 0 0 false with
  | None => let '(_, ms, rs) := assign_sequence_patterns Any ps in Some (mk_result (Tuple a) (Tuple a) ms rs [MultipleStars])
  | Some (normal, after_stars, had_starred) =>
      if negb had_starred && Nat.ltb normal (fixed_items a) || Nat.ltb (fixed_items a) normal && negb (is_unpack a) then Some (mismatch (Tuple a))
      else
        match match_each normal after_stars had_starred ps 0 (mk_state (tuple_iter a) no_items true false [] []) with
        | None => None
        | Some None => Some (mismatch (Tuple a))
        | Some (Some s) =>
            option_map (fun truthy =>
              mk_result truthy (if s_unreachable s && (negb (is_unpack a) || s_star s) then Never else Tuple a) (s_matched s) (s_rest s) [])
              (into_tuple (s_gatherer s) (fun _ => None))
        end
  end.
Proof. intros Hna. destruct a as [ts|t|w]; [reflexivity|exfalso; exact (Hna t eq_refl)|reflexivity]. Qed.

Lemma aligned_fixed_items a ps vs ms rs : (forall t, a <> ArbitraryLen t) -> is_tuple a vs -> aligned ps vs ms rs ->
  negb (existsb is_rest ps) && Nat.ltb (entries ps) (fixed_items a) || Nat.ltb (fixed_items a) (entries ps) && negb (is_unpack a) = false.
Proof.
  intros Hna Ht Ha. pose proof (aligned_length _ _ _ _ Ha) as Hl. apply orb_false_iff. split.
  - destruct (existsb is_rest ps) eqn:E; [reflexivity|]. cbn [negb andb]. apply Nat.ltb_ge. rewrite (no_rest_entries _ E), <- Hl.
    destruct a as [ts|t|w]; cbn [fixed_items]; [rewrite (Forall2_len _ _ _ Ht); lia|exfalso; exact (Hna t eq_refl)|].
    destruct Ht as (l & m & r & -> & H1 & _ & H3). rewrite !app_length, <- (Forall2_len _ _ _ H1), <- (Forall2_len _ _ _ H3). lia.
  - destruct a as [ts|t|w]; cbn [fixed_items is_unpack negb]; [|exfalso; exact (Hna t eq_refl)|apply andb_false_r].
    rewrite andb_true_r. apply Nat.ltb_ge. rewrite (Forall2_len _ _ _ Ht). destruct (existsb is_rest ps) eqn:E; [exact Hl|]. rewrite (no_rest_entries _ E). lia.
Qed.

(** What is known if all goes well *)
Theorem pattern_bindings a ps r vs ms rs : match_tuple a ps = Some r -> own_items a ps -> is_tuple a vs -> aligned ps vs ms rs ->
  Forall (fun m => matches (fst m) (snd m)) ms -> Forall2 pattern_fits ms (matched r) /\ Forall2 rest_fits rs (rest r).
Proof.
  intros He Ho Ht Ha HF. destruct (Forall_or_arbitrary a) as [(t & ->)|Hna].
  - cbn in He. destruct (sequence_patterns_fit t ps vs ms rs Ht Ha) as (ts & nm & nr & E & H1 & H2 & _). rewrite E in He. injection He as <-. auto.
  - pose proof (start_in_place _ _ _ _ _ Hna Ho Ht Ha) as Hp.
    pose proof (match_each_sound _ _ _ ps 0 (mk_state (tuple_iter a) no_items true false [] []) vs ms rs Ha Hp) as Hm.
    rewrite (match_tuple_fixed a ps Hna) in He. rewrite (count_patterns_spec ps 0 (aligned_one_rest _ _ _ _ Ha)) in He. cbn [plus] in He.
    pose proof (aligned_fixed_items a ps vs ms rs Hna Ht Ha) as Hnm. rewrite Hnm in He.
    destruct (match_each _ _ _ ps 0 _) as [[s|]|]; [|contradiction|contradiction].
    destruct Hm as ((nm & nr & H1 & H2 & H3 & H4) & _). cbn in H1, H2.
    destruct (into_tuple (s_gatherer s) (fun _ => None)) as [ty|]; [|discriminate]. injection He as <-. cbn [matched rest]. rewrite H1, H2. auto.
Qed.

Lemma known_own a ps : known a ps -> own_items a ps.
Proof. destruct a; cbn; auto. intros H. rewrite H. discriminate. Qed.

Theorem pattern_truthy a ps r vs : match_tuple a ps = Some r -> known a ps -> is_tuple a vs -> sequence_matches list_value matches ps vs ->
  exists a', truthy r = Tuple a' /\ is_tuple a' vs.
Proof.
  intros He Hk Ht (ms & rs & Ha & HF). destruct (Forall_or_arbitrary a) as [(t & ->)|Hna].
  - cbn in He. destruct (assign_sequence_patterns t ps) as [[ts nm] nr]. injection He as <-. exists (ArbitraryLen t). auto.
  - pose proof (start_in_place _ _ _ _ _ Hna (known_own _ _ Hk) Ht Ha) as Hp.
    pose proof (match_each_sound _ _ _ ps 0 (mk_state (tuple_iter a) no_items true false [] []) vs ms rs Ha Hp) as Hm.
    rewrite (match_tuple_fixed a ps Hna) in He. rewrite (count_patterns_spec ps 0 (aligned_one_rest _ _ _ _ Ha)) in He. cbn [plus] in He.
    rewrite (aligned_fixed_items a ps vs ms rs Hna Ht Ha) in He.
    destruct (match_each _ _ _ ps 0 _) as [[s|]|] eqn:Em; [|contradiction|contradiction].
    assert (Hex : exact_items (existsb is_rest ps) (tuple_iter a)).
    { destruct a as [ts|t|w]; cbn; [right; exact I|exfalso; exact (Hna t eq_refl)|left; exact Hk]. }
    assert (Hg0 : gathered no_items []) by (split; [constructor|reflexivity]).
    destruct (match_each_truthy _ _ _ ps 0 (mk_state (tuple_iter a) no_items true false [] []) vs ms rs [] s Ha Hp Hex Hg0 eq_refl Em HF) as [Hg Har].
    cbn [app] in Hg. unfold into_tuple in He. rewrite Har in He. unfold gathered in Hg. destruct (g_unpack (s_gatherer s)) as [u|]; cbn in He; injection He as <-; cbn [truthy].
    + eexists. split; [reflexivity|exact Hg].
    + eexists. split; [reflexivity|exact (proj1 Hg)].
Qed.

Lemma match_each_star n k h ps : forall i s s', match_each n k h ps i s = Some (Some s') -> s_star s' = s_star s || existsb is_rest ps.
Proof.
  induction ps as [|p ps IH]; intros i s s' H; cbn [UnpackModel.match_each] in H.
  - injection H as <-. rewrite orb_false_r. reflexivity.
  - destruct p as [p|x].
    + destruct (unpack_next_with _ _) as [[it ty]|]; [|discriminate]. destruct (guards p ty) as [t f]. destruct (is_never t); [discriminate|]. rewrite (IH _ _ _ H). reflexivity.
    + destruct (extend_from_iterator _ _ _); [|discriminate]. destruct (unpack_starred _ _ _ _) as [[[it e] ty]|]; [|discriminate]. cbv zeta in H. rewrite (IH _ _ _ H). cbn. rewrite orb_true_r. reflexivity.
Qed.

(** With a rest there are enough items for the patterns *)
Lemma tuple_long a ps vs : own_items a ps -> one_rest ps = true -> is_tuple a vs -> (is_unpack a = true -> existsb is_rest ps = true) -> (forall t, a <> ArbitraryLen t) ->
  negb (existsb is_rest ps) && Nat.ltb (entries ps) (fixed_items a) || Nat.ltb (fixed_items a) (entries ps) && negb (is_unpack a) = false ->
  if existsb is_rest ps then entries ps <= length vs else length vs = length ps.
Proof.
  intros Ho H1 Ht Hu Hna Hb. apply orb_false_iff in Hb. destruct Hb as [Hb1 Hb2]. destruct a as [ts|t|w].
  - cbn in Hb1, Hb2. rewrite andb_true_r in Hb2. change (length ts <? entries ps = false) in Hb2. apply Nat.ltb_ge in Hb2. cbn in Ht. rewrite (Forall2_len _ _ _ Ht) in *.
    destruct (existsb is_rest ps) eqn:E; [exact Hb2|]. change (entries ps <? length vs = false) in Hb1. apply Nat.ltb_ge in Hb1. rewrite (no_rest_entries _ E) in *. lia.
  - exfalso. exact (Hna t eq_refl).
  - rewrite (Hu eq_refl) in *. cbn in Ho. specialize (Ho (Hu eq_refl)). destruct Ho as [Ha Hc]. destruct Ht as (l & m & r & -> & K1 & _ & K3).
    rewrite !app_length, <- (Forall2_len _ _ _ K1), <- (Forall2_len _ _ _ K3).
    assert (Hent : entries ps = rest_before ps + rest_after ps).
    { specialize (Hu eq_refl). clear - H1 Hu. induction ps as [|[p|x] ps IH]; [discriminate| |].
      - cbn in H1, Hu. change (entries (Entry p :: ps)) with (S (entries ps)). rewrite (IH H1 Hu). reflexivity.
      - cbn in H1. apply negb_true_iff in H1. change (entries (Rest x :: ps)) with (entries ps). rewrite (no_rest_entries _ H1). reflexivity. }
    lia.
Qed.

Theorem pattern_falsey a ps r vs : match_tuple a ps = Some r -> own_items a ps -> is_tuple a vs -> sequence_matches list_value matches ps vs \/ falsey r = Tuple a.
Proof.
  intros He Ho Ht. destruct (Forall_or_arbitrary a) as [(t & ->)|Hna].
  - right. cbn in He. destruct (assign_sequence_patterns t ps) as [[ts nm] nr]. injection He as <-. reflexivity.
  - rewrite (match_tuple_fixed a ps Hna) in He. destruct (one_rest ps) eqn:E1.
    2:{ right. rewrite (proj2 (count_patterns_none ps 0 0 false) E1) in He. destruct (assign_sequence_patterns Any ps) as [[ts nm] nr]. injection He as <-. reflexivity. }
    rewrite (count_patterns_spec ps 0 E1) in He. cbn [plus] in He.
    destruct (negb (existsb is_rest ps) && _ || _) eqn:Eb in He; [right; injection He as <-; reflexivity|].
    destruct (match_each _ _ _ ps 0 _) as [[s|]|] eqn:Em; [|right; injection He as <-; reflexivity|discriminate].
    destruct (into_tuple (s_gatherer s) (fun _ => None)) as [ty|]; [|discriminate]. cbn [option_map] in He. injection He as <-. cbn [falsey].
    destruct (s_unreachable s && (negb (is_unpack a) || s_star s)) eqn:Eu; [left|right; reflexivity].
    apply andb_true_iff in Eu. destruct Eu as [Eu1 Eu2].
    assert (Hst : is_unpack a = true -> existsb is_rest ps = true).
    { intros Hu. rewrite Hu in Eu2. cbn in Eu2. rewrite (match_each_star _ _ _ _ _ _ _ Em) in Eu2. exact Eu2. }
    destruct (aligned_exists ps vs E1 (tuple_long a ps vs Ho E1 Ht Hst Hna Eb)) as (ms & rs & Ha).
    exists ms, rs. split; [exact Ha|].
    pose proof (match_each_sound _ _ _ ps 0 (mk_state (tuple_iter a) no_items true false [] []) vs ms rs Ha (start_in_place _ _ _ _ _ Hna Ho Ht Ha)) as Hm.
    rewrite Em in Hm. exact (proj1 (proj2 Hm) Eu1).
Qed.

(** No panics *)
Section Runs.
Variables (normal after_stars : nat) (had : bool).

Definition in_reach (ps : list sequence_item) (i : nat) (it : iterator) : Prop :=
  match it with
  | Fixed es k => k + entries ps <= length es
  | UnpackModel.Unpacked w bi ai => entries ps <= normal - i + (if had then 1 else 0) /\ (ai = 0 \/ ai + entries ps <= length (after w))
  | _ => False
  end.

Lemma match_each_runs ps : forall i s, one_rest ps = true -> (existsb is_rest ps = true -> after_stars = rest_after ps /\ had = true /\ i + entries ps = normal /\ g_unpack (s_gatherer s) = None) ->
  (existsb is_rest ps = false -> i + entries ps = normal + (if had then 1 else 0)) ->
  in_reach ps i (s_iterator s) -> is_arbitrary_length (s_gatherer s) = false ->
  match match_each normal after_stars had ps i s with
  | Some (Some s') => is_arbitrary_length (s_gatherer s') = false
  | Some None => True
  | None => False
  end.
Proof.
  induction ps as [|p ps IH]; intros i s Ho Hr Hnr Hi Hna; cbn [UnpackModel.match_each].
  - exact Hna.
  - destruct p as [p|x].
    + cbn [one_rest existsb is_rest orb rest_after] in *. change (entries (Entry p :: ps)) with (S (entries ps)) in *.
      assert (Hn : exists it' ty, unpack_next_with (customized_after normal i had) (s_iterator s) = Some (it', ty) /\ in_reach ps (S i) it').
      { unfold unpack_next_with. destruct (s_iterator s) as [t|es k|w bi ai|its|]; try contradiction; unfold in_reach in Hi; change (entries (Entry p :: ps)) with (S (entries ps)) in Hi.
        - destruct (nth_error es k) as [ty|] eqn:E; [|apply nth_error_None in E; lia]. do 2 eexists. split; [reflexivity|]. cbn. lia.
        - destruct Hi as [Hi1 Hi2].
          assert (Hnext : entries ps <= normal - S i + (if had then 1 else 0)).
          { destruct (existsb is_rest ps) eqn:E.
            - destruct (Hr eq_refl) as (_ & -> & Hs & _). lia.
            - specialize (Hnr eq_refl). destruct had; lia. }
          destruct (nth_error (before w) bi) as [ty|]; [do 2 eexists; split; [reflexivity|]; cbn; split; [exact Hnext|lia]|].
          unfold UnpackModel.customized_after. destruct (Nat.ltb_spec (length (after w)) (normal - i + (if had then 1 else 0))) as [Hlt|Hge].
          + do 2 eexists. split; [reflexivity|]. cbn. split; [exact Hnext|lia].
          + destruct (nth_error (after w) ai) as [ty|] eqn:E; [|apply nth_error_None in E; lia]. do 2 eexists. split; [reflexivity|]. cbn. split; [exact Hnext|lia]. }
      destruct Hn as (it' & ty & -> & Hi'). destruct (guards p ty) as [t f]. destruct (is_never t); [exact I|]. apply IH; cbn [s_iterator s_gatherer].
      * exact Ho.
      * intros Hst. destruct (Hr Hst) as (H1 & H2 & H3 & H4). repeat split; auto; [lia|]. unfold gatherer_add, extend_from_slice. rewrite H4. reflexivity.
      * intros Hst. specialize (Hnr Hst). lia.
      * exact Hi'.
      * unfold gatherer_add. rewrite slice_arbitrary. exact Hna.
    + cbn [one_rest existsb is_rest orb rest_after] in *. change (entries (Rest x :: ps)) with (entries ps) in *. apply negb_true_iff in Ho.
      destruct (Hr eq_refl) as (H1 & H2 & H3 & H4). pose proof (no_rest_entries _ Ho) as Hent.
      assert (Hn : exists g it' e ty, extend_from_iterator (s_gatherer s) (s_iterator s) after_stars = Some g /\ unpack_starred (s_iterator s) after_stars false false = Some (it', e, ty) /\
                                      in_reach ps (S i) it' /\ is_arbitrary_length g = false).
      { unfold extend_from_iterator, UnpackModel.unpack_starred. destruct (s_iterator s) as [t|es k|w bi ai|its|]; try contradiction; unfold in_reach in Hi; change (entries (Rest x :: ps)) with (entries ps) in Hi.
        - destruct (Nat.ltb_spec (length es) after_stars); [lia|]. destruct (Nat.ltb_spec (length es - after_stars) k); [lia|]. do 4 eexists. split; [reflexivity|]. split; [reflexivity|].
          split; [cbn; lia|]. rewrite slice_arbitrary. exact Hna.
        - rewrite H4. do 4 eexists. split; [reflexivity|]. split; [reflexivity|]. split; [|rewrite slice_arbitrary; cbn; rewrite slice_arbitrary; exact Hna].
          unfold in_reach. rewrite H2. split; [lia|]. lia. }
      destruct Hn as (g & it' & e & ty & -> & -> & Hi' & Hna'). cbv zeta. apply IH; cbn [s_iterator s_gatherer].
      * clear - Ho. induction ps as [|[p|y] ps IH]; [reflexivity|exact (IH Ho)|discriminate].
      * rewrite Ho. discriminate.
      * intros _. rewrite H2. lia.
      * exact Hi'.
      * exact Hna'.
Qed.
End Runs.

Theorem pattern_runs a ps : match_tuple a ps <> None.
Proof.
  destruct (Forall_or_arbitrary a) as [(t & ->)|Hna].
  - cbn. destruct (assign_sequence_patterns t ps) as [[ts nm] nr]. discriminate.
  - rewrite (match_tuple_fixed a ps Hna). destruct (one_rest ps) eqn:E1.
    2:{ rewrite (proj2 (count_patterns_none ps 0 0 false) E1). destruct (assign_sequence_patterns Any ps) as [[ts nm] nr]. discriminate. }
    rewrite (count_patterns_spec ps 0 E1). cbn [plus]. destruct (negb (existsb is_rest ps) && _ || _) eqn:Eb; [discriminate|].
    assert (Hm := match_each_runs (entries ps) (if existsb is_rest ps then rest_after ps else 0) (existsb is_rest ps) ps 0 (mk_state (tuple_iter a) no_items true false [] []) E1).
    destruct (match_each _ _ _ ps 0 _) as [[s|]|].
    + cbv beta iota in Hm. unfold into_tuple. rewrite Hm; [destruct (g_unpack (s_gatherer s)); discriminate| | | |reflexivity].
      * intros ->. auto.
      * intros ->. lia.
      * destruct a as [ts|t|w]; cbn [tuple_iter s_iterator in_reach]; [|exfalso; exact (Hna t eq_refl)|split; [lia|left; reflexivity]].
        apply orb_false_iff in Eb. destruct Eb as [_ Eb]. cbn [is_unpack negb fixed_items] in Eb. rewrite andb_true_r in Eb. apply Nat.ltb_ge in Eb. exact Eb.
    + discriminate.
    + exfalso. apply Hm.
      * intros ->. auto.
      * intros ->. lia.
      * destruct a as [ts|t|w]; cbn [tuple_iter s_iterator in_reach]; [|exfalso; exact (Hna t eq_refl)|split; [lia|left; reflexivity]].
        apply orb_false_iff in Eb. destruct Eb as [_ Eb]. cbn [is_unpack negb fixed_items] in Eb. rewrite andb_true_r in Eb. apply Nat.ltb_ge in Eb. exact Eb.
      * reflexivity.
Qed.

(** Other sequences *)
Variable sequence_class : N.

Theorem sequence_bindings exact container t ps vs ms rs : Forall (has container) vs -> aligned ps vs ms rs ->
  let r := match_sequence list_class union guards sequence_class exact container t ps in
  Forall2 pattern_fits ms (matched r) /\ Forall2 rest_fits rs (rest r).
Proof.
  intros Hv Ha. unfold match_sequence. destruct (sequence_patterns_fit container ps vs ms rs Hv Ha) as (ts & nm & nr & E & H1 & H2 & _). rewrite E. cbn. auto.
Qed.

Theorem sequence_truthy container t ps vs : existsb is_rest ps = false -> Forall (has container) vs -> sequence_matches list_value matches ps vs ->
  exists item, truthy (match_sequence list_class union guards sequence_class true container t ps) = Class sequence_class [item] /\ Forall (has item) vs.
Proof.
  intros Hno Hv (ms & rs & Ha & HF). unfold match_sequence. destruct (sequence_patterns_fit container ps vs ms rs Hv Ha) as (ts & nm & nr & E & _ & _ & H3). rewrite E. cbn. eexists. split; [reflexivity|].
  apply (Forall_In2 _ _ _ _ (H3 Hno HF)). intros x y Hx. exact (has_simplified_union _ _ _ _ _ _ _ _ _ _ _ L _ _ _ Hx).
Qed.

End Patterns.

End Other.
