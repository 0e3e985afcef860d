(** Proofs about TypedDicts. *)
From Coq Require Import List NArith Bool Lia.
From Verif Require Import TypedDictModel TypedDictSpec.
Import ListNotations.
Open Scope N_scope.

Section Proofs.
Variables T value : Type.
Variable has : T -> value -> Prop.
Variables super same : T -> T -> bool.
Variable is_never : T -> bool.
Variable unite : list T -> T.
Variables object none_type : T.
Variable none : value.
Hypothesis R : right_types T value has super same is_never unite object none_type none.

Notation member := (member T).
Notation typed_dict := (typed_dict T).
Notation item := (item T).
Notation conforms := (conforms T value has).
Notation allowed := (allowed T value has).
Notation models := (models T value has).
Notation apply := (apply value).
Notation find_entry := (find_entry T is_never).
Notation matches_super := (is_super_type_of T super same is_never).

Lemma same_has : forall a b v, same a b = true -> has a v -> has b v.
Proof. intros a b v E. apply (proj1 (right_same _ _ _ _ _ _ _ _ _ _ R a b) E). Qed.

Lemma same_back : forall a b v, same a b = true -> has b v -> has a v.
Proof. intros a b v E. apply (proj1 (right_same _ _ _ _ _ _ _ _ _ _ R a b) E). Qed.

Lemma super_has : forall a b v, super a b = true -> has b v -> has a v.
Proof. intros a b v E. apply (proj1 (right_super _ _ _ _ _ _ _ _ _ _ R a b) E). Qed.

Lemma never_has : forall a v, is_never a = true -> has a v -> False.
Proof. intros a v E. apply (proj1 (right_never _ _ _ _ _ _ _ _ _ _ R a) E). Qed.

Lemma unite_has : forall ts t v, In t ts -> has t v -> has (unite ts) v.
Proof. intros ts t v I0 H. apply (right_union _ _ _ _ _ _ _ _ _ _ R). eauto. Qed.

Lemma found_member : forall td k m,
  find (fun m => m_name T m =? k) (named T td) = Some m ->
  In m (named T td) /\ m_name T m = k.
Proof. intros td k m E. apply find_some in E as [I0 E]. split; [exact I0|]. now apply N.eqb_eq. Qed.

Lemma no_member : forall td k,
  find (fun m => m_name T m =? k) (named T td) = None ->
  forall m, In m (named T td) -> m_name T m <> k.
Proof.
  intros td k E m I0 E2. pose proof (find_none _ _ E m I0) as F. cbn in F.
  apply N.eqb_neq in F. congruence.
Qed.

Lemma distinct_member : forall l m1 m2, NoDup (map (m_name T) l) -> In m1 l -> In m2 l ->
  m_name T m1 = m_name T m2 -> m1 = m2.
Proof.
  induction l as [|m l IH]; cbn [map In]; intros m1 m2 D I1 I2 E; [easy|].
  inversion D as [|x y N1 N2]; subst.
  destruct I1 as [->|I1], I2 as [->|I2]; auto.
  - exfalso. apply N1. rewrite E. now apply in_map.
  - exfalso. apply N1. rewrite <- E. now apply in_map.
Qed.

Lemma member_eta : forall m : member, mk_member T (m_name T m) (m_type T m) (m_required T m)
  (m_read_only T m) = m.
Proof. now intros []. Qed.

Lemma member_item : forall td m q o, In m (named T td) -> m_required T m = q ->
  m_read_only T m = o -> item td (m_name T m) (m_type T m) q o.
Proof. intros td m q o I1 <- <-. left. now rewrite member_eta. Qed.

(** What [find_entry] finds is an item. *)
Lemma entry_item : forall td k e, find_entry td k = Some e ->
  item td k (e_type T e) (e_required T e) (e_read_only T e).
Proof.
  intros td k e. unfold TypedDictModel.find_entry.
  destruct (find _ (named T td)) as [m|] eqn:F.
  - intros [= <-]. cbn. apply found_member in F as [I0 <-]. left. now rewrite member_eta.
  - destruct (extra_items T td) as [x|] eqn:X; [|easy].
    destruct (is_never (x_type T x)); [easy|]. intros [= <-]. cbn. right.
    split; [now apply no_member|]. rewrite X. now destruct x.
Qed.

(** An item is found, but for the extra items of a closed TypedDict. *)
Lemma item_entry : forall td k t q o, distinct T td -> item td k t q o ->
  (exists n, find_entry td k = Some (mk_entry T n t q o))
  \/ (find_entry td k = None /\ is_never t = true /\ extra_items T td = Some (mk_extra T t o)
      /\ forall m, In m (named T td) -> m_name T m <> k).
Proof.
  intros td k t q o D [I0|[N0 [X ->]]]; unfold TypedDictModel.find_entry.
  - left. exists true. destruct (find _ (named T td)) as [m|] eqn:F.
    + apply found_member in F as [I1 E].
      rewrite (distinct_member (named T td) m (mk_member T k t q o) D I1 I0 E). reflexivity.
    + exfalso. apply (no_member td k F _ I0). reflexivity.
  - destruct (find _ (named T td)) as [m|] eqn:F.
    + apply found_member in F as [I1 E]. exfalso. now apply (N0 m).
    + rewrite X. cbn. destruct (is_never t) eqn:V; [right|left]; eauto.
Qed.

Lemma item_unique : forall td k t q o t' q' o', distinct T td -> item td k t q o ->
  item td k t' q' o' -> t = t' /\ q = q' /\ o = o'.
Proof.
  intros td k t q o t' q' o' D [I1|[N1 [X1 ->]]] [I2|[N2 [X2 ->]]].
  - assert (E := distinct_member _ _ _ D I1 I2 eq_refl). injection E as -> -> ->. auto.
  - exfalso. now apply (N2 _ I1).
  - exfalso. now apply (N1 _ I2).
  - rewrite X1 in X2. injection X2 as -> ->. auto.
Qed.

(** A TypedDict that has a read-only part of the items another one has is a safe view of it. *)
Definition covers (td1 td2 : typed_dict) : Prop :=
  (forall k t q o, item td1 k t q o -> (exists t2 q2 o2, item td2 k t2 q2 o2
     /\ (forall v, has t2 v -> has t v) /\ (q = true -> q2 = true)
     /\ (o = false -> o2 = false /\ (forall v, has t v -> has t2 v) /\ (q = false -> q2 = false)))
   \/ (q = false /\ o = true /\ forall v, has t v)).

Lemma covers_safe : forall td1 td2, covers td1 td2 -> safe T value has td1 td2.
Proof.
  intros td1 td2 H C M d Cd. destruct (M d Cd) as [F K]. split.
  - intros k t q o I1. destruct (H k t q o I1) as [(t2 & q2 & o2 & I2 & V & Q & _)|(-> & _ & V)].
    + specialize (F k t2 q2 o2 I2). destruct (d k) as [v|]; [now apply V|].
      destruct q; [|reflexivity]. now rewrite Q in F.
    + destruct (d k); auto.
  - intros o A. apply K.
    assert (B : forall k t q, item td1 k t q false -> exists t2 q2, item td2 k t2 q2 false
              /\ (forall v, has t v -> has t2 v) /\ (q = false -> q2 = false)).
    { intros k t q I1. destruct (H k t q false I1) as [(t2 & q2 & o2 & I2 & _ & _ & W)|(_ & N1 & _)];
        [|easy]. destruct (W eq_refl) as (-> & V2 & Q). eauto. }
    destruct o as [k v|k|]; cbn in *.
    + destruct A as (t & q & I1 & V). destruct (B k t q I1) as (t2 & q2 & I2 & V2 & _). exists t2, q2. auto.
    + destruct A as (t & I1). destruct (B k t false I1) as (t2 & q2 & I2 & _ & Q).
      rewrite (Q eq_refl) in I2. eauto.
    + intros k. destruct (A k) as (t & I1). destruct (B k t false I1) as (t2 & q2 & I2 & _ & Q).
      rewrite (Q eq_refl) in I2. eauto.
Qed.

(** What [is_super_type_of] does not ask. *)
Definition asked (td1 td2 : typed_dict) : Prop :=
  forall x1, extra_items T td1 = Some x1 ->
    (* The extra items of the other TypedDict may be changed too. *)
    (x_read_only T x1 = false -> forall x2, extra_items T td2 = Some x2 -> x_read_only T x2 = false)
    (* Its other members may be changed too. *)
    /\ (x_read_only T x1 = false -> forall m, In m (named T td2) ->
         (forall m1, In m1 (named T td1) -> m_name T m1 <> m_name T m) -> m_read_only T m = false)
    (* There are no other members if the TypedDict is closed. *)
    /\ (is_never (x_type T x1) = true -> forall m, In m (named T td2) ->
         exists m1, In m1 (named T td1) /\ m_name T m1 = m_name T m).

Lemma super_covers : forall td1 td2, distinct T td1 -> distinct T td2 -> asked td1 td2 ->
  matches_super td1 td2 = true -> covers td1 td2.
Proof.
  intros td1 td2 D1 D2 A E. unfold is_super_type_of in E. apply andb_true_iff in E as [E1 E2].
  intros k t q o [I1|[N1 [X1 ->]]]; left.
  - rewrite forallb_forall in E1. specialize (E1 _ I1). unfold member_matches in E1. cbn in E1.
    destruct (find_entry td2 k) as [e|] eqn:F; [|easy]. apply entry_item in F.
    exists (e_type T e), (e_required T e), (e_read_only T e).
    destruct q, o, (e_required T e), (e_read_only T e); cbn in E1; try easy;
      (split; [exact F|]); (split; [intros v H; (eapply super_has; eassumption) || (eapply same_back; eassumption)|]);
      split; try easy; intros _; try easy; (split; [reflexivity|]); (split; [|easy]);
      intros v H; eapply same_has; eassumption.
  - rewrite X1 in E2. destruct (A _ X1) as (A1 & A2 & A3). cbn in A1, A2, A3.
    apply andb_true_iff in E2 as [E2 E3].
    destruct (extra_items T td2) as [x2|] eqn:X2; [|easy]. cbn in E2.
    destruct (find (fun m => m_name T m =? k) (named T td2)) as [m|] eqn:F.
    + apply found_member in F as [I2 Em]. rewrite forallb_forall in E3. specialize (E3 _ I2).
      unfold fits_extra in E3.
      destruct (item_entry td1 k t false o D1) as [[n G]|(G & V & _ & _)].
      { right. auto. }
      * assert (n = false).
        { unfold TypedDictModel.find_entry in G.
          destruct (find (fun m => m_name T m =? k) (named T td1)) as [m1|] eqn:F1.
          - apply found_member in F1 as [I3 Em1]. exfalso. now apply (N1 m1).
          - rewrite X1 in G. cbn in G. destruct (is_never t); [easy|]. now injection G. }
        subst n. rewrite Em, G in E3. cbn in E3.
        exists (m_type T m), (m_required T m), (m_read_only T m).
        split; [left; rewrite <- Em; now rewrite member_eta|].
        destruct (m_required T m) eqn:Q; [easy|].
        split; [intros v H; destruct o; [eapply super_has|eapply same_back]; eassumption|].
        split; [easy|]. intros ->. split.
        { apply A2; [reflexivity|exact I2|]. intros m1 I3. rewrite Em. now apply N1. }
        split; [|easy]. intros v H. eapply same_has; eassumption.
      * exfalso. destruct (A3 V m I2) as (m1 & I3 & Em1). apply (N1 m1 I3). congruence.
    + exists (x_type T x2), false, (x_read_only T x2). split.
      { right. split; [now apply no_member|]. rewrite X2. now destruct x2. }
      split; [intros v H; destruct o; [eapply super_has|eapply same_back]; eassumption|].
      split; [easy|]. intros ->. split; [now apply A1|]. split; [|easy].
      intros v H. eapply same_has; eassumption.
Qed.

(** The freest contract: the dict is one of the TypedDict. *)
Lemma models_self : forall td, distinct T td -> models td (conforms td).
Proof.
  intros td D d F. split; [exact F|]. intros o A k t q r I1. specialize (F k t q r I1).
  destruct o as [k' v|k'|]; cbn in *.
  - destruct A as (t' & q' & I2 & V). destruct (k =? k') eqn:E; [|exact F].
    apply N.eqb_eq in E as ->. now destruct (item_unique _ _ _ _ _ _ _ _ D I1 I2) as (-> & _ & _).
  - destruct A as (t' & I2). destruct (k =? k') eqn:E; [|exact F].
    apply N.eqb_eq in E as ->. now destruct (item_unique _ _ _ _ _ _ _ _ D I1 I2) as (_ & -> & _).
  - destruct (A k) as (t' & I2). now destruct (item_unique _ _ _ _ _ _ _ _ D I1 I2) as (_ & -> & _).
Qed.

(** Operations. *)
Lemma outcome_inj : forall a b c d, Outcome T a b = Outcome T c d -> a = c /\ b = d.
Proof. intros a b c d [= -> ->]. easy. Qed.

Lemma existsb_none : forall A (f : A -> bool) l x, existsb f l = false -> In x l -> f x = false.
Proof.
  intros A f l x E I1. destruct (f x) eqn:F; [|reflexivity]. rewrite <- E. symmetry.
  apply existsb_exists. eauto.
Qed.

Lemma overwritten : forall td t, can_be_overwritten_with T same td = Some t ->
  forall k, exists t', item td k t' false false /\ (forall v, has t' v <-> has t v).
Proof.
  intros td t. unfold can_be_overwritten_with.
  destruct (extra_items T td) as [x|] eqn:X; [|easy].
  destruct (negb (x_read_only T x)) eqn:O; [|easy]. cbn [andb].
  destruct (forallb _ (named T td)) eqn:A; [|easy]. intros [= <-] k.
  rewrite forallb_forall in A. apply negb_true_iff in O.
  destruct (find (fun m => m_name T m =? k) (named T td)) as [m|] eqn:F.
  - apply found_member in F as [I1 <-]. specialize (A _ I1).
    apply andb_true_iff in A as [A E]. apply andb_true_iff in A as [A1 A2].
    apply negb_true_iff in A1, A2. exists (m_type T m). split.
    + now apply member_item.
    + intros v. split; [now apply same_back|now apply same_has].
  - exists (x_type T x). split; [|easy]. right. split; [now apply no_member|].
    rewrite X. split; [|easy]. rewrite <- O. now destruct x.
Qed.

Lemma emptied : forall td, can_be_emptied T td = true ->
  forall k, exists t, item td k t false false.
Proof.
  intros td. unfold can_be_emptied. destruct (extra_items T td) as [x|] eqn:X; [|easy].
  intros E k. apply andb_true_iff in E as [O A]. apply negb_true_iff in O.
  rewrite forallb_forall in A.
  destruct (find (fun m => m_name T m =? k) (named T td)) as [m|] eqn:F.
  - apply found_member in F as [I1 <-]. specialize (A _ I1).
    apply andb_true_iff in A as [A1 A2]. apply negb_true_iff in A1, A2.
    exists (m_type T m). now apply member_item.
  - exists (x_type T x). right. split; [now apply no_member|].
    rewrite X. split; [|easy]. rewrite <- O. now destruct x.
Qed.

Lemma all_types : forall td d k v, conforms td d -> has_extra_items T td = true -> d k = Some v ->
  has (union_of_all_types T unite td) v.
Proof.
  intros td d k v F X E. unfold has_extra_items in X. unfold union_of_all_types.
  destruct (extra_items T td) as [x|] eqn:X1; [|easy].
  destruct (find (fun m => m_name T m =? k) (named T td)) as [m|] eqn:G.
  - apply found_member in G as [I1 <-].
    specialize (F (m_name T m) (m_type T m) (m_required T m) (m_read_only T m)).
    rewrite E in F. apply (unite_has _ (m_type T m)).
    + apply in_or_app. left. now apply in_map.
    + apply F. left. now rewrite member_eta.
  - specialize (F k (x_type T x) false (x_read_only T x)). rewrite E in F.
    apply (unite_has _ (x_type T x)); [apply in_or_app; right; now left|].
    apply F. right. split; [now apply no_member|]. rewrite X1. now destruct x.
Qed.

Lemma setitem_allowed : forall td x t k v, setitem T super same is_never td x t = true ->
  key_has x k -> has t v -> allowed td (Set_ value k v).
Proof.
  intros td [l [|l' ls]| |] t k v E K V; cbn in E, K |- *; try easy.
  - destruct K as [->|[]]. destruct (find_entry td k) as [e|] eqn:F; [|easy].
    apply entry_item in F. apply andb_true_iff in E as [O E]. apply negb_true_iff in O.
    rewrite O in F. exists (e_type T e), (e_required T e). split; [exact F|].
    now apply (super_has _ _ _ E).
  - destruct (can_be_overwritten_with T same td) as [t'|] eqn:W; [|easy].
    destruct (overwritten td t' W k) as (t2 & I1 & V2). exists t2, false. split; [exact I1|].
    apply V2. now apply (super_has _ _ _ E).
Qed.

Notation get_or_pop := (get_or_pop T is_never unite object none_type).
Notation get_or_pop_one := (get_or_pop_one T is_never object).

Lemma pop_allowed : forall td x s t k, get_or_pop td x s true = Outcome T false t ->
  key_has x k -> allowed td (Del value k).
Proof.
  intros td [l ls| |] s t k E K; cbn in K; try easy.
  - unfold TypedDictModel.get_or_pop in E. cbv zeta in E.
    set (each := map (get_or_pop_one td true) (l :: ls)) in *. apply outcome_inj in E as [E _].
    assert (G : fst (fst (get_or_pop_one td true k)) = false).
    { apply (existsb_none _ _ _ _ E). unfold each. now apply in_map. }
    unfold TypedDictModel.get_or_pop_one in G.
    destruct (find_entry td k) as [e|] eqn:F; [|easy]. cbn in G.
    apply entry_item in F. apply orb_false_iff in G as [G1 G2].
    rewrite G1, G2 in F. cbn. eauto.
  - cbn in E. destruct (can_be_emptied T td) eqn:W; [|easy]. cbn. now apply emptied.
Qed.

Lemma get_or_pop_has : forall td x s is_pop i t k d v, conforms td d ->
  get_or_pop td x s is_pop = Outcome T i t -> (is_pop = true -> i = false) -> key_has x k ->
  match d k with
  | Some w => v = w
  | None => default_has T value has none s v /\ (is_pop = true -> s <> None)
  end -> has t v.
Proof.
  intros td x s is_pop i t k d v F E Hi K V.
  assert (Vd : d k = None -> has (match s with Some t => t | None => none_type end) v).
  { intros G. rewrite G in V. destruct V as [V _]. destruct s as [ts|]; cbn in V; [exact V|].
    subst v. apply (right_none _ _ _ _ _ _ _ _ _ _ R). }
  destruct x as [l ls| |]; cbn in K; try easy.
  - unfold TypedDictModel.get_or_pop in E. cbv zeta in E.
    set (each := map (get_or_pop_one td is_pop) (l :: ls)) in *.
    assert (I1 : In (get_or_pop_one td is_pop k) each) by (unfold each; now apply in_map).
    set (had := unite (map snd each)) in *.
    apply outcome_inj in E as [Ei Et]. subst t.
    assert (H1 : d k <> None \/ find_entry td k = None -> has had v).
    { intros D. apply (unite_has _ (snd (get_or_pop_one td is_pop k))).
      - now apply in_map.
      - unfold TypedDictModel.get_or_pop_one. destruct (find_entry td k) as [e|] eqn:G.
        + apply entry_item in G. specialize (F _ _ _ _ G).
          destruct (d k) as [w|]; [subst v|]; [exact F|]. destruct D as [D|D]; now exfalso.
        + destruct is_pop; apply (right_object _ _ _ _ _ _ _ _ _ _ R). }
    destruct (d k) as [w|] eqn:G.
    + assert (H2 : has had v) by (apply H1; now left).
      destruct (existsb (fun r => snd (fst r)) each); [|exact H2].
      destruct (is_pop && _); [exact H2|]. apply (unite_has _ had); [now left|exact H2].
    + destruct (find_entry td k) as [e|] eqn:G2.
      * assert (N1 : existsb (fun r => snd (fst r)) each = true).
        { apply existsb_exists. exists (get_or_pop_one td is_pop k). split; [exact I1|].
          unfold TypedDictModel.get_or_pop_one. rewrite G2. cbn.
          apply entry_item in G2. specialize (F _ _ _ _ G2). rewrite G in F. now rewrite F. }
        rewrite N1. destruct V as [V P].
        destruct (is_pop && _) eqn:B.
        { apply andb_true_iff in B as [-> B]. destruct s; [easy|]. now exfalso; apply P. }
        eapply unite_has; [right; left; reflexivity|]. now apply Vd.
      * assert (H2 : has had v) by (apply H1; now right).
        destruct (existsb (fun r => snd (fst r)) each); [|exact H2].
        destruct (is_pop && _); [exact H2|]. apply (unite_has _ had); [now left|exact H2].
  - cbn in E. injection E as _ <-. destruct (has_extra_items T td) eqn:X.
    + destruct (d k) as [w|] eqn:G.
      * subst w. eapply unite_has; [left; reflexivity|]. eapply all_types; eassumption.
      * eapply unite_has; [right; left; reflexivity|]. now apply Vd.
    + apply (right_object _ _ _ _ _ _ _ _ _ _ R).
Qed.

Lemma setdefault_has : forall td x t r k d v,
  setdefault T super is_never unite object td x t = Outcome T false r -> key_has x k ->
  conforms td d -> has t v ->
  (forall e, find_entry td k = Some e -> e_read_only T e = false) ->
  allowed td (Set_ value k v)
  /\ has r (match d k with Some w => w | None => v end).
Proof.
  intros td [l ls| |] t r k d v E K F V O; cbn in K; try easy.
  unfold setdefault in E. cbv zeta in E.
  set (one := fun l => match find_entry td l with
                       | Some m => (negb (super (e_type T m) t), e_type T m)
                       | None => (true, object) end) in *.
  assert (G : fst (one k) = false /\ In (one k) (map one (l :: ls))).
  { apply outcome_inj in E as [E _].
    assert (I1 : In (one k) (map one (l :: ls))) by now apply in_map.
    split; [|exact I1]. exact (existsb_none _ _ _ _ E I1). }
  destruct G as [G I1].
  assert (Er : r = unite [unite (map snd (map one (l :: ls))); t]) by (apply outcome_inj in E as [_ <-]; reflexivity).
  clear E. subst r. unfold one in G at 1. destruct (find_entry td k) as [e|] eqn:W; [|easy].
  cbn in G. apply negb_false_iff in G. specialize (O _ eq_refl).
  assert (I2 := entry_item _ _ _ W). split.
  - cbn. rewrite O in I2. exists (e_type T e), (e_required T e). split; [exact I2|].
    now apply (super_has _ _ _ G).
  - destruct (d k) as [w|] eqn:D.
    + eapply unite_has; [left; reflexivity|]. apply (unite_has _ (snd (one k))).
      * now apply in_map.
      * unfold one. rewrite W. cbn. specialize (F _ _ _ _ I2). now rewrite D in F.
    + eapply unite_has; [right; left; reflexivity|exact V].
Qed.

Lemma update_keeps : forall td from d k t q, update T is_never td from = true ->
  distinct T td -> conforms from d -> (extra_items T from = None -> only_names T value from d) ->
  item td k t q true -> is_never t = false -> d k = None.
Proof.
  intros td from d k t q E D F O I1 N1. unfold update in E. apply andb_true_iff in E as [E1 E2].
  destruct (d k) as [v|] eqn:G; [exfalso|reflexivity].
  destruct (item_entry td k t q true D I1) as [[n W]|(_ & W & _)]; [|congruence].
  destruct (find (fun m => m_name T m =? k) (named T from)) as [m|] eqn:M.
  - apply found_member in M as [I2 Ek]. rewrite forallb_forall in E1. specialize (E1 _ I2).
    cbn beta in E1. rewrite Ek, W in E1. cbn in E1. apply negb_true_iff, negb_false_iff in E1.
    specialize (F (m_name T m) (m_type T m) (m_required T m) (m_read_only T m)).
    rewrite Ek, G in F. eapply never_has; [exact E1|]. apply F. left. rewrite <- Ek. now rewrite member_eta.
  - destruct (extra_items T from) as [x|] eqn:X.
    + apply negb_true_iff in E2. apply andb_false_iff in E2 as [E2|E2].
      * apply negb_false_iff in E2. specialize (F k (x_type T x) false (x_read_only T x)).
        rewrite G in F. eapply never_has; [exact E2|]. apply F. right.
        split; [now apply no_member|]. rewrite X. now destruct x.
      * apply orb_false_iff in E2 as [E2 E3]. destruct I1 as [I1|(_ & X1 & _)].
        -- assert (existsb (m_read_only T) (named T td) = true); [|congruence].
           apply existsb_exists. eexists. split; [exact I1|reflexivity].
        -- rewrite X1 in E3. cbn in E3. discriminate.
    + destruct (O eq_refl k v G) as (m & I2 & Ek). now apply (no_member _ _ M m).
Qed.

Lemma dict_models : forall td t C, matches_dict T same true t td = true -> models td C ->
  models_dict T value has t C.
Proof.
  intros td t C E M. unfold matches_dict in E.
  destruct (can_be_overwritten_with T same td) as [t'|] eqn:W; [|easy]. cbn in E.
  pose proof (overwritten td t' W) as O.
  intros d Cd. destruct (M d Cd) as [F K]. split; [|split; [|split]].
  - intros k v G. destruct (O k) as (t2 & I1 & V). specialize (F _ _ _ _ I1). rewrite G in F.
    apply (same_back _ _ _ E). now apply V.
  - intros k v V. destruct (O k) as (t2 & I1 & V2). apply K. exists t2, false.
    split; [exact I1|]. apply V2. now apply (same_has _ _ _ E).
  - intros k. destruct (O k) as (t2 & I1 & _). apply K. cbn. eauto.
  - apply K. intros k. destruct (O k) as (t2 & I1 & _). eauto.
Qed.

Lemma mapping_models : forall td t C, matches_mapping T super unite true t td = true ->
  models td C -> models_mapping T value has t C.
Proof.
  intros td t C E M d Cd k v G. unfold matches_mapping in E. apply andb_true_iff in E as [X E].
  cbn in E. apply (super_has _ _ _ E). destruct (M d Cd) as [F _]. eapply all_types; eassumption.
Qed.

(** Joins and meets. *)
Lemma intersection_member : forall a b m,
  In m (named T (intersection T same a b)) <-> exists m1 m2, In m1 (named T a) /\ In m2 (named T b)
    /\ m_name T m1 = m_name T m2 /\ m_required T m1 = m_required T m2
    /\ same (m_type T m1) (m_type T m2) = true
    /\ m = mk_member T (m_name T m1) (m_type T m1) (m_required T m1) (m_read_only T m1 || m_read_only T m2).
Proof.
  intros a b m. cbn. rewrite in_flat_map. split.
  - intros (m1 & I1 & H). apply in_flat_map in H as (m2 & I2 & H).
    destruct ((m_name T m1 =? m_name T m2) && eqb (m_required T m1) (m_required T m2)
              && same (m_type T m1) (m_type T m2)) eqn:E; [|easy].
    destruct H as [<-|[]]. apply andb_true_iff in E as [E E3]. apply andb_true_iff in E as [E1 E2].
    apply N.eqb_eq in E1. apply eqb_prop in E2. exists m1, m2. auto 7.
  - intros (m1 & m2 & I1 & I2 & E1 & E2 & E3 & ->). exists m1. split; [exact I1|].
    apply in_flat_map. exists m2. split; [exact I2|]. rewrite E1, N.eqb_refl, E2, eqb_reflx, E3. now left.
Qed.

Lemma intersection_covers : forall a b, extra_items T (intersection T same a b) = None ->
  covers (intersection T same a b) a /\ covers (intersection T same a b) b.
Proof.
  intros a b X. split; intros k t q o [I1|[_ [Y _]]]; try congruence; left;
    apply intersection_member in I1 as (m1 & m2 & I1 & I2 & E1 & E2 & E3 & E);
    injection E as -> -> -> ->.
  - exists (m_type T m1), (m_required T m1), (m_read_only T m1). split; [left; now rewrite member_eta|].
    split; [easy|]. split; [easy|]. intros O. apply orb_false_iff in O as [-> _]. easy.
  - exists (m_type T m2), (m_required T m2), (m_read_only T m2).
    split; [left; rewrite E1; now rewrite member_eta|].
    split; [intros v; now apply same_back|]. rewrite E2. split; [easy|].
    intros O. apply orb_false_iff in O as [_ ->]. split; [easy|]. split; [|easy].
    intros v; now apply same_has.
Qed.

Lemma add_members_has : forall others members ms, add_members T same members others = Some ms ->
  (forall m, In m members -> In m ms)
  /\ (forall m, In m others -> exists m', In m' ms /\ m_name T m' = m_name T m
       /\ m_required T m' = m_required T m /\ m_read_only T m' = m_read_only T m
       /\ forall v, has (m_type T m') v <-> has (m_type T m) v).
Proof.
  induction others as [|m2 others IH]; cbn [add_members]; intros members ms E.
  - injection E as <-. easy.
  - destruct (find _ members) as [m1|] eqn:F.
    + destruct (_ || _) eqn:B; [easy|]. apply orb_false_iff in B as [B B3].
      apply orb_false_iff in B as [B1 B2]. apply negb_false_iff in B1, B2, B3.
      apply eqb_prop in B1, B2. apply find_some in F as [I1 E1]. apply N.eqb_eq in E1.
      destruct (IH _ _ E) as [H1 H2]. split; [exact H1|]. intros m [<-|I2]; [|now apply H2].
      exists m1. split; [now apply H1|]. split; [exact E1|]. split; [exact B1|]. split; [exact B2|].
      intros v. split; [now apply same_has|now apply same_back].
    + destruct (IH _ _ E) as [H1 H2]. split.
      * intros m I1. apply H1, in_or_app. now left.
      * intros m [<-|I2]; [|now apply H2]. exists m2. split; [apply H1, in_or_app; right; now left|].
        easy.
Qed.

Lemma union_covers : forall a b u, union T same a b = Some u ->
  extra_items T a = None -> extra_items T b = None -> covers a u /\ covers b u.
Proof.
  intros a b u E X1 X2. unfold union in E.
  destruct (add_members T same (named T a) (named T b)) as [ms|] eqn:A; [|easy].
  injection E as <-. destruct (add_members_has _ _ _ A) as [H1 H2].
  split; intros k t q o [I1|[_ [Y _]]]; try congruence; left.
  - exists t, q, o. split; [left; now apply H1|]. easy.
  - destruct (H2 _ I1) as (m' & I2 & E1 & E2 & E3 & V). cbn in E1, E2, E3, V.
    exists (m_type T m'), q, o. split; [left; rewrite <- E1, <- E2, <- E3; now rewrite member_eta|].
    split; [apply V|]. split; [easy|]. intros ->. split; [easy|]. split; [apply V|easy].
Qed.

(** Dict displays. *)
Notation infer_arg := (infer_typed_dict_arg T super is_never).

Definition star_step (td : typed_dict) (s : list N * bool) (m : member) : list N * bool :=
  (if m_required T m then retained (fst s) (m_name T m) else fst s,
   snd s && infer_arg td (m_name T m) (m_type T m)).

Lemma retained_in : forall l k x, In x (retained l k) <-> In x l /\ x <> k.
Proof.
  intros l k x. unfold retained. rewrite filter_In, negb_true_iff, N.eqb_neq. easy.
Qed.

Lemma star_fold : forall td ms s, 
  (snd (fold_left (star_step td) ms s) = true <->
   snd s = true /\ forall m, In m ms -> infer_arg td (m_name T m) (m_type T m) = true)
  /\ forall x, In x (fst (fold_left (star_step td) ms s)) <->
     In x (fst s) /\ forall m, In m ms -> m_required T m = true -> m_name T m <> x.
Proof.
  intros td. induction ms as [|m ms IH]; intros s; cbn [fold_left].
  - split; [split; [intros H; split; [exact H|easy]|intros [H _]; exact H]|].
    intros x. split; [intros H; split; [exact H|easy]|intros [H _]; exact H].
  - destruct (IH (star_step td s m)) as [H1 H2]. split.
    + rewrite H1. unfold star_step at 1. cbn [snd]. rewrite andb_true_iff. split.
      * intros [[A B] C]. split; [exact A|]. intros m' [<-|I1]; auto.
      * intros [A B]. split; [split; [exact A|apply B; now left]|]. intros m' I1. apply B. now right.
    + intros x. rewrite H2. unfold star_step at 1. cbn [fst].
      destruct (m_required T m) eqn:Q.
      * rewrite retained_in. split.
        -- intros [[A B] C]. split; [exact A|]. intros m' [<-|I1] Q'; [congruence|now apply C].
        -- intros [A B]. split; [split; [exact A|]|].
           ++ intros ->. apply (B m); auto. now left.
           ++ intros m' I1. apply B. now right.
      * split.
        -- intros [A B]. split; [exact A|]. intros m' [<-|I1] Q'; [congruence|now apply B].
        -- intros [A B]. split; [exact A|]. intros m' I1. apply B. now right.
Qed.

Definition well_typed (td : typed_dict) (d : dict value) : Prop :=
  forall k v, d k = Some v -> exists e, find_entry td k = Some e /\ has (e_type T e) v.

Definition not_missing (td : typed_dict) (missing : list N) (d : dict value) : Prop :=
  forall m, In m (named T td) -> m_required T m = true ->
  In (m_name T m) missing \/ d (m_name T m) <> None.

Lemma element_step : forall td e p s d, snd (check_element T super is_never td s e) = true ->
  made T value has e p -> well_typed td d -> not_missing td (fst s) d ->
  snd s = true /\ well_typed td (put value d p)
  /\ not_missing td (fst (check_element T super is_never td s e)) (put value d p).
Proof.
  intros td e p s d E M W Q. destruct M as [k t v V|from new F O].
  - cbn [check_element snd fst] in *. apply andb_true_iff in E as [E1 E2].
    split; [exact E1|]. split.
    + intros k' v' H. cbn in H. destruct (k' =? k) eqn:K; [|now apply W].
      injection H as <-. apply N.eqb_eq in K as ->. unfold infer_typed_dict_arg in E2.
      destruct (find_entry td k) as [e|]; [|easy]. exists e. split; [reflexivity|].
      now apply (super_has _ _ _ E2).
    + intros m I1 R1. cbn. destruct (m_name T m =? k) eqn:K; [now right|].
      destruct (Q m I1 R1) as [H|H]; [left|now right]. apply retained_in.
      split; [exact H|]. now apply N.eqb_neq.
  - cbn [check_element] in *. fold (star_step td) in *.
    destruct (star_fold td (named T from) s) as [H1 H2]. apply H1 in E as [E1 E2].
    split; [exact E1|]. split.
    + intros k v H. cbn in H. destruct (new k) as [w|] eqn:G; [|now apply W].
      injection H as <-. destruct (O k w G) as (m & I1 & K). subst k.
      specialize (E2 _ I1). unfold infer_typed_dict_arg in E2.
      destruct (find_entry td (m_name T m)) as [e|]; [|easy]. exists e. split; [reflexivity|].
      apply (super_has _ _ _ E2). specialize (F (m_name T m) (m_type T m) (m_required T m) (m_read_only T m)).
      rewrite G in F. apply F. left. now rewrite member_eta.
    + intros m I1 R1. cbn. destruct (new (m_name T m)) as [w|] eqn:G; [now right|].
      destruct (Q m I1 R1) as [H|H]; [left|now right]. apply H2. split; [exact H|].
      intros m' I2 R2 K. specialize (F (m_name T m') (m_type T m') (m_required T m') (m_read_only T m')).
      rewrite K, G in F. rewrite F in R2; [easy|]. left. rewrite <- K. now rewrite member_eta.
Qed.

Lemma elements_back : forall td es s,
  snd (fold_left (check_element T super is_never td) es s) = true -> snd s = true.
Proof.
  intros td. induction es as [|e es IH]; intros s; cbn [fold_left]; [easy|].
  intros H. apply IH in H. destruct e as [[k|] t|from]; cbn in H; [|easy|].
  - now apply andb_true_iff in H.
  - fold (star_step td) in H. now apply star_fold in H as [H _].
Qed.

Lemma elements_steps : forall td es ps, Forall2 (made T value has) es ps -> forall s d,
  snd (fold_left (check_element T super is_never td) es s) = true ->
  well_typed td d -> not_missing td (fst s) d ->
  well_typed td (fold_left (put value) ps d)
  /\ not_missing td (fst (fold_left (check_element T super is_never td) es s)) (fold_left (put value) ps d).
Proof.
  intros td es ps H. induction H as [|e p es ps M H IH]; intros s d E W Q; cbn [fold_left] in *; [easy|].
  destruct (element_step td e p s d) as (_ & W2 & Q2); try assumption.
  { now apply elements_back in E. }
  now apply IH.
Qed.

Lemma well_typed_conforms : forall td d, distinct T td -> well_typed td d -> not_missing td [] d ->
  conforms td d.
Proof.
  intros td d D W Q k t q o I1. destruct (d k) as [v|] eqn:G.
  - destruct (W k v G) as (e & E & V). apply entry_item in E.
    now destruct (item_unique _ _ _ _ _ _ _ _ D I1 E) as (-> & _ & _).
  - destruct I1 as [I1|(_ & _ & ->)]; [|reflexivity]. destruct q; [|reflexivity].
    destruct (Q _ I1 eq_refl) as [H|H]; [easy|]. now apply H in G.
Qed.

Lemma literal_conforms : forall td es ps, distinct T td ->
  check_literal T super is_never td es = true -> Forall2 (made T value has) es ps ->
  conforms td (display value ps).
Proof.
  intros td es ps D E H. unfold check_literal in E. cbv zeta in E. apply andb_true_iff in E as [E1 E2].
  apply well_typed_conforms; [exact D| |].
  - eapply elements_steps; [exact H|exact E1|easy|]. intros m I1 R1. left. cbn.
    apply in_map. now apply filter_In.
  - destruct (fst (fold_left _ es _)) as [|x l] eqn:G in E2; [|easy].
    rewrite <- G. eapply elements_steps; [exact H|exact E1|easy|]. intros m I1 R1. left. cbn.
    apply in_map. now apply filter_In.
Qed.

Lemma call_conforms : forall td args vs, distinct T td ->
  check_call T super is_never td args = true ->
  Forall2 (fun a p => exists k v, fst a = Some k /\ p = Pair value k v /\ has (snd a) v) args vs ->
  conforms td (display value vs).
Proof.
  intros td args vs D E H. unfold check_call in E. apply andb_true_iff in E as [E1 E2].
  rewrite forallb_forall in E1, E2.
  assert (A : forall d, well_typed td d -> well_typed td (fold_left (put value) vs d)
            /\ (forall k, (d k <> None \/ exists a, In a args /\ fst a = Some k) ->
                 fold_left (put value) vs d k <> None)).
  { clear E2 D. induction H as [|a p args vs (k & v & Ek & -> & V) H IH]; intros d W; cbn [fold_left].
    - split; [exact W|]. intros k [K|(a & [] & _)]. exact K.
    - assert (E2 := E1 a (or_introl eq_refl)). rewrite Ek in E2.
      destruct (IH (fun a I1 => E1 a (or_intror I1)) (put value d (Pair value k v))) as [H1 H2].
      + intros k' v' G. cbn in G. destruct (k' =? k) eqn:K; [|now apply W].
        injection G as <-. apply N.eqb_eq in K as ->. unfold infer_typed_dict_arg in E2.
        destruct (find_entry td k) as [e|]; [|easy]. exists e. split; [reflexivity|].
        now apply (super_has _ _ _ E2).
      + split; [exact H1|]. intros k' K. apply H2. cbn. destruct (k' =? k) eqn:K2; [now left|].
        destruct K as [K|(a' & [<-|I1] & K)]; [now left| |right; eauto].
        rewrite Ek in K. injection K as ->. now rewrite N.eqb_refl in K2. }
  destruct (A (fun _ => None)) as [H1 H2]; [easy|].
  apply well_typed_conforms; [exact D|exact H1|]. intros m I1 R1. right. apply H2. right.
  specialize (E2 _ I1). rewrite R1 in E2. cbn in E2. apply existsb_exists in E2 as (a & I2 & K).
  exists a. split; [exact I2|]. destruct (fst a) as [k|]; [|easy]. apply N.eqb_eq in K. now subst k.
Qed.

(** Narrowing by [in]. *)
Lemma filter_all : forall A (f : A -> bool) l,
  Nat.eqb (length (filter f l)) (length l) = true <-> forall x, In x l -> f x = true.
Proof.
  intros A f l. rewrite PeanoNat.Nat.eqb_eq. induction l as [|a l IH]; cbn [filter length]; [easy|].
  assert (L : (length (filter f l) <= length l)%nat).
  { clear. induction l as [|a l IH]; cbn; [lia|]. destruct (f a); cbn; lia. }
  destruct (f a) eqn:F; cbn [length].
  - rewrite PeanoNat.Nat.succ_inj_wd, IH. split.
    + intros H x [<-|I1]; auto.
    + intros H x I1. apply H. now right.
  - split; [lia|]. intros H. rewrite H in F; [easy|now left].
Qed.

Lemma narrow_keeps : forall left_ right_ ts fs td d k,
  narrow_in T left_ right_ = Some (ts, fs) ->
  (forall l, In l left_ -> l <> None) -> In (Some k) left_ -> In td right_ -> conforms td d ->
  (d k <> None -> (is_final T td = true -> only_names T value td d) -> In td ts)
  /\ (d k = None -> In td fs).
Proof.
  intros left_ right_ ts fs td d k E L K I1 F. unfold narrow_in in E. cbv zeta in E.
  set (lits := flat_map (fun l : option N => match l with Some k => [k] | None => [] end) left_) in *.
  assert (K2 : In k lits). { apply in_flat_map. exists (Some k). split; [exact K|now left]. }
  assert (E2 : ts = filter (fun td => fst (narrow_part T lits td)) right_
            /\ fs = filter (fun td => snd (narrow_part T lits td)) right_).
  { destruct lits as [|l0 l1]; [easy|]. injection E as <- <-. easy. }
  destruct E2 as [-> ->]. clear E. split.
  - intros G O. apply filter_In. split; [exact I1|]. unfold narrow_part. cbv zeta.
    destruct (Nat.eqb _ (length lits)); [reflexivity|]. cbn [fst].
    destruct (is_final T td) eqn:Fi; [|reflexivity]. cbn. apply negb_true_iff.
    match goal with |- ?x = false => destruct x eqn:A; [exfalso|reflexivity] end.
    rewrite filter_all in A. specialize (A k K2). cbn beta in A.
    destruct (d k) as [v|] eqn:D; [|now apply G].
    destruct (O eq_refl k v D) as (m & I2 & Em). unfold find_member in A.
    destruct (find (fun m => m_name T m =? k) (named T td)) as [m'|] eqn:Fm; [easy|].
    now apply (no_member _ _ Fm m).
  - intros G. apply filter_In. split; [exact I1|]. unfold narrow_part. cbv zeta.
    match goal with |- snd (if ?x then _ else _) = _ => destruct x eqn:A; [exfalso|reflexivity] end.
    rewrite filter_all in A. specialize (A k K2). cbn beta in A. unfold find_member in A.
    destruct (find (fun m => m_name T m =? k) (named T td)) as [m'|] eqn:Fm; [|easy].
    apply found_member in Fm as [I2 Em].
    specialize (F (m_name T m') (m_type T m') (m_required T m') (m_read_only T m')).
    rewrite Em, G in F. rewrite F in A; [easy|]. left. rewrite <- Em. now rewrite member_eta.
Qed.

(** Nothing else is rejected: what is safe is accepted, but for a few cases. *)
Section Complete.
(** The types of the members and of extra items have two values, but for [Never]. *)
Definition two (t : T) : Prop := exists v1 v2, v1 <> v2 /\ has t v1 /\ has t v2.
Variables td1 td2 : typed_dict.
Hypothesis D1 : distinct T td1.
Hypothesis D2 : distinct T td2.
Hypothesis inhabited1 : forall m, In m (named T td1) -> two (m_type T m).
Hypothesis inhabited2 : forall m, In m (named T td2) -> two (m_type T m).
Hypothesis inhabited : forall x, extra_items T td1 = Some x ->
  is_never (x_type T x) = false -> two (x_type T x).
Hypothesis S0 : safe T value has td1 td2.

Lemma change_conforms : forall td d d' k, conforms td d -> (forall k', k' <> k -> d' k' = d k') ->
  (forall t q o, item td k t q o -> match d' k with Some v => has t v | None => q = false end) ->
  conforms td d'.
Proof.
  intros td d d' k F E H k' t q o I1. destruct (N.eq_dec k' k) as [->|N1]; [now apply (H t q o)|].
  rewrite E by exact N1. now apply (F k' t q o).
Qed.

Lemma filled : forall ms, NoDup (map (m_name T) ms) ->
  (forall m, In m ms -> two (m_type T m)) ->
  exists d : dict value, (forall m, In m ms -> exists v, d (m_name T m) = Some v /\ has (m_type T m) v)
    /\ forall k, (forall m, In m ms -> m_name T m <> k) -> d k = None.
Proof.
  induction ms as [|m ms IH]; intros D H.
  - exists (fun _ => None). easy.
  - inversion D as [|x y N1 N2]; subst. destruct IH as (d & A & B); [exact N2|intros; apply H; now right|].
    destruct (H m (or_introl eq_refl)) as (v & _ & _ & V & _).
    exists (fun k => if k =? m_name T m then Some v else d k). split.
    + intros m' [<-|I1].
      * rewrite N.eqb_refl. eauto.
      * destruct (m_name T m' =? m_name T m) eqn:E; [|now apply A].
        apply N.eqb_eq in E. exfalso. apply N1. rewrite <- E. now apply in_map.
    + intros k K. destruct (k =? m_name T m) eqn:E.
      * apply N.eqb_eq in E. exfalso. apply (K m); [now left|easy].
      * apply B. intros m' I1. apply K. now right.
Qed.

Lemma base : exists d0, conforms td2 d0
  /\ (forall m, In m (named T td2) -> exists v, d0 (m_name T m) = Some v /\ has (m_type T m) v)
  /\ forall k, (forall m, In m (named T td2) -> m_name T m <> k) -> d0 k = None.
Proof.
  destruct (filled (named T td2) D2 inhabited2) as (d & A & B). exists d. split; [|split; assumption].
  intros k t q o [I1|(N1 & _ & ->)].
  - destruct (A _ I1) as (v & E & V). cbn in E, V. now rewrite E.
  - now rewrite (B k N1).
Qed.

Definition pinned (k : N) (x : option value) (d : dict value) : Prop := conforms td2 d /\ d k = x.

Lemma pinned_models : forall k x, (forall t q, ~ item td2 k t q false) -> models td2 (pinned k x).
Proof.
  intros k x H d [F E]. split; [exact F|]. intros o A. split.
  - now apply (models_self td2 D2 d F).
  - destruct o as [k' v|k'|]; cbn in *.
    + destruct A as (t & q & I1 & _). destruct (k =? k') eqn:K; [|exact E].
      apply N.eqb_eq in K. subst k'. now apply H in I1.
    + destruct A as (t & I1). destruct (k =? k') eqn:K; [|exact E].
      apply N.eqb_eq in K. subst k'. now apply H in I1.
    + destruct (A k) as (t & I1). now apply H in I1.
Qed.

(** With an item on both sides. *)
Lemma both_down : forall k t1 q1 o1 t2 q2 o2, item td1 k t1 q1 o1 -> item td2 k t2 q2 o2 ->
  forall v, has t2 v -> has t1 v.
Proof.
  intros k t1 q1 o1 t2 q2 o2 I1 I2 v V. destruct base as (d0 & F & _).
  set (d := fun k' => if k' =? k then Some v else d0 k').
  assert (Fd : conforms td2 d).
  { apply (change_conforms td2 d0 d k F).
    - intros k' K. unfold d. now rewrite (proj2 (N.eqb_neq k' k) K).
    - intros t q o I3. unfold d. rewrite N.eqb_refl.
      now destruct (item_unique _ _ _ _ _ _ _ _ D2 I2 I3) as (-> & _ & _). }
  destruct (S0 _ (models_self td2 D2) d Fd) as [G _]. specialize (G _ _ _ _ I1).
  unfold d in G. now rewrite N.eqb_refl in G.
Qed.

Lemma both_up : forall k t1 q1 t2 q2 o2, item td1 k t1 q1 false -> item td2 k t2 q2 o2 ->
  forall v, has t1 v -> has t2 v.
Proof.
  intros k t1 q1 t2 q2 o2 I1 I2 v V. destruct base as (d0 & F & _).
  destruct (S0 _ (models_self td2 D2) d0 F) as [_ K].
  specialize (K (Set_ value k v)). cbn in K. specialize (K (ex_intro _ t1 (ex_intro _ q1 (conj I1 V)))).
  specialize (K _ _ _ _ I2). cbn in K. now rewrite N.eqb_refl in K.
Qed.

Lemma both_required : forall k t1 o1 t2 q2 o2, item td1 k t1 true o1 -> item td2 k t2 q2 o2 ->
  q2 = true.
Proof.
  intros k t1 o1 t2 q2 o2 I1 I2. destruct q2; [reflexivity|exfalso]. destruct base as (d0 & F & _).
  set (d := fun k' => if k' =? k then None else d0 k').
  assert (Fd : conforms td2 d).
  { apply (change_conforms td2 d0 d k F).
    - intros k' K. unfold d. now rewrite (proj2 (N.eqb_neq k' k) K).
    - intros t q o I3. unfold d. rewrite N.eqb_refl.
      now destruct (item_unique _ _ _ _ _ _ _ _ D2 I2 I3) as (_ & <- & _). }
  destruct (S0 _ (models_self td2 D2) d Fd) as [G _]. specialize (G _ _ _ _ I1).
  unfold d in G. now rewrite N.eqb_refl in G.
Qed.

Lemma both_optional : forall k t1 t2 q2 o2, item td1 k t1 false false -> item td2 k t2 q2 o2 ->
  q2 = false.
Proof.
  intros k t1 t2 q2 o2 I1 I2. destruct base as (d0 & F & _).
  destruct (S0 _ (models_self td2 D2) d0 F) as [_ K]. specialize (K (Del value k)). cbn in K.
  specialize (K (ex_intro _ t1 I1) _ _ _ _ I2). cbn in K. now rewrite N.eqb_refl in K.
Qed.

Lemma both_mutable : forall k t1 q1 t2 q2 o2, item td1 k t1 q1 false -> item td2 k t2 q2 o2 ->
  two t1 -> o2 = false.
Proof.
  intros k t1 q1 t2 q2 o2 I1 I2 N1. destruct o2; [exfalso|reflexivity].
  destruct base as (d0 & F & _).
  assert (P : forall t q, ~ item td2 k t q false).
  { intros t q I3. now destruct (item_unique _ _ _ _ _ _ _ _ D2 I2 I3) as (_ & _ & O). }
  destruct (S0 _ (pinned_models k (d0 k) P) d0 (conj F eq_refl)) as [_ K].
  destruct N1 as (v1 & v2 & N2 & V1 & V2).
  destruct (K (Set_ value k v1)) as [_ E1]; [exists t1, q1; auto|].
  destruct (K (Set_ value k v2)) as [_ E2]; [exists t1, q1; auto|].
  cbn in E1, E2. rewrite N.eqb_refl in E1, E2. congruence.
Qed.

(** With an item on the left only. *)
Lemma left_optional : forall k t1 q1 o1, item td1 k t1 q1 o1 ->
  (forall m, In m (named T td2) -> m_name T m <> k) -> q1 = false.
Proof.
  intros k t1 q1 o1 I1 N1. destruct base as (d0 & F & _ & B).
  destruct (S0 _ (models_self td2 D2) d0 F) as [G _]. specialize (G _ _ _ _ I1).
  now rewrite (B k N1) in G.
Qed.

Lemma left_read_only : forall k t1 q1 o1, item td1 k t1 q1 o1 -> two t1 ->
  (forall t q o, ~ item td2 k t q o) -> o1 = true.
Proof.
  intros k t1 q1 o1 I1 N1 N2. destruct o1; [reflexivity|exfalso].
  destruct base as (d0 & F & _ & B).
  assert (E : d0 k = None).
  { apply B. intros m I2 E. apply (N2 (m_type T m) (m_required T m) (m_read_only T m)).
    left. rewrite <- E. now rewrite member_eta. }
  destruct (S0 _ (pinned_models k None (fun t q => N2 t q false)) d0 (conj F E)) as [_ K].
  destruct N1 as (v & _ & _ & V & _).
  destruct (K (Set_ value k v)) as [_ E1]; [exists t1, q1; auto|].
  cbn in E1. now rewrite N.eqb_refl in E1.
Qed.

Lemma left_object : forall k t1 q1 o1, item td1 k t1 q1 o1 -> (forall t q o, ~ item td2 k t q o) ->
  forall v, has t1 v.
Proof.
  intros k t1 q1 o1 I1 N2 v. destruct base as (d0 & F & _).
  set (d := fun k' => if k' =? k then Some v else d0 k').
  assert (Fd : conforms td2 d).
  { apply (change_conforms td2 d0 d k F).
    - intros k' K. unfold d. now rewrite (proj2 (N.eqb_neq k' k) K).
    - intros t q o I3. now apply N2 in I3. }
  destruct (S0 _ (models_self td2 D2) d Fd) as [G _]. specialize (G _ _ _ _ I1).
  unfold d in G. now rewrite N.eqb_refl in G.
Qed.

(** What is rejected without need. *)
Definition excused : Prop :=
  (exists m1, In m1 (named T td1) /\ m_read_only T m1 = true /\ m_required T m1 = false
     /\ (forall m2, In m2 (named T td2) -> m_name T m2 <> m_name T m1)
     /\ match extra_items T td2 with
        | Some x2 => is_never (x_type T x2) = true
        | None => forall v, has (m_type T m1) v
        end)
  \/ (exists x1, extra_items T td1 = Some x1 /\ x_read_only T x1 = true
     /\ ((extra_items T td2 = None /\ forall v, has (x_type T x1) v)
         \/ exists m2, In m2 (named T td2) /\ m_required T m2 = true
            /\ forall m1, In m1 (named T td1) -> m_name T m1 <> m_name T m2)).

Lemma fresh : forall l : list N, exists k, ~ In k l.
Proof.
  intros l. exists (N.succ (fold_right N.max 0 l)). intros H.
  assert (A : forall x, In x l -> x <= fold_right N.max 0 l).
  { clear. induction l as [|a l IH]; cbn; [easy|]. intros x [->|I1]; [lia|]. specialize (IH x I1). lia. }
  apply A in H. lia.
Qed.

Lemma safe_accepted : ~ excused -> matches_super td1 td2 = true.
Proof.
  intros X. unfold is_super_type_of. apply andb_true_iff. split.
  - apply forallb_forall. intros m1 I1. unfold member_matches.
    assert (J1 := member_item _ _ _ _ I1 eq_refl eq_refl).
    destruct (find_entry td2 (m_name T m1)) as [e|] eqn:F.
    + apply entry_item in F. set (q1 := m_required T m1) in *. set (o1 := m_read_only T m1) in *.
      set (q2 := e_required T e) in *. set (o2 := e_read_only T e) in *.
      assert (Dn := both_down _ _ _ _ _ _ _ J1 F).
      assert (A : negb (eqb q1 q2) && negb (o1 && negb q1) = false).
      { destruct q1 eqn:Q1; [now rewrite (both_required _ _ _ _ _ _ J1 F)|].
        destruct o1 eqn:O1; [now destruct q2|]. now rewrite (both_optional _ _ _ _ _ J1 F). }
      rewrite A. destruct o1 eqn:O1; cbn.
      * now apply (right_super _ _ _ _ _ _ _ _ _ _ R).
      * rewrite (both_mutable _ _ _ _ _ _ J1 F (inhabited1 _ I1)).
        apply (right_same _ _ _ _ _ _ _ _ _ _ R). intros v. split; [|apply Dn].
        exact (both_up _ _ _ _ _ _ J1 F v).
    + exfalso. apply X. left. exists m1. unfold TypedDictModel.find_entry in F.
      destruct (find _ (named T td2)) as [m2|] eqn:F2; [easy|].
      pose proof (no_member td2 _ F2) as N2.
      assert (Q1 := left_optional _ _ _ _ J1 N2).
      destruct (extra_items T td2) as [x2|] eqn:X2.
      * destruct (is_never (x_type T x2)) eqn:V; [|easy].
        assert (J2 : item td2 (m_name T m1) (x_type T x2) false (x_read_only T x2)).
        { right. split; [exact N2|]. rewrite X2. now destruct x2. }
        split; [exact I1|]. split; [|split; [exact Q1|split; [exact N2|reflexivity]]].
        destruct (m_read_only T m1) eqn:O1; [reflexivity|exfalso].
        destruct (inhabited1 _ I1) as (v & _ & _ & V1 & _).
        eapply never_has; [exact V|]. exact (both_up _ _ _ _ _ _ J1 J2 v V1).
      * assert (N3 : forall t q o, ~ item td2 (m_name T m1) t q o).
        { intros t q o [I2|(_ & Y & _)]; [|congruence]. exact (N2 _ I2 eq_refl). }
        split; [exact I1|]. split; [exact (left_read_only _ _ _ _ J1 (inhabited1 _ I1) N3)|].
        split; [exact Q1|]. split; [exact N2|]. exact (left_object _ _ _ _ J1 N3).
  - destruct (extra_items T td1) as [x1|] eqn:X1; [|reflexivity].
    destruct (fresh (map (m_name T) (named T td1) ++ map (m_name T) (named T td2))) as (k & K).
    assert (K1 : forall m, In m (named T td1) -> m_name T m <> k).
    { intros m I1 E. apply K, in_or_app. left. rewrite <- E. now apply in_map. }
    assert (K2 : forall m, In m (named T td2) -> m_name T m <> k).
    { intros m I1 E. apply K, in_or_app. right. rewrite <- E. now apply in_map. }
    assert (J1 : item td1 k (x_type T x1) false (x_read_only T x1)).
    { right. split; [exact K1|]. rewrite X1. now destruct x1. }
    apply andb_true_iff. split.
    + destruct (extra_items T td2) as [x2|] eqn:X2.
      * assert (J2 : item td2 k (x_type T x2) false (x_read_only T x2)).
        { right. split; [exact K2|]. rewrite X2. now destruct x2. }
        assert (Dn := both_down _ _ _ _ _ _ _ J1 J2).
        destruct (x_read_only T x1) eqn:O1.
        -- now apply (right_super _ _ _ _ _ _ _ _ _ _ R).
        -- apply (right_same _ _ _ _ _ _ _ _ _ _ R). intros v. split; [|apply Dn].
           exact (both_up _ _ _ _ _ _ J1 J2 v).
      * exfalso. assert (N3 : forall t q o, ~ item td2 k t q o).
        { intros t q o [I2|(_ & Y & _)]; [|congruence]. exact (K2 _ I2 eq_refl). }
        assert (V := left_object _ _ _ _ J1 N3).
        destruct (is_never (x_type T x1)) eqn:Nv.
        { exact (never_has _ none Nv (V none)). }
        apply X. right. exists x1. split; [exact X1|].
        split; [exact (left_read_only _ _ _ _ J1 (inhabited _ eq_refl Nv) N3)|]. left. split; [exact X2|exact V].
    + apply forallb_forall. intros m2 I2. unfold fits_extra, TypedDictModel.find_entry.
      assert (J2 := member_item _ _ _ _ I2 eq_refl eq_refl).
      destruct (find _ (named T td1)) as [m1|] eqn:F; [reflexivity|].
      pose proof (no_member td1 _ F) as N1. rewrite X1.
      destruct (is_never (x_type T x1)) eqn:V; [reflexivity|]. cbn.
      assert (J3 : item td1 (m_name T m2) (x_type T x1) false (x_read_only T x1)).
      { right. split; [exact N1|]. rewrite X1. now destruct x1. }
      assert (Dn := both_down _ _ _ _ _ _ _ J3 J2).
      assert (Q : m_required T m2 = false).
      { destruct (x_read_only T x1) eqn:O1; [|exact (both_optional _ _ _ _ _ J3 J2)].
        destruct (m_required T m2) eqn:Q; [exfalso|reflexivity]. apply X. right. exists x1.
        split; [exact X1|]. split; [exact O1|]. right. exists m2. auto. }
      rewrite Q. destruct (x_read_only T x1) eqn:O1.
      * now apply (right_super _ _ _ _ _ _ _ _ _ _ R).
      * apply (right_same _ _ _ _ _ _ _ _ _ _ R). intros v. split; [|apply Dn].
        exact (both_up _ _ _ _ _ _ J3 J2 v).
Qed.
End Complete.
End Proofs.
