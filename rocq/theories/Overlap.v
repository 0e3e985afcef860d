(** Proofs about [OverlapModel] *)
From Coq Require Import List NArith Bool Lia PeanoNat.
From Verif Require Import TupleModel TupleSpec SubtypeModel SubtypeSpec SubtypeRules SubtypeProofs SubtypeSound SubtypeComplete SubtypeDecides OverlapModel OverlapSpec.
Import ListNotations.
Open Scope N_scope.

(** ** Answers that are not [Some false] *)
Definition open (a : option bool) : Prop := a <> Some false.

Lemma open_none : open None.
Proof. discriminate. Qed.
Lemma open_true : open (Some true).
Proof. discriminate. Qed.

Lemma open_or : forall a b, open a \/ open b -> open (or_ a b).
Proof. intros [[]|] b H; cbn; try discriminate. destruct H as [H|H]; [destruct (H eq_refl)|exact H]. Qed.

Lemma open_and : forall a b, open a -> open b -> open (and_ a b).
Proof. intros [[]|] b Ha Hb; cbn; try discriminate; [exact Hb|destruct (Ha eq_refl)]. Qed.

Lemma open_any : forall {A} (f : A -> option bool) l x, In x l -> open (f x) -> open (any_of f l).
Proof.
  intros A f l x. induction l as [|a l IH]; intros Hin H; [destruct Hin|]. cbn. apply open_or. destruct Hin as [->|Hin]; [left; exact H|right; exact (IH Hin H)].
Qed.

Lemma open_all : forall {A} (f : A -> option bool) l, Forall (fun x => open (f x)) l -> open (all_of f l).
Proof. intros A f l H. induction H as [|x l Hx H IH]; cbn; [discriminate|]. apply open_and; assumption. Qed.

Lemma open_every : forall {A} (f : A -> option bool) l, Forall (fun x => open (f x)) l -> open (every f l).
Proof.
  intros A f l H. induction H as [|x l Hx H IH]; cbn; [discriminate|]. unfold open in *. destruct (f x) as [[]|]; try congruence.
  destruct (every f l) as [[]|]; cbn; congruence.
Qed.

Lemma open_pairs : forall {A} (ask : A -> A -> option bool) l m, Forall2 (fun a b => open (ask a b)) l m ->
  Forall (fun x => open (ask (fst x) (snd x))) (combine l m).
Proof. intros A ask l m H. induction H as [|a b l m Hab H IH]; cbn; constructor; assumption. Qed.

Section Proofs.
Context {V : Type}.
Variables (p : program) (w : world V) (env : N -> V -> Prop) (listed : N -> bool) (E : V -> V -> Prop).
Hypothesis Proper : proper p.
Hypothesis Lawful : lawful p w env.
Hypothesis Ordinary : ordinary_program p.
Hypothesis Separate : separate_program p.
Hypothesis Alike : alike p w listed E.
Notation has := (has w env).
Notation ordinary := (ordinary p 0).
Notation separate := (separate p).
Notation overlaps := (overlaps p listed).

Lemma sub_open : forall fuel t1 t2, ordinary t1 -> ordinary t2 -> sub p t2 t1 -> open (to_bool (run p fuel (Matches Contravariant false t1 t2))).
Proof.
  intros fuel t1 t2 H1 H2 Hs. destruct fuel as [|fuel]; [discriminate|].
  change (run p (S fuel) (Matches Contravariant false t1 t2)) with (run p (S fuel) (Matches Covariant true t2 t1)).
  destruct (run p (S fuel) (Matches Covariant true t2 t1)) as [o|] eqn:R; [|discriminate].
  rewrite (run_complete p Ordinary _ _ _ _ _ H2 H1 Hs R). discriminate.
Qed.

Lemma super_open : forall fuel t1 t2, ordinary t1 -> ordinary t2 -> sub p t1 t2 -> open (to_bool (run p fuel (Matches Covariant false t1 t2))).
Proof.
  intros fuel t1 t2 H1 H2 Hs. destruct (run p fuel (Matches Covariant false t1 t2)) as [o|] eqn:R; [|discriminate].
  rewrite (run_complete p Ordinary _ _ _ _ _ H1 H2 Hs R). discriminate.
Qed.

Notation assign fuel := (assignable (fun t1 t2 => to_bool (run p fuel (Matches Covariant false t1 t2))) (fun t1 t2 => to_bool (run p fuel (Matches Contravariant false t1 t2)))).

Lemma assignable_open : forall fuel t1 t2, ordinary t1 -> ordinary t2 -> sub p t1 t2 \/ sub p t2 t1 -> open (assign fuel t1 t2).
Proof.
  intros fuel t1 t2 H1 H2 [H|H]; apply open_or; [right; apply super_open|left; apply sub_open]; assumption.
Qed.

(** ** Base classes *)
Lemma has_base : forall c gs d ds x, ordinary (Class c gs) -> In (Class d ds) (bases p c) -> has (Class c gs) x -> has (Class d (map (substitute gs) ds)) x.
Proof.
  intros c gs d ds x Ho Hin H. apply ordinary_class in Ho as [Hl _].
  assert (F := proper_bases p Proper c _ Hin). assert (B := law_bases p w env Lawful c (map has gs) (Class d ds) x).
  rewrite map_length in B. specialize (B Hl Hin H).
  exact (proj2 (has_substitute p w (law_arguments p w env Lawful) env gs _ (Class d ds) F x) B).
Qed.

Lemma separate_class : forall c gs, separate (Class c gs) <-> nameable p c /\ Forall separate gs.
Proof. intros c gs. cbn [OverlapSpec.separate]. rewrite Forall_map_id. reflexivity. Qed.

Lemma separate_substitute : forall gs t, Forall separate gs -> separate t -> separate (substitute gs t).
Proof.
  intros gs t Hg. induction t using type_induction; intros Hs; cbn [substitute]; try exact Logic.I; try exact Hs.
  - apply separate_class. apply separate_class in Hs as [Hn Hs]. split; [exact Hn|]. rewrite Forall_map. exact (Forall_mp _ _ _ H Hs).
  - cbn [OverlapSpec.separate] in *. apply Forall_of_map in Hs. apply map_of_Forall. rewrite Forall_map. exact (Forall_mp _ _ _ H Hs).
  - cbn [OverlapSpec.separate] in *. exact (IHt Hs).
  - cbn [OverlapSpec.separate] in *. apply Forall_of_map in Hs. apply map_of_Forall. rewrite Forall_map. exact (Forall_mp _ _ _ H Hs).
  - destruct (Nat.lt_ge_cases (N.to_nat n) (length gs)) as [L|L].
    + rewrite Forall_forall in Hg. apply Hg. apply nth_In. exact L.
    + rewrite nth_overflow by exact L. exact Logic.I.
Qed.

Lemma flat_class : forall gs l d ds, Forall (fun b => exists c cs, b = Class c cs) l -> In (d, ds) (flat_map class_entry (map (substitute gs) l)) ->
  exists cs, In (Class d cs) l /\ ds = map (substitute gs) cs.
Proof.
  intros gs l d ds H. induction H as [|b l [c [cs ->]] H IH]; cbn; [intros []|]. intros [Heq|Hin].
  - injection Heq as <- <-. exists cs. split; [left; reflexivity|reflexivity].
  - destruct (IH Hin) as [cs' [Hi Hd]]. exists cs'. split; [right; exact Hi|exact Hd].
Qed.

Lemma bases_are_classes : forall c, Forall (fun b => exists d ds, b = Class d ds) (bases p c).
Proof. intros c. apply Forall_forall. intros b Hb. exact (proj1 (bases_ordinary p Ordinary c b Hb)). Qed.

(** An entry of the MRO has the values of the class, and is a type as the class. *)
Lemma mro_entry : forall c gs d ds, ordinary (Class c gs) -> separate (Class c gs) -> class_in_mro p c gs d = Some ds ->
  ordinary (Class d ds) /\ Forall separate ds /\ forall x, has (Class c gs) x -> has (Class d ds) x.
Proof.
  intros c gs d ds Ho Hs H. unfold class_in_mro in H.
  destruct (List.find (fun x => fst x =? d) (class_mro p c gs)) as [[d' ds']|] eqn:F; [|discriminate H]. cbn in H. injection H as ->.
  apply List.find_some in F. destruct F as [Hin Hd]. cbn in Hd. apply N.eqb_eq in Hd. subst d'. unfold class_mro in Hin. destruct Hin as [Heq|Hin].
  - injection Heq as <- <-. split; [exact Ho|]. apply separate_class in Hs as [_ Hs]. split; [exact Hs|tauto].
  - apply in_app_iff in Hin. destruct Hin as [Hin|[Heq|[]]].
    + apply (flat_class _ _ _ _ (bases_are_classes c)) in Hin. destruct Hin as [cs [Hin ->]].
      split; [exact (base_ordinary p Ordinary c gs d cs Ho Hin)|]. split.
      * rewrite Forall_map. apply separate_class in Hs as [_ Hs]. refine (Forall_impl _ _ (separate_bases p Separate _ _ _ Hin)). intros t. apply separate_substitute. exact Hs.
      * intros x. exact (has_base c gs d cs x Ho Hin).
    + injection Heq as <- <-. split; [split; [rewrite (object_plain p Ordinary); reflexivity|constructor]|]. split; [constructor|]. intros x _. exact (law_object p w env Lawful x).
Qed.

Lemma find_none_in : forall c gs d, class_in_mro p c gs d = None -> c <> d /\ d <> object p /\ forall ds, ~ In (Class d ds) (bases p c).
Proof.
  intros c gs d H. unfold class_in_mro in H. destruct (List.find (fun x => fst x =? d) (class_mro p c gs)) as [y|] eqn:F; [discriminate H|].
  assert (N : forall y, In y (class_mro p c gs) -> fst y <> d).
  { intros y Hy Heq. apply (List.find_none _ _ F) in Hy. rewrite Heq, N.eqb_refl in Hy. discriminate Hy. }
  unfold class_mro in N. split; [intros ->; exact (N (d, gs) (or_introl eq_refl) eq_refl)|]. split.
  - intros ->. apply (N (object p, [])); [right; apply in_app_iff; right; left; reflexivity|reflexivity].
  - intros ds Hin. apply (N (d, map (substitute gs) ds)); [|reflexivity]. right. apply in_app_iff. left. apply in_flat_map.
    exists (Class d (map (substitute gs) ds)). split; [|left; reflexivity]. exact (in_map (substitute gs) _ _ Hin).
Qed.

Lemma not_derives : forall c gs d, class_in_mro p c gs d = None -> ~ derives p c d.
Proof.
  intros c gs d H [D|[D|[ds D]]]; apply find_none_in in H as [H1 [H2 H3]]; [exact (H1 D)|exact (H2 D)|exact (H3 ds D)].
Qed.

Lemma literal_instance : forall l x, literal_value w l x -> instance w (fallback p l) [] x.
Proof.
  intros [n s|b|s|s] x H; cbn [fallback].
  - exact (law_int p w env Lawful n s x H).
  - apply (law_bool p w env Lawful). destruct b; auto.
  - apply (law_text p w env Lawful). exact (law_str p w env Lawful s x H).
  - exact (law_bytes p w env Lawful s x H).
Qed.

Lemma literal_ordinary : forall l, ordinary (Class (fallback p l) []) /\ separate (Class (fallback p l) []).
Proof.
  intros l. assert (Hl := literals_plain p Ordinary l). assert (Hs := separate_literals p Separate l). destruct l; cbn [fallback class_of_literal] in *.
  all: (split; [split; [rewrite Hl; reflexivity|constructor]|apply separate_class; split; [exact Hs|constructor]]).
Qed.

(** ** One step *)
Section Step.
Variable fuel : nat.
Hypothesis IH : forall t1 t2 x y, ordinary t1 -> ordinary t2 -> separate t1 -> separate t2 -> E x y -> has t1 x -> has t2 y -> open (overlaps fuel t1 t2).

Definition meet (t1 t2 : type) : Prop := exists x y, E x y /\ has t1 x /\ has t2 y.

Lemma meet_open : forall l m, Forall ordinary l -> Forall ordinary m -> Forall separate l -> Forall separate m -> Forall2 meet l m ->
  Forall2 (fun a b => open (overlaps fuel a b)) l m.
Proof.
  intros l m Ol Om Sl Sm H. induction H as [|a b l m [x [y [Exy [Ha Hb]]]] H IHl]; [constructor|].
  apply Forall_cons_iff in Ol as [Oa Ol]. apply Forall_cons_iff in Om as [Ob Om]. apply Forall_cons_iff in Sl as [Sa Sl]. apply Forall_cons_iff in Sm as [Sb Sm].
  constructor; [exact (IH a b x y Oa Ob Sa Sb Exy Ha Hb)|exact (IHl Ol Om Sl Sm)].
Qed.

Lemma arguments_open : forall c gs1 gs2 x y, ordinary (Class c gs1) -> ordinary (Class c gs2) -> Forall separate gs1 -> Forall separate gs2 -> E x y ->
  has (Class c gs1) x -> has (Class c gs2) y -> open (arguments_overlap (overlaps fuel) gs1 gs2).
Proof.
  intros c gs1 gs2 x y O1 O2 S1 S2 Exy H1 H2. apply ordinary_class in O1 as [L1 O1]. apply ordinary_class in O2 as [L2 O2].
  assert (A := alike_arguments p w listed E Alike c _ _ x y Exy H1 H2). rewrite !map_length in A. specialize (A L1 L2).
  apply open_every, open_pairs, meet_open; try assumption. clear - A. revert gs2 A. induction gs1 as [|a gs1 IHg]; intros [|b gs2] A; inversion A; subst; [constructor|].
  constructor; [assumption|]. apply IHg. assumption.
Qed.

Lemma class_open : forall c1 gs1 c2 gs2 x y, ordinary (Class c1 gs1) -> ordinary (Class c2 gs2) -> separate (Class c1 gs1) -> separate (Class c2 gs2) -> E x y ->
  has (Class c1 gs1) x -> has (Class c2 gs2) y ->
  open match overlaps_class p listed (overlaps fuel) c1 gs1 c2 gs2 with Some r => r | None => assign fuel (Class c1 gs1) (Class c2 gs2) end.
Proof.
  intros c1 gs1 c2 gs2 x y O1 O2 S1 S2 Exy H1 H2. unfold overlaps_class. destruct (class_in_mro p c1 gs1 c2) as [ds|] eqn:M1.
  - destruct (mro_entry _ _ _ _ O1 S1 M1) as [Od [Sd Hd]]. apply separate_class in S2 as [_ S2]. exact (arguments_open c2 ds gs2 x y Od O2 Sd S2 Exy (Hd x H1) H2).
  - destruct (class_in_mro p c2 gs2 c1) as [ds|] eqn:M2.
    + destruct (mro_entry _ _ _ _ O2 S2 M2) as [Od [Sd Hd]]. apply separate_class in S1 as [_ S1]. exact (arguments_open c1 gs1 ds x y O1 Od S1 Sd Exy H1 (Hd y H2)).
    + destruct (listed c1 && listed c2) eqn:L; [discriminate|]. apply assignable_open; try assumption.
      destruct (alike_classes p w listed E Alike _ _ _ _ x y Exy H1 H2) as [D|[D|[[L1 L2]|[P|P]]]].
      * destruct (not_derives _ _ _ M1 D).
      * destruct (not_derives _ _ _ M2 D).
      * rewrite L1, L2 in L. discriminate L.
      * right. assert (Z : gs2 = []).
        { apply ordinary_class in O2 as [L2 _]. assert (Q : variances p c2 = []) by (clear - P Ordinary; induction P; [exact (promotions_plain p Ordinary _ _ H)|assumption]).
          rewrite Q in L2. destruct gs2; [reflexivity|discriminate L2]. }
        subst gs2. eapply s_promotion; [apply oc_class|exact P].
      * left. assert (Z : gs1 = []).
        { apply ordinary_class in O1 as [L1 _]. assert (Q : variances p c1 = []) by (clear - P Ordinary; induction P; [exact (promotions_plain p Ordinary _ _ H)|assumption]).
          rewrite Q in L1. destruct gs1; [reflexivity|discriminate L1]. }
        subst gs1. eapply s_promotion; [apply oc_class|exact P].
Qed.

Lemma fixed_items : forall ts xs, Forall2 (fun (s : V -> Prop) x => s x) (map has ts) xs -> Forall2 has ts xs.
Proof. intros ts. induction ts as [|t ts IHt]; intros xs H; inversion H; subst; constructor; auto. Qed.

Lemma meet_items : forall ts xs, Forall2 has ts xs -> forall us ys, Forall2 has us ys -> Forall2 E xs ys -> Forall2 meet ts us.
Proof.
  intros ts xs H. induction H as [|t x ts xs Hx H IHt]; intros us ys Hu Exy; inversion Exy; subst; inversion Hu; subst; constructor.
  - exists x, y. auto.
  - eapply IHt; eassumption.
Qed.

Lemma meet_all : forall ts xs, Forall2 has ts xs -> forall u ys, Forall (has u) ys -> Forall2 E xs ys -> Forall (fun t => meet t u) ts.
Proof.
  intros ts xs H. induction H as [|t x ts xs Hx H IHt]; intros u ys Hu Exy; inversion Exy; subst; [constructor|]. inversion Hu; subst. constructor.
  - exists x, y. auto.
  - eapply IHt; eassumption.
Qed.

Lemma meet_sym : forall t u, meet t u -> meet u t.
Proof. intros t u [x [y [Exy [H1 H2]]]]. exists y, x. split; [exact (alike_sym p w listed E Alike x y Exy)|auto]. Qed.

Lemma Forall2_sym : forall xs ys, Forall2 E xs ys -> Forall2 E ys xs.
Proof. intros xs ys H. induction H as [|x y xs ys Hx H IHl]; constructor; [exact (alike_sym p w listed E Alike x y Hx)|exact IHl]. Qed.

Lemma tuple_open : forall a1 a2 x y, ordinary (Tuple a1) -> ordinary (Tuple a2) -> separate (Tuple a1) -> separate (Tuple a2) -> E x y ->
  has (Tuple a1) x -> has (Tuple a2) y -> open (overlaps_tuples (overlaps fuel) a1 a2).
Proof.
  intros a1 a2 x y O1 O2 S1 S2 Exy H1 H2.
  destruct a1 as [ts1|t1|u1]; [| |destruct O1]; (destruct a2 as [ts2|t2|u2]; [| |destruct O2]); cbn [overlaps_tuples];
    destruct H1 as [xs [Tx H1]]; destruct H2 as [ys [Ty H2]]; cbn [is_tuple] in H1, H2;
    destruct (alike_tuples p w listed E Alike x y xs ys Exy Tx Ty) as [Ne EE]; cbn [OverlapSpec.separate] in S1, S2.
  - apply fixed_items in H1. apply fixed_items in H2. apply Forall_of_map in S1. apply Forall_of_map in S2.
    assert (M := meet_items _ _ H1 _ _ H2 EE). assert (M' := meet_open _ _ (ordinary_fixed p 0 ts1 O1) (ordinary_fixed p 0 ts2 O2) S1 S2 M).
    unfold overlaps_fixed. assert (Q := open_every _ _ (open_pairs _ _ _ M')). unfold ask_pair. destruct (every _ _) as [b|]; [|discriminate].
    assert (L : length ts1 = length ts2) by (clear - M; induction M; cbn; congruence). rewrite L, PeanoNat.Nat.eqb_refl, andb_true_r. exact Q.
  - apply fixed_items in H1. assert (M := meet_all _ _ H1 t2 ys H2 EE). apply Forall_of_map in S1. apply open_all.
    apply ordinary_fixed in O1. change (ordinary t2) in O2. clear - M S1 S2 O1 O2 IH. induction M as [|t ts [x [y [Exy [Ha Hb]]]] M IHl]; [constructor|].
    apply Forall_cons_iff in S1 as [Sa S1]. apply Forall_cons_iff in O1 as [Oa O1]. constructor; [exact (IH _ _ x y Oa O2 Sa S2 Exy Ha Hb)|exact (IHl O1 S1)].
  - apply fixed_items in H2. assert (M := meet_all _ _ H2 t1 xs H1 (Forall2_sym _ _ EE)). apply Forall_of_map in S2. apply open_all.
    apply ordinary_fixed in O2. change (ordinary t1) in O1. clear - M S1 S2 O1 O2 IH Alike. induction M as [|t ts Mt M IHl]; [constructor|]. apply meet_sym in Mt. destruct Mt as [x [y [Exy [Ha Hb]]]].
    apply Forall_cons_iff in S2 as [Sa S2]. apply Forall_cons_iff in O2 as [Oa O2]. constructor; [exact (IH _ _ x y O1 Oa S1 Sa Exy Ha Hb)|exact (IHl O2 S2)].
  - change (ordinary t1) in O1. change (ordinary t2) in O2. destruct EE as [|x' y' xs ys Exy' EE]; [destruct (Ne eq_refl)|]. inversion H1; subst. inversion H2; subst. eapply IH; eassumption.
Qed.

Lemma union_open : forall ts x, has (Union ts) x -> exists t, In t ts /\ has t x.
Proof. intros ts x H. apply has_union. exact H. Qed.

Lemma object_sub : forall t, sub p (Class (object p) []) t.
Proof. intros t. apply s_object. Qed.

Lemma object_args : forall c gs, ordinary (Class c gs) -> c = object p -> gs = [].
Proof. intros c gs O ->. apply ordinary_class in O as [L _]. rewrite (object_plain p Ordinary) in L. destruct gs; [reflexivity|discriminate L]. Qed.

(** A leaf against a class *)
Lemma none_class : forall c gs x y, ordinary (Class c gs) -> E x y -> none_value w x -> has (Class c gs) y -> sub p (Class c gs) NoneType.
Proof.
  intros c gs x y O Exy Hx Hy. assert (Hc := alike_none_class p w listed E Alike x y c _ Exy Hx Hy). rewrite (object_args _ _ O Hc), Hc. apply object_sub.
Qed.

Lemma tuple_class_sub : forall c gs a x y, ordinary (Class c gs) -> separate (Class c gs) -> E x y -> has (Tuple a) x -> has (Class c gs) y -> sub p (Class c gs) (Tuple a).
Proof.
  intros c gs a x y O Sc Exy Hx Hy. destruct (has_tuple w env a x Hx) as [xs Tx].
  destruct (alike_tuple_class p w listed E Alike x y xs c _ Exy Tx Hy) as [Hc|[ds Hc]].
  - rewrite (object_args _ _ O Hc), Hc. apply object_sub.
  - apply separate_class in Sc as [[Sc _] _]. destruct (Sc ds Hc).
Qed.

Lemma member_class : forall c gs e m x y t, t = Enum e \/ t = EnumMember e m -> ordinary (Class c gs) -> separate (Class c gs) -> E x y -> member_value w e m x -> has (Class c gs) y ->
  sub p (Class c gs) t.
Proof.
  intros c gs e m x y t Ht O Sc Exy Hx Hy. destruct (alike_member_class p w listed E Alike x y e m c _ Exy Hx Hy) as [Hc|[Hc|[Hv Hc]]].
  - rewrite (object_args _ _ O Hc), Hc. apply object_sub.
  - apply separate_class in Sc as [[_ Sc] _]. destruct (Sc e Hc).
  - apply ordinary_class in O as [L _]. rewrite Hv in L. destruct gs; [|discriminate L]. destruct Hc as [Hc|[ds Hc]].
    + destruct Ht as [-> | ->]; (eapply s_promotion; [constructor|exact Hc]).
    + assert (D : ds = []).
      { destruct (bases_ordinary p Ordinary _ _ Hc) as [_ Od]. apply ordinary_class in Od as [Ld _]. rewrite Hv in Ld. destruct ds; [reflexivity|discriminate Ld]. }
      subst ds. destruct Ht as [-> | ->].
      * eapply s_class; [apply (i_enum p e c []); exact Hc|]. rewrite Hv. constructor.
      * eapply s_class; [apply (i_member p e m c []); exact Hc|]. rewrite Hv. constructor.
Qed.

Notation first := (overlaps_first p listed
  (fun t1 t2 => to_bool (run p fuel (Matches Covariant false t1 t2))) (fun t1 t2 => to_bool (run p fuel (Matches Contravariant false t1 t2))) (overlaps fuel)).

Lemma leaf_sub : forall t1 t2 x y, ordinary t1 -> ordinary t2 -> separate t1 -> separate t2 -> E x y -> has t1 x -> has t2 y ->
  match t1 with NoneType | Tuple _ | Enum _ | EnumMember _ _ => True | _ => False end ->
  match t2 with NoneType | Class _ _ | Tuple _ | Enum _ | EnumMember _ _ => True | _ => False end ->
  match t1, t2 with Tuple _, Tuple _ => False | _, _ => True end -> sub p t1 t2 \/ sub p t2 t1.
Proof.
  intros t1 t2 x y O1 O2 S1 S2 Exy H1 H2 N1 N2 N. assert (Eyx := alike_sym p w listed E Alike x y Exy).
  destruct t1 as [| | |c1 gs1|c1 gs1|l1| |a1|ts1|ts1|e1|e1 m1|n1|n1|s1]; try destruct N1;
    (destruct t2 as [| | |c2 gs2|c2 gs2|l2| |a2|ts2|ts2|e2|e2 m2|n2|n2|s2]; try destruct N2; try destruct N).
  - left. apply s_none.
  - right. exact (none_class _ _ x y O2 Exy H1 H2).
  - destruct (has_tuple w env a2 y H2) as [ys Ty]. destruct (alike_none_tuple p w listed E Alike x y ys Exy H1 Ty).
  - destruct H2 as [m H2]. destruct (alike_none_member p w listed E Alike x y e2 m Exy H1 H2).
  - destruct (alike_none_member p w listed E Alike x y e2 m2 Exy H1 H2).
  - destruct (has_tuple w env a1 x H1) as [ys Ty]. destruct (alike_none_tuple p w listed E Alike y x ys Eyx H2 Ty).
  - right. exact (tuple_class_sub _ _ _ x y O2 S2 Exy H1 H2).
  - destruct (has_tuple w env a1 x H1) as [ys Ty]. destruct H2 as [m H2]. destruct (alike_member_tuple p w listed E Alike y x e2 m ys Eyx H2 Ty).
  - destruct (has_tuple w env a1 x H1) as [ys Ty]. destruct (alike_member_tuple p w listed E Alike y x e2 m2 ys Eyx H2 Ty).
  - destruct H1 as [m H1]. destruct (alike_none_member p w listed E Alike y x e1 m Eyx H2 H1).
  - right. destruct H1 as [m H1]. exact (member_class _ _ e1 m x y (Enum e1) (or_introl eq_refl) O2 S2 Exy H1 H2).
  - destruct (has_tuple w env a2 y H2) as [ys Ty]. destruct H1 as [m H1]. destruct (alike_member_tuple p w listed E Alike x y e1 m ys Exy H1 Ty).
  - destruct H1 as [m H1]. destruct H2 as [m' H2]. destruct (alike_members p w listed E Alike x y e1 m e2 m' Exy H1 H2) as [-> _]. left. apply s_enum.
  - destruct H1 as [m H1]. destruct (alike_members p w listed E Alike x y e1 m e2 m2 Exy H1 H2) as [-> _]. left. apply s_enum_member.
  - destruct (alike_none_member p w listed E Alike y x e1 m1 Eyx H2 H1).
  - right. exact (member_class _ _ e1 m1 x y (EnumMember e1 m1) (or_intror eq_refl) O2 S2 Exy H1 H2).
  - destruct (has_tuple w env a2 y H2) as [ys Ty]. destruct (alike_member_tuple p w listed E Alike x y e1 m1 ys Exy H1 Ty).
  - destruct H2 as [m H2]. destruct (alike_members p w listed E Alike x y e1 m1 e2 m Exy H1 H2) as [-> _]. right. apply s_enum_member.
  - destruct (alike_members p w listed E Alike x y e1 m1 e2 m2 Exy H1 H2) as [-> ->]. left. apply s_member_itself.
Qed.

Lemma first_open : forall t1 t2 x y, ordinary t1 -> ordinary t2 -> separate t1 -> separate t2 -> E x y -> has t1 x -> has t2 y ->
  match t1 with Union _ => False | _ => True end ->
  match t2 with NoneType | Class _ _ | Tuple _ | Enum _ | EnumMember _ _ => True | _ => False end -> open (first t1 t2).
Proof.
  intros t1 t2 x y O1 O2 S1 S2 Exy H1 H2 N1 N2. assert (Eyx := alike_sym p w listed E Alike x y Exy).
  destruct t1 as [| | |c1 gs1|c1 gs1|l1| |a1|ts1|ts1|e1|e1 m1|n1|n1|s1]; try solve [destruct N1]; try solve [destruct O1 | inversion O1]; try solve [destruct H1]; unfold overlaps_first.
  - apply assignable_open; [exact Logic.I|exact O2|]. left. apply s_any_expected.
  - apply assignable_open; [exact O1|exact O2|]. apply (leaf_sub _ _ x y O1 O2 S1 S2 Exy H1 H2); [exact Logic.I|exact N2|exact Logic.I].
  - destruct t2 as [| | |c2 gs2|c2 gs2|l2| |a2|ts2|ts2|e2|e2 m2|n2|n2|s2]; try destruct N2; [|exact (class_open _ _ _ _ x y O1 O2 S1 S2 Exy H1 H2)| | |].
    all: apply assignable_open; [exact O1|exact O2|].
    all: apply or_comm, (leaf_sub _ _ y x O2 O1 S2 S1 Eyx H2 H1); exact Logic.I.
  - destruct (literal_ordinary l1) as [Ol Sl]. exact (IH (Class (fallback p l1) []) t2 x y Ol O2 Sl S2 Exy (literal_instance l1 x H1) H2).
  - destruct t2 as [| | |c2 gs2|c2 gs2|l2| |a2|ts2|ts2|e2|e2 m2|n2|n2|s2]; try destruct N2; [| |exact (tuple_open _ _ x y O1 O2 S1 S2 Exy H1 H2)| |].
    all: apply assignable_open; [exact O1|exact O2|].
    all: apply (leaf_sub _ _ x y O1 O2 S1 S2 Exy H1 H2); exact Logic.I.
  - apply assignable_open; [exact O1|exact O2|]. apply (leaf_sub _ _ x y O1 O2 S1 S2 Exy H1 H2); [exact Logic.I|exact N2|exact Logic.I].
  - apply assignable_open; [exact O1|exact O2|]. apply (leaf_sub _ _ x y O1 O2 S1 S2 Exy H1 H2); [exact Logic.I|exact N2|exact Logic.I].
Qed.

Lemma same_literal_itself : forall l, same_literal l l = true.
Proof. intros [n s|b|s|s]; cbn; rewrite ?N.eqb_refl; try reflexivity. all: try (destruct b; reflexivity). destruct s; reflexivity. Qed.

Lemma internal_open : forall t1 t2 x y, ordinary t1 -> ordinary t2 -> separate t1 -> separate t2 -> E x y -> has t1 x -> has t2 y ->
  open (overlaps (S fuel) t1 t2).
Proof.
  intros t1 t2 x y O1 O2 S1 S2 Exy H1 H2. cbn [OverlapModel.overlaps]. unfold overlaps_internal.
  assert (U : (exists ts, t1 = Union ts) \/ match t1 with Union _ => False | _ => True end) by (destruct t1; auto; left; eexists; reflexivity).
  destruct U as [[ts ->]|U].
  { apply (proj1 (has_union w env ts x)) in H1. destruct H1 as [t [Ht H1]]. apply ordinary_union in O1 as [_ O1]. cbn [OverlapSpec.separate] in S1. apply Forall_of_map in S1.
    rewrite Forall_forall in O1, S1. apply (open_any _ _ t Ht). exact (IH t t2 x y (O1 t Ht) O2 (S1 t Ht) S2 Exy H1 H2). }
  assert (W : (exists ts, t2 = Union ts) \/ t2 = Any \/ (exists l, t2 = Literal l) \/ match t2 with NoneType | Class _ _ | Tuple _ | Enum _ | EnumMember _ _ => True | _ => False end).
  { destruct t2; try solve [destruct O2 | inversion O2]; auto; try solve [destruct H2].
    - right. right. left. eexists. reflexivity.
    - left. eexists. reflexivity. }
  destruct W as [[ts ->]|[->|[[l ->]|W]]].
  - apply (proj1 (has_union w env ts y)) in H2. destruct H2 as [t [Ht H2]]. apply ordinary_union in O2 as [_ O2]. cbn [OverlapSpec.separate] in S2. apply Forall_of_map in S2.
    rewrite Forall_forall in O2, S2. assert (G : open (overlaps fuel t1 t)) by exact (IH t1 t x y O1 (O2 t Ht) S1 (S2 t Ht) Exy H1 H2).
    destruct t1; try solve [destruct U]; try solve [destruct O1 | inversion O1]; apply (open_any _ _ t Ht); exact G.
  - destruct t1; try solve [destruct U]; try solve [destruct O1 | inversion O1]; discriminate.
  - destruct (literal_ordinary l) as [Ol Sl]. assert (G : open (overlaps fuel t1 (Class (fallback p l) []))) by exact (IH t1 _ x y O1 Ol S1 Sl Exy H1 (literal_instance l y H2)).
    destruct t1; try solve [destruct U]; try solve [destruct O1 | inversion O1]; try exact G. rewrite (alike_literals p w listed E Alike _ _ x y Exy H1 H2), same_literal_itself. discriminate.
  - assert (G := first_open t1 t2 x y O1 O2 S1 S2 Exy H1 H2 U W).
    destruct t1; try solve [destruct U]; try solve [destruct O1 | inversion O1]; (destruct t2; try solve [destruct W]); exact G.
Qed.
End Step.

(** Two types with values that are alike are not found disjoint. *)
Theorem overlaps_open : forall fuel t1 t2 x y, ordinary t1 -> ordinary t2 -> separate t1 -> separate t2 -> E x y -> has t1 x -> has t2 y ->
  open (overlaps fuel t1 t2).
Proof.
  intros fuel. induction fuel as [|fuel IH]; intros t1 t2 x y O1 O2 S1 S2 Exy H1 H2; [discriminate|]. exact (internal_open fuel IH t1 t2 x y O1 O2 S1 S2 Exy H1 H2).
Qed.
(** ** Tuples with an unpack *)
Lemma Forall2_split : forall {A B} (R : A -> B -> Prop) l l' m, Forall2 R (l ++ l') m -> exists m1 m2, m = m1 ++ m2 /\ Forall2 R l m1 /\ Forall2 R l' m2.
Proof. intros A B R l l' m H. apply Forall2_app_inv_l in H as (m1 & m2 & H1 & H2 & ->). exists m1, m2. auto. Qed.

Lemma combine_front : forall {A} (l m m' : list A), length l = length m -> combine l (m ++ m') = combine l m.
Proof. intros A l. induction l as [|a l IH]; intros [|b m] m' L; try discriminate L; [reflexivity|]. cbn. f_equal. apply IH. injection L as L. exact L. Qed.

Lemma Forall2_len : forall {A B} (R : A -> B -> Prop) l m, Forall2 R l m -> length l = length m.
Proof. intros A B R l m H. induction H; cbn; congruence. Qed.

Lemma Forall2_rev' : forall {A B} (R : A -> B -> Prop) l m, Forall2 R l m -> Forall2 R (rev l) (rev m).
Proof. intros A B R l m H. induction H as [|a b l m Hab H IH]; [constructor|]. cbn. apply Forall2_app; [exact IH|constructor; [exact Hab|constructor]]. Qed.

Notation plain_unpack := (plain_unpack p).

Lemma unpack_items : forall u x, has (Tuple (WithUnpack u)) x -> exists b m a, tuple_value w x (b ++ m ++ a) /\ Forall2 has (before u) b /\ Forall2 has (after u) a /\
  match middle u with Many t => Forall (has t) m | TypeVarTuple _ => True end.
Proof.
  intros [b [n|t] a] x [xs [Tx H]]; cbn [is_tuple before middle after in_middle] in H; destruct H as (bs & ms & cs & -> & H1 & H2 & H3); exists bs, ms, cs; cbn [before middle after].
  all: split; [exact Tx|]; split; [exact (fixed_items _ _ H1)|]; split; [exact (fixed_items _ _ H3)|].
  - exact Logic.I.
  - exact H2.
Qed.

Lemma unpack_fixed_open : forall fuel u ts x y, plain_unpack u -> ordinary (Tuple (FixedLen ts)) -> separate (Tuple (FixedLen ts)) -> E x y ->
  has (Tuple (WithUnpack u)) x -> has (Tuple (FixedLen ts)) y -> open (overlaps_unpack_fixed (overlaps fuel) u ts).
Proof.
  intros fuel u ts x y (Ob & Sb & Oa & Sa & Om) Ot St Exy Hx [ys [Ty Hy]]. apply ordinary_fixed in Ot. cbn [OverlapSpec.separate] in St. apply Forall_of_map in St.
  destruct (unpack_items u x Hx) as (b & m & a & Tx & Hb & Ha & Hm). destruct (alike_tuples p w listed E Alike x y _ ys Exy Tx Ty) as [_ EE].
  cbn [is_tuple] in Hy. apply fixed_items in Hy.
  apply Forall2_split in EE as (yb & yr & -> & Eb & EE). apply Forall2_split in EE as (ym & ya & -> & Em & Ea).
  apply Forall2_app_inv_r in Hy as (tb & tr & Htb & Hy & ->). apply Forall2_app_inv_r in Hy as (tm & ta & Htm & Hta & ->).
  apply Forall_app in Ot as [Otb Ot]. apply Forall_app in Ot as [Otm Ota]. apply Forall_app in St as [Stb St]. apply Forall_app in St as [Stm Sta].
  assert (Lb : length (before u) = length tb) by (rewrite (Forall2_len _ _ _ Hb), (Forall2_len _ _ _ Htb); exact (Forall2_len _ _ _ Eb)).
  assert (La : length (after u) = length ta) by (rewrite (Forall2_len _ _ _ Ha), (Forall2_len _ _ _ Hta); exact (Forall2_len _ _ _ Ea)).
  assert (IH : forall t1 t2 x y, ordinary t1 -> ordinary t2 -> separate t1 -> separate t2 -> E x y -> has t1 x -> has t2 y -> open (overlaps fuel t1 t2)) by exact (overlaps_open fuel).
  unfold overlaps_unpack_fixed. cbv zeta. rewrite !app_length. destruct (Nat.ltb_spec (length tb + (length tm + length ta))%nat (length (before u) + length (after u))%nat) as [Hl|_]; [lia|].
  apply open_and; [|apply open_and].
  - rewrite combine_front by exact Lb. apply open_all, open_pairs. exact (meet_open fuel IH _ _ Ob Otb Sb Stb (meet_items _ _ Hb _ _ Htb Eb)).
  - rewrite !rev_app_distr, <- app_assoc, combine_front by (rewrite !rev_length; exact La). apply open_all, open_pairs.
    apply (meet_open fuel IH); try (apply Forall_rev; assumption). apply Forall2_rev'. exact (meet_items _ _ Ha _ _ Hta Ea).
  - destruct (middle u) as [n|t]; [discriminate|]. destruct Om as [Om Sm].
    replace (length tb + (length tm + length ta) - length (after u) - length (before u))%nat with (length tm) by lia. rewrite Lb, skipn_app, skipn_all, Nat.sub_diag. cbn [app skipn].
    rewrite firstn_app, firstn_all, Nat.sub_diag, firstn_O, app_nil_r. apply open_all.
    clear - Htm Em Hm Om Sm Otm Stm IH. revert m Em Hm. induction Htm as [|t2 y2 tm ym H2 Htm IHl]; intros m Em Hm; [constructor|]. inversion Em; subst.
    apply Forall_cons_iff in Otm as [O2 Otm]. apply Forall_cons_iff in Stm as [S2 Stm]. apply Forall_cons_iff in Hm as [Hx Hm]. constructor; [|eapply IHl; eassumption].
    eapply IH; eassumption.
Qed.

Lemma unpack_items_open : forall fuel u t x y, plain_unpack u -> ordinary t -> separate t -> E x y ->
  has (Tuple (WithUnpack u)) x -> has (Tuple (ArbitraryLen t)) y -> open (all_of (overlaps fuel t) (before u ++ after u)).
Proof.
  intros fuel u t x y (Ob & Sb & Oa & Sa & _) Ot St Exy Hx [ys [Ty Hy]].
  destruct (unpack_items u x Hx) as (b & m & a & Tx & Hb & Ha & _). destruct (alike_tuples p w listed E Alike x y _ ys Exy Tx Ty) as [_ EE]. cbn [is_tuple] in Hy.
  apply Forall2_split in EE as (yb & yr & -> & Eb & EE). apply Forall2_split in EE as (ym & ya & -> & Em & Ea). apply Forall_app in Hy as [Hyb Hy]. apply Forall_app in Hy as [_ Hya].
  assert (Q : forall l, Forall ordinary l -> Forall separate l -> Forall (fun s => meet s t) l -> Forall (fun s => open (overlaps fuel t s)) l).
  { intros l Ol Sl H. induction H as [|s l Hs H IHl]; [constructor|]. apply Forall_cons_iff in Ol as [Os Ol]. apply Forall_cons_iff in Sl as [Ss Sl]. constructor; [|exact (IHl Ol Sl)].
    apply meet_sym in Hs as [x' [y' [Exy' [H1 H2]]]]. exact (overlaps_open fuel t s x' y' Ot Os St Ss Exy' H1 H2). }
  apply open_all, Forall_app. split; [apply (Q _ Ob Sb); exact (meet_all _ _ Hb t yb Hyb Eb)|apply (Q _ Oa Sa); exact (meet_all _ _ Ha t ya Hya Ea)].
Qed.

Theorem unpack_open : forall fuel u a x y, plain_unpack u -> ordinary (Tuple a) -> separate (Tuple a) -> E x y -> has (Tuple (WithUnpack u)) x -> has (Tuple a) y ->
  open (overlaps fuel (Tuple (WithUnpack u)) (Tuple a)) /\ open (overlaps fuel (Tuple a) (Tuple (WithUnpack u))).
Proof.
  intros [|fuel] u a x y Hu Oa Sa Exy Hx Hy; [split; discriminate|]. destruct a as [ts|t|v]; [| |destruct Oa]; cbn [OverlapModel.overlaps overlaps_internal overlaps_first overlaps_tuples].
  - split; exact (unpack_fixed_open fuel u ts x y Hu Oa Sa Exy Hx Hy).
  - split; exact (unpack_items_open fuel u t x y Hu Oa Sa Exy Hx Hy).
Qed.
End Proofs.

(** ** Comparisons *)
Section Strict.
Context {V : Type}.
Variables (p : program) (w : world V) (env : N -> V -> Prop) (lib : library) (E : V -> V -> Prop).
Hypothesis Proper : proper p.
Hypothesis Lawful : lawful p w env.
Hypothesis Ordinary : ordinary_program p.
Hypothesis Separate : separate_program p.
Hypothesis Alike : alike p w (listed lib) E.
Hypothesis No_none : forall x y, E x y -> ~ none_value w x.
Notation has := (has w env).
Notation ordinary := (ordinary p 0).
Notation separate := (separate p).

Definition some_member (t : type) : bool := negb (is_none t).

Lemma filter_boolean : forall ts, filter boolean (filter some_member ts) = filter boolean ts.
Proof. intros ts. induction ts as [|t ts IH]; [reflexivity|]. cbn [filter]. destruct t; cbn [some_member is_none negb boolean filter]; rewrite ?IH; reflexivity. Qed.

Lemma filter_variable : forall ts, existsb variable ts = false -> existsb variable (filter some_member ts) = false.
Proof.
  intros ts. induction ts as [|t ts IH]; intros H; [reflexivity|]. cbn [existsb] in H. apply orb_false_iff in H as [Ht H]. cbn [filter]. destruct (some_member t); [|exact (IH H)].
  cbn [existsb]. rewrite Ht. exact (IH H).
Qed.

Lemma Forall_filter : forall {A} (P : A -> Prop) f l, Forall P l -> Forall P (filter f l).
Proof. intros A P f l H. induction H as [|x l Hx H IH]; cbn; [constructor|]. destruct (f x); [constructor|]; assumption. Qed.

Lemma remove_none_fine : forall t x, ordinary t -> separate t -> has t x -> ~ none_value w x ->
  ordinary (remove_none t) /\ separate (remove_none t) /\ has (remove_none t) x.
Proof.
  intros t x O Sp H N. destruct t as [| | |c gs|c gs|l| |a|ts|ts|e|e m|n|n|s]; try (cbn [remove_none]; auto; fail); [destruct (N H)|].
  cbn [remove_none]. destruct (existsb is_none ts); [|auto]. fold some_member.
  destruct O as (Hn & Hd & Hv & O). apply Forall_of_map in O. cbn [OverlapSpec.separate] in Sp. apply Forall_of_map in Sp. apply (proj1 (has_union w env ts x)) in H.
  assert (M : exists t, In t (filter some_member ts) /\ has t x).
  { destruct H as [t [Ht H]]. exists t. split; [|exact H]. apply filter_In. split; [exact Ht|]. destruct t; try reflexivity. destruct (N H). }
  assert (B := filter_boolean ts). assert (W := filter_variable ts Hv). assert (O' := Forall_filter _ some_member _ O). assert (S' := Forall_filter _ some_member _ Sp).
  change (filter (fun t => negb (is_none t)) ts) with (filter some_member ts). destruct (filter some_member ts) as [|a [|b us]].
  - destruct M as [t [[] _]].
  - destruct M as [t [[->|[]] M]]. inversion O'; subst. inversion S'; subst. auto.
  - split; [|split].
    + split; [discriminate|]. split; [rewrite B; exact Hd|]. split; [exact W|]. apply map_of_Forall. exact O'.
    + cbn [OverlapSpec.separate]. apply map_of_Forall. exact S'.
    + apply (proj2 (has_union w env (a :: b :: us) x)). exact M.
Qed.

Lemma argument_fine : forall (P : type -> Prop) n gs, P Any -> Forall P gs -> P (argument n gs).
Proof. intros P n gs Ha H. unfold argument. revert n. induction H as [|g gs Hg H IH]; intros [|n]; cbn; auto. Qed.

Lemma arguments_meet : forall c gs1 gs2 x y n, E x y -> ordinary (Class c gs1) -> ordinary (Class c gs2) -> has (Class c gs1) x -> has (Class c gs2) y ->
  exists x' y', E x' y' /\ has (argument n gs1) x' /\ has (argument n gs2) y'.
Proof.
  intros c gs1 gs2 x y n Exy O1 O2 H1 H2. apply ordinary_class in O1 as [L1 _]. apply ordinary_class in O2 as [L2 _].
  assert (A := alike_arguments p w _ E Alike c _ _ x y Exy H1 H2). rewrite !map_length in A. specialize (A L1 L2). clear - A Exy. unfold argument.
  revert gs2 n A. induction gs1 as [|a gs1 IH]; intros [|b gs2] n A; inversion A; subst.
  - destruct n; exists x, y; repeat split; exact Exy.
  - destruct n as [|n]; [assumption|]. refine (IH gs2 n _). assumption.
Qed.

Theorem strict_open : forall fuel t1 t2 x y, ordinary t1 -> ordinary t2 -> separate t1 -> separate t2 -> E x y -> has t1 x -> has t2 y ->
  open (strict_equality p lib fuel t1 t2).
Proof.
  intros fuel. induction fuel as [|fuel IH]; intros t1 t2 x y O1 O2 S1 S2 Exy H1 H2; [discriminate|]. cbn [strict_equality].
  destruct (is_none t1 || is_none t2 || custom_eq lib t1 || custom_eq lib t2); [discriminate|].
  destruct (remove_none_fine t1 x O1 S1 H1 (No_none x y Exy)) as [O1' [S1' H1']].
  destruct (remove_none_fine t2 y O2 S2 H2 (No_none y x (alike_sym p w _ E Alike x y Exy))) as [O2' [S2' H2']].
  revert O1' S1' H1' O2' S2' H2'. generalize (remove_none t1) as u1, (remove_none t2) as u2. clear - IH Exy Proper Lawful Ordinary Separate Alike.
  intros u1 u2 O1 S1 H1 O2 S2 H2. unfold strict_without_none. cbv zeta.
  assert (R : open match u1, u2 with Tuple (ArbitraryLen i1), Tuple (ArbitraryLen i2) => strict_equality p lib fuel i1 i2 | _, _ => overlaps p (listed lib) fuel u1 u2 end).
  { assert (D := overlaps_open p w env (listed lib) E Proper Lawful Ordinary Separate Alike fuel u1 u2 x y O1 O2 S1 S2 Exy H1 H2).
    destruct u1 as [| | | | | | |[ts1|i1|w1]| | | | | | |]; try exact D. destruct u2 as [| | | | | | |[ts2|i2|w2]| | | | | | |]; try exact D.
    destruct H1 as [xs [Tx H1]]. destruct H2 as [ys [Ty H2]]. destruct (alike_tuples p w _ E Alike x y xs ys Exy Tx Ty) as [Ne EE]. cbn [is_tuple] in H1, H2.
    destruct EE as [|x' y' xs ys Exy' EE]; [destruct (Ne eq_refl)|]. inversion H1; subst. inversion H2; subst. change (ordinary i1) in O1. change (ordinary i2) in O2. cbn [OverlapSpec.separate] in S1, S2.
    eapply IH; eassumption. }
  destruct u1 as [| | |c1 gs1| | | | | | | | | | |]; try exact R. destruct u2 as [| | |c2 gs2| | | | | | | | | | |]; try exact R.
  assert (G : forall c ds1 ds2 n, ordinary (Class c ds1) -> ordinary (Class c ds2) -> Forall separate ds1 -> Forall separate ds2 -> has (Class c ds1) x -> has (Class c ds2) y ->
    open (strict_equality p lib fuel (argument n ds1) (argument n ds2))).
  { intros c ds1 ds2 n A1 A2 B1 B2 C1 C2. destruct (arguments_meet c ds1 ds2 x y n Exy A1 A2 C1 C2) as [x' [y' [Exy' [I1 I2]]]].
    apply ordinary_class in A1 as [_ A1]. apply ordinary_class in A2 as [_ A2].
    apply (IH _ _ x' y'); try assumption; apply argument_fine; try assumption; exact Logic.I. }
  destruct ((c1 =? c2) && (c1 =? list_class lib)) eqn:L.
  { apply andb_true_iff in L as [L _]. apply N.eqb_eq in L. subst c2. apply separate_class in S1 as [_ S1]. apply separate_class in S2 as [_ S2]. exact (G c1 gs1 gs2 0%nat O1 O2 S1 S2 H1 H2). }
  destruct (bytes_like lib c1 && bytes_like lib c2); [discriminate|].
  destruct (class_in_mro p c1 gs1 (mapping lib)) as [ds1|] eqn:M1; [|exact R]. destruct (class_in_mro p c2 gs2 (mapping lib)) as [ds2|] eqn:M2; [|exact R].
  destruct (mro_entry p w env Proper Lawful Ordinary Separate _ _ _ _ O1 S1 M1) as [A1 [B1 C1]]. destruct (mro_entry p w env Proper Lawful Ordinary Separate _ _ _ _ O2 S2 M2) as [A2 [B2 C2]].
  apply open_and; apply (G (mapping lib)); auto.
Qed.
End Strict.

(** ** Exact answers *)
Lemma or_true : forall a b, or_ a b = Some true -> a = Some true \/ b = Some true.
Proof. intros [[]|] b H; cbn in H; auto; discriminate H. Qed.

Lemma any_true : forall {A} (f : A -> option bool) l, any_of f l = Some true -> exists x, In x l /\ f x = Some true.
Proof.
  intros A f l. induction l as [|a l IH]; intros H; [discriminate H|]. cbn in H. apply or_true in H as [H|H]; [exists a; split; [left; reflexivity|exact H]|].
  destruct (IH H) as [x [Hx Hf]]. exists x. split; [right; exact Hx|exact Hf].
Qed.

Lemma all_true : forall {A} (f : A -> option bool) l, all_of f l = Some true -> Forall (fun x => f x = Some true) l.
Proof. intros A f l. induction l as [|a l IH]; intros H; [constructor|]. cbn in H. destruct (f a) as [[]|] eqn:F; try discriminate H. constructor; auto. Qed.

Lemma every_true : forall {A} (f : A -> option bool) l, every f l = Some true -> Forall (fun x => f x = Some true) l.
Proof.
  intros A f l. induction l as [|a l IH]; intros H; [constructor|]. cbn in H. destruct (f a) as [x|] eqn:F; [|discriminate H]. destruct (every f l) as [y|] eqn:G; [|discriminate H].
  injection H as H. apply andb_true_iff in H as [-> ->]. constructor; auto.
Qed.

Lemma to_bool_true : forall a, to_bool a = Some true -> a = Some Yes.
Proof. intros [[]|] H; cbn in H; try discriminate H. reflexivity. Qed.

Section Exact.
Context {V : Type}.
Variables (p : program) (w : world V) (env : N -> V -> Prop) (listed : N -> bool).
Hypothesis Proper : proper p.
Hypothesis Lawful : lawful p w env.
Hypothesis All_tuples : forall vs, exists v, tuple_value w v vs.
Hypothesis Ordinary : ordinary_program p.
Notation has := (has w env).
Notation simple := (simple p w listed).

Lemma simple_class : forall c gs, simple (Class c gs) -> gs = [] /\ listed c = false /\ fine p None (Class c []) /\ exists v, instance w c [] v.
Proof. intros c gs H. exact H. Qed.

Lemma simple_fine : forall t, simple t -> fine p None t.
Proof.
  intros t. induction t using type_induction; intros Hs; try solve [destruct Hs]; try exact Logic.I.
  - apply simple_class in Hs as [-> [_ [Hf _]]]. exact Hf.
  - cbn [OverlapSpec.simple] in Hs. apply Forall_of_map in Hs. cbn [fine]. apply map_of_Forall. exact (Forall_mp _ _ _ H Hs).
  - exact (IHt Hs).
  - destruct Hs as [Hn Hs]. apply Forall_of_map in Hs. cbn [fine]. split; [exact Hn|]. split; [|split; [intros F; destruct (F eq_refl)|apply map_of_Forall; exact (Forall_mp _ _ _ H Hs)]].
    unfold distinct_bools. assert (Z : filter (fun t => match t with Literal (LBool _) => true | _ => false end) ts = []); [|rewrite Z; cbn; lia].
    clear - Hs. induction Hs as [|t ts Ht Hs IH]; [reflexivity|]. cbn [filter]. destruct t; try exact IH. destruct Ht.
Qed.

Lemma collect : forall (P : type -> V -> Prop) ts, Forall (fun t => exists v, P t v) ts -> exists vs, Forall2 P ts vs.
Proof. intros P ts H. induction H as [|t ts [v Hv] H [vs IH]]; [exists []; constructor|]. exists (v :: vs). constructor; assumption. Qed.

Lemma items_map : forall ts vs, Forall2 has ts vs -> Forall2 (fun (s : V -> Prop) x => s x) (map has ts) vs.
Proof. intros ts vs H. induction H; constructor; assumption. Qed.

Lemma simple_value : forall t, simple t -> exists v, has t v.
Proof.
  intros t. induction t using type_induction; intros Hs; try solve [destruct Hs]; try exact Hs.
  - apply simple_class in Hs as [-> [_ [_ Hv]]]. exact Hv.
  - cbn [OverlapSpec.simple] in Hs. apply Forall_of_map in Hs. destruct (collect has ts (Forall_mp _ _ _ H Hs)) as [vs Hvs]. destruct (All_tuples vs) as [v Hv].
    exists v, vs. split; [exact Hv|exact (items_map _ _ Hvs)].
  - destruct (All_tuples []) as [v Hv]. exists v, []. split; [exact Hv|constructor].
  - destruct Hs as [Hn Hs]. apply Forall_of_map in Hs. destruct ts as [|t ts]; [destruct (Hn eq_refl)|]. apply Forall_inv in H. apply Forall_inv in Hs. destruct (H Hs) as [v Hv].
    exists v. apply (proj2 (has_union w env (t :: ts) v)). exists t. split; [left; reflexivity|exact Hv].
  - destruct Hs as [m [v Hv]]. exists v, m. exact Hv.
Qed.

Definition shared (t1 t2 : type) : Prop := exists v, has t1 v /\ has t2 v.

Lemma assignable_shared : forall fuel t1 t2, simple t1 -> simple t2 ->
  assignable (fun t1 t2 => to_bool (run p fuel (Matches Covariant false t1 t2))) (fun t1 t2 => to_bool (run p fuel (Matches Contravariant false t1 t2))) t1 t2 = Some true ->
  shared t1 t2.
Proof.
  intros fuel t1 t2 H1 H2 H. assert (F1 := simple_fine t1 H1). assert (F2 := simple_fine t2 H2). apply or_true in H as [H|H]; apply to_bool_true in H.
  - destruct fuel as [|fuel]; [discriminate H|]. change (run p (S fuel) (Matches Contravariant false t1 t2)) with (run p (S fuel) (Matches Covariant true t2 t1)) in H.
    destruct (simple_value t1 H1) as [v Hv]. exists v. split; [exact Hv|]. refine (run_sound p w env Proper Lawful _ _ H F2 _ v Hv).
    destruct t1; try exact F1; [|destruct H1]. destruct F1 as (L & I & _ & _ & _ & _ & A). split; [exact L|]. split; [exact I|exact A].
  - destruct (simple_value t2 H2) as [v Hv]. exists v. split; [|exact Hv]. refine (run_sound p w env Proper Lawful _ _ H F1 _ v Hv).
    destruct t2; try exact F2; [|destruct H2]. destruct F2 as (L & I & _ & _ & _ & _ & A). split; [exact L|]. split; [exact I|exact A].
Qed.

Lemma mro_value : forall c d ds v, variances p c = [] -> variances p d = [] -> class_in_mro p c [] d = Some ds -> instance w c [] v -> instance w d [] v.
Proof.
  intros c d ds v Hc Hd H Hv. unfold class_in_mro in H. destruct (List.find (fun x => fst x =? d) (class_mro p c [])) as [[d' ds']|] eqn:F; [|discriminate H].
  apply List.find_some in F as [Hin E]. cbn in E. apply N.eqb_eq in E. subst d'. destruct Hin as [E|Hin].
  - injection E as -> _. exact Hv.
  - apply in_app_iff in Hin as [Hin|[E|[]]]; [|injection E as <- _; exact (law_object p w env Lawful v)].
    apply (flat_class _ _ _ _ (bases_are_classes p Ordinary c)) in Hin as [cs [Hin _]].
    assert (L := law_bases p w env Lawful c [] (Class d cs) v). rewrite Hc in L. specialize (L eq_refl Hin Hv). cbn [SubtypeSpec.has] in L.
    assert (G := proper_bases p Proper c _ Hin). destruct G as [G _]. rewrite Hd in G. destruct cs; [exact L|discriminate G].
Qed.

Theorem overlaps_shared : forall fuel t1 t2, simple t1 -> simple t2 -> overlaps p listed fuel t1 t2 = Some true -> shared t1 t2.
Proof.
  intros fuel. induction fuel as [|fuel IH]; intros t1 t2 H1 H2 H; [discriminate H|]. cbn [overlaps] in H. unfold overlaps_internal in H.
  assert (A := assignable_shared fuel t1 t2 H1 H2).
  assert (U : (exists ts, t1 = Union ts) \/ match t1 with Union _ => False | _ => True end) by (destruct t1; auto; left; eexists; reflexivity).
  destruct U as [[ts ->]|U].
  { apply any_true in H as [t [Ht H]]. destruct H1 as [_ H1]. apply Forall_of_map in H1. rewrite Forall_forall in H1. destruct (IH t t2 (H1 t Ht) H2 H) as [v [V1 V2]].
    exists v. split; [|exact V2]. apply (proj2 (has_union w env ts v)). exists t. auto. }
  assert (W : (exists ts, t2 = Union ts) \/ match t2 with Union _ => False | _ => True end) by (destruct t2; auto; left; eexists; reflexivity).
  destruct W as [[ts ->]|W].
  { assert (H' : any_of (overlaps p listed fuel t1) ts = Some true) by (destruct t1; try exact H; try destruct U; destruct H1). clear H.
    apply any_true in H' as [t [Ht H]]. destruct H2 as [_ H2]. apply Forall_of_map in H2. rewrite Forall_forall in H2. destruct (IH t1 t H1 (H2 t Ht) H) as [v [V1 V2]].
    exists v. split; [exact V1|]. apply (proj2 (has_union w env ts v)). exists t. auto. }
  destruct t1 as [| | |c1 gs1|c1 gs1|l1| |a1|ts1|ts1|e1|e1 m1|n1|n1|s1]; try solve [destruct U]; try solve [destruct H1];
    (destruct t2 as [| | |c2 gs2|c2 gs2|l2| |a2|ts2|ts2|e2|e2 m2|n2|n2|s2]; try solve [destruct W]; try solve [destruct H2]); unfold overlaps_first in H; try exact (A H).
  - apply simple_class in H1 as [-> [L1 [F1 [v1 V1]]]]. apply simple_class in H2 as [-> [L2 [F2 [v2 V2]]]]. unfold overlaps_class in H.
    assert (Z1 : variances p c1 = []) by (destruct F1 as [F1 _]; destruct (variances p c1); [reflexivity|discriminate F1]).
    assert (Z2 : variances p c2 = []) by (destruct F2 as [F2 _]; destruct (variances p c2); [reflexivity|discriminate F2]).
    destruct (class_in_mro p c1 [] c2) as [ds|] eqn:M1; [exists v1; split; [exact V1|exact (mro_value _ _ _ _ Z1 Z2 M1 V1)]|].
    destruct (class_in_mro p c2 [] c1) as [ds|] eqn:M2; [exists v2; split; [exact (mro_value _ _ _ _ Z2 Z1 M2 V2)|exact V2]|].
    rewrite L1 in H. cbn [andb] in H. exact (A H).
  - destruct a1 as [ts1|u1|w1]; [| |destruct H1]; (destruct a2 as [ts2|u2|w2]; [| |destruct H2]); cbn [overlaps_tuples] in H; cbn [OverlapSpec.simple] in H1, H2.
    + apply Forall_of_map in H1. apply Forall_of_map in H2. unfold overlaps_fixed in H. destruct (every (ask_pair (overlaps p listed fuel)) (combine ts1 ts2)) as [b|] eqn:Ev; [|discriminate H].
      injection H as H. apply andb_true_iff in H as [-> L]. apply PeanoNat.Nat.eqb_eq in L. apply every_true in Ev. unfold ask_pair in Ev.
      assert (S : exists vs, Forall2 has ts1 vs /\ Forall2 has ts2 vs).
      { clear - IH H1 H2 L Ev. revert ts2 H2 L Ev. induction H1 as [|a ts1 Ha H1 IHl]; intros [|b ts2] H2 L Ev; try discriminate L; [exists []; split; constructor|].
        cbn [combine] in Ev. apply Forall_cons_iff in Ev as [E1 Ev]. apply Forall_cons_iff in H2 as [Hb H2]. injection L as L. destruct (IHl ts2 H2 L Ev) as [vs [V1 V2]].
        destruct (IH a b Ha Hb E1) as [v [W1 W2]]. exists (v :: vs). split; constructor; assumption. }
      destruct S as [vs [V1 V2]]. destruct (All_tuples vs) as [v Hv]. exists v. split; exists vs; (split; [exact Hv|apply items_map; assumption]).
    + apply Forall_of_map in H1. apply all_true in H.
      assert (S : exists vs, Forall2 has ts1 vs /\ Forall (has u2) vs).
      { clear - IH H1 H2 H. induction H as [|a ts1 Ha H IHl]; [exists []; split; constructor|]. apply Forall_cons_iff in H1 as [S1 H1]. destruct (IHl H1) as [vs [V1 V2]].
        destruct (IH a u2 S1 H2 Ha) as [v [W1 W2]]. exists (v :: vs). split; constructor; assumption. }
      destruct S as [vs [V1 V2]]. destruct (All_tuples vs) as [v Hv]. exists v. split; exists vs; (split; [exact Hv|]); [apply items_map|]; assumption.
    + apply Forall_of_map in H2. apply all_true in H.
      assert (S : exists vs, Forall2 has ts2 vs /\ Forall (has u1) vs).
      { clear - IH H1 H2 H. induction H as [|a ts1 Ha H IHl]; [exists []; split; constructor|]. apply Forall_cons_iff in H2 as [S1 H2]. destruct (IHl H2) as [vs [V1 V2]].
        destruct (IH u1 a H1 S1 Ha) as [v [W1 W2]]. exists (v :: vs). split; constructor; assumption. }
      destruct S as [vs [V1 V2]]. destruct (All_tuples vs) as [v Hv]. exists v. split; exists vs; (split; [exact Hv|]); [|apply items_map]; assumption.
    + destruct (All_tuples []) as [v Hv]. exists v. split; exists []; (split; [exact Hv|constructor]).
Qed.
End Exact.

(** ** Both orders *)
Lemma any_false : forall {A} (f : A -> option bool) l, any_of f l = Some false -> forall x, In x l -> f x = Some false.
Proof.
  intros A f l. induction l as [|a l IH]; intros H x Hx; [destruct Hx|]. cbn in H. destruct (f a) as [[]|] eqn:F; try discriminate H. destruct Hx as [<-|Hx]; auto.
Qed.

Definition agree {A B} (f : A -> option bool) (g : B -> option bool) (x : A) (y : B) : Prop := forall b c, f x = Some b -> g y = Some c -> b = c.

Lemma all_agree : forall {A} (f g : A -> option bool) l, Forall (fun x => agree f g x x) l -> agree (all_of f) (all_of g) l l.
Proof.
  intros A f g l H. induction H as [|x l Hx H IH]; intros b c Hb Hc; cbn in Hb, Hc; [congruence|].
  destruct (f x) as [x1|] eqn:F; [|discriminate Hb]. destruct (g x) as [x2|] eqn:G; [|discriminate Hc]. assert (E := Hx _ _ F G). subst x2. destruct x1; cbn in Hb, Hc; [exact (IH b c Hb Hc)|congruence].
Qed.

Lemma every_agree : forall {A B} (f : A -> option bool) (g : B -> option bool) l m, Forall2 (agree f g) l m -> agree (every f) (every g) l m.
Proof.
  intros A B f g l m H. induction H as [|x y l m Hx H IH]; intros b c Hb Hc; cbn in Hb, Hc; [congruence|].
  destruct (f x) as [x1|] eqn:F; [|discriminate Hb]. destruct (g y) as [x2|] eqn:G; [|discriminate Hc]. assert (E := Hx _ _ F G). subst x2.
  destruct (every f l) as [y1|] eqn:F'; [|discriminate Hb]. destruct (every g m) as [y2|] eqn:G'; [|discriminate Hc]. assert (E := IH _ _ F' G'). congruence.
Qed.

Fixpoint members (t : type) : list type := match t with Union ts => flat_map members ts | _ => [t] end.

Definition leaf (t : type) : Prop := match t with Union _ => False | _ => True end.

Lemma union_or_leaf : forall t, (exists ts, t = Union ts) \/ leaf t.
Proof. intros t. destruct t; try (right; exact Logic.I). left. eexists. reflexivity. Qed.

Lemma members_leaf : forall t, leaf t -> members t = [t].
Proof. intros t H. destruct t; try reflexivity. destruct H. Qed.

Lemma members_are_leaves : forall t m, In m (members t) -> leaf m.
Proof.
  intros t. induction t using type_induction; intros u Hm; cbn [members] in Hm; try (destruct Hm as [<-|[]]; exact Logic.I).
  apply in_flat_map in Hm as [t [Ht Hm]]. rewrite Forall_forall in H. exact (H t Ht u Hm).
Qed.

Section Symmetric.
Variables (p : program) (listed : N -> bool).
Hypothesis Ordinary : ordinary_program p.
Hypothesis Acyclic : acyclic p.
Notation ordinary := (ordinary p 0).
Notation overlaps := (overlaps p listed).

Lemma members_ordinary : forall t, ordinary t -> forall m, In m (members t) -> ordinary m.
Proof.
  intros t. induction t using type_induction; intros O u Hm; cbn [members] in Hm; try (destruct Hm as [<-|[]]; exact O).
  apply in_flat_map in Hm as [t [Ht Hm]]. rewrite Forall_forall in H. apply ordinary_union in O as [_ O]. rewrite Forall_forall in O. exact (H t Ht (O t Ht) u Hm).
Qed.

Lemma second_union : forall fuel t us, leaf t -> ordinary t -> overlaps (S fuel) t (Union us) = any_of (overlaps fuel t) us.
Proof. intros fuel t us L O. destruct t; try reflexivity; [destruct L|destruct O]. Qed.

Lemma overlaps_true_members : forall fuel t1 t2, ordinary t1 -> ordinary t2 -> overlaps fuel t1 t2 = Some true ->
  exists f m1 m2, (f <= fuel)%nat /\ In m1 (members t1) /\ In m2 (members t2) /\ overlaps f m1 m2 = Some true.
Proof.
  intros fuel. induction fuel as [|fuel IH]; intros t1 t2 O1 O2 H; [discriminate H|]. destruct (union_or_leaf t1) as [[ts ->]|L1].
  - cbn [OverlapModel.overlaps overlaps_internal] in H. apply any_true in H as [t [Ht H]]. apply ordinary_union in O1 as [_ O1]. rewrite Forall_forall in O1.
    destruct (IH t t2 (O1 t Ht) O2 H) as (f & m1 & m2 & Hf & H1 & H2 & Hm). exists f, m1, m2. split; [lia|]. split; [cbn [members]; apply in_flat_map; exists t; auto|auto].
  - destruct (union_or_leaf t2) as [[ts ->]|L2].
    + rewrite second_union in H by assumption. apply any_true in H as [t [Ht H]]. apply ordinary_union in O2 as [_ O2]. rewrite Forall_forall in O2.
      destruct (IH t1 t O1 (O2 t Ht) H) as (f & m1 & m2 & Hf & H1 & H2 & Hm). exists f, m1, m2. split; [lia|]. split; [exact H1|]. split; [cbn [members]; apply in_flat_map; exists t; auto|exact Hm].
    + exists (S fuel), t1, t2. rewrite (members_leaf _ L1), (members_leaf _ L2). cbn [In]. auto.
Qed.

Lemma overlaps_false_members : forall fuel t1 t2, ordinary t1 -> ordinary t2 -> overlaps fuel t1 t2 = Some false ->
  forall m1 m2, In m1 (members t1) -> In m2 (members t2) -> exists f, (f <= fuel)%nat /\ overlaps f m1 m2 = Some false.
Proof.
  intros fuel. induction fuel as [|fuel IH]; intros t1 t2 O1 O2 H m1 m2 H1 H2; [discriminate H|]. destruct (union_or_leaf t1) as [[ts ->]|L1].
  - cbn [OverlapModel.overlaps overlaps_internal] in H. cbn [members] in H1. apply in_flat_map in H1 as [t [Ht H1]]. apply ordinary_union in O1 as [_ O1]. rewrite Forall_forall in O1.
    destruct (IH t t2 (O1 t Ht) O2 (any_false _ _ H t Ht) m1 m2 H1 H2) as (f & Hf & Hm). exists f. split; [lia|exact Hm].
  - destruct (union_or_leaf t2) as [[ts ->]|L2].
    + rewrite second_union in H by assumption. cbn [members] in H2. apply in_flat_map in H2 as [t [Ht H2]]. apply ordinary_union in O2 as [_ O2]. rewrite Forall_forall in O2.
      destruct (IH t1 t O1 (O2 t Ht) (any_false _ _ H t Ht) m1 m2 H1 H2) as (f & Hf & Hm). exists f. split; [lia|exact Hm].
    + rewrite (members_leaf _ L1) in H1. rewrite (members_leaf _ L2) in H2. destruct H1 as [<-|[]]. destruct H2 as [<-|[]]. exists (S fuel). auto.
Qed.

Notation assign fuel := (assignable (fun t1 t2 => to_bool (run p fuel (Matches Covariant false t1 t2))) (fun t1 t2 => to_bool (run p fuel (Matches Contravariant false t1 t2)))).

Lemma assignable_rules : forall fuel t1 t2 b, ordinary t1 -> ordinary t2 -> assign fuel t1 t2 = Some b -> (b = true <-> sub p t1 t2 \/ sub p t2 t1).
Proof.
  intros fuel t1 t2 b O1 O2 H. split.
  - intros ->. apply or_true in H as [H|H]; apply to_bool_true in H.
    + destruct fuel as [|fuel]; [discriminate H|]. right. exact (run_allowed p Ordinary (S fuel) (Matches Covariant true t2 t1) H O2 O1).
    + left. exact (run_allowed p Ordinary fuel (Matches Covariant false t1 t2) H O1 O2).
  - intros S. assert (Op := assignable_open p Ordinary fuel t1 t2 O1 O2 S). destruct b; [reflexivity|]. destruct (Op H).
Qed.

Lemma assignable_agree : forall f g t1 t2 b c, ordinary t1 -> ordinary t2 -> assign f t1 t2 = Some b -> assign g t2 t1 = Some c -> b = c.
Proof.
  intros f g t1 t2 b c O1 O2 Hb Hc. apply assignable_rules in Hb; [|assumption|assumption]. apply assignable_rules in Hc; [|assumption|assumption].
  destruct b, c; try reflexivity; exfalso; [|]; [assert (F := proj2 Hc (proj1 (or_comm _ _) (proj1 Hb eq_refl)))|assert (F := proj2 Hb (proj1 (or_comm _ _) (proj1 Hc eq_refl)))]; discriminate F.
Qed.

Lemma any_first : forall fuel t, ordinary t -> leaf t -> open (overlaps fuel Any t).
Proof.
  assert (C : forall fuel c gs, ordinary (Class c gs) -> open (overlaps fuel Any (Class c gs))).
  { intros [|fuel] c gs O; [discriminate|]. cbn [OverlapModel.overlaps overlaps_internal overlaps_first]. apply assignable_open; [assumption|exact Logic.I|exact O|]. left. apply s_any_expected. }
  intros [|fuel] t O L; [discriminate|]. destruct t; try solve [destruct L]; try solve [destruct O | inversion O]; cbn [OverlapModel.overlaps overlaps_internal overlaps_first]; try discriminate;
    try (apply assignable_open; [assumption|exact Logic.I|exact O|]; left; apply s_any_expected).
  apply C. split; [rewrite fallback_class, (literals_plain p Ordinary); reflexivity|constructor].
Qed.

Lemma in_own_mro : forall c gs, class_in_mro p c gs c = Some gs.
Proof. intros c gs. unfold class_in_mro, class_mro. cbn [List.find fst]. rewrite N.eqb_refl. reflexivity. Qed.

Lemma in_mro_derives : forall c gs d ds, ordinary (Class c gs) -> class_in_mro p c gs d = Some ds -> derives p c d /\ ordinary (Class d ds).
Proof.
  intros c gs d ds Ho H. unfold class_in_mro in H. destruct (List.find (fun x => fst x =? d) (class_mro p c gs)) as [[d' ds']|] eqn:F; [|discriminate H]. cbn in H. injection H as ->.
  apply List.find_some in F as [Hin E]. cbn in E. apply N.eqb_eq in E. subst d'. destruct Hin as [E|Hin].
  - injection E as <- <-. split; [left; reflexivity|exact Ho].
  - apply in_app_iff in Hin as [Hin|[E|[]]].
    + apply (flat_class _ _ _ _ (bases_are_classes p Ordinary c)) in Hin as [cs [Hin ->]]. split; [right; right; exists cs; exact Hin|exact (base_ordinary p Ordinary c gs d cs Ho Hin)].
    + injection E as <- <-. split; [right; left; reflexivity|]. split; [rewrite (object_plain p Ordinary); reflexivity|constructor].
Qed.

Lemma same_literal_sym : forall l m, same_literal l m = same_literal m l.
Proof.
  intros [n s|b|s|s] [n' s'|b'|s'|s']; cbn; try reflexivity; rewrite ?(N.eqb_sym n n'), ?(N.eqb_sym s s'); try reflexivity.
  - destruct s, s'; reflexivity.
  - destruct b, b'; reflexivity.
Qed.

Section Step.
Variables (f g : nat).
Hypothesis IH : forall t1 t2 b c, ordinary t1 -> ordinary t2 -> overlaps f t1 t2 = Some b -> overlaps g t2 t1 = Some c -> b = c.

Lemma pairs_agree : forall l m, Forall ordinary l -> Forall ordinary m ->
  agree (every (ask_pair (overlaps f))) (every (ask_pair (overlaps g))) (combine l m) (combine m l).
Proof.
  intros l m Ol Om. apply every_agree. revert m Om. induction Ol as [|a l Oa Ol IHl]; intros [|b m] Om; try constructor; apply Forall_cons_iff in Om as [Ob Om]; [|exact (IHl m Om)].
  intros x y. exact (IH a b x y Oa Ob).
Qed.

Lemma class_agree : forall c1 gs1 c2 gs2 b c, ordinary (Class c1 gs1) -> ordinary (Class c2 gs2) ->
  overlaps (S f) (Class c1 gs1) (Class c2 gs2) = Some b -> overlaps (S g) (Class c2 gs2) (Class c1 gs1) = Some c -> b = c.
Proof.
  intros c1 gs1 c2 gs2 b c O1 O2 Hb Hc. cbn [OverlapModel.overlaps overlaps_internal overlaps_first] in Hb, Hc. unfold overlaps_class in Hb, Hc.
  assert (A1 := proj2 (ordinary_class p 0 c1 gs1 O1)). assert (A2 := proj2 (ordinary_class p 0 c2 gs2 O2)).
  destruct (class_in_mro p c1 gs1 c2) as [ds1|] eqn:M1; destruct (class_in_mro p c2 gs2 c1) as [ds2|] eqn:M2.
  - destruct (in_mro_derives _ _ _ _ O1 M1) as [D1 _]. destruct (in_mro_derives _ _ _ _ O2 M2) as [D2 _]. assert (E := Acyclic _ _ D1 D2). subst c2.
    rewrite in_own_mro in M1, M2. injection M1 as <-. injection M2 as <-. exact (pairs_agree gs1 gs2 A1 A2 b c Hb Hc).
  - destruct (in_mro_derives _ _ _ _ O1 M1) as [_ D1]. apply ordinary_class in D1 as [_ D1]. exact (pairs_agree ds1 gs2 D1 A2 b c Hb Hc).
  - destruct (in_mro_derives _ _ _ _ O2 M2) as [_ D2]. apply ordinary_class in D2 as [_ D2]. exact (pairs_agree gs1 ds2 A1 D2 b c Hb Hc).
  - rewrite (andb_comm (listed c2)) in Hc. destruct (listed c1 && listed c2); [congruence|]. exact (assignable_agree f g _ _ b c O1 O2 Hb Hc).
Qed.

Lemma tuple_agree : forall a1 a2 b c, ordinary (Tuple a1) -> ordinary (Tuple a2) -> overlaps (S f) (Tuple a1) (Tuple a2) = Some b -> overlaps (S g) (Tuple a2) (Tuple a1) = Some c -> b = c.
Proof.
  intros a1 a2 b c O1 O2 Hb Hc. cbn [OverlapModel.overlaps overlaps_internal overlaps_first] in Hb, Hc.
  destruct a1 as [ts1|t1|u1]; [| |destruct O1]; (destruct a2 as [ts2|t2|u2]; [| |destruct O2]); cbn [overlaps_tuples] in Hb, Hc.
  - apply ordinary_fixed in O1. apply ordinary_fixed in O2. assert (G := pairs_agree ts1 ts2 O1 O2). unfold overlaps_fixed in Hb, Hc.
    destruct (every _ (combine ts1 ts2)) as [x|] eqn:X; [|discriminate Hb]. destruct (every _ (combine ts2 ts1)) as [y|] eqn:Y; [|discriminate Hc]. assert (E := G x y X Y). subst y.
    rewrite (PeanoNat.Nat.eqb_sym (length ts2)) in Hc. congruence.
  - apply ordinary_fixed in O1. change (ordinary t2) in O2. refine (all_agree _ _ ts1 _ b c Hb Hc). refine (Forall_impl _ _ O1). intros t Ot x y. exact (IH t t2 x y Ot O2).
  - apply ordinary_fixed in O2. change (ordinary t1) in O1. refine (all_agree _ _ ts2 _ b c Hb Hc). refine (Forall_impl _ _ O2). intros t Ot x y. exact (IH t1 t x y O1 Ot).
  - exact (IH t1 t2 b c O1 O2 Hb Hc).
Qed.

Lemma leaf_agree : forall t1 t2 b c, leaf t1 -> leaf t2 -> ordinary t1 -> ordinary t2 -> overlaps (S f) t1 t2 = Some b -> overlaps (S g) t2 t1 = Some c -> b = c.
Proof.
  intros t1 t2 b c L1 L2 O1 O2 Hb Hc.
  assert (Lit : forall l, ordinary (Class (fallback p l) [])) by (intros l; split; [rewrite fallback_class, (literals_plain p Ordinary); reflexivity|constructor]).
  assert (A1 := any_first (S f) t2 O2 L2). assert (A2 := any_first (S g) t1 O1 L1).
  destruct t1 as [| | |c1 gs1|c1 gs1|l1| |a1|ts1|ts1|e1|e1 m1|n1|n1|s1]; try solve [destruct L1]; try solve [destruct O1 | inversion O1].
  1: { unfold open in A1. rewrite Hb in A1. assert (E : c = true) by (destruct t2; try solve [destruct L2]; try solve [destruct O2 | inversion O2]; injection Hc as <-; reflexivity). destruct b; congruence. }
  all: destruct t2 as [| | |c2 gs2|c2 gs2|l2| |a2|ts2|ts2|e2|e2 m2|n2|n2|s2]; try solve [destruct L2]; try solve [destruct O2 | inversion O2].
  all: try (unfold open in A2; rewrite Hc in A2; injection Hb as <-; destruct c; congruence).
  all: try exact (class_agree _ _ _ _ b c O1 O2 Hb Hc).
  all: try exact (tuple_agree _ _ b c O1 O2 Hb Hc).
  all: try exact (assignable_agree f g _ _ b c O1 O2 Hb Hc).
  all: try exact (IH _ _ b c O1 (Lit l2) Hb Hc).
  all: try exact (IH _ _ b c (Lit l1) O2 Hb Hc).
  cbn [OverlapModel.overlaps overlaps_internal] in Hb, Hc. rewrite same_literal_sym in Hb. congruence.
Qed.
End Step.

Theorem overlaps_symmetric : forall f g t1 t2 b c, ordinary t1 -> ordinary t2 -> overlaps f t1 t2 = Some b -> overlaps g t2 t1 = Some c -> b = c.
Proof.
  assert (G : forall n f g t1 t2 b c, (f < n)%nat -> ordinary t1 -> ordinary t2 -> overlaps f t1 t2 = Some b -> overlaps g t2 t1 = Some c -> b = c).
  { intros n. induction n as [|n IH]; intros f g t1 t2 b c Hf O1 O2 Hb Hc; [lia|].
    assert (Lf : forall f' g' m1 m2 x y, (f' <= f)%nat -> In m1 (members t1) -> In m2 (members t2) -> overlaps f' m1 m2 = Some x -> overlaps g' m2 m1 = Some y -> x = y).
    { intros f' g' m1 m2 x y Hf' H1 H2 Hx Hy. destruct f' as [|f']; [discriminate Hx|]. destruct g' as [|g']; [discriminate Hy|].
      refine (leaf_agree f' g' _ m1 m2 x y (members_are_leaves _ _ H1) (members_are_leaves _ _ H2) (members_ordinary t1 O1 m1 H1) (members_ordinary t2 O2 m2 H2) Hx Hy).
      intros u1 u2 b' c' U1 U2 E1 E2. apply (IH f' g' u1 u2 b' c'); try assumption. lia. }
    destruct b, c; try reflexivity; exfalso.
    - apply overlaps_true_members in Hb as (f' & m1 & m2 & Hf' & H1 & H2 & Hm); [|assumption|assumption].
      destruct (overlaps_false_members g t2 t1 O2 O1 Hc m2 m1 H2 H1) as (g' & _ & Hm'). assert (F := Lf f' g' m1 m2 _ _ Hf' H1 H2 Hm Hm'). discriminate F.
    - apply overlaps_true_members in Hc as (g' & m2 & m1 & _ & H2 & H1 & Hm); [|assumption|assumption].
      destruct (overlaps_false_members f t1 t2 O1 O2 Hb m1 m2 H1 H2) as (f' & Hf' & Hm'). assert (F := Lf f' g' m1 m2 _ _ Hf' H1 H2 Hm' Hm). discriminate F. }
  intros f g t1 t2 b c. apply (G (S f)). lia.
Qed.
End Symmetric.

(** ** What is not reported *)
Section Unreported.
Context {V : Type}.
Variables (p : program) (w : world V) (env : N -> V -> Prop) (lib : library).
Hypothesis Proper : proper p.
Hypothesis Lawful : lawful p w env.
Hypothesis All_tuples : forall vs, exists v, tuple_value w v vs.
Hypothesis Ordinary : ordinary_program p.
Hypothesis Generic_list : variances p (list_class lib) <> [].
Notation has := (has w env).
Notation simple := (simple p w (listed lib)).

Notation special := (special p (mapping lib) (bytes_like lib)).

Lemma remove_none_simple : forall t, simple t -> more_than_none t ->
  simple (remove_none t) /\ forall v, has (remove_none t) v -> exists u, alternative u t /\ has u v.
Proof.
  intros t Hs [m [Nm Hm]].
  destruct t as [| | |c gs|c gs|l| |a|ts|ts|e|e m'|n|n|s]; try solve [destruct Hs]; try (split; [exact Hs|intros v Hv; eexists; split; [split; [|reflexivity]; discriminate|exact Hv]]).
  - destruct (Nm Hm).
  - cbn [remove_none]. change (filter (fun t => negb (is_none t)) ts) with (filter some_member ts). destruct (existsb is_none ts) eqn:B.
    + destruct Hs as [Hn Hs]. apply Forall_of_map in Hs. assert (F := Forall_filter _ some_member _ Hs).
      assert (A : forall u v, In u (filter some_member ts) -> has u v -> exists u, alternative u (Union ts) /\ has u v).
      { intros u v Hu Hv. apply filter_In in Hu as [Hu Ne]. exists u. split; [|exact Hv]. split; [intros ->; discriminate Ne|exact Hu]. }
      destruct (filter some_member ts) as [|a [|b us]] eqn:Fl.
      * assert (G : In m (filter some_member ts)) by (apply filter_In; split; [exact Hm|destruct m; try reflexivity; destruct (Nm eq_refl)]). rewrite Fl in G. destruct G.
      * split; [inversion F; assumption|]. intros v Hv. exact (A a v (or_introl eq_refl) Hv).
      * split; [split; [discriminate|apply map_of_Forall; exact F]|]. intros v Hv. apply (proj1 (has_union w env _ v)) in Hv as [u [Hu Hv]]. exact (A u v Hu Hv).
    + split; [exact Hs|]. intros v Hv. apply (proj1 (has_union w env _ v)) in Hv as [u [Hu Hv]]. exists u. split; [|exact Hv]. split; [|exact Hu]. intros ->.
      assert (B' : existsb is_none ts = true) by (apply existsb_exists; exists NoneType; auto). congruence.
Qed.

Lemma remove_none_special : forall t, (forall u, alternative u t -> ~ special u) -> simple t -> ~ special (remove_none t).
Proof.
  intros t H Hs. destruct t as [| | |c gs|c gs|l| |a|ts|ts|e|e m'|n|n|s]; try (intros []; fail); try solve [destruct Hs].
  - apply H. split; [discriminate|reflexivity].
  - cbn [remove_none]. destruct (existsb is_none ts); [|intros []]. destruct (filter (fun t => negb (is_none t)) ts) as [|a [|b us]] eqn:F; [intros []| |intros []].
    apply H. assert (G : In a (filter (fun t => negb (is_none t)) ts)) by (rewrite F; left; reflexivity). apply filter_In in G as [G Na]. split; [intros ->; discriminate Na|exact G].
Qed.

Theorem unreported_shared : forall fuel t1 t2, simple t1 -> simple t2 -> more_than_none t1 -> more_than_none t2 ->
  (forall u, alternative u t1 \/ alternative u t2 -> ~ special u) -> custom_eq lib t1 = false -> custom_eq lib t2 = false ->
  strict_equality p lib fuel t1 t2 = Some true -> exists u1 u2 v, alternative u1 t1 /\ alternative u2 t2 /\ has u1 v /\ has u2 v.
Proof.
  intros [|fuel] t1 t2 S1 S2 M1 M2 Sp C1 C2 H; [discriminate H|]. cbn [strict_equality] in H. rewrite C1, C2 in H.
  assert (N : forall t, more_than_none t -> is_none t = false).
  { intros t [u [Nu Hu]]. destruct t; try reflexivity. destruct (Nu Hu). }
  rewrite (N t1 M1), (N t2 M2) in H. cbn [orb] in H.
  destruct (remove_none_simple t1 S1 M1) as [R1 A1]. destruct (remove_none_simple t2 S2 M2) as [R2 A2].
  assert (P1 : ~ special (remove_none t1)) by (apply remove_none_special; [intros u Hu; apply Sp; left; exact Hu|exact S1]).
  assert (P2 : ~ special (remove_none t2)) by (apply remove_none_special; [intros u Hu; apply Sp; right; exact Hu|exact S2]).
  assert (G : exists v, has (remove_none t1) v /\ has (remove_none t2) v).
  { revert R1 R2 P1 P2 H. generalize (remove_none t1) as u1, (remove_none t2) as u2. clear - Proper Lawful All_tuples Ordinary Generic_list. intros u1 u2 R1 R2 P1 P2 H. unfold strict_without_none in H. cbv zeta in H.
    assert (D : match u1, u2 with Tuple (ArbitraryLen i1), Tuple (ArbitraryLen i2) => strict_equality p lib fuel i1 i2 | _, _ => overlaps p (listed lib) fuel u1 u2 end = Some true ->
      exists v, has u1 v /\ has u2 v).
    { assert (Q := overlaps_shared p w env (listed lib) Proper Lawful All_tuples Ordinary fuel u1 u2 R1 R2).
      destruct u1 as [| | | | | | |[ts1|i1|w1]| | | | | | |]; try exact Q. destruct u2 as [| | | | | | |[ts2|i2|w2]| | | | | | |]; try exact Q.
      intros _. destruct (All_tuples []) as [v Hv]. exists v. split; exists []; (split; [exact Hv|constructor]). }
    destruct u1 as [| | |c1 gs1| | | | | | | | | | |]; try exact (D H). destruct u2 as [| | |c2 gs2| | | | | | | | | | |]; try exact (D H).
    destruct ((c1 =? c2) && (c1 =? list_class lib)) eqn:L.
    { apply andb_true_iff in L as [_ L]. apply N.eqb_eq in L. subst c1. destruct R1 as (-> & _ & (F & _) & _). destruct Generic_list. destruct (variances p (list_class lib)); [reflexivity|discriminate F]. }
    destruct (bytes_like lib c1) eqn:B1; [destruct P1; right; exact B1|]. cbn [andb] in H.
    destruct (class_in_mro p c1 gs1 (mapping lib)) as [ds|] eqn:M; [|exact (D H)].
    destruct P1. left. assert (X := R1). destruct X as (-> & _ & (F & _) & _). refine (proj1 (in_mro_derives p Ordinary c1 [] (mapping lib) ds _ M)). split; [exact F|constructor]. }
  destruct G as [v [V1 V2]]. destruct (A1 v V1) as [u1 [U1 W1]]. destruct (A2 v V2) as [u2 [U2 W2]]. exists u1, u2, v. auto.
Qed.
End Unreported.

(** ** Literals *)
Lemma same_literal_equal : forall l m, same_literal l m = true -> l = m.
Proof.
  intros [n s|b|s|s] [n' s'|b'|s'|s'] H; cbn in H; try discriminate H; try (apply N.eqb_eq in H; congruence).
  - apply andb_true_iff in H as [H1 H2]. apply N.eqb_eq in H1. apply eqb_prop in H2. congruence.
  - apply eqb_prop in H. congruence.
Qed.

Section Literals.
Variables (p : program) (listed : N -> bool).

Lemma literal_overlap : forall fuel l m b, overlaps p listed fuel (Literal l) (Literal m) = Some b -> (b = true <-> l = m).
Proof.
  intros [|fuel] l m b H; [discriminate H|]. cbn in H. injection H as <-. split; [apply same_literal_equal|intros ->; apply same_literal_itself].
Qed.

Lemma any_map : forall {A B} (g : A -> B) f l, any_of f (map g l) = any_of (fun x => f (g x)) l.
Proof. intros A B g f l. induction l as [|x l IH]; [reflexivity|]. cbn. rewrite IH. reflexivity. Qed.

Lemma literals_overlap : forall fuel ls ms b, overlaps p listed fuel (Union (map Literal ls)) (Union (map Literal ms)) = Some b -> (b = true <-> exists l, In l ls /\ In l ms).
Proof.
  assert (One : forall fuel l ms, overlaps p listed (S fuel) (Literal l) (Union (map Literal ms)) = any_of (fun m => overlaps p listed fuel (Literal l) (Literal m)) ms).
  { intros fuel l ms. cbn. rewrite any_map. reflexivity. }
  intros [|[|fuel]] ls ms b H; [discriminate H| |].
  - cbn in H. rewrite any_map in H. destruct ls; [injection H as <-|discriminate H]. split; [discriminate|intros [l [[] _]]].
  - change (any_of (fun t => overlaps p listed (S fuel) t (Union (map Literal ms))) (map Literal ls) = Some b) in H. rewrite any_map in H. split.
    + intros ->. apply any_true in H as [l [Hl H]]. rewrite One in H. apply any_true in H as [m [Hm H]]. exists l. split; [exact Hl|].
      apply literal_overlap in H. rewrite (proj1 H eq_refl). exact Hm.
    + intros [l [Hl Hm]]. destruct b; [reflexivity|]. assert (H' := any_false _ _ H l Hl). cbv beta in H'. rewrite One in H'. assert (H2 := any_false _ _ H' l Hm). apply literal_overlap in H2. apply H2. reflexivity.
Qed.
End Literals.

(** ** Containers *)
Section Containers.
Variables (p : program) (lib : library).

Lemma exempt : forall fuel t1 t2, t1 = NoneType \/ t2 = NoneType \/ custom_eq lib t1 = true \/ custom_eq lib t2 = true -> strict_equality p lib fuel t1 t2 <> Some false.
Proof.
  intros [|fuel] t1 t2 H; [discriminate|]. cbn [strict_equality].
  destruct H as [-> |[-> |[-> | ->]]]; cbn [is_none orb]; rewrite ?orb_true_r; cbn [orb]; rewrite ?orb_true_r; discriminate.
Qed.

Lemma list_elements : forall fuel a b, custom_eq lib (Class (list_class lib) [a]) = false -> custom_eq lib (Class (list_class lib) [b]) = false ->
  strict_equality p lib (S fuel) (Class (list_class lib) [a]) (Class (list_class lib) [b]) = strict_equality p lib fuel a b.
Proof. intros fuel a b C1 C2. cbn [strict_equality]. rewrite C1, C2. cbn. rewrite N.eqb_refl. reflexivity. Qed.

Lemma tuple_elements : forall fuel a b, custom_eq lib (Tuple (ArbitraryLen a)) = false -> custom_eq lib (Tuple (ArbitraryLen b)) = false ->
  strict_equality p lib (S fuel) (Tuple (ArbitraryLen a)) (Tuple (ArbitraryLen b)) = strict_equality p lib fuel a b.
Proof. intros fuel a b C1 C2. cbn [strict_equality]. rewrite C1, C2. reflexivity. Qed.

Lemma mapping_in_mro : forall c k v, a_mapping p (mapping lib) c -> class_in_mro p c [k; v] (mapping lib) = Some [k; v].
Proof.
  intros c k v [-> |B]; unfold class_in_mro, class_mro.
  - cbn [List.find fst]. rewrite N.eqb_refl. reflexivity.
  - rewrite B. cbn -[N.eqb]. destruct (N.eqb_spec c (mapping lib)) as [->|Ne]; [reflexivity|]. rewrite N.eqb_refl. reflexivity.
Qed.

Lemma mapping_items : forall fuel c d k1 v1 k2 v2, a_mapping p (mapping lib) c -> a_mapping p (mapping lib) d -> c <> list_class lib -> bytes_like lib c = false ->
  custom_eq lib (Class c [k1; v1]) = false -> custom_eq lib (Class d [k2; v2]) = false ->
  strict_equality p lib (S fuel) (Class c [k1; v1]) (Class d [k2; v2]) = and_ (strict_equality p lib fuel k1 k2) (strict_equality p lib fuel v1 v2).
Proof.
  intros fuel c d k1 v1 k2 v2 Mc Md Nl Nb C1 C2. cbn [strict_equality]. rewrite C1, C2. cbn [is_none orb remove_none]. unfold strict_without_none. cbv zeta.
  rewrite (proj2 (N.eqb_neq c (list_class lib)) Nl), andb_false_r, Nb, (mapping_in_mro c k1 v1 Mc), (mapping_in_mro d k2 v2 Md). reflexivity.
Qed.
End Containers.
