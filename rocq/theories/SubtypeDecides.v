(** Proofs that assignability follows the rules of [SubtypeRules], in both directions, and that it ends in covariant programs *)
From Coq Require Import List NArith Bool Lia.
From Verif Require Import TupleModel SubtypeModel SubtypeRules SubtypeProofs SubtypeSound SubtypeComplete.
Import ListNotations.
Open Scope N_scope.

Section Ordinary.
Variable p : program.
Hypothesis Hp : ordinary_program p.
Notation ordinary := (ordinary p).

(** ** Types *)
Lemma ordinary_class : forall k c gs, ordinary k (Class c gs) -> length gs = length (variances p c) /\ Forall (ordinary k) gs.
Proof. intros k c gs [Hl H]. split; [exact Hl|]. apply Forall_of_map. exact H. Qed.

Lemma ordinary_union : forall k ts, ordinary k (Union ts) -> ts <> [] /\ Forall (ordinary k) ts.
Proof. intros k ts (Hn & _ & _ & H). split; [exact Hn|]. apply Forall_of_map. exact H. Qed.

Lemma ordinary_fixed : forall k ts, ordinary k (Tuple (FixedLen ts)) -> Forall (ordinary k) ts.
Proof. intros k ts H. apply Forall_of_map. exact H. Qed.

Lemma boolean_substitute : forall gs ts, existsb variable ts = false -> filter boolean (map (substitute gs) ts) = filter boolean ts.
Proof.
  intros gs ts. induction ts as [|t ts IH]; intros H; [reflexivity|]. cbn in H. apply orb_false_iff in H. destruct H as [Ht H]. cbn [map filter].
  rewrite (IH H). destruct t as [| | | | | | |a| | | | | | | ]; try reflexivity; [|discriminate Ht]. destruct a as [ts'|t|[b [n|t] a]]; reflexivity.
Qed.

Lemma variable_substitute : forall gs ts, existsb variable ts = false -> existsb variable (map (substitute gs) ts) = false.
Proof.
  intros gs ts. induction ts as [|t ts IH]; intros H; [reflexivity|]. cbn in H. apply orb_false_iff in H. destruct H as [Ht H]. cbn [map existsb].
  rewrite (IH H), orb_false_r. destruct t as [| | | | | | |a| | | | | | | ]; try reflexivity; [|discriminate Ht]. destruct a as [ts'|t|[b [n|t] a]]; reflexivity.
Qed.

Lemma ordinary_substitute : forall gs t, Forall (ordinary 0) gs -> ordinary (length gs) t -> ordinary 0 (substitute gs t).
Proof.
  intros gs t Hg. induction t using type_induction; intros Hf; cbn [substitute]; try exact I; try (destruct Hf; fail).
  - destruct Hf as [Hl Hf]. split; [rewrite map_length; exact Hl|]. apply Forall_of_map in Hf. apply map_of_Forall. apply Forall_map.
    rewrite Forall_forall in *. auto.
  - cbn in Hf |- *. apply Forall_of_map in Hf. apply map_of_Forall. apply Forall_map. rewrite Forall_forall in *. auto.
  - cbn in Hf |- *. auto.
  - destruct Hf as (Hn & Hd & Hv & Hf). split; [destruct ts; [destruct (Hn eq_refl)|discriminate]|]. split; [rewrite boolean_substitute by exact Hv; exact Hd|].
    split; [exact (variable_substitute _ _ Hv)|]. apply Forall_of_map in Hf. apply map_of_Forall. apply Forall_map. rewrite Forall_forall in *. auto.
  - cbn in Hf. rewrite Forall_forall in Hg. apply Hg. apply nth_In. exact Hf.
Qed.

Lemma ordinary_more : forall t k, ordinary 0 t -> ordinary k t.
Proof.
  intros t k. induction t using type_induction; intros Hf; try exact I; try (destruct Hf; fail).
  - destruct Hf as [Hl Hf]. split; [exact Hl|]. apply Forall_of_map in Hf. apply map_of_Forall. rewrite Forall_forall in *. auto.
  - cbn in Hf |- *. apply Forall_of_map in Hf. apply map_of_Forall. rewrite Forall_forall in *. auto.
  - cbn in Hf |- *. auto.
  - destruct Hf as (Hn & Hd & Hv & Hf). split; [exact Hn|]. split; [exact Hd|]. split; [exact Hv|]. apply Forall_of_map in Hf. apply map_of_Forall. rewrite Forall_forall in *. auto.
  - cbn in Hf. lia.
Qed.

(** ** What a type is an instance of *)
Lemma fallback_class : forall l, fallback p l = class_of_literal p l.
Proof. intros []; reflexivity. Qed.

Lemma base_ordinary : forall c gs d ds, ordinary 0 (Class c gs) -> In (Class d ds) (bases p c) -> ordinary 0 (Class d (map (substitute gs) ds)).
Proof.
  intros c gs d ds Hc Hin. apply ordinary_class in Hc. destruct Hc as [Hl Hg]. destruct (bases_ordinary p Hp c _ Hin) as [_ Ho].
  change (Class d (map (substitute gs) ds)) with (substitute gs (Class d ds)). apply ordinary_substitute; [exact Hg|]. rewrite Hl. exact Ho.
Qed.

Lemma instance_ordinary : forall t c gs, ordinary 0 t -> instance_of p t c gs -> ordinary 0 (Class c gs).
Proof.
  intros t c gs Ht H. destruct H as [c gs|c gs d ds Hin|l|l d ds Hin|a d ds Hin|e d ds Hin|e m d ds Hin].
  - exact Ht.
  - exact (base_ordinary _ _ _ _ Ht Hin).
  - split; [rewrite (literals_plain p Hp); reflexivity|constructor].
  - apply (base_ordinary (class_of_literal p l)); [|exact Hin]. split; [rewrite (literals_plain p Hp); reflexivity|constructor].
  - apply (base_ordinary (tuple_class p)); [|exact Hin]. split; [rewrite (tuple_generic p Hp); reflexivity|]. cbn [map]. constructor; [|constructor].
    exact (entries_ordinary p Hp _ Ht).
  - apply (base_ordinary (enum_class p e)); [|exact Hin]. split; [rewrite (enums_plain p Hp); reflexivity|constructor].
  - apply (base_ordinary (enum_class p e)); [|exact Hin]. split; [rewrite (enums_plain p Hp); reflexivity|constructor].
Qed.

Lemma named_once : forall l d ds ds', NoDup (flat_map named l) -> In (Class d ds) l -> In (Class d ds') l -> ds = ds'.
Proof.
  intros l d ds ds'. induction l as [|b l IH]; intros Hn H1 H2; [destruct H1|]. cbn [flat_map] in Hn.
  assert (Hl : NoDup (flat_map named l)).
  { clear - Hn. induction (named b) as [|x y IH]; [exact Hn|]. inversion Hn. auto. }
  assert (Hin : forall es, In (Class d es) l -> In d (flat_map named l)) by (intros es He; apply in_flat_map; exists (Class d es); split; [exact He|left; reflexivity]).
  destruct H1 as [->|H1], H2 as [E|H2].
  - injection E as ->. reflexivity.
  - cbn in Hn. inversion Hn as [|? ? Hx _]. destruct (Hx (Hin _ H2)).
  - subst b. cbn in Hn. inversion Hn as [|? ? Hx _]. destruct (Hx (Hin _ H1)).
  - exact (IH Hl H1 H2).
Qed.

Lemma not_own_base : forall c ds, ~ In (Class c ds) (bases p c).
Proof.
  intros c ds H. pose proof (bases_once p Hp c) as Hn. inversion Hn as [|? ? Hx _]. apply Hx. apply in_flat_map. exists (Class c ds). split; [exact H|left; reflexivity].
Qed.

Lemma base_once : forall c d ds ds', In (Class d ds) (bases p c) -> In (Class d ds') (bases p c) -> ds = ds'.
Proof. intros c d ds ds'. pose proof (bases_once p Hp c) as Hn. inversion Hn as [|? ? _ Hl]. apply named_once. exact Hl. Qed.

Lemma instance_once : forall t c gs gs', instance_of p t c gs -> instance_of p t c gs' -> gs = gs'.
Proof.
  intros t c gs gs' H1 H2. destruct H1 as [c gs|c gs d ds Hin|l|l d ds Hin|a d ds Hin|e d ds Hin|e m d ds Hin].
  - inversion H2 as [|? ? ? ds' Hin'| | | | |]; subst; [reflexivity|]. destruct (not_own_base _ _ Hin').
  - inversion H2 as [|? ? ? ds' Hin'| | | | |]; subst; [destruct (not_own_base _ _ Hin)|]. rewrite (base_once _ _ _ _ Hin Hin'). reflexivity.
  - inversion H2 as [| | |? ? ds' Hin'| | |]; subst; [reflexivity|]. destruct (not_own_base _ _ Hin').
  - inversion H2 as [| | |? ? ds' Hin'| | |]; subst; [destruct (not_own_base _ _ Hin)|]. rewrite (base_once _ _ _ _ Hin Hin'). reflexivity.
  - inversion H2 as [| | | |? ? ds' Hin'| |]; subst. rewrite (base_once _ _ _ _ Hin Hin'). reflexivity.
  - inversion H2 as [| | | | |? ? ds' Hin'|]; subst. rewrite (base_once _ _ _ _ Hin Hin'). reflexivity.
  - inversion H2 as [| | | | | |? ? ? ds' Hin']; subst. rewrite (base_once _ _ _ _ Hin Hin'). reflexivity.
Qed.

(** The class an entry of an MRO stands for *)
Definition shows (x : type) (c : N) (gs : list type) : Prop :=
  match x with Class d ds => d = c /\ ds = gs | Literal l => class_of_literal p l = c /\ gs = [] | _ => False end.

Lemma behind_class : forall t x, ordinary 0 t -> In x (behind p t) -> exists d ds, x = Class d ds /\ instance_of p t d ds.
Proof.
  assert (G : forall c gs x, In x (map (substitute gs) (bases p c)) -> exists d ds, x = Class d (map (substitute gs) ds) /\ In (Class d ds) (bases p c)).
  { intros c gs x H. apply in_map_iff in H. destruct H as (b & <- & Hb). destruct (bases_ordinary p Hp c b Hb) as [(d & ds & ->) _]. exists d, ds. split; [reflexivity|exact Hb]. }
  intros t x Ht H. destruct t as [| | |c gs| |l| |a| | |e|e m| | |]; cbn [behind] in H; try (destruct H; fail); try (destruct Ht; fail).
  - apply G in H. destruct H as (d & ds & -> & Hb). exists d, (map (substitute gs) ds). split; [reflexivity|exact (i_base _ _ _ _ _ Hb)].
  - rewrite fallback_class in H. destruct H as [<-|H]; [exists (class_of_literal p l), []; split; [reflexivity|constructor]|]. apply G in H. destruct H as (d & ds & -> & Hb). exists d, (map (substitute []) ds). split; [reflexivity|exact (i_literal_base _ _ _ _ Hb)].
  - apply G in H. destruct H as (d & ds & -> & Hb). exists d, (map (substitute [entries p a]) ds). split; [reflexivity|exact (i_tuple _ _ _ _ Hb)].
  - apply G in H. destruct H as (d & ds & -> & Hb). exists d, (map (substitute []) ds). split; [reflexivity|exact (i_enum _ _ _ _ Hb)].
  - apply G in H. destruct H as (d & ds & -> & Hb). exists d, (map (substitute []) ds). split; [reflexivity|exact (i_member _ _ _ _ _ Hb)].
Qed.

Lemma mro_cases : forall t x, ordinary 0 t -> In x (mro p t) -> x = t \/ (exists d ds, x = Class d ds /\ instance_of p t d ds) \/ x = Class (object p) [].
Proof.
  intros t x Ht [H|H]; [left; auto|]. apply in_app_iff in H. destruct H as [H|[H|[]]]; [right; left; exact (behind_class _ _ Ht H)|right; right; auto].
Qed.

Lemma mro_shows : forall t x c gs, ordinary 0 t -> In x (mro p t) -> shows x c gs -> instance_of p t c gs \/ c = object p /\ gs = [].
Proof.
  intros t x c gs Ht Hin Hs. destruct (mro_cases _ _ Ht Hin) as [->|[(d & ds & -> & Hi)| ->]].
  - left. destruct t; try (destruct Hs; fail); destruct Hs as [<- ->]; constructor.
  - left. destruct Hs as [-> ->]. exact Hi.
  - right. destruct Hs as [<- <-]. auto.
Qed.

Lemma instance_shown : forall t c gs, instance_of p t c gs -> exists x, In x (mro p t) /\ shows x c gs.
Proof.
  intros t c gs H.
  assert (G : forall t u gs' d ds, behind p t = map (substitute gs') (bases p u) -> In (Class d ds) (bases p u) -> exists x, In x (mro p t) /\ shows x d (map (substitute gs') ds)).
  { intros t' u gs' d ds E Hin. exists (Class d (map (substitute gs') ds)). split; [|cbn; auto]. right. apply in_app_iff. left. rewrite E.
    exact (in_map (substitute gs') _ _ Hin). }
  destruct H as [c gs|c gs d ds Hin|l|l d ds Hin|a d ds Hin|e d ds Hin|e m d ds Hin].
  - exists (Class c gs). split; [left; reflexivity|cbn; auto].
  - exact (G (Class c gs) c gs d ds eq_refl Hin).
  - exists (Literal l). split; [left; reflexivity|cbn; auto].
  - exists (Class d (map (substitute []) ds)). split; [|cbn; auto]. right. apply in_app_iff. left. cbn [behind]. rewrite fallback_class. right. exact (in_map (substitute []) _ _ Hin).
  - exact (G (Tuple a) _ _ d ds eq_refl Hin).
  - exact (G (Enum e) _ _ d ds eq_refl Hin).
  - exact (G (EnumMember e m) _ _ d ds eq_refl Hin).
Qed.

(** ** The rules are reflexive and symmetric *)
Lemma sub_all_forall : forall t ts, sub_all p t ts <-> Forall (sub p t) ts.
Proof.
  intros t ts. split.
  - induction ts as [|u ts IH]; intros H; [constructor|]. inversion H; subst. constructor; auto.
  - intros H. induction H; constructor; auto.
Qed.

Lemma refl_lists : forall gs, Forall (fun t => ordinary 0 t -> sub p t t /\ same p t t) gs -> Forall (ordinary 0) gs ->
  sames p gs gs /\ subs p gs gs /\ forall vs, length gs = length vs -> related p vs gs gs.
Proof.
  intros gs H Ho. induction H as [|g gs Hg H IH]; [repeat split; try constructor; intros [|v vs] E; [constructor|discriminate E]|].
  inversion Ho as [|? ? Hg' Ho']; subst. destruct (IH Ho') as (h1 & h2 & h3). destruct (Hg Hg') as [hs he].
  split; [constructor; auto|]. split; [constructor; auto|]. intros [|v vs] E; [discriminate E|]. injection E as E. destruct v; constructor; auto.
Qed.

Lemma rules_refl : forall t, ordinary 0 t -> sub p t t /\ same p t t.
Proof.
  intros t. induction t using type_induction; intros Ho; try (destruct Ho; fail); try (split; constructor; fail).
  - apply ordinary_class in Ho. destruct Ho as [Hl Ho]. destruct (refl_lists _ H Ho) as (h1 & h2 & h3). split; [|constructor; exact h1].
    eapply s_class; [constructor|]. apply h3. exact Hl.
  - apply ordinary_fixed in Ho. destruct (refl_lists _ H Ho) as (h1 & h2 & h3). split; constructor; assumption.
  - destruct (IHt Ho) as [h1 h2]. split; constructor; assumption.
  - apply ordinary_union in Ho. destruct Ho as [_ Ho].
    assert (S1 : sub p (Union ts) (Union ts)).
    { apply s_union_given. apply sub_all_forall. rewrite Forall_forall in *. intros t Ht. eapply s_union_expected; [exact Ht|]. apply (H t Ht). exact (Ho t Ht). }
    split; [exact S1|]. apply e_union; [left; exact I|exact S1|exact S1].
  - cbn in Ho. lia.
Qed.

Lemma same_sym_all : (forall t1 t2, sub p t1 t2 -> True) /\ (forall t1 t2, same p t1 t2 -> same p t2 t1) /\ (forall vs l m, related p vs l m -> True) /\
  (forall l m, subs p l m -> True) /\ (forall l m, sames p l m -> sames p m l) /\ (forall t l, sub_all p t l -> True).
Proof.
  apply (rules_ind p (fun t1 t2 _ => True) (fun t1 t2 _ => same p t2 t1) (fun _ _ _ _ => True) (fun _ _ _ => True) (fun l m _ => sames p m l) (fun _ _ _ => True));
    intros; try exact I; try (constructor; assumption).
  apply e_union; [tauto|assumption|assumption].
Qed.

Lemma same_sym : forall t1 t2, same p t1 t2 -> same p t2 t1.
Proof. exact (proj1 (proj2 same_sym_all)). Qed.

(** ** Only what the rules allow is accepted *)
Definition allowed (q : question) : Prop :=
  match q with
  | Matches Covariant _ t1 t2 => ordinary 0 t1 -> ordinary 0 t2 -> sub p t1 t2
  | Matches Contravariant _ t1 t2 => ordinary 0 t1 -> ordinary 0 t2 -> sub p t2 t1
  | Matches Invariant _ t1 t2 => ordinary 0 t1 -> ordinary 0 t2 -> same p t1 t2
  | UnionSuper _ ts1 t2 => ordinary 0 (Union ts1) -> ordinary 0 t2 -> sub p (Union ts1) t2
  | ClassAgainst _ _ _ _ _ => True
  | Promotion _ t1 c2 => ordinary 0 t1 -> looks_at_mro t1 = true -> exists d, promoted p c2 d /\ t1 = Class d []
  end.

Section Allowed.
Variable ask : question -> answer.
Hypothesis Hask : forall q, ask q = Some Yes -> allowed q.

Lemma argument_allowed : forall v r t1 t2, generic_matches ask v r t1 t2 = Some Yes -> ordinary 0 t1 -> ordinary 0 t2 ->
  match v with Covariant => sub p t1 t2 | Contravariant => sub p t2 t1 | Invariant => same p t1 t2 end.
Proof.
  intros v r t1 t2 H H1 H2. unfold generic_matches in H. destruct r; apply Hask in H; destruct v; cbn in H; auto. apply same_sym. auto.
Qed.

Lemma arguments_allowed : forall r vs gs1 gs2, length gs1 = length vs -> length gs2 = length vs -> Forall (ordinary 0) gs1 -> Forall (ordinary 0) gs2 ->
  (each (argument_matches ask Covariant r) (zip3 gs1 gs2 vs) = Some Yes -> related p vs gs1 gs2) /\
  (each (argument_matches ask Invariant r) (zip3 gs1 gs2 vs) = Some Yes -> sames p gs1 gs2).
Proof.
  intros r vs. induction vs as [|v vs IH]; intros [|g1 gs1] [|g2 gs2] L1 L2 H1 H2; try discriminate; [split; constructor|].
  injection L1 as L1. injection L2 as L2. inversion H1 as [|? ? h1 H1']; subst. inversion H2 as [|? ? h2 H2']; subst. destruct (IH gs1 gs2 L1 L2 H1' H2') as [IHc IHi].
  cbn [zip3]. split; intros H.
  - pose proof (each_yes _ _ H) as HF. inversion HF as [|? ? Hx Hr]; subst. unfold argument_matches in Hx. cbn [fst snd variance_of_argument] in Hx.
    pose proof (argument_allowed _ _ _ _ Hx h1 h2) as Ha. cbn [each] in H. apply then_yes in H. destruct H as (m & _ & H). apply then_yes in H. destruct H as (n & Hn & H).
    injection H as H. apply and_yes in H. destruct H as [_ ->]. specialize (IHc Hn). destruct v; constructor; assumption.
  - pose proof (each_yes _ _ H) as HF. inversion HF as [|? ? Hx Hr]; subst. unfold argument_matches in Hx. cbn [fst snd variance_of_argument] in Hx.
    pose proof (argument_allowed _ _ _ _ Hx h1 h2) as Ha. cbn [each] in H. apply then_yes in H. destruct H as (m & _ & H). apply then_yes in H. destruct H as (n & Hn & H).
    injection H as H. apply and_yes in H. destruct H as [_ ->]. specialize (IHi Hn). constructor; assumption.
Qed.

Lemma class_allowed : forall v r c1 gs1 c2 gs2, matches_class p ask v r c1 gs1 c2 gs2 = Some Yes -> ordinary 0 (Class c1 gs1) -> ordinary 0 (Class c2 gs2) ->
  c1 = c2 /\ (v = Covariant -> related p (variances p c1) gs1 gs2) /\ (v = Invariant -> sames p gs1 gs2).
Proof.
  intros v r c1 gs1 c2 gs2 H H1 H2. unfold matches_class in H. destruct (N.eqb_spec c1 c2) as [->|Hne]; [|discriminate H]. cbn [negb] in H.
  apply ordinary_class in H1. apply ordinary_class in H2. destruct H1 as [L1 H1], H2 as [L2 H2]. split; [reflexivity|].
  destruct (arguments_allowed r (variances p c2) gs1 gs2 L1 L2 H1 H2) as [Ac Ai].
  destruct (variances p c2) as [|u vs] eqn:E.
  - destruct gs1; [|discriminate L1]. destruct gs2; [|discriminate L2]. split; constructor.
  - apply then_yes in H. destruct H as (m & Hm & H). injection H as H. apply similar_yes in H. subst m. split; intros ->; auto.
Qed.

Lemma bool_count : forall ts, NoDup (filter boolean ts) -> bool_literal_count ts = 2%nat -> In (Literal (LBool true)) ts /\ In (Literal (LBool false)) ts.
Proof.
  intros ts Hn Hc. unfold bool_literal_count in Hc. change (filter is_bool_literal ts) with (filter boolean ts) in Hc.
  assert (G : forall t, In t (filter boolean ts) -> In t ts /\ exists b, t = Literal (LBool b)).
  { intros t Ht. apply filter_In in Ht. destruct Ht as [Ht Hb]. split; [exact Ht|]. destruct t as [| | | | |l| | | | | | | | |]; try discriminate Hb. destruct l; try discriminate Hb. eexists. reflexivity. }
  destruct (filter boolean ts) as [|x [|y [|z l]]]; try discriminate Hc.
  destruct (G x (or_introl eq_refl)) as [Hx (b & ->)]. destruct (G y (or_intror (or_introl eq_refl))) as [Hy (b' & ->)].
  inversion Hn as [|? ? Hni _]; subst. destruct b, b'; auto; exfalso; apply Hni; left; reflexivity.
Qed.

Lemma bool_union : forall ts, bool_literal_count ts = length ts -> sub p (Class (bool_class p) []) (Union ts).
Proof.
  intros ts H. apply s_union_given. apply sub_all_forall. unfold bool_literal_count in H.
  assert (G : Forall (fun t => is_bool_literal t = true) ts).
  { clear - H. induction ts as [|t ts IH]; [constructor|]. cbn in H. pose proof (filter_length_le is_bool_literal ts). destruct (is_bool_literal t) eqn:E; cbn in H; [|lia].
    constructor; [exact E|]. apply IH. lia. }
  revert G. apply Forall_impl. intros t Ht. destruct t as [| | | | |l| | | | | | | | |]; try discriminate Ht. destruct l; try discriminate Ht.
  eapply s_class; [exact (i_literal p (LBool b))|]. pose proof (literals_plain p Hp (LBool b)) as Lb. cbn [class_of_literal] in Lb. rewrite Lb. constructor.
Qed.

Lemma union_allowed : forall r ts1 t2, union_is_super_type_of p ask r ts1 t2 = Some Yes -> ordinary 0 (Union ts1) -> ordinary 0 t2 -> sub p (Union ts1) t2.
Proof.
  intros r ts1 t2 H H1 H2. pose proof (ordinary_union _ _ H1) as [Hn H1'].
  assert (G : then_ (bound_matches p ask r ts1 t2) (fun m => if holds m then Some m else any (fun t1 => is_super_type_of ask r t1 t2) ts1) = Some Yes -> sub p (Union ts1) t2).
  { intros E. assert (Eb : bound_matches p ask r ts1 t2 = Some no) by (destruct t2; try reflexivity; cbn in H2; lia). rewrite Eb in E. cbn in E.
    destruct (any_yes _ _ Hn E) as (t & Ht & Hs). eapply s_union_expected; [exact Ht|]. apply (Hask _ Hs); [|exact H2]. rewrite Forall_forall in H1'. exact (H1' _ Ht). }
  destruct t2; try exact (G H); try (destruct H2; fail).
  - cbn [union_is_super_type_of] in H. destruct (N.eqb_spec c (bool_class p)) as [->|Hne]; cbn [andb] in H; [|exact (G H)].
    destruct (PeanoNat.Nat.eqb_spec (bool_literal_count ts1) 2) as [Hc|Hc]; [|exact (G H)]. destruct H1 as (_ & Hd & _). destruct (bool_count _ Hd Hc) as [Ht Hf]. apply s_bool; assumption.
  - cbn [union_is_super_type_of] in H. apply ordinary_union in H2. destruct H2 as [_ H2]. apply s_union_given. apply sub_all_forall.
    destruct (same_union p ts1 ts) eqn:Es.
    + pose proof (unions_equal p Hp _ _ Es) as Hi. rewrite Forall_forall in H1' |- *. intros u Hu. eapply s_union_expected; [exact (Hi u Hu)|]. apply rules_refl. exact (H1' u (Hi u Hu)).
    + apply all_yes in H. rewrite Forall_forall in *. intros u Hu. apply (Hask _ (H u Hu)); [exact H1|exact (H2 u Hu)].
Qed.

Lemma items_allowed : forall v r ts1 ts2, each (item_matches ask v r) (pairs ts1 ts2) = Some Yes -> length ts1 = length ts2 -> Forall (ordinary 0) ts1 -> Forall (ordinary 0) ts2 ->
  (v = Covariant -> subs p ts1 ts2) /\ (v = Invariant -> sames p ts1 ts2).
Proof.
  intros v r ts1 ts2 H. apply each_yes in H. revert ts2 H. induction ts1 as [|t1 ts1 IH]; intros [|t2 ts2] H L H1 H2; try discriminate L; [split; constructor|].
  injection L as L. cbn in H. inversion H as [|? ? Hx Hr]; subst. inversion H1 as [|? ? h1 H1']; subst. inversion H2 as [|? ? h2 H2']; subst.
  destruct (IH ts2 Hr L H1' H2') as [IHc IHi]. unfold item_matches in Hx. cbn [fst snd] in Hx. pose proof (Hask _ Hx) as Ha. split; intros ->; constructor; auto; apply Ha; assumption.
Qed.

Lemma tuple_allowed : forall r a1 a2, ordinary 0 (Tuple a1) -> ordinary 0 (Tuple a2) ->
  (match_tuple ask Covariant r a1 a2 = Some Yes -> sub p (Tuple a1) (Tuple a2)) /\ (match_tuple ask Invariant r a1 a2 = Some Yes -> same p (Tuple a1) (Tuple a2)).
Proof.
  intros r a1 a2 H1 H2. destruct a1 as [ts1|t1|[b1 u1 c1]]; [| |destruct u1; destruct H1]; (destruct a2 as [ts2|t2|[b2 u2 c2]]; [| |destruct u2; destruct H2]); cbn [match_tuple].
  - apply ordinary_fixed in H1. apply ordinary_fixed in H2. split; intros H; (destruct (PeanoNat.Nat.eqb_spec (length ts1) (length ts2)) as [L|L]; [|discriminate H]).
    + apply s_tuple. exact (proj1 (items_allowed _ _ _ _ H L H1 H2) eq_refl).
    + apply e_tuple. exact (proj2 (items_allowed _ _ _ _ H L H1 H2) eq_refl).
  - split; intros H; apply some_of_bool_yes in H; destruct t2; try discriminate H; constructor.
  - split; intros H.
    + apply all_yes in H. apply s_tuple_items. apply sub_all_forall. apply ordinary_fixed in H2. rewrite Forall_forall in *. intros t Ht. apply (Hask _ (H t Ht)); [exact H1|exact (H2 t Ht)].
    + apply some_of_bool_yes in H. destruct t1; try discriminate H. constructor.
  - split; intros H; apply Hask in H; [apply s_tuples|apply e_tuples]; apply H; assumption.
Qed.

Lemma against_allowed : forall r c1 gs1 x t2, ordinary 0 (Class c1 gs1) -> ordinary 0 t2 -> In x (mro p t2) ->
  matches_class_against_type p ask Covariant r c1 gs1 x = Some Yes -> sub p (Class c1 gs1) t2.
Proof.
  intros r c1 gs1 x t2 H1 H2 Hin H.
  assert (G : forall c gs, ordinary 0 (Class c gs) -> shows x c gs -> matches_class p ask Covariant r c1 gs1 c gs = Some Yes -> sub p (Class c1 gs1) t2).
  { intros c gs Hc Hs Hm. destruct (class_allowed _ _ _ _ _ _ Hm H1 Hc) as (-> & Hr & _). destruct (mro_shows _ _ _ _ H2 Hin Hs) as [Hi|[-> ->]].
    - eapply s_class; [exact Hi|exact (Hr eq_refl)].
    - apply ordinary_class in H1. destruct H1 as [L _]. rewrite (object_plain p Hp) in L. destruct gs1; [|discriminate L]. apply s_object. }
  destruct (mro_cases _ _ H2 Hin) as [->|[(d & ds & -> & Hi)| ->]].
  - destruct t2; try (destruct H2; fail); try discriminate H.
    + exact (G _ _ H2 (conj eq_refl eq_refl) H).
    + cbn [matches_class_against_type] in H. rewrite fallback_class in H. apply (G (class_of_literal p l) []); [|split; reflexivity|exact H].
      split; [rewrite (literals_plain p Hp); reflexivity|constructor].
    + cbn [matches_class_against_type] in H. apply some_of_bool_yes in H. apply andb_prop in H. destruct H as [H Hl]. apply andb_prop in H. destruct H as [Hb Hc].
      apply N.eqb_eq in Hb. apply PeanoNat.Nat.eqb_eq in Hc, Hl. subst c1. apply ordinary_class in H1. destruct H1 as [L _].
      pose proof (literals_plain p Hp (LBool true)) as Lb. cbn [class_of_literal] in Lb. rewrite Lb in L. destruct gs1; [|discriminate L]. apply bool_union. congruence.
  - exact (G _ _ (instance_ordinary _ _ _ H2 Hi) (conj eq_refl eq_refl) H).
  - assert (Ho : ordinary 0 (Class (object p) [])) by (split; [rewrite (object_plain p Hp); reflexivity|constructor]). exact (G _ _ Ho (conj eq_refl eq_refl) H).
Qed.

Lemma internal_allowed : forall r t1 t2, looks_at_mro t1 = false -> matches_internal p ask Covariant r t1 t2 = Some Yes -> ordinary 0 t1 -> ordinary 0 t2 -> sub p t1 t2.
Proof.
  intros r t1 t2 Hl H H1 H2. destruct t1; try discriminate Hl; try (destruct H1; fail); cbn [matches_internal] in H.
  - constructor.
  - apply some_of_bool_yes in H. destruct t2; try discriminate H. constructor.
  - apply some_of_bool_yes in H. destruct t2; try discriminate H. constructor.
  - apply some_of_bool_yes in H. destruct t2; try discriminate H. apply same_literal_eq in H. subst. constructor.
  - exact (union_allowed _ _ _ H H1 H2).
  - apply some_of_bool_yes in H. destruct t2; try discriminate H; apply N.eqb_eq in H; subst; constructor.
  - apply some_of_bool_yes in H. destruct t2; try discriminate H. apply andb_prop in H. destruct H as [He Hm]. apply N.eqb_eq in He, Hm. subst. constructor.
  - cbn in H1. lia.
Qed.

Lemma other_allowed : forall r t1 t2, check_other_side p ask Covariant r t1 t2 = Some Yes -> ordinary 0 t1 -> ordinary 0 t2 -> sub p t1 t2.
Proof.
  intros r t1 t2 H H1 H2. destruct t2; try discriminate H; try (destruct H2; fail); try constructor.
  - cbn [check_other_side] in H. destruct (is_union_like t1); [discriminate H|]. cbv zeta in H. apply all_yes in H. apply ordinary_union in H2. destruct H2 as [_ H2].
    apply sub_all_forall. rewrite Forall_forall in *. intros u Hu. apply (Hask _ (H u Hu)); [exact H1|exact (H2 u Hu)].
  - cbn in H2. lia.
Qed.

Lemma mro_allowed : forall r t1 l, match_mro p ask r t1 l = Some Yes -> exists x, In x l /\ matches_internal p ask Covariant r t1 x = Some Yes.
Proof.
  intros r t1 l. induction l as [|x l IH]; intros H; [discriminate H|]. cbn [match_mro] in H. apply then_yes in H. destruct H as (m & Hm & H).
  destruct (plain m).
  - destruct (IH H) as (y & Hy & E). exists y. split; [right; exact Hy|exact E].
  - injection H as ->. exists x. split; [left; reflexivity|exact Hm].
Qed.

Lemma promotion_allowed : forall r t1 t2, looks_at_mro t1 = true -> check_promotion p ask r t1 t2 = Some Yes -> ordinary 0 t1 -> sub p t1 t2.
Proof.
  intros r t1 t2 Hl H H1. destruct t2; try discriminate H; cbn [check_promotion] in H.
  - rewrite (nothing_incomplete p Hp) in H. cbn [andb] in H. destruct (Hask _ H H1 Hl) as (d & Hd & ->). eapply s_promotion; [constructor|exact Hd].
  - rewrite fallback_class in H. destruct (Hask _ H H1 Hl) as (d & Hd & ->). eapply s_promotion; [constructor|exact Hd].
  - destruct (Hask _ H H1 Hl) as (d & Hd & ->). eapply s_promotion; [constructor|exact Hd].
  - destruct (Hask _ H H1 Hl) as (d & Hd & ->). eapply s_promotion; [constructor|exact Hd].
Qed.

Lemma super_allowed : forall r t1 t2, super_type_of p ask r t1 t2 = Some Yes -> ordinary 0 t1 -> ordinary 0 t2 -> sub p t1 t2.
Proof.
  intros r t1 t2 H H1 H2. unfold super_type_of in H. destruct (looks_at_mro t1) eqn:El; cbn [negb] in H.
  - apply then_yes in H. destruct H as (m & Hm & H).
    assert (Hmro : m = Yes -> sub p t1 t2).
    { intros ->. apply mro_allowed in Hm. destruct Hm as (x & Hx & E). destruct t1; try discriminate El; try (destruct H1; fail); cbn [matches_internal] in E.
      - exact (against_allowed _ _ _ _ _ H1 H2 Hx E).
      - destruct x; try discriminate E. apply then_yes in E. destruct E as (n & En & E). injection E as E. apply similar_yes in E. subst n.
        destruct (mro_cases _ _ H2 Hx) as [<-|[(d & ds & E & _)|E]]; try discriminate E. exact (proj1 (tuple_allowed _ _ _ H1 H2) En). }
    destruct (plain m); [|injection H as H; exact (Hmro H)].
    apply or_else_yes in H. destruct H as [H|H]; [|exact (promotion_allowed _ _ _ El H H1)].
    apply or_else_yes in H. destruct H as [H|H]; [|exact (other_allowed _ _ _ H H1 H2)].
    apply or_else_yes in H. destruct H as [H|H]; [injection H as H; exact (Hmro H)|].
    unfold protocol_matches in H. destruct t1; try discriminate H. rewrite (no_protocols p Hp) in H. discriminate H.
  - apply then_yes in H. destruct H as (m & Hm & H). destruct (plain m).
    + apply or_else_yes in H. destruct H as [H|H]; [|exact (other_allowed _ _ _ H H1 H2)]. injection H as ->. exact (internal_allowed _ _ _ El Hm H1 H2).
    + injection H as ->. exact (internal_allowed _ _ _ El Hm H1 H2).
Qed.

Lemma same_allowed : forall r t1 t2, same_type p ask r t1 t2 = Some Yes -> ordinary 0 t1 -> ordinary 0 t2 -> same p t1 t2.
Proof.
  intros r t1 t2 H H1 H2. unfold same_type in H. apply or_else_yes in H. destruct H as [H|H].
  - destruct t1; try (destruct H1; fail); cbn [matches_internal] in H.
    + constructor.
    + apply some_of_bool_yes in H. destruct t2; try discriminate H. constructor.
    + apply some_of_bool_yes in H. destruct t2; try discriminate H. constructor.
    + destruct t2; try (destruct H2; fail); cbn [matches_class_against_type] in H; try discriminate H.
      * destruct (class_allowed _ _ _ _ _ _ H H1 H2) as (-> & _ & Hs). constructor. exact (Hs eq_refl).
      * apply some_of_bool_yes in H. apply andb_prop in H. destruct H as [H Hl]. apply andb_prop in H. destruct H as [Hb Hc].
        apply N.eqb_eq in Hb. apply PeanoNat.Nat.eqb_eq in Hc, Hl. subst c. apply ordinary_class in H1. destruct H1 as [L _].
        pose proof (literals_plain p Hp (LBool true)) as Lb. cbn [class_of_literal] in Lb. rewrite Lb in L. destruct gs; [|discriminate L].
        apply e_union; [right; exact I|apply bool_union; congruence|]. destruct H2 as (_ & Hd & _). destruct (bool_count _ Hd Hc). apply s_bool; assumption.
    + apply some_of_bool_yes in H. destruct t2; try discriminate H. apply same_literal_eq in H. subst. constructor.
    + destruct t2; try discriminate H. apply then_yes in H. destruct H as (m & Hm & H). injection H as H. apply similar_yes in H. subst m. exact (proj2 (tuple_allowed _ _ _ H1 H2) Hm).
    + cbn [union_internal] in H. apply both_yes in H. destruct H as [Ha Hb]. apply e_union; [left; exact I|exact (Hask _ Ha H1 H2)|exact (Hask _ Hb H1 H2)].
    + apply some_of_bool_yes in H. destruct t2; try discriminate H. apply N.eqb_eq in H. subst. constructor.
    + apply some_of_bool_yes in H. destruct t2; try discriminate H. apply andb_prop in H. destruct H as [He Hm]. apply N.eqb_eq in He, Hm. subst. constructor.
    + cbn in H1. lia.
  - destruct t2; try discriminate H; try (destruct H2; fail); try (constructor; fail); try (cbn in H2; lia).
    cbn [check_other_side] in H. destruct (is_union_like t1); [discriminate H|]. cbv zeta in H. apply both_yes in H. destruct H as [Ha Hb].
    apply e_union; [right; exact I| |exact (Hask _ Hb H1 H2)]. apply all_yes in Ha. apply ordinary_union in H2. destruct H2 as [_ H2].
    apply s_union_given. apply sub_all_forall. rewrite Forall_forall in *. intros u Hu. apply (Hask _ (Ha u Hu)); [exact H1|exact (H2 u Hu)].
Qed.

Lemma respond_allowed : forall q, respond p ask q = Some Yes -> allowed q.
Proof.
  intros q H. destruct q as [v r t1 t2|r ts1 t2|v r c1 gs1 t2|r t1 c2]; cbn [respond allowed] in *.
  - destruct v; intros H1 H2; [exact (same_allowed _ _ _ H H1 H2)|exact (super_allowed _ _ _ H H1 H2)|exact (super_allowed _ _ _ H H2 H1)].
  - exact (union_allowed _ _ _ H).
  - exact I.
  - intros H1 Hl. unfold check_class_promotion in H. assert (Hn : t1 <> NoneType) by (intros ->; discriminate Hl).
    destruct (promote_to p c2) as [d|] eqn:Ed; [|destruct t1; discriminate H].
    assert (G : or_else (is_same_type ask r t1 (Class d [])) (fun _ => ask (Promotion r t1 d)) = Some Yes) by (destruct t1; try exact H; destruct (Hn eq_refl)). clear H.
    assert (Ho : ordinary 0 (Class d [])) by (split; [rewrite (promotions_plain p Hp _ _ Ed); reflexivity|constructor]).
    apply or_else_yes in G. destruct G as [G|G].
    + pose proof (Hask _ G H1 Ho) as Hs. exists d. split; [constructor; exact Ed|].
      destruct t1; try discriminate Hl; try (destruct H1; fail); inversion Hs as [| | | | | | |? ? ? Hg| | | | |? ? Hu]; subst; try (destruct Hu as [Hu|Hu]; destruct Hu).
      * inversion Hg. reflexivity.
    + destruct (Hask _ G H1 Hl) as (e & He & ->). exists e. split; [exact (pr_more _ _ _ _ Ed He)|reflexivity].
Qed.
End Allowed.

Theorem run_allowed : forall fuel q, run p fuel q = Some Yes -> allowed q.
Proof. intros fuel. induction fuel as [|fuel IH]; intros q H; [discriminate H|]. exact (respond_allowed _ IH q H). Qed.

(** ** What the rules allow is not rejected *)
Inductive part : type -> type -> Prop :=
| part_here t : part t t
| part_in ts t u : In t ts -> part t u -> part (Union ts) u.

Lemma part_trans : forall t u v, part t u -> part u v -> part t v.
Proof. intros t u v H. induction H as [t|ts t u Hin H IH]; intros Hv; [exact Hv|]. exact (part_in _ _ _ Hin (IH Hv)). Qed.

Lemma part_ordinary : forall t u, part t u -> ordinary 0 t -> ordinary 0 u.
Proof.
  intros t u H. induction H as [t|ts t u Hin H IH]; intros Ho; [exact Ho|]. apply IH. apply ordinary_union in Ho. destruct Ho as [_ Ho]. rewrite Forall_forall in Ho. auto.
Qed.

Definition accepted (t1 t2 : type) : Prop := forall fuel r, yes (run p fuel (Matches Covariant r t1 t2)).
Definition members_accept (t1 t2 : type) : Prop := forall ts fuel r, t1 = Union ts -> yes (run p fuel (UnionSuper r ts t2)).
Definition equal (t1 t2 : type) : Prop := forall fuel r, yes (run p fuel (Matches Invariant r t1 t2)) /\ yes (run p fuel (Matches Invariant r t2 t1)).

Lemma accepted_sub : forall t1 t2, accepted t2 t1 -> forall fuel r, yes (run p fuel (Matches Contravariant r t1 t2)).
Proof. intros t1 t2 H fuel r. destruct fuel as [|fuel]; [intros o E; discriminate E|]. exact (H (S fuel) (negb r)). Qed.

Lemma members_enough : forall ts t2, members_accept (Union ts) t2 -> accepted (Union ts) t2.
Proof.
  intros ts t2 H fuel r. destruct fuel as [|fuel]; [intros o E; discriminate E|]. cbn [run respond]. unfold super_type_of. cbn [looks_at_mro negb matches_internal union_internal].
  apply yes_then; [|apply yes_some]. exact (H ts (S fuel) r eq_refl).
Qed.

Lemma one_member : forall ts t u, In t ts -> ordinary 0 u -> (forall v, part u v -> accepted t v) -> members_accept (Union ts) u.
Proof.
  intros ts t u Hin Hu H ts' fuel r E. injection E as <-. revert u Hu H. induction fuel as [|fuel IH]; intros u Hu H; [intros o E; discriminate E|]. cbn [run respond].
  assert (G : bound_matches p (run p fuel) r ts u = Some no -> yes (then_ (bound_matches p (run p fuel) r ts u) (fun m => if holds m then Some m else any (fun t1 => is_super_type_of (run p fuel) r t1 u) ts))).
  { intros ->. cbn [then_ holds no]. apply (yes_any _ _ t Hin). apply (H u (part_here u)). }
  destruct u; try exact (G eq_refl); try (destruct Hu; fail).
  - cbn [union_is_super_type_of]. destruct ((c =? bool_class p) && _); [apply yes_some|exact (G eq_refl)].
  - cbn [union_is_super_type_of]. destruct (same_union p ts ts0); [apply yes_some|]. apply yes_all. rewrite Forall_forall. intros u Hin'. apply IH.
    + exact (part_ordinary _ _ (part_in _ _ _ Hin' (part_here u)) Hu).
    + intros v Hv. apply H. exact (part_in _ _ _ Hin' Hv).
  - cbn in Hu. lia.
Qed.

Lemma other_enough : forall fuel r t1 t2, ordinary 0 t1 -> match t1 with Union _ => False | _ => True end -> match t2 with Any | Never | Union _ => True | _ => False end ->
  yes (check_other_side p (run p fuel) Covariant r t1 t2) -> yes (super_type_of p (run p fuel) r t1 t2).
Proof.
  intros fuel r t1 t2 H1 Hu H2 O. unfold super_type_of.
  assert (O' : yes (or_else (Some no) (fun _ => check_other_side p (run p fuel) Covariant r t1 t2))) by (apply yes_or_right; exact O).
  destruct t1; cbn [looks_at_mro negb matches_internal]; try (destruct H1; fail); try (destruct Hu; fail); try apply yes_some;
    try (destruct t2; try (destruct H2; fail); solve [exact O'|intros o E; injection E as <-; reflexivity]).
  - assert (Hm : forall x, In x (mro p t2) -> matches_class_against_type p (run p fuel) Covariant r c gs x = Some Yes \/ matches_class_against_type p (run p fuel) Covariant r c gs x = Some no).
    { intros x Hx. assert (E : x = t2 \/ x = Class (object p) []) by (destruct t2; try (destruct H2; fail); destruct Hx as [Hx|[Hx|[]]]; auto). destruct E as [->| ->].
      - destruct t2; try (destruct H2; fail); cbn [matches_class_against_type]; auto. destruct (_ && _ && _); auto.
      - cbn [matches_class_against_type]. unfold matches_class. destruct (N.eqb_spec c (object p)) as [->|Hne]; cbn [negb]; auto. rewrite (object_plain p Hp). auto. }
    revert Hm. generalize (mro p t2) as l. induction l as [|x l IH]; intros Hm.
    + cbn [match_mro then_ plain no]. apply yes_or_left. apply yes_or_right. exact O.
    + cbn [match_mro matches_internal]. destruct (Hm x (or_introl eq_refl)) as [-> | ->]; cbn [then_ plain no]; [apply yes_some|]. apply IH. intros y Hy. apply Hm. right. exact Hy.
  - destruct t2; try (destruct H2; fail); cbn [match_mro mro behind app matches_internal then_ plain no]; apply yes_or_left; apply yes_or_right; exact O.
Qed.

Lemma any_accepted : forall t, ordinary 0 t -> accepted t Any /\ members_accept t Any.
Proof.
  intros t. induction t using type_induction; intros Ho; try (destruct Ho; fail);
    try (split; [intros fuel r; (destruct fuel as [|fuel]; [intros o E; discriminate E|]); apply other_enough; [exact Ho|exact I|exact I|apply yes_some]|intros ts' fuel r E; discriminate E]).
  pose proof (ordinary_union _ _ Ho) as [Hn Ho']. destruct ts as [|t ts]; [destruct (Hn eq_refl)|]. inversion H as [|? ? Ht _]; subst. inversion Ho' as [|? ? Hot _]; subst.
  assert (G : members_accept (Union (t :: ts)) Any).
  { apply (one_member _ t); [left; reflexivity|exact I|]. intros v Hv. inversion Hv; subst. exact (proj1 (Ht Hot)). }
  split; [exact (members_enough _ _ G)|exact G].
Qed.

Lemma bottom_accepted : forall t, ordinary 0 t -> accepted t Never /\ members_accept t Never.
Proof.
  intros t Ho. assert (G : forall t, accepted t Never) by (intros u fuel r; exact (never_accepted p (object_plain p Hp) fuel r u)). split; [apply G|].
  intros ts fuel r ->. apply ordinary_union in Ho. destruct Ho as [Hn _]. destruct ts as [|t ts]; [destruct (Hn eq_refl)|].
  refine (one_member (t :: ts) t Never (or_introl eq_refl) I _ _ fuel r eq_refl). intros v Hv. inversion Hv; subst. apply G.
Qed.

Lemma mro_enough : forall ask r t1 l, (forall x, In x l -> yes_or_plain (matches_internal p ask Covariant r t1 x)) ->
  (exists x, In x l /\ yes (matches_internal p ask Covariant r t1 x)) -> yes (match_mro p ask r t1 l).
Proof.
  intros ask r t1 l. induction l as [|y l IH]; intros Hp' (x & Hx & Hy); [destruct Hx|]. intros o E. cbn [match_mro] in E.
  destruct (matches_internal p ask Covariant r t1 y) as [m|] eqn:Em; [|discriminate E]. cbn in E.
  destruct (Hp' y (or_introl eq_refl) m Em) as [->|Hm]; [injection E as <-; reflexivity|]. rewrite Hm in E. revert o E. apply IH; [intros z Hz; apply Hp'; right; exact Hz|].
  destruct Hx as [<-|Hx]; [rewrite (Hy m Em) in Hm; discriminate Hm|]. exists x. auto.
Qed.

(** What an entry of an MRO answers *)
Lemma entry_answer : forall c gs1 t x, ordinary 0 t -> In x (mro p t) -> (forall ts, t <> Union ts) ->
  (forall ask r, matches_class_against_type p ask Covariant r c gs1 x = Some no) \/
  variances p c = [] /\ (forall ask r, matches_class_against_type p ask Covariant r c gs1 x = Some Yes) \/
  exists gs2, instance_of p t c gs2 /\ forall ask r, matches_class_against_type p ask Covariant r c gs1 x = matches_class p ask Covariant r c gs1 c gs2.
Proof.
  intros c gs1 t x Ho Hin Hu.
  assert (G : forall d ds, shows x d ds -> (forall ask r, matches_class_against_type p ask Covariant r c gs1 x = matches_class p ask Covariant r c gs1 d ds) ->
    (forall ask r, matches_class_against_type p ask Covariant r c gs1 x = Some no) \/
    variances p c = [] /\ (forall ask r, matches_class_against_type p ask Covariant r c gs1 x = Some Yes) \/
    exists gs2, instance_of p t c gs2 /\ forall ask r, matches_class_against_type p ask Covariant r c gs1 x = matches_class p ask Covariant r c gs1 c gs2).
  { intros d ds Hs HE. destruct (N.eqb_spec c d) as [<-|Hne].
    - destruct (mro_shows _ _ _ _ Ho Hin Hs) as [Hi|[-> ->]]; [right; right; exists ds; auto|]. right; left. split; [exact (object_plain p Hp)|].
      intros ask r. rewrite HE. unfold matches_class. rewrite N.eqb_refl, (object_plain p Hp). reflexivity.
    - left. intros ask r. rewrite HE. unfold matches_class. apply N.eqb_neq in Hne. rewrite Hne. reflexivity. }
  destruct (mro_cases _ _ Ho Hin) as [->|[(d & ds & -> & Hi)| ->]].
  - destruct t; try (destruct Ho; fail); try (left; reflexivity).
    + exact (G _ _ (conj eq_refl eq_refl) (fun _ _ => eq_refl)).
    + apply (G (class_of_literal p l) []); [split; reflexivity|]. intros ask r. cbn [matches_class_against_type]. rewrite fallback_class. reflexivity.
    + destruct (Hu _ eq_refl).
  - exact (G _ _ (conj eq_refl eq_refl) (fun _ _ => eq_refl)).
  - exact (G _ _ (conj eq_refl eq_refl) (fun _ _ => eq_refl)).
Qed.

Lemma instance_not_union : forall t c gs, instance_of p t c gs -> forall ts, t <> Union ts.
Proof. intros t c gs H ts ->. inversion H. Qed.

Lemma class_accepted : forall t c gs1 gs2, ordinary 0 t -> instance_of p t c gs2 ->
  (forall fuel r, Forall (fun x => yes (argument_matches (run p fuel) Covariant r x)) (zip3 gs1 gs2 (variances p c))) -> accepted (Class c gs1) t.
Proof.
  intros t c gs1 gs2 Ho Hi Ha fuel r. destruct fuel as [|fuel]; [intros o E; discriminate E|]. cbn [run respond]. unfold super_type_of. cbn [looks_at_mro negb].
  apply yes_then; [|apply yes_some].
  assert (Y : yes (matches_class p (run p fuel) Covariant r c gs1 c gs2)).
  { unfold matches_class. rewrite N.eqb_refl. cbn [negb]. specialize (Ha fuel r). destruct (variances p c); [apply yes_some|]. apply yes_then; [|apply yes_some]. apply yes_each. exact Ha. }
  apply mro_enough.
  - intros x Hx. cbn [matches_internal]. destruct (entry_answer c gs1 t x Ho Hx (instance_not_union _ _ _ Hi)) as [E|[[_ E]|(gs & Hi' & E)]]; rewrite E; [apply yp_no|apply (yp_bool true)|].
    rewrite (instance_once _ _ _ _ Hi' Hi). intros o Eo. left. exact (Y o Eo).
  - destruct (instance_shown _ _ _ Hi) as (x & Hx & Hs). exists x. split; [exact Hx|]. cbn [matches_internal].
    destruct x; try (destruct Hs; fail); destruct Hs as [<- Hs]; [subst gs2; exact Y|]. cbn [matches_class_against_type]. subst gs2. exact Y.
Qed.

Lemma promotion_accepted : forall c d, promoted p c d -> variances p d = [] -> forall fuel r, yes (run p fuel (Promotion r (Class d []) c)).
Proof.
  intros c d H Hv. induction H as [c d E|c d e E H IH]; intros fuel r; (destruct fuel as [|fuel]; [intros o Eo; discriminate Eo|]); cbn [run respond check_class_promotion]; rewrite E.
  - apply yes_or_left. cbn [is_same_type matches]. destruct fuel as [|fuel]; [intros o Eo; discriminate Eo|]. cbn [run respond]. unfold same_type. apply yes_or_left.
    cbn [matches_internal matches_class_against_type]. unfold matches_class. rewrite N.eqb_refl, Hv. apply yes_some.
  - apply yes_or_right. apply IH. exact Hv.
Qed.

Lemma promoted_plain : forall c d, promoted p c d -> variances p d = [].
Proof. intros c d H. induction H as [c d E|c d e E H IH]; [exact (promotions_plain p Hp _ _ E)|exact IH]. Qed.

Lemma promoted_accepted : forall c d t, ordinary 0 t -> own_class p t c -> promoted p c d -> accepted (Class d []) t.
Proof.
  intros c d t Ho Hc Hd fuel r. pose proof (promoted_plain _ _ Hd) as Hv. destruct fuel as [|fuel]; [intros o E; discriminate E|]. cbn [run respond]. unfold super_type_of. cbn [looks_at_mro negb].
  assert (Hu : forall ts, t <> Union ts) by (intros ts ->; inversion Hc).
  assert (Hm : forall l, incl l (mro p t) -> match_mro p (run p fuel) r (Class d []) l = Some Yes \/ match_mro p (run p fuel) r (Class d []) l = Some no).
  { intros l. induction l as [|x l IH]; intros Hl; [right; reflexivity|]. cbn [match_mro matches_internal].
    assert (E : matches_class_against_type p (run p fuel) Covariant r d [] x = Some Yes \/ matches_class_against_type p (run p fuel) Covariant r d [] x = Some no).
    { destruct (entry_answer d [] t x Ho (Hl x (or_introl eq_refl)) Hu) as [E|[[_ E]|(gs & _ & E)]]; rewrite E; auto. left. unfold matches_class. rewrite N.eqb_refl, Hv. reflexivity. }
    destruct E as [-> | ->]; cbn [then_ plain no]; [left; reflexivity|]. apply IH. intros y Hy. apply Hl. right. exact Hy. }
  destruct (Hm _ (incl_refl _)) as [-> | ->]; cbn [then_ plain no]; [apply yes_some|]. apply yes_or_right.
  pose proof (promotion_accepted c d Hd Hv) as Hp'. destruct Hc; cbn [check_promotion]; rewrite ?fallback_class; try apply Hp'. rewrite (nothing_incomplete p Hp). apply Hp'.
Qed.

Lemma bools_counted : forall ts, NoDup (filter boolean ts) -> In (Literal (LBool true)) ts -> In (Literal (LBool false)) ts -> bool_literal_count ts = 2%nat.
Proof.
  intros ts Hn Ht Hf. unfold bool_literal_count. change (filter is_bool_literal ts) with (filter boolean ts).
  assert (I1 : incl (filter boolean ts) [Literal (LBool true); Literal (LBool false)]).
  { intros t H. apply filter_In in H. destruct H as [_ H]. destruct t as [| | | | |l| | | | | | | | |]; try discriminate H. destruct l as [| b| |]; try discriminate H. destruct b; [left|right; left]; reflexivity. }
  assert (I2 : incl [Literal (LBool true); Literal (LBool false)] (filter boolean ts)).
  { intros t [<-|[<-|[]]]; apply filter_In; split; auto. }
  apply NoDup_incl_length in I1; [|exact Hn]. apply NoDup_incl_length in I2; [cbn in *; lia|]. constructor; [intros [E|[]]; discriminate E|]. constructor; [intros []|constructor].
Qed.

Lemma bool_accepted : forall ts gs, ordinary 0 (Union ts) -> In (Literal (LBool true)) ts -> In (Literal (LBool false)) ts -> members_accept (Union ts) (Class (bool_class p) gs).
Proof.
  intros ts gs Ho Ht Hf ts' fuel r E. injection E as <-. destruct fuel as [|fuel]; [intros o E; discriminate E|]. cbn [run respond union_is_super_type_of].
  destruct Ho as (_ & Hn & _). rewrite N.eqb_refl, (bools_counted _ Hn Ht Hf). apply yes_some.
Qed.

Definition answered (t1 t2 : type) : Prop := ordinary 0 t1 -> ordinary 0 t2 -> forall u, part t2 u -> accepted t1 u /\ members_accept t1 u.

Lemma not_rejected_all :
  (forall t1 t2, sub p t1 t2 -> answered t1 t2) /\
  (forall t1 t2, same p t1 t2 -> ordinary 0 t1 -> ordinary 0 t2 -> equal t1 t2) /\
  (forall vs l m, related p vs l m -> Forall (ordinary 0) l -> Forall (ordinary 0) m -> forall fuel r, Forall (fun x => yes (argument_matches (run p fuel) Covariant r x)) (zip3 l m vs)) /\
  (forall l m, subs p l m -> Forall (ordinary 0) l -> Forall (ordinary 0) m -> length l = length m /\ Forall (fun x => accepted (fst x) (snd x)) (combine l m)) /\
  (forall l m, sames p l m -> Forall (ordinary 0) l -> Forall (ordinary 0) m -> length l = length m /\ Forall2 equal l m) /\
  (forall t l, sub_all p t l -> ordinary 0 t -> Forall (ordinary 0) l -> Forall (fun t2 => forall u, part t2 u -> accepted t u /\ members_accept t u) l).
Proof.
  assert (Here : forall t1 t2, (forall ts, t2 <> Union ts) -> (ordinary 0 t1 -> ordinary 0 t2 -> accepted t1 t2 /\ members_accept t1 t2) -> answered t1 t2).
  { intros t1 t2 Hu H H1 H2 u Hp'. inversion Hp'; subst; [exact (H H1 H2)|]. destruct (Hu _ eq_refl). }
  assert (Single : forall t1 t2, (forall ts, t1 <> Union ts) -> accepted t1 t2 -> accepted t1 t2 /\ members_accept t1 t2).
  { intros t1 t2 Hu H. split; [exact H|]. intros ts fuel r E. destruct (Hu _ E). }
  assert (Items : forall fuel r l m, Forall2 equal l m -> Forall (fun x => yes (item_matches (run p fuel) Invariant r x)) (pairs l m) /\ Forall (fun x => yes (item_matches (run p fuel) Invariant r x)) (pairs m l)).
  { intros fuel r l m H. induction H as [|x y l m Hx H IH]; [split; constructor|]. destruct IH as [IH1 IH2]. destruct (Hx fuel r) as [h1 h2]. split; constructor; assumption. }
  assert (Arguments : forall fuel r l m, Forall2 equal l m -> forall vs, Forall (fun x => yes (argument_matches (run p fuel) Invariant r x)) (zip3 l m vs) /\ Forall (fun x => yes (argument_matches (run p fuel) Invariant r x)) (zip3 m l vs)).
  { intros fuel r l m H. induction H as [|x y l m Hx H IH]; intros [|v vs]; try (split; constructor; fail). cbn [zip3]. destruct (IH vs) as [IH1 IH2]. destruct (Hx fuel false) as [h1 h2].
    split; constructor; try assumption; unfold argument_matches, generic_matches; cbn [fst snd variance_of_argument invert]; destruct r; assumption. }
  assert (Left : forall t1 t2, (forall fuel r, yes (matches_internal p (run p fuel) Invariant r t1 t2)) -> (forall fuel r, yes (matches_internal p (run p fuel) Invariant r t2 t1)) -> equal t1 t2).
  { intros t1 t2 H1 H2 fuel r. destruct fuel as [|fuel]; [split; intros o E; discriminate E|]. split; cbn [run respond]; unfold same_type; apply yes_or_left; auto. }
  apply (rules_ind p (fun t1 t2 _ => answered t1 t2) (fun t1 t2 _ => ordinary 0 t1 -> ordinary 0 t2 -> equal t1 t2)
    (fun vs l m _ => Forall (ordinary 0) l -> Forall (ordinary 0) m -> forall fuel r, Forall (fun x => yes (argument_matches (run p fuel) Covariant r x)) (zip3 l m vs))
    (fun l m _ => Forall (ordinary 0) l -> Forall (ordinary 0) m -> length l = length m /\ Forall (fun x => accepted (fst x) (snd x)) (combine l m))
    (fun l m _ => Forall (ordinary 0) l -> Forall (ordinary 0) m -> length l = length m /\ Forall2 equal l m)
    (fun t l _ => ordinary 0 t -> Forall (ordinary 0) l -> Forall (fun t2 => forall u, part t2 u -> accepted t u /\ members_accept t u) l)).
  - intros t H1 H2 u _. apply Single; [discriminate|]. intros fuel r. destruct fuel as [|fuel]; [intros o E; discriminate E|]. apply yes_some.
  - intros t. apply Here; [discriminate|]. intros H1 _. exact (any_accepted t H1).
  - intros t. apply Here; [discriminate|]. intros H1 _. exact (bottom_accepted t H1).
  - apply Here; [discriminate|]. intros _ _. apply Single; [discriminate|]. intros fuel r. destruct fuel as [|fuel]; [intros o E; discriminate E|]. apply yes_some.
  - intros l. apply Here; [discriminate|]. intros _ _. apply Single; [discriminate|]. intros fuel r. exact (self_accepted_all p (Literal l) I fuel Covariant r).
  - intros e. apply Here; [discriminate|]. intros _ _. apply Single; [discriminate|]. intros fuel r. exact (self_accepted_all p (Enum e) I fuel Covariant r).
  - intros e m. apply Here; [discriminate|]. intros _ _. apply Single; [discriminate|]. intros fuel r. destruct fuel as [|fuel]; [intros o E; discriminate E|].
    cbn [run respond super_type_of looks_at_mro negb matches_internal]. rewrite N.eqb_refl. apply yes_some.
  - intros e m. apply Here; [discriminate|]. intros _ _. apply Single; [discriminate|]. intros fuel r. exact (self_accepted_all p (EnumMember e m) I fuel Covariant r).
  - intros t H1 H2 u _. apply Single; [discriminate|]. intros fuel r. exact (proj1 (object_accepts_all p (object_plain p Hp) fuel r) u).
  - intros c gs1 t gs2 Hi _ IH. apply Here; [exact (instance_not_union _ _ _ Hi)|]. intros H1 H2. apply Single; [discriminate|]. apply (class_accepted t c gs1 gs2 H2 Hi).
    intros fuel r. apply IH; [apply ordinary_class in H1; exact (proj2 H1)|]. pose proof (instance_ordinary _ _ _ H2 Hi) as H3. apply ordinary_class in H3. exact (proj2 H3).
  - intros c d t Hc Hd. apply Here; [intros ts ->; inversion Hc|]. intros H1 H2. apply Single; [discriminate|]. exact (promoted_accepted _ _ _ H2 Hc Hd).
  - intros ts1 ts2 _ IH. apply Here; [discriminate|]. intros H1 H2. apply Single; [discriminate|]. apply ordinary_fixed in H1. apply ordinary_fixed in H2. destruct (IH H1 H2) as [L F].
    intros fuel r. destruct fuel as [|fuel]; [intros o E; discriminate E|]. cbn [run respond]. unfold super_type_of. cbn [looks_at_mro negb mro match_mro matches_internal match_tuple].
    rewrite L, PeanoNat.Nat.eqb_refl. apply yes_then; [|apply yes_some]. apply yes_then; [|apply yes_some]. apply yes_then; [|apply yes_some]. apply yes_each. revert F. apply Forall_impl.
    intros x Hx. apply Hx.
  - intros t1 t2 _ IH. apply Here; [discriminate|]. intros H1 H2. apply Single; [discriminate|]. destruct (IH H1 H2 t2 (part_here t2)) as [A _].
    intros fuel r. destruct fuel as [|fuel]; [intros o E; discriminate E|]. cbn [run respond]. unfold super_type_of. cbn [looks_at_mro negb mro match_mro matches_internal match_tuple].
    apply yes_then; [|apply yes_some]. apply yes_then; [|apply yes_some]. apply yes_then; [|apply yes_some]. apply A.
  - intros t1 ts2 _ IH. apply Here; [discriminate|]. intros H1 H2. apply Single; [discriminate|]. apply ordinary_fixed in H2. pose proof (IH H1 H2) as F.
    intros fuel r. destruct fuel as [|fuel]; [intros o E; discriminate E|]. cbn [run respond]. unfold super_type_of. cbn [looks_at_mro negb mro match_mro matches_internal match_tuple].
    apply yes_then; [|apply yes_some]. apply yes_then; [|apply yes_some]. apply yes_then; [|apply yes_some]. apply yes_all. revert F. apply Forall_impl. intros t Ht.
    apply (proj1 (Ht t (part_here t))).
  - intros ts. apply Here; [discriminate|]. intros _ _. apply Single; [discriminate|]. intros fuel r. destruct fuel as [|fuel]; [intros o E; discriminate E|]. apply yes_some.
  - intros ts t1 t2 Hin _ IH H1 H2 u Hu. pose proof (ordinary_union _ _ H1) as [_ H1']. rewrite Forall_forall in H1'.
    assert (G : members_accept (Union ts) u).
    { apply (one_member ts t1 u Hin (part_ordinary _ _ Hu H2)). intros v Hv. exact (proj1 (IH (H1' _ Hin) H2 v (part_trans _ _ _ Hu Hv))). }
    split; [exact (members_enough _ _ G)|exact G].
  - intros t1 ts2 _ IH H1 H2 u Hu. pose proof (ordinary_union _ _ H2) as [_ H2']. specialize (IH H1 H2'). rewrite Forall_forall in IH.
    inversion Hu as [t E1 E2|us t v Hin Hv E1 E2]; subst; [|exact (IH t Hin u Hv)].
    assert (IHa : forall t, In t ts2 -> accepted t1 t) by (intros t Ht; exact (proj1 (IH t Ht t (part_here t)))).
    assert (IHm : forall t, In t ts2 -> members_accept t1 t) by (intros t Ht; exact (proj2 (IH t Ht t (part_here t)))).
    assert (M : members_accept t1 (Union ts2)).
    { intros ts fuel r ->. destruct fuel as [|fuel]; [intros o E; discriminate E|]. cbn [run respond union_is_super_type_of]. destruct (same_union p ts ts2); [apply yes_some|].
      apply yes_all. rewrite Forall_forall. intros t Ht. exact (IHm t Ht ts fuel r eq_refl). }
    split; [|exact M].
    assert (N : match t1 with Union _ => False | _ => True end -> accepted t1 (Union ts2)).
    { intros Hn fuel r. destruct fuel as [|fuel]; [intros o E; discriminate E|]. apply other_enough; [exact H1|exact Hn|exact I|]. cbn [check_other_side].
      destruct (is_union_like t1) eqn:E; [destruct t1; try discriminate E; [destruct Hn|destruct H1]|]. apply yes_all. rewrite Forall_forall. intros t Ht. apply (IHa t Ht). }
    destruct t1; try exact (N I). exact (members_enough _ _ M).
  - intros ts gs Ht Hf. apply Here; [discriminate|]. intros H1 _. pose proof (bool_accepted ts gs H1 Ht Hf) as G. split; [exact (members_enough _ _ G)|exact G].
  - intros t _ _ fuel r. destruct fuel as [|fuel]; [split; intros o E; discriminate E|]. split; [apply yes_some|]. cbn [run respond]. unfold same_type. apply yes_or_right. apply yes_some.
  - intros t _ _ fuel r. destruct fuel as [|fuel]; [split; intros o E; discriminate E|]. split; [|apply yes_some]. cbn [run respond]. unfold same_type. apply yes_or_right. apply yes_some.
  - intros _ _. apply Left; intros fuel r; apply yes_some.
  - intros _ _. apply Left; intros fuel r; apply yes_some.
  - intros l _ _ fuel r. pose proof (self_accepted_all p (Literal l) I fuel Invariant r). auto.
  - intros e _ _ fuel r. pose proof (self_accepted_all p (Enum e) I fuel Invariant r). auto.
  - intros e m _ _ fuel r. pose proof (self_accepted_all p (EnumMember e m) I fuel Invariant r). auto.
  - intros c gs1 gs2 _ IH H1 H2. apply ordinary_class in H1. apply ordinary_class in H2. destruct (IH (proj2 H1) (proj2 H2)) as [L F].
    apply Left; intros fuel r; cbn [matches_internal matches_class_against_type]; unfold matches_class; rewrite N.eqb_refl; cbn [negb]; destruct (Arguments fuel r _ _ F (variances p c)) as [A1 A2];
      (destruct (variances p c); [apply yes_some|]); (apply yes_then; [|apply yes_some]); apply yes_each; assumption.
  - intros ts1 ts2 _ IH H1 H2. apply ordinary_fixed in H1. apply ordinary_fixed in H2. destruct (IH H1 H2) as [L F].
    apply Left; intros fuel r; cbn [matches_internal match_tuple]; rewrite L, PeanoNat.Nat.eqb_refl; destruct (Items fuel r _ _ F) as [A1 A2]; (apply yes_then; [|apply yes_some]); apply yes_each; assumption.
  - intros t1 t2 _ IH H1 H2. pose proof (IH H1 H2) as F. apply Left; intros fuel r; cbn [matches_internal match_tuple]; (apply yes_then; [|apply yes_some]); apply F.
  - intros ts _ _. apply Left; intros fuel r; apply yes_some.
  - intros ts _ _. apply Left; intros fuel r; apply yes_some.
  - intros t1 t2 Hu _ IH1 _ IH2 H1 H2. pose proof (proj1 (IH1 H1 H2 t2 (part_here t2))) as A1. pose proof (proj1 (IH2 H2 H1 t1 (part_here t1))) as A2.
    assert (G : forall t1 t2, is_union t1 \/ is_union t2 -> ordinary 0 t1 -> (forall u, part t2 u -> accepted t1 u) -> accepted t2 t1 -> forall fuel r, yes (run p fuel (Matches Invariant r t1 t2))).
    { clear. intros t1 t2 Hu H1 A1 A2 fuel r. destruct fuel as [|fuel]; [intros o E; discriminate E|]. cbn [run respond]. unfold same_type.
      assert (L : is_union t1 -> yes (matches_internal p (run p fuel) Invariant r t1 t2)).
      { intros Hu1. destruct t1; try (destruct Hu1; fail). cbn [matches_internal union_internal]. apply yes_both; [apply (A1 t2 (part_here t2))|apply accepted_sub; exact A2]. }
      destruct (is_union_like t1) eqn:El.
      - apply yes_or_left. apply L. destruct t1; try discriminate El; [exact I|destruct H1].
      - destruct Hu as [Hu|Hu]; [apply yes_or_left; exact (L Hu)|]. destruct t2; try (destruct Hu; fail). apply yes_or_right. cbn [check_other_side]. rewrite El. cbv zeta. apply yes_both.
        + apply yes_all. rewrite Forall_forall. intros t Ht. apply (A1 t (part_in _ _ _ Ht (part_here t))).
        + apply accepted_sub. exact A2. }
    intros fuel r. split; apply G; try assumption; try tauto; intros u Hp'; [exact (proj1 (IH1 H1 H2 u Hp'))|exact (proj1 (IH2 H2 H1 u Hp'))].
  - intros _ _ fuel r. constructor.
  - intros vs t1 t2 ts1 ts2 _ IH1 _ IH2 H1 H2 fuel r. inversion H1 as [|? ? h1 H1']; subst. inversion H2 as [|? ? h2 H2']; subst. cbn [zip3]. constructor; [|apply IH2; assumption].
    unfold argument_matches, generic_matches. cbn [fst snd variance_of_argument invert]. pose proof (proj1 (IH1 h1 h2 t2 (part_here t2))) as A. destruct r; [apply accepted_sub; exact A|apply A].
  - intros vs t1 t2 ts1 ts2 _ IH1 _ IH2 H1 H2 fuel r. inversion H1 as [|? ? h1 H1']; subst. inversion H2 as [|? ? h2 H2']; subst. cbn [zip3]. constructor; [|apply IH2; assumption].
    unfold argument_matches, generic_matches. cbn [fst snd variance_of_argument invert]. pose proof (proj1 (IH1 h2 h1 t1 (part_here t1))) as A. destruct r; [apply A|apply accepted_sub; exact A].
  - intros vs t1 t2 ts1 ts2 _ IH1 _ IH2 H1 H2 fuel r. inversion H1 as [|? ? h1 H1']; subst. inversion H2 as [|? ? h2 H2']; subst. cbn [zip3]. constructor; [|apply IH2; assumption].
    unfold argument_matches, generic_matches. cbn [fst snd variance_of_argument invert]. destruct r; apply (IH1 h1 h2).
  - intros _ _. split; [reflexivity|constructor].
  - intros t1 t2 ts1 ts2 _ IH1 _ IH2 H1 H2. inversion H1 as [|? ? h1 H1']; subst. inversion H2 as [|? ? h2 H2']; subst. destruct (IH2 H1' H2') as [L F]. split; [cbn; rewrite L; reflexivity|].
    cbn [combine]. constructor; [exact (proj1 (IH1 h1 h2 t2 (part_here t2)))|exact F].
  - intros _ _. split; [reflexivity|constructor].
  - intros t1 t2 ts1 ts2 _ IH1 _ IH2 H1 H2. inversion H1 as [|? ? h1 H1']; subst. inversion H2 as [|? ? h2 H2']; subst. destruct (IH2 H1' H2') as [L F]. split; [cbn; rewrite L; reflexivity|].
    constructor; [exact (IH1 h1 h2)|exact F].
  - intros t _ _. constructor.
  - intros t1 t2 ts2 _ IH1 _ IH2 H1 H2. inversion H2 as [|? ? h2 H2']; subst. constructor; [exact (IH1 H1 h2)|exact (IH2 H1 H2')].
Qed.

Theorem run_complete : forall t1 t2 fuel r o, ordinary 0 t1 -> ordinary 0 t2 -> sub p t1 t2 -> run p fuel (Matches Covariant r t1 t2) = Some o -> o = Yes.
Proof. intros t1 t2 fuel r o H1 H2 H E. exact (proj1 (proj1 not_rejected_all t1 t2 H H1 H2 t2 (part_here t2)) fuel r o E). Qed.

(** ** Answers that come after enough steps *)
Definition ends (f : nat -> answer) : Prop := exists n, forall k, (n <= k)%nat -> f k <> None.

Lemma ends_some : forall f : nat -> outcome, ends (fun k => Some (f k)).
Proof. intros f. exists O. discriminate. Qed.

Lemma ends_then : forall f g, ends f -> (forall m, ends (fun k => g k m)) -> ends (fun k => then_ (f k) (g k)).
Proof.
  intros f g [n Hf] Hg. destruct (Hg Yes) as [n1 H1], (Hg (No true true)) as [n2 H2], (Hg (No true false)) as [n3 H3], (Hg (No false true)) as [n4 H4], (Hg (No false false)) as [n5 H5].
  exists (n + n1 + n2 + n3 + n4 + n5)%nat. intros k Hk. specialize (Hf k ltac:(lia)). destruct (f k) as [m|]; [|destruct (Hf eq_refl)]. cbn [then_].
  destruct m as [[] []|]; [apply H2|apply H3|apply H4|apply H5|apply H1]; lia.
Qed.

Lemma ends_if : forall (b : bool) f g, ends f -> ends g -> ends (fun k => if b then f k else g k).
Proof. intros [] f g Hf Hg; assumption. Qed.

Lemma ends_or : forall f g, ends f -> ends (fun k => g k tt) -> ends (fun k => or_else (f k) (g k)).
Proof.
  intros f g Hf Hg. unfold or_else. apply (ends_then f (fun k m => if holds m then Some m else then_ (g k tt) (fun n => Some (if holds n || plain m then n else m)))) in Hf.
  - exact Hf.
  - intros m. apply ends_if; [apply (ends_some (fun _ => m))|]. apply (ends_then (fun k => g k tt) (fun _ n => Some (if holds n || plain m then n else m))); [exact Hg|].
    intros n. apply (ends_some (fun _ => if holds n || plain m then n else m)).
Qed.

Lemma ends_both : forall f g, ends f -> ends g -> ends (fun k => both (f k) (g k)).
Proof.
  intros f g Hf Hg. apply (ends_then f (fun k m => then_ (g k) (fun n => Some (and m n))) Hf). intros m.
  apply (ends_then g (fun _ n => Some (and m n)) Hg). intros n. apply (ends_some (fun _ => and m n)).
Qed.

Lemma ends_each : forall {A} (f : nat -> A -> answer) l, Forall (fun x => ends (fun k => f k x)) l -> ends (fun k => each (f k) l).
Proof.
  intros A f l H. induction H as [|x l Hx H IH]; [apply (ends_some (fun _ => Yes))|]. exact (ends_both (fun k => f k x) (fun k => each (f k) l) Hx IH).
Qed.

Lemma ends_all : forall {A} (f : nat -> A -> answer) l, Forall (fun x => ends (fun k => f k x)) l -> ends (fun k => all (f k) l).
Proof.
  intros A f l H. induction H as [|x l Hx H IH]; [apply (ends_some (fun _ => Yes))|]. cbn [all].
  apply (ends_then (fun k => f k x) (fun k m => if holds m then all (f k) l else Some no) Hx). intros m. apply ends_if; [exact IH|apply (ends_some (fun _ => no))].
Qed.

Lemma ends_any : forall {A} (f : nat -> A -> answer) l, Forall (fun x => ends (fun k => f k x)) l -> ends (fun k => any (f k) l).
Proof.
  intros A f l H. unfold any. generalize Yes as r. induction H as [|x l Hx H IH]; intros r; [apply (ends_some (fun _ => r))|]. cbn [any_from].
  apply (ends_then (fun k => f k x) (fun k m => if holds m then Some m else any_from (f k) l (match r with No true _ => r | _ => m end)) Hx). intros m. apply ends_if; [apply (ends_some (fun _ => m))|apply IH].
Qed.

Lemma ends_run : forall q, ends (fun k => respond p (run p k) q) -> ends (fun k => run p k q).
Proof.
  intros q [n H]. exists (S n). intros k Hk. destruct k as [|k]; [lia|]. cbn [run]. apply H. lia.
Qed.

Section Ranked.
Variable weight : N -> nat.
Hypothesis Hr : ranked_program p weight.
Notation depth := (depth p weight).

Lemma depth_argument : forall vs ds i d v, nth_error ds i = Some d -> nth_error vs i = Some v -> (below v d <= deepest vs ds)%nat.
Proof.
  intros vs. induction vs as [|u vs IH]; intros ds i d v Hd Hv; [destruct i; discriminate Hv|]. destruct ds as [|e ds]; [destruct i; discriminate Hd|].
  destruct i as [|i]; cbn in Hd, Hv |- *; [injection Hd as ->; injection Hv as ->; lia|]. specialize (IH ds i d v Hd Hv). lia.
Qed.

Lemma list_max_in : forall l d, In d l -> (d <= list_max l)%nat.
Proof. intros l d. induction l as [|e l IH]; intros H; [destruct H|]. cbn. destruct H as [->|H]; [lia|]. specialize (IH H). unfold list_max in IH. lia. Qed.

Lemma depth_member : forall ts t, In t ts -> (depth t <= depth (Union ts))%nat.
Proof. intros ts t H. cbn [SubtypeRules.depth]. apply list_max_in. apply in_map. exact H. Qed.

Lemma depth_item : forall ts t, In t ts -> (depth t <= depth (Tuple (FixedLen ts)))%nat.
Proof. intros ts t H. cbn [SubtypeRules.depth]. pose proof (list_max_in (map depth ts) (depth t) (in_map depth _ _ H)). lia. Qed.

Lemma depth_instance : forall t c gs, ordinary 0 t -> instance_of p t c gs -> (depth (Class c gs) <= depth t)%nat.
Proof.
  intros t c gs Ho H. destruct H as [c gs|c gs d ds Hin|l|l d ds Hin|a d ds Hin|e d ds Hin|e m d ds Hin].
  - lia.
  - exact (bases_ranked p weight Hr c gs _ Ho Hin).
  - cbn [SubtypeRules.depth map]. rewrite (literals_plain p Hp). cbn [deepest]. lia.
  - assert (Hc : ordinary 0 (Class (class_of_literal p l) [])) by (split; [rewrite (literals_plain p Hp); reflexivity|constructor]).
    pose proof (bases_ranked p weight Hr _ _ _ Hc Hin) as H. cbn [SubtypeRules.depth map] in H |- *. rewrite (literals_plain p Hp) in H. cbn [deepest] in H. cbn [substitute SubtypeRules.depth] in H. lia.
  - assert (Hc : ordinary 0 (Class (tuple_class p) [entries p a])).
    { split; [rewrite (tuple_generic p Hp); reflexivity|]. constructor; [exact (entries_ordinary p Hp a Ho)|constructor]. }
    pose proof (bases_ranked p weight Hr _ _ _ Hc Hin) as H. cbn [substitute] in H. refine (PeanoNat.Nat.le_trans _ _ _ H _). clear H.
    pose proof (entries_ranked p weight Hr a Ho) as He. change (depth (Class (tuple_class p) [entries p a])) with (Nat.max (weight (tuple_class p)) (deepest (variances p (tuple_class p)) [depth (entries p a)])). rewrite (tuple_covariant p weight Hr). cbn [deepest below].
    assert (Hw : (weight (tuple_class p) <= depth (Tuple a))%nat) by (destruct a as [ts|t|[b [n|t] a]]; try (destruct Ho; fail); cbn [SubtypeRules.depth]; lia). lia.
  - assert (Hc : ordinary 0 (Class (enum_class p e) [])) by (split; [rewrite (enums_plain p Hp); reflexivity|constructor]).
    pose proof (bases_ranked p weight Hr _ _ _ Hc Hin) as H. cbn [SubtypeRules.depth map] in H |- *. rewrite (enums_plain p Hp) in H. cbn [deepest] in H. cbn [substitute SubtypeRules.depth] in H. lia.
  - assert (Hc : ordinary 0 (Class (enum_class p e) [])) by (split; [rewrite (enums_plain p Hp); reflexivity|constructor]).
    pose proof (bases_ranked p weight Hr _ _ _ Hc Hin) as H. cbn [SubtypeRules.depth map] in H |- *. rewrite (enums_plain p Hp) in H. cbn [deepest] in H. cbn [substitute SubtypeRules.depth] in H. lia.
Qed.

Definition super_ends (t1 t2 : type) : Prop :=
  (forall r, ends (fun k => run p k (Matches Covariant r t1 t2))) /\ (forall ts r, t1 = Union ts -> ends (fun k => run p k (UnionSuper r ts t2))).
Definition same_ends (t1 t2 : type) : Prop := forall r, ends (fun k => run p k (Matches Invariant r t1 t2)).

Lemma sub_ends : forall t1 t2 r, super_ends t2 t1 -> ends (fun k => run p k (Matches Contravariant r t1 t2)).
Proof.
  intros t1 t2 r [H _]. destruct (H (negb r)) as [n Hn]. exists n. intros k Hk. specialize (Hn k Hk). destruct k as [|k]; exact Hn.
Qed.

Lemma zip3_in : forall {A B C} (l : list A) (m : list B) (n : list C) x, In x (zip3 l m n) ->
  exists i, nth_error l i = Some (fst (fst x)) /\ nth_error m i = Some (snd (fst x)) /\ nth_error n i = Some (snd x).
Proof.
  intros A B C l. induction l as [|a l IH]; intros [|b m] [|c n] x H; try destruct H as [].
  - subst x. exists O. auto.
  - destruct (IH m n x H) as (i & Hi). exists (S i). exact Hi.
Qed.

Lemma promotion_ends : forall t1 r c, looks_at_mro t1 = true -> ordinary 0 t1 -> ends (fun k => run p k (Promotion r t1 c)).
Proof.
  intros t1 r c Hl Ho. destruct (promotions_end p weight Hr) as [rank Hrank].
  remember (rank c) as n eqn:E. assert (L : (rank c <= n)%nat) by lia. clear E. revert c L. induction n as [n IH] using (well_founded_induction PeanoNat.Nat.lt_wf_0); intros c L.
  apply ends_run. cbn [respond]. unfold check_class_promotion.
  assert (G : ends (fun k => match promote_to p c with Some d => or_else (is_same_type (run p k) r t1 (Class d [])) (fun _ => run p k (Promotion r t1 d)) | None => Some no end)).
  { destruct (promote_to p c) as [d|] eqn:Ed; [|apply (ends_some (fun _ => no))]. apply (ends_or (fun k => is_same_type (run p k) r t1 (Class d [])) (fun k _ => run p k (Promotion r t1 d))).
    - apply ends_run. cbn [respond]. unfold same_type. apply (ends_or (fun k => matches_internal p (run p k) Invariant r t1 (Class d [])) (fun k _ => check_other_side p (run p k) Invariant r t1 (Class d []))).
      + destruct t1; try discriminate Hl; try (destruct Ho; fail); [|apply (ends_some (fun _ => no))]. cbn [matches_internal matches_class_against_type]. unfold matches_class.
        destruct (N.eqb_spec c0 d) as [->|Hne]; [|apply (ends_some (fun _ => no))]. rewrite (promotions_plain p Hp _ _ Ed). apply (ends_some (fun _ => Yes)).
      + apply (ends_some (fun _ => no)).
    - specialize (Hrank _ _ Ed). apply (IH (rank d)); lia. }
  destruct t1; try discriminate Hl; exact G.
Qed.

Section Below.
Variable bound : nat.
Hypothesis less_super : forall t1 t2, ordinary 0 t1 -> ordinary 0 t2 -> (depth t1 + depth t2 < bound)%nat -> super_ends t1 t2.
Hypothesis less_same : forall t1 t2, ordinary 0 t1 -> ordinary 0 t2 -> (depth t1 + depth t2 < bound)%nat -> same_ends t1 t2.

Lemma class_ends : forall r c gs1 gs2,
  Forall (fun t1 => ordinary 0 t1 -> forall t2, ordinary 0 t2 -> (depth t1 + depth t2 <= bound)%nat -> super_ends t1 t2) gs1 ->
  ordinary 0 (Class c gs1) -> ordinary 0 (Class c gs2) -> (depth (Class c gs1) + depth (Class c gs2) <= bound)%nat -> ends (fun k => matches_class p (run p k) Covariant r c gs1 c gs2).
Proof.
  intros r c gs1 gs2 IH H1 H2 Hb. unfold matches_class. rewrite N.eqb_refl. cbn [negb]. apply ordinary_class in H1. apply ordinary_class in H2. destruct H1 as [_ H1], H2 as [_ H2].
  assert (A : ends (fun k => each (argument_matches (run p k) Covariant r) (zip3 gs1 gs2 (variances p c)))).
  { apply (ends_each (fun k => argument_matches (run p k) Covariant r)). rewrite Forall_forall. intros [[g1 g2] v] Hin. apply zip3_in in Hin. cbn [fst snd] in Hin. destruct Hin as (i & h1 & h2 & hv).
    unfold argument_matches, generic_matches. cbn [fst snd variance_of_argument].
    pose proof (depth_argument _ _ _ _ _ (map_nth_error depth i gs1 h1) hv) as D1. pose proof (depth_argument _ _ _ _ _ (map_nth_error depth i gs2 h2) hv) as D2.
    cbn [SubtypeRules.depth] in Hb. apply nth_error_In in h1, h2. rewrite Forall_forall in IH, H1, H2. pose proof (H1 _ h1) as O1. pose proof (H2 _ h2) as O2.
    destruct v; cbn [below invert] in *.
    - destruct r; [apply less_same|apply less_same]; try assumption; lia.
    - assert (Es : super_ends g1 g2) by (apply (IH _ h1 O1 _ O2); lia). destruct r; [exact (sub_ends _ _ _ Es)|apply (proj1 Es)].
    - assert (Es : super_ends g2 g1) by (apply less_super; try assumption; lia). destruct r; [apply (proj1 Es)|exact (sub_ends _ _ _ Es)]. }
  destruct (variances p c); [apply (ends_some (fun _ => Yes))|]. apply (ends_then _ (fun _ m => Some (similar_if_false m)) A). intros m. apply (ends_some (fun _ => similar_if_false m)).
Qed.

Lemma super_finished : forall t1, ordinary 0 t1 -> forall t2, ordinary 0 t2 -> (depth t1 + depth t2 <= bound)%nat -> super_ends t1 t2.
Proof.
  assert (Other : forall t1, ordinary 0 t1 -> match t1 with Union _ => False | _ => True end ->
    (forall t2 r, ordinary 0 t2 -> (depth t1 + depth t2 <= bound)%nat -> ends (fun k => check_other_side p (run p k) Covariant r t1 t2) -> ends (fun k => super_type_of p (run p k) r t1 t2)) ->
    forall t2, ordinary 0 t2 -> (depth t1 + depth t2 <= bound)%nat -> super_ends t1 t2).
  { intros t1 H1 Hn Hs t2. induction t2 using type_induction; intros H2 Hb; (split; [|intros us r' ->; destruct Hn]); intros r; apply ends_run; cbn [respond]; apply (Hs _ r H2 Hb); try (destruct H2; fail);
      try (apply (ends_some (fun _ => no))); try (apply (ends_some (fun _ => Yes))).
    - cbn [check_other_side]. destruct (is_union_like t1); [apply (ends_some (fun _ => no))|]. apply (ends_all (fun k => is_super_type_of (run p k) r t1)).
      apply ordinary_union in H2. destruct H2 as [_ H2]. rewrite Forall_forall in *. intros u Hu. pose proof (depth_member _ _ Hu). apply (H u Hu (H2 u Hu)). lia.
    - cbn in H2. lia. }
  assert (Flat : forall t1, ordinary 0 t1 -> match t1 with Union _ => False | _ => True end -> looks_at_mro t1 = false -> (forall t2 r, ends (fun k => matches_internal p (run p k) Covariant r t1 t2)) ->
    forall t2, ordinary 0 t2 -> (depth t1 + depth t2 <= bound)%nat -> super_ends t1 t2).
  { intros t1 H1 Hn Hl Hi. apply Other; [exact H1|exact Hn|]. intros t2 r H2 Hb Ho. unfold super_type_of. rewrite Hl. cbn [negb].
    apply (ends_then (fun k => matches_internal p (run p k) Covariant r t1 t2) (fun k m => if plain m then or_else (Some m) (fun _ => check_other_side p (run p k) Covariant r t1 t2) else Some m) (Hi t2 r)).
    intros m. apply ends_if; [|apply (ends_some (fun _ => m))]. apply (ends_or (fun _ => Some m) (fun k _ => check_other_side p (run p k) Covariant r t1 t2)); [apply (ends_some (fun _ => m))|exact Ho]. }
  assert (Mro : forall t1, ordinary 0 t1 -> match t1 with Union _ => False | _ => True end -> looks_at_mro t1 = true ->
    (forall t2 r x, ordinary 0 t2 -> (depth t1 + depth t2 <= bound)%nat -> In x (mro p t2) -> ends (fun k => matches_internal p (run p k) Covariant r t1 x)) ->
    forall t2, ordinary 0 t2 -> (depth t1 + depth t2 <= bound)%nat -> super_ends t1 t2).
  { intros t1 H1 Hn Hl Hi. apply Other; [exact H1|exact Hn|]. intros t2 r H2 Hb Ho. unfold super_type_of. rewrite Hl. cbn [negb].
    apply (ends_then (fun k => match_mro p (run p k) r t1 (mro p t2)) (fun k m => if plain m then or_else (or_else (or_else (Some m) (fun _ => protocol_matches p t1 t2))
      (fun _ => check_other_side p (run p k) Covariant r t1 t2)) (fun _ => check_promotion p (run p k) r t1 t2) else Some m)).
    - assert (G : forall l, incl l (mro p t2) -> ends (fun k => match_mro p (run p k) r t1 l)).
      { intros l. induction l as [|x l IH]; intros Hl'; [apply (ends_some (fun _ => no))|]. cbn [match_mro].
        apply (ends_then (fun k => matches_internal p (run p k) Covariant r t1 x) (fun k m => if plain m then match_mro p (run p k) r t1 l else Some m)).
        - apply (Hi t2 r x H2 Hb). apply Hl'. left. reflexivity.
        - intros m. apply ends_if; [|apply (ends_some (fun _ => m))]. apply IH. intros y Hy. apply Hl'. right. exact Hy. }
      apply G. apply incl_refl.
    - intros m. apply ends_if; [|apply (ends_some (fun _ => m))].
      apply (ends_or (fun k => or_else (or_else (Some m) (fun _ => protocol_matches p t1 t2)) (fun _ => check_other_side p (run p k) Covariant r t1 t2)) (fun k _ => check_promotion p (run p k) r t1 t2)).
      + apply (ends_or (fun _ => or_else (Some m) (fun _ => protocol_matches p t1 t2)) (fun k _ => check_other_side p (run p k) Covariant r t1 t2)); [|exact Ho].
        apply (ends_or (fun _ => Some m) (fun _ _ => protocol_matches p t1 t2)); [apply (ends_some (fun _ => m))|]. exists O. intros k _. unfold protocol_matches. destruct t1; try discriminate.
        rewrite (no_protocols p Hp). discriminate.
      + destruct t2; cbn [check_promotion]; try (apply (ends_some (fun _ => no))); try (apply promotion_ends; assumption).
        rewrite (nothing_incomplete p Hp). cbn [andb]. apply promotion_ends; assumption. }
  intros t1. induction t1 using type_induction; intros Ho; try (destruct Ho; fail);
    try (apply Flat; [exact Ho|exact I|reflexivity|intros t2 r; cbn [matches_internal]; apply (ends_some (fun _ => _))]).
  - apply Mro; [exact Ho|exact I|reflexivity|]. intros t2 r x H2 Hb Hx. cbn [matches_internal].
    destruct (match t2 with Union ts => Some ts | _ => None end) as [ts|] eqn:Eu.
    { destruct t2; try discriminate Eu. destruct Hx as [<-|[<-|[]]]; cbn [matches_class_against_type]; [apply (ends_some (fun _ => _))|]. unfold matches_class.
      destruct (N.eqb_spec c (object p)) as [->|Hne]; [|apply (ends_some (fun _ => no))]. rewrite (object_plain p Hp). apply (ends_some (fun _ => Yes)). }
    assert (Hu : forall ts, t2 <> Union ts) by (intros ts ->; discriminate Eu). clear Eu.
    destruct (entry_answer c gs t2 x H2 Hx Hu) as [E|[[_ E]|(gs2 & Hi & E)]].
    + exists O. intros k _. rewrite E. discriminate.
    + exists O. intros k _. rewrite E. discriminate.
    + assert (G : ends (fun k => matches_class p (run p k) Covariant r c gs c gs2)).
      { apply class_ends; [exact H|exact Ho|exact (instance_ordinary _ _ _ H2 Hi)|]. pose proof (depth_instance _ _ _ H2 Hi). lia. }
      destruct G as [n Hn]. exists n. intros k Hk. rewrite E. exact (Hn k Hk).
  - apply Mro; [exact Ho|exact I|reflexivity|]. intros t2 r x H2 Hb Hx. cbn [matches_internal]. destruct x as [| | | | | | |a2| | | | | | |]; try (apply (ends_some (fun _ => no))).
    destruct (mro_cases _ _ H2 Hx) as [<-|[(d & ds & E & _)|E]]; try discriminate E.
    apply (ends_then (fun k => match_tuple (run p k) Covariant r (FixedLen ts) a2) (fun _ m => Some (similar_if_false m))); [|intros m; apply (ends_some (fun _ => similar_if_false m))].
    destruct a2 as [ts2|t2|[b2 u2 c2]]; [|apply (ends_some (fun _ => _))|destruct u2; destruct H2]. cbn [match_tuple].
    apply ends_if; [|apply (ends_some (fun _ => no))]. apply (ends_each (fun k => item_matches (run p k) Covariant r)). apply ordinary_fixed in H2. apply ordinary_fixed in Ho.
    rewrite Forall_forall in *. intros [u1 u2] Hu. pose proof (in_combine_l _ _ _ _ Hu) as I1. pose proof (in_combine_r _ _ _ _ Hu) as I2. unfold item_matches. cbn [fst snd].
    pose proof (depth_item _ _ I1). pose proof (depth_item _ _ I2). apply (H u1 I1 (Ho _ I1) u2 (H2 _ I2)). lia.
  - apply Mro; [exact Ho|exact I|reflexivity|]. intros t2 r x H2 Hb Hx. cbn [matches_internal]. destruct x as [| | | | | | |a2| | | | | | |]; try (apply (ends_some (fun _ => no))).
    destruct (mro_cases _ _ H2 Hx) as [<-|[(d & ds & E & _)|E]]; try discriminate E.
    apply (ends_then (fun k => match_tuple (run p k) Covariant r (ArbitraryLen t1) a2) (fun _ m => Some (similar_if_false m))); [|intros m; apply (ends_some (fun _ => similar_if_false m))].
    destruct a2 as [ts2|t2|[b2 u2 c2]]; [| |destruct u2; destruct H2]; cbn [match_tuple].
    + apply (ends_all (fun k => matches (run p k) Covariant r t1)). apply ordinary_fixed in H2. rewrite Forall_forall in *. intros u Hu. pose proof (depth_item _ _ Hu). apply (IHt1 Ho u (H2 _ Hu)).
      cbn [SubtypeRules.depth] in Hb |- *. cbn [SubtypeRules.depth] in H. lia.
    + apply (IHt1 Ho t2 H2). cbn [SubtypeRules.depth] in Hb. lia.
  - pose proof (ordinary_union _ _ Ho) as [_ Ho']. intros t2 H2 Hb.
    assert (G : forall t2, ordinary 0 t2 -> (depth (Union ts) + depth t2 <= bound)%nat -> forall r, ends (fun k => run p k (UnionSuper r ts t2))).
    { clear t2 H2 Hb. intros t2. induction t2 using type_induction; intros H2 Hb r; apply ends_run; cbn [respond]; try (destruct H2; fail);
        match goal with |- ends (fun k => union_is_super_type_of p (run p k) r ts ?u) =>
          assert (A : ends (fun k => any (fun t1 => is_super_type_of (run p k) r t1 u) ts))
            by (apply (ends_any (fun k t1 => is_super_type_of (run p k) r t1 u)); rewrite Forall_forall in H, Ho' |- *; intros t1 Ht1; pose proof (depth_member _ _ Ht1); apply (H t1 Ht1 (Ho' _ Ht1) u H2); lia) end;
        try exact A.
      - cbn [union_is_super_type_of]. apply ends_if; [apply (ends_some (fun _ => Yes))|exact A].
      - cbn [union_is_super_type_of]. apply ends_if; [apply (ends_some (fun _ => Yes))|]. apply (ends_all (fun k t => run p k (UnionSuper r ts t))). apply ordinary_union in H2. destruct H2 as [_ H2].
        rewrite Forall_forall in *. intros u Hu. pose proof (depth_member _ _ Hu). apply (H0 u Hu (H2 _ Hu)). lia.
      - cbn in H2. lia. }
    split; [|intros us r E; injection E as <-; exact (G t2 H2 Hb r)]. intros r. apply ends_run. cbn [respond]. unfold super_type_of. cbn [looks_at_mro negb matches_internal union_internal].
    assert (U : ends (fun k => union_is_super_type_of p (run p k) r ts t2)).
    { destruct (G t2 H2 Hb r) as [n Hn]. exists n. intros k Hk. exact (Hn (S k) ltac:(lia)). }
    apply (ends_then _ (fun k m => if plain m then or_else (Some m) (fun _ => check_other_side p (run p k) Covariant r (Union ts) t2) else Some m) U). intros m.
    apply ends_if; [|apply (ends_some (fun _ => m))]. apply (ends_or (fun _ => Some m) (fun k _ => check_other_side p (run p k) Covariant r (Union ts) t2)); [apply (ends_some (fun _ => m))|].
    destruct t2; try (destruct H2; fail); try (apply (ends_some (fun _ => _))). cbn in H2. lia.
Qed.

Definition kids (t : type) : list type :=
  match t with Class _ gs => gs | Tuple (FixedLen ts) => ts | Tuple (ArbitraryLen t) => [t] | _ => [] end.

Definition kids_end (t1 t2 : type) : Prop :=
  forall u1 u2, In u1 (kids t1) -> In u2 (kids t2) -> ordinary 0 u1 -> ordinary 0 u2 -> (depth u1 + depth u2 <= bound)%nat -> same_ends u1 u2 /\ same_ends u2 u1.

Lemma same_step : forall t1 t2, ordinary 0 t1 -> ordinary 0 t2 -> (depth t1 + depth t2 <= bound)%nat -> kids_end t1 t2 -> same_ends t1 t2.
Proof.
  intros t1 t2 H1 H2 Hb Hk r. apply ends_run. cbn [respond]. unfold same_type. apply (ends_or (fun k => matches_internal p (run p k) Invariant r t1 t2) (fun k _ => check_other_side p (run p k) Invariant r t1 t2)).
  - destruct t1; try (destruct H1; fail); cbn [matches_internal]; try (apply (ends_some (fun _ => _))).
    + destruct t2; try (destruct H2; fail); cbn [matches_class_against_type]; try (apply (ends_some (fun _ => _))). unfold matches_class.
      destruct (N.eqb_spec c c0) as [<-|Hne]; cbn [negb]; [|apply (ends_some (fun _ => no))]. apply ordinary_class in H1. apply ordinary_class in H2. destruct H1 as [_ H1], H2 as [_ H2].
      assert (A : ends (fun k => each (argument_matches (run p k) Invariant r) (zip3 gs gs0 (variances p c)))).
      { apply (ends_each (fun k => argument_matches (run p k) Invariant r)). rewrite Forall_forall. intros [[g1 g2] v] Hin. apply zip3_in in Hin. cbn [fst snd] in Hin. destruct Hin as (i & h1 & h2 & hv).
        unfold argument_matches, generic_matches. cbn [fst snd variance_of_argument invert].
        pose proof (depth_argument _ _ _ _ _ (map_nth_error depth i gs h1) hv) as D1. pose proof (depth_argument _ _ _ _ _ (map_nth_error depth i gs0 h2) hv) as D2.
        assert (L1 : (depth g1 <= below v (depth g1))%nat) by (destruct v; cbn; lia). assert (L2 : (depth g2 <= below v (depth g2))%nat) by (destruct v; cbn; lia).
        cbn [SubtypeRules.depth] in Hb. apply nth_error_In in h1, h2. rewrite Forall_forall in H1, H2. destruct (Hk g1 g2 h1 h2 (H1 _ h1) (H2 _ h2) ltac:(lia)) as [K1 K2]. destruct r; [apply K2|apply K1]. }
      destruct (variances p c); [apply (ends_some (fun _ => Yes))|]. apply (ends_then _ (fun _ m => Some (similar_if_false m)) A). intros m. apply (ends_some (fun _ => similar_if_false m)).
    + destruct t2 as [| | | | | | |a2| | | | | | |]; try (apply (ends_some (fun _ => no))). rename a into a1.
      apply (ends_then (fun k => match_tuple (run p k) Invariant r a1 a2) (fun _ m => Some (similar_if_false m))); [|intros m; apply (ends_some (fun _ => similar_if_false m))].
      destruct a1 as [ts1|t1|[b1 u1 c1]]; [| |destruct u1; destruct H1]; (destruct a2 as [ts2|t2|[b2 u2 c2]]; [| |destruct u2; destruct H2]); cbn [match_tuple]; try (apply (ends_some (fun _ => _))).
      * apply ends_if; [|apply (ends_some (fun _ => no))]. apply (ends_each (fun k => item_matches (run p k) Invariant r)). apply ordinary_fixed in H1. apply ordinary_fixed in H2.
        rewrite Forall_forall in *. intros [u1 u2] Hu. pose proof (in_combine_l _ _ _ _ Hu) as I1. pose proof (in_combine_r _ _ _ _ Hu) as I2. unfold item_matches. cbn [fst snd].
        pose proof (depth_item _ _ I1). pose proof (depth_item _ _ I2). apply (Hk u1 u2 I1 I2 (H1 _ I1) (H2 _ I2)). lia.
      * cbn [SubtypeRules.depth] in Hb. apply (Hk t1 t2 (or_introl eq_refl) (or_introl eq_refl) H1 H2). lia.
    + cbn [union_internal]. apply (ends_both (fun k => is_super_type_of (run p k) r (Union ts) t2) (fun k => is_sub_type_of (run p k) r (Union ts) t2)).
      * apply (super_finished _ H1 _ H2 Hb).
      * apply sub_ends. apply (super_finished _ H2 _ H1). lia.
  - destruct t2; try (destruct H2; fail); try (apply (ends_some (fun _ => _))). cbn [check_other_side]. apply ends_if; [apply (ends_some (fun _ => no))|]. cbv zeta.
    apply (ends_both (fun k => all (is_super_type_of (run p k) r t1) ts) (fun k => is_sub_type_of (run p k) r t1 (Union ts))).
    + apply (ends_all (fun k => is_super_type_of (run p k) r t1)). pose proof (ordinary_union _ _ H2) as [_ H2']. rewrite Forall_forall in *. intros u Hu. pose proof (depth_member _ _ Hu).
      apply (super_finished t1 H1 u (H2' _ Hu)). lia.
    + apply sub_ends. apply (super_finished _ H2 _ H1). lia.
Qed.

Lemma same_finished : forall t1, ordinary 0 t1 -> forall t2, ordinary 0 t2 -> (depth t1 + depth t2 <= bound)%nat -> same_ends t1 t2 /\ same_ends t2 t1.
Proof.
  assert (G : forall t1, ordinary 0 t1 -> (forall u, In u (kids t1) -> forall t2, ordinary 0 t2 -> (depth u + depth t2 <= bound)%nat -> same_ends u t2 /\ same_ends t2 u) ->
    forall t2, ordinary 0 t2 -> (depth t1 + depth t2 <= bound)%nat -> same_ends t1 t2 /\ same_ends t2 t1).
  { intros t1 H1 Hk t2 H2 Hb. split; (apply same_step; [assumption|assumption|lia|]); intros u1 u2 I1 I2 O1 O2 Hs; [exact (Hk u1 I1 u2 O2 Hs)|]. destruct (Hk u2 I2 u1 O1 ltac:(lia)). auto. }
  intros t1. induction t1 using type_induction; intros H1; try (destruct H1; fail); (apply G; [exact H1|]); intros u Hu; try (destruct Hu; fail).
  - apply ordinary_class in H1. destruct H1 as [_ H1]. rewrite Forall_forall in *. exact (H u Hu (H1 u Hu)).
  - apply ordinary_fixed in H1. rewrite Forall_forall in *. exact (H u Hu (H1 u Hu)).
  - destruct Hu as [<-|[]]. exact (IHt1 H1).
Qed.
End Below.

Lemma finished : forall n t1 t2, ordinary 0 t1 -> ordinary 0 t2 -> (depth t1 + depth t2 < n)%nat -> super_ends t1 t2 /\ same_ends t1 t2.
Proof.
  intros n. induction n as [|n IH]; intros t1 t2 H1 H2 Hb; [lia|].
  assert (I1 : forall u1 u2, ordinary 0 u1 -> ordinary 0 u2 -> (depth u1 + depth u2 < n)%nat -> super_ends u1 u2) by (intros u1 u2 h1 h2 hb; exact (proj1 (IH u1 u2 h1 h2 hb))).
  assert (I2 : forall u1 u2, ordinary 0 u1 -> ordinary 0 u2 -> (depth u1 + depth u2 < n)%nat -> same_ends u1 u2) by (intros u1 u2 h1 h2 hb; exact (proj2 (IH u1 u2 h1 h2 hb))).
  split; [apply (super_finished n I1 I2 t1 H1 t2 H2); lia|]. apply (same_finished n I1 I2 t1 H1 t2 H2). lia.
Qed.

Theorem run_ends : forall t1 t2, ordinary 0 t1 -> ordinary 0 t2 -> exists fuel o, run p fuel (Matches Covariant false t1 t2) = Some o.
Proof.
  intros t1 t2 H1 H2. destruct (proj1 (finished (S (depth t1 + depth t2)) t1 t2 H1 H2 ltac:(lia))) as [H _]. destruct (H false) as [n Hn]. specialize (Hn n (le_n n)).
  exists n. destruct (run p n (Matches Covariant false t1 t2)) as [o|]; [exists o; reflexivity|destruct (Hn eq_refl)].
Qed.
End Ranked.
End Ordinary.
