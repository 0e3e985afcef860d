(** Proofs about the types of the arguments of a call. *)
From Coq Require Import List NArith Bool Lia PeanoNat.
From Verif Require Import SolveModel SolveSpec Solve.
Import ListNotations.

Section Call.
Variable T : Type.
Variables le same eq : T -> T -> bool.
Variables base sub : T -> T -> option T.
Variable inst : N -> list T -> T.
Variable union : list T -> T.
Variable variances : N -> list variance.
Variables as_instance_of instance_of : T -> N -> option (list T).
Variable members : T -> list T.
Variable kinds : nat -> kind T.
Hypothesis O : order T le same eq.
Hypothesis J : joins T le base sub.
Hypothesis C : classes T le inst union variances as_instance_of instance_of members.

Notation Le := (Le T le).
Notation Equal := (Equal T le).
Notation fits := (fits T le).
Notation all_fit := (all_fit T le).
Notation sat := (sat T le).
Notation wf := (wf T le).
Notation state := (state T).
Notation step := (step T).
Notation subst := (subst T inst union).
Notation well_formed := (well_formed T variances).
Notation plain := (plain T variances).
Notation plain_args := (plain_args T variances).
Notation all_of := (all_of T).
Notation any_of := (any_of T).
Notation any_entry := (any_entry T).
Notation matches_args := (matches_args T).
Notation matches := (matches T le same eq base sub variances as_instance_of instance_of members kinds).
Notation match_call := (match_call T le same eq base sub variances as_instance_of instance_of members kinds).
Notation match_or_add := (match_or_add T le same eq base sub).
Notation set_arg := (set_arg T).
Notation start := (start T).

Lemma formal_ind2 (P : formal T -> Prop) :
  (forall i, P (Var i)) -> (forall t, P (Closed t)) ->
  (forall c args, Forall P args -> P (Class c args)) ->
  (forall fs, Forall P fs -> P (Union fs)) -> forall f, P f.
Proof.
  intros HV HC HL HU. fix IH 1. intros [i | t | c args | fs].
  - apply HV.
  - apply HC.
  - apply HL. induction args as [|f args IHa]; constructor; [apply IH | exact IHa].
  - apply HU. induction fs as [|f fs IHf]; constructor; [apply IH | exact IHf].
Qed.

Definition wf_state (s : state) : Prop := forall i, wf (type_ (s i)).
Definition sat_state (s : state) (sigma : nat -> T) : Prop := forall i, sat (type_ (s i)) (sigma i).

Definition sound (st : step) (P : (nat -> T) -> Prop) : Prop := forall s, wf_state s ->
  wf_state (snd (st s)) /\ (forall sigma, sat_state (snd (st s)) sigma -> sat_state s sigma) /\
  (fst (st s) = true -> forall sigma, sat_state (snd (st s)) sigma -> P sigma).

Lemma sound_weaken st (P Q : (nat -> T) -> Prop) : (forall sigma, P sigma -> Q sigma) -> sound st P -> sound st Q.
Proof. intros H HS s W. destruct (HS s W) as (A & B & D). split; [exact A|]. split; [exact B|]. auto. Qed.

Lemma all_of_sound {A} (l : list A) (st : A -> step) P : (forall a, In a l -> sound (st a) (P a)) ->
  sound (all_of (map st l)) (fun sigma => forall a, In a l -> P a sigma).
Proof.
  induction l as [|a l IH]; intros H s W.
  - cbn. split; [exact W|]. split; [trivial|]. intros _ sigma _ a [].
  - cbn [map SolveModel.all_of]. cbv zeta. destruct (H a (or_introl eq_refl) s W) as (A1 & A2 & A3).
    destruct (fst (st a s)) eqn:F.
    + destruct (IH (fun b Hb => H b (or_intror Hb)) (snd (st a s)) A1) as (B1 & B2 & B3).
      split; [exact B1|]. split; [auto|]. intros G sigma Hs b [<- | Hb].
      * apply A3; [reflexivity | apply B2, Hs].
      * apply (B3 G sigma Hs b Hb).
    + split; [exact A1|]. split; [exact A2|]. congruence.
Qed.

Lemma any_entry_sound {A} (l : list A) (st : A -> step) P : (forall a, In a l -> sound (st a) (P a)) ->
  sound (any_entry (map st l)) (fun sigma => exists a, In a l /\ P a sigma).
Proof.
  induction l as [|a l IH]; intros H s W.
  - cbn. split; [exact W|]. split; [trivial|]. discriminate.
  - cbn [map SolveModel.any_entry]. cbv zeta. destruct (H a (or_introl eq_refl) s W) as (A1 & A2 & A3).
    destruct (fst (st a s)) eqn:F.
    + split; [exact A1|]. split; [exact A2|]. intros _ sigma Hs. exists a. split; [left; reflexivity | auto].
    + destruct (IH (fun b Hb => H b (or_intror Hb)) (snd (st a s)) A1) as (B1 & B2 & B3).
      split; [exact B1|]. split; [auto|]. intros G sigma Hs.
      destruct (B3 G sigma Hs) as (b & Hb & Pb). exists b. split; [right; exact Hb | exact Pb].
Qed.

Lemma any_of_sound {A} (l : list A) (st : A -> step) P : l <> [] -> (forall a, In a l -> sound (st a) (P a)) ->
  sound (any_of (map st l)) (fun sigma => exists a, In a l /\ P a sigma).
Proof.
  intros N H. destruct l as [|a l]; [contradiction N; reflexivity|].
  apply (any_entry_sound (a :: l) st P H).
Qed.

Lemma args_sound v args : Forall (fun f => forall v value, sound (matches f v value) (fun sigma => fits v value (subst sigma f))) args ->
  forall vs values, length args = length vs -> length values = length vs ->
  sound (matches_args v (map (fun f => matches f) args) vs values)
    (fun sigma => all_fit (map (compose v) vs) values (map (subst sigma) args)).
Proof.
  induction 1 as [|f args Hf Hargs IH]; intros vs values L1 L2.
  - destruct vs; [|discriminate L1]. destruct values; [|discriminate L2].
    intros s W. cbn. split; [exact W|]. split; [trivial|]. intros _ sigma _. constructor.
  - destruct vs as [|w vs]; [discriminate L1|]. destruct values as [|t values]; [discriminate L2|].
    injection L1 as L1. injection L2 as L2. intros s W. cbn [map SolveModel.matches_args]. cbv zeta.
    destruct (Hf (compose v w) t s W) as (A1 & A2 & A3).
    destruct (IH vs values L1 L2 (snd (matches f (compose v w) t s)) A1) as (B1 & B2 & B3).
    cbn [fst snd]. split; [exact B1|]. split; [auto|]. intros F sigma Hs.
    apply andb_true_iff in F as [F1 F2]. constructor; auto.
Qed.

Lemma all_fit_contra vs : forall values args, all_fit (map (compose Contravariant) vs) values args -> all_fit vs args values.
Proof.
  induction vs as [|w vs IH]; intros values args H; inversion H as [| v1 vs1 t1 ts1 u1 us1 F R]; subst; constructor; auto.
  destruct w; cbn in *; trivial. destruct F. split; assumption.
Qed.

Lemma all_fit_inv vs : forall values args, all_fit (map (compose Invariant_) vs) values args ->
  all_fit vs values args /\ all_fit vs args values.
Proof.
  induction vs as [|w vs IH]; intros values args H; inversion H as [| v1 vs1 t1 ts1 u1 us1 F R]; subst.
  - split; constructor.
  - destruct (IH _ _ R) as [A B]. cbn in F. destruct F as [F1 F2].
    split; constructor; auto; destruct w; cbn; trivial; split; assumption.
Qed.

Lemma map_id_compose vs : map (compose Covariant) vs = vs.
Proof. induction vs as [|w vs IH]; cbn in *; [reflexivity | f_equal; exact IH]. Qed.

Lemma false_sound P : sound (fun s => (false, s)) P.
Proof. intros s W. cbn. split; [exact W|]. split; [trivial | discriminate]. Qed.

Lemma add_state_sound i v value : sound (matches (Var i) v value) (fun sigma => fits v value (sigma i)).
Proof.
  intros s W. cbn [SolveModel.matches]. cbv zeta.
  destruct (add_sound T le same eq base sub O J (kinds i) (s i) value v (W i)) as (A & B & D). cbv zeta in *.
  cbn [fst snd]. set (r := match_or_add (kinds i) (s i) value v) in *.
  assert (forall sigma, sat_state (set_arg s i (snd r)) sigma -> sat (type_ (snd r)) (sigma i)) as E.
  { intros sigma Hs. specialize (Hs i). unfold SolveModel.set_arg in Hs. rewrite Nat.eqb_refl in Hs. exact Hs. }
  split; [|split].
  - intros j. unfold SolveModel.set_arg. destruct (Nat.eqb j i); [exact A | apply W].
  - intros sigma Hs j. destruct (Nat.eq_dec j i) as [-> | Ne]; [apply B, E, Hs|].
    specialize (Hs j). unfold SolveModel.set_arg in Hs. apply Nat.eqb_neq in Ne. rewrite Ne in Hs. exact Hs.
  - intros F sigma Hs. apply D; [exact F | apply E, Hs].
Qed.

Theorem matches_sound f : well_formed f -> forall v value,
  sound (matches f v value) (fun sigma => fits v value (subst sigma f)).
Proof.
  induction f as [i | t | c args IH | fs IH] using formal_ind2; intros Wf v value.
  - apply add_state_sound.
  - intros s W. cbn [SolveModel.matches fst snd SolveSpec.subst]. split; [exact W|]. split; [trivial|].
    intros F sigma _. apply (simple_matches_right T le same eq O), F.
  - inversion Wf as [| | c0 args0 L Fw | ]; subst.
    assert (Forall (fun f => forall v value, sound (matches f v value) (fun sigma => fits v value (subst sigma f))) args) as Hargs.
    { clear - IH Fw. induction IH as [|f args Hf IH2 IHl]; constructor; inversion Fw; subst; auto. }
    assert (forall values, (forall ts, values = Some ts -> length ts = length (variances c)) ->
      sound (match values with Some ts => matches_args v (map (fun f => matches f) args) (variances c) ts
             | None => fun s => (false, s) end)
        (fun sigma => exists ts, values = Some ts /\
           all_fit (map (compose v) (variances c)) ts (map (subst sigma) args))) as K.
    { intros [ts|] H; [|apply false_sound]. eapply sound_weaken; [|apply args_sound; auto].
      intros sigma Hs. exists ts. auto. }
    cbn [SolveModel.matches SolveSpec.subst]. cbv zeta. destruct v.
    + eapply sound_weaken; [|apply (K (instance_of value c)); intros ts E; apply (instance_right _ _ _ _ _ _ _ _ C _ _ _ E)].
      intros sigma (ts & E & F). destruct (instance_right _ _ _ _ _ _ _ _ C _ _ _ E) as [_ [E1 E2]].
      apply all_fit_inv in F. destruct F as [F1 F2]. split.
      * eapply (trans T le same eq O); [exact E1|]. apply (inst_variance _ _ _ _ _ _ _ _ C), F1.
      * eapply (trans T le same eq O); [|exact E2]. apply (inst_variance _ _ _ _ _ _ _ _ C), F2.
    + eapply sound_weaken; [|apply (all_of_sound (members value)
        (fun m => match as_instance_of m c with
                  | Some ts => matches_args Covariant (map (fun f => matches f) args) (variances c) ts
                  | None => fun s => (false, s) end) _
        (fun m _ => K (as_instance_of m c) (fun ts E => proj1 (base_right _ _ _ _ _ _ _ _ C _ _ _ E))))].
      intros sigma H. cbn [SolveSpec.fits]. apply (members_all _ _ _ _ _ _ _ _ C). intros m Hm. cbv beta in H.
      destruct (H m Hm) as (ts & E & F). rewrite map_id_compose in F.
      eapply (trans T le same eq O); [apply (base_right _ _ _ _ _ _ _ _ C _ _ _ E)|].
      apply (inst_variance _ _ _ _ _ _ _ _ C), F.
    + eapply sound_weaken; [|apply (any_of_sound (members value)
        (fun m => match instance_of m c with
                  | Some ts => matches_args Contravariant (map (fun f => matches f) args) (variances c) ts
                  | None => fun s => (false, s) end) _ (members_some _ _ _ _ _ _ _ _ C value)
        (fun m _ => K (instance_of m c) (fun ts E => proj1 (instance_right _ _ _ _ _ _ _ _ C _ _ _ E))))].
      intros sigma (m & Hm & ts & E & F). cbn [SolveSpec.fits]. apply all_fit_contra in F.
      eapply (trans T le same eq O); [apply (inst_variance _ _ _ _ _ _ _ _ C), F|].
      eapply (trans T le same eq O); [apply (instance_right _ _ _ _ _ _ _ _ C _ _ _ E)|].
      apply (members_below _ _ _ _ _ _ _ _ C), Hm.
  - inversion Wf as [| | | fs0 Ne Fw]; subst.
    assert (forall f, In f fs -> forall v value, sound (matches f v value) (fun sigma => fits v value (subst sigma f))) as Hfs.
    { intros f Hf. apply (proj1 (Forall_forall _ _) IH f Hf). apply (proj1 (Forall_forall _ _) Fw f Hf). }
    assert (sound (all_of (map (fun m => any_of (map (fun f => matches f Covariant m) fs)) (members value)))
      (fun sigma => Le value (union (map (subst sigma) fs)))) as Super.
    { eapply sound_weaken; [|apply (all_of_sound (members value) (fun m => any_of (map (fun f => matches f Covariant m) fs)) _
        (fun m _ => any_of_sound fs (fun f => matches f Covariant m) _ Ne (fun f Hf => Hfs f Hf Covariant m)))].
      intros sigma H. cbv beta in H. apply (members_all _ _ _ _ _ _ _ _ C). intros m Hm.
      destruct (H m Hm) as (f & Hf & F). cbn in F. eapply (trans T le same eq O); [exact F|].
      apply (union_above _ _ _ _ _ _ _ _ C), in_map, Hf. }
    assert (sound (all_of (map (fun f => matches f Contravariant value) fs))
      (fun sigma => Le (union (map (subst sigma) fs)) value)) as Sub.
    { eapply sound_weaken; [|apply (all_of_sound fs (fun f => matches f Contravariant value) _ (fun f Hf => Hfs f Hf Contravariant value))].
      intros sigma H. cbv beta in H. apply (union_least _ _ _ _ _ _ _ _ C).
      - destruct fs; [contradiction Ne; reflexivity | discriminate].
      - intros t Ht. apply in_map_iff in Ht. destruct Ht as (f & <- & Hf). exact (H f Hf). }
    cbn [SolveModel.matches SolveSpec.subst]. cbv zeta. destruct v.
    + intros s W. destruct (Super s W) as (A1 & A2 & A3). destruct (Sub _ A1) as (B1 & B2 & B3).
      cbn [fst snd]. split; [exact B1|]. split; [auto|]. intros F sigma Hs.
      apply andb_true_iff in F as [F1 F2]. split; auto.
    + exact Super.
    + exact Sub.
Qed.

Lemma call_sound params : Forall (fun p => well_formed (fst p)) params ->
  sound (match_call params) (fun sigma => solves T le inst union params sigma).
Proof.
  induction 1 as [|[f t] params Hf Hp IH]; intros s W.
  - cbn. split; [exact W|]. split; [trivial|]. intros _ sigma _ f t [].
  - cbn [SolveModel.match_call]. cbv zeta. cbn [fst] in Hf.
    destruct (matches_sound f Hf Covariant t s W) as (A1 & A2 & A3).
    destruct (IH (snd (matches f Covariant t s)) A1) as (B1 & B2 & B3).
    cbn [fst snd]. split; [exact B1|]. split; [auto|]. intros F sigma Hs g u Hin.
    apply andb_true_iff in F as [F1 F2]. destruct Hin as [[= <- <-] | Hin].
    + exact (A3 F1 sigma (B2 sigma Hs)).
    + exact (B3 F2 sigma Hs g u Hin).
Qed.

Lemma start_wf : wf_state start.
Proof. intros i. exact Logic.I. Qed.

(** The types in the end. *)
Definition taken (never : T) (s : state) (i : nat) : T :=
  match into_generic_item T (s i) with Inferred t => t | _ => never end.

Lemma taken_sat never s : wf_state s -> (forall i, into_generic_item T (s i) <> Any) -> sat_state s (taken never s).
Proof.
  intros W N i. specialize (W i). specialize (N i). unfold taken, into_generic_item in *.
  destruct (uninferrable (s i)); [contradiction N; reflexivity|].
  destruct (type_ (s i)) as [[f|] | k | k | u l | k]; cbn in *; trivial.
  - split; apply (refl T le same eq O).
  - apply (refl T le same eq O).
  - split; [apply (refl T le same eq O) | exact W].
  - apply (refl T le same eq O).
Qed.

Lemma call_right never params s : Forall (fun p => well_formed (fst p)) params ->
  match_call params start = (true, s) -> (forall i, into_generic_item T (s i) <> Any) ->
  solves T le inst union params (taken never s).
Proof.
  intros F E N. destruct (call_sound params F start start_wf) as (A1 & _ & A3). rewrite E in *. cbn [fst snd] in *.
  apply A3; [reflexivity|]. apply taken_sat; assumption.
Qed.

(** Where there are no alternatives, a match has left nothing behind. *)
Definition clean (st : step) : Prop := forall s, fst (st s) = true ->
  forall i, uninferrable (snd (st s) i) = uninferrable (s i) /\
    (snd (st s) i = s i \/ calculated T (type_ (snd (st s) i)) = true).

Lemma clean_trans (st1 st2 : step) s : clean st1 -> clean st2 -> fst (st1 s) = true ->
  fst (st2 (snd (st1 s))) = true -> forall i,
  uninferrable (snd (st2 (snd (st1 s))) i) = uninferrable (s i) /\
    (snd (st2 (snd (st1 s))) i = s i \/ calculated T (type_ (snd (st2 (snd (st1 s))) i)) = true).
Proof.
  intros H1 H2 F1 F2 i. destruct (H1 s F1 i) as [A1 A2]. destruct (H2 _ F2 i) as [B1 B2].
  split; [congruence|]. destruct B2 as [B2 | B2]; [|right; exact B2]. rewrite B2. exact A2.
Qed.

Lemma all_of_clean {A} (l : list A) (st : A -> step) : (forall a, In a l -> clean (st a)) -> clean (all_of (map st l)).
Proof.
  induction l as [|a l IH]; intros H s F.
  - intros i. cbn. auto.
  - cbn [map SolveModel.all_of] in *. cbv zeta in *. destruct (fst (st a s)) eqn:E; [|congruence].
    apply clean_trans; auto using in_eq, in_cons.
Qed.

Lemma merge_keeps a other : is_new T other -> fst (merge T le same eq base sub a other) = true ->
  let r := snd (merge T le same eq base sub a other) in
  uninferrable r = uninferrable a /\ calculated T (type_ r) = true.
Proof.
  intros N F.
  destruct other as [g | k | k | u l | k]; try contradiction N.
  - destruct (merge_shape T le same eq base sub a k Invariant_ F) as (A & B & _). auto.
  - destruct (merge_shape T le same eq base sub a k Contravariant F) as (A & B & _). auto.
  - destruct (merge_shape T le same eq base sub a k Covariant F) as (A & B & _). auto.
Qed.

Lemma add_keeps k a value v : fst (match_or_add k a value v) = true ->
  let r := snd (match_or_add k a value v) in
  uninferrable r = uninferrable a /\ calculated T (type_ r) = true.
Proof.
  unfold SolveModel.match_or_add. destruct k as [| t | cs].
  - apply merge_keeps, new_is_new.
  - destruct (le value t); [apply merge_keeps, new_is_new | discriminate].
  - unfold check_constraints. destruct (find _ cs) as [c|]; [|discriminate]. cbn [option_map].
    destruct (calculated T (type_ a)); [apply merge_keeps; exact Logic.I|]. cbn. auto.
Qed.

Scheme plain_mind := Induction for SolveSpec.plain Sort Prop
  with plain_args_mind := Induction for SolveSpec.plain_args Sort Prop.

Theorem matches_clean f v : plain v f -> forall value, clean (matches f v value).
Proof.
  intros H. induction H as [v i | v t | v c args Nv H IH | v | v w ws f fs Hf IHf Hfs IHfs] using plain_mind
    with (P0 := fun v ws fs _ => forall values, clean (matches_args v (map (fun f => matches f) fs) ws values)).
  - intros value s F j. cbn [SolveModel.matches] in *. cbv zeta in *. cbn [fst snd] in *.
    destruct (add_keeps _ _ _ _ F) as [A B]. unfold SolveModel.set_arg.
    destruct (Nat.eqb j i) eqn:E; [|auto]. apply Nat.eqb_eq in E as ->. auto.
  - intros value s F j. cbn [SolveModel.matches fst snd]. auto.
  - intros value. cbn [SolveModel.matches]. cbv zeta.
    assert (forall values, clean (match values with Some ts => matches_args v (map (fun f => matches f) args) (variances c) ts
             | None => fun s => (false, s) end)) as K.
    { intros [ts|]; [apply IH | intros s; discriminate]. }
    destruct v; [apply K | | contradiction Nv; reflexivity].
    apply (all_of_clean (members value) (fun m => match as_instance_of m c with
                  | Some ts => matches_args Covariant (map (fun f => matches f) args) (variances c) ts
                  | None => fun s => (false, s) end)). intros m _. apply K.
  - intros values s F i. cbn. auto.
  - intros values s F. cbn [map SolveModel.matches_args] in *. cbv zeta in *.
    destruct values as [|t values]; [intros i; auto|]. cbn [fst snd] in *.
    apply andb_true_iff in F as [F1 F2]. apply clean_trans; auto.
Qed.

Lemma call_clean params : Forall (fun p => plain Covariant (fst p)) params -> clean (match_call params).
Proof.
  induction 1 as [|[f t] params Hf Hp IH]; intros s F.
  - intros i. cbn. auto.
  - cbn [SolveModel.match_call] in *. cbv zeta in *. cbn [fst snd] in *.
    apply andb_true_iff in F as [F1 F2]. apply (clean_trans (matches f Covariant t) (match_call params)); auto.
    apply matches_clean, Hf.
Qed.

Lemma call_not_any params s : Forall (fun p => plain Covariant (fst p)) params ->
  match_call params start = (true, s) -> forall i, into_generic_item T (s i) <> Any.
Proof.
  intros F E i. pose proof (call_clean params F start) as K. rewrite E in K. destruct (K eq_refl i) as [A _].
  cbn [fst snd] in A. unfold into_generic_item. rewrite A. cbn.
  destruct (type_ (s i)) as [[f|] | k | k | u l | k]; discriminate.
Qed.

(** The declared bound and the constraints of a type variable. *)
Definition in_kind (k : kind T) (t : T) : Prop :=
  match k with Unrestricted => True | Bound_ b => Le t b | Constraints cs => In t cs end.

Definition kind_ok (k : kind T) (b : bound T) : Prop :=
  match b with
  | Uncalculated _ => True
  | Invariant t | Upper t | Lower t => in_kind k t /\ match k with Constraints _ => b = Invariant t | _ => True end
  | UpperAndLower u l => in_kind k u /\ in_kind k l /\ match k with Constraints _ => False | _ => True end
  end.

Lemma mismatch_kind k b t v : kind_ok k b -> in_kind k t ->
  match k with Constraints _ => v = Invariant_ | _ => True end ->
  kind_ok k (snd (merge_or_mismatch T le same eq base sub b t v)).
Proof.
  intros Kb Kt Kv. unfold merge_or_mismatch. destruct k as [| bd | cs].
  - destruct (snd _) as [f | x | x | u l | x]; cbn; auto.
  - cbn [in_kind] in Kt. destruct b as [f | x | x | u l | x]; cbn [kind_ok in_kind] in Kb;
      destruct v; cbn [between merge_covariant merge_contravariant update_lower_bound update_upper_bound];
      repeat match goal with
      | |- context [if ?c then _ else _] => destruct c
      | |- context [match base ?x ?y with _ => _ end] => let E := fresh "E" in destruct (base x y) eqn:E
      | |- context [match sub ?x ?y with _ => _ end] => let E := fresh "E" in destruct (sub x y) eqn:E
      end; cbn [snd kind_ok in_kind]; repeat match goal with H : _ /\ _ |- _ => destruct H end; auto;
      repeat match goal with
      | E : base _ _ = Some ?c |- _ =>
          assert (Le c bd) by (apply (base_least _ _ _ _ J _ _ _ _ E); assumption); clear E
      | E : sub _ _ = Some ?c |- _ =>
          assert (Le c bd) by (eapply (trans T le same eq O); [apply (sub_below _ _ _ _ J _ _ _ E) | assumption]); clear E
      end; auto.
  - subst v. destruct b as [f | x | x | u l | x]; cbn [kind_ok in_kind] in Kb.
    + cbn. exact Logic.I.
    + cbn [between]. destruct (same x t); cbn; exact Kb.
    + destruct Kb as [_ [=]].
    + destruct Kb as (_ & _ & []).
    + destruct Kb as [_ [=]].
Qed.

Lemma add_kind k a value v : kind_ok k (type_ a) -> kind_ok k (type_ (snd (match_or_add k a value v))).
Proof.
  intros Ka.
  assert (forall t v, in_kind k t -> match k with Constraints _ => v = Invariant_ | _ => True end ->
    kind_ok k (type_ (snd (merge T le same eq base sub a (new_bound T t v))))) as K.
  { intros t w Kt Kv. unfold merge. destruct (bound_eq T eq (type_ a) (new_bound T t w)); [exact Ka|].
    assert (kind_ok k (new_bound T t w)) as Kn
      by (destruct w; cbn; split; trivial; destruct k; trivial; discriminate Kv).
    destruct (type_ a) as [f | x | x | u l | x] eqn:Et.
    { destruct w; cbn [new_bound calculated orb snd type_]; exact Kn. }
    all: destruct w; cbn [new_bound fst snd type_]; apply mismatch_kind; assumption. }
  assert (kind_ok k (type_ (if calculated T (type_ a) then a else mk_arg (Uncalculated (Some value)) (uninferrable a)))) as M.
  { destruct (calculated T (type_ a)); [exact Ka | exact Logic.I]. }
  unfold SolveModel.match_or_add. destruct k as [| t | cs].
  - apply K; exact Logic.I.
  - destruct (le value t) eqn:E; [|exact M]. apply K; [exact E | exact Logic.I].
  - unfold check_constraints. destruct (find _ cs) as [c|] eqn:E; cbn [option_map]; [|exact M].
    apply find_some in E. destruct E as [E _].
    destruct (calculated T (type_ a)); [apply (K c Invariant_); [exact E | reflexivity]|].
    cbn. split; [exact E | reflexivity].
Qed.

Definition kind_state (s : state) : Prop := forall i, kind_ok (kinds i) (type_ (s i)).
Definition keeps (st : step) : Prop := forall s, kind_state s -> kind_state (snd (st s)).

Lemma all_of_keeps {A} (l : list A) (st : A -> step) : (forall a, In a l -> keeps (st a)) -> keeps (all_of (map st l)).
Proof.
  induction l as [|a l IH]; intros H s W; [exact W|]. cbn [map SolveModel.all_of]. cbv zeta.
  destruct (fst (st a s)); [apply IH|]; auto using in_cons; apply (H a (or_introl eq_refl)), W.
Qed.

Lemma any_of_keeps {A} (l : list A) (st : A -> step) : (forall a, In a l -> keeps (st a)) -> keeps (any_of (map st l)).
Proof.
  intros H.
  assert (keeps (any_entry (map st l))) as K.
  { induction l as [|a l IH]; intros s W; [exact W|]. cbn [map SolveModel.any_entry]. cbv zeta.
    destruct (fst (st a s)); [|apply IH]; auto using in_cons; apply (H a (or_introl eq_refl)), W. }
  destruct l as [|a l]; [intros s W; exact W | exact K].
Qed.

Lemma matches_keeps f : forall v value, keeps (matches f v value).
Proof.
  induction f as [i | t | c args IH | fs IH] using formal_ind2; intros v value.
  - intros s W j. cbn [SolveModel.matches snd]. unfold SolveModel.set_arg.
    destruct (Nat.eqb j i) eqn:E; [|apply W]. apply Nat.eqb_eq in E as ->. apply add_kind, W.
  - intros s W. exact W.
  - assert (forall vs values, keeps (matches_args v (map (fun f => matches f) args) vs values)) as KA.
    { induction IH as [|f args Hf IH2 IHl]; intros vs values s W; [exact W|].
      cbn [map SolveModel.matches_args]. destruct vs as [|w vs]; [exact W|]. destruct values as [|t values]; [exact W|].
      cbv zeta. cbn [snd]. apply IHl, Hf, W. }
    assert (forall values, keeps (match values with Some ts => matches_args v (map (fun f => matches f) args) (variances c) ts
             | None => fun s => (false, s) end)) as K.
    { intros [ts|]; [apply KA | intros s W; exact W]. }
    cbn [SolveModel.matches]. cbv zeta. destruct v; [apply K | |].
    + apply (all_of_keeps (members value) (fun m => match as_instance_of m c with
                  | Some ts => matches_args Covariant (map (fun f => matches f) args) (variances c) ts
                  | None => fun s => (false, s) end)). intros m _. apply K.
    + apply (any_of_keeps (members value) (fun m => match instance_of m c with
                  | Some ts => matches_args Contravariant (map (fun f => matches f) args) (variances c) ts
                  | None => fun s => (false, s) end)). intros m _. apply K.
  - assert (forall f, In f fs -> forall v value, keeps (matches f v value)) as Hfs
      by (intros f Hf; apply (proj1 (Forall_forall _ _) IH f Hf)).
    assert (keeps (all_of (map (fun m => any_of (map (fun f => matches f Covariant m) fs)) (members value)))) as Super.
    { apply (all_of_keeps (members value) (fun m => any_of (map (fun f => matches f Covariant m) fs))).
      intros m _. apply any_of_keeps. intros f Hf. apply Hfs, Hf. }
    assert (keeps (all_of (map (fun f => matches f Contravariant value) fs))) as Sub.
    { apply all_of_keeps. intros f Hf. apply Hfs, Hf. }
    cbn [SolveModel.matches]. cbv zeta. destruct v; [|exact Super | exact Sub].
    intros s W. cbn [snd]. apply Sub, Super, W.
Qed.

Lemma call_keeps params : keeps (match_call params).
Proof.
  induction params as [|[f t] params IH]; intros s W; [exact W|].
  cbn [SolveModel.match_call]. cbv zeta. cbn [snd]. apply IH, matches_keeps, W.
Qed.

Lemma call_kind params s i t : Forall (fun p => plain Covariant (fst p)) params ->
  match_call params start = (true, s) -> into_generic_item T (s i) = Inferred t -> in_kind (kinds i) t.
Proof.
  intros F E G. pose proof (call_keeps params start (fun _ => Logic.I) i) as K.
  pose proof (call_clean params F start) as L. rewrite E in *. cbn [fst snd] in *. destruct (L eq_refl i) as [A B].
  unfold into_generic_item in G. rewrite A in G. cbn [SolveModel.start uninferrable] in G.
  destruct B as [B | B].
  { rewrite B in G. cbn in G. discriminate G. }
  destruct (type_ (s i)) as [f | x | x | u l | x]; [discriminate B | | | |]; injection G as <-; cbn [kind_ok] in K; tauto.
Qed.

(** No solution is lost. *)
Section Complete.
Hypothesis CJ : complete_joins T le base sub.
Hypothesis CC : complete_classes T le inst variances as_instance_of instance_of members.
Hypothesis free : forall i, kinds i = Unrestricted.

Definition complete (st : step) (P : (nat -> T) -> Prop) : Prop := forall s sigma, wf_state s ->
  sat_state s sigma -> P sigma -> fst (st s) = true /\ wf_state (snd (st s)) /\ sat_state (snd (st s)) sigma.

Lemma complete_weaken st (P Q : (nat -> T) -> Prop) : (forall sigma, Q sigma -> P sigma) -> complete st P -> complete st Q.
Proof. intros H HS s sigma W S G. apply HS; auto. Qed.

Lemma all_of_complete {A} (l : list A) (st : A -> step) P : (forall a, In a l -> complete (st a) (P a)) ->
  complete (all_of (map st l)) (fun sigma => forall a, In a l -> P a sigma).
Proof.
  induction l as [|a l IH]; intros H s sigma W Hs G.
  - cbn. auto.
  - cbn [map SolveModel.all_of]. cbv zeta.
    destruct (H a (or_introl eq_refl) s sigma W Hs (G a (or_introl eq_refl))) as (A1 & A2 & A3). rewrite A1.
    apply IH; auto using in_cons.
Qed.

Lemma all_fit_equal v vs : forall us ts values, Forall2 Equal us ts -> all_fit (map (compose v) vs) ts values ->
  all_fit (map (compose v) vs) us values.
Proof.
  induction vs as [|w vs IH]; intros us ts values H F; inversion F as [| v1 vs1 t1 ts1 u1 us1 G R]; subst;
    inversion H as [| u t us' ts' E HR]; subst; constructor; eauto.
  destruct E as [E1 E2]. destruct (compose v w); cbn in *.
  - destruct G as [G1 G2]. split; eapply (trans T le same eq O); eassumption.
  - eapply (trans T le same eq O); eassumption.
  - eapply (trans T le same eq O); eassumption.
Qed.

Lemma all_fit_self v vs : forall ts, length ts = length vs ->
  (forall t w, fits (compose v w) t t) -> all_fit (map (compose v) vs) ts ts.
Proof.
  induction vs as [|w vs IH]; intros [|t ts] L H; try discriminate L; constructor; auto.
Qed.

Lemma fits_refl v t : fits v t t.
Proof. destruct v; cbn; try split; apply (refl T le same eq O). Qed.

Theorem matches_complete f v : plain v f -> well_formed f -> forall value,
  complete (matches f v value) (fun sigma => fits v value (subst sigma f)).
Proof.
  intros H. induction H as [v i | v t | v c args Nv H IH | v | v w ws f fs Hf IHf Hfs IHfs] using plain_mind
    with (P0 := fun v ws fs _ => Forall well_formed fs -> forall values,
      complete (matches_args v (map (fun f => matches f) fs) ws values)
        (fun sigma => all_fit (map (compose v) ws) values (map (subst sigma) fs))).
  - intros _ value s sigma W Hs F. cbn [SolveModel.matches SolveSpec.subst] in *. cbv zeta. rewrite free.
    destruct (add_complete T le same eq base sub O J CJ (s i) value v (sigma i) (W i) (Hs i) F) as [A B].
    destruct (add_sound T le same eq base sub O J Unrestricted (s i) value v (W i)) as (A' & _). cbv zeta in *.
    cbn [fst snd]. split; [exact A|]. unfold SolveModel.set_arg.
    split; intros j; destruct (Nat.eqb j i) eqn:E; auto. apply Nat.eqb_eq in E as ->. exact B.
  - intros _ value s sigma W Hs F. cbn [SolveModel.matches SolveSpec.subst fst snd] in *.
    split; [apply (simple_matches_right T le same eq O), F | auto].
  - intros Wf value. inversion Wf as [| | c0 args0 L Fw | ]; subst.
    specialize (IH Fw).
    assert (forall values, complete (match values with Some ts => matches_args v (map (fun f => matches f) args) (variances c) ts
             | None => fun s => (false, s) end)
        (fun sigma => exists ts, values = Some ts /\ all_fit (map (compose v) (variances c)) ts (map (subst sigma) args))) as K.
    { intros [ts|].
      - eapply complete_weaken; [|apply IH]. intros sigma (ts' & [= <-] & F). exact F.
      - intros s sigma W Hs (ts & [=] & _). }
    cbn [SolveModel.matches SolveSpec.subst]. cbv zeta. destruct v; [| | contradiction Nv; reflexivity].
    + eapply complete_weaken; [|apply K]. intros sigma F.
      assert (length (map (subst sigma) args) = length (variances c)) as L2 by (rewrite map_length; exact L).
      destruct (instance_complete _ _ _ _ _ _ _ CC value c _ L2 F) as (us & E & G).
      exists us. split; [exact E|]. eapply all_fit_equal; [exact G|]. apply all_fit_self; [exact L2|].
      intros t w. apply fits_refl.
    + eapply complete_weaken; [|apply (all_of_complete (members value)
        (fun m => match as_instance_of m c with
                  | Some ts => matches_args Covariant (map (fun f => matches f) args) (variances c) ts
                  | None => fun s => (false, s) end) _ (fun m _ => K (as_instance_of m c)))].
      intros sigma F m Hm. cbn [SolveSpec.fits] in F.
      assert (length (map (subst sigma) args) = length (variances c)) as L2 by (rewrite map_length; exact L).
      assert (Le m (inst c (map (subst sigma) args))) as G.
      { eapply (trans T le same eq O); [apply (members_below _ _ _ _ _ _ _ _ C _ _ Hm) | exact F]. }
      destruct (base_complete _ _ _ _ _ _ _ CC value m c _ Hm L2 G) as (us & E & G2).
      exists us. split; [exact E|]. rewrite map_id_compose. exact G2.
  - intros _ values s sigma W Hs F. cbn. auto.
  - intros Fw values s sigma W Hs F. inversion Fw; subst. cbn [map SolveModel.matches_args] in *. cbv zeta.
    inversion F as [| v1 vs1 t1 ts1 u1 us1 G R]; subst. cbn [fst snd].
    destruct (IHf ltac:(assumption) t1 s sigma W Hs G) as (A1 & A2 & A3). rewrite A1. cbn [andb].
    apply IHfs; assumption.
Qed.

Lemma call_complete params : Forall (fun p => plain Covariant (fst p) /\ well_formed (fst p)) params ->
  complete (match_call params) (fun sigma => solves T le inst union params sigma).
Proof.
  induction 1 as [|[f t] params Hf Hp IH]; intros s sigma W Hs G.
  - cbn. auto.
  - cbn [SolveModel.match_call]. cbv zeta. cbn [fst snd] in *. destruct Hf as [Pf Wf].
    destruct (matches_complete f Covariant Pf Wf t s sigma W Hs (G f t (or_introl eq_refl))) as (A1 & A2 & A3).
    rewrite A1. cbn [andb]. apply IH; auto. intros g u Hin. apply G. right. exact Hin.
Qed.

(** What is known of the bounds in the end. *)
Notation bounds_below := (bounds_below T variances).
Notation below_args := (below_args T variances).
Notation used := (used T).
Notation has_lower := (has_lower T).

Definition shaped (st : step) (U L : nat -> Prop) : Prop := forall s, fst (st s) = true -> forall i,
  (calculated T (type_ (snd (st s) i)) = true <-> calculated T (type_ (s i)) = true \/ U i) /\
  (has_lower (type_ (snd (st s) i)) = true <-> has_lower (type_ (s i)) = true \/ L i) /\
  (calculated T (type_ (snd (st s) i)) = false -> snd (st s) i = s i).

Lemma shaped_iff st (U L U' L' : nat -> Prop) : (forall i, U i <-> U' i) -> (forall i, L i <-> L' i) ->
  shaped st U L -> shaped st U' L'.
Proof.
  intros HU HL H s F i. destruct (H s F i) as (A & B & D). rewrite A, B, HU, HL. split; [reflexivity|].
  split; [reflexivity | exact D].
Qed.

Lemma shaped_trans (st1 st2 : step) U1 L1 U2 L2 s : shaped st1 U1 L1 -> shaped st2 U2 L2 ->
  fst (st1 s) = true -> fst (st2 (snd (st1 s))) = true -> forall i,
  (calculated T (type_ (snd (st2 (snd (st1 s))) i)) = true <-> calculated T (type_ (s i)) = true \/ (U1 i \/ U2 i)) /\
  (has_lower (type_ (snd (st2 (snd (st1 s))) i)) = true <-> has_lower (type_ (s i)) = true \/ (L1 i \/ L2 i)) /\
  (calculated T (type_ (snd (st2 (snd (st1 s))) i)) = false -> snd (st2 (snd (st1 s))) i = s i).
Proof.
  intros H1 H2 F1 F2 i. destruct (H1 s F1 i) as (A1 & A2 & A3). destruct (H2 _ F2 i) as (B1 & B2 & B3).
  rewrite B1, B2, A1, A2. split; [tauto|]. split; [tauto|]. intros E. rewrite (B3 E). apply A3.
  rewrite <- (B3 E). exact E.
Qed.

Lemma all_of_shaped {A} (l : list A) (st : A -> step) U L : l <> [] -> (forall a, In a l -> shaped (st a) U L) ->
  shaped (all_of (map st l)) U L.
Proof.
  induction l as [|a l IH]; intros N H; [contradiction N; reflexivity|].
  destruct l as [|b l].
  - intros s F i. cbn [map SolveModel.all_of] in *. cbv zeta in *. destruct (fst (st a s)) eqn:E; [|congruence].
    apply (H a (or_introl eq_refl) s E i).
  - intros s F. change (all_of (map st (a :: b :: l)) s) with
      (if fst (st a s) then all_of (map st (b :: l)) (snd (st a s)) else st a s) in *.
    destruct (fst (st a s)) eqn:E; [|congruence]. intros i.
    pose proof (shaped_trans (st a) (all_of (map st (b :: l))) U L U L s (H a (or_introl eq_refl))
      (IH ltac:(discriminate) (fun x Hx => H x (or_intror Hx))) E F i) as (A1 & A2 & A3).
    split; [tauto|]. split; [tauto | exact A3].
Qed.

Lemma add_shape a value v : fst (match_or_add Unrestricted a value v) = true ->
  let r := snd (match_or_add Unrestricted a value v) in
  calculated T (type_ r) = true /\ (has_lower (type_ r) = true <-> has_lower (type_ a) = true \/ v <> Contravariant).
Proof.
  intros F. destruct (merge_shape T le same eq base sub a value v F) as (_ & A & B). cbv zeta.
  split; [exact A|]. unfold SolveModel.match_or_add. rewrite B, orb_true_iff.
  destruct v; split; intros [E | E]; auto; try (right; discriminate); try discriminate E; contradiction E; reflexivity.
Qed.

Theorem matches_shaped f v : plain v f -> well_formed f -> forall value,
  shaped (matches f v value) (fun i => used i f) (fun i => bounds_below i v f).
Proof.
  intros H. induction H as [v i | v t | v c args Nv H IH | v | v w ws f fs Hf IHf Hfs IHfs] using plain_mind
    with (P0 := fun v ws fs _ => Forall well_formed fs -> forall values, length values = length ws ->
      shaped (matches_args v (map (fun f => matches f) fs) ws values)
        (fun i => exists f, In f fs /\ used i f) (fun i => below_args i v ws fs)).
  - intros _ value s F j. cbn [SolveModel.matches] in *. cbv zeta in *. cbn [fst snd] in *. rewrite free in *.
    destruct (add_shape _ _ _ F) as [A B]. cbv zeta in *. unfold SolveModel.set_arg.
    destruct (Nat.eqb j i) eqn:E.
    + apply Nat.eqb_eq in E as ->. rewrite A, B. split; [|split; [|discriminate]].
      * split; [intros _; right; constructor | reflexivity].
      * split; (intros [E|E]; [left; exact E | right]); [constructor; exact E | inversion E; assumption].
    + apply Nat.eqb_neq in E. split; [|split; [|reflexivity]]; (split; [auto|]; intros [G|G]; [exact G|]; inversion G; congruence).
  - intros _ value s F j. cbn [SolveModel.matches fst snd].
    split; [|split; [|reflexivity]]; (split; [auto|]; intros [G|G]; [exact G|]; inversion G).
  - intros Wf value. inversion Wf as [| | c0 args0 L Fw | ]; subst. specialize (IH Fw).
    assert (forall values, (forall ts, values = Some ts -> length ts = length (variances c)) ->
      shaped (match values with Some ts => matches_args v (map (fun f => matches f) args) (variances c) ts
             | None => fun s => (false, s) end) (fun i => used i (Class c args)) (fun i => bounds_below i v (Class c args))) as K.
    { intros [ts|] E; [|intros s; discriminate]. eapply shaped_iff; [| |apply (IH ts (E ts eq_refl))].
      - intros i. split; [intros (f & Hf & G); econstructor; eassumption | intros G; inversion G; subst; eauto].
      - intros i. split; [intros G; constructor; exact G | intros G; inversion G; assumption]. }
    cbn [SolveModel.matches]. cbv zeta. destruct v; [| | contradiction Nv; reflexivity].
    + apply K. intros ts E. apply (instance_right _ _ _ _ _ _ _ _ C _ _ _ E).
    + apply (all_of_shaped (members value) (fun m => match as_instance_of m c with
                  | Some ts => matches_args Covariant (map (fun f => matches f) args) (variances c) ts
                  | None => fun s => (false, s) end)).
      * apply (members_some _ _ _ _ _ _ _ _ C).
      * intros m _. apply K. intros ts E. apply (base_right _ _ _ _ _ _ _ _ C _ _ _ E).
  - intros _ values Lv s F i. cbn [map SolveModel.matches_args fst snd].
    split; [|split; [|reflexivity]]; (split; [auto|]); intros [G|G]; try exact G; [destruct G as (? & [] & _) | inversion G].
  - intros Fw values Lv s F i. inversion Fw; subst. destruct values as [|t values]; [discriminate Lv|]. injection Lv as Lv.
    cbn [map SolveModel.matches_args] in *. cbv zeta in *. cbn [fst snd] in *. apply andb_true_iff in F as [F1 F2].
    pose proof (shaped_trans (matches f (compose v w) t) (matches_args v (map (fun f => matches f) fs) ws values) _ _ _ _ s
      (IHf ltac:(assumption) t) (IHfs ltac:(assumption) values Lv) F1 F2 i) as (A1 & A2 & A3).
    split; [|split; [|exact A3]].
    + rewrite A1. split; (intros [G|G]; [left; exact G | right]).
      * destruct G as [G | (g & Hg & G)]; [exists f | exists g]; auto using in_eq, in_cons.
      * destruct G as (g & [<- | Hg] & G); [left; exact G | right; eauto].
    + rewrite A2. split; (intros [G|G]; [left; exact G | right]).
      * destruct G as [G|G]; [constructor 1 | constructor 2]; exact G.
      * inversion G; subst; auto.
Qed.

Lemma call_shaped params : Forall (fun p => plain Covariant (fst p) /\ well_formed (fst p)) params ->
  shaped (match_call params) (fun i => exists p, In p params /\ used i (fst p))
    (fun i => exists p, In p params /\ bounds_below i Covariant (fst p)).
Proof.
  induction 1 as [|[f t] params Hf Hp IH]; intros s F i.
  - cbn. split; [|split; [|reflexivity]]; (split; [auto|]); intros [G|(? & [] & _)]; exact G.
  - cbn [SolveModel.match_call] in *. cbv zeta in *. cbn [fst snd] in *. destruct Hf as [Pf Wf].
    apply andb_true_iff in F as [F1 F2].
    pose proof (shaped_trans (matches f Covariant t) (match_call params) _ _ _ _ s
      (matches_shaped f Covariant Pf Wf t) IH F1 F2 i) as (A1 & A2 & A3).
    split; [|split; [|exact A3]].
    + rewrite A1. split; (intros [G|G]; [left; exact G | right]).
      * destruct G as [G | (g & Hg & G)]; [exists (f, t) | exists g]; auto using in_eq, in_cons.
      * destruct G as (g & [<- | Hg] & G); [left; exact G | right; eauto].
    + rewrite A2. split; (intros [G|G]; [left; exact G | right]).
      * destruct G as [G | (g & Hg & G)]; [exists (f, t) | exists g]; auto using in_eq, in_cons.
      * destruct G as (g & [<- | Hg] & G); [left; exact G | right; eauto].
Qed.

Lemma call_least params s sigma i : Forall (fun p => plain Covariant (fst p) /\ well_formed (fst p)) params ->
  match_call params start = (true, s) -> solves T le inst union params sigma ->
  (exists p, In p params /\ bounds_below i Covariant (fst p)) ->
  exists t, into_generic_item T (s i) = Inferred t /\ Le t (sigma i).
Proof.
  intros F E HS B. destruct (call_complete params F start sigma start_wf (fun _ => Logic.I) HS) as (_ & _ & A).
  assert (uninferrable (s i) = false) as U.
  { assert (Forall (fun p => plain Covariant (fst p)) params) as F' by (eapply Forall_impl; [|exact F]; intros p Hp; apply Hp).
    pose proof (call_clean params F' start) as K. rewrite E in K. apply (K eq_refl i). }
  pose proof (call_shaped params F start) as K. rewrite E in *. cbn [fst snd] in *.
  destruct (K eq_refl i) as (_ & D & _). specialize (A i). apply proj2 in D. specialize (D (or_intror B)).
  unfold into_generic_item. rewrite U.
  destruct (type_ (s i)) as [f | k | k | u l | k]; try discriminate D; cbn in A; eexists; (split; [reflexivity|]).
  - apply A.
  - apply A.
  - exact A.
Qed.

Lemma call_greatest params s sigma i : Forall (fun p => plain Covariant (fst p) /\ well_formed (fst p)) params ->
  match_call params start = (true, s) -> solves T le inst union params sigma ->
  (exists p, In p params /\ used i (fst p)) ->
  (forall p, In p params -> ~ bounds_below i Covariant (fst p)) ->
  exists t, into_generic_item T (s i) = Inferred t /\ Le (sigma i) t.
Proof.
  intros F E HS B NB. destruct (call_complete params F start sigma start_wf (fun _ => Logic.I) HS) as (_ & _ & A).
  assert (uninferrable (s i) = false) as U.
  { assert (Forall (fun p => plain Covariant (fst p)) params) as F' by (eapply Forall_impl; [|exact F]; intros p Hp; apply Hp).
    pose proof (call_clean params F' start) as K. rewrite E in K. apply (K eq_refl i). }
  pose proof (call_shaped params F start) as K. rewrite E in *. cbn [fst snd] in *.
  destruct (K eq_refl i) as (D1 & D2 & _). specialize (A i). apply proj2 in D1. specialize (D1 (or_intror B)).
  assert (has_lower (type_ (s i)) = true -> False) as NL.
  { intros G. apply D2 in G. destruct G as [G | (p & Hp & G)]; [discriminate G | exact (NB p Hp G)]. }
  unfold into_generic_item. rewrite U.
  destruct (type_ (s i)) as [f | k | k | u l | k]; [discriminate D1 | | | |]; try (destruct (NL eq_refl)); cbn in A.
  eexists; (split; [reflexivity | exact A]).
Qed.

(** Two results are the same up to types that are the same. *)
Definition result_equal (a b : result T) : Prop :=
  match a, b with Inferred t, Inferred u => Equal t u | Any, Any => True | Never, Never => True | _, _ => False end.

Lemma solves_incl params params' sigma : incl params' params -> solves T le inst union params sigma ->
  solves T le inst union params' sigma.
Proof. intros H G f t Hin. apply G, H, Hin. Qed.

Lemma call_accepts params never : Forall (fun p => plain Covariant (fst p) /\ well_formed (fst p)) params ->
  (fst (match_call params start) = true <-> exists sigma, solves T le inst union params sigma) /\
  (fst (match_call params start) = true -> solves T le inst union params (taken never (snd (match_call params start)))).
Proof.
  intros F.
  assert (fst (match_call params start) = true -> solves T le inst union params (taken never (snd (match_call params start)))) as K.
  { intros E. apply call_right.
    - eapply Forall_impl; [|exact F]; intros p Hp; apply Hp.
    - destruct (match_call params start); cbn in *; subst; reflexivity.
    - apply (call_not_any params).
      + eapply Forall_impl; [|exact F]; intros p Hp; apply Hp.
      + destruct (match_call params start); cbn in *; subst; reflexivity. }
  split; [split|exact K].
  - intros E. eexists. apply K, E.
  - intros [sigma Hs]. apply (call_complete params F start sigma start_wf (fun _ => Logic.I) Hs).
Qed.

Lemma call_order params params' (never : T) : Forall (fun p => plain Covariant (fst p) /\ well_formed (fst p)) params ->
  incl params params' -> incl params' params ->
  fst (match_call params start) = fst (match_call params' start) /\
  (fst (match_call params start) = true -> forall i,
     result_equal (into_generic_item T (snd (match_call params start) i))
       (into_generic_item T (snd (match_call params' start) i))).
Proof.
  intros F I1 I2.
  assert (Forall (fun p => plain Covariant (fst p) /\ well_formed (fst p)) params') as F'.
  { apply Forall_forall. intros p Hp. apply (proj1 (Forall_forall _ _) F), I2, Hp. }
  destruct (call_accepts params never F) as [A1 A2]. destruct (call_accepts params' never F') as [B1 B2].
  assert (fst (match_call params start) = true <-> fst (match_call params' start) = true) as Hiff.
  { rewrite A1, B1. split; intros [sigma Hs]; exists sigma; eapply solves_incl; eassumption. }
  split.
  { destruct (fst (match_call params start)), (fst (match_call params' start)); trivial.
    - symmetry. apply Hiff. reflexivity.
    - apply Hiff. reflexivity. }
  intros E i. pose proof (proj1 Hiff E) as E'. specialize (A2 E). specialize (B2 E').
  destruct (match_call params start) as [m s] eqn:Em. destruct (match_call params' start) as [m' s'] eqn:Em'.
  cbn [fst snd] in *. subst m m'.
  assert (sat (type_ (s i)) (taken never s' i)) as S1.
  { assert (solves T le inst union params (taken never s')) as HS by (eapply solves_incl; eassumption).
    destruct (call_complete params F start _ start_wf (fun _ => Logic.I) HS) as (_ & _ & A). rewrite Em in A. apply A. }
  assert (sat (type_ (s' i)) (taken never s i)) as S2.
  { assert (solves T le inst union params' (taken never s)) as HS by (eapply solves_incl; eassumption).
    destruct (call_complete params' F' start _ start_wf (fun _ => Logic.I) HS) as (_ & _ & A). rewrite Em' in A. apply A. }
  pose proof (call_shaped params F start) as K. pose proof (call_shaped params' F' start) as K'.
  rewrite Em in K. rewrite Em' in K'. destruct (K eq_refl i) as (C1 & L1 & D1). destruct (K' eq_refl i) as (C2 & L2 & D2).
  cbn [fst snd] in *.
  assert (uninferrable (s i) = false /\ uninferrable (s' i) = false) as [U U'].
  { assert (forall ps : list (formal T * T), Forall (fun p => plain Covariant (fst p) /\ well_formed (fst p)) ps -> Forall (fun p => plain Covariant (fst p)) ps) as W
      by (intros ps H; eapply Forall_impl; [|exact H]; intros p Hp; apply Hp).
    pose proof (call_clean params (W _ F) start) as Q. pose proof (call_clean params' (W _ F') start) as Q'.
    rewrite Em in Q. rewrite Em' in Q'. split; [apply (Q eq_refl i) | apply (Q' eq_refl i)]. }
  assert (calculated T (type_ (s i)) = true <-> calculated T (type_ (s' i)) = true) as CE.
  { rewrite C1, C2. split; (intros [G | (p & Hp & G)]; [discriminate G | right; exists p; split; [|exact G]]); auto. }
  assert (has_lower (type_ (s i)) = true <-> has_lower (type_ (s' i)) = true) as LE.
  { rewrite L1, L2. split; (intros [G | (p & Hp & G)]; [discriminate G | right; exists p; split; [|exact G]]); auto. }
  clear C1 C2 L1 L2. unfold taken, into_generic_item in *. rewrite U, U' in *.
  destruct (s i) as [b u], (s' i) as [b' u']. cbn [type_ uninferrable] in *.
  destruct b as [f | k | k | x l | k], b' as [f' | k' | k' | x' l' | k']; cbn [calculated has_lower] in *;
    try (destruct CE as [CE1 CE2]; (discriminate (CE1 eq_refl) || discriminate (CE2 eq_refl)));
    try (destruct LE as [LE1 LE2]; (discriminate (LE1 eq_refl) || discriminate (LE2 eq_refl))); cbn in *; unfold SolveSpec.Equal in *; try tauto.
  specialize (D1 eq_refl). specialize (D2 eq_refl). unfold SolveModel.start in *.
  assert (f = None) as -> by congruence. assert (f' = None) as -> by congruence. exact Logic.I.
Qed.
End Complete.
End Call.
