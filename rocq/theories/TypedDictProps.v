(** C66: TypedDicts keep their promises. *)
From Coq Require Import List NArith Bool.
From Verif Require Import TypedDictModel TypedDictSpec TypedDict.
Import ListNotations.
Open Scope N_scope.

Section C66.
Variables T value : Type.
Variable has : T -> value -> Prop.
Variables super same : T -> T -> bool.
Variable is_never : T -> bool.
Variable unite : list T -> T.
Variables object none_type : T.
Variable none : value.
Hypothesis R : right_types T value has super same is_never unite object none_type none.

Notation typed_dict := (typed_dict T).
Notation conforms := (conforms T value has).
Notation models := (models T value has).
Notation allowed := (allowed T value has).
Notation apply := (apply value).
Notation accepts := (is_super_type_of T super same is_never).
Notation get_or_pop := (get_or_pop T is_never unite object none_type).

(** The shortcut for the same definition is right if the TypedDicts are the same. *)
Definition one_definition (td1 td2 : typed_dict) : Prop :=
  defined_at T td1 = defined_at T td2 -> td1 = td2.

Lemma matches_covers : forall td1 td2, distinct T td1 -> distinct T td2 -> one_definition td1 td2 ->
  asked T is_never td1 td2 -> matches T super same is_never td1 td2 = true ->
  covers T value has td1 td2.
Proof.
  intros td1 td2 D1 D2 O A E. unfold matches in E. apply orb_true_iff in E as [E|E].
  - apply N.eqb_eq in E. rewrite (O E). intros k t q o I1. left. exists t, q, o. easy.
  - eapply super_covers; eassumption.
Qed.

(** A TypedDict that is accepted for another one keeps whatever others rely on. *)
Theorem C66_assign : forall td1 td2, distinct T td1 -> distinct T td2 -> one_definition td1 td2 ->
  asked T is_never td1 td2 -> matches T super same is_never td1 td2 = true ->
  safe T value has td1 td2.
Proof. intros. apply covers_safe. now apply matches_covers. Qed.

(** Nothing is rejected that could be accepted, but for a few cases. *)
Theorem C66_reject : forall td1 td2, distinct T td1 -> distinct T td2 ->
  (forall m, In m (named T td1) -> two T value has (m_type T m)) ->
  (forall m, In m (named T td2) -> two T value has (m_type T m)) ->
  (forall x, extra_items T td1 = Some x -> is_never (x_type T x) = false ->
     two T value has (x_type T x)) ->
  safe T value has td1 td2 -> ~ excused T value has is_never td1 td2 ->
  accepts td1 td2 = true.
Proof. intros. eapply safe_accepted; eassumption. Qed.

(** A dict that is made by an accepted call or dict display is one of the TypedDict; being one is a
    contract of its own. *)
Theorem C66_literal : forall td es ps, distinct T td ->
  check_literal T super is_never td es = true ->
  (forall t, ~ In (KeyValue T None t) es)
  /\ (Forall2 (made T value has) es ps ->
      conforms td (display value ps) /\ models td (conforms td)).
Proof.
  intros td es ps D E. split.
  - intros t I1. apply in_split in I1 as (es1 & es2 & ->). unfold check_literal in E. cbv zeta in E.
    apply andb_true_iff in E as [E _]. rewrite fold_left_app in E. cbn [fold_left] in E.
    apply elements_back in E. discriminate.
  - intros H. split; [eapply literal_conforms; eassumption|]. now apply models_self.
Qed.

Theorem C66_call : forall td args vs, distinct T td ->
  check_call T super is_never td args = true ->
  (forall a, In a args -> fst a <> None)
  /\ (Forall2 (fun a p => exists k v, fst a = Some k /\ p = Pair value k v /\ has (snd a) v) args vs ->
      conforms td (display value vs)).
Proof.
  intros td args vs D E. split; [|intros H; eapply call_conforms; eassumption].
  intros a I1 N1. unfold check_call in E. apply andb_true_iff in E as [E _].
  rewrite forallb_forall in E. specialize (E a I1). now rewrite N1 in E.
Qed.

(** What is accepted as a dict or a Mapping keeps the contract too. *)
Theorem C66_dict : forall td t contract, models td contract ->
  (matches_dict T same true t td = true -> models_dict T value has t contract)
  /\ (matches_mapping T super unite true t td = true -> models_mapping T value has t contract).
Proof.
  intros td t contract M. split; intros E; [eapply dict_models|eapply mapping_models]; eassumption.
Qed.

(** Reading has the type that is inferred. *)
Theorem C66_read : forall td d, conforms td d ->
  (forall k t v, get_item T is_never td k = Some t -> d k = Some v -> has t v)
  /\ (forall x s i t k v, get_or_pop td x s false = Outcome T i t -> key_has x k ->
        match d k with Some w => v = w | None => default_has T value has none s v end -> has t v)
  /\ (forall x s t k v, get_or_pop td x s true = Outcome T false t -> key_has x k ->
        match d k with
        | Some w => v = w
        | None => default_has T value has none s v /\ s <> None
        end -> has t v)
  /\ (forall k v, d k = Some v -> has (values T unite object td) v)
  /\ (forall k v t, popitem T unite td = Some t -> d k = Some v -> has t v)
  /\ (has_required_members T td = true -> exists k, d k <> None).
Proof.
  intros td d F. split; [|split; [|split; [|split; [|split]]]].
  - intros k t v E G. unfold get_item in E. destruct (find_entry T is_never td k) as [e|] eqn:W; [|easy].
    injection E as <-. apply entry_item in W. specialize (F _ _ _ _ W). now rewrite G in F.
  - intros x s i t k v E K V. eapply get_or_pop_has; try eassumption; [easy|].
    destruct (d k); [exact V|]. split; [exact V|easy].
  - intros x s t k v E K V. eapply get_or_pop_has; try eassumption; [easy|].
    destruct (d k); [exact V|]. destruct V as [V N1]. split; [exact V|easy].
  - intros k v G. unfold values. destruct (has_extra_items T td) eqn:X.
    + eapply all_types; eassumption.
    + apply (right_object _ _ _ _ _ _ _ _ _ _ R).
  - intros k v t E G. unfold popitem in E. destruct (can_be_emptied T td) eqn:X; [|easy].
    injection E as <-. eapply all_types; try eassumption. unfold can_be_emptied in X.
    unfold has_extra_items. now destruct (extra_items T td).
  - intros E. apply existsb_exists in E as (m & I1 & Q). exists (m_name T m). intros G.
    specialize (F _ _ _ _ (member_item _ _ _ _ _ I1 Q eq_refl)). now rewrite G in F.
Qed.

(** What the program does with a dict: it is seen in other ways and changed through any of the
    views. *)
Inductive step : list typed_dict * dict value -> list typed_dict * dict value -> Prop :=
  | step_view : forall views d td1 td2, In td2 views -> distinct T td1 -> one_definition td1 td2 ->
      asked T is_never td1 td2 -> matches T super same is_never td1 td2 = true ->
      step (views, d) (td1 :: views, d)
  | step_setitem : forall views d td x t k v, In td views ->
      setitem T super same is_never td x t = true -> key_has x k -> has t v ->
      step (views, d) (views, apply (Set_ value k v) d)
  | step_delitem : forall views d td x k, In td views ->
      delitem T is_never unite object none_type td x = true -> key_has x k ->
      step (views, d) (views, apply (Del value k) d)
  | step_pop : forall views d td x s t k, In td views ->
      get_or_pop td x s true = Outcome T false t -> key_has x k ->
      step (views, d) (views, apply (Del value k) d)
  | step_popitem : forall views d td t k, In td views -> popitem T unite td = Some t ->
      step (views, d) (views, apply (Del value k) d)
  | step_clear : forall views d td, In td views -> clear T td = true ->
      step (views, d) (views, apply (Clear value) d)
  | step_setdefault : forall views d td x t r k v, In td views ->
      setdefault T super is_never unite object td x t = Outcome T false r -> key_has x k ->
      has t v -> (forall e, find_entry T is_never td k = Some e -> e_read_only T e = false) ->
      step (views, d) (views, match d k with Some _ => d | None => apply (Set_ value k v) d end).

Inductive steps : list typed_dict * dict value -> list typed_dict * dict value -> Prop :=
  | steps_nil : forall s, steps s s
  | steps_cons : forall s1 s2 s3, step s1 s2 -> steps s2 s3 -> steps s1 s3.

Definition good (contract : dict value -> Prop) (s : list typed_dict * dict value) : Prop :=
  contract (snd s) /\ forall td, In td (fst s) -> distinct T td /\ models td contract.

Lemma step_good : forall contract s1 s2, step s1 s2 -> good contract s1 -> good contract s2.
Proof.
  intros C s1 s2 H [Cd G]. cbn in Cd, G.
  destruct H; cbn [fst snd] in *; split; try exact Cd; try exact G; cbn [fst snd];
    destruct (G _ H) as [D M0].
  - intros td [<-|I1]; [|now apply G]. split; [assumption|]. eapply C66_assign; eassumption.
  - apply (proj2 (M0 d Cd)). eapply setitem_allowed; eassumption.
  - apply (proj2 (M0 d Cd)). unfold delitem in H0.
    destruct (get_or_pop td x None true) as [i r|] eqn:E; [|easy]. destruct i; [easy|].
    eapply pop_allowed; eassumption.
  - apply (proj2 (M0 d Cd)). eapply pop_allowed; eassumption.
  - apply (proj2 (M0 d Cd)). unfold popitem in H0.
    destruct (can_be_emptied T td) eqn:X; [|easy]. cbn. now apply emptied.
  - apply (proj2 (M0 d Cd)). cbn. now apply emptied.
  - destruct (d k) as [w|]; [exact Cd|].
    apply (proj2 (M0 d Cd)). eapply setdefault_has; try eassumption. exact (proj1 (M0 d Cd)).
Qed.

(** Whatever the program does, the dict is one of each of the TypedDicts it is seen as, and the
    contract of those who gave the dict away still holds. *)
Theorem C66_run : forall contract td d s, distinct T td -> models td contract -> contract d ->
  steps ([td], d) s ->
  contract (snd s) /\ forall td', In td' (fst s) -> conforms td' (snd s).
Proof.
  intros C td d s D M Cd H.
  assert (G : good C ([td], d)).
  { split; [exact Cd|]. cbn. intros td' [<-|[]]. auto. }
  clear D M Cd. induction H as [s|s1 s2 s3 H _ IH].
  - destruct G as [Cs G]. split; [exact Cs|]. intros td' I1. now apply G.
  - apply IH. eapply step_good; eassumption.
Qed.

(** The type of [setdefault]. *)
Theorem C66_setdefault : forall td x t r k d v,
  setdefault T super is_never unite object td x t = Outcome T false r -> key_has x k ->
  conforms td d -> has t v ->
  (forall e, find_entry T is_never td k = Some e -> e_read_only T e = false) ->
  has r (match d k with Some w => w | None => v end).
Proof. intros. eapply setdefault_has; eassumption. Qed.

(** An accepted [update] with a TypedDict changes nothing that is read-only. *)
Theorem C66_update : forall td from d k t q, update T is_never td from = true ->
  distinct T td -> conforms from d -> (extra_items T from = None -> only_names T value from d) ->
  item T td k t q true -> is_never t = false -> d k = None.
Proof. intros. eapply update_keeps; eassumption. Qed.

(** The join of two TypedDicts is a safe view of both, and both are one of the meet, without extra
    items. *)
Theorem C66_join : forall a b, extra_items T (intersection T same a b) = None ->
  safe T value has (intersection T same a b) a /\ safe T value has (intersection T same a b) b.
Proof. intros a b X. split; apply covers_safe; eapply intersection_covers; eassumption. Qed.

Theorem C66_meet : forall a b u, union T same a b = Some u ->
  extra_items T a = None -> extra_items T b = None ->
  safe T value has a u /\ safe T value has b u.
Proof.
  intros a b u E X1 X2. destruct (union_covers T value has super same is_never unite object none_type
    none R a b u E X1 X2). split; now apply covers_safe.
Qed.

(** Narrowing by [in] drops no TypedDict the dict may be one of. *)
Theorem C66_in : forall left_ right_ ts fs td d k,
  narrow_in T left_ right_ = Some (ts, fs) ->
  (forall l, In l left_ -> l <> None) -> In (Some k) left_ -> In td right_ -> conforms td d ->
  (d k <> None -> (is_final T td = true -> only_names T value td d) -> In td ts)
  /\ (d k = None -> In td fs).
Proof. intros. eapply narrow_keeps; eassumption. Qed.
End C66.

(** Types with values that can be looked at: a type is a set of five values. *)
Inductive val := VNone | VOne | VTwo | VA | VB.
Definition vals := [VNone; VOne; VTwo; VA; VB].
Definition typ := val -> bool.
Definition Has (t : typ) (v : val) : Prop := t v = true.
Definition Super (a b : typ) : bool := forallb (fun v => implb (b v) (a v)) vals.
Definition Same (a b : typ) : bool := forallb (fun v => eqb (a v) (b v)) vals.
Definition Is_never (a : typ) : bool := forallb (fun v => negb (a v)) vals.
Definition Unite (ts : list typ) : typ := fun v => existsb (fun t => t v) ts.
Definition Object : typ := fun _ => true.
Definition Never : typ := fun _ => false.
Definition Nothing : typ := fun v => match v with VNone => true | _ => false end.
Definition Int : typ := fun v => match v with VOne | VTwo => true | _ => false end.
Definition Str_ : typ := fun v => match v with VA | VB => true | _ => false end.

Lemma in_vals : forall v, In v vals.
Proof. intros []; cbn; tauto. Qed.

Lemma forall_vals : forall f : val -> bool, forallb f vals = true <-> forall v, f v = true.
Proof.
  intros f. rewrite forallb_forall. split; intros H v; [apply H, in_vals|now intros _].
Qed.

Lemma Right : right_types typ val Has Super Same Is_never Unite Object Nothing VNone.
Proof.
  constructor; unfold Has.
  - intros a b. unfold Super. rewrite forall_vals. split; intros H v.
    + specialize (H v). now destruct (b v), (a v).
    + specialize (H v). destruct (b v), (a v); cbn; auto.
  - intros a b. unfold Same. rewrite forall_vals. split; intros H v; specialize (H v).
    + apply eqb_prop in H. now rewrite H.
    + destruct (a v), (b v), H as [H1 H2]; cbn; try easy; [now discriminate H1|now discriminate H2].
  - intros a. unfold Is_never. rewrite forall_vals. split; intros H v; specialize (H v).
    + now destruct (a v).
    + now destruct (a v); [exfalso; apply H|].
  - intros ts v. unfold Unite. rewrite existsb_exists. easy.
  - reflexivity.
  - reflexivity.
Qed.

Definition M := mk_member typ.
Definition td (n : N) (ms : list (member typ)) (x : option (extra typ)) := mk_td typ n ms x false.
Definition Open_ : option (extra typ) := None.
Definition Closed := Some (mk_extra typ Never false).
Definition Accepts := is_super_type_of typ Super Same Is_never.

(** [class Movie(TypedDict): name: str; year: NotRequired[int]; tag: ReadOnly[object]] and a smaller
    one. *)
Definition Movie := td 1 [M 1 Str_ true false; M 2 Int false false; M 3 Object true true] Open_.
Definition Tagged := td 2 [M 3 Object true true; M 1 Str_ true false] Open_.
Definition Film := td 3 [M 1 Str_ true false; M 2 Int false false; M 3 Int true false] Open_.

Example C66_ex_accepts : Accepts Tagged Movie = true /\ Accepts Movie Film = true
  /\ Accepts Film Movie = false /\ Accepts Movie Tagged = false.
Proof. repeat split; reflexivity. Qed.

Lemma distinct_by : forall t l, map (m_name typ) (named typ t) = l -> NoDup l -> distinct typ t.
Proof. intros t l <- H. exact H. Qed.

Ltac distinct_tac := repeat (constructor; [cbn; intuition discriminate|]); constructor.

Example C66_ex_assign : safe typ val Has Movie Film.
Proof.
  apply (C66_assign _ _ _ _ _ _ _ _ _ _ Right).
  - distinct_tac.
  - distinct_tac.
  - intros E. discriminate.
  - intros x E. discriminate.
  - reflexivity.
Qed.

Definition film : dict val := fun k =>
  match k with 1 => Some VA | 3 => Some VOne | _ => None end.

Example C66_ex_literal : conforms typ val Has Film film.
Proof.
  intros k t q o [H|(_ & H & _)]; [|discriminate].
  destruct H as [[= <- <- <- <-]|[[= <- <- <- <-]|[[= <- <- <- <-]|[]]]]; reflexivity.
Qed.

(** A dict made as a Film is seen as a Movie and gets a year. *)
Example C66_ex_run : exists views d,
  steps typ val Has Super Same Is_never Unite Object Nothing ([Film], film) (views, d)
  /\ In Movie views /\ d 2 = Some VTwo
  /\ conforms typ val Has Film d /\ conforms typ val Has Movie d.
Proof.
  exists [Movie; Film], (apply val (Set_ val 2 VTwo) film).
  assert (S : steps typ val Has Super Same Is_never Unite Object Nothing ([Film], film)
                ([Movie; Film], apply val (Set_ val 2 VTwo) film)).
  { eapply steps_cons.
    - apply (step_view _ _ _ _ _ _ _ _ _ [Film] film Movie Film).
      + now left.
      + distinct_tac.
      + intros E. discriminate.
      + intros x E. discriminate.
      + reflexivity.
    - eapply steps_cons; [|apply steps_nil].
      apply (step_setitem _ _ _ _ _ _ _ _ _ [Movie; Film] film Movie (Literals 2 []) Int 2 VTwo).
      + now left.
      + reflexivity.
      + now left.
      + reflexivity. }
  assert (D : distinct typ Film) by distinct_tac.
  destruct (C66_run _ _ _ _ _ _ _ _ _ _ Right (conforms typ val Has Film) Film film _ D
    (models_self typ val Has Film D) C66_ex_literal S) as [H1 H2].
  - split; [exact S|]. split; [now left|]. split; [reflexivity|]. split; [exact H1|].
    apply H2. now left.
Qed.

(** Findings: what is accepted though it is not safe. *)
Lemma not_conforming : forall td1 td2 d k, distinct typ td2 -> conforms typ val Has td2 d ->
  (exists t q r, item typ td1 k t q r
     /\ match d k with Some v => t v = false | None => q = true end) ->
  ~ safe typ val Has td1 td2.
Proof.
  intros td1 td2 d k D F (t & q & r & I1 & H) S0.
  destruct (S0 _ (models_self typ val Has td2 D) d F) as [K _]. specialize (K _ _ _ _ I1).
  destruct (d k) as [v|].
  - unfold Has in K. congruence.
  - congruence.
Qed.

Definition empty : dict val := fun _ => None.

(** What others keep to themselves: the key stays away. *)
Lemma pinned_unsafe : forall td1 td2 k v, distinct typ td2 -> conforms typ val Has td2 empty ->
  (forall t q, ~ item typ td2 k t q false) -> allowed typ val Has td1 (Set_ val k v) ->
  ~ safe typ val Has td1 td2.
Proof.
  intros td1 td2 k v D F P A S0.
  destruct (S0 _ (pinned_models typ val Has td2 D k None P) empty (conj F eq_refl)) as [_ K].
  destruct (K _ A) as [_ E]. cbn in E. now rewrite N.eqb_refl in E.
Qed.

(** Extra items that may be changed against read-only ones. *)
Definition Ints := td 4 [] (Some (mk_extra typ Int false)).
Definition Read_ints := td 5 [] (Some (mk_extra typ Int true)).

Theorem C66_extra_read_only_refuted :
  Accepts Ints Read_ints = true /\ ~ safe typ val Has Ints Read_ints.
Proof.
  split; [reflexivity|]. apply (pinned_unsafe _ _ 7 VOne).
  - constructor.
  - intros k t q o [[]|(_ & _ & ->)]. reflexivity.
  - intros t q [[]|(_ & [= H] & _)].
  - exists Int, false. split; [|reflexivity]. right. split; [intros m []|]. split; reflexivity.
Qed.

(** Extra items that may be changed against a read-only member. *)
Definition Read_x := td 6 [M 7 Int false true] (Some (mk_extra typ Int false)).

Theorem C66_extra_member_refuted :
  Accepts Ints Read_x = true /\ ~ safe typ val Has Ints Read_x.
Proof.
  split; [reflexivity|]. apply (pinned_unsafe _ _ 7 VOne).
  - distinct_tac.
  - intros k t q o [[[= <- <- <- <-]|[]]|(_ & _ & ->)]; reflexivity.
  - intros t q [[[= H]|[]]|(H & _)]. now apply (H (M 7 Int false true)); [left|].
  - exists Int, false. split; [|reflexivity]. right. split; [intros m []|]. split; reflexivity.
Qed.

(** A closed TypedDict against one with more members. *)
Definition Closed_x := td 8 [M 1 Int true false] Closed.
Definition Closed_xy := td 9 [M 1 Int true false; M 2 Int true false] Closed.

Theorem C66_closed_refuted :
  Accepts Closed_x Closed_xy = true /\ ~ safe typ val Has Closed_x Closed_xy.
Proof.
  split; [reflexivity|].
  apply (not_conforming _ _ (fun k => match k with 1 | 2 => Some VOne | _ => None end) 2).
  - distinct_tac.
  - intros k t q o [[[= <- <- <- <-]|[[= <- <- <- <-]|[]]]|(H & [= <- <-] & ->)]; try reflexivity.
    destruct k as [|[k|k|]]; try reflexivity.
    + destruct k as [k|k|]; try reflexivity. now destruct (H (M 2 Int true false)); [right; left|].
    + now destruct (H (M 1 Int true false)); [left|].
  - exists Never, false, false. split; [|reflexivity]. right. split; [|split; reflexivity].
    intros m [<-|[]]. discriminate.
Qed.

(** The join of two TypedDicts has the definition of the first one, so it is accepted for it. *)
Definition A := td 10 [M 1 Int true false; M 2 Int true false] Open_.
Definition B := td 11 [M 1 Int true false; M 3 Int true false] Open_.

Theorem C66_join_refuted :
  Accepts A (intersection typ Same A B) = false
  /\ matches typ Super Same Is_never A (intersection typ Same A B) = true
  /\ safe typ val Has (intersection typ Same A B) B
  /\ ~ safe typ val Has A (intersection typ Same A B).
Proof.
  split; [reflexivity|]. split; [reflexivity|]. split.
  - apply (C66_join _ _ _ _ _ _ _ _ _ _ Right). reflexivity.
  - apply (not_conforming _ _ (fun k => match k with 1 | 3 => Some VOne | _ => None end) 2).
    + distinct_tac.
    + intros k t q o [[[= <- <- <- <-]|[]]|(_ & H & _)]; [reflexivity|discriminate].
    + exists Int, true, false. split; [|reflexivity]. left. right. now left.
Qed.

(** With extra items the join is not a view of both. *)
Definition Ints_x := td 12 [M 1 Str_ true false] (Some (mk_extra typ Int false)).
Definition Ints_y := td 13 [M 2 Str_ true false] (Some (mk_extra typ Int false)).

Theorem C66_join_extra_refuted :
  ~ safe typ val Has (intersection typ Same Ints_x Ints_y) Ints_x.
Proof.
  apply (not_conforming _ _ (fun k => match k with 1 => Some VA | _ => None end) 1).
  - distinct_tac.
  - intros k t q o [[[= <- <- <- <-]|[]]|(H & [= <- <-] & ->)]; try reflexivity.
    destruct k as [|[k|k|]]; try reflexivity. now destruct (H (M 1 Str_ true false)); [left|].
  - exists Int, false, false. split; [|reflexivity]. right. split; [intros m []|]. split; reflexivity.
Qed.

(** The meet has no extra items. *)
Theorem C66_meet_extra_refuted : exists u, union typ Same Ints Ints = Some u
  /\ ~ safe typ val Has Ints u.
Proof.
  eexists. split; [reflexivity|].
  apply (not_conforming _ _ (fun k => match k with 1 => Some VA | _ => None end) 1).
  - constructor.
  - intros k t q o [[]|(_ & H & _)]. discriminate.
  - exists Int, false, false. split; [|reflexivity]. right. split; [intros m []|]. split; reflexivity.
Qed.

(** [setdefault] sets a key that is read-only. *)
Definition Read_only := td 14 [M 1 Int false true] Open_.

Theorem C66_setdefault_refuted :
  (exists r, setdefault typ Super Is_never Unite Object Read_only (Literals 1 []) Int
     = Outcome typ false r)
  /\ setitem typ Super Same Is_never Read_only (Literals 1 []) Int = false
  /\ forall v, ~ allowed typ val Has Read_only (Set_ val 1 v).
Proof.
  split; [eexists; reflexivity|]. split; [reflexivity|].
  intros v (t & q & [[[= H]|[]]|(_ & H & _)] & _). discriminate.
Qed.

(** [update] does not look at the types of a TypedDict. *)
Theorem C66_update_refuted : exists d v, let from := td 15 [M 1 Str_ true false] Open_ in
  update typ Is_never A from = true /\ conforms typ val Has from d /\ d 1 = Some v
  /\ ~ allowed typ val Has A (Set_ val 1 v).
Proof.
  exists (fun k => match k with 1 => Some VA | _ => None end), VA. cbv zeta.
  split; [reflexivity|]. split; [|split; [reflexivity|]].
  - intros k t q o [[[= <- <- <- <-]|[]]|(_ & H & _)]; [reflexivity|discriminate].
  - intros (t & q & [[[= <- <-]|[[= H]|[]]]|(_ & H & _)] & V); discriminate.
Qed.

(** The hidden keys of an unpacked TypedDict are not looked at, and not its extra items. *)
Theorem C66_unpack_refuted : exists d,
  check_literal typ Super Is_never Ints_x [KeyValue typ (Some 1) Str_; Star typ Ints] = true
  /\ conforms typ val Has Ints d
  /\ ~ conforms typ val Has Ints_x (display val [Pair val 1 VA; Unpacked val d]).
Proof.
  exists (fun k => match k with 1 => Some VOne | _ => None end).
  split; [reflexivity|]. split.
  - intros k t q o [[]|(_ & [= <- <-] & ->)]. destruct k as [|[k|k|]]; reflexivity.
  - intros F. specialize (F 1 Str_ true false). cbn in F. unfold Has in F. discriminate F.
    left. now left.
Qed.

(** A final TypedDict with extra items is dropped though the key may be there. *)
Definition Final := mk_td typ 16 [M 1 Int true false] (Some (mk_extra typ Int false)) true.

Theorem C66_final_refuted : exists ts fs d,
  narrow_in typ [Some 2] [Final] = Some (ts, fs) /\ conforms typ val Has Final d
  /\ d 2 <> None /\ ~ In Final ts.
Proof.
  exists [], [Final], (fun k => match k with 1 | 2 => Some VOne | _ => None end).
  split; [reflexivity|]. split; [|split; [discriminate|easy]].
  intros k t q o [[[= <- <- <- <-]|[]]|(H & [= <- <-] & ->)]; [reflexivity|].
  destruct k as [|[k|k|]]; try reflexivity. destruct k; reflexivity.
Qed.

(** Other keys than string literals on the left are not thought of: with a key of type
    [Literal["x"] | int] the dict may well not have it. *)
Theorem C66_other_key_refuted : exists ts fs,
  narrow_in typ [Some 1; None] [A] = Some (ts, fs) /\ ~ In A fs.
Proof. exists [A], []. split; [reflexivity|easy]. Qed.

(** Findings: what is rejected though it is safe. *)
Definition Maybe := td 17 [M 1 Object false true] Open_.
Definition Nix := td 18 [] Open_.

Theorem C66_missing_object_refuted : Accepts Maybe Nix = false /\ safe typ val Has Maybe Nix.
Proof.
  split; [reflexivity|]. apply covers_safe.
  intros k t q o [[[= <- <- <- <-]|[]]|(_ & H & _)]; [|discriminate]. right. now split; [|split].
Qed.

Definition Maybe_int := td 19 [M 1 Int false true] Open_.
Definition Nix_closed := td 20 [] Closed.

Theorem C66_missing_closed_refuted :
  Accepts Maybe_int Nix_closed = false /\ safe typ val Has Maybe_int Nix_closed.
Proof.
  split; [reflexivity|]. apply covers_safe.
  intros k t q o [[[= <- <- <- <-]|[]]|(_ & H & _)]; [|discriminate]. left.
  exists Never, false, false. split; [right; split; [intros m []|split; reflexivity]|].
  split; [discriminate|]. split; [discriminate|]. discriminate.
Qed.

Definition Read_objects := td 21 [] (Some (mk_extra typ Object true)).

Theorem C66_required_extra_refuted :
  Accepts Read_objects Nix = false /\ safe typ val Has Read_objects Nix
  /\ Accepts Read_objects Ints_x = false /\ safe typ val Has Read_objects Ints_x.
Proof.
  assert (S0 : forall t, safe typ val Has Read_objects t).
  { intros t. apply covers_safe. intros k t' q o [[]|(_ & [= <- <-] & ->)]. right.
    split; [reflexivity|]. split; reflexivity. }
  split; [reflexivity|]. split; [apply S0|]. split; [reflexivity|apply S0].
Qed.

(** The hypotheses of the rejection hold for the examples. *)
Example C66_ex_reject : Accepts Movie Tagged = false /\ ~ safe typ val Has Movie Tagged
  /\ Accepts Film Movie = false /\ ~ safe typ val Has Film Movie.
Proof.
  assert (Tw : forall t : typ, (t VOne = true /\ t VTwo = true) \/ (t VA = true /\ t VB = true) ->
            two typ val Has t).
  { intros t [[H1 H2]|[H1 H2]]; [exists VOne, VTwo|exists VA, VB]; easy. }
  split; [reflexivity|]. split; [|split; [reflexivity|]]; intros S0.
  - assert (E : Accepts Movie Tagged = true); [|discriminate E].
    apply (C66_reject _ _ _ _ _ _ _ _ _ _ Right).
    + distinct_tac.
    + distinct_tac.
    + intros m [<-|[<-|[<-|[]]]]; apply Tw; cbn; auto.
    + intros m [<-|[<-|[]]]; apply Tw; cbn; auto.
    + discriminate.
    + exact S0.
    + intros [(m & [<-|[<-|[<-|[]]]] & H1 & H2 & _)|(x & H & _)]; discriminate.
  - assert (E : Accepts Film Movie = true); [|discriminate E].
    apply (C66_reject _ _ _ _ _ _ _ _ _ _ Right).
    + distinct_tac.
    + distinct_tac.
    + intros m [<-|[<-|[<-|[]]]]; apply Tw; cbn; auto.
    + intros m [<-|[<-|[<-|[]]]]; apply Tw; cbn; auto.
    + discriminate.
    + exact S0.
    + intros [(m & [<-|[<-|[<-|[]]]] & H1 & H2 & _)|(x & H & _)]; discriminate.
Qed.

(** The other operations on examples. *)
Example C66_ex_operations :
  setitem typ Super Same Is_never Movie (Literals 1 []) Str_ = true
  /\ setitem typ Super Same Is_never Movie (Literals 3 []) Str_ = false
  /\ setitem typ Super Same Is_never Ints Str Int = true
  /\ delitem typ Is_never Unite Object Nothing Movie (Literals 2 []) = true
  /\ delitem typ Is_never Unite Object Nothing Movie (Literals 2 [1]) = false
  /\ (exists t, get_or_pop typ Is_never Unite Object Nothing Movie (Literals 2 []) None false
        = Outcome typ false t /\ t VNone = true /\ t VOne = true /\ t VA = false)
  /\ clear typ Ints = true /\ clear typ Movie = false
  /\ matches_dict typ Same true Int Ints = true
  /\ matches_mapping typ Super Unite true Object Ints_x = true
  /\ matches_mapping typ Super Unite true Int Ints_x = false
  /\ check_call typ Super Is_never Film [(Some 1, Str_); (Some 3, Int)] = true
  /\ check_call typ Super Is_never Film [(Some 1, Str_)] = false
  /\ check_literal typ Super Is_never Film [Star typ Film; KeyValue typ (Some 2) Int] = true
  /\ update typ Is_never Movie Film = false
  /\ narrow_in typ [Some 2] [A; B] = Some ([A; B], [B]).
Proof.
  repeat match goal with |- _ /\ _ => split end; try reflexivity.
  eexists. split; [reflexivity|]. cbn. auto.
Qed.

Print Assumptions C66_assign.
Print Assumptions C66_reject.
Print Assumptions C66_run.
Print Assumptions C66_literal.
Print Assumptions C66_call.
Print Assumptions C66_dict.
Print Assumptions C66_read.
Print Assumptions C66_update.
Print Assumptions C66_join.
Print Assumptions C66_meet.
Print Assumptions C66_in.
Print Assumptions C66_join_refuted.
Print Assumptions C66_closed_refuted.
