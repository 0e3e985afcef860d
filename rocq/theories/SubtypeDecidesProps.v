(** C58: a type accepts another exactly if the rules of the typing specification say so.

    For types built from classes, tuples, unions, literals, enums, [None], [Any] and [Never], and programs without protocols: what is
    accepted follows from the rules in [SubtypeRules]; what follows from them is not rejected; and when the classes can be given a depth,
    there always is an answer.  Without such a depth there is none for some programs: the recursion does not end. *)
From Coq Require Import List NArith Bool Lia.
From Verif Require Import TupleModel SubtypeModel SubtypeRules SubtypeProofs SubtypeSound SubtypeComplete SubtypeDecides.
Import ListNotations.
Open Scope N_scope.

Theorem C58_accepted_by_rules : forall p t1 t2, ordinary_program p -> ordinary p 0 t1 -> ordinary p 0 t2 -> accepts p t1 t2 -> sub p t1 t2.
Proof. intros p t1 t2 Hp H1 H2 [fuel H]. exact (run_allowed p Hp fuel _ H H1 H2). Qed.

Theorem C58_rules_not_rejected : forall p t1 t2, ordinary_program p -> ordinary p 0 t1 -> ordinary p 0 t2 -> sub p t1 t2 -> ~ rejects p t1 t2.
Proof. intros p t1 t2 Hp H1 H2 H (fuel & s & r & E). discriminate (run_complete p Hp t1 t2 fuel false _ H1 H2 H E). Qed.

Theorem C58_answered : forall p weight t1 t2, ordinary_program p -> ranked_program p weight -> ordinary p 0 t1 -> ordinary p 0 t2 -> accepts p t1 t2 \/ rejects p t1 t2.
Proof.
  intros p weight t1 t2 Hp Hr H1 H2. destruct (run_ends p Hp weight Hr t1 t2 H1 H2) as (fuel & o & E). destruct o as [s r|]; [right; exists fuel, s, r; exact E|left; exists fuel; exact E].
Qed.

Theorem C58_accepts : forall p weight t1 t2, ordinary_program p -> ranked_program p weight -> ordinary p 0 t1 -> ordinary p 0 t2 -> (accepts p t1 t2 <-> sub p t1 t2).
Proof.
  intros p weight t1 t2 Hp Hr H1 H2. split; [exact (C58_accepted_by_rules p t1 t2 Hp H1 H2)|]. intros H.
  destruct (C58_answered p weight t1 t2 Hp Hr H1 H2) as [A|R]; [exact A|]. destruct (C58_rules_not_rejected p t1 t2 Hp H1 H2 H R).
Qed.

Theorem C58_rejects : forall p weight t1 t2, ordinary_program p -> ranked_program p weight -> ordinary p 0 t1 -> ordinary p 0 t2 -> (rejects p t1 t2 <-> ~ sub p t1 t2).
Proof.
  intros p weight t1 t2 Hp Hr H1 H2. split; [intros R S; exact (C58_rules_not_rejected p t1 t2 Hp H1 H2 S R)|]. intros H.
  destruct (C58_answered p weight t1 t2 Hp Hr H1 H2) as [A|R]; [|exact R]. destruct (H (C58_accepted_by_rules p t1 t2 Hp H1 H2 A)).
Qed.

(** Programs with covariant type variables only, whatever the base classes are *)
Theorem C58_covariant : forall p, ordinary_program p -> (forall c, Forall (eq Covariant) (variances p c)) ->
  (exists rank : N -> nat, forall c d, promote_to p c = Some d -> (rank d < rank c)%nat) -> ranked_program p (fun _ => O).
Proof.
  intros p Hp Hv Hd.
  assert (Z : forall t, depth p (fun _ => O) t = O).
  { intros t. induction t using type_induction; try reflexivity; cbn [depth].
    - clear - H Hv. specialize (Hv c). revert gs H. induction Hv as [|v vs <- Hv IH]; intros gs H; [reflexivity|]. destruct H as [|g gs Hg H]; [reflexivity|]. cbn. rewrite Hg. exact (IH gs H).
    - clear - H. induction H as [|t ts Ht H IH]; [reflexivity|]. cbn. rewrite Ht. exact IH.
    - rewrite IHt. reflexivity.
    - clear - H. induction H as [|t ts Ht H IH]; [reflexivity|]. cbn. rewrite Ht. exact IH. }
  constructor; try (intros; rewrite !Z; lia); [|exact Hd].
  pose proof (tuple_generic p Hp) as L. specialize (Hv (tuple_class p)). destruct (variances p (tuple_class p)) as [|v [|u vs]]; try discriminate L.
  inversion Hv as [|? ? E _]. rewrite <- E. reflexivity.
Qed.

(** ** A program: [bool(int)], [str(Sequence[str])], [tuple(Sequence[T])], a covariant [Sequence], an invariant [list(Sequence[T])],
    [Dog(Animal)], a contravariant [Callback], [IntList(list[int])], the class [Color] of an enum, [Strings(Callback[str])] *)
Definition find {A} (table : list (N * list A)) (c : N) : list A := flat_map (fun x => if fst x =? c then snd x else []) table.

Definition library_variances : list (N * list variance) := [(6, [Covariant]); (7, [Covariant]); (8, [Invariant]); (11, [Contravariant])].
Definition library_bases : list (N * list type) :=
  [(4, [Class 1 []]); (2, [Class 7 [Class 2 []]]); (6, [Class 7 [TypeVar 0]]); (8, [Class 7 [TypeVar 0]]); (10, [Class 9 []]); (12, [Class 8 [Class 1 []]; Class 7 [Class 1 []]]);
   (13, [Class 14 []]); (15, [Class 11 [Class 2 []]])].

Definition build (bs : list (N * list type)) : program := {|
  object := 0; bool_class := 4; int_class := 1; str_class := 2; bytes_class := 3; tuple_class := 6; bare_type := 16; generic_alias := 17;
  variances := find library_variances;
  bases := find bs;
  metaclass := fun _ => NoMetaclass;
  is_metaclass := fun _ => false;
  incomplete := fun _ => false;
  promote_to := fun c => if (c =? 1) || (c =? 4) then Some 5 else if c =? 5 then Some 18 else None;
  is_protocol := fun _ => false;
  check_protocol := fun _ _ _ => no;
  enum_class := fun _ => 13;
  newtype_type := fun _ => Any;
  kind_of := fun _ => Unrestricted;
  entries := fun a => match a with ArbitraryLen t | FixedLen [t] => t | _ => Class 0 [] end;
  same_union := fun _ _ => false
|}.

Definition library : program := build library_bases.

Lemma find_in : forall {A} (table : list (N * list A)) c x, In x (find table c) -> exists l, In (c, l) table /\ In x l.
Proof.
  intros A table c x H. apply in_flat_map in H. destruct H as ([d l] & Hd & Hx). cbn in Hx. destruct (N.eqb_spec d c) as [->|Hne]; [|destruct Hx]. exists l. auto.
Qed.

Lemma find_other : forall {A} (table : list (N * list A)) c, ~ In c (map fst table) -> find table c = [].
Proof.
  intros A table c. induction table as [|[d l] table IH]; intros H; [reflexivity|]. cbn in H. cbn [find flat_map fst snd].
  destruct (N.eqb_spec d c) as [->|Hne]; [destruct H; left; reflexivity|]. apply IH. tauto.
Qed.

Lemma build_ordinary : forall bs, (forall c b, In b (find bs c) -> (exists d ds, b = Class d ds) /\ ordinary (build bs) (length (find library_variances c)) b) ->
  (forall c, NoDup (c :: flat_map named (find bs c))) -> ordinary_program (build bs).
Proof.
  intros bs Hb Hn. constructor; try reflexivity; try assumption.
  - intros []; reflexivity.
  - intros c d. cbn. destruct ((c =? 1) || (c =? 4)); [intros E; injection E as <-; reflexivity|]. destruct (c =? 5); [intros E; injection E as <-; reflexivity|discriminate].
  - intros a Ho. destruct a as [ts|t|w]; cbn [entries build]; [|exact Ho|split; [reflexivity|constructor]].
    destruct ts as [|t [|u ts]]; try (split; [reflexivity|constructor]). cbn in Ho. inversion Ho. assumption.
  - discriminate.
Qed.

Ltac table H := apply find_in in H; destruct H as (l & Ht & H); cbn in Ht;
  repeat (destruct Ht as [Ht|Ht]; [injection Ht as <- <-; cbn in H; repeat (destruct H as [<-|H]); try destruct H|]); try destruct Ht.

Lemma library_ordinary : ordinary_program library.
Proof.
  apply build_ordinary.
  - intros c b H. table H; (split; [eexists; eexists; reflexivity|]); repeat (constructor; cbn); lia.
  - intros c. destruct (in_dec N.eq_dec c (map fst library_bases)) as [H|H].
    + cbn in H. repeat (destruct H as [<-|H]; [cbn; repeat constructor; cbn; lia|]). destruct H.
    + rewrite (find_other _ _ H). constructor; [intros []|constructor].
Qed.

(** [IntList] and [Strings] have the depth one. *)
Definition library_weight (c : N) : nat := if (c =? 12) || (c =? 15) then 1%nat else O.

Lemma library_ranked : ranked_program library library_weight.
Proof.
  constructor; try reflexivity.
  - intros c gs b Ho H. destruct Ho as [Hl _]. cbn [library build bases variances] in H, Hl.
    table H; cbn in Hl; repeat (destruct gs as [|? gs]; try discriminate Hl); cbn; lia.
  - intros a Ho. destruct a as [ts|t|w]; cbn; try lia. destruct ts as [|t [|u ts]]; cbn; lia.
  - exists (fun c => if c =? 5 then 1%nat else if (c =? 1) || (c =? 4) then 2%nat else O). intros c d. cbn.
    destruct (N.eqb_spec c 1) as [->|H1]; [intros E; injection E as <-; cbn; lia|]. destruct (N.eqb_spec c 4) as [->|H4]; [intros E; injection E as <-; cbn; lia|].
    cbn [orb]. destruct (N.eqb_spec c 5) as [->|H5]; [intros E; injection E as <-; cbn; lia|discriminate].
Qed.

(** Here, assignability is the relation of the rules. *)
Theorem C58_library : forall t1 t2, ordinary library 0 t1 -> ordinary library 0 t2 -> (accepts library t1 t2 <-> sub library t1 t2) /\ (rejects library t1 t2 <-> ~ sub library t1 t2).
Proof.
  intros t1 t2 H1 H2. split; [exact (C58_accepts _ _ _ _ library_ordinary library_ranked H1 H2)|exact (C58_rejects _ _ _ _ library_ordinary library_ranked H1 H2)].
Qed.

(** A list of dogs is no list of animals, but a sequence of animals. *)
Example C58_list : ~ sub library (Class 8 [Class 9 []]) (Class 8 [Class 10 []]) /\ sub library (Class 7 [Class 9 []]) (Class 8 [Class 10 []]).
Proof.
  assert (O : forall c d, find library_variances c = [Invariant] \/ find library_variances c = [Covariant] -> find library_variances d = [] -> ordinary library 0 (Class c [Class d []])).
  { intros c d Hc Hd. split; [cbn [variances library build]; destruct Hc as [-> | ->]; reflexivity|]. repeat constructor. cbn [variances library build]. rewrite Hd. reflexivity. }
  split.
  - intros H. refine (C58_rules_not_rejected _ _ _ library_ordinary _ _ H _); [apply O; auto|apply O; auto|]. exists 10%nat, true, false. reflexivity.
  - apply (C58_accepted_by_rules _ _ _ library_ordinary); [apply O; auto|apply O; auto|]. exists 10%nat. reflexivity.
Qed.

(** A callback for animals is one for dogs; a class of strings does for [float | Sequence[str]]. *)
Example C58_callback : sub library (Class 11 [Class 10 []]) (Class 11 [Class 9 []]) /\ sub library (Union [Class 5 []; Class 7 [Class 2 []]]) (Union [Class 2 []; Literal (LInt 3 false); Class 4 []]).
Proof.
  split.
  - eapply s_class; [constructor|]. constructor; [|constructor]. eapply s_class; [apply (i_base library 10 [] 9 []); left; reflexivity|constructor].
  - apply s_union_given. apply all_more; [|apply all_more; [|apply all_more; [|apply all_none]]].
    + eapply s_union_expected; [right; left; reflexivity|]. eapply s_class; [apply (i_base library 2 [] 7 [Class 2 []]); left; reflexivity|]. constructor; [|constructor].
      eapply s_class; constructor.
    + eapply s_union_expected; [left; reflexivity|]. eapply s_promotion; [constructor|]. apply pr_one. reflexivity.
    + eapply s_union_expected; [left; reflexivity|]. eapply s_promotion; [constructor|]. apply pr_one. reflexivity.
Qed.

(** ** Without a depth, the recursion may not end: [class C(Callback["Callback[C]"])] given where [Callback[C]] is expected *)
Definition looping : program := build [(20, [Class 11 [Class 11 [Class 20 []]]])].

Lemma looping_ordinary : ordinary_program looping.
Proof.
  apply build_ordinary.
  - intros c b H. table H; (split; [eexists; eexists; reflexivity|]); repeat (constructor; cbn).
  - intros c. destruct (N.eq_dec c 20) as [->|H]; [cbn; repeat constructor; cbn; lia|]. rewrite find_other by (cbn; intros [E|[]]; congruence). constructor; [intros []|constructor].
Qed.

Theorem C58_answered_refuted : exists p t1 t2, ordinary_program p /\ ordinary p 0 t1 /\ ordinary p 0 t2 /\ ~ sub p t1 t2 /\ forall fuel, run p fuel (Matches Covariant false t1 t2) = None.
Proof.
  exists looping, (Class 11 [Class 20 []]), (Class 20 []). split; [exact looping_ordinary|]. split; [repeat constructor|]. split; [repeat constructor|]. split.
  - assert (G : (forall t1 t2, sub looping t1 t2 -> ~ (t1 = Class 11 [Class 20 []] /\ t2 = Class 20 [])) /\ (forall t1 t2, same looping t1 t2 -> True) /\
      (forall vs l m, related looping vs l m -> ~ (vs = [Contravariant] /\ l = [Class 20 []] /\ m = [Class 11 [Class 20 []]])) /\
      (forall l m, subs looping l m -> True) /\ (forall l m, sames looping l m -> True) /\ (forall t l, sub_all looping t l -> True)).
    { apply (rules_ind looping (fun t1 t2 _ => ~ (t1 = Class 11 [Class 20 []] /\ t2 = Class 20 [])) (fun _ _ _ => True)
        (fun vs l m _ => ~ (vs = [Contravariant] /\ l = [Class 20 []] /\ m = [Class 11 [Class 20 []]])) (fun _ _ _ => True) (fun _ _ _ => True) (fun _ _ _ => True));
        intros; try exact I; try (intros (E1 & E2); discriminate).
      - intros (E1 & E2). injection E1 as -> ->. subst t. apply H. inversion i as [|? ? ? ds Hin| | | | |]; subst. apply find_in in Hin. destruct Hin as (l & Ht & Hl).
        cbn in Ht. destruct Ht as [Ht|[]]. injection Ht as <-. destruct Hl as [Hl|[]]. injection Hl as <-. repeat split.
      - intros (E1 & E2 & E3). apply H. injection E2 as -> _. injection E3 as -> _. auto. }
    intros H. exact (proj1 G _ _ H (conj eq_refl eq_refl)).
  - assert (G : forall fuel r, run looping fuel (Matches Covariant r (Class 11 [Class 20 []]) (Class 20 [])) = None).
    { intros fuel. induction fuel as [|fuel IH]; intros r; [reflexivity|]. cbn [run respond]. unfold super_type_of.
      assert (E : matches_class looping (run looping fuel) Covariant r 11 [Class 20 []] 11 [Class 11 [Class 20 []]] = None).
      { unfold matches_class. cbn [N.eqb Pos.eqb negb variances looping build find library_variances flat_map fst snd app zip3 each]. unfold argument_matches, generic_matches. cbn [fst snd variance_of_argument invert].
        destruct r; unfold matches.
        - rewrite IH. reflexivity.
        - destruct fuel as [|fuel]; [reflexivity|]. assert (Er : run looping (S fuel) (Matches Contravariant false (Class 20 []) (Class 11 [Class 20 []])) = run looping (S fuel) (Matches Covariant true (Class 11 [Class 20 []]) (Class 20 []))) by reflexivity.
          rewrite Er, IH. reflexivity. }
      assert (Em : match_mro looping (run looping fuel) r (Class 11 [Class 20 []]) (mro looping (Class 20 [])) = None).
      { change (mro looping (Class 20 [])) with [Class 20 []; Class 11 [Class 11 [Class 20 []]]; Class 0 []]. cbn [match_mro matches_internal matches_class_against_type].
        change (matches_class looping (run looping fuel) Covariant r 11 [Class 20 []] 20 []) with (Some no). cbn [then_ plain no]. rewrite E. reflexivity. }
      cbn [looks_at_mro negb]. rewrite Em. reflexivity. }
    intros fuel. apply G.
Qed.

Print Assumptions C58_accepted_by_rules.
Print Assumptions C58_rules_not_rejected.
Print Assumptions C58_answered.
Print Assumptions C58_accepts.
Print Assumptions C58_rejects.
Print Assumptions C58_covariant.
Print Assumptions C58_library.
Print Assumptions C58_answered_refuted.
