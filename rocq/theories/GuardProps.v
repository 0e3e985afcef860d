(** C36: the guard against endless recursion. *)
From Coq Require Import List Bool Arith Lia.
From Verif Require Import GuardModel.
Import ListNotations.

Lemma nodup_snoc : forall A (l : list A) x, NoDup l -> ~ In x l -> NoDup (l ++ [x]).
Proof.
  intros A l x N H. apply (NoDup_Add (a := x) (l := l)); [|auto]. rewrite <- (app_nil_r l) at 1. apply Add_app.
Qed.

Lemma nodup_app_l : forall A (l r : list A), NoDup (l ++ r) -> NoDup l.
Proof.
  intros A l r. induction l as [|x l IH]; intros N; [constructor|]. inversion N as [|? ? N1 N2]; subst.
  constructor; [|exact (IH N2)]. intros I. apply N1, in_or_app. left. exact I.
Qed.

Lemma nodup_last : forall A (l : list A) x, NoDup (l ++ [x]) -> ~ In x l.
Proof.
  intros A l x. induction l as [|y l IH]; intros N; [intros []|]. inversion N as [|? ? N1 N2]; subst.
  intros [->|I]; [apply N1, in_or_app; right; left; reflexivity|exact (IH N2 I)].
Qed.

Section Guard.
  Variable T : Type.
  Variable eqb : T -> T -> bool.
  Hypothesis eqb_eq : forall a b, eqb a b = true <-> a = b.

  Notation is_cycle := (is_cycle T eqb).
  Notation items := (items T).

  (** Entering the items of [l] one after the other, below [s]. *)
  Fixpoint enter (s : already_seen T) (l : list T) : already_seen T :=
    match l with [] => s | x :: r => enter (append T s x) r end.

  Lemma items_current : forall s, items s = current T s :: iter_ancestors T s.
  Proof. intros [c [q|]]; reflexivity. Qed.

  Lemma items_enter : forall l s, items (enter s l) = rev l ++ items s.
  Proof. induction l as [|x l IH]; intros s; [reflexivity|]. cbn [enter rev]. rewrite IH, <- app_assoc. reflexivity. Qed.

  Lemma cycle_spec : forall s, is_cycle s = true <-> In (current T s) (iter_ancestors T s).
  Proof.
    intros s. unfold GuardModel.is_cycle. rewrite existsb_exists. split.
    - intros (x & H & E). apply eqb_eq in E. subst. exact H.
    - intros H. exists (current T s). split; [exact H|]. apply eqb_eq. reflexivity.
  Qed.

  (** A cycle is reported exactly if the item was entered before. *)
  Theorem C36_detects_cycles : forall first l x,
    is_cycle (enter (new T first) (l ++ [x])) = true <-> x = first \/ In x l.
  Proof.
    intros first l x. rewrite cycle_spec. assert (I := items_enter (l ++ [x]) (new T first)).
    rewrite items_current, rev_app_distr in I. cbn in I. injection I as -> ->. rewrite in_app_iff, <- in_rev. cbn. intuition.
  Qed.

  (** Nothing was reported on the way exactly if all the items are different. *)
  Theorem C36_no_report : forall first l,
    (forall k, is_cycle (enter (new T first) (firstn k l)) = false) <-> NoDup (first :: l).
  Proof.
    intros first l. split.
    - induction l as [|x l IH] using rev_ind; [repeat constructor; intros []|]. intros H.
      assert (N : NoDup (first :: l)).
      { apply IH. intros k. destruct (le_lt_dec k (length l)) as [L|L].
        - specialize (H k). rewrite firstn_app in H. replace (k - length l) with 0 in H by lia. cbn [firstn] in H. rewrite app_nil_r in H. exact H.
        - specialize (H (length l)). rewrite firstn_app, firstn_all, Nat.sub_diag in H. cbn [firstn] in H. rewrite app_nil_r in H.
          rewrite firstn_all2 by lia. exact H. }
      specialize (H (length (l ++ [x]))). rewrite firstn_all in H.
      assert (X : ~ (x = first \/ In x l)) by (rewrite <- C36_detects_cycles; congruence).
      clear - N X. change (NoDup ((first :: l) ++ [x])). apply nodup_snoc; [exact N|]. intros [E|E]; apply X; [left; congruence|right; exact E].
    - intros N k. destruct (is_cycle (enter (new T first) (firstn k l))) eqn:C; [|reflexivity]. exfalso.
      destruct (firstn k l) as [|y r] eqn:F using rev_ind; [discriminate|]. rewrite C36_detects_cycles in C.
      assert (E := firstn_skipn k l). rewrite F in E. rewrite <- E in N. clear - N C. change (first :: (r ++ [y]) ++ skipn k l) with ((first :: r ++ [y]) ++ skipn k l) in N.
      apply nodup_app_l in N. change (first :: r ++ [y]) with ((first :: r) ++ [y]) in N. apply nodup_last in N. apply N. destruct C as [->|C]; [left; reflexivity|right; exact C].
  Qed.

  (** ** Evaluation *)

  Variable needs : T -> list T.

  Inductive reaches : T -> T -> Prop :=
  | reaches_self x : reaches x x
  | reaches_step x y z : In y (needs x) -> reaches y z -> reaches x z.

  (** A way from an item to another one. *)
  Inductive way : T -> list T -> T -> Prop :=
  | way_end x : way x [x] x
  | way_step x y p z : In y (needs x) -> way y p z -> way x (x :: p) z.

  Lemma in_dec_T : forall (x : T) l, {In x l} + {~ In x l}.
  Proof.
    intros x l. destruct (existsb (eqb x) l) eqn:E; [left|right].
    - apply existsb_exists in E. destruct E as (y & H & F). apply eqb_eq in F. subst. exact H.
    - intros H. assert (existsb (eqb x) l = true); [|congruence]. apply existsb_exists. exists x. split; [exact H|apply eqb_eq; reflexivity].
  Qed.

  Lemma way_suffix : forall p x z y, way x p z -> In y p -> exists q, way y q z /\ incl q p /\ (NoDup p -> NoDup q).
  Proof.
    intros p x z y W. induction W as [x|x y' p z H W IH]; intros I.
    - destruct I as [<-|[]]. exists [x]. split; [constructor|]. split; [apply incl_refl|auto].
    - destruct I as [<-|I].
      + exists (x :: p). split; [econstructor; eassumption|]. split; [apply incl_refl|auto].
      + destruct (IH I) as (q & Q & QI & QN). exists q. split; [exact Q|]. split; [apply incl_tl; exact QI|]. intros N. inversion N. auto.
  Qed.

  Lemma reaches_simple : forall x z, reaches x z -> exists p, way x p z /\ NoDup p.
  Proof.
    intros x z R. induction R as [x|x y z H R (p & W & N)]; [exists [x]; split; repeat constructor; intros []|].
    destruct (in_dec_T x p) as [I|I].
    - destruct (way_suffix p y z x W I) as (q & Q & _ & QN). exists q. auto.
    - exists (x :: p). split; [econstructor; eassumption|constructor; assumption].
  Qed.

  Lemma way_reaches : forall x p z, way x p z -> reaches x z.
  Proof. intros x p z W. induction W; [constructor|econstructor; eassumption]. Qed.

  Notation evaluate := (evaluate T eqb needs).

  (** The loop over what an item needs. *)
  Fixpoint each (fuel : nat) (s : already_seen T) (l : list T) : option (list T) :=
    match l with
    | [] => Some [current T s]
    | x :: r => match evaluate fuel (append T s x), each fuel s r with Some a, Some b => Some (a ++ b) | _, _ => None end
    end.

  Lemma evaluate_eq : forall fuel s, evaluate (S fuel) s = if is_cycle s then Some [] else each fuel s (needs (current T s)).
  Proof.
    intros fuel s. cbn [GuardModel.evaluate]. destruct (is_cycle s); [reflexivity|].
    generalize (needs (current T s)). intros l. induction l as [|x l IH]; [reflexivity|]. cbn [each]. rewrite <- IH. reflexivity.
  Qed.

  Lemma each_in : forall fuel s l res, each fuel s l = Some res ->
    forall y, In y res <-> y = current T s \/ exists x a, In x l /\ evaluate fuel (append T s x) = Some a /\ In y a.
  Proof.
    induction l as [|x l IH]; intros res E y; cbn [each] in E.
    - injection E as <-. cbn. split; [intros [<-|[]]; left; reflexivity|intros [->|(x & a & [] & _)]; left; reflexivity].
    - destruct (evaluate fuel (append T s x)) as [a|] eqn:A; [|discriminate]. destruct (each fuel s l) as [b|] eqn:B; [|discriminate].
      injection E as <-. rewrite in_app_iff, (IH b eq_refl y). split.
      + intros [H|[H|(x' & a' & H1 & H2)]]; [right; exists x, a; cbn; auto|left; exact H|right; exists x', a'; cbn; tauto].
      + intros [H|(x' & a' & [<-|H1] & H2 & H3)]; [auto| |right; right; exists x', a'; auto]. left. congruence.
  Qed.

  (** The evaluated items are those on ways that do not touch the chain. *)
  Lemma evaluate_ways : forall fuel s l, evaluate fuel s = Some l -> is_cycle s = false -> forall y,
    In y l <-> exists p, way (current T s) p y /\ NoDup p /\ (forall x, In x p -> ~ In x (iter_ancestors T s)).
  Proof.
    induction fuel as [|fuel IH]; intros s l E C y; [discriminate|]. rewrite evaluate_eq, C in E. rewrite (each_in _ _ _ _ E y).
    assert (NC : ~ In (current T s) (iter_ancestors T s)) by (rewrite <- cycle_spec; congruence). split.
    - intros [->|(x & a & H1 & H2 & H3)].
      + exists [current T s]. split; [constructor|]. split; [repeat constructor; intros []|]. intros x [<-|[]]. exact NC.
      + destruct (is_cycle (append T s x)) eqn:C2.
        { destruct fuel; [discriminate|]. rewrite evaluate_eq, C2 in H2. injection H2 as <-. destruct H3. }
        apply (IH _ _ H2 C2) in H3. destruct H3 as (p & W & N & D). cbn [current append iter_ancestors] in *. rewrite items_current in D.
        exists (current T s :: p). split; [econstructor; eassumption|]. split.
        * constructor; [|exact N]. intros I. apply (D _ I). left. reflexivity.
        * intros z [<-|I]; [exact NC|]. intros J. apply (D z I). right. exact J.
    - intros (p & W & N & D). inversion W as [|? x q ? H1 W2]; subst; [left; reflexivity|]. right. exists x.
      inversion N as [|? ? N1 N2]; subst.
      assert (Ev : exists a, evaluate fuel (append T s x) = Some a).
      { clear - E H1. revert l E H1. induction (needs (current T s)) as [|x' r IHr]; intros l E H1; [destruct H1|]. cbn [each] in E.
        destruct (evaluate fuel (append T s x')) as [a|] eqn:A; [|discriminate]. destruct (each fuel s r) as [b|] eqn:B; [|discriminate].
        destruct H1 as [<-|H1]; [eauto|exact (IHr b eq_refl H1)]. }
      destruct Ev as [a Ev]. exists a. split; [exact H1|]. split; [exact Ev|].
      assert (Hx : In x q) by (inversion W2; left; reflexivity).
      apply (IH _ _ Ev).
      + destruct (is_cycle (append T s x)) eqn:C2; [|reflexivity]. apply cycle_spec in C2. cbn [current append iter_ancestors] in C2.
        rewrite items_current in C2. destruct C2 as [E2|I]; [exfalso; apply N1; rewrite E2; exact Hx|]. exfalso. apply (D x); [right; exact Hx|exact I].
      + exists q. split; [exact W2|]. split; [exact N2|]. cbn [append iter_ancestors]. rewrite items_current.
        intros z I [<-|J]; [exact (N1 I)|]. apply (D z); [right; exact I|exact J].
  Qed.

  Lemma evaluate_fuel : forall U fuel s, (forall x y, In x U -> In y (needs x) -> In y U) ->
    incl (items s) U -> NoDup (iter_ancestors T s) -> length U < fuel + length (iter_ancestors T s) -> exists l, evaluate fuel s = Some l.
  Proof.
    intros U. induction fuel as [|fuel IH]; intros s Cl I N L.
    - exfalso. assert (length (iter_ancestors T s) <= length U); [|lia]. apply NoDup_incl_length; [exact N|].
      rewrite items_current in I. intros x H. apply I. right. exact H.
    - rewrite evaluate_eq. destruct (is_cycle s) eqn:C; [eexists; reflexivity|].
      assert (NC : ~ In (current T s) (iter_ancestors T s)) by (rewrite <- cycle_spec; congruence).
      assert (G : forall l, incl l (needs (current T s)) -> exists r, each fuel s l = Some r); [|apply G, incl_refl].
      induction l as [|x l IHl]; intros H; [eexists; reflexivity|]. cbn [each].
      destruct (IH (append T s x)) as [a A].
      + exact Cl.
      + intros z Hz. cbn [append GuardModel.items] in Hz. destruct Hz as [<-|Hz]; [|apply I; exact Hz].
        apply (Cl (current T s)); [apply I; rewrite items_current; left; reflexivity|apply H; left; reflexivity].
      + cbn [append iter_ancestors]. rewrite items_current. constructor; assumption.
      + cbn [append iter_ancestors]. rewrite items_current. cbn [length]. lia.
      + rewrite A. destruct IHl as [b B]; [intros z Hz; apply H; right; exact Hz|]. rewrite B. eexists. reflexivity.
  Qed.

  (** Over finitely many items the evaluation ends, and exactly the items that are reachable are evaluated. *)
  Theorem C36_terminates : forall U first,
    In first U -> (forall x y, In x U -> In y (needs x) -> In y U) ->
    exists l, evaluate (S (length U)) (new T first) = Some l /\ forall y, In y l <-> reaches first y.
  Proof.
    intros U first F Cl. destruct (evaluate_fuel U (S (length U)) (new T first)) as [l E].
    - exact Cl.
    - intros x [<-|[]]. exact F.
    - constructor.
    - cbn. lia.
    - exists l. split; [exact E|]. intros y. rewrite (evaluate_ways _ _ _ E); [|reflexivity]. cbn [current new iter_ancestors]. split.
      + intros (p & W & _). exact (way_reaches _ _ _ W).
      + intros R. destruct (reaches_simple _ _ R) as (p & W & N). exists p. split; [exact W|]. split; [exact N|]. intros x _ [].
  Qed.
End Guard.
Print Assumptions C36_detects_cycles.
Print Assumptions C36_no_report.
Print Assumptions C36_terminates.

(** Items 0 to 3 with two cycles. *)
Definition needs4 (n : nat) : list nat := match n with 0 => [1; 2] | 1 => [0; 2] | 2 => [1; 3] | _ => [] end.

Example C36_example :
  evaluate nat Nat.eqb needs4 5 (new nat 0) = Some [3; 2; 1; 1; 3; 2; 0] /\
  is_cycle nat Nat.eqb (append nat (append nat (new nat 0) 1) 0) = true /\
  (forall x y, In x [0; 1; 2; 3] -> In y (needs4 x) -> In y [0; 1; 2; 3]).
Proof.
  split; [vm_compute; reflexivity|]. split; [reflexivity|].
  intros x y [<-|[<-|[<-|[<-|[]]]]]; cbn; intuition.
Qed.
