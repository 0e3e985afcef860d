(** Types for which the laws of SolveSpec hold: three plain classes under [object], a covariant, a
    contravariant and an invariant generic class, and a class that inherits from the covariant one. *)
From Coq Require Import List NArith Bool Lia PeanoNat.
From Verif Require Import SolveModel SolveSpec Solve SolveCall.
Import ListNotations.

Inductive ty := Object | Num | Int | Str | Box (t : ty) | IntBox | Fun (t : ty) | Cell (t : ty).

(** [cmp true]: the first is a subtype of the second; [cmp false]: the other way. *)
Fixpoint cmp (up : bool) (a b : ty) : bool :=
  match a, b with
  | Object, Object | Num, Num | Int, Int | Str, Str | IntBox, IntBox => true
  | _, Object => up
  | Object, _ => negb up
  | Int, Num => up
  | Num, Int => negb up
  | Box a, Box b => cmp up a b
  | IntBox, Box b => up && match b with Object | Num | Int => true | _ => false end
  | Box a, IntBox => negb up && match a with Object | Num | Int => true | _ => false end
  | Fun a, Fun b => cmp (negb up) a b
  | Cell a, Cell b => cmp true a b && cmp false a b
  | _, _ => false
  end.

Definition le (a b : ty) : bool := cmp true a b.
Definition same (a b : ty) : bool := le a b && le b a.

Lemma cmp_flip a : forall up b, cmp up a b = cmp (negb up) b a.
Proof.
  induction a as [| | | | a IH | | a IH | a IH]; intros up [| | | | b | | b | b]; destruct up; cbn; trivial;
    try (rewrite IH; reflexivity); rewrite (IH true), (IH false); cbn; apply andb_comm.
Qed.

Lemma cmp_refl a : forall up, cmp up a a = true.
Proof. induction a as [| | | | a IH | | a IH | a IH]; intros up; cbn; auto. rewrite !IH. reflexivity. Qed.

Lemma ty_refl a : le a a = true.
Proof. apply cmp_refl. Qed.

Lemma ty_trans b : forall a c, le a b = true -> le b c = true -> le a c = true.
Proof.
  unfold le.
  induction b as [| | | | b IH | | b IH | b IH]; intros [| | | | a | | a | a] [| | | | c | | c | c]; cbn; try discriminate; trivial;
    try (apply IH).
  - destruct b; try discriminate; destruct c; cbn; try discriminate; trivial.
  - rewrite (cmp_flip a false b), (cmp_flip b false c), (cmp_flip a false c). cbn. intros H1 H2. exact (IH _ _ H2 H1).
  - rewrite !andb_true_iff, (cmp_flip a false b), (cmp_flip b false c), (cmp_flip a false c). cbn.
    intros [H1 H2] [H3 H4]. split; [exact (IH _ _ H1 H3) | exact (IH _ _ H4 H2)].
Qed.

(** [op true]: the least common base; [op false]: the greatest common subtype. *)
Fixpoint op (up : bool) (a b : ty) : option ty :=
  match a, b with
  | Object, x | x, Object => if up then Some Object else Some x
  | Int, Int => Some Int
  | Num, Num => Some Num
  | Num, Int | Int, Num => if up then Some Num else Some Int
  | Str, Str => Some Str
  | Box a, Box b => match op up a b with Some t => Some (Box t) | None => None end
  | IntBox, IntBox => Some IntBox
  | IntBox, Box b | Box b, IntBox =>
      if up then Some (Box (match b with Int => Int | Num => Num | _ => Object end))
      else match b with Object | Num | Int => Some IntBox | _ => None end
  | Fun a, Fun b =>
      match op (negb up) a b with
      | Some t => Some (Fun t)
      | None => if up then Some Object else None
      end
  | Cell a, Cell b => if cmp true a b && cmp false a b then Some (Cell a) else if up then Some Object else None
  | _, _ => if up then Some Object else None
  end.

Definition join (a b : ty) : option ty := op true a b.
Definition meet (a b : ty) : option ty := op false a b.

Definition is_join (a b c : ty) : Prop :=
  le a c = true /\ le b c = true /\ forall d, le a d = true -> le b d = true -> le c d = true.
Definition is_meet (a b c : ty) : Prop :=
  le c a = true /\ le c b = true /\ forall d, le d a = true -> le d b = true -> le d c = true.

Definition right (a b : ty) : Prop :=
  (exists c, join a b = Some c /\ is_join a b c) /\
  (forall c, meet a b = Some c -> is_meet a b c) /\
  (meet a b = None -> forall d, le d a = true -> le d b = true -> False).

Ltac below := let d := fresh "d" in intros d;
  destruct d as [| | | | d | | d | d]; cbn; try discriminate; trivial;
  destruct d; cbn; try discriminate; trivial.

Ltac found := split; [first [apply cmp_refl | reflexivity]|]; split; [first [apply cmp_refl | reflexivity] | try solve [auto | below]].

Ltac simple_case :=
  split; [eexists; split; [reflexivity | found] |
    split; [let c := fresh "c" in intros c [= <-]; found | try discriminate; intros _; try solve [below]]].

Lemma op_right a : forall b, right a b.
Proof.
  unfold right, join, meet, is_join, is_meet, le.
  induction a as [| | | | a IH | | a IH | a IH]; intros b.
  1-4: destruct b as [| | | | b | | b | b]; simple_case.
  - destruct b as [| | | | b | | b | b]; try simple_case.
    + destruct (IH b) as ((c & E & A1 & A2 & A3) & B & D). cbn. rewrite E. split; [|split].
      * eexists. split; [reflexivity|]. split; [exact A1|]. split; [exact A2|].
        intros [| | | | d | | d | d]; cbn; try discriminate; trivial. apply A3.
      * intros c'. destruct (op false a b) as [m|] eqn:Em; [|discriminate]. intros [= <-].
        destruct (B m eq_refl) as (B1 & B2 & B3). split; [exact B1|]. split; [exact B2|].
        intros [| | | | d | | d | d]; cbn; try discriminate; trivial; [apply B3|].
        intros H1 H2. destruct m; cbn in *; trivial;
          specialize (B3 Int); destruct a, b; cbn in *; try discriminate; trivial; auto.
      * destruct (op false a b) as [m|] eqn:Em; [discriminate|]. intros _.
        intros [| | | | d | | d | d]; cbn; try discriminate; [apply (D eq_refl)|].
        intros H1 H2. destruct a, b; cbn in *; try discriminate.
    + destruct a; simple_case.
  - destruct b as [| | | | b | | b | b]; try simple_case. destruct b; simple_case.
  - destruct b as [| | | | b | | b | b]; try simple_case.
    destruct (IH b) as ((c & E & A1 & A2 & A3) & B & D). cbn. rewrite E. split; [|split].
    + destruct (op false a b) as [m|] eqn:Em.
      * destruct (B m eq_refl) as (B1 & B2 & B3). eexists. split; [reflexivity|]. cbn. rewrite !(cmp_flip _ false).
        split; [exact B1|]. split; [exact B2|].
        intros [| | | | d | | d | d]; cbn; try discriminate; trivial. rewrite !(cmp_flip _ false). apply B3.
      * eexists. split; [reflexivity|]. split; [reflexivity|]. split; [reflexivity|].
        intros [| | | | d | | d | d]; cbn; try discriminate; trivial. rewrite !(cmp_flip _ false). cbn.
        intros H1 H2. destruct (D eq_refl d H1 H2).
    + intros c' [= <-]. cbn. rewrite !(cmp_flip _ false). split; [exact A1|]. split; [exact A2|].
      intros [| | | | d | | d | d]; cbn; try discriminate; trivial. rewrite !(cmp_flip _ false). apply A3.
    + discriminate.
  - destruct b as [| | | | b | | b | b]; try simple_case. cbn.
    destruct (cmp true a b) eqn:E1; [destruct (cmp false a b) eqn:E2|]; cbn.
    + split; [|split].
      * eexists. split; [reflexivity|]. cbn. rewrite !cmp_refl. split; [reflexivity|].
        split; [rewrite (cmp_flip b true), (cmp_flip b false); cbn; rewrite E1, E2; reflexivity|].
        trivial.
      * intros c' [= <-]. cbn. rewrite !cmp_refl, E1, E2. split; [reflexivity|]. split; [reflexivity|]. trivial.
      * discriminate.
    + split; [|split; [discriminate|]].
      * eexists. split; [reflexivity|]. split; [reflexivity|]. split; [reflexivity|].
        intros [| | | | d | | d | d]; cbn; try discriminate; trivial. rewrite !andb_true_iff. intros [H1 H2] [H3 H4].
        rewrite cmp_flip in H3. rewrite cmp_flip in H2. cbn in *. rewrite cmp_flip in E2. cbn in E2.
        rewrite cmp_flip in H3. cbn in H3. pose proof (ty_trans d b a H3 H2). unfold le in *. congruence.
      * intros _ [| | | | d | | d | d]; cbn; try discriminate; trivial. rewrite !andb_true_iff. intros [H1 H2] [H3 H4].
        rewrite cmp_flip in H4. rewrite cmp_flip in E2. cbn in *. pose proof (ty_trans d b a H4 H1). unfold le in *. congruence.
    + split; [|split; [discriminate|]].
      * eexists. split; [reflexivity|]. split; [reflexivity|]. split; [reflexivity|].
        intros [| | | | d | | d | d]; cbn; try discriminate; trivial. rewrite !andb_true_iff. intros [H1 H2] [H3 H4].
        rewrite cmp_flip in H4. cbn in *. pose proof (ty_trans d a b H1 H4). unfold le in *. congruence.
      * intros _ [| | | | d | | d | d]; cbn; try discriminate; trivial. rewrite !andb_true_iff. intros [H1 H2] [H3 H4].
        rewrite cmp_flip in H2. cbn in *. pose proof (ty_trans d a b H2 H3). unfold le in *. congruence.
Qed.

Definition inst (c : N) (ts : list ty) : ty :=
  match c, ts with
  | 0%N, [t] => Box t
  | 1%N, [t] => Fun t
  | 2%N, [t] => Cell t
  | 3%N, _ => Num
  | _, _ => Object
  end.

Definition variances (c : N) : list variance :=
  match c with 0%N => [Covariant] | 1%N => [Contravariant] | 2%N => [Invariant_] | _ => [] end.

Definition as_instance_of (t : ty) (c : N) : option (list ty) :=
  match c, t with
  | 0%N, Box t => Some [t]
  | 0%N, IntBox => Some [Int]
  | 1%N, Fun t => Some [t]
  | 2%N, Cell t => Some [t]
  | 0%N, _ | 1%N, _ | 2%N, _ => None
  | 3%N, Num | 3%N, Int => Some []
  | 3%N, _ => None
  | _, _ => Some []
  end.

Definition instance_of (t : ty) (c : N) : option (list ty) :=
  match c, t with
  | 0%N, Box t => Some [t]
  | 1%N, Fun t => Some [t]
  | 2%N, Cell t => Some [t]
  | 0%N, _ | 1%N, _ | 2%N, _ => None
  | 3%N, Num => Some []
  | 3%N, _ => None
  | _, Object => Some []
  | _, _ => None
  end.

Definition members (t : ty) : list ty := [t].

Definition join_or (a b : ty) : ty := match join a b with Some c => c | None => Object end.

Definition union (ts : list ty) : ty :=
  match ts with [] => Object | t :: ts => fold_left join_or ts t end.

Theorem ty_order : order ty le same same.
Proof.
  constructor.
  - exact ty_refl.
  - intros a b c. apply ty_trans.
  - intros a b. apply andb_true_iff.
  - intros a b. apply andb_true_iff.
Qed.

Theorem ty_joins : joins ty le join meet.
Proof.
  constructor.
  - intros a b c E. destruct (op_right a b) as ((c' & E' & A1 & A2 & _) & _). rewrite E in E'.
    injection E' as <-. split; assumption.
  - intros a b c d E. destruct (op_right a b) as ((c' & E' & _ & _ & A) & _). rewrite E in E'.
    injection E' as <-. apply A.
  - intros a b c E. destruct (op_right a b) as (_ & A & _). destruct (A c E) as (A1 & A2 & _). split; assumption.
Qed.

Theorem ty_complete_joins : complete_joins ty le join meet.
Proof.
  constructor.
  - intros a b d _ _. destruct (op_right a b) as ((c & E & _) & _). exists c. exact E.
  - intros a b c d E. destruct (op_right a b) as (_ & A & _). apply (A c E).
  - intros a b d H1 H2. destruct (op_right a b) as (_ & _ & A). destruct (meet a b) as [c|]; [eauto|].
    destruct (A eq_refl d H1 H2).
Qed.

Lemma join_or_right a b : is_join a b (join_or a b).
Proof. unfold join_or. destruct (op_right a b) as ((c & -> & A) & _). exact A. Qed.

Lemma fold_join ts : forall a,
  le a (fold_left join_or ts a) = true /\ (forall t, In t ts -> le t (fold_left join_or ts a) = true) /\
  (forall u, le a u = true -> (forall t, In t ts -> le t u = true) -> le (fold_left join_or ts a) u = true).
Proof.
  induction ts as [|t ts IH]; intros a.
  - cbn. split; [apply ty_refl|]. split; [intros t [] | auto].
  - cbn [fold_left]. destruct (join_or_right a t) as (J1 & J2 & J3). destruct (IH (join_or a t)) as (A & B & D).
    split; [exact (ty_trans _ _ _ J1 A)|]. split.
    + intros x [<- | Hx]; [exact (ty_trans _ _ _ J2 A) | apply B, Hx].
    + intros u Hu Ht. apply D; [apply J3; auto using in_eq | auto using in_cons].
Qed.

Lemma case_class (c : N) : c = 0%N \/ c = 1%N \/ c = 2%N \/ c = 3%N \/
  (variances c = [] /\ (forall ts, inst c ts = Object) /\ (forall t, as_instance_of t c = Some []) /\
   forall t, instance_of t c = match t with Object => Some [] | _ => None end).
Proof.
  destruct c as [|[[p|p|]|[p|p|]|]]; auto; right; right; right; right; (split; [reflexivity|]);
    (split; [reflexivity|]); (split; [reflexivity|]); intros []; reflexivity.
Qed.

Lemma one_fit v t u ts us : all_fit ty le [v] (t :: ts) (u :: us) -> fits ty le v t u.
Proof. intros H. inversion H. assumption. Qed.

Theorem ty_classes : classes ty le inst union variances as_instance_of instance_of members.
Proof.
  constructor.
  - intros c ts us H. destruct (case_class c) as [-> | [-> | [-> | [-> | (_ & E & _ & _)]]]].
    + inversion H as [|v vs t ts' u us' F R]; subst. inversion R; subst. exact F.
    + inversion H as [|v vs t ts' u us' F R]; subst. inversion R; subst. unfold Le, le. cbn.
      rewrite cmp_flip. exact F.
    + inversion H as [|v vs t ts' u us' F R]; subst. inversion R; subst. destruct F as [F1 F2]. unfold Le, le in *. cbn.
      rewrite F1, cmp_flip. exact F2.
    + reflexivity.
    + rewrite !E. reflexivity.
  - intros m c ts H. destruct (case_class c) as [-> | [-> | [-> | [-> | (V & E & A & _)]]]].
    1-4: destruct m; cbn in H; try discriminate H; injection H as <-; (split; [reflexivity | first [apply cmp_refl | reflexivity]]).
    rewrite V, E. rewrite A in H. injection H as <-. split; [reflexivity | destruct m; reflexivity].
  - intros m c ts H. destruct (case_class c) as [-> | [-> | [-> | [-> | (V & E & _ & A)]]]].
    1-4: destruct m; cbn in H; try discriminate H; injection H as <-; (split; [reflexivity | split; apply cmp_refl]).
    rewrite V, E. rewrite A in H. destruct m; try discriminate H. injection H as <-. split; [reflexivity | split; reflexivity].
  - intros t u H. apply H. left. reflexivity.
  - intros t m [<- | []]. apply ty_refl.
  - discriminate.
  - intros [|x ts] t Hin; [destruct Hin|]. cbn [union]. destruct (fold_join ts x) as (A & B & _).
    destruct Hin as [<- | Hin]; [exact A | exact (B t Hin)].
  - intros [|x ts] u N H; [contradiction N; reflexivity|]. cbn [union].
    destruct (fold_join ts x) as (_ & _ & D). apply D; [apply H; left; reflexivity | intros t Ht; apply H; right; exact Ht].
Qed.

Theorem ty_complete_classes : complete_classes ty le inst variances as_instance_of instance_of members.
Proof.
  constructor.
  - intros t m c ts _ L H. destruct (case_class c) as [-> | [-> | [-> | [-> | (V & E & A & _)]]]].
    1-3: destruct ts as [|x [|y ts]]; try discriminate L; unfold Le, le in H; destruct m as [| | | | m | | m | m]; cbn in H; try discriminate H;
      cbn [as_instance_of]; (eexists; split; [reflexivity|]); repeat constructor; trivial.
    + cbn. rewrite cmp_flip in H. exact H.
    + apply andb_true_iff in H. apply H.
    + apply andb_true_iff in H as [_ H]. unfold Le, le. rewrite cmp_flip. exact H.
    + destruct ts; [|discriminate L]. destruct m; try discriminate H; exists []; (split; [reflexivity | constructor]).
    + rewrite V in *. destruct ts; [|discriminate L]. exists []. rewrite A. split; [reflexivity | constructor].
  - intros m c ts L [H1 H2]. destruct (case_class c) as [-> | [-> | [-> | [-> | (V & E & _ & A)]]]].
    1-3: destruct ts as [|x [|y ts]]; try discriminate L; unfold Le, le in *; destruct m as [| | | | m | | m | m]; cbn in H1, H2; try discriminate;
      cbn [instance_of]; (eexists; split; [reflexivity|]); (constructor; [|constructor]); unfold Equal, Le, le.
    + split; assumption.
    + rewrite cmp_flip in H1, H2. split; assumption.
    + apply andb_true_iff in H1 as [G1 G2]. apply andb_true_iff in H2 as [G3 G4]. split; assumption.
    + destruct ts; [|discriminate L]. unfold Le, le in *. destruct m; try discriminate H1; try discriminate H2; exists []; (split; [reflexivity | constructor]).
    + rewrite V in *. destruct ts; [|discriminate L]. rewrite E in *. exists []. rewrite A. unfold Le, le in *.
      destruct m; try discriminate H2. split; [reflexivity | constructor].
Qed.
