(** C62: what [isinstance(x, C)] (and [issubclass], [TypeIs], class patterns) tells about [x] *)
From Coq Require Import List NArith ZArith Bool Lia.
From Verif Require Import TupleModel TupleSpec SubtypeModel SubtypeSpec NarrowModel NarrowProofs NarrowIsModel NarrowInstanceModel NarrowInstanceSpec NarrowInstance.
Import ListNotations.
Open Scope N_scope.

Section Properties.
Context {V : Type}.
Variables (w : world V) (env : N -> V -> Prop).
Notation has := (has w env).
Variable p : program.
Variable passes : type -> V -> bool.
Variables (float complex : N) (exact : N -> N).
Variables (fits : type -> type -> option bool) (below : type -> type -> bool) (unite : type -> type -> type) (unite_all : list type -> type).
Variables (overlaps accepts : type -> type -> bool) (class_of_both : type -> type -> option type) (any_first : bool).
Notation split := (split_and_intersect p float complex exact fits below unite unite_all overlaps accepts class_of_both any_first).
Notation laws := (instance_laws w env p passes float complex fits unite unite_all accepts class_of_both).
Notation numbers := (number_laws w env p passes float complex exact).
Notation forgets := (forgets p accepts class_of_both).
Notation handled := (handled w env p passes fits below accepts class_of_both).
Notation untouched := (untouched p fits below accepts class_of_both).
Notation numbers_suit := (numbers_suit w env p passes float complex exact fits accepts class_of_both).
Notation numbers_within := (numbers_within p float complex exact fits accepts class_of_both).
Notation decided := (decided w env p passes fits below accepts class_of_both).
Notation separated := (separated w env p passes fits below accepts class_of_both).

(** ** The branch where [isinstance] is true *)
(** The type of [x] has its value, if the classes settle the part of the type that the value is of, or have nothing to do with any part. *)
Theorem C62_true : forall i t v, laws i -> has t v -> is_instance passes i v = true ->
  ~ forgets i t /\ (exists u, In u (pieces t) /\ handled i u /\ has u v) \/ (forall u, In u (pieces t) -> untouched i u) -> has (fst (split t i)) v.
Proof. intros i t v L. exact (truthy_has w env p passes float complex exact fits below unite unite_all overlaps accepts class_of_both any_first i L t v). Qed.

(** There are no conditions for a type that is not a union and one class. *)
Theorem C62_true_single : forall i t v, laws i -> parts i = [i] -> i <> Any -> pieces t = [t] -> parts t = [t] -> has t v -> is_instance passes i v = true ->
  has (fst (split t i)) v.
Proof.
  intros i t v L Pi Ni Pp Pt H Hi. apply (C62_true i t v L H Hi).
  assert (F : ~ forgets i t). { intros [b [n [a [new [E [_ [_ [B _]]]]]]]]. rewrite Pt in E. destruct b as [|x b]; [contradiction|]. injection E as _ E. destruct b; discriminate E. }
  assert (One : handled i t -> ~ forgets i t /\ (exists u, In u (pieces t) /\ handled i u /\ has u v) \/ (forall u, In u (pieces t) -> untouched i u)).
  { intros X. left. split; [exact F|]. exists t. rewrite Pp. split; [now left|]. split; [exact X|exact H]. }
  destruct (is_any t) eqn:A; [apply One; left; now destruct t|]. destruct (is_split p accepts class_of_both i t) eqn:S; [apply One; right; now left|].
  destruct (fits i t) as [b|] eqn:E.
  { apply One. right. right. intros j J. rewrite Pi in J. destruct J as [<-|[]]. right. left. congruence. }
  destruct (below i t) eqn:B.
  { apply One. right. right. intros j J. rewrite Pi in J. destruct J as [<-|[]]. right. right. left. exact B. }
  right. intros u U. rewrite Pp in U. destruct U as [<-|[]]. split; [intros ->; discriminate A|]. split; [exact S|]. intros j J. rewrite Pi in J. destruct J as [<-|[]]. now split.
Qed.

(** It has just these values, if each class has all values of a part, none of them, or is below it. *)
Theorem C62_true_exact : forall i t, laws i -> (forall c x, In c (parts i) -> has c x -> passes c x = true) -> (forall u, In u (pieces t) -> decided i u) ->
  (exists v, has t v /\ is_instance passes i v = true) -> forall v, has (fst (split t i)) v <-> has t v /\ is_instance passes i v = true.
Proof. intros i t L. exact (truthy_exact w env p passes float complex exact fits below unite unite_all overlaps accepts class_of_both any_first i L t). Qed.

(** ** The branch where it is false *)
(** The type of [x] has its value, if it is not one of the numbers that are promoted, or they are taken care of. *)
Theorem C62_false : forall i t v, laws i -> numbers -> numbers_suit i t -> has t v -> is_instance passes i v = false -> has (snd (split t i)) v.
Proof. intros i t v L N. exact (falsey_has w env p passes float complex exact fits below unite unite_all overlaps accepts class_of_both any_first i L N t v). Qed.

(** There are no conditions for a type without float and complex. *)
Theorem C62_false_plain : forall i t v, laws i -> numbers ->
  (forall u, In u (pieces t) -> match u with Class c _ | TypeOf (Class c _) => c <> float /\ c <> complex | _ => True end) ->
  has t v -> is_instance passes i v = false -> has (snd (split t i)) v.
Proof.
  intros i t v L N P. apply (C62_false i t v L N). split; [|split].
  - intros gs G _. apply piece_class in G. destruct (P _ G) as [X _]. contradiction.
  - intros gs G _. apply piece_class in G. destruct (P _ G) as [_ X]. contradiction.
  - intros c gs G C. destruct (P _ G) as [X Y]. destruct C; contradiction.
Qed.

(** No value is possible that [x] did not have before. *)
Theorem C62_false_within : forall i t v, laws i -> tower w env p float complex exact -> (forall gs v, has (Class float []) v -> has (Class float gs) v) ->
  numbers_within i t -> has (snd (split t i)) v -> has t v.
Proof. intros i t v L. exact (falsey_within w env p passes float complex exact fits below unite unite_all overlaps accepts class_of_both any_first i L t v). Qed.

(** It has just these values, if each class has all values of a part or none of them. *)
Theorem C62_false_exact : forall i t, laws i -> no_number p float complex exact i -> (forall u, In u (pieces t) -> separated i u) ->
  forall v, has (snd (split t i)) v <-> has t v /\ is_instance passes i v = false.
Proof.
  intros i t L Nn D v. rewrite (falsey_exact w env p passes float complex exact fits below unite unite_all overlaps accepts class_of_both any_first i L t Nn D v).
  rewrite (has_pieces w env t v). split; [intros [u [U [H Hi]]]; split; [now exists u|exact Hi]|]. intros [[u [U H]] Hi]. now exists u.
Qed.
End Properties.

(** ** Python *)
Inductive runtime := KInt | KBool | KStr | KFloat | KMyFloat | KComplex | KA | KC | KSub | KD | KE.
Inductive rv := Object (k : runtime) | ClassObject (k : runtime).

(** The classes at runtime: [class MyFloat(float)], [class A], [class C], [class Sub(C)], [class D(A, C)] and [class E]; 10 and 12 are float and complex without the
    types that are promoted to them, 18 is the protocol [Hashable] *)
Definition ancestors (k : runtime) : list N :=
  match k with
  | KInt => [1; 0] | KBool => [2; 1; 0] | KStr => [3; 0] | KFloat => [9; 0] | KMyFloat => [13; 9; 0] | KComplex => [11; 0]
  | KA => [14; 0] | KC => [15; 0] | KSub => [16; 15; 0] | KD => [17; 14; 15; 0] | KE => [19; 0]
  end.
Definition class_ancestors (c : N) : list N :=
  match c with
  | 0 => [0] | 1 => [1; 0] | 2 => [2; 1; 0] | 3 => [3; 0] | 9 | 10 => [9; 0] | 13 => [13; 9; 0] | 11 | 12 => [11; 0]
  | 14 => [14; 0] | 15 => [15; 0] | 16 => [16; 15; 0] | 17 => [17; 14; 15; 0] | 19 => [19; 0] | _ => []
  end.
Definition known (c : N) (l : list N) : bool := existsb (N.eqb c) l.
Definition is_a (c : N) (k : runtime) : bool :=
  match c with
  | 9 => known 9 (ancestors k) || known 1 (ancestors k)
  | 10 => known 9 (ancestors k)
  | 11 => known 11 (ancestors k) || known 9 (ancestors k) || known 1 (ancestors k)
  | 12 => known 11 (ancestors k)
  | 18 => true
  | _ => known c (ancestors k)
  end.
Definition without_promotion (c : N) : N := match c with 10 => 9 | 12 => 11 | _ => c end.

Definition rt_world : world rv := {|
  instance := fun c _ v => match v with Object k => is_a c k = true | ClassObject _ => c = 0 end;
  literal_value := fun _ _ => False;
  none_value := fun _ => False;
  literal_text := fun _ => False;
  tuple_value := fun _ _ => False;
  stands_for := fun _ _ => False;
  member_value := fun _ _ _ => False;
  made_by := fun _ _ => False;
  class_of := fun x v => match x, v with Object k, ClassObject l => k = l | _, _ => False end
|}.
(** A type variable that stands for [A] *)
Definition rt_env (n : N) (v : rv) : Prop := match v with Object k => known 14 (ancestors k) = true | _ => False end.

Definition rt_program : program := {|
  object := 0; bool_class := 2; int_class := 1; str_class := 3; bytes_class := 4; tuple_class := 5; bare_type := 6; generic_alias := 7;
  variances := fun _ => []; bases := fun _ => []; metaclass := fun _ => NoMetaclass; is_metaclass := fun _ => false; incomplete := fun _ => false;
  promote_to := fun _ => None; is_protocol := fun c => c =? 18; check_protocol := fun _ _ _ => Yes; enum_class := fun e => 50 + e;
  newtype_type := fun _ => Class 1 []; kind_of := fun _ => Unrestricted; entries := fun _ => Class 0 []; same_union := fun _ _ => false
|}.
Definition rt_exact (c : N) : N := match c with 9 => 10 | 11 => 12 | _ => c + 100 end.

Definition rt_passes (i : type) (v : rv) : bool :=
  match i, v with
  | Any, _ => true
  | Class 18 _, Object _ => true
  | Class c _, Object k => known (without_promotion c) (ancestors k)
  | Class 0 _, ClassObject _ => true
  | TypeOf (Class c _), ClassObject k => known (without_promotion c) (ancestors k)
  | _, _ => false
  end.
Definition class_below (c d : N) : bool := known (without_promotion c) (class_ancestors d).
Definition rt_fits (i t : type) : option bool :=
  match i, t with
  | _, Any => Some true
  | Class c _, Class d _ | TypeOf (Class c _), TypeOf (Class d _) => if class_below c d then Some false else None
  | _, _ => None
  end.
Definition rt_below (i t : type) : bool := match rt_fits t i with Some _ => true | None => false end.
Definition accepts_class (a b : type) : bool :=
  match a, b with
  | Class 0 _, _ => true
  | Class 9 _, Class (1 | 2) _ | Class 11 _, Class (1 | 2 | 9 | 10 | 13) _ => true
  | Class c _, Class d _ | TypeOf (Class c _), TypeOf (Class d _) => class_below c d
  | TypeVar n, TypeVar m => n =? m
  | _, _ => false
  end.
Definition rt_accepts (t u : type) : bool := forallb (fun b => existsb (fun a => accepts_class a b) (parts t)) (parts u).
Definition rt_overlaps (t u : type) : bool := existsb (fun a => existsb (fun b => accepts_class a b || accepts_class b a) (parts u)) (parts t).
(** A str is not a number. *)
Definition rt_both (t i : type) : option type :=
  match t, i with
  | Class 3 _, Class (1 | 2 | 9 | 10 | 11 | 12 | 13) _ | Class (1 | 2 | 9 | 10 | 11 | 12 | 13) _, Class 3 _ => None
  | Class 3 _, Class 18 _ => None
  | _, _ => Some (Intersection [t; i])
  end.
Definition rt_unite_all (ts : list type) : type := fold_left join ts Never.

Notation rt_has := (has rt_world rt_env).
Notation rt_split := (split_and_intersect rt_program 9 11 rt_exact rt_fits rt_below join rt_unite_all rt_overlaps rt_accepts rt_both false).
Notation rt_laws := (instance_laws rt_world rt_env rt_program rt_passes 9 11 rt_fits join rt_unite_all rt_accepts rt_both).

Definition rt_object := Class 0 []. Definition rt_int := Class 1 []. Definition rt_str := Class 3 []. Definition rt_float := Class 9 []. Definition rt_complex := Class 11 [].
Definition rt_A := Class 14 []. Definition rt_C := Class 15 []. Definition rt_Sub := Class 16 []. Definition rt_E := Class 19 [].

Lemma known_in : forall c l, known c l = true <-> In c l.
Proof. intros c l. unfold known. rewrite existsb_exists. split; [intros [x [H E]]; now apply N.eqb_eq in E as ->|]. intros H. exists c. now rewrite N.eqb_refl. Qed.

(** What is below is an instance of what is above. *)
Lemma ancestors_of : forall c d k, In c (class_ancestors d) -> In (without_promotion d) (ancestors k) -> In c (ancestors k).
Proof.
  intros c d k H1 H2.
  assert (X : class_ancestors d = class_ancestors (without_promotion d)) by (unfold without_promotion; destruct d as [|[[[[]|[]|]|[[]|[]|]|]|[[[]|[]|]|[[]|[]|]|]|]]; reflexivity).
  rewrite X in H1. clear X. destruct k; cbn [ancestors In] in H2; repeat (destruct H2 as [H2|H2]; [rewrite <- H2 in H1; cbn in H1; cbn; tauto|]); destruct H2.
Qed.

Lemma passes_has : forall i v, rt_passes i v = true -> rt_has i v.
Proof.
  intros i v H. destruct i as [| | |c gs| | | | | | | | | | |a]; try (destruct v; discriminate H); [exact Logic.I| |].
  - cbn [SubtypeSpec.has instance rt_world]. destruct v as [k|k].
    + unfold rt_passes, is_a, without_promotion in *. destruct c as [|[[[[[]|[]|]|[[]|[]|]|]|[[[]|[]|]|[[]|[]|]|]|]|[[[[]|[]|]|[[]|[]|]|]|[[[]|[]|]|[[]|[]|]|]|]|]]; try exact H; try reflexivity; rewrite H; rewrite ?orb_true_r; reflexivity.
    + destruct c as [|[[[[[]|[]|]|[[]|[]|]|]|[[[]|[]|]|[[]|[]|]|]|]|[[[[]|[]|]|[[]|[]|]|]|[[[]|[]|]|[[]|[]|]|]|]|]]; try reflexivity; discriminate H.
  - destruct a as [| | |c gs| | | | | | | | | | |]; try (destruct v; discriminate H). destruct v as [k|k]; [discriminate H|]. exists (Object k). split; [reflexivity|].
    cbn [SubtypeSpec.has instance rt_world]. cbn [rt_passes] in H. unfold is_a, without_promotion in *.
    destruct c as [|[[[[[]|[]|]|[[]|[]|]|]|[[[]|[]|]|[[]|[]|]|]|]|[[[[]|[]|]|[[]|[]|]|]|[[[]|[]|]|[[]|[]|]|]|]|]]; try exact H; try reflexivity; rewrite H; rewrite ?orb_true_r; reflexivity.
Qed.

Lemma is_a_known : forall d k, is_a d k = true -> known (without_promotion d) (ancestors k) = true \/ d = 18 \/ d = 9 /\ is_a 1 k = true \/ d = 11 /\ is_a 9 k = true.
Proof.
  intros d k H. unfold is_a, without_promotion in *.
  destruct d as [|[[[[[]|[]|]|[[]|[]|]|]|[[[]|[]|]|[[]|[]|]|]|]|[[[[]|[]|]|[[]|[]|]|]|[[[]|[]|]|[[]|[]|]|]|]|]]; try (left; exact H); auto.
  - apply orb_prop in H as [H|H]; [apply orb_prop in H as [H|H]|]; [now left|right; right; right|right; right; right]; (split; [reflexivity|]); rewrite H; rewrite ?orb_true_r; reflexivity.
  - apply orb_prop in H as [H|H]; [now left|]. right; right; left. split; [reflexivity|exact H].
Qed.

Lemma rt_instance_has : forall i v, is_instance rt_passes i v = true -> rt_has i v.
Proof. intros i v H. apply existsb_exists in H as [j [J1 J2]]. apply has_parts. exists j. split; [exact J1|now apply passes_has]. Qed.

Lemma rt_is_laws : forall i, rt_laws i.
Proof.
  intros i. constructor.
  - intros j v _. apply passes_has.
  - intros j t v _ F H.
    assert (Two : forall c d k, class_below c d = true -> is_a d k = true -> known (without_promotion c) (ancestors k) = true \/ d = 9 /\ is_a 1 k = true \/ d = 11 /\ is_a 9 k = true).
    { intros c d k B A. apply is_a_known in A as [A|[->|A]]; [|discriminate B|now right]. left. apply known_in. apply known_in in A, B. exact (ancestors_of _ _ _ B A). }
    destruct j as [| | |c gs| | | | | | | | | | |[| | |c gs| | | | | | | | | | |]]; try (destruct t; discriminate F).
    + destruct t as [| | |d hs| | | | | | | | | | |]; try discriminate F. cbn [rt_fits] in F. destruct (class_below c d) eqn:B; [|discriminate F]. cbn [SubtypeSpec.has instance rt_world] in *.
      destruct v as [k|k]; [|subst d; left; cbn in B; rewrite orb_false_r in B; apply N.eqb_eq in B; destruct c as [|[[[[]|[]|]|[[]|[]|]|]|[[[]|[]|]|[[]|[]|]|]|]]; try discriminate B; reflexivity].
      destruct (Two c d k B H) as [X|X]; [left|now right]. cbn [rt_passes]. destruct c as [|[[[[[]|[]|]|[[]|[]|]|]|[[[]|[]|]|[[]|[]|]|]|]|[[[[]|[]|]|[[]|[]|]|]|[[[]|[]|]|[[]|[]|]|]|]|]]; try exact X; reflexivity.
    + destruct t as [| | | | | | | | | | | | | |[| | |d hs| | | | | | | | | | |]]; try discriminate F. cbn [rt_fits] in F. destruct (class_below c d) eqn:B; [|discriminate F].
      destruct H as [x [H1 H2]]. destruct x as [k|k], v as [l|l]; try contradiction. cbn in H1. subst l. cbn [SubtypeSpec.has instance rt_world] in H2.
      destruct (Two c d k B H2) as [X|[[X _]|[X _]]]; auto.
  - intros t u v. apply has_join.
  - intros ts v. unfold rt_unite_all. rewrite has_join_all. cbn. split; [intros [[]|H]; exact H|now right].
  - intros t v A H. unfold rt_accepts in A. cbn [parts int_class rt_program forallb] in A. rewrite andb_true_r in A. apply existsb_exists in A as [a [A1 A2]].
    apply has_parts. exists a. split; [exact A1|]. destruct a as [| | |c gs| | | | | | | | | | |a]; try discriminate A2; [|destruct a; discriminate A2]. cbn [SubtypeSpec.has instance rt_world int_class rt_program] in *.
    destruct v as [k|k]; [|discriminate H]. destruct c as [|[[[[]|[]|]|[[]|[]|]|]|[[[]|[]|]|[[]|[]|]|]|]]; try discriminate A2; destruct k; try discriminate H; reflexivity.
  - intros t n v B H Hi. assert (X : n = Intersection [t; i]).
    { unfold rt_both in B. destruct t as [| | |c gs| | | | | | | | | | |]; try (now injection B). destruct i as [| | |d hs| | | | | | | | | | |];
        try (destruct c as [|[[[[]|[]|]|[[]|[]|]|]|[[[]|[]|]|[[]|[]|]|]|]]; now injection B).
      destruct c as [|[[[[]|[]|]|[[]|[]|]|]|[[[]|[]|]|[[]|[]|]|]|]]; try (now injection B);
        destruct d as [|[[[[[]|[]|]|[[]|[]|]|]|[[[]|[]|]|[[]|[]|]|]|]|[[[[]|[]|]|[[]|[]|]|]|[[[]|[]|]|[[]|[]|]|]|]|]]; try (now injection B); discriminate B. }
    subst n. cbn [SubtypeSpec.has map]. repeat (apply Forall_cons || apply Forall_nil); [exact H|now apply rt_instance_has].
  - intros t v B H Hi. unfold rt_both in B. destruct t as [| | |c gs| | | | | | | | | | |]; try discriminate B. destruct i as [| | |d hs| | | | | | | | | | |];
      try (destruct c as [|[[[[]|[]|]|[[]|[]|]|]|[[[]|[]|]|[[]|[]|]|]|]]; discriminate B).
    destruct v as [k|k].
    2: { cbn in H. subst c. discriminate B. }
    destruct c as [|[[[[]|[]|]|[[]|[]|]|]|[[[]|[]|]|[[]|[]|]|]|]]; try discriminate B;
      destruct d as [|[[[[[]|[]|]|[[]|[]|]|]|[[[]|[]|]|[[]|[]|]|]|]|[[[[]|[]|]|[[]|[]|]|]|[[[]|[]|]|[[]|[]|]|]|]|]]; try discriminate B;
      try (destruct k; discriminate H || discriminate Hi). exists 18, hs. split; [now left|reflexivity].
Qed.

Lemma rt_numbers : number_laws rt_world rt_env rt_program rt_passes 9 11 rt_exact.
Proof.
  constructor.
  - intros c gs v [->| ->] H; destruct v as [[]|k]; try discriminate H; auto.
  - intros c gs v [->| ->] H; destruct v as [[]|k]; try discriminate H; auto.
  - intros c gs v [->| ->] H; destruct v as [[]|k]; try discriminate H; reflexivity.
  - intros gs v H; destruct v as [[]|k]; try discriminate H; reflexivity.
  - cbn. repeat (apply NoDup_cons; [cbn [In]; intuition discriminate|]). apply NoDup_nil.
Qed.

Lemma rt_tower : tower rt_world rt_env rt_program 9 11 rt_exact.
Proof. constructor; intros gs v H; try (destruct H as [H|H]); destruct v as [[]|k]; try discriminate H; reflexivity. Qed.

(** [x: float] and [isinstance(x, float)]: 3 is not one. *)
Example C62_float : rt_split rt_float rt_float = (rt_float, rt_int) /\ forall v, rt_has rt_float v -> is_instance rt_passes rt_float v = false -> rt_has rt_int v.
Proof.
  split; [reflexivity|]. intros v. apply (C62_false rt_world rt_env rt_program rt_passes 9 11 rt_exact rt_fits rt_below join rt_unite_all rt_overlaps rt_accepts rt_both false
    rt_float rt_float v (rt_is_laws _) rt_numbers). split; [|split].
  - intros gs _ _. right. split; [exists 9, []; auto|]. split; [reflexivity|]. intros u [<-|[]]. reflexivity.
  - intros gs [X|[]] _. discriminate X.
  - intros c gs [X|[]] _. discriminate X.
Qed.

(** [x: float | str] and [isinstance(x, int)]: the other branch has the floats that are not ints. *)
Example C62_int : rt_split (Union [rt_float; rt_str]) rt_int = (rt_int, Union [Class 10 []; rt_str]) /\
  (forall v, rt_has (Union [rt_float; rt_str]) v -> is_instance rt_passes rt_int v = false -> rt_has (Union [Class 10 []; rt_str]) v) /\
  (forall v, rt_has (Union [Class 10 []; rt_str]) v -> rt_has (Union [rt_float; rt_str]) v).
Proof.
  split; [reflexivity|]. split; intros v.
  - apply (C62_false rt_world rt_env rt_program rt_passes 9 11 rt_exact rt_fits rt_below join rt_unite_all rt_overlaps rt_accepts rt_both false
      rt_int (Union [rt_float; rt_str]) v (rt_is_laws _) rt_numbers). split; [|split].
    + intros gs [X|[X|[]]] D; try discriminate X. injection X as <-. discriminate D.
    + intros gs [X|[X|[]]] D; discriminate X.
    + intros c gs [X|[X|[]]] _; discriminate X.
  - apply (C62_false_within rt_world rt_env rt_program rt_passes 9 11 rt_exact rt_fits rt_below join rt_unite_all rt_overlaps rt_accepts rt_both false
      rt_int (Union [rt_float; rt_str]) v (rt_is_laws _) rt_tower).
    + intros gs x H. exact H.
    + reflexivity.
Qed.

(** [x: A] and [isinstance(x, C)]: a subclass of both *)
Example C62_both : rt_split rt_A rt_C = (Intersection [rt_A; rt_C], rt_A) /\
  forall v, rt_has rt_A v -> is_instance rt_passes rt_C v = true -> rt_has (Intersection [rt_A; rt_C]) v.
Proof.
  split; [reflexivity|]. intros v. apply (C62_true_single rt_world rt_env rt_program rt_passes 9 11 rt_exact rt_fits rt_below join rt_unite_all rt_overlaps rt_accepts rt_both false
    rt_C rt_A v (rt_is_laws _)); reflexivity || discriminate.
Qed.

(** [x: Sub | E | Any] and [isinstance(x, C)] *)
Example C62_settled : let t := Union [rt_Sub; rt_E; Any] in
  rt_split t rt_C = (rt_C, Union [rt_E; Any]) /\
  (forall v, rt_has t v -> is_instance rt_passes rt_C v = true -> rt_has rt_C v) /\
  (forall v, rt_has t v -> is_instance rt_passes rt_C v = false -> rt_has (Union [rt_E; Any]) v).
Proof.
  cbv zeta. split; [reflexivity|]. split; intros v.
  - intros H Hi. apply (C62_true rt_world rt_env rt_program rt_passes 9 11 rt_exact rt_fits rt_below join rt_unite_all rt_overlaps rt_accepts rt_both false
      rt_C (Union [rt_Sub; rt_E; Any]) v (rt_is_laws _) H Hi). left. split.
    + intros [b [n [a [new [E [_ [_ [B _]]]]]]]]. destruct b as [|x [|y [|z b]]]; [contradiction| | |]; try discriminate E. destruct b; discriminate E.
    + apply (has_pieces rt_world rt_env) in H as [u [U H]]. exists u. split; [exact U|]. split; [|exact H]. destruct U as [<-|[<-|[<-|[]]]].
      * right. right. intros i [<-|[]]. right. left. discriminate.
      * right. right. intros i [<-|[]]. right. right. right. intros [[]|k] X; try discriminate X; reflexivity.
      * now left.
  - apply (C62_false_plain rt_world rt_env rt_program rt_passes 9 11 rt_exact rt_fits rt_below join rt_unite_all rt_overlaps rt_accepts rt_both false
      rt_C (Union [rt_Sub; rt_E; Any]) v (rt_is_laws _) rt_numbers). intros u [<-|[<-|[<-|[]]]]; [| |exact Logic.I]; split; discriminate.
Qed.

(** [x: Sub | C | str] and [isinstance(x, (Sub, str))], [x: type[Sub] | type[E]] and [issubclass(x, C)]: exactly *)
Example C62_exactly : let t := Union [rt_Sub; rt_C; rt_str] in let i := Union [rt_Sub; rt_str] in
  rt_split t i = (Union [rt_Sub; rt_str], rt_C) /\ forall v, rt_has (Union [rt_Sub; rt_str]) v <-> rt_has t v /\ is_instance rt_passes i v = true.
Proof.
  cbv zeta. split; [reflexivity|]. apply (C62_true_exact rt_world rt_env rt_program rt_passes 9 11 rt_exact rt_fits rt_below join rt_unite_all rt_overlaps rt_accepts rt_both false
    (Union [rt_Sub; rt_str]) (Union [rt_Sub; rt_C; rt_str]) (rt_is_laws _)).
  - intros c x [<-|[<-|[]]] H; destruct x as [[]|k]; try discriminate H; reflexivity.
  - intros u U. split; [|split].
    + intros ->. repeat (destruct U as [U|U]; [discriminate U|]). destruct U.
    + repeat (destruct U as [<-|U]; [reflexivity|]). destruct U.
    + intros i I. split; [intros ->; repeat (destruct I as [I|I]; [discriminate I|]); destruct I|].
      destruct U as [<-|[<-|[<-|[]]]]; destruct I as [<-|[<-|[]]].
      * left. split; [reflexivity|]. intros [[]|k] H; try discriminate H; reflexivity.
      * right; right. split; [reflexivity|]. split; [reflexivity|]. intros [[]|k] H; try discriminate H; reflexivity.
      * right; left. split; [reflexivity|]. split; [reflexivity|]. intros [[]|k] H; try discriminate H; reflexivity.
      * right; right. split; [reflexivity|]. split; [reflexivity|]. intros [[]|k] H; try discriminate H; reflexivity.
      * right; right. split; [reflexivity|]. split; [reflexivity|]. intros [[]|k] H; try discriminate H; reflexivity.
      * left. split; [reflexivity|]. intros [[]|k] H; try discriminate H; reflexivity.
  - exists (Object KStr). split; [|reflexivity]. right; right; left. reflexivity.
Qed.

Example C62_subclass : let t := TypeOf (Union [rt_Sub; rt_E]) in
  rt_split t (TypeOf rt_C) = (TypeOf rt_Sub, TypeOf rt_E) /\ forall v, rt_has (TypeOf rt_E) v <-> rt_has t v /\ is_instance rt_passes (TypeOf rt_C) v = false.
Proof.
  cbv zeta. split; [reflexivity|]. apply (C62_false_exact rt_world rt_env rt_program rt_passes 9 11 rt_exact rt_fits rt_below join rt_unite_all rt_overlaps rt_accepts rt_both false
    (TypeOf rt_C) (TypeOf (Union [rt_Sub; rt_E])) (rt_is_laws _)); [exact Logic.I|].
  intros u [<-|[<-|[]]]; (split; [split; [discriminate|split; [reflexivity|]]|]); intros i [<-|[]].
  - split; [discriminate|]. left. split; [reflexivity|]. intros v [[[]|k] [H1 H2]]; try discriminate H2; destruct v; try contradiction; cbn in H1; subst; reflexivity.
  - reflexivity.
  - split; [discriminate|]. right; right. split; [reflexivity|]. split; [reflexivity|].
    intros v [[[]|k] [H1 H2]]; try discriminate H2; destruct v; try contradiction; cbn in H1; subst; reflexivity.
  - reflexivity.
Qed.

(** ** What is wrong *)
(** The laws hold and the value is in the type, but not in the type of the branch. *)
Definition lost_in_true (t i : type) (v : rv) : Prop := rt_has t v /\ is_instance rt_passes i v = true /\ ~ rt_has (fst (rt_split t i)) v.
Definition lost_in_false (t i : type) (v : rv) : Prop := rt_has t v /\ is_instance rt_passes i v = false /\ ~ rt_has (snd (rt_split t i)) v.
Definition added_in_false (t i : type) (v : rv) : Prop := ~ rt_has t v /\ rt_has (snd (rt_split t i)) v.

(** [x: str | T] and [isinstance(x, str)]: only a subclass of [T] and [str] is left. *)
Theorem C62_forgotten_refuted : rt_laws rt_str /\ lost_in_true (Union [rt_str; TypeVar 0]) rt_str (Object KStr).
Proof.
  split; [apply rt_is_laws|]. split; [left; reflexivity|]. split; [reflexivity|]. intros H. vm_compute in H. inversion H as [|x l H1 H2 E]; subst. discriminate H1.
Qed.

(** [x: A | Sub] and [isinstance(x, C)]: only [Sub] is left, though there may be a [class D(A, C)]. *)
Theorem C62_both_refuted : rt_laws rt_C /\ lost_in_true (Union [rt_A; rt_Sub]) rt_C (Object KD).
Proof. split; [apply rt_is_laws|]. split; [left; reflexivity|]. split; [reflexivity|]. intros H. vm_compute in H. discriminate H. Qed.

(** [x: float] and [isinstance(x, (float, str))]: nothing is left for 3. *)
Theorem C62_float_refuted : rt_laws (Union [rt_float; rt_str]) /\ lost_in_false rt_float (Union [rt_float; rt_str]) (Object KInt).
Proof. split; [apply rt_is_laws|]. split; [reflexivity|]. split; [reflexivity|]. intros H. exact H. Qed.

(** [x: float | T] and [isinstance(x, float)] *)
Theorem C62_float_or_refuted : rt_laws rt_float /\ lost_in_false (Union [rt_float; TypeVar 0]) rt_float (Object KInt).
Proof.
  split; [apply rt_is_laws|]. split; [left; reflexivity|]. split; [reflexivity|]. intros H. vm_compute in H. discriminate H.
Qed.

(** [x: complex | str] and [isinstance(x, complex)]: [str] is left, though 1.0 is possible. *)
Theorem C62_complex_refuted : rt_laws rt_complex /\ lost_in_false (Union [rt_complex; rt_str]) rt_complex (Object KFloat).
Proof. split; [apply rt_is_laws|]. split; [left; reflexivity|]. split; [reflexivity|]. intros H. vm_compute in H. discriminate H. Qed.

(** [x: type[float]] and [issubclass(x, float)]: nothing is left for [int]. *)
Theorem C62_subclass_refuted : rt_laws (TypeOf rt_float) /\ lost_in_false (TypeOf rt_float) (TypeOf rt_float) (ClassObject KInt).
Proof. split; [apply rt_is_laws|]. split; [exists (Object KInt); split; reflexivity|]. split; [reflexivity|]. intros H. exact H. Qed.

(** [x: str], or [x: MyFloat] with [class MyFloat(float)], and [isinstance(x, float)]: [int] is added in the other branch. *)
Theorem C62_added_int_refuted : rt_laws rt_float /\ added_in_false rt_str rt_float (Object KInt) /\ added_in_false (Class 13 []) rt_float (Object KInt).
Proof.
  split; [apply rt_is_laws|]. split; (split; [discriminate|]); [right; left|]; reflexivity.
Qed.

(** [x: complex] after [isinstance(x, float)] is false has no floats; after [isinstance(x, int)] is false it has them again. *)
Theorem C62_added_float_refuted : let t := snd (rt_split rt_complex rt_float) in rt_laws rt_int /\ added_in_false t rt_int (Object KFloat).
Proof.
  cbv zeta. split; [apply rt_is_laws|]. split; [|left; reflexivity]. intros H. vm_compute in H. inversion H as [x l H1 E|x l H1 E]; subst; [discriminate H1|].
  inversion H1 as [y m H2 E|y m H2 E]; subst; [discriminate H2|inversion H2].
Qed.

Print Assumptions C62_true.
Print Assumptions C62_true_single.
Print Assumptions C62_true_exact.
Print Assumptions C62_false.
Print Assumptions C62_false_plain.
Print Assumptions C62_false_within.
Print Assumptions C62_false_exact.
Print Assumptions C62_forgotten_refuted.
Print Assumptions C62_both_refuted.
Print Assumptions C62_float_refuted.
Print Assumptions C62_float_or_refuted.
Print Assumptions C62_complex_refuted.
Print Assumptions C62_subclass_refuted.
Print Assumptions C62_added_int_refuted.
Print Assumptions C62_added_float_refuted.
