(** C69: two types are not said to have nothing in common when they do, and a comparison of values that may be equal is not reported.

    For types built from classes, tuples, unions, literals, enums, [None], [Any] and [Never].  The values that may be equal are given by a
    relation with the laws of [alike]; identity is one of them, equality in Python another. *)
From Coq Require Import List NArith Bool Lia.
From Verif Require Import TupleModel TupleSpec SubtypeModel SubtypeSpec SubtypeRules SubtypeProofs SubtypeComplete SubtypeDecides OverlapModel OverlapSpec Overlap SubtypeProps SubtypeDecidesProps.
Import ListNotations.
Open Scope N_scope.

(** Types with values that may be equal are not found disjoint. *)
Theorem C69_alike_partial : forall V p (w : world V) env listed E, proper p -> lawful p w env -> ordinary_program p -> separate_program p -> alike p w listed E ->
  forall t1 t2 x y, ordinary p 0 t1 -> ordinary p 0 t2 -> separate p t1 -> separate p t2 ->
  E x y -> has w env t1 x -> has w env t2 y -> forall fuel, overlaps p listed fuel t1 t2 <> Some false.
Proof. intros V p w env listed E Hp Hw Ho Hs Ha t1 t2 x y O1 O2 S1 S2 Exy H1 H2 fuel. exact (overlaps_open p w env listed E Hp Hw Ho Hs Ha fuel t1 t2 x y O1 O2 S1 S2 Exy H1 H2). Qed.

(** The same for a tuple with an unpack, against a tuple without *)
Theorem C69_unpacked_partial : forall V p (w : world V) env listed E, proper p -> lawful p w env -> ordinary_program p -> separate_program p -> alike p w listed E ->
  forall u a x y, plain_unpack p u -> ordinary p 0 (Tuple a) -> separate p (Tuple a) -> E x y -> has w env (Tuple (WithUnpack u)) x -> has w env (Tuple a) y ->
  forall fuel, overlaps p listed fuel (Tuple (WithUnpack u)) (Tuple a) <> Some false /\ overlaps p listed fuel (Tuple a) (Tuple (WithUnpack u)) <> Some false.
Proof. intros V p w env listed E Hp Hw Ho Hs Ha u a x y Hu Oa Sa Exy Hx Hy fuel. exact (unpack_open p w env listed E Hp Hw Ho Hs Ha fuel u a x y Hu Oa Sa Exy Hx Hy). Qed.

(** A comparison of values that may be equal and are not [None] is not reported. *)
Theorem C69_comparison_partial : forall V p (w : world V) env lib E, proper p -> lawful p w env -> ordinary_program p -> separate_program p -> alike p w (listed lib) E ->
  (forall x y, E x y -> ~ none_value w x) ->
  forall t1 t2 x y, ordinary p 0 t1 -> ordinary p 0 t2 -> separate p t1 -> separate p t2 ->
  E x y -> has w env t1 x -> has w env t2 y -> forall fuel, strict_equality p lib fuel t1 t2 <> Some false.
Proof. intros V p w env lib E Hp Hw Ho Hs Ha Hn t1 t2 x y O1 O2 S1 S2 Exy H1 H2 fuel. exact (strict_open p w env lib E Hp Hw Ho Hs Ha Hn fuel t1 t2 x y O1 O2 S1 S2 Exy H1 H2). Qed.

(** Types that are found to overlap have a value in common, if there are neither type arguments nor literals. *)
Theorem C69_exact_partial : forall V p (w : world V) env listed, proper p -> lawful p w env -> (forall vs, exists v, tuple_value w v vs) -> ordinary_program p ->
  forall fuel t1 t2, simple p w listed t1 -> simple p w listed t2 -> overlaps p listed fuel t1 t2 = Some true -> exists v, has w env t1 v /\ has w env t2 v.
Proof. intros V p w env listed Hp Hw Ht Ho fuel t1 t2 S1 S2 H. exact (overlaps_shared p w env listed Hp Hw Ht Ho fuel t1 t2 S1 S2 H). Qed.

(** The order of the types does not matter. *)
Theorem C69_symmetric_partial : forall p listed, ordinary_program p -> acyclic p ->
  forall t1 t2, ordinary p 0 t1 -> ordinary p 0 t2 -> forall f g b c, overlaps p listed f t1 t2 = Some b -> overlaps p listed g t2 t1 = Some c -> b = c.
Proof. intros p listed Ho Ha t1 t2 O1 O2 f g b c. exact (overlaps_symmetric p listed Ho Ha f g t1 t2 b c O1 O2). Qed.

(** A comparison that is not reported has, on either side, an alternative other than [None], with a value in common, if there are neither type arguments nor literals.
    What has its own [__eq__], and mappings and bytes, are left out. *)
Theorem C69_unreported_partial : forall V p (w : world V) env lib, proper p -> lawful p w env -> (forall vs, exists v, tuple_value w v vs) -> ordinary_program p -> variances p (list_class lib) <> [] ->
  forall fuel t1 t2, simple p w (listed lib) t1 -> simple p w (listed lib) t2 -> more_than_none t1 -> more_than_none t2 ->
  (forall u, alternative u t1 \/ alternative u t2 -> ~ special p (mapping lib) (bytes_like lib) u) -> custom_eq lib t1 = false -> custom_eq lib t2 = false ->
  strict_equality p lib fuel t1 t2 = Some true -> exists u1 u2 v, alternative u1 t1 /\ alternative u2 t2 /\ has w env u1 v /\ has w env u2 v.
Proof. intros V p w env lib Hp Hw Ht Ho Hl. exact (unreported_shared p w env lib Hp Hw Ht Ho Hl). Qed.

(** Comparisons with [None], and of what has its own [__eq__], are never reported. *)
Theorem C69_exempt : forall p lib fuel t1 t2, t1 = NoneType \/ t2 = NoneType \/ custom_eq lib t1 = true \/ custom_eq lib t2 = true -> strict_equality p lib fuel t1 t2 <> Some false.
Proof. exact exempt. Qed.

(** Unions of literals overlap just if a literal is in both. *)
Theorem C69_literals : forall p listed fuel ls ms b, overlaps p listed fuel (Union (map Literal ls)) (Union (map Literal ms)) = Some b -> (b = true <-> exists l, In l ls /\ In l ms).
Proof. exact literals_overlap. Qed.

(** Lists, tuples of any length and mappings are compared by what is in them. *)
Theorem C69_containers : forall p lib fuel, (forall t, custom_eq lib t = false) ->
  (forall a b, strict_equality p lib (S fuel) (Class (list_class lib) [a]) (Class (list_class lib) [b]) = strict_equality p lib fuel a b) /\
  (forall a b, strict_equality p lib (S fuel) (Tuple (ArbitraryLen a)) (Tuple (ArbitraryLen b)) = strict_equality p lib fuel a b) /\
  (forall c d k1 v1 k2 v2, a_mapping p (mapping lib) c -> a_mapping p (mapping lib) d -> c <> list_class lib -> bytes_like lib c = false ->
   forall b, strict_equality p lib (S fuel) (Class c [k1; v1]) (Class d [k2; v2]) = Some b ->
   (b = false <-> strict_equality p lib fuel k1 k2 = Some false \/ strict_equality p lib fuel k1 k2 = Some true /\ strict_equality p lib fuel v1 v2 = Some false)).
Proof.
  intros p lib fuel C. split; [intros a b; apply list_elements; apply C|]. split; [intros a b; apply tuple_elements; apply C|].
  intros c d k1 v1 k2 v2 Mc Md Nl Nb b H. rewrite mapping_items in H by (assumption || apply C).
  destruct (strict_equality p lib fuel k1 k2) as [[|]|]; [|injection H as <-; tauto|discriminate H].
  destruct (strict_equality p lib fuel v1 v2) as [[|]|]; injection H as <- || discriminate H.
  - split; [discriminate|]. intros [H|[_ H]]; discriminate H.
  - split; [intros _; right; split; reflexivity|reflexivity].
Qed.

(** ** A program with values, that of C54 *)
(** Equal values: an int may be equal to a float, a str from a literal to one that is not; empty tuples are left out.  [None] is equal to itself if [none]. *)
Inductive equal (none : bool) : value -> value -> Prop :=
| q_none : none = true -> equal none VNone VNone
| q_int n s : equal none (VInt n s) (VInt n s)
| q_bool b : equal none (VBool b) (VBool b)
| q_str s l l' : equal none (VStr s l) (VStr s l')
| q_bytes s : equal none (VBytes s) (VBytes s)
| q_float : equal none VFloat VFloat
| q_int_float n s : equal none (VInt n s) VFloat
| q_float_int n s : equal none VFloat (VInt n s)
| q_tuple v w vs ws : equal none v w -> equals none vs ws -> equal none (VTuple (v :: vs)) (VTuple (w :: ws))
| q_list k : equal none (VList k) (VList k)
| q_object c : equal none (VObject c) (VObject c)
| q_class c : equal none (VClass c) (VClass c)
| q_box v w : equal none v w -> equal none (VBox v) (VBox w)
| q_member e m : equal none (VMember e m) (VMember e m)
with equals (none : bool) : list value -> list value -> Prop :=
| qs_none : equals none [] []
| qs_more v w vs ws : equal none v w -> equals none vs ws -> equals none (v :: vs) (w :: ws).

Scheme equal_ind' := Induction for equal Sort Prop with equals_ind' := Induction for equals Sort Prop.

Lemma equal_sym : forall none x y, equal none x y -> equal none y x.
Proof. intros none. apply (equal_ind' none (fun x y _ => equal none y x) (fun l m _ => equals none m l)); intros; constructor; assumption. Qed.

Lemma equals_items : forall none l m, equals none l m -> Forall2 (equal none) l m.
Proof. intros none l. induction l as [|x l IH]; intros m H; inversion H; subst; constructor; auto. Qed.

Ltac classes :=
  first [ left; left; reflexivity | left; right; left; reflexivity | left; right; right; eexists; left; reflexivity
        | right; left; right; left; reflexivity | right; left; right; right; eexists; left; reflexivity
        | right; right; right; left; apply pr_one; reflexivity | right; right; right; right; apply pr_one; reflexivity ].

Ltac not_int := match goal with H : is_int _ |- _ => destruct H end.

Lemma content_alike : forall none k, exists x, equal none x x /\ content k x.
Proof.
  intros none k. unfold content. destruct (k =? 0); [exists (VStr 0 true); split; [constructor|reflexivity]|].
  destruct (k =? 1); [exists (VTuple [VInt 0 false; VInt 0 false]); split; [repeat constructor|exists (VInt 0 false), (VInt 0 false); repeat split]|].
  destruct (k =? 2); [exists (VBox (VInt 0 false)); split; [repeat constructor|exists (VInt 0 false); repeat split]|].
  destruct (k =? 3); [exists (VClass 11); split; constructor|]. exists (VInt 0 false). split; constructor.
Qed.

Lemma example_alike : forall none, alike example example_world (fun _ => false) (equal none).
Proof.
  intros none. constructor; cbn [example_world instance literal_value none_value tuple_value member_value].
  - exact (equal_sym none).
  - intros c s d r x y H Hx Hy. destruct H; inversion Hx; subst; inversion Hy; subst; try classes.
    all: match goal with H : is_int _ |- _ => destruct H | H : _ \/ _ |- _ => destruct H; subst; classes end.
  - intros c s r x y H Hx Hy Ls Lr. destruct H; inversion Hx; subst; inversion Hy; subst; try constructor; try constructor.
    + repeat match goal with H : Forall _ (_ :: _) |- _ => apply Forall_inv in H end. exists v, w. auto.
    + destruct (content_alike none k) as [x [Ex Hc]]. exists x, x. split; [exact Ex|]. split; match goal with H : forall x, ?s x <-> _ |- ?s _ => apply H end; exact Hc.
    + exists v, w. auto.
  - intros l m x y H Hx Hy. destruct H; destruct l; try destruct Hx; destruct m; try destruct Hy; subst; try reflexivity.
    destruct l0; try destruct Hx; destruct l'; try destruct Hy. subst. reflexivity.
  - intros x y xs ys H -> ->. inversion H; subst. split; [discriminate|]. constructor; [assumption|]. apply equals_items. assumption.
  - intros x y xs d r H -> Hy. inversion H; subst. inversion Hy; subst; try not_int; [left; reflexivity|right; eexists; left; reflexivity].
  - intros x y d r H -> Hy. inversion H; subst. inversion Hy; subst; try not_int. reflexivity.
  - intros x y ys H -> ->. inversion H.
  - intros x y e m H -> [_ ->]. inversion H.
  - intros x y e m e' m' H [_ ->] [_ ->]. inversion H; subst. auto.
  - intros x y e m ys H [_ ->] ->. inversion H.
  - intros x y e m d r H [_ ->] Hy. inversion H; subst. inversion Hy; subst; try not_int; [left; reflexivity|right; left; reflexivity|].
    right. right. split; [reflexivity|]. right. eexists. left. reflexivity.
Qed.

Lemma example_ordinary : ordinary_program example.
Proof.
  constructor; try reflexivity.
  - intros c b H. cbn [example bases] in H. destruct (N.eqb_spec c 2) as [->|H2]; [|destruct (N.eqb_spec c 5) as [->|H5]; [|destruct (N.eqb_spec c 10) as [->|H10]; [|destruct (N.eqb_spec c 15) as [->|H15]; [|destruct H]]]];
      destruct H as [<-|[]]; (split; [eexists; eexists; reflexivity|]); repeat (constructor; cbn).
  - intros c. cbn [example bases]. destruct (N.eqb_spec c 2) as [->|H2]; [|destruct (N.eqb_spec c 5) as [->|H5]; [|destruct (N.eqb_spec c 10) as [->|H10]; [|destruct (N.eqb_spec c 15) as [->|H15]]]];
      cbn; repeat constructor; cbn; lia.
  - intros []; reflexivity.
  - intros c d. cbn. destruct (_ || _); [intros E; injection E as <-; reflexivity|discriminate].
  - intros a Ha. assert (O : ordinary example 0 (Class 0 [])) by (split; [reflexivity|constructor]).
    destruct a as [[|t [|s [|]]]|t|u]; cbn [example entries]; try exact O; [exact (Forall_inv Ha)| |exact Ha].
    destruct (is_bool_literal t || is_bool_literal s) eqn:E; [exact O|]. apply orb_false_iff in E. destruct E as [Et Es]. split; [discriminate|].
    assert (B : filter boolean [t; s] = []) by (cbn [filter]; unfold is_bool_literal in Et, Es; unfold boolean; rewrite Et, Es; reflexivity). rewrite B. split; [constructor|].
    split; [|exact Ha]. cbn in Ha. inversion Ha as [|x l Hx Hl]; subst. inversion Hl as [|y l' Hy _]; subst. cbn. destruct t; try (inversion Hx; fail); destruct s; try (inversion Hy; fail); reflexivity.
  - discriminate.
Qed.

Lemma example_nameable : forall c, c <> 14 -> c <> 15 -> nameable example c.
Proof. intros c H14 H15. split; [intros ds [E|[]]; injection E as E _; congruence|intros e; exact H15]. Qed.

Lemma example_separate : separate_program example.
Proof.
  constructor.
  - intros c d ds H. cbn [example bases] in H. destruct (c =? 2); [|destruct (c =? 5); [|destruct (c =? 10); [|destruct (c =? 15); [|destruct H]]]];
      destruct H as [E|[]]; injection E as <- <-; repeat constructor.
  - intros []; apply example_nameable; discriminate.
Qed.

Lemma example_acyclic : acyclic example.
Proof.
  assert (B : forall c d ds, In (Class d ds) (bases example c) -> (c, d) = (2, 1) \/ (c, d) = (5, 14) \/ (c, d) = (10, 6) \/ (c, d) = (15, 16)).
  { intros c d ds H. cbn [example bases] in H. destruct (N.eqb_spec c 2) as [->|]; [|destruct (N.eqb_spec c 5) as [->|]; [|destruct (N.eqb_spec c 10) as [->|]; [|destruct (N.eqb_spec c 15) as [->|]; [|destruct H]]]];
      destruct H as [E|[]]; injection E as <- _; auto. }
  intros c d [H|[H|[ds H]]] [H'|[H'|[ds' H']]]; try congruence; repeat match goal with H : In _ _ |- _ => apply B in H end; cbn [example object] in *;
    repeat match goal with H : _ \/ _ |- _ => destruct H end; congruence.
Qed.

Definition example_library : OverlapModel.library := {| list_class := 8; mapping := 14; bytes_like := fun c => c =? 4; listed := fun _ => false; custom_eq := fun _ => false |}.

(** [float | list[int]] and [tuple[int] | bool | int]: 3 and a float may be equal. *)
Example C69_case :
  let t1 := Union [float_; list_ int_] in let t2 := Union [Tuple (FixedLen [int_]); bool_; int_] in
  ordinary example 0 t1 /\ ordinary example 0 t2 /\ separate example t1 /\ separate example t2 /\
  equal false VFloat (VInt 3 false) /\ has example_world example_env t1 VFloat /\ has example_world example_env t2 (VInt 3 false) /\
  overlaps example (fun _ => false) 9 t1 t2 = Some true /\ strict_equality example example_library 9 t1 t2 = Some true.
Proof.
  assert (Nn : forall c, In c [1; 2; 8; 9] -> nameable example c) by (intros c H; apply example_nameable; intros ->; repeat (destruct H as [H|H]; [discriminate H|]); destruct H).
  cbv zeta. split; [repeat (constructor; cbn); discriminate|]. split; [repeat (constructor; cbn); discriminate|].
  split; [cbn [separate map]; repeat constructor; try (apply Nn; cbn; auto 9; fail); apply example_nameable; discriminate|].
  split; [cbn [separate map]; repeat constructor; try (apply Nn; cbn; auto 9; fail); apply example_nameable; discriminate|].
  split; [constructor|]. split; [left; constructor|]. split; [right; right; left; constructor; exact Logic.I|]. split; vm_compute; reflexivity.
Qed.

Example C69_case_found : forall fuel, overlaps example (fun _ => false) fuel (Union [float_; list_ int_]) (Union [Tuple (FixedLen [int_]); bool_; int_]) <> Some false.
Proof.
  intros fuel. destruct C69_case as (O1 & O2 & S1 & S2 & Exy & H1 & H2 & _).
  exact (C69_alike_partial _ _ _ _ _ _ example_proper example_lawful example_ordinary example_separate (example_alike false) _ _ _ _ O1 O2 S1 S2 Exy H1 H2 fuel).
Qed.

(** What is found disjoint, and a comparison that is reported *)
Example C69_case_disjoint :
  overlaps example (fun _ => false) 9 (list_ int_) (list_ str_) = Some false /\ overlaps example (fun _ => false) 9 (Union [int_; NoneType]) str_ = Some false /\
  overlaps example (fun _ => false) 9 (Tuple (FixedLen [int_; str_])) (Tuple (FixedLen [int_])) = Some false /\ overlaps example (fun _ => false) 9 (Literal (LInt 1 false)) (Literal (LInt 2 false)) = Some false /\
  strict_equality example example_library 9 (list_ int_) (list_ str_) = Some false /\ strict_equality example example_library 9 (Enum 0) (EnumMember 1 0) = Some false /\
  strict_equality example example_library 9 (list_ (Union [int_; NoneType])) (list_ float_) = Some true.
Proof. repeat split; vm_compute; reflexivity. Qed.

(** [tuple[int, *tuple[str, ...], bool]] and [tuple[float, str, int]] *)
Example C69_case_unpacked :
  let u := mk_unpack [int_] (Many str_) [bool_] in let a := FixedLen [float_; str_; int_] in let v := VTuple [VInt 1 false; VStr 0 true; VBool true] in
  plain_unpack example u /\ ordinary example 0 (Tuple a) /\ separate example (Tuple a) /\ equal false v v /\
  has example_world example_env (Tuple (WithUnpack u)) v /\ has example_world example_env (Tuple a) v /\ overlaps example (fun _ => false) 9 (Tuple (WithUnpack u)) (Tuple a) = Some true.
Proof.
  assert (Nn : forall c, In c [1; 2; 3; 9] -> separate example (Class c [])).
  { intros c H. split; [|constructor]. apply example_nameable; intros ->; repeat (destruct H as [H|H]; [discriminate H|]); destruct H. }
  assert (Oo : forall c, In c [1; 2; 3; 9] -> ordinary example 0 (Class c [])) by (intros c H; repeat (destruct H as [<-|H]; [split; [reflexivity|constructor]|]); destruct H).
  cbv zeta. split.
  { split; [constructor; [apply Oo; cbn; auto|constructor]|]. split; [constructor; [apply Nn; cbn; auto|constructor]|]. split; [constructor; [apply Oo; cbn; auto|constructor]|].
    split; [constructor; [apply Nn; cbn; auto|constructor]|]. split; [apply Oo; cbn; auto|apply Nn; cbn; auto]. }
  split; [apply map_of_Forall; repeat (constructor; [apply Oo; cbn; auto 6|]); constructor|]. split; [apply map_of_Forall; repeat (constructor; [apply Nn; cbn; auto 6|]); constructor|].
  split; [repeat constructor|]. split; [|split; [|vm_compute; reflexivity]].
  - eexists. split; [reflexivity|]. exists [VInt 1 false], [VStr 0 true], [VBool true]. split; [reflexivity|]. split; [|split]; repeat constructor.
  - eexists. split; [reflexivity|]. constructor; [apply of_float_int; exact Logic.I|]. repeat constructor.
Qed.

(** [tuple[float | str, ...]] and [tuple[int, object]] *)
Example C69_case_exact :
  let t1 := Tuple (ArbitraryLen (Union [float_; str_])) in let t2 := Tuple (FixedLen [int_; object_]) in
  simple example example_world (fun _ => false) t1 /\ simple example example_world (fun _ => false) t2 /\ (forall vs, exists v, tuple_value example_world v vs) /\
  overlaps example (fun _ => false) 9 t1 t2 = Some true.
Proof.
  assert (P : forall c v, In c [0; 1; 2; 3; 4; 9; 11; 12; 15] -> example_instance c [] v -> simple example example_world (fun _ => false) (Class c [])).
  { intros c v H Hv. split; [reflexivity|]. split; [reflexivity|]. split; [exact (example_plain None c H)|exists v; exact Hv]. }
  cbv zeta. split; [|split; [|split; [|vm_compute; reflexivity]]].
  - split; [discriminate|]. apply map_of_Forall. constructor; [|constructor; [|constructor]]; [apply (P 9 VFloat)|apply (P 3 (VStr 0 true))]; try (constructor; fail); cbn; auto 9.
  - apply map_of_Forall. constructor; [|constructor; [|constructor]].
    + apply (P 1 (VInt 0 false)); [cbn; auto|constructor; exact Logic.I].
    + apply (P 0 VNone); [cbn; auto|constructor].
  - intros vs. exists (VTuple vs). reflexivity.
Qed.

Example C69_case_symmetric : overlaps example (fun _ => false) 9 (Literal (LBool true)) float_ = Some true /\ overlaps example (fun _ => false) 7 float_ (Literal (LBool true)) = Some true /\
  ordinary_program example /\ acyclic example.
Proof. split; [reflexivity|]. split; [reflexivity|]. split; [exact example_ordinary|exact example_acyclic]. Qed.

(** [int | None] and [float | str] *)
Example C69_case_unreported :
  let t1 := Union [int_; NoneType] in let t2 := Union [float_; str_] in
  simple example example_world (fun _ => false) t1 /\ simple example example_world (fun _ => false) t2 /\ more_than_none t1 /\ more_than_none t2 /\
  (forall u, alternative u t1 \/ alternative u t2 -> ~ special example 14 (fun c => c =? 4) u) /\ variances example 8 <> [] /\ strict_equality example example_library 9 t1 t2 = Some true.
Proof.
  assert (P : forall c v, In c [0; 1; 2; 3; 4; 9; 11; 12; 15] -> example_instance c [] v -> simple example example_world (fun _ => false) (Class c [])).
  { intros c v H Hv. split; [reflexivity|]. split; [reflexivity|]. split; [exact (example_plain None c H)|exists v; exact Hv]. }
  cbv zeta. split; [|split; [|split; [|split; [|split; [|split; [discriminate|vm_compute; reflexivity]]]]]].
  - split; [discriminate|]. apply map_of_Forall. constructor; [|constructor; [|constructor]]; [apply (P 1 (VInt 0 false)); [cbn; auto|constructor; exact Logic.I]|]. exists VNone. reflexivity.
  - split; [discriminate|]. apply map_of_Forall. constructor; [|constructor; [|constructor]]; [apply (P 9 VFloat)|apply (P 3 (VStr 0 true))]; try (constructor; fail); cbn; auto 9.
  - exists int_. split; [discriminate|left; reflexivity].
  - exists str_. split; [discriminate|right; left; reflexivity].
  - assert (D : forall c, In c [1; 9; 3] -> ~ (derives example c 14 \/ (c =? 4) = true)).
    { intros c H [D|D]; repeat (destruct H as [<-|H]; [try discriminate D; destruct D as [D|[D|[ds D]]]; try discriminate D; repeat (destruct D as [D|D]; [try discriminate D|]); try destruct D|]); destruct H. }
    intros u [[Nu H]|[Nu H]]; repeat (destruct H as [<-|H]; [try (apply D; cbn; auto 6; fail); try (destruct (Nu eq_refl))|]); destruct H.
Qed.

Example C69_case_literals : overlaps example (fun _ => false) 3 (Union (map Literal [LInt 1 false; LInt 2 false])) (Union (map Literal [LStr 0; LInt 2 false])) = Some true /\
  overlaps example (fun _ => false) 3 (Union (map Literal [LInt 1 false; LBool true])) (Union (map Literal [LStr 0; LInt 1 true])) = Some false.
Proof. split; reflexivity. Qed.

(** 22 is a Mapping and 20 is a dict; [dict[str, int]] and [Mapping[str, bytes]] *)
Definition with_dict : program := build [(20, [Class 22 [TypeVar 0; TypeVar 1]])].
Definition dict_library : OverlapModel.library := {| list_class := 8; mapping := 22; bytes_like := fun c => c =? 4; listed := fun _ => false; custom_eq := fun _ => false |}.
Example C69_case_containers : a_mapping with_dict 22 20 /\ a_mapping with_dict 22 22 /\
  strict_equality with_dict dict_library 9 (Class 20 [Class 2 []; Class 1 []]) (Class 22 [Class 2 []; Class 4 []]) = Some false /\
  strict_equality with_dict dict_library 9 (Class 20 [Class 2 []; Class 1 []]) (Class 22 [Class 2 []; Class 1 []]) = Some true /\
  strict_equality with_dict dict_library 9 (Class 20 [Class 2 []; Class 1 []]) NoneType = Some true.
Proof. split; [right; reflexivity|]. split; [left; reflexivity|]. split; [|split]; vm_compute; reflexivity. Qed.

(** ** What does not hold *)
Notation shared t1 t2 := (exists v, has example_world example_env t1 v /\ has example_world example_env t2 v).
Notation disjoint t1 t2 := (overlaps example (fun _ => false) 20 t1 t2 = Some false).

(** The empty tuple is in [tuple[int, ...]] and [tuple[str, ...]]. *)
Theorem C69_empty_refuted : let t1 := Tuple (ArbitraryLen int_) in let t2 := Tuple (ArbitraryLen str_) in shared t1 t2 /\ disjoint t1 t2.
Proof. cbv zeta. split; [exists (VTuple []); split; exists []; (split; [reflexivity|constructor])|vm_compute; reflexivity]. Qed.

(** [Optional[int]] and [Optional[str]]: both may be None. *)
Theorem C69_none_refuted : let t1 := Union [int_; NoneType] in let t2 := Union [str_; NoneType] in shared t1 t2 /\ strict_equality example example_library 20 t1 t2 = Some false.
Proof. cbv zeta. split; [exists VNone; split; right; left; reflexivity|vm_compute; reflexivity]. Qed.

(** A [tuple[object]] may be a [Sequence[int]]. *)
Theorem C69_sequence_refuted : let t1 := Tuple (FixedLen [object_]) in let t2 := sequence_ int_ in shared t1 t2 /\ disjoint t1 t2.
Proof.
  cbv zeta. split; [|vm_compute; reflexivity]. exists (VTuple [VInt 1 false]). split; [|repeat constructor]. eexists. split; [reflexivity|]. repeat constructor.
Qed.

(** [tuple[*tuple[int, ...], str]] and [tuple[*tuple[object, ...], int, str]]: the items behind the unpack are compared from the wrong end. *)
Theorem C69_unpacked_refuted :
  let t1 := Tuple (WithUnpack (mk_unpack [] (Many int_) [str_])) in let t2 := Tuple (WithUnpack (mk_unpack [] (Many object_) [int_; str_])) in shared t1 t2 /\ disjoint t1 t2.
Proof.
  cbv zeta. split; [|vm_compute; reflexivity]. exists (VTuple [VInt 1 false; VStr 0 true]). split; (eexists; split; [reflexivity|]).
  - exists [], [VInt 1 false], [VStr 0 true]. split; [reflexivity|]. repeat constructor.
  - exists [], [], [VInt 1 false; VStr 0 true]. split; [reflexivity|]. repeat constructor.
Qed.

(** A type variable with the constraints int and str, and int *)
Theorem C69_constraints_refuted : shared (TypeVar 0) int_ /\ disjoint (TypeVar 0) int_.
Proof. split; [|vm_compute; reflexivity]. exists (VInt 1 false). split; [exact Logic.I|constructor; exact Logic.I]. Qed.

(** The dataclasses [Box[int | str]] and [Box[str | bytes]] *)
Theorem C69_dataclass_refuted : let t1 := Dataclass 13 [Union [int_; str_]] in let t2 := Dataclass 13 [Union [str_; Class 4 []]] in shared t1 t2 /\ disjoint t1 t2.
Proof. cbv zeta. split; [|vm_compute; reflexivity]. exists (VBox (VStr 0 true)). split; constructor; [right; left|left]; constructor. Qed.

(** [Literal[5]] and bool are found to overlap. *)
Theorem C69_literal_refuted : overlaps example (fun _ => false) 20 (Literal (LInt 5 false)) bool_ = Some true /\ ~ shared (Literal (LInt 5 false)) bool_.
Proof. split; [vm_compute; reflexivity|]. intros [v [H1 H2]]. inversion H2; subst. exact H1. Qed.

(** [type[int]] and [type], in this order only *)
Theorem C69_symmetric_refuted : disjoint (TypeOf int_) (Class 6 []) /\ overlaps example (fun _ => false) 20 (Class 6 []) (TypeOf int_) = Some true.
Proof. split; vm_compute; reflexivity. Qed.

(** A class with two unrelated base classes has instances of both. *)
Definition joined : program := build [(20, [Class 9 []; Class 14 []])].
Theorem C69_two_bases_refuted : In (Class 9 []) (bases joined 20) /\ In (Class 14 []) (bases joined 20) /\ overlaps joined (fun _ => false) 20 (Class 9 []) (Class 14 []) = Some false.
Proof. split; [left; reflexivity|]. split; [right; left; reflexivity|vm_compute; reflexivity]. Qed.

(** A [Callback[object]] is accepted where [Callback[int]] and where [Callback[str]] is expected. *)
Theorem C69_contravariant_refuted : accepts library (Class 11 [Class 1 []]) (Class 11 [Class 0 []]) /\ accepts library (Class 11 [Class 2 []]) (Class 11 [Class 0 []]) /\
  overlaps library (fun _ => false) 20 (Class 11 [Class 1 []]) (Class 11 [Class 2 []]) = Some false.
Proof. split; [exists 20%nat; vm_compute; reflexivity|]. split; [exists 20%nat; vm_compute; reflexivity|vm_compute; reflexivity]. Qed.

(** With [class A(Sequence[list[A]])] and [class Y(list[Sequence[Y]])], the comparison of [A] and [Sequence[Y]] does not end. *)
Definition endless : program := build [(20, [Class 7 [Class 8 [Class 20 []]]]); (21, [Class 8 [Class 7 [Class 21 []]]])].
Theorem C69_answered_refuted : ordinary_program endless /\ forall fuel, overlaps endless (fun _ => false) fuel (Class 20 []) (Class 7 [Class 21 []]) = None.
Proof.
  split.
  - apply build_ordinary.
    + intros c b H. table H; (split; [eexists; eexists; reflexivity|]); repeat (constructor; cbn).
    + intros c. destruct (N.eq_dec c 20) as [->|H20]; [cbn; repeat constructor; cbn; lia|]. destruct (N.eq_dec c 21) as [->|H21]; [cbn; repeat constructor; cbn; lia|].
      rewrite find_other by (cbn; intros [E|[E|[]]]; congruence). constructor; [intros []|constructor].
  - assert (G : forall fuel, overlaps endless (fun _ => false) fuel (Class 20 []) (Class 7 [Class 21 []]) = None /\
      overlaps endless (fun _ => false) fuel (Class 8 [Class 20 []]) (Class 21 []) = None).
    { intros fuel. induction fuel as [|fuel [IH1 IH2]]; [split; reflexivity|]. split.
      - change (overlaps endless (fun _ => false) (S fuel) (Class 20 []) (Class 7 [Class 21 []])) with
          (match overlaps endless (fun _ => false) fuel (Class 8 [Class 20 []]) (Class 21 []) with Some a => Some (a && true) | None => None end). rewrite IH2. reflexivity.
      - change (overlaps endless (fun _ => false) (S fuel) (Class 8 [Class 20 []]) (Class 21 [])) with
          (match overlaps endless (fun _ => false) fuel (Class 20 []) (Class 7 [Class 21 []]) with Some a => Some (a && true) | None => None end). rewrite IH1. reflexivity. }
    intros fuel. exact (proj1 (G fuel)).
Qed.

Print Assumptions C69_alike_partial.
Print Assumptions C69_unpacked_partial.
Print Assumptions C69_comparison_partial.
Print Assumptions C69_exact_partial.
Print Assumptions C69_symmetric_partial.
Print Assumptions C69_unreported_partial.
Print Assumptions C69_exempt.
Print Assumptions C69_literals.
Print Assumptions C69_containers.
Print Assumptions C69_empty_refuted.
Print Assumptions C69_none_refuted.
Print Assumptions C69_sequence_refuted.
Print Assumptions C69_unpacked_refuted.
Print Assumptions C69_constraints_refuted.
Print Assumptions C69_dataclass_refuted.
Print Assumptions C69_literal_refuted.
Print Assumptions C69_symmetric_refuted.
Print Assumptions C69_two_bases_refuted.
Print Assumptions C69_contravariant_refuted.
Print Assumptions C69_answered_refuted.
