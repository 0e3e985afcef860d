(** C54: a value is accepted only where all values of its type belong *)
From Coq Require Import List NArith Bool Lia.
From Verif Require Import TupleModel TupleSpec SubtypeModel SubtypeSpec SubtypeProofs SubtypeSound SubtypeTuples SubtypeComplete.
Import ListNotations.
Open Scope N_scope.

(** An accepted type has no value that the expected type does not have. *)
Theorem C54_sound_partial : forall V p (w : world V) env, proper p -> lawful p w env ->
  forall t1 t2, fine p None t1 -> fine_value p None t2 -> accepts p t1 t2 -> forall v, has w env t2 v -> has w env t1 v.
Proof. intros V p w env Hp Hw t1 t2 H1 H2 [fuel H]. exact (run_sound p w env Hp Hw fuel _ H H1 H2). Qed.

(** Where the types have to be the same, they have the same values. *)
Theorem C54_same_partial : forall V p (w : world V) env, proper p -> lawful p w env ->
  forall t1 t2, fine p None t1 -> fine p None t2 -> (exists fuel, run p fuel (Matches Invariant false t1 t2) = Some Yes) ->
  forall v, has w env t2 v <-> has w env t1 v.
Proof. intros V p w env Hp Hw t1 t2 H1 H2 [fuel H]. exact (proj1 (run_sound p w env Hp Hw fuel _ H) H1 H2). Qed.

(** Tuples with [*tuple[T, ...]], as long as no more items are expected than there are *)
Theorem C54_tuples_partial : forall V p (w : world V) env, proper p -> lawful p w env ->
  forall a1 a2, comparable p a1 a2 -> accepts p (Tuple a1) (Tuple a2) -> forall v, has w env (Tuple a2) v -> has w env (Tuple a1) v.
Proof.
  intros V p w env Hp Hw a1 a2 Hc [fuel H]. destruct fuel as [|fuel]; [discriminate H|].
  exact (tuples_sound p w env Hp Hw fuel false a1 a2 Hc (tuple_question p fuel false a1 a2 H)).
Qed.

(** ** No wrong errors *)
(** The answer does not depend on the number of steps. *)
Theorem C54_decided : forall p t1 t2, accepts p t1 t2 -> rejects p t1 t2 -> False.
Proof. intros p t1 t2 [fuel H] [fuel' [s [r H']]]. assert (E := run_once _ _ _ _ _ _ H H'). discriminate E. Qed.

Lemma not_rejected : forall p t1 t2, (forall fuel, yes (run p fuel (Matches Covariant false t1 t2))) -> ~ rejects p t1 t2.
Proof. intros p t1 t2 H [fuel [s [r E]]]. assert (F := H fuel _ E). discriminate F. Qed.

Lemma yes_of_accepted : forall p t1 t2, ~ rejects p t1 t2 -> forall fuel, yes (run p fuel (Matches Covariant false t1 t2)).
Proof. intros p t1 t2 H fuel [s r|] E; [|reflexivity]. destruct H. exists fuel, s, r. exact E. Qed.

(** A value is not rejected where its own type is expected. *)
Theorem C54_itself_partial : forall p t, reflexive t -> ~ rejects p t t.
Proof. intros p t H. apply not_rejected. intros fuel. exact (self_accepted_all p t H fuel Covariant false). Qed.

Theorem C54_object : forall p t, variances p (object p) = [] -> ~ rejects p (Class (object p) []) t.
Proof. intros p t H. apply not_rejected. intros fuel. exact (proj1 (object_accepts_all p H fuel false) t). Qed.

Theorem C54_never : forall p t, variances p (object p) = [] -> ~ rejects p t Never.
Proof. intros p t H. apply not_rejected. intros fuel. exact (never_accepted p H fuel false t). Qed.

(** A member is accepted by its union. *)
Theorem C54_member_partial : forall p t ts, In t ts -> reflexive t -> plain_member t -> ~ rejects p (Union ts) t.
Proof. intros p t ts Hin Hr Hm. apply not_rejected. intros fuel. exact (member_accepted p fuel false t ts Hin Hr Hm). Qed.

(** A union is accepted where all its members are. *)
Theorem C54_members_partial : forall p t us, is_union_like t = false -> match t with Intersection _ => False | _ => True end ->
  (forall u, In u us -> ~ rejects p t u) -> ~ rejects p t (Union us).
Proof.
  intros p t us Hu Hi H. apply not_rejected. intros fuel. apply union_value_accepted; [exact Hu|exact Hi|]. intros n u Hin.
  apply yes_of_accepted. exact (H u Hin).
Qed.

(** ** A program *)
(** object 0, int 1, bool 2, str 3, bytes 4, tuple 5, type 6, GenericAlias 7, list 8 (invariant), float 9, Meta(type) 10, C and D
    with the metaclass Meta 11 and 12, the frozen dataclass Box[T] 13, Sequence 14, Color(Enum) 15, Enum 16; T: (int, str) is 0, S: bound to Sequence[int] is 1;
    a NewType of int is 0. *)
Definition example : program := {|
  object := 0; bool_class := 2; int_class := 1; str_class := 3; bytes_class := 4; tuple_class := 5; bare_type := 6; generic_alias := 7;
  variances := fun c => if c =? 8 then [Invariant] else if (c =? 5) || (c =? 13) || (c =? 14) then [Covariant] else [];
  bases := fun c => if c =? 2 then [Class 1 []] else if c =? 5 then [Class 14 [TypeVar 0]] else if c =? 10 then [Class 6 []] else if c =? 15 then [Class 16 []] else [];
  metaclass := fun c => if (c =? 11) || (c =? 12) then Metaclass 10 else NoMetaclass;
  is_metaclass := fun c => (c =? 6) || (c =? 10);
  incomplete := fun _ => false;
  promote_to := fun c => if (c =? 1) || (c =? 2) then Some 9 else None;
  is_protocol := fun _ => false;
  check_protocol := fun _ _ _ => no;
  enum_class := fun _ => 15;
  newtype_type := fun _ => Class 1 [];
  kind_of := fun n => if n =? 0 then Constraints [Class 1 []; Class 3 []] else if n =? 1 then Bound (Class 14 [Class 1 []]) else Unrestricted;
  entries := fun a => match a with ArbitraryLen t | FixedLen [t] => t | FixedLen [t; s] => if is_bool_literal t || is_bool_literal s then Class 0 [] else Union [t; s] | _ => Class 0 [] end;
  same_union := fun _ _ => false
|}.

(** Its values.  A list knows what it is made for. *)
Inductive value :=
| VNone | VInt (n : N) (negative : bool) | VBool (b : bool) | VStr (s : N) (literal : bool) | VBytes (s : N) | VFloat | VTuple (vs : list value)
| VList (k : N) | VObject (c : N) | VClass (c : N) | VBox (v : value) | VMember (e m : N).

Definition is_int (v : value) : Prop := match v with VInt _ _ | VBool _ => True | _ => False end.

(** What a list may contain: [Literal["a"]], [tuple[int, int]], [Box[int]], [type[C]], int *)
Definition content (k : N) (v : value) : Prop :=
  if k =? 0 then v = VStr 0 true
  else if k =? 1 then exists x y, v = VTuple [x; y] /\ is_int x /\ is_int y
  else if k =? 2 then exists x, v = VBox x /\ is_int x
  else if k =? 3 then v = VClass 11
  else is_int v.

Inductive example_instance : N -> list (value -> Prop) -> value -> Prop :=
| of_object : forall v, example_instance 0 [] v
| of_int : forall v, is_int v -> example_instance 1 [] v
| of_boolean : forall b, example_instance 2 [] (VBool b)
| of_str : forall s l, example_instance 3 [] (VStr s l)
| of_bytes : forall s, example_instance 4 [] (VBytes s)
| of_type : forall c, example_instance 6 [] (VClass c)
| of_list : forall (s : value -> Prop) k, (forall x, s x <-> content k x) -> example_instance 8 [s] (VList k)
| of_float : example_instance 9 [] VFloat
| of_float_int : forall v, is_int v -> example_instance 9 [] v
| of_meta : forall c, c = 11 \/ c = 12 -> example_instance 10 [] (VClass c)
| of_c : example_instance 11 [] (VObject 11)
| of_d : example_instance 12 [] (VObject 12)
| of_box : forall (s : value -> Prop) v, s v -> example_instance 13 [s] (VBox v)
| of_sequence : forall (s : value -> Prop) vs, Forall s vs -> example_instance 14 [s] (VTuple vs)
| of_color : forall e m, example_instance 15 [] (VMember e m)
| of_enum : forall e m, example_instance 16 [] (VMember e m).

Definition example_world : world value := {|
  instance := example_instance;
  literal_value := fun l v => match l, v with
    | LInt n s, VInt m r => n = m /\ s = r
    | LBool b, VBool c => b = c
    | LStr s, VStr r true => s = r
    | LBytes s, VBytes r => s = r
    | _, _ => False
    end;
  none_value := fun v => v = VNone;
  literal_text := fun v => exists s, v = VStr s true;
  tuple_value := fun v vs => v = VTuple vs;
  stands_for := fun _ vs => exists v, vs = [v; v];
  member_value := fun e m v => (m = 0 \/ m = 1) /\ v = VMember e m;
  made_by := fun _ v => v = VInt 7 false;
  class_of := fun v c => match v with VObject n => c = VClass n | VInt _ _ => c = VClass 1 | VBool _ => c = VClass 2 | VStr _ _ => c = VClass 3 | _ => c = VClass 0 end
|}.

(** T is int, S is [tuple[int, int]], the others are int. *)
Definition example_env (n : N) (v : value) : Prop :=
  if n =? 1 then exists x y, v = VTuple [x; y] /\ is_int x /\ is_int y else is_int v.

Lemma example_class : forall k c gs, length gs = length (variances example c) -> c <> 6 -> c <> 7 -> c <> 10 -> Forall (fine example k) gs -> fine example k (Class c gs).
Proof.
  intros k c gs Hl H6 H7 H10 Hg. cbn [fine]. split; [exact Hl|]. split; [reflexivity|]. split; [cbn; destruct (_ || _); discriminate|].
  split; [|split; [exact H6|split; [exact H7|apply map_of_Forall; exact Hg]]].
  intros d. cbn. destruct (_ || _); [|discriminate]. intros E. injection E as <-. exact (H10 eq_refl).
Qed.

Lemma example_plain : forall k c, In c [0; 1; 2; 3; 4; 9; 11; 12; 15] -> fine example k (Class c []).
Proof.
  intros k c H. apply example_class; [| | | |constructor]; cbn in H;
    repeat (destruct H as [<-|H]; [first [reflexivity|discriminate]|]); destruct H.
Qed.

Lemma example_proper : proper example.
Proof.
  constructor.
  - intros c b H. cbn [example bases] in H. destruct (N.eqb_spec c 2) as [->|H2]; [|destruct (N.eqb_spec c 5) as [->|H5]; [|destruct (N.eqb_spec c 10) as [->|H10]; [|destruct (N.eqb_spec c 15) as [->|H15]; [|destruct H]]]];
      destruct H as [<-|[]]; (split; [reflexivity|split; [reflexivity|]]); repeat constructor.
  - split; reflexivity.
  - intros c [<-|[<-|[<-|[<-|[]]]]]; split; reflexivity.
  - reflexivity.
  - intros a Ha. assert (O : fine example None (Class 0 [])) by (apply example_plain; left; reflexivity).
    destruct a as [[|t [|s [|]]]|t|u]; cbn [example entries]; try exact O; [exact (Forall_inv Ha)| |exact Ha].
    destruct (is_bool_literal t || is_bool_literal s) eqn:E; [exact O|]. apply orb_false_iff in E. destruct E as [Et Es].
    cbn [fine] in Ha |- *. split; [discriminate|]. split; [|split; [intros H; destruct (H eq_refl)|exact Ha]].
    unfold distinct_bools. intros H. assert (F : filter (fun t => match t with Literal (LBool _) => true | _ => false end) [t; s] = []); [|rewrite F in H; cbn in H; lia].
    cbn [filter]. unfold is_bool_literal in Et, Es. rewrite Et, Es. reflexivity.
  - reflexivity.
  - intros n. apply example_plain. cbn. auto.
  - intros c d H. cbn [example promote_to] in H. destruct (_ || _); [|discriminate H]. injection H as <-. apply example_plain. cbn. auto 10.
  - intros c d H. cbn [example metaclass] in H. destruct (_ || _); [|discriminate H]. injection H as <-. split; [reflexivity|]. split; [reflexivity|]. constructor.
  - intros n. cbn [example kind_of]. destruct (n =? 0); [|destruct (n =? 1); [|exact I]].
    + constructor; [|constructor; [|constructor]]; apply example_plain; cbn; auto.
    + split; [exact I|]. apply example_class; [reflexivity|discriminate|discriminate|discriminate|]. constructor; [|constructor]. apply example_plain. cbn. auto.
Qed.

Lemma example_literal : forall b v, literal_value example_world (LBool b) v <-> v = VBool b.
Proof. intros b v. destruct v; cbn; split; intros H; first [discriminate H|injection H as ->; reflexivity|destruct H; reflexivity]. Qed.

Lemma example_lawful : lawful example example_world example_env.
Proof.
  constructor.
  - intros c s r v Hs Hr H Hi. destruct Hi; cbn in Hs, Hr.
    all: try (destruct r; [|discriminate Hr]; econstructor; eassumption).
    + destruct r as [|t [|]]; try discriminate Hr. constructor. intros x. rewrite <- H0. symmetry. exact (H 0%nat _ _ _ eq_refl eq_refl eq_refl x).
    + destruct r as [|t [|]]; try discriminate Hr. constructor. exact (H 0%nat _ _ _ eq_refl eq_refl eq_refl v H0).
    + destruct r as [|t [|]]; try discriminate Hr. constructor. exact (Forall_impl _ (H 0%nat _ _ _ eq_refl eq_refl eq_refl) H0).
  - intros c s b v Hs Hb Hi. cbn [example bases] in Hb. destruct (N.eqb_spec c 2) as [->|H2]; [|destruct (N.eqb_spec c 5) as [->|H5]; [|destruct (N.eqb_spec c 10) as [->|H10]; [|destruct (N.eqb_spec c 15) as [->|H15]; [|destruct Hb]]]];
      destruct Hb as [<-|[]]; inversion Hi; subst; constructor; exact I.
  - intros v. constructor.
  - intros c d s v Hd Hi. cbn [example promote_to] in Hd. destruct ((c =? 1) || (c =? 2)) eqn:E; [|discriminate Hd]. injection Hd as <-.
    apply orb_true_iff in E. rewrite !N.eqb_eq in E. apply of_float_int. destruct E as [-> | ->]; inversion Hi; subst; [assumption|exact I].
  - intros n s v H. destruct v; try destruct H. constructor. exact I.
  - intros s v H. destruct v as [| | |r []| | | | | | | |]; try destruct H. exists s. reflexivity.
  - intros v [s ->]. constructor.
  - intros s v H. destruct v; try destruct H. constructor.
  - intros v. rewrite !example_literal. split; [|intros [-> | ->]; constructor]. intros H. inversion H; subst. destruct b; auto.
  - intros e m v [_ ->]. constructor.
  - intros v vs s b -> Hs [<-|[]]. constructor. exact Hs.
  - intros a v vs Ha ->. assert (O : Forall (has example_world example_env (Class 0 [])) vs) by (clear; induction vs; constructor; [constructor|assumption]).
    destruct a as [[|t [|s [|]]]|t|u]; cbn [example entries]; try exact O.
    + destruct Ha as [us [E Ha]]. injection E as <-. inversion Ha as [|x y l m Hx Hl]; subst. inversion Hl; subst. constructor; [exact Hx|constructor].
    + destruct (is_bool_literal t || is_bool_literal s); [exact O|]. destruct Ha as [us [E Ha]]. injection E as <-. inversion Ha as [|x y l m Hx Hl]; subst.
      inversion Hl as [|x' y' l' m' Hx' Hl']; subst. inversion Hl'; subst. constructor; [left; exact Hx|]. constructor; [right; left; exact Hx'|constructor].
    + destruct Ha as [us [E Ha]]. injection E as <-. exact Ha.
  - intros n v ->. constructor. exact I.
  - intros c d s x v Hm Hi Hc. cbn [example metaclass] in Hm. destruct ((c =? 11) || (c =? 12)) eqn:E; [|discriminate Hm]. injection Hm as <-.
    apply orb_true_iff in E. rewrite !N.eqb_eq in E. destruct E as [-> | ->]; inversion Hi; subst; cbn in Hc; subst v; constructor; auto.
  - intros n. cbn [example kind_of]. destruct (N.eqb_spec n 0) as [->|]; [|destruct (N.eqb_spec n 1) as [->|]; [|exact I]].
    + intros v H. left. constructor. exact H.
    + intros v [x [y [-> [Hx Hy]]]]. constructor. constructor; [|constructor; [|constructor]]; constructor; assumption.
  - intros c gs t v _ _ H. discriminate H.
  - intros ts us v H. discriminate H.
Qed.

(** ** Cases *)
Notation object_ := (Class 0 []). Notation int_ := (Class 1 []). Notation bool_ := (Class 2 []). Notation str_ := (Class 3 []).
Notation list_ t := (Class 8 [t]). Notation float_ := (Class 9 []). Notation sequence_ t := (Class 14 [t]).

(** [Sequence[float | str]] accepts [tuple[bool, Literal["x"]]]. *)
Example C54_case_accepted : accepts example (sequence_ (Union [float_; str_])) (Tuple (FixedLen [bool_; Literal (LStr 5)])).
Proof. exists 20%nat. vm_compute. reflexivity. Qed.

Example C54_case_fine : fine example None (sequence_ (Union [float_; str_])) /\ fine_value example None (Tuple (FixedLen [bool_; Literal (LStr 5)])).
Proof.
  split.
  - apply example_class; [reflexivity|discriminate|discriminate|discriminate|]. constructor; [|constructor]. cbn [fine]. split; [discriminate|]. split; [unfold distinct_bools; cbn; lia|].
    split; [intros H; destruct (H eq_refl)|]. constructor; [|constructor; [|constructor]]; apply example_plain; cbn; auto 10.
  - constructor; [|constructor; [exact I|constructor]]. apply example_plain. cbn. auto.
Qed.

Example C54_case_value : has example_world example_env (sequence_ (Union [float_; str_])) (VTuple [VBool true; VStr 5 true]).
Proof.
  apply (C54_sound_partial _ _ _ _ example_proper example_lawful _ _ (proj1 C54_case_fine) (proj2 C54_case_fine) C54_case_accepted).
  exists [VBool true; VStr 5 true]. split; [reflexivity|]. constructor; [constructor|]. constructor; [reflexivity|constructor].
Qed.

(** A bound, a metaclass, both bools, a NewType, an enum *)
Example C54_case_others :
  accepts example (Class 14 [float_]) (TypeVar 1) /\ accepts example (Class 0 []) (TypeOf (Class 11 [])) /\
  accepts example (Union [Literal (LBool true); Literal (LBool false)]) bool_ /\ accepts example (Union [NoneType; float_]) (NewType 0) /\
  accepts example (Class 16 []) (EnumMember 0 1) /\ accepts example (Enum 0) (EnumMember 0 1) /\ accepts example (list_ (Union [int_; str_])) (list_ (Union [str_; int_])) /\
  accepts example (TypeOf int_) (TypeOf bool_) /\
  accepts example (Tuple (WithUnpack (mk_unpack [int_] (TypeVarTuple 0) []))) (Tuple (WithUnpack (mk_unpack [bool_] (TypeVarTuple 0) []))).
Proof. repeat split; exists 20%nat; vm_compute; reflexivity. Qed.

Example C54_case_rejected :
  rejects example (list_ float_) (list_ int_) /\ rejects example (list_ object_) (list_ int_) /\ rejects example int_ float_ /\
  rejects example (Tuple (FixedLen [int_])) (Tuple (ArbitraryLen int_)) /\ rejects example int_ (Union [int_; NoneType]) /\
  rejects example (Class 14 [str_]) (TypeVar 1) /\ rejects example (TypeOf bool_) (TypeOf int_).
Proof. repeat split; exists 20%nat; vm_compute; do 2 eexists; reflexivity. Qed.

Example C54_case_same : exists fuel, run example fuel (Matches Invariant false (Union [int_; str_]) (Union [str_; int_])) = Some Yes.
Proof. exists 20%nat. vm_compute. reflexivity. Qed.

(** [tuple[float, *tuple[object, ...], int]] accepts [tuple[int, str, *tuple[str, ...], bytes, bool]]. *)
Example C54_case_tuples :
  let a1 := WithUnpack (mk_unpack [float_] (Many object_) [int_]) in
  let a2 := WithUnpack (mk_unpack [int_; str_] (Many str_) [Class 4 []; bool_]) in
  comparable example a1 a2 /\ accepts example (Tuple a1) (Tuple a2).
Proof.
  cbv zeta. split; [|exists 20%nat; vm_compute; reflexivity]. cbn [comparable].
  repeat match goal with
  | |- _ /\ _ => split
  | |- Forall _ _ => constructor
  | |- fine _ _ _ => apply example_plain; cbn; auto 10
  end; cbn; lia.
Qed.

Example C54_case_reflexive : reflexive (list_ (Tuple (WithUnpack (mk_unpack [Union [int_; NoneType]] (Many (TypeVar 0)) [TypeOf str_])))).
Proof. cbn. repeat constructor. Qed.

(** ** What does not hold *)
(** [LiteralString] is not looked at as invariant: [list[LiteralString]] accepts [list[Literal["a"]]]. *)
Theorem C54_literal_string_refuted : accepts example (list_ LiteralString) (list_ (Literal (LStr 0))) /\
  exists v, has example_world example_env (list_ (Literal (LStr 0))) v /\ ~ has example_world example_env (list_ LiteralString) v.
Proof.
  split; [exists 20%nat; vm_compute; reflexivity|]. exists (VList 0). split.
  - constructor. intros x. destruct x as [| | |s []| | | | | | | |]; cbn; split; intros H; first [discriminate H|injection H as ->; reflexivity|destruct H; reflexivity].
  - intros H. inversion H as [| | | | | |s k Hk E1 E2 E3| | | | | | | | |]; subst. assert (F := proj1 (Hk (VStr 1 true))). cbn in F.
    assert (G := F (ex_intro _ 1 eq_refl)). discriminate G.
Qed.

(** The arguments of a dataclass are compared as covariant also where the types have to be the same: [list[Box[object]]] accepts [list[Box[int]]]. *)
Theorem C54_dataclass_refuted : accepts example (list_ (Dataclass 13 [object_])) (list_ (Dataclass 13 [int_])) /\
  exists v, has example_world example_env (list_ (Dataclass 13 [int_])) v /\ ~ has example_world example_env (list_ (Dataclass 13 [object_])) v.
Proof.
  split; [exists 20%nat; vm_compute; reflexivity|]. exists (VList 2). split.
  - constructor. intros x. cbn. split.
    + intros H. inversion H as [| | | | | | | | | | | |s y Hy E1 E2 E3| | |]; subst. exists y. split; [reflexivity|]. inversion Hy; subst; assumption.
    + intros [y [-> Hy]]. constructor. constructor. exact Hy.
  - intros H. inversion H as [| | | | | |s k Hk E1 E2 E3| | | | | | | | |]; subst. destruct (proj1 (Hk (VBox VNone))) as [y [E Hy]].
    + constructor. constructor.
    + injection E as <-. destruct Hy.
Qed.

(** Every class accepts [type[T]] when [T] has constraints: [x: int = cls]. *)
Theorem C54_constraints_refuted : accepts example int_ (TypeOf (TypeVar 0)) /\
  exists v, has example_world example_env (TypeOf (TypeVar 0)) v /\ ~ has example_world example_env int_ v.
Proof.
  split; [exists 20%nat; vm_compute; reflexivity|]. exists (VClass 1). split; [exists (VInt 0 false); split; [reflexivity|exact I]|].
  intros H. inversion H; subst. assumption.
Qed.

(** A metaclass accepts [type[C]] also where the types have to be the same: [list[Meta]] accepts [list[type[C]]]. *)
Theorem C54_metaclass_refuted : accepts example (list_ (Class 10 [])) (list_ (TypeOf (Class 11 []))) /\
  exists v, has example_world example_env (list_ (TypeOf (Class 11 []))) v /\ ~ has example_world example_env (list_ (Class 10 [])) v.
Proof.
  split; [exists 20%nat; vm_compute; reflexivity|]. exists (VList 3). split.
  - constructor. intros x. cbn. split.
    + intros [y [Hy H]]. inversion H; subst. exact Hy.
    + intros ->. exists (VObject 11). split; [reflexivity|]. constructor.
  - intros H. inversion H as [| | | | | |s k Hk E1 E2 E3| | | | | | | | |]; subst.
    assert (E : content 3 (VClass 12)) by (apply Hk; constructor; right; reflexivity). discriminate E.
Qed.

(** [tuple[int, int, *tuple[str, ...]]] accepts [tuple[int, *tuple[str, ...]]], and so a tuple of one item. *)
Theorem C54_tuple_length_refuted :
  let t1 := Tuple (WithUnpack (mk_unpack [int_; int_] (Many str_) [])) in
  let t2 := Tuple (WithUnpack (mk_unpack [int_] (Many str_) [])) in
  accepts example t1 t2 /\ exists v, has example_world example_env t2 v /\ ~ has example_world example_env t1 v.
Proof.
  cbv zeta. split; [exists 20%nat; vm_compute; reflexivity|]. exists (VTuple [VInt 0 false]). split.
  - exists [VInt 0 false]. split; [reflexivity|]. exists [VInt 0 false], [], []. split; [reflexivity|]. split; [|split; constructor].
    constructor; [constructor; exact I|constructor].
  - intros [vs [E [l [m [r [Es [Hl _]]]]]]]. injection E as <-. cbn in Hl. inversion Hl as [|s x ss l' Hx Hl']; subst. inversion Hl'; subst. discriminate Es.
Qed.

(** [list[tuple[int, *tuple[int, ...]]]] accepts [list[tuple[int, int]]]. *)
Theorem C54_tuple_invariance_refuted :
  let t1 := list_ (Tuple (WithUnpack (mk_unpack [int_] (Many int_) []))) in
  let t2 := list_ (Tuple (FixedLen [int_; int_])) in
  accepts example t1 t2 /\ exists v, has example_world example_env t2 v /\ ~ has example_world example_env t1 v.
Proof.
  cbv zeta. split; [exists 20%nat; vm_compute; reflexivity|].
  assert (Int : forall v, example_instance 1 [] v -> is_int v) by (intros v Hv; inversion Hv; subst; assumption). exists (VList 1). split.
  - constructor. intros x. cbn. split.
    + intros [vs [-> H]]. cbn in H. inversion H as [|s a ss l Ha Hl]; subst. inversion Hl as [|s' b ss' l' Hb Hl']; subst. inversion Hl'; subst. exists a, b. auto.
    + intros [a [b [-> [Ha Hb]]]]. exists [a; b]. split; [reflexivity|]. constructor; [constructor; exact Ha|]. constructor; [constructor; exact Hb|constructor].
  - intros H. inversion H as [| | | | | |s k Hk E1 E2 E3| | | | | | | | |]; subst.
    destruct (proj1 (Hk (VTuple [VInt 0 false]))) as [a [b [E _]]]; [|discriminate E].
    exists [VInt 0 false]. split; [reflexivity|]. exists [VInt 0 false], [], []. split; [reflexivity|]. split; [|split; constructor].
    constructor; [constructor; exact I|constructor].
Qed.

(** [type[N]] of a NewType is rejected where [type[N]] is expected. *)
Theorem C54_newtype_refuted : rejects example (TypeOf (NewType 0)) (TypeOf (NewType 0)).
Proof. exists 20%nat. vm_compute. do 2 eexists. reflexivity. Qed.

(** With [T: (int, str)], [int | str | None] accepts [T] and [None], but not [T | None]. *)
Theorem C54_members_refuted :
  let t := Union [int_; str_; NoneType] in
  accepts example t (TypeVar 0) /\ accepts example t NoneType /\ rejects example t (Union [TypeVar 0; NoneType]).
Proof.
  cbv zeta. split; [exists 20%nat; vm_compute; reflexivity|]. split; [exists 20%nat; vm_compute; reflexivity|]. exists 20%nat. vm_compute. do 2 eexists. reflexivity.
Qed.

(** The union of all members of an enum rejects the enum. *)
Theorem C54_enum_refuted :
  let t1 := Union [EnumMember 0 0; EnumMember 0 1] in
  rejects example t1 (Enum 0) /\ forall v, has example_world example_env (Enum 0) v -> has example_world example_env t1 v.
Proof.
  cbv zeta. split; [exists 20%nat; vm_compute; do 2 eexists; reflexivity|]. intros v [m [[-> | ->] ->]].
  - left. split; [left|]; reflexivity.
  - right. left. split; [right|]; reflexivity.
Qed.

(** [tuple[object, ...]] rejects the tuples of a TypeVarTuple, [tuple[*Ts]]. *)
Theorem C54_type_var_tuple_refuted :
  let t2 := Tuple (WithUnpack (mk_unpack [] (TypeVarTuple 0) [])) in
  rejects example (Tuple (ArbitraryLen object_)) t2 /\
  forall v, has example_world example_env t2 v -> has example_world example_env (Tuple (ArbitraryLen object_)) v.
Proof.
  cbv zeta. split; [exists 20%nat; vm_compute; do 2 eexists; reflexivity|]. intros v [vs [Hv _]]. exists vs. split; [exact Hv|].
  cbn. clear. induction vs; constructor; [constructor|assumption].
Qed.

(** ** No answer *)
(** [class N(Generic[Z])] with a contravariant [Z], [class C(N["N[C]"])] *)
Definition endless : program := {|
  object := 0; bool_class := 2; int_class := 1; str_class := 3; bytes_class := 4; tuple_class := 5; bare_type := 6; generic_alias := 7;
  variances := fun c => if c =? 17 then [Contravariant] else [];
  bases := fun c => if c =? 18 then [Class 17 [Class 17 [Class 18 []]]] else [];
  metaclass := fun _ => NoMetaclass; is_metaclass := fun _ => false; incomplete := fun _ => false; promote_to := fun _ => None;
  is_protocol := fun _ => false; check_protocol := fun _ _ _ => no; enum_class := fun _ => 0; newtype_type := fun _ => NoneType;
  kind_of := fun _ => Unrestricted; entries := fun _ => Class 0 []; same_union := fun _ _ => false
|}.

(** For [x: N[C] = C()] the matching never ends. *)
Theorem C54_endless_refuted : forall t1 t2, t1 = Class 17 [Class 18 []] -> t2 = Class 18 [] ->
  forall fuel, run endless fuel (Matches Covariant false t1 t2) = None.
Proof.
  intros t1 t2 -> ->. assert (G : forall fuel, run endless fuel (Matches Covariant false (Class 17 [Class 18 []]) (Class 18 [])) = None /\
    run endless fuel (Matches Contravariant false (Class 18 []) (Class 17 [Class 18 []])) = None).
  { intros fuel. induction fuel as [|fuel [IH1 IH2]]; [split; reflexivity|]. split.
    - unfold run at 1. fold run. cbn [respond]. unfold super_type_of. cbn -[run]. unfold matches. rewrite IH2. reflexivity.
    - unfold run at 1. fold run. cbn [respond]. unfold super_type_of. cbn -[run]. unfold matches. rewrite IH1. reflexivity. }
  intros fuel. apply G.
Qed.

Print Assumptions C54_sound_partial.
Print Assumptions C54_same_partial.
Print Assumptions C54_tuples_partial.
Print Assumptions C54_decided.
Print Assumptions C54_itself_partial.
Print Assumptions C54_object.
Print Assumptions C54_never.
Print Assumptions C54_member_partial.
Print Assumptions C54_members_partial.
Print Assumptions C54_literal_string_refuted.
Print Assumptions C54_dataclass_refuted.
Print Assumptions C54_constraints_refuted.
Print Assumptions C54_metaclass_refuted.
Print Assumptions C54_tuple_length_refuted.
Print Assumptions C54_tuple_invariance_refuted.
Print Assumptions C54_newtype_refuted.
Print Assumptions C54_members_refuted.
Print Assumptions C54_type_var_tuple_refuted.
Print Assumptions C54_enum_refuted.
Print Assumptions C54_endless_refuted.
