(** C71: joins and meets of types. *)
From Coq Require Import List NArith Bool Lia PeanoNat.
From Verif Require Import TupleModel TupleSpec SubtypeModel SubtypeSpec SubtypeProofs SubtypeSound SubtypeProps JoinModel JoinSpec Join.
Import ListNotations.
Open Scope N_scope.

(** The join of two types has the values of both. *)
Theorem C71_join_partial : forall V p (w : world V) env, proper p -> lawful p w env -> settled p ->
  forall equal, (forall t s, equal t s = true <-> t = s) -> forall u, unites p w env u ->
  forall fuel t1 t2 t, good p None t1 -> good p None t2 -> common_base_type p equal u fuel t1 t2 = Some t ->
  good p None t /\ contains w env t t1 /\ contains w env t t2.
Proof. intros V p w env Hp Hw Hs equal He u Hu fuel t1 t2 t G1 G2 E. exact (internal_joins p w env Hp Hw Hs equal He u Hu fuel [] t1 t2 t E G1 G2). Qed.

(** The same for tuples with an unpack *)
Theorem C71_join_tuples_partial : forall V p (w : world V) env, proper p -> lawful p w env -> settled p ->
  forall equal, (forall t s, equal t s = true <-> t = s) -> forall u, unites p w env u ->
  forall fuel a1 a2 t, loose p a1 -> loose p a2 -> common_base_type p equal u fuel (Tuple a1) (Tuple a2) = Some t ->
  contains w env t (Tuple a1) /\ contains w env t (Tuple a2).
Proof.
  intros V p w env Hp Hw Hs equal He u Hu [|fuel] a1 a2 t L1 L2 E; [discriminate E|]. rewrite one_step in E. unfold join_step in E. cbn [check_both_sides or_try] in E. unfold mro in E. cbn [first_of] in E.
  unfold join_entries at 1, common_base_type_for_non_class in E. destruct (join_args p equal u _ a1 a2) as [r|] eqn:J in E; cbn in E; [|discriminate E]. injection E as <-.
  refine (args_above p w env Hw Hs equal He u Hu _ _ a1 a2 r J L1 L2). exact (internal_joins p w env Hp Hw Hs equal He u Hu fuel _).
Qed.

(** A list or set display, with joins or with unions: each item has the type of the items. *)
Theorem C71_display_partial : forall V p (w : world V) env, proper p -> lawful p w env -> settled p ->
  forall equal, (forall t s, equal t s = true <-> t = s) -> forall u, unites p w env u ->
  forall use_joins fuel ts t, Forall (good p None) ts -> display p equal u use_joins fuel ts = Some t -> Forall (contains w env t) ts.
Proof. intros V p w env Hp Hw Hs equal He u Hu use_joins fuel ts t F E. exact (proj2 (display_above p w env Hp Hw Hs equal He u Hu use_joins fuel ts t E F)). Qed.

(** The join with None or a union has no other values. *)
Theorem C71_union_partial : forall V p (w : world V) env, proper p -> lawful p w env ->
  forall equal u t1 t2, good p None t1 -> good p None t2 ->
  t1 = NoneType \/ t2 = NoneType \/ (exists ts, t1 = Union ts) \/ (exists ts, t2 = Union ts) ->
  (forall v, has w env (u t1 t2) v <-> has w env t1 v \/ has w env t2 v) ->
  forall fuel t, common_base_type p equal u (S fuel) t1 t2 = Some t -> forall v, has w env t v <-> has w env t1 v \/ has w env t2 v.
Proof.
  intros V p w env Hp Hw equal u t1 t2 G1 G2 C Hu fuel t E v. rewrite one_step in E. unfold join_step in E. revert E.
  assert (A : ~ good p None Any) by (intros [[] _]). assert (B : ~ good p None LiteralString) by (intros [[] _]).
  assert (O : is_object p t2 = true -> has w env t2 v).
  { intros H. destruct t2; try discriminate H. cbn in H. apply N.eqb_eq in H. subst c. apply good_class in G2 as (L & _). destruct (proper_object _ Hp) as [L0 _]. rewrite L0 in L. destruct gs; [|discriminate L]. exact (law_object _ _ _ Hw v). }
  assert (T : Some (if is_object p t2 then t2 else u t1 t2) = Some t -> has w env t v <-> has w env t1 v \/ has w env t2 v).
  { intros E. injection E as <-. destruct (is_object p t2) eqn:Eo; [|apply Hu]. specialize (O eq_refl). tauto. }
  destruct t1 as [| | |c gs|c gs|l| |a|us|us|x|x n'|n|n|s1]; cbn [check_both_sides or_try]; try (destruct (A G1)); try (destruct (B G1)); try exact T;
    try (intros E; injection E as <-; cbn; tauto);
    (destruct t2 as [| | |c2 gs2|c2 gs2|l2| |a2|us2|us2|x2|x2 m2|n2|n2|s2]; cbn [check_both_sides or_try]; try exact T; try (destruct (A G2)); try (destruct (B G2)); try (intros E; injection E as <-; cbn; tauto);
     destruct C as [C|[C|[[us' C]|[us' C]]]]; discriminate C).
Qed.

(** For instances of classes without type variables and promotions, it is the first base class of the one that the other has, too. *)
Theorem C71_first_partial : forall p equal u c cs d ds l e r,
  let bases_of_c := c :: cs ++ [object p] in
  let bases_of_d := d :: ds ++ [object p] in
  bases p c = map (fun x => Class x []) cs -> bases p d = map (fun x => Class x []) ds -> is_protocol p c = false -> is_protocol p d = false ->
  (forall x, In x bases_of_c \/ In x bases_of_d -> variances p x = [] /\ promote_to p x = None) ->
  bases_of_c = l ++ e :: r -> Forall (fun x => ~ In x bases_of_d) l -> In e bases_of_d ->
  forall fuel, common_base_type p equal u (S (S fuel)) (Class c []) (Class d []) = Some (Class e []).
Proof.
  intros p equal u c cs d ds l e r bc bd Ec Ed Pc Pd F E1 E2 E3 fuel. apply (first_common p equal u fuel c cs d ds l e r); try assumption; apply Forall_forall; intros x Hx; apply F; auto.
Qed.

(** With a promotion, as that of int to float, it is the type that is promoted to. *)
Theorem C71_promotion_partial : forall p equal u c d, c <> d -> promote_to p c = Some d -> promote_to p d = None -> is_protocol p c = false -> is_protocol p d = false ->
  forall fuel, common_base_type p equal u (S (S fuel)) (Class c []) (Class d []) = Some (Class d []) /\
    common_base_type p equal u (S (S fuel)) (Class d []) (Class c []) = Some (Class d []).
Proof. intros p equal u c d Ne P1 P2 Q1 Q2 fuel. exact (promotion p equal u fuel c d Ne P1 P2 Q1 Q2). Qed.

(** Instances of the same class with covariant type variables stay ones, and tuples stay tuples, of the same length if they have one. *)
Theorem C71_shape_partial : forall p equal u fuel t,
  (forall c gs1 gs2, Forall (eq Covariant) (variances p c) -> c <> object p -> common_base_type p equal u fuel (Class c gs1) (Class c gs2) = Some t -> exists gs, t = Class c gs) /\
  (forall a1 a2, common_base_type p equal u fuel (Tuple a1) (Tuple a2) = Some t -> exists a, t = Tuple a) /\
  (forall ts1 ts2, length ts1 = length ts2 -> common_base_type p equal u fuel (Tuple (FixedLen ts1)) (Tuple (FixedLen ts2)) = Some t -> exists ts, t = Tuple (FixedLen ts) /\ length ts = length ts1).
Proof.
  intros p equal u fuel t. split; [|split].
  - intros c gs1 gs2 F Ne E. exact (same_class p equal u fuel c gs1 gs2 t F Ne E).
  - intros a1 a2 E. destruct (tuples p equal u fuel a1 a2 t E) as (a & -> & _). exists a. reflexivity.
  - intros ts1 ts2 L E. destruct (tuples p equal u fuel _ _ t E) as (a & -> & H). destruct (H ts1 ts2 eq_refl eq_refl L) as (ts & -> & L'). exists ts. auto.
Qed.

(** The same for LiteralString, which stands for str *)
Theorem C71_literal_string_partial : forall p equal u cs d ds l e r, (forall t s, equal t s = true <-> t = s) ->
  let c := str_class p in
  let bases_of_c := c :: cs ++ [object p] in
  let bases_of_d := d :: ds ++ [object p] in
  bases p c = map (fun x => Class x []) cs -> bases p d = map (fun x => Class x []) ds -> is_protocol p c = false -> is_protocol p d = false ->
  (forall x, In x bases_of_c \/ In x bases_of_d -> variances p x = [] /\ promote_to p x = None) ->
  bases_of_c = l ++ e :: r -> Forall (fun x => ~ In x bases_of_d) l -> In e bases_of_d ->
  forall fuel, common_base_type p equal u (S (S (S fuel))) LiteralString (Class d []) = Some (Class e []).
Proof.
  intros p equal u cs d ds l e r He c bc bd Ec Ed Pc Pd F E1 E2 E3 fuel. rewrite one_step. unfold join_step. cbn [check_both_sides].
  rewrite (first_common_within p equal u _ fuel c cs d ds l e r); [reflexivity| | | | | | | | | |]; try assumption; try (apply Forall_forall; intros x Hx; apply F; auto).
  cbn [is_cycle existsb fst snd]. destruct (equal LiteralString (Class c [])) eqn:X; [apply He in X; discriminate X|reflexivity].
Qed.

(** Any stays Any; it says nothing about values. *)
Theorem C71_join_any : forall p equal u fuel t, common_base_type p equal u (S fuel) Any t = Some Any /\
  forall c gs, common_base_type p equal u (S fuel) (Class c gs) Any = Some Any.
Proof. intros p equal u fuel t. split; reflexivity. Qed.

(** Members of enums stay members, in a union. *)
Theorem C71_join_enum : forall p equal u fuel e m f, (forall n, common_base_type p equal u (S fuel) (EnumMember e m) (EnumMember f n) = Some (u (EnumMember e m) (EnumMember f n))) /\
  common_base_type p equal u (S fuel) (EnumMember e m) (Enum f) = Some (u (EnumMember e m) (Enum f)) /\
  common_base_type p equal u (S fuel) (Enum f) (EnumMember e m) = Some (u (Enum f) (EnumMember e m)).
Proof. intros p equal u fuel e m f. split; [intros n; reflexivity|split; reflexivity]. Qed.

(** Different literals of a class have the class. *)
Theorem C71_literals_partial : forall p equal u l1 l2 c, l1 <> l2 -> fallback p l1 = c -> fallback p l2 = c -> variances p c = [] ->
  c <> object p -> (forall b, In b (bases p c) -> exists d gs, b = Class d gs) ->
  forall fuel, common_base_type p equal u (S (S (S fuel))) (Literal l1) (Literal l2) = Some (Class c []).
Proof. intros p equal u l1 l2 c D E1 E2 V N B fuel. subst c. exact (literals p equal u l1 l2 D (eq_sym E2) V N B fuel). Qed.

(** The meet of two types has only values that both have. *)
Theorem C71_meet_partial : forall V p (w : world V) env, proper p -> lawful p w env ->
  forall equal, (forall t s, equal t s = true <-> t = s) ->
  forall fuel t1 t2 m, good p None t1 -> good p None t2 -> common_sub_type p equal fuel t1 t2 = Some (Some m) ->
  good p None m /\ contains w env t1 m /\ contains w env t2 m.
Proof. intros V p w env Hp Hw equal He fuel t1 t2 m G1 G2 E. exact (common_sub_type_meets p w env Hp Hw equal He fuel t1 t2 m E G1 G2). Qed.

Theorem C71_meet_tuples_partial : forall V p (w : world V) env, proper p -> lawful p w env ->
  forall equal, (forall t s, equal t s = true <-> t = s) ->
  forall fuel a1 a2 m, loose p a1 -> loose p a2 -> common_sub_type p equal fuel (Tuple a1) (Tuple a2) = Some (Some m) ->
  contains w env (Tuple a1) m /\ contains w env (Tuple a2) m.
Proof.
  intros V p w env Hp Hw equal He [|fuel] a1 a2 m L1 L2 E; [discriminate E|]. cbn [common_sub_type] in E. unfold meet_step in E.
  exact (args_below p w env equal He (common_sub_type p equal fuel) (common_sub_type_meets p w env Hp Hw equal He fuel) a1 a2 m E L1 L2).
Qed.

(** Any leaves the other type; it says nothing about values. *)
Theorem C71_meet_any : forall p equal fuel t, (forall ts, t <> Union ts) ->
  common_sub_type p equal (S fuel) Any t = Some (Some t) /\ common_sub_type p equal (S fuel) t Any = Some (Some t).
Proof. intros p equal fuel t H. split; destruct t; try reflexivity; destruct (H ts eq_refl). Qed.

(** Without unions and [type[...]], it has all of them. *)
Theorem C71_meet_exact_partial : forall V p (w : world V) env, proper p -> lawful p w env -> (forall v xs ys, tuple_value w v xs -> tuple_value w v ys -> xs = ys) ->
  forall equal, (forall t s, equal t s = true <-> t = s) ->
  forall fuel t1 t2 m, good p None t1 -> good p None t2 -> plain_parts t1 -> plain_parts t2 -> common_sub_type p equal fuel t1 t2 = Some (Some m) ->
  forall v, has w env m v <-> has w env t1 v /\ has w env t2 v.
Proof.
  intros V p w env Hp Hw Ht equal He fuel t1 t2 m G1 G2 P1 P2 E v. split.
  - intros H. destruct (C71_meet_partial V p w env Hp Hw equal He fuel t1 t2 m G1 G2 E) as (_ & A & B). split; [exact (A v H)|exact (B v H)].
  - intros [H1 H2]. exact (common_sub_type_keeps p w env equal Ht fuel t1 t2 m E P1 P2 v H1 H2).
Qed.

(** ** A program *)
(** Equality of types *)
Fixpoint type_eqb (t s : type) {struct t} : bool :=
  let fix types (l m : list type) : bool := match l, m with [], [] => true | x :: l, y :: m => type_eqb x y && types l m | _, _ => false end in
  match t, s with
  | Any, Any | NoneType, NoneType | Never, Never | LiteralString, LiteralString => true
  | Class c gs, Class d hs | Dataclass c gs, Dataclass d hs => (c =? d) && types gs hs
  | Literal (LInt n x), Literal (LInt m y) => (n =? m) && Bool.eqb x y
  | Literal (LBool x), Literal (LBool y) => Bool.eqb x y
  | Literal (LStr n), Literal (LStr m) | Literal (LBytes n), Literal (LBytes m) => n =? m
  | Tuple (FixedLen l), Tuple (FixedLen m) => types l m
  | Tuple (ArbitraryLen t), Tuple (ArbitraryLen s) => type_eqb t s
  | Tuple (WithUnpack (mk_unpack b (TypeVarTuple n) a)), Tuple (WithUnpack (mk_unpack b' (TypeVarTuple n') a')) => types b b' && (n =? n') && types a a'
  | Tuple (WithUnpack (mk_unpack b (Many t) a)), Tuple (WithUnpack (mk_unpack b' (Many t') a')) => types b b' && type_eqb t t' && types a a'
  | Union l, Union m | Intersection l, Intersection m => types l m
  | Enum e, Enum f => e =? f
  | EnumMember e m, EnumMember f n => (e =? f) && (m =? n)
  | NewType n, NewType m | TypeVar n, TypeVar m => n =? m
  | TypeOf t, TypeOf s => type_eqb t s
  | _, _ => false
  end.

Definition types_eqb := fix types (l m : list type) : bool := match l, m with [], [] => true | x :: l, y :: m => type_eqb x y && types l m | _, _ => false end.

Lemma types_eqb_iff : forall l, Forall (fun t => forall s, type_eqb t s = true <-> t = s) l -> forall m, types_eqb l m = true <-> l = m.
Proof.
  intros l F. induction F as [|x l Hx F IH]; intros [|y m]; cbn; try (split; [discriminate|discriminate]); [split; reflexivity|]. rewrite andb_true_iff, Hx, IH. split; [intros [-> ->]; reflexivity|]. intros E. injection E as -> ->. auto.
Qed.

Lemma type_eqb_iff : forall t s, type_eqb t s = true <-> t = s.
Proof.
  apply (type_induction (fun t => forall s, type_eqb t s = true <-> t = s)).
  all: try (intros []; cbn; split; (reflexivity || discriminate)).
  - intros c gs F [] ; cbn; try (split; discriminate). change (((c =? c0) && types_eqb gs gs0) = true <-> Class c gs = Class c0 gs0). rewrite andb_true_iff, N.eqb_eq, (types_eqb_iff gs F). split; [intros [-> ->]; reflexivity|]. intros E. injection E as -> ->. auto.
  - intros c gs F [] ; cbn; try (split; discriminate). change (((c =? c0) && types_eqb gs gs0) = true <-> Dataclass c gs = Dataclass c0 gs0). rewrite andb_true_iff, N.eqb_eq, (types_eqb_iff gs F). split; [intros [-> ->]; reflexivity|]. intros E. injection E as -> ->. auto.
  - intros [n b|b|n|n] []; cbn; try (split; discriminate); try (destruct l; split; discriminate);
      (destruct l as [m c|c|m|m]; try (split; discriminate); rewrite ?andb_true_iff, ?N.eqb_eq, ?eqb_true_iff; (split; [intros H; try (destruct H as [H1 H2]; subst); subst; reflexivity|intros E; injection E; intros; subst; auto])).
  - intros ts F []; cbn; try (split; discriminate). destruct a as [us|u|[]]; try (split; discriminate). change (types_eqb ts us = true <-> Tuple (FixedLen ts) = Tuple (FixedLen us)). rewrite (types_eqb_iff ts F). split; [intros ->; reflexivity|]. intros E. injection E as ->. reflexivity.
  - intros t IH []; cbn; try (split; discriminate). destruct a as [us|u|[]]; try (split; discriminate). rewrite IH. split; [intros ->; reflexivity|]. intros E. injection E as ->. reflexivity.
  - intros b n a Fb Fa []; cbn; try (split; discriminate). destruct a0 as [us|u|[b' [n'|t'] a']]; try (split; discriminate).
    change (types_eqb b b' && (n =? n') && types_eqb a a' = true <-> Tuple (WithUnpack (mk_unpack b (TypeVarTuple n) a)) = Tuple (WithUnpack (mk_unpack b' (TypeVarTuple n') a'))).
    rewrite !andb_true_iff, (types_eqb_iff b Fb), (types_eqb_iff a Fa), N.eqb_eq. split; [intros [[-> ->] ->]; reflexivity|]. intros E. injection E as -> -> ->. auto.
  - intros b t a Fb IH Fa []; cbn; try (split; discriminate). destruct a0 as [us|u|[b' [n'|t'] a']]; try (split; discriminate).
    change (types_eqb b b' && type_eqb t t' && types_eqb a a' = true <-> Tuple (WithUnpack (mk_unpack b (Many t) a)) = Tuple (WithUnpack (mk_unpack b' (Many t') a'))).
    rewrite !andb_true_iff, (types_eqb_iff b Fb), (types_eqb_iff a Fa), IH. split; [intros [[-> ->] ->]; reflexivity|]. intros E. injection E as -> -> ->. auto.
  - intros ts F []; cbn; try (split; discriminate). change (types_eqb ts ts0 = true <-> Union ts = Union ts0). rewrite (types_eqb_iff ts F). split; [intros ->; reflexivity|]. intros E. injection E as ->. reflexivity.
  - intros ts F []; cbn; try (split; discriminate). change (types_eqb ts ts0 = true <-> Intersection ts = Intersection ts0). rewrite (types_eqb_iff ts F). split; [intros ->; reflexivity|]. intros E. injection E as ->. reflexivity.
  - intros e []; cbn; try (split; discriminate). rewrite N.eqb_eq. split; [intros ->; reflexivity|]. intros E. injection E as ->. reflexivity.
  - intros e m []; cbn; try (split; discriminate). rewrite andb_true_iff, !N.eqb_eq. split; [intros [-> ->]; reflexivity|]. intros E. injection E as -> ->. auto.
  - intros e []; cbn; try (split; discriminate). rewrite N.eqb_eq. split; [intros ->; reflexivity|]. intros E. injection E as ->. reflexivity.
  - intros e []; cbn; try (split; discriminate). rewrite N.eqb_eq. split; [intros ->; reflexivity|]. intros E. injection E as ->. reflexivity.
  - intros t IH []; cbn; try (split; discriminate). rewrite IH. split; [intros ->; reflexivity|]. intros E. injection E as ->. reflexivity.
Qed.

Notation plain_union := (union type_eqb).

Lemma example_nameable : forall c, c <> 6 -> c <> 7 -> c <> 10 -> nameable example c.
Proof.
  intros c H6 H7 H10. split; [reflexivity|]. split; [cbn; destruct (_ || _); discriminate|]. split; [|split; [exact H6|exact H7]].
  intros d. cbn. destruct (_ || _); [|discriminate]. intros E. injection E as <-. exact (H10 eq_refl).
Qed.

Lemma example_good : forall k c, In c [0; 1; 2; 3; 4; 9; 11; 12; 15] -> good example k (Class c []).
Proof. intros k c H. split; [exact (example_plain k c H)|constructor]. Qed.

Lemma example_entries : forall a, loose example a -> good example None (entries example a).
Proof.
  intros a L. assert (O : good example None (Class 0 [])) by (apply example_good; left; reflexivity).
  destruct a as [[|t [|s [|]]]|t|u]; cbn [example entries]; try exact O; [exact (Forall_inv L)| |exact L].
  destruct (is_bool_literal t || is_bool_literal s) eqn:E; [exact O|]. apply orb_false_iff in E. destruct E as [Et Es].
  apply good_union; [discriminate| |exact L]. unfold distinct_bools. intros H.
  assert (F : filter (fun t => match t with Literal (LBool _) => true | _ => false end) [t; s] = []); [|rewrite F in H; cbn in H; lia].
  cbn [filter]. unfold is_bool_literal in Et, Es. rewrite Et, Es. reflexivity.
Qed.

Lemma example_settled : settled example.
Proof.
  constructor.
  - intros c b N H. cbn [example bases] in H. destruct (N.eqb_spec c 2) as [->|H2]; [|destruct (N.eqb_spec c 5) as [->|H5]; [|destruct (N.eqb_spec c 10) as [->|H10]; [|destruct (N.eqb_spec c 15) as [->|H15]; [|destruct H]]]];
      destruct H as [<-|[]].
    + apply example_good. cbn. auto.
    + split; [apply example_class; try discriminate; [reflexivity|]; constructor; [cbn; lia|constructor]|repeat constructor].
    + destruct N as (_ & _ & X & _). destruct (X 11). reflexivity.
    + split; [apply example_class; try discriminate; [reflexivity|constructor]|constructor].
  - intros c H. cbn in H. repeat (destruct H as [<-|H]; [apply example_nameable; discriminate|]). destruct H.
  - intros e. apply example_nameable; discriminate.
  - intros a G. apply example_entries. exact (good_loose example a G).
  - intros a L. left. exact (example_entries a L).
Qed.

Lemma example_unites : unites example example_world example_env plain_union.
Proof.
  constructor.
  - intros t s _ _. split; intros v Hv; apply (union_has type_eqb type_eqb_iff); auto.
  - intros t s Gt Gs. exact (union_good example type_eqb type_eqb_iff t s Gt Gs).
Qed.

Notation joined t1 t2 t := (common_base_type example type_eqb plain_union 8 t1 t2 = Some t).

(** [Sequence[bool]] and [Sequence[float]], a tuple of a bool and a str and one of a float and None, tuples of other lengths, a tuple and a sequence, [type[bool]]
    and [type[int]], two literals, a literal and a float, members of an enum, lists, other classes *)
Example C71_case_joins :
  joined (sequence_ bool_) (sequence_ float_) (sequence_ float_) /\
  joined (Tuple (FixedLen [bool_; str_])) (Tuple (FixedLen [float_; NoneType])) (Tuple (FixedLen [float_; Union [str_; NoneType]])) /\
  joined (Tuple (FixedLen [int_; bool_])) (Tuple (FixedLen [bool_])) (Tuple (ArbitraryLen int_)) /\
  joined (Tuple (FixedLen [int_; bool_])) (sequence_ int_) (sequence_ (Union [int_; bool_])) /\
  joined (TypeOf bool_) (TypeOf int_) (TypeOf int_) /\
  joined (Literal (LInt 3 false)) (Literal (LInt 4 false)) int_ /\
  joined (Literal (LInt 3 false)) float_ float_ /\
  joined (EnumMember 0 0) (EnumMember 0 1) (Union [EnumMember 0 0; EnumMember 0 1]) /\
  joined (list_ int_) (list_ bool_) object_ /\ joined (list_ (Union [int_; str_])) (list_ (Union [str_; int_])) (list_ (Union [int_; str_])) /\
  joined (Class 11 []) (Class 12 []) object_ /\ joined LiteralString (Class 11 []) object_ /\ joined LiteralString str_ str_ /\
  joined (Tuple (WithUnpack (mk_unpack [int_] (Many str_) []))) (Tuple (WithUnpack (mk_unpack [str_] (Many int_) [])))
         (Tuple (WithUnpack (mk_unpack [Union [int_; str_]] (Many (Union [str_; int_])) []))).
Proof. repeat split; vm_compute; reflexivity. Qed.

Lemma case_good : good example None (Tuple (FixedLen [bool_; str_])) /\ good example None (Tuple (FixedLen [float_; NoneType])).
Proof. split; apply good_fixed; (constructor; [apply example_good; cbn; auto 10|constructor; [|constructor]]); [apply example_good; cbn; auto 10|split; exact Logic.I]. Qed.

(** The hypotheses of the theorems hold for it. *)
Example C71_case_join : has example_world example_env (Tuple (FixedLen [float_; Union [str_; NoneType]])) (VTuple [VBool true; VStr 5 true]).
Proof.
  destruct (C71_join_partial value example example_world example_env example_proper example_lawful example_settled type_eqb type_eqb_iff plain_union example_unites 8
    (Tuple (FixedLen [bool_; str_])) (Tuple (FixedLen [float_; NoneType])) _ (proj1 case_good) (proj2 case_good) (proj1 (proj2 C71_case_joins))) as (_ & H & _).
  apply H. exists [VBool true; VStr 5 true]. split; [reflexivity|]. constructor; [constructor|]. constructor; [constructor|constructor].
Qed.

Example C71_case_display : exists t, display example type_eqb plain_union true 8 [bool_; Literal (LInt 4 false); float_] = Some t /\ has example_world example_env t (VBool true) /\ ~ has example_world example_env t (VStr 1 true).
Proof. exists float_. split; [vm_compute; reflexivity|]. split; [apply of_float_int; exact Logic.I|]. intros H. cbn in H. inversion H; subst; assumption. Qed.

Notation met t1 t2 t := (common_sub_type example type_eqb 8 t1 t2 = Some t).
Example C71_case_meets :
  met (Tuple (ArbitraryLen bool_)) (Tuple (FixedLen [int_; float_])) (Some (Tuple (FixedLen [bool_; bool_]))) /\
  met (Union [int_; str_]) (Union [bool_; NoneType]) (Some bool_) /\ met (TypeOf int_) (TypeOf bool_) (Some (TypeOf bool_)) /\
  met int_ str_ None /\ met (Tuple (FixedLen [int_])) (Tuple (FixedLen [int_; int_])) None /\
  met (Tuple (WithUnpack (mk_unpack [int_] (Many float_) []))) (Tuple (FixedLen [bool_; bool_])) (Some (Tuple (FixedLen [bool_; bool_]))) /\
  met (Tuple (WithUnpack (mk_unpack [int_] (Many float_) [str_]))) (Tuple (ArbitraryLen object_)) (Some (Tuple (WithUnpack (mk_unpack [int_] (Many float_) [str_])))).
Proof. repeat split; vm_compute; reflexivity. Qed.

Example C71_case_meet : forall v, has example_world example_env (Tuple (FixedLen [bool_; bool_])) v <->
  has example_world example_env (Tuple (ArbitraryLen bool_)) v /\ has example_world example_env (Tuple (FixedLen [int_; float_])) v.
Proof.
  apply (C71_meet_exact_partial value example example_world example_env example_proper example_lawful) with (equal := type_eqb) (fuel := 8%nat).
  - intros v xs ys -> E. injection E as <-. reflexivity.
  - exact type_eqb_iff.
  - apply good_arbitrary. apply example_good. cbn. auto.
  - apply good_fixed. constructor; [|constructor; [|constructor]]; apply example_good; cbn; auto 10.
  - exact Logic.I.
  - repeat constructor.
  - exact (proj1 C71_case_meets).
Qed.

(** The order of the items of a display counts: [[None, 1, ""]] is a list of [int | str | None], but [[1, "", None]] one of object. *)
Theorem C71_order_refuted : exists t1 t2,
  display example type_eqb plain_union true 8 [NoneType; int_; str_] = Some t1 /\ display example type_eqb plain_union true 8 [int_; str_; NoneType] = Some t2 /\
  has example_world example_env t2 VFloat /\ ~ has example_world example_env t1 VFloat.
Proof.
  exists (Union [NoneType; int_; str_]), (Union [object_; NoneType]). split; [vm_compute; reflexivity|]. split; [vm_compute; reflexivity|]. split; [left; constructor|].
  intros H. apply has_union in H as (s & [<-|[<-|[<-|[]]]] & H); [discriminate H| |]; inversion H as [| ? X | | | | | | | | | | | | | |]; subst; destruct X.
Qed.

(** X 20, Y 21, A(X, Y) 22, B(Y, X) 23, Z 24; C[T] 25 and D[T] 26 with a base class [Sequence[C[C[T]]]], [Sequence[D[D[T]]]] *)
Definition crossed : program := {|
  object := 0; bool_class := 2; int_class := 1; str_class := 3; bytes_class := 4; tuple_class := 5; bare_type := 6; generic_alias := 7;
  variances := fun c => if (c =? 14) || (c =? 25) || (c =? 26) then [Covariant] else [];
  bases := fun c => if c =? 22 then [Class 20 []; Class 21 []] else if c =? 23 then [Class 21 []; Class 20 []]
                    else if (c =? 25) || (c =? 26) then [Class 14 [Class c [Class c [TypeVar 0]]]] else [];
  metaclass := fun _ => NoMetaclass; is_metaclass := fun _ => false; incomplete := fun _ => false; promote_to := fun _ => None;
  is_protocol := fun _ => false; check_protocol := fun _ _ _ => no; enum_class := fun _ => 0; newtype_type := fun _ => NoneType;
  kind_of := fun _ => Unrestricted; entries := fun _ => Class 0 []; same_union := fun _ _ => false
|}.

(** The join of A and B is X, that of B and A is Y. *)
Theorem C71_symmetric_refuted : forall u fuel,
  common_base_type crossed type_eqb u (S (S fuel)) (Class 22 []) (Class 23 []) = Some (Class 20 []) /\
  common_base_type crossed type_eqb u (S (S fuel)) (Class 23 []) (Class 22 []) = Some (Class 21 []).
Proof.
  intros u fuel. assert (P : forall cs, Forall (fun x => variances crossed x = [] /\ promote_to crossed x = None) cs -> forall x, In x cs -> variances crossed x = [] /\ promote_to crossed x = None).
  { intros cs F. apply Forall_forall. exact F. }
  split.
  - apply (C71_first_partial crossed type_eqb u 22 [20; 21] 23 [21; 20] [22] 20 [21; 0]); try reflexivity.
    + intros x H. apply (P [22; 20; 21; 0; 23]); [repeat constructor|]. cbn in *. tauto.
    + constructor; [|constructor]. cbn. intros H. repeat (destruct H as [H|H]; [discriminate H|]). exact H.
    + cbn. auto.
  - apply (C71_first_partial crossed type_eqb u 23 [21; 20] 22 [20; 21] [23] 21 [20; 0]); try reflexivity.
    + intros x H. apply (P [22; 20; 21; 0; 23]); [repeat constructor|]. cbn in *. tauto.
    + constructor; [|constructor]. cbn. intros H. repeat (destruct H as [H|H]; [discriminate H|]). exact H.
    + cbn. auto.
Qed.

(** The meet of [X | Z] and [Z | Y] is Z, but A is a subtype of both. *)
Theorem C71_meet_refuted :
  common_sub_type crossed type_eqb 8 (Union [Class 20 []; Class 24 []]) (Union [Class 24 []; Class 21 []]) = Some (Some (Class 24 [])) /\
  accepts crossed (Union [Class 20 []; Class 24 []]) (Class 22 []) /\ accepts crossed (Union [Class 24 []; Class 21 []]) (Class 22 []) /\ rejects crossed (Class 24 []) (Class 22 []).
Proof. split; [vm_compute; reflexivity|]. split; [exists 8%nat; vm_compute; reflexivity|]. split; [exists 8%nat; vm_compute; reflexivity|]. exists 8%nat. vm_compute. do 2 eexists. reflexivity. Qed.

(** The join of [C[T]] and [D[S]] is one of [C[C[T]]] and [D[D[S]]], and so on without an end. *)
Fixpoint depth (t : type) : nat := match t with Class _ [g] => S (depth g) | _ => O end.

Theorem C71_endless_refuted : forall equal, (forall t s, equal t s = true <-> t = s) ->
  forall u t s fuel, common_base_type crossed equal u fuel (Class 25 [t]) (Class 26 [s]) = None.
Proof.
  intros equal He u t s fuel. unfold common_base_type. assert (P : Forall (fun q : type * type => (depth (fst q) < depth (Class 25 [t]))%nat) []) by constructor. revert P.
  generalize (@nil (type * type)) as previous. revert t s. induction fuel as [|fuel IH]; intros t s previous P; [reflexivity|]. cbn [common_base_type_internal].
  assert (C : is_cycle equal previous (Class 25 [t]) (Class 26 [s]) = false).
  { destruct (is_cycle equal previous (Class 25 [t]) (Class 26 [s])) eqn:E; [|reflexivity]. unfold is_cycle in E. apply existsb_exists in E as (q & Hq & E). apply andb_prop in E as [E _]. apply He in E.
    rewrite Forall_forall in P. specialize (P q Hq). rewrite E in P. lia. }
  rewrite C. unfold join_step. cbn [check_both_sides or_try]. unfold mro, behind. cbn [crossed bases N.eqb Pos.eqb orb map substitute app nth N.to_nat first_of].
  destruct fuel as [|fuel]; [reflexivity|].
  assert (J : common_base_type_internal crossed equal u (S fuel) ((Class 25 [t], Class 26 [s]) :: previous) (Class 25 [Class 25 [t]]) (Class 26 [Class 26 [s]]) = None).
  { apply IH. constructor; [cbn; lia|]. eapply Forall_impl; [|exact P]. intros q Hq. cbn in *. lia. }
  set (join := common_base_type_internal crossed equal u (S fuel) ((Class 25 [t], Class 26 [s]) :: previous)) in *.
  unfold join_entries, is_protocol_type, common_base_class, common_base_class_basic. cbn -[join common_sub_type simple_same_type]. rewrite J. reflexivity.
Qed.

Print Assumptions C71_join_partial.
Print Assumptions C71_join_tuples_partial.
Print Assumptions C71_display_partial.
Print Assumptions C71_union_partial.
Print Assumptions C71_first_partial.
Print Assumptions C71_promotion_partial.
Print Assumptions C71_shape_partial.
Print Assumptions C71_literals_partial.
Print Assumptions C71_literal_string_partial.
Print Assumptions C71_join_any.
Print Assumptions C71_join_enum.
Print Assumptions C71_meet_any.
Print Assumptions C71_meet_partial.
Print Assumptions C71_meet_tuples_partial.
Print Assumptions C71_meet_exact_partial.
Print Assumptions C71_order_refuted.
Print Assumptions C71_symmetric_refuted.
Print Assumptions C71_meet_refuted.
Print Assumptions C71_endless_refuted.
