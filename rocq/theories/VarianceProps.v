(** C73: The variances that are inferred for the type variables of classes. *)
From Coq Require Import Ascii String List Bool PeanoNat Lia.
From Verif Require Import VarianceModel VarianceSpec Variance VarianceClass.
Import ListNotations.
Open Scope nat_scope.
Open Scope list_scope.

(** The panic of [infer_variance_for_index] is never reached. *)
Theorem C73_total : forall inherits table self frozen bases members x,
  infer inherits table self frozen bases members x <> None.
Proof. intros inherits table self frozen bases members x. apply infer_total. Qed.

(** Comparing a type with the one with object for the type variable tells the signs of its uses. *)
Theorem C73_check_partial : forall inherits table x t, simple inherits x t ->
  (check inherits table x t = None <-> signs table x t = [])
  /\ forall co contra, check inherits table x t = Some (co, contra) ->
       (co = true <-> Forall (eq Plus) (signs table x t)) /\ (contra = true <-> Forall (eq Minus) (signs table x t)).
Proof.
  assert (E : forall (s : sign) l, Forall (eq s) l <-> Forall (fun r => r = s) l)
    by (intros s l; split; apply Forall_impl; intros r H; symmetry; exact H).
  intros inherits table x t Hs. pose proof (check_told inherits table x t Hs) as H.
  destruct (check inherits table x t) as [[co contra] |].
  - destruct H as (H1 & H2 & H3). split; [split; [discriminate | intro E1; contradiction] |].
    intros co2 contra2 E2. injection E2 as <- <-. rewrite !E. split; assumption.
  - split; [tauto | discriminate].
Qed.

Lemma not_all_plus : forall l, forallb is_plus l = false <-> exists s, In s l /\ s <> Plus.
Proof.
  intro l. induction l as [| s l IH]; cbn [forallb].
  - split; [discriminate | intros (s & [] & _)].
  - rewrite andb_false_iff, IH. split.
    + intros [H | (r & Hr & Hn)]; [exists s; split; [left; reflexivity | destruct s; discriminate] | exists r; split; [right; exact Hr | exact Hn]].
    + intros (r & [<- | Hr] & Hn); [left; destruct s; try reflexivity; congruence | right; exists r; split; assumption].
Qed.
Lemma not_all_minus : forall l, forallb is_minus l = false <-> exists s, In s l /\ s <> Minus.
Proof.
  intro l. induction l as [| s l IH]; cbn [forallb].
  - split; [discriminate | intros (s & [] & _)].
  - rewrite andb_false_iff, IH. split.
    + intros [H | (r & Hr & Hn)]; [exists s; split; [left; reflexivity | destruct s; discriminate] | exists r; split; [right; exact Hr | exact Hn]].
    + intros (r & [<- | Hr] & Hn); [left; destruct s; try reflexivity; congruence | right; exists r; split; assumption].
Qed.
Lemma all_in_plus : forall l, forallb is_plus l = true <-> forall s, In s l -> s = Plus.
Proof. intro l. rewrite is_plus_all. unfold all_plus. apply Forall_forall. Qed.
Lemma all_in_minus : forall l, forallb is_minus l = true <-> forall s, In s l -> s = Minus.
Proof. intro l. rewrite is_minus_all. unfold all_minus. apply Forall_forall. Qed.

(** The names that are not written from outside, and those of constructors *)
Lemma starts_with_app : forall p n, starts_with p n = true <-> exists r, n = p ++ r.
Proof.
  induction p as [| c p IH]; intro n; cbn [starts_with app].
  - split; [intros _; exists n; reflexivity | reflexivity].
  - destruct n as [| d n]; [split; [discriminate | intros (r & E); discriminate] |].
    destruct (ascii_dec c d) as [<- | Hn].
    + rewrite IH. split; intros (r & E); exists r; congruence.
    + split; [discriminate | intros (r & E); congruence].
Qed.
Lemma ends_with_app : forall p n, ends_with p n = true <-> exists r, n = r ++ p.
Proof.
  intros p n. unfold ends_with. rewrite starts_with_app. split; intros (r & E).
  - exists (rev r). rewrite <- (rev_involutive n), E, rev_app_distr, rev_involutive. reflexivity.
  - exists (rev r). rewrite E, rev_app_distr. reflexivity.
Qed.
Theorem C73_names : forall n : name,
  (is_underscored n = true <-> (exists r, n = "_"%char :: r) /\ ~ ((exists r, n = "_"%char :: "_"%char :: r) /\ exists r, n = r ++ ["_"%char; "_"%char]))
  /\ (skipped n = true <-> In (string_of_list_ascii n) ["__init__"; "__new__"; "__init_subclass__"]%string).
Proof.
  intro n. split.
  - unfold is_underscored, is_magic_method. rewrite andb_true_iff, negb_true_iff.
    rewrite <- (starts_with_app (text "_") n), <- (starts_with_app (text "__") n), <- (ends_with_app (text "__") n).
    rewrite <- andb_true_iff. rewrite not_true_iff_false. tauto.
  - assert (H : forall s, (if list_eq_dec ascii_dec (text s) n then true else false) = true <-> s = string_of_list_ascii n).
    { intro s. destruct (list_eq_dec ascii_dec (text s) n) as [E | E].
      - split; [intros _ | reflexivity]. rewrite <- E. symmetry. apply string_of_list_ascii_of_string.
      - split; [discriminate |]. intros ->. exfalso. apply E. apply list_ascii_of_string_of_list_ascii. }
    unfold skipped. cbn [existsb In]. rewrite !orb_true_iff, !H. split; intro E; decompose [or] E; try discriminate; auto.
Qed.

(** The variance follows from the signs of the uses in the bases and the members. *)
Theorem C73_signs_partial : forall inherits table k x, fine inherits k x ->
  let inferred := infer inherits table (c_self k) (c_frozen k) (c_bases k) (c_members k) x in
  let uses := reads table k x ++ writes table k x in
  (inferred = Some Covariant <-> forall s, In s uses -> s = Plus)
  /\ (inferred = Some Contravariant <-> (forall s, In s (reads table k x) -> s = Minus) /\ exists s, In s uses /\ s <> Plus)
  /\ (inferred = Some Invariant <-> (exists s, In s (reads table k x) /\ s <> Minus) /\ exists s, In s uses /\ s <> Plus).
Proof.
  intros inherits table k x Hf inferred uses. subst inferred uses. rewrite (infer_exact inherits table x k Hf).
  rewrite <- all_in_plus, <- all_in_minus, <- not_all_plus, <- not_all_minus.
  destruct (forallb is_plus _); [| destruct (forallb is_minus _)]; repeat split; try congruence; intros [H1 H2]; congruence.
Qed.

(** A class with an inferred variance can be used as that variance says. Missing: unions that absorb their members, setters with other types
    than their property, results of the own class with other type arguments, and writable members of contravariant classes. *)
Theorem C73_covariant_partial : forall inherits table bases k x a b, fine inherits k x ->
  table (c_self k) x = Covariant ->
  infer inherits table (c_self k) (c_frozen k) (c_bases k) (c_members k) x = Some Covariant ->
  subtype table bases a b -> usable table bases k x a b.
Proof.
  intros inherits table bases k x a b Hf Hv Hi Hab. apply (covariant_usable inherits table bases x k Hf Hv); [| exact Hab].
  rewrite (infer_exact inherits table x k Hf) in Hi. apply is_plus_all.
  destruct (forallb is_plus _); [reflexivity | destruct (forallb is_minus _); discriminate].
Qed.
Theorem C73_contravariant_partial : forall inherits table bases k x a b, fine inherits k x ->
  (forall m t, In m (counted k) -> written (c_frozen k) m = Some t -> mentions x t = false) ->
  table (c_self k) x = Contravariant ->
  infer inherits table (c_self k) (c_frozen k) (c_bases k) (c_members k) x = Some Contravariant ->
  subtype table bases a b -> usable table bases k x b a.
Proof.
  intros inherits table bases k x a b Hf Hw Hv Hi Hab. apply (contravariant_usable inherits table bases x k Hf Hv); [| exact Hw | exact Hab].
  rewrite (infer_exact inherits table x k Hf) in Hi. apply is_minus_all.
  destruct (forallb is_plus _); [discriminate | destruct (forallb is_minus _); [reflexivity | discriminate]].
Qed.

(** The variances of a class that does not use itself hold once all of them are known. *)
Theorem C73_class_partial : forall inherits table bases k xs, c_self k <> 0 ->
  (forall b, In b (c_bases k) -> avoids (c_self k) b = true) ->
  (forall m, In m (c_members k) -> skipped (m_name m) = false -> avoids (c_self k) (erase_return_self_type (c_self k) (m_type m)) = true) ->
  exists result, infer_class inherits table k xs = Some result
    /\ (forall c i, c <> c_self k \/ ~ In i xs -> result c i = table c i)
    /\ forall x a b, In x xs -> fine inherits k x -> subtype result bases a b ->
         (result (c_self k) x = Covariant -> usable result bases k x a b)
         /\ (result (c_self k) x = Contravariant ->
               (forall m t, In m (counted k) -> written (c_frozen k) m = Some t -> mentions x t = false) -> usable result bases k x b a)
         /\ (result (c_self k) x = Invariant ->
               (exists s, In s (reads result k x) /\ s <> Minus) /\ exists s, In s (reads result k x ++ writes result k x) /\ s <> Plus).
Proof.
  intros inherits table bases k xs H0 Hb Hm.
  destruct (infer_class_fixed inherits table k xs H0 Hb Hm) as (result & E1 & E2 & E3 & E4).
  exists result. split; [exact E1 |]. split.
  - intros c i H. destruct (Nat.eq_dec c (c_self k)) as [-> | Hc]; [| apply E2; exact Hc]. destruct H as [H | H]; [congruence | apply E3; exact H].
  - intros x a b Hx Hf Hab. specialize (E4 x Hx). split; [| split].
    + intro Hv. rewrite Hv in E4. apply (C73_covariant_partial inherits result bases k x a b Hf Hv E4 Hab).
    + intros Hv Hw. rewrite Hv in E4. apply (C73_contravariant_partial inherits result bases k x a b Hf Hw Hv E4 Hab).
    + intro Hv. rewrite Hv in E4. apply (C73_signs_partial inherits result k x Hf). exact E4.
Qed.

(** A base is reported exactly if it does not go with the variance that is declared. *)
Theorem C73_base_partial : forall inherits table declared x base, simple inherits x base ->
  base_reported inherits table declared x base = false
  <-> (declared = Covariant -> forall s, In s (signs table x base) -> s = Plus)
      /\ (declared = Contravariant -> forall s, In s (signs table x base) -> s = Minus).
Proof.
  intros inherits table declared x base Hs. rewrite <- all_in_plus, <- all_in_minus. unfold base_reported.
  rewrite (check_exact inherits table x base Hs). destruct declared.
  - split; [intros _; split; discriminate | reflexivity].
  - destruct (signs table x base) as [| s l]; [split; [intros _; split; [reflexivity | discriminate] | reflexivity] |].
    pose proof (plus_minus (s :: l)) as Hpm.
    destruct (forallb is_plus (s :: l)); destruct (forallb is_minus (s :: l)); split; try reflexivity; try discriminate;
      try (intros _; split; congruence); intros [H1 H2]; specialize (H1 eq_refl); congruence.
  - destruct (signs table x base) as [| s l]; [split; [intros _; split; [discriminate | reflexivity] | reflexivity] |].
    destruct (forallb is_plus (s :: l)) eqn:E1; destruct (forallb is_minus (s :: l)) eqn:E2; split; try reflexivity; try discriminate;
      try (intros _; split; congruence); intros [H1 H2]; specialize (H2 eq_refl); congruence.
Qed.

(** ** Where the variance is wrong *)
Definition none (c : nat) (ts : list type) (d : nat) (us : list type) : bool := false.
Definition known (c i : nat) : variance := if c =? 1 then Invariant else Covariant.
Definition T : type := Var 0.
Definition list_of (t : type) : type := Instance 1 [t].
Definition method (ps : list type) (r : type) : member := mk_member (text "f") Method (Function ps r).
Definition none_type : type := Instance 9 [].
Definition alone (m : member) : class := mk_class 2 false [] [m].

(** [def f(self) -> T | list[T]] is said to be covariant, as the list is an object. *)
Definition absorbed : class := alone (method [] (Union [T; list_of T])).
Theorem C73_union_refuted :
  ~ forall inherits table k x, infer inherits table (c_self k) (c_frozen k) (c_bases k) (c_members k) x = Some Covariant ->
      forall s, In s (reads table k x) -> s = Plus.
Proof.
  intro H. specialize (H none known absorbed 0 eq_refl Both). assert (E : Both = Plus); [| discriminate].
  apply H. right. left. reflexivity.
Qed.

(** [f: Callable[[T], None]] can be written, but is said to be contravariant. *)
Definition writable : class := alone (mk_member (text "f") AnnotatedAttribute (Function [T] none_type)).
Theorem C73_writable_refuted :
  ~ forall inherits table k x, fine inherits k x ->
      infer inherits table (c_self k) (c_frozen k) (c_bases k) (c_members k) x = Some Contravariant ->
      forall s, In s (reads table k x ++ writes table k x) -> s = Minus.
Proof.
  intro H. assert (Hf : fine none writable 0).
  { split.
    - intros b [].
    - intros m [<- | []]. apply Simple_function; [intros p [<- | []]; apply Simple_var | apply Simple_instance; intros t []].
    - intros m s [<- | []] E. discriminate E.
    - intros m t [<- | []] E. cbn in E. injection E as <-. reflexivity.
    - intros m ps ts [<- | []] E. discriminate E. }
  specialize (H none known writable 0 Hf eq_refl Plus). assert (E : Plus = Minus); [| discriminate].
  apply H. right. left. reflexivity.
Qed.

(** The type of a setter does not count if the property has another one. *)
Definition setter : class := alone (mk_member (text "f") (Property (Some T)) none_type).
Theorem C73_setter_refuted :
  ~ forall inherits table k x, infer inherits table (c_self k) (c_frozen k) (c_bases k) (c_members k) x = Some Covariant ->
      forall s, In s (writes table k x) -> s = Plus.
Proof.
  intro H. specialize (H none known setter 0 eq_refl Minus). assert (E : Minus = Plus); [| discriminate].
  apply H. left. reflexivity.
Qed.

(** [def f(self) -> C[Callable[[T], None]]] is said to be covariant. *)
Definition turned : class := alone (method [] (Instance 2 [Function [T] none_type])).
Theorem C73_return_refuted :
  ~ forall inherits table k x, table (c_self k) x = Covariant ->
      infer inherits table (c_self k) (c_frozen k) (c_bases k) (c_members k) x = Some Covariant ->
      forall m s, In m (counted k) -> In s (signs table x (m_type m)) -> s = Plus.
Proof.
  intro H. specialize (H none known turned 0 eq_refl eq_refl _ Minus (or_introl eq_refl)). assert (E : Minus = Plus); [| discriminate].
  apply H. left. reflexivity.
Qed.

(** [def f(self, x: C[T])] is contravariant for a covariant [C], and covariant for a contravariant one. *)
Definition itself : class := alone (method [Instance 2 [T]] none_type).
Theorem C73_self_refuted :
  ~ forall inherits table k xs result, infer_class inherits table k xs = Some result ->
      forall x, In x xs -> infer inherits result (c_self k) (c_frozen k) (c_bases k) (c_members k) x = Some (result (c_self k) x).
Proof.
  intro H. specialize (H none known itself [0] _ eq_refl 0 (or_introl eq_refl)). vm_compute in H. discriminate H.
Qed.

(** [class D: def f(self, x: C[T])] with [class C: def f(self) -> D[T]]: the variance of D is inferred while that of C is not there yet,
    and is kept. *)
Definition first : class := alone (method [] (Instance 3 [T])).
Definition second : class := mk_class 3 false [] [method [Instance 2 [T]] none_type].
Theorem C73_cycle_refuted :
  ~ forall inherits table one two t1 t2, c_self one <> c_self two ->
      infer_class inherits (fallback table (c_self one) [0]) two [0] = Some t1 -> infer_class inherits t1 one [0] = Some t2 ->
      infer inherits t2 (c_self two) (c_frozen two) (c_bases two) (c_members two) 0 = Some (t2 (c_self two) 0).
Proof.
  intro H. specialize (H none known first second _ _ ltac:(discriminate) eq_refl eq_refl). vm_compute in H. discriminate H.
Qed.

(** ** Cases *)
Open Scope string_scope.
(** [class Box[T](Sequence[T])] with [def get(self) -> T], [def map(self, f: Callable[[T], int]) -> Box[T]], [_item: list[T] | None],
    [def __init__(self, item: T)] *)
Definition box : class :=
  mk_class 2 false [Instance 4 [T]]
    [mk_member (text "get") Method (Function [] T);
     mk_member (text "map") Method (Function [Function [T] none_type] (Instance 2 [T]));
     mk_member (text "_item") Attribute (Union [T; none_type]);
     mk_member (text "__init__") Method (Function [T] none_type)].
Example box_fine : fine none box 0.
Proof.
  split.
  - intros b [<- | []]. apply Simple_instance. intros t [<- | []]. apply Simple_var.
  - intros m Hm. cbn in Hm. destruct Hm as [<- | [<- | [<- | []]]]; cbn [m_type erase_return_self_type c_self box].
    + apply Simple_function; [intros p [] | apply Simple_var].
    + apply Simple_function; [| apply Simple_any]. intros p [<- | []].
      apply Simple_function; [intros p [<- | []]; apply Simple_var | apply Simple_instance; intros t []].
    + apply Simple_union; [intros t [<- | [<- | []]]; [apply Simple_var | apply Simple_instance; intros u []] |].
      intros before m after E Hm. destruct before as [| b before].
      * injection E as <- <-. split; [exact Logic.I |]. intros u [<- | []]. split; [discriminate | intro us; reflexivity].
      * destruct before as [| b2 before]; [injection E as <- <- <-; discriminate Hm | destruct before; discriminate E].
  - intros m s Hm E. cbn in Hm. destruct Hm as [<- | [<- | [<- | []]]]; discriminate E.
  - intros m t Hm E. cbn in Hm. destruct Hm as [<- | [<- | [<- | []]]]; discriminate E.
  - intros m ps ts Hm E. cbn in Hm. destruct Hm as [<- | [<- | [<- | []]]]; try discriminate E.
    injection E as <- <-. intros [| i] t Et; [injection Et as <-; reflexivity | destruct i; discriminate Et].
Qed.
Example box_covariant : infer none known 2 false (c_bases box) (c_members box) 0 = Some Covariant.
Proof. reflexivity. Qed.
Example box_uses : reads known box 0 = [Plus; Plus; Plus; Plus].
Proof. reflexivity. Qed.
Example box_avoids : forallb (avoids 2) (c_bases box) = true
  /\ forallb (fun m => skipped (m_name m) || avoids 2 (erase_return_self_type 2 (m_type m))) (c_members box) = true.
Proof. split; reflexivity. Qed.

(** [class Sink[T]] with [def put(self, x: T) -> None] is contravariant, with [def get(self) -> T] also it is invariant. *)
Definition sink : class := alone (method [T] none_type).
Example sink_contravariant : infer none known 2 false [] (c_members sink) 0 = Some Contravariant
  /\ infer none known 2 false [] (method [] T :: c_members sink) 0 = Some Invariant
  /\ infer none known 2 false [] [mk_member (text "x") AnnotatedAttribute T] 0 = Some Invariant
  /\ infer none known 2 true [] [mk_member (text "x") AnnotatedAttribute T] 0 = Some Covariant
  /\ infer none known 2 false [] [mk_member (text "_x") AnnotatedAttribute T] 0 = Some Covariant
  /\ infer none known 2 false [] [mk_member (text "__x__") AnnotatedAttribute T] 0 = Some Invariant.
Proof. repeat split; reflexivity. Qed.
Example sink_written : forall m t, In m (counted sink) -> written (c_frozen sink) m = Some t -> mentions 0 t = false.
Proof. intros m t [<- | []] E. discriminate E. Qed.
Example bases_reported : base_reported none known Covariant 0 (list_of T) = true
  /\ base_reported none known Covariant 0 (Instance 4 [T]) = false
  /\ base_reported none known Contravariant 0 (Instance 4 [T]) = true
  /\ base_reported none known Contravariant 0 (Function [T] none_type) = false.
Proof. repeat split; reflexivity. Qed.

Print Assumptions C73_total.
Print Assumptions C73_check_partial.
Print Assumptions C73_names.
Print Assumptions C73_signs_partial.
Print Assumptions C73_covariant_partial.
Print Assumptions C73_contravariant_partial.
Print Assumptions C73_class_partial.
Print Assumptions C73_base_partial.
Print Assumptions C73_union_refuted.
Print Assumptions C73_writable_refuted.
Print Assumptions C73_setter_refuted.
Print Assumptions C73_return_refuted.
Print Assumptions C73_self_refuted.
Print Assumptions C73_cycle_refuted.
