(** C60: what comparing [x] with another value ([is], [==], [in], [type(x) is C]) tells about [x] *)
From Coq Require Import List NArith ZArith Bool Lia.
From Verif Require Import TupleModel TupleSpec SubtypeModel SubtypeSpec NarrowModel NarrowProofs NarrowIsModel NarrowIsSpec NarrowIs NarrowExhausts.
Import ListNotations.
Open Scope N_scope.

Section Properties.
Context {V : Type}.
Variables (w : world V) (env : N -> V -> Prop).
Notation has := (has w env).
Variables (p : program) (accepts : type -> type -> bool) (ellipsis : N) (custom_eq : type -> bool) (member_count : N -> N) (is_flag : N -> bool)
          (kind_of_enum : N -> enum_kind).
Notation narrow := (narrow_is_or_eq p accepts ellipsis custom_eq member_count is_flag kind_of_enum).
Notation subject := (subject member_count).
Notation part_suits := (part_suits w env p accepts ellipsis custom_eq member_count kind_of_enum).

(** The other value is one of a member that exists, and the only value of an enum with one member is that member. *)
Definition well_formed (o : type) : Prop :=
  match subject o with EnumMember e m => is_flag e = true -> m < member_count e | _ => True end /\ (forall u, has o u -> has (subject o) u).

(** In both branches, [x] has a type that has its value; for the parts of its type that compare as they seem to. *)
Theorem C60_sound : forall (test : V -> V -> bool) is_eq literals t o truthy falsey,
  two_bools w p -> declared_members w member_count is_flag -> well_formed o -> Forall (part_suits test is_eq o) (parts t) ->
  narrow t o is_eq literals = Some (truthy, falsey) -> splits w env test t o truthy falsey.
Proof.
  intros test is_eq literals t o truthy falsey Two M [W1 W2] S E.
  exact (narrow_sound w env p accepts ellipsis custom_eq member_count is_flag kind_of_enum test is_eq literals t o truthy falsey Two M W1 W2 S E).
Qed.

(** [is] is identity, and there is one None, one [...], one object for each member of an enum. *)
Theorem C60_is : forall (test : V -> V -> bool) literals t o truthy falsey,
  (forall v u, test v u = true <-> v = u) -> is_singleton ellipsis member_count o = true -> (forall v u, has (subject o) v -> has (subject o) u -> v = u) ->
  two_bools w p -> declared_members w member_count is_flag -> well_formed o ->
  (forall u, In u (parts t) -> recognized p accepts (subject o) u \/ disjoint w env u (subject o)) ->
  narrow t o false literals = Some (truthy, falsey) -> splits w env test t o truthy falsey.
Proof.
  intros test literals t o truthy falsey Id Si Un Two M W R E. apply (C60_sound test false literals t o truthy falsey Two M W); [|exact E].
  apply Forall_forall. intros a A. unfold NarrowIs.part_suits. rewrite Si. right. split; [|exact (R a A)].
  intros v u Hv Hu. rewrite Id. split; [intros ->; exact Hu|]. intros Hs. exact (Un v u Hs Hu).
Qed.

(** Nothing is lost: a value [x] may have is possible in one of the branches. *)
Theorem C60_covers : forall is_eq literals t o truthy falsey, two_bools w p -> declared_members w member_count is_flag ->
  narrow t o is_eq literals = Some (truthy, falsey) -> forall v, has t v -> branch_allows w env truthy v \/ branch_allows w env falsey v.
Proof. intros is_eq literals t o truthy falsey. apply narrow_covers. Qed.

(** Nothing is added: no value is possible in a branch that [x] did not have before. *)
Theorem C60_within : forall is_eq literals t o truthy falsey, builtin_laws w env p accepts -> Forall (written_plainly p) (parts t) ->
  is_eq = true \/ Forall (fun u => ~ is_type_variable u) (parts t) ->
  narrow t o is_eq literals = Some (truthy, falsey) -> forall u v, truthy = Some u \/ falsey = Some u -> has u v -> has t v.
Proof. intros is_eq literals t o truthy falsey. apply narrow_within. Qed.

(** ** One comparison after the other *)
(** After comparing with all values of a type that is made of None, literals, enums and bool, nothing is left (so [assert_never] is accepted), and
    not before. *)
Theorem C60_exhausted : forall is_eq t os, bool_class p <> object p -> usual custom_eq kind_of_enum is_eq -> os <> [] -> Forall is_value os ->
  Forall (finite p member_count is_flag) (parts t) ->
  (after_all p accepts ellipsis custom_eq member_count is_flag kind_of_enum is_eq t os = Never <-> forall a, In a (values member_count t) -> In a os).
Proof. intros is_eq t os B U Ne Ho F. exact (never_iff p accepts ellipsis custom_eq member_count is_flag kind_of_enum B is_eq os t Ho U F Ne). Qed.

(** ... and these are the values that are left in between. *)
Theorem C60_left : forall is_eq t os, bool_class p <> object p -> usual custom_eq kind_of_enum is_eq -> Forall is_value os ->
  Forall (finite p member_count is_flag) (parts t) ->
  forall a, In a (values member_count (after_all p accepts ellipsis custom_eq member_count is_flag kind_of_enum is_eq t os)) <-> In a (values member_count t) /\ ~ In a os.
Proof. intros is_eq t os B U Ho F. exact (proj2 (after_all_values p accepts ellipsis custom_eq member_count is_flag kind_of_enum B is_eq os t Ho U F)). Qed.

(** ** [in] *)
Variables (simplified_union : type -> type -> type) (common_sub_type : type -> type -> option type).

Definition reaches (r : reached) (v : V) : Prop := match r with Unreachable => False | Reached f => branch_allows w env f v end.

Record union_laws : Prop := mk_union_laws {
  law_union : forall a b v, has a v \/ has b v -> has (simplified_union a b) v;
  law_common : forall a b v, has a v -> has b v -> match common_sub_type a b with Some c => has c v | None => False end
}.

Lemma reaches_type : forall f v, reaches (from_type f) v <-> branch_allows w env f v.
Proof. intros [[]|] v; cbn; tauto. Qed.

Lemma reaches_or : forall x y v, union_laws -> reaches x v \/ reaches y v -> reaches (merge_or simplified_union x y) v.
Proof. intros [|[a|]] [|[b|]] v L; cbn; try tauto. apply (law_union L). Qed.

Lemma reaches_and : forall x y v, union_laws -> reaches x v -> reaches y v -> reaches (merge_and common_sub_type x y) v.
Proof.
  intros [|[a|]] [|[b|]] v L; cbn; try tauto. intros Ha Hb. pose proof (law_common L a b v Ha Hb) as H. destruct (common_sub_type a b); exact H.
Qed.

(** [x in (a, b, c)] *)
Theorem C60_in_tuple : forall (test : V -> V -> bool) t entries literals truthy falsey, union_laws ->
  two_bools w p -> declared_members w member_count is_flag ->
  Forall (fun o => well_formed o /\ Forall (part_suits test true o) (parts t)) entries ->
  narrow_in_tuple p accepts ellipsis custom_eq member_count is_flag kind_of_enum simplified_union common_sub_type t entries literals = Some (truthy, falsey) ->
  forall v us, has t v -> Forall2 has entries us -> reaches (if existsb (test v) us then truthy else falsey) v.
Proof.
  intros test t entries literals truthy falsey L Two M. unfold narrow_in_tuple.
  assert (G : forall entries tr fa, Forall (fun o => well_formed o /\ Forall (part_suits test true o) (parts t)) entries ->
    fold_left (narrow_in_entry p accepts ellipsis custom_eq member_count is_flag kind_of_enum simplified_union common_sub_type t literals) entries (Some (tr, fa)) = Some (truthy, falsey) ->
    forall v us before, has t v -> Forall2 has entries us -> reaches (if before : bool then tr else fa) v -> reaches (if before || existsb (test v) us then truthy else falsey) v).
  { clear entries. induction entries as [|o entries IH]; intros tr fa F E v us before Ht Hu R.
    - injection E as -> ->. inversion Hu; subst. cbn [existsb]. now rewrite orb_false_r.
    - inversion Hu as [|o' u entries' us' H1 H2]; subst. inversion F as [|o' entries' [F1 F2] F3]; subst. cbn [fold_left narrow_in_entry] in E.
      destruct (narrow t o true (literals o)) as [[new_tr new_fa]|] eqn:N.
      + cbn [existsb]. rewrite orb_assoc. refine (IH _ _ F3 E v us' (before || test v u) Ht H2 _).
        pose proof (C60_sound test true (literals o) t o new_tr new_fa Two M F1 F2 N v u Ht H1) as S.
        destruct before; cbn [orb]; [apply reaches_or; auto|]. destruct (test v u).
        * apply reaches_or; [exact L|]. right. now apply reaches_type.
        * apply reaches_and; [exact L|exact R|]. now apply reaches_type.
      + exfalso. clear - E. induction entries as [|o' entries IH]; [discriminate|exact (IH E)]. }
  intros F E v us Ht Hu. exact (G entries _ _ F E v us false Ht Hu Logic.I).
Qed.

(** The other way around, what is left comes from the single comparisons: [x] in the first branch is allowed by one of them, and in the second one by all. *)
Record union_within : Prop := mk_union_within {
  law_union_within : forall a b v, has (simplified_union a b) v -> has a v \/ has b v;
  law_common_within : forall a b c v, common_sub_type a b = Some c -> has c v -> has a v /\ has b v
}.

Lemma within_or : forall x y v, union_within -> reaches (merge_or simplified_union x y) v -> reaches x v \/ reaches y v.
Proof. intros [|[a|]] [|[b|]] v L; cbn; try tauto. apply (law_union_within L). Qed.

Lemma within_and : forall x y v, union_within -> reaches (merge_and common_sub_type x y) v -> reaches x v /\ reaches y v.
Proof.
  intros [|[a|]] [|[b|]] v L; cbn; try tauto. destruct (common_sub_type a b) as [c|] eqn:C; cbn; [|tauto]. exact (law_common_within L a b c v C).
Qed.

Definition allowed_by (one : frame * frame -> frame) (t : type) (literals : type -> bool) (v : V) (o : type) : Prop :=
  exists r, narrow t o true (literals o) = Some r /\ branch_allows w env (one r) v.

Theorem C60_in_tuple_within : forall t entries literals truthy falsey, union_within ->
  narrow_in_tuple p accepts ellipsis custom_eq member_count is_flag kind_of_enum simplified_union common_sub_type t entries literals = Some (truthy, falsey) ->
  forall v, (reaches truthy v -> Exists (allowed_by fst t literals v) entries) /\ (reaches falsey v -> Forall (allowed_by snd t literals v) entries).
Proof.
  intros t entries literals truthy falsey L. unfold narrow_in_tuple.
  assert (G : forall entries tr fa,
    fold_left (narrow_in_entry p accepts ellipsis custom_eq member_count is_flag kind_of_enum simplified_union common_sub_type t literals) entries (Some (tr, fa)) = Some (truthy, falsey) ->
    forall v, (reaches truthy v -> reaches tr v \/ Exists (allowed_by fst t literals v) entries) /\ (reaches falsey v -> reaches fa v /\ Forall (allowed_by snd t literals v) entries)).
  { clear entries. induction entries as [|o entries IH]; intros tr fa E v.
    - injection E as -> ->. split; auto.
    - cbn [fold_left narrow_in_entry] in E. destruct (narrow t o true (literals o)) as [[new_tr new_fa]|] eqn:N.
      + destruct (IH _ _ E v) as [IH1 IH2]. split.
        * intros R. destruct (IH1 R) as [H|H]; [|auto]. apply (within_or _ _ _ L) in H as [H|H]; [auto|]. right. apply Exists_cons_hd. exists (new_tr, new_fa). split; [exact N|]. now apply reaches_type.
        * intros R. destruct (IH2 R) as [H H']. apply (within_and _ _ _ L) in H as [Ha Hb]. split; [exact Ha|]. apply Forall_cons; [|exact H']. exists (new_tr, new_fa). split; [exact N|]. now apply reaches_type.
      + exfalso. clear - E. induction entries as [|o' entries IH]; [discriminate|exact (IH E)]. }
  intros E v. destruct (G entries _ _ E v) as [G1 G2]. split; [|intros R; exact (proj2 (G2 R))]. intros R. destruct (G1 R) as [[]|H]. exact H.
Qed.

Variables (overlaps : type -> type -> bool) (container_item : type -> option type).

(** [x in xs] for containers of the standard library: [x] is not None where nothing in them is equal to None. *)
Theorem C60_in_container : forall (test : V -> V -> bool) t container literals truthy falsey,
  match container with Tuple (FixedLen _) => False | _ => True end ->
  narrow_in p accepts ellipsis custom_eq member_count is_flag kind_of_enum simplified_union common_sub_type overlaps container_item t container literals = Some (truthy, falsey) ->
  forall item, container_item container = Some item -> never_passes w env test NoneType item ->
  forall v us, has t v -> Forall (has item) us -> reaches (if existsb (test v) us then truthy else falsey) v.
Proof.
  intros test t container literals truthy falsey C E item It Ne v us Ht Hu. unfold narrow_in in E.
  replace (match container with Tuple (FixedLen entries) => narrow_in_tuple p accepts ellipsis custom_eq member_count is_flag kind_of_enum simplified_union common_sub_type t entries literals | _ => None end)
    with (@None (reached * reached)) in E by (destruct container as [| | | | | | |[]| | | | | | |]; try reflexivity; contradiction).
  rewrite It in E. destruct (negb (mem NoneType (parts item)) && overlaps t item); [|discriminate].
  unfold removed_optional in E. destruct (mem NoneType (parts t)); [|discriminate]. injection E as <- <-.
  destruct (existsb (test v) us) eqn:X; [|exact Logic.I]. apply existsb_exists in X as [u [X1 X2]]. rewrite Forall_forall in Hu.
  apply (proj2 (reaches_type (Some (retain_in_union (fun u => negb (same u NoneType)) t)) v)). cbn [branch_allows]. apply has_retained. apply has_parts in Ht as [a [A1 A2]]. exists a. split; [exact A1|]. split; [|exact A2].
  destruct (same a NoneType) eqn:S; [|reflexivity]. apply same_eq in S as ->. rewrite (Ne v u A2 (Hu u X1)) in X2. discriminate.
Qed.

(** ** [type(x) is C] *)
Variables (is_final : N -> bool) (same_type : type -> type -> bool).

(** [exact v] says that the class of [v] is [c] itself.  Where [c] does not fit, no value is of exactly that class, and a final class has no others. *)
Record exact_laws (exact : V -> bool) (t c : type) : Prop := mk_exact_laws {
  law_exact : forall v, exact v = true -> has c v;
  law_fits : accepts t c = false -> forall v, has t v -> exact v = false;
  law_final : forall d gs, c = Class d gs -> is_final d = true -> forall u v, In u (parts t) -> same_type u c = true -> has u v -> exact v = true
}.

Theorem C60_type_of : forall (exact : V -> bool) t c truthy falsey, exact_laws exact t c ->
  narrow_type_of p accepts is_final same_type t c = Some (truthy, falsey) ->
  forall v, has t v -> branch_allows w env (if exact v then truthy else falsey) v.
Proof.
  intros exact t c truthy falsey [L1 L2 L3] E v Ht.
  assert (N : forall final, (final = true -> exists d gs, c = Class d gs /\ is_final d = true) ->
    Some (Some (if accepts t c then c else Never), if final : bool then Some (retain_in_union (fun u => negb (same_type u c)) t) else None) = Some (truthy, falsey) ->
    branch_allows w env (if exact v then truthy else falsey) v).
  { intros final F X. injection X as <- <-. destruct (exact v) eqn:Ex.
    - cbn [branch_allows]. destruct (accepts t c) eqn:A; [exact (L1 v Ex)|]. rewrite (L2 eq_refl v Ht) in Ex. discriminate.
    - destruct final; [|exact Logic.I]. destruct (F eq_refl) as [d [gs [Fc Fd]]]. cbn [branch_allows]. apply has_retained. apply has_parts in Ht as [a [A1 A2]].
      exists a. split; [exact A1|]. split; [|exact A2]. destruct (same_type a c) eqn:S; [|reflexivity]. rewrite (L3 d gs Fc Fd a v A1 S A2) in Ex. discriminate. }
  unfold narrow_type_of in E. destruct c; try discriminate E; try (exact (N false (fun X => False_ind _ (diff_false_true X)) E)).
  destruct (is_metaclass p c); [discriminate|]. apply (N (is_final c)); [|exact E]. intros X. exists c, gs. auto.
Qed.
End Properties.

(** ** Values of Python *)
(** An object that is not the only one of its kind has an identity [id]. *)
Inductive pv :=
| PNone | PEllipsis | PBool (b : bool) | PInt (n id : N) | PMyInt (n id : N) | PFloat (n id : N) | PStr (s id : N) | PMember (e m : N)
| PObject (c id : N).

(** The classes: [class MyInt(int)] is 8, [Hashable] is a protocol (10), [list] is 12, [@final class F] is 13, [class C] with an [__eq__] of its own is 18.
    The enums: [class Color(Enum)] with three members (0), [class Number(IntEnum)] with [ONE = 1] and [TWO = 2] (1), [class Perm(Flag)] with
    one member (2), [class Same(Enum)] with two members and an [__eq__] of its own (3), [class Only(Enum)] with one member (4).
    [NewType("N", int)] is 0, a type variable bound to [Color] is 0, and one that may be anything is 1. *)
Definition python : program := {|
  object := 0; bool_class := 2; int_class := 1; str_class := 3; bytes_class := 4; tuple_class := 5; bare_type := 6; generic_alias := 7;
  variances := fun c => if c =? 12 then [Invariant] else if c =? 5 then [Covariant] else [];
  bases := fun c => if (c =? 2) || (c =? 8) || (c =? 16) then [Class 1 []] else [];
  metaclass := fun _ => NoMetaclass;
  is_metaclass := fun c => c =? 6;
  incomplete := fun _ => false;
  promote_to := fun c => if (c =? 1) || (c =? 2) then Some 9 else None;
  is_protocol := fun c => c =? 10;
  check_protocol := fun _ _ _ => Yes;
  enum_class := fun e => 15 + e;
  newtype_type := fun _ => Class 1 [];
  kind_of := fun n => if n =? 0 then Bound (Enum 0) else Unrestricted;
  entries := fun _ => Class 0 [];
  same_union := fun _ _ => false
|}.

Definition py_accepts (t1 t2 : type) : bool :=
  match run python 30 (Matches Covariant false t1 t2) with Some Yes => true | _ => false end.
Definition py_custom_eq (t : type) : bool := match t with Class 18 _ => true | Enum 3 | EnumMember 3 _ => true | _ => false end.
Definition py_members (e : N) : N := match e with 0 => 3 | 1 => 2 | 2 => 1 | 3 => 2 | 4 => 1 | _ => 0 end.
Definition py_flag (e : N) : bool := e =? 2.
Definition py_kind (e : N) : enum_kind := if e =? 1 then IntEnum else Normal.

Definition py_instance (c : N) (v : pv) : Prop :=
  match c, v with
  | 0, _ => True
  | 1, (PInt _ _ | PBool _ | PMyInt _ _ | PMember 1 _) => True
  | 2, PBool _ => True
  | 3, PStr _ _ => True
  | 8, PMyInt _ _ => True
  | 9, (PFloat _ _ | PInt _ _ | PBool _ | PMyInt _ _ | PMember 1 _) => True
  | 10, _ => True
  | 11, PEllipsis => True
  | 15, PMember 0 _ => True
  | 16, PMember 1 _ => True
  | 12, PObject 12 _ => True
  | 13, PObject 13 _ => True
  | 18, PObject 18 _ => True
  | _, _ => False
  end.

Definition py_world : world pv := {|
  instance := fun c _ => py_instance c;
  literal_value := fun l v => match l, v with LInt n false, PInt m _ => n = m | LBool b, PBool c => b = c | LStr s, PStr t _ => s = t | _, _ => False end;
  none_value := fun v => v = PNone;
  literal_text := fun _ => False;
  tuple_value := fun _ _ => False;
  stands_for := fun _ _ => False;
  member_value := fun e m v => match v with PMember f n => f = e /\ n = m /\ (py_flag e = true \/ n < py_members e) | _ => False end;
  made_by := fun _ v => exists n id, v = PInt n id;
  class_of := fun _ _ => False
|}.
Definition py_env (n : N) (v : pv) : Prop := match n with 0 => exists m, v = PMember 0 m /\ m < 3 | _ => True end.

(** [is] *)
Definition py_is (v u : pv) : bool :=
  match v, u with
  | PNone, PNone | PEllipsis, PEllipsis => true
  | PBool b, PBool c => eqb b c
  | PInt n i, PInt m j | PMyInt n i, PMyInt m j | PFloat n i, PFloat m j | PStr n i, PStr m j | PMember n i, PMember m j | PObject n i, PObject m j =>
      (n =? m) && (i =? j)
  | _, _ => false
  end.

(** [==]: numbers are equal if they are the same number, whatever their class, and [Same] and [C] are equal to everything. *)
Definition number (v : pv) : option N :=
  match v with
  | PBool b => Some (if b then 1 else 0)
  | PInt n _ | PMyInt n _ | PFloat n _ => Some n
  | PMember 1 m => Some (m + 1)
  | _ => None
  end.
Definition py_eq (v u : pv) : bool :=
  match v, u with
  | (PObject 18 _ | PMember 3 _), _ | _, (PObject 18 _ | PMember 3 _) => true
  | PStr s _, PStr t _ => s =? t
  | _, _ =>
      match number v, number u with
      | Some n, Some m => n =? m
      | _, _ => py_is v u
      end
  end.

Notation py_has := (has py_world py_env).
Notation py_narrow := (narrow_is_or_eq python py_accepts 11 py_custom_eq py_members py_flag py_kind).
Notation py_suits := (NarrowIs.part_suits py_world py_env python py_accepts 11 py_custom_eq py_members py_kind).

Definition o1 : literal := LInt 1 false.
Definition py_object : type := Class 0 [].
Definition py_int : type := Class 1 [].
Definition py_bool : type := Class 2 [].
Definition py_str : type := Class 3 [].
Definition red : type := EnumMember 0 0.

Lemma py_is_identity : forall v u, py_is v u = true <-> v = u.
Proof.
  intros v u. split.
  - destruct v, u; cbn [py_is]; intros H; try discriminate H; try reflexivity; try (apply andb_true_iff in H as [H1 H2]; apply N.eqb_eq in H1, H2; now subst).
    apply eqb_prop in H. now subst.
  - intros <-. destruct v; cbn [py_is]; rewrite ?N.eqb_refl, ?eqb_reflx; reflexivity.
Qed.

Lemma py_two_bools : two_bools py_world python.
Proof. intros s v H. destruct v as [| |[]| | | | | |]; cbn in H; try contradiction; cbn; auto. Qed.

Lemma py_declared : declared_members py_world py_members py_flag.
Proof. intros e n v F H. destruct v; try contradiction. destruct H as [_ [<- [H|H]]]; [congruence|exact H]. Qed.

Lemma py_laws : builtin_laws py_world py_env python (fun t1 t2 => match t2 with Literal (LInt _ false) => same t1 py_int | Literal (LStr _) => same t1 py_str | _ => false end).
Proof.
  constructor.
  - intros v. exact Logic.I.
  - intros b v H. destruct v; try contradiction; exact Logic.I.
  - intros t l v A H. destruct l as [n [|]|b|s|s]; try discriminate A; apply same_eq in A as ->; destruct v; try contradiction H; exact Logic.I.
Qed.

(** [x: Color | None | object] and [x is Color.RED]: the premises of [C60_is] *)
Example C60_is_premises : forall literals truthy falsey, let t := Union [Enum 0; NoneType] in
  py_narrow t red false literals = Some (truthy, falsey) -> splits py_world py_env py_is t red truthy falsey.
Proof.
  intros literals truthy falsey t. apply C60_is; [exact py_is_identity|reflexivity| |exact py_two_bools|exact py_declared| |].
  - intros v u Hv Hu. destruct v, u; try contradiction. destruct Hv as [-> [-> _]], Hu as [-> [-> _]]. reflexivity.
  - split; [intros X; discriminate X|]. intros u H. exact H.
  - intros u [<-|[<-|[]]].
    + left. cbn. auto.
    + right. intros v H. cbn in H. subst v. intros [].
Qed.
Example C60_is_red : forall literals, py_narrow (Union [Enum 0; NoneType]) red false literals =
  Some (Some red, Some (Union [EnumMember 0 1; EnumMember 0 2; NoneType])).
Proof. reflexivity. Qed.

(** [x: Literal[1, 2] | str | None] and [x == 1]: the premises of [C60_sound] *)
Example C60_eq_premises : forall truthy falsey, let t := Union [Literal o1; Literal (LInt 2 false); py_str; NoneType] in
  py_narrow t (Literal o1) true true = Some (truthy, falsey) -> splits py_world py_env py_eq t (Literal o1) truthy falsey.
Proof.
  intros truthy falsey t. apply C60_sound; [exact py_two_bools|exact py_declared|split; [exact Logic.I|intros u H; exact H]|].
  repeat apply Forall_cons; [..|apply Forall_nil]; right.
  - split; [|left; cbn; auto]. intros v u Hv Hu. destruct v, u; try contradiction. cbn in Hv, Hu |- *. subst. cbn. tauto.
  - split.
    + intros v u Hv Hu. destruct v, u; try contradiction. cbn in Hv, Hu |- *. subst. split; discriminate.
    + right. intros v Hv Hu. destruct v; try contradiction. cbn in Hv, Hu. subst. discriminate.
  - split; [|right; intros v Hv Hu; destruct v; contradiction]. intros v u Hv Hu. destruct v, u; try contradiction. cbn. split; [discriminate|intros []].
  - split; [|right; intros v Hv Hu; destruct v; try contradiction; discriminate]. intros v u Hv Hu. cbn in Hv. subst v. destruct u; try contradiction. cbn. split; [discriminate|intros []].
Qed.
Example C60_eq_one : py_narrow (Union [Literal o1; Literal (LInt 2 false); py_str; NoneType]) (Literal o1) true true =
  Some (Some (Literal o1), Some (Union [Literal (LInt 2 false); py_str; NoneType])).
Proof. vm_compute. reflexivity. Qed.

(** [x: Color | bool | None], compared with [Color.RED], None, True, [Color.BLUE], False and at last [Color.GREEN] *)
Example C60_exhausted_premises : forall is_eq, let t := Union [Enum 0; py_bool; NoneType] in
  let os := [red; NoneType; Literal (LBool true); EnumMember 0 2; Literal (LBool false)] in
  after_all python py_accepts 11 (fun _ => false) py_members py_flag (fun _ => Normal) is_eq t (os ++ [EnumMember 0 1]) = Never /\
  after_all python py_accepts 11 (fun _ => false) py_members py_flag (fun _ => Normal) is_eq t os <> Never.
Proof.
  intros is_eq t os. assert (B : bool_class python <> object python) by discriminate.
  assert (U : usual (fun _ => false) (fun _ => Normal) is_eq) by (intros _; split; reflexivity).
  assert (F : Forall (finite python py_members py_flag) (parts t)) by (repeat apply Forall_cons; [..|apply Forall_nil]; cbn; auto; split; reflexivity).
  assert (W : Forall is_value os) by (repeat apply Forall_cons; [..|apply Forall_nil]; exact Logic.I). split.
  - apply (C60_exhausted python py_accepts 11 (fun _ => false) py_members py_flag (fun _ => Normal) is_eq t); [exact B|exact U|discriminate| |exact F|].
    + apply Forall_app. split; [exact W|]. apply Forall_cons; [exact Logic.I|apply Forall_nil].
    + intros a H. vm_compute in H |- *. tauto.
  - intros H. assert (Ne : os <> []) by discriminate.
    apply (proj1 (C60_exhausted python py_accepts 11 (fun _ => false) py_members py_flag (fun _ => Normal) is_eq t os B U Ne W F)) with (a := EnumMember 0 1) in H; [|vm_compute; auto].
    rename H into X.
    cbn in X.
    repeat match type of X with _ \/ _ => destruct X as [X|X]; [discriminate X|] end. exact X.
Qed.

(** [x: bool | int | object] and [x == True]: the premises of [C60_covers] and [C60_within] *)
Example C60_within_premises : let t := Union [py_bool; py_int; py_object] in let o := Literal (LBool true) in
  let narrow := narrow_is_or_eq python (fun t1 t2 => match t2 with Literal (LInt _ false) => same t1 py_int | Literal (LStr _) => same t1 py_str | _ => false end)
    11 py_custom_eq py_members py_flag py_kind t o true true in
  exists truthy falsey, narrow = Some (Some truthy, Some falsey) /\ falsey <> t /\ forall v, py_has t v <-> py_has truthy v \/ py_has falsey v.
Proof.
  intros t o narrow. assert (X : exists truthy falsey, narrow = Some (Some truthy, Some falsey) /\ falsey <> t) by (do 2 eexists; split; [vm_compute; reflexivity|discriminate]).
  destruct X as [truthy [falsey [E D]]]. exists truthy, falsey. split; [exact E|]. split; [exact D|]. intros v. split; intros H.
  - exact (C60_covers py_world py_env python _ 11 py_custom_eq py_members py_flag py_kind true true t o _ _ py_two_bools py_declared E v H).
  - assert (W : Forall (written_plainly python) (parts t)) by (repeat apply Forall_cons; cbn; auto; apply Forall_nil).
    pose proof (C60_within py_world py_env python _ 11 py_custom_eq py_members py_flag py_kind true true t o _ _ py_laws W (or_introl eq_refl) E) as W'.
    destruct H as [H|H]; [exact (W' truthy v (or_introl eq_refl) H)|exact (W' falsey v (or_intror eq_refl) H)].
Qed.

(** ** Where the narrowed type does not have the value *)
Definition wrong (test : pv -> pv -> bool) (t o : type) (r : option (option type * option type)) : Prop :=
  exists truthy falsey, r = Some (truthy, falsey) /\ exists v u, py_has t v /\ py_has o u /\ ~ branch_allows py_world py_env (if test v u then truthy else falsey) v.

Ltac by_values v u := do 2 eexists; split; [vm_compute; reflexivity|]; exists v, u; split; [|split]; [| |let H := fresh in intros H; vm_compute in H].

(** [x: bool], and [x == 1]: what follows is said to be unreachable, but [True == 1]. *)
Theorem C60_bool_refuted : wrong py_eq py_bool (Literal o1) (py_narrow py_bool (Literal o1) true true) /\
  py_narrow py_bool (Literal o1) true true = Some (Some Never, Some py_bool).
Proof. split; [|vm_compute; reflexivity]. by_values (PBool true) (PInt 1 0); [exact Logic.I|reflexivity|exact H]. Qed.

(** The same for [class MyInt(int)], for a NewType of int and for the members of an IntEnum. *)
Theorem C60_subclass_refuted : wrong py_eq (Class 8 []) (Literal o1) (py_narrow (Class 8 []) (Literal o1) true true) /\
  py_narrow (Class 8 []) (Literal o1) true true = Some (Some Never, Some (Class 8 [])).
Proof. split; [|vm_compute; reflexivity]. by_values (PMyInt 1 0) (PInt 1 0); [exact Logic.I|reflexivity|exact H]. Qed.

Theorem C60_newtype_refuted : wrong py_eq (NewType 0) (Literal o1) (py_narrow (NewType 0) (Literal o1) true true) /\
  py_narrow (NewType 0) (Literal o1) true true = Some (Some Never, Some (NewType 0)).
Proof. split; [|vm_compute; reflexivity]. by_values (PInt 1 0) (PInt 1 0); [exists 1, 0; reflexivity|reflexivity|exact H]. Qed.

Theorem C60_int_enum_refuted : wrong py_eq (EnumMember 1 0) (Literal o1) (py_narrow (EnumMember 1 0) (Literal o1) true true) /\
  py_narrow (EnumMember 1 0) (Literal o1) true true = Some (Some Never, Some (EnumMember 1 0)).
Proof.
  split; [|vm_compute; reflexivity]. by_values (PMember 1 0) (PInt 1 0); [|reflexivity|exact H].
  split; [reflexivity|]. split; [reflexivity|]. right. reflexivity.
Qed.

(** [x: float] or [x: object]: after [x == 1], [x] is said to be [Literal[1]] but may be 1.0. *)
Theorem C60_float_refuted : wrong py_eq (Class 9 []) (Literal o1) (py_narrow (Class 9 []) (Literal o1) true true) /\
  py_narrow (Class 9 []) (Literal o1) true true = Some (Some (Literal o1), Some (Class 9 [])).
Proof. split; [|vm_compute; reflexivity]. by_values (PFloat 1 0) (PInt 1 0); [exact Logic.I|reflexivity|exact H]. Qed.

Theorem C60_object_refuted : wrong py_eq py_object (Literal o1) (py_narrow py_object (Literal o1) true true).
Proof. by_values (PFloat 1 0) (PInt 1 0); [exact Logic.I|reflexivity|exact H]. Qed.

(** An enum with an [__eq__] of its own: [x: Same] and [x == Same.A].  For a class this is looked at, but for the enum itself it is not. *)
Theorem C60_custom_enum_refuted : wrong py_eq (Enum 3) (EnumMember 3 0) (py_narrow (Enum 3) (EnumMember 3 0) true true) /\
  py_narrow (Enum 3) (EnumMember 3 0) true true = Some (Some (EnumMember 3 0), Some (EnumMember 3 1)).
Proof.
  split; [|vm_compute; reflexivity]. by_values (PMember 3 1) (PMember 3 0).
  - exists 1. split; [reflexivity|]. split; [reflexivity|]. right. reflexivity.
  - split; [reflexivity|]. split; [reflexivity|]. right. reflexivity.
  - destruct H as [_ [H _]]. discriminate H.
Qed.

(** [x: int | None] and [y: int | None]: after [x == y] (or [x is y]), [x] is said to be an int though both may be None. *)
Theorem C60_both_none_refuted : forall is_eq : bool, let t := Union [py_int; NoneType] in
  wrong (if is_eq then py_eq else py_is) t t (py_narrow t t is_eq false) /\ py_narrow t t is_eq false = Some (Some py_int, None).
Proof.
  intros [|] t; (split; [|vm_compute; reflexivity]); (by_values PNone PNone; [apply Exists_cons_tl, Exists_cons_hd; reflexivity|apply Exists_cons_tl, Exists_cons_hd; reflexivity|exact H]).
Qed.

(** [x: Hashable] and [x is None]: what follows is said to be unreachable, but None is hashable. *)
Theorem C60_protocol_refuted : wrong py_is (Class 10 []) NoneType (py_narrow (Class 10 []) NoneType false true) /\
  py_narrow (Class 10 []) NoneType false true = Some (Some Never, Some (Class 10 [])) /\ py_accepts (Class 10 []) NoneType = true.
Proof. split; [|split; vm_compute; reflexivity]. by_values PNone PNone; [exact Logic.I|reflexivity|exact H]. Qed.

(** [x: int] and [x is Number.ONE]: unreachable too, though this is an int.  Likewise for a type variable that is bound to the enum. *)
Theorem C60_int_is_member_refuted : wrong py_is py_int (EnumMember 1 0) (py_narrow py_int (EnumMember 1 0) false true) /\
  py_narrow py_int (EnumMember 1 0) false true = Some (Some Never, Some py_int) /\ py_accepts py_int (EnumMember 1 0) = true.
Proof.
  split; [|split; vm_compute; reflexivity]. assert (M : py_has (EnumMember 1 0) (PMember 1 0)) by (split; [reflexivity|split; [reflexivity|right; reflexivity]]).
  by_values (PMember 1 0) (PMember 1 0); [exact Logic.I|exact M|exact H].
Qed.

Theorem C60_bound_refuted : wrong py_is (TypeVar 0) red (py_narrow (TypeVar 0) red false true) /\ py_narrow (TypeVar 0) red false true = Some (Some Never, Some (TypeVar 0)).
Proof.
  split; [|vm_compute; reflexivity]. by_values (PMember 0 0) (PMember 0 0); [|split; [reflexivity|split; [reflexivity|right; reflexivity]]|exact H].
  exists 0. split; reflexivity.
Qed.

(** [x: Literal[1]] and [x is 1]: that it is not is said to be impossible, though an equal number may be another object. *)
Theorem C60_is_literal_refuted : wrong py_is (Literal o1) (Literal o1) (py_narrow (Literal o1) (Literal o1) false true) /\
  py_narrow (Literal o1) (Literal o1) false true = Some (Some (Literal o1), Some Never).
Proof. split; [|vm_compute; reflexivity]. by_values (PInt 1 0) (PInt 1 7); [reflexivity|reflexivity|exact H]. Qed.

(** [x: Perm] and [y: Perm] with the only member [A] of this flag: after [x is y], [x] is said to be [Perm.A], though there is [Perm(0)]. *)
Theorem C60_flag_refuted : wrong py_is (Enum 2) (Enum 2) (py_narrow (Enum 2) (Enum 2) false true) /\
  py_narrow (Enum 2) (Enum 2) false true = Some (Some (EnumMember 2 0), Some (Enum 2)).
Proof.
  split; [|vm_compute; reflexivity].
  assert (M : py_has (Enum 2) (PMember 2 5)) by (exists 5; split; [reflexivity|split; [reflexivity|left; reflexivity]]).
  by_values (PMember 2 5) (PMember 2 5); [exact M|exact M|]. destruct H as [_ [H _]]. discriminate H.
Qed.

(** ** [in] *)
(** [x: Color | None] and [x in (Color.RED, None)]: the premises of [C60_in_tuple] *)
Definition py_union (a b : type) : type := join a b.
Definition py_common (a b : type) : option type := Some (Intersection [a; b]).
Lemma py_union_laws : union_laws py_world py_env py_union py_common.
Proof.
  constructor.
  - intros a b v H. apply has_join. exact H.
  - intros a b v Ha Hb. cbn. apply Forall_cons; [exact Ha|]. apply Forall_cons; [exact Hb|apply Forall_nil].
Qed.

Notation py_in := (narrow_in python py_accepts 11 py_custom_eq py_members py_flag py_kind py_union py_common).

Example C60_in_premises : forall overlaps container_item truthy falsey, let t := Union [Enum 0; NoneType] in
  py_in overlaps container_item t (Tuple (FixedLen [red; NoneType])) (fun _ => true) = Some (truthy, falsey) ->
  forall v us, py_has t v -> Forall2 py_has [red; NoneType] us -> reaches py_world py_env (if existsb (py_eq v) us then truthy else falsey) v.
Proof.
  intros overlaps container_item truthy falsey t E.
  apply (C60_in_tuple py_world py_env python py_accepts 11 py_custom_eq py_members py_flag py_kind py_union py_common py_eq t [red; NoneType] (fun _ => true) truthy falsey py_union_laws py_two_bools py_declared).
  2:{ unfold narrow_in in E. destruct (narrow_in_tuple _ _ _ _ _ _ _ _ _ _ _ _) as [r|] eqn:N in E; [rewrite N; exact E|]. vm_compute in N. discriminate N. }
  assert (C : forall m v, member_value py_world 0 m v -> v = PMember 0 m) by (intros m v H; destruct v; try contradiction; destruct H as [-> [-> _]]; reflexivity).
  apply Forall_cons; [|apply Forall_cons; [|apply Forall_nil]].
  - split; [split; [discriminate|auto]|]. apply Forall_cons; [|apply Forall_cons; [|apply Forall_nil]]; right.
    + split; [|left; cbn; auto]. intros v u [m Hv] Hu. apply C in Hv as V, Hu as U. subst v u. destruct Hv as [_ [_ Hv]]. change (py_eq (PMember 0 m) (PMember 0 0)) with (m =? 0). rewrite N.eqb_eq. cbn. split; [intros ->; auto|tauto].
    + split; [|right; intros v Hv Hu; apply C in Hu; cbn in Hv; congruence]. intros v u Hv Hu. apply C in Hu as ->. cbn in Hv. subst v. cbn. split; [discriminate|intros []].
  - split; [split; [exact Logic.I|auto]|]. apply Forall_cons; [|apply Forall_cons; [|apply Forall_nil]]; right.
    + split; [|right; intros v [m Hv] Hu; apply C in Hv; cbn in Hu; congruence]. intros v u [m Hv] Hu. apply C in Hv as ->. cbn in Hu. subst u. cbn. split; discriminate.
    + split; [|left; cbn; auto]. intros v u Hv Hu. cbn in Hv, Hu. subst. cbn. tauto.
Qed.

(** [x: None] and [x in (None, Color.RED)]: the second branch is unreachable, as the premises of [C60_in_tuple_within] hold and the comparison with None leaves nothing. *)
Lemma py_union_within : union_within py_world py_env py_union py_common.
Proof.
  constructor.
  - intros a b v H. apply has_join. exact H.
  - intros a b c v E H. injection E as <-. cbn in H. inversion H as [|x l Ha H']; subst. inversion H' as [|x l Hb H'']; subst. auto.
Qed.
Example C60_in_tuple_within_premises : forall truthy falsey,
  narrow_in_tuple python py_accepts 11 py_custom_eq py_members py_flag py_kind py_union py_common NoneType [NoneType; red] (fun _ => true) = Some (truthy, falsey) ->
  forall v, ~ reaches py_world py_env falsey v.
Proof.
  intros truthy falsey E v H. apply (C60_in_tuple_within py_world py_env python py_accepts 11 py_custom_eq py_members py_flag py_kind py_union py_common NoneType [NoneType; red] (fun _ => true) truthy falsey py_union_within E v) in H.
  inversion H as [|o l H1 _]; subst. destruct H1 as [r [N R]]. vm_compute in N. injection N as <-. exact R.
Qed.
Example C60_in_tuple_within_reached : exists truthy falsey,
  narrow_in_tuple python py_accepts 11 py_custom_eq py_members py_flag py_kind py_union py_common NoneType [NoneType; red] (fun _ => true) = Some (truthy, falsey).
Proof. vm_compute. eauto. Qed.

(** [x: int | None] and [x in xs] for [xs: list[int]]: the premises of [C60_in_container] *)
Example C60_in_container_premises : let t := Union [py_int; NoneType] in
  forall v us, py_has t v -> Forall (py_has py_int) us -> reaches py_world py_env (Reached (if existsb (py_eq v) us then Some py_int else None)) v.
Proof.
  intros t v us Hv Hu. pose proof (C60_in_container py_world py_env python py_accepts 11 py_custom_eq py_members py_flag py_kind py_union py_common
    (fun a b => true) (fun c => match c with Class 12 [i] => Some i | _ => None end) py_eq t (Class 12 [py_int]) (fun _ => false) (Reached (Some py_int)) (Reached None) Logic.I) as C.
  refine (_ (C _ py_int eq_refl _ v us Hv Hu)); [destruct (existsb (py_eq v) us); exact (fun H => H)|vm_compute; reflexivity|].
  intros x u Hx H. cbn in Hx. subst x. destruct u; try contradiction; try reflexivity. cbn in H. destruct e as [|[]]; try contradiction; reflexivity.
Qed.

(** [x: int | None] and [x in xs] for [xs: list[Hashable]]: [x] is said to be an int, but None may be in the list.  (None is only looked for among
    the parts of the type of the items.) *)
Theorem C60_in_container_refuted : let t := Union [py_int; NoneType] in let item := Class 10 [] in
  py_in (fun a b => py_accepts b a) (fun c => match c with Class 12 [i] => Some i | _ => None end) t (Class 12 [item]) (fun _ => false) = Some (Reached (Some py_int), Reached None) /\
  exists us, Forall (py_has item) us /\ py_has t PNone /\ existsb (py_eq PNone) us = true /\ ~ reaches py_world py_env (Reached (Some py_int)) PNone.
Proof.
  cbv zeta. split; [vm_compute; reflexivity|]. exists [PNone]. split; [apply Forall_cons; [exact Logic.I|apply Forall_nil]|].
  split; [apply Exists_cons_tl, Exists_cons_hd; reflexivity|]. split; [reflexivity|]. intros H. exact H.
Qed.

(** ** [type(x) is C] *)
Definition class_of_py (v : pv) : N :=
  match v with PNone => 20 | PEllipsis => 11 | PBool _ => 2 | PInt _ _ => 1 | PMyInt _ _ => 8 | PFloat _ _ => 9 | PStr _ _ => 3 | PMember e _ => 15 + e | PObject c _ => c end.
Notation py_type_of := (narrow_type_of python py_accepts (fun c => c =? 13) same).

(** [x: F | str] with [@final class F] and [type(x) is F]: the premises of [C60_type_of] *)
Example C60_type_of_premises : forall v, let t := Union [Class 13 []; py_str] in py_has t v ->
  branch_allows py_world py_env (if class_of_py v =? 13 then Some (Class 13 []) else Some py_str) v.
Proof.
  intros v t H. apply (C60_type_of py_world py_env python py_accepts (fun c => c =? 13) same (fun v => class_of_py v =? 13) t (Class 13 [])); [|vm_compute; reflexivity|exact H].
  constructor.
  - intros u E. apply N.eqb_eq in E. destruct u as [| | | | | | |e m|c id]; try discriminate E.
    + assert (X : 15 + e = 13) by exact E. lia.
    + cbn in E. subst c. exact Logic.I.
  - intros E. vm_compute in E. discriminate E.
  - intros d gs Ed Fd u x Hu S Hx. apply same_eq in S as ->. apply N.eqb_eq. cbn in Hx. destruct x; try contradiction. cbn. repeat (match type of Hx with context [match ?q with _ => _ end] => destruct q; try contradiction; try reflexivity end).
Qed.

(** [type(x) is int] for a literal, a NewType of int and a type variable: unreachable, though this is their class. *)
Definition type_wrong (t : type) (c : N) : Prop := exists truthy falsey, py_type_of t (Class c []) = Some (truthy, falsey) /\
  exists v, py_has t v /\ ~ branch_allows py_world py_env (if class_of_py v =? c then truthy else falsey) v.
Theorem C60_type_of_refuted : type_wrong (Literal o1) 1 /\ type_wrong (NewType 0) 1 /\ type_wrong (TypeVar 1) 1.
Proof.
  split; [|split]; do 2 eexists; (split; [vm_compute; reflexivity|]); exists (PInt 1 0); (split; [|intros H; exact H]).
  - reflexivity.
  - exists 1, 0. reflexivity.
  - exact Logic.I.
Qed.

Print Assumptions C60_sound.
Print Assumptions C60_is.
Print Assumptions C60_covers.
Print Assumptions C60_within.
Print Assumptions C60_exhausted.
Print Assumptions C60_left.
Print Assumptions C60_in_tuple.
Print Assumptions C60_in_tuple_within.
Print Assumptions C60_in_container.
Print Assumptions C60_type_of.
Print Assumptions C60_bool_refuted.
