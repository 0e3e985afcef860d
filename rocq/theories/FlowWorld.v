(** A small world of types in which flow analysis can be run: unions of [int], [str], [None] and of a class [C] whose instances are all true,
    and [Any]. *)
From Coq Require Import List NArith ZArith Bool Lia.
From Verif Require Import FlowModel FlowSpec.
Import ListNotations.

Inductive base := BInt | BStr | BNone | BObj.
Definition base_eqb (a b : base) : bool := match a, b with BInt, BInt | BStr, BStr | BNone, BNone | BObj, BObj => true | _, _ => false end.
Definition mem (b : base) (l : list base) : bool := existsb (base_eqb b) l.

Inductive ty := TAny | TUnion (l : list base).
Inductive val := VInt (truth : bool) | VStr (truth : bool) | VNone | VObj.

Definition class_of (v : val) : base := match v with VInt _ => BInt | VStr _ => BStr | VNone => BNone | VObj => BObj end.
Definition truth (v : val) : bool := match v with VInt b | VStr b => b | VNone => false | VObj => true end.
Definition hasb (t : ty) (v : val) : bool := match t with TAny => true | TUnion l => mem (class_of v) l end.
Definition has (t : ty) (v : val) : Prop := hasb t v = true.

Definition join (a b : ty) : ty :=
  match a, b with TUnion l, TUnion m => TUnion (l ++ filter (fun x => negb (mem x l)) m) | _, _ => TAny end.
Definition meet (a b : ty) : option ty :=
  match a, b with
  | TAny, t | t, TAny => Some t
  | TUnion l, TUnion m => match filter (fun x => mem x m) l with [] => None | r => Some (TUnion r) end
  end.

Inductive tst := Truthy | IsNone | IsInt.
Definition passes (g : tst) (v : val) : bool :=
  match g with Truthy => truth v | IsNone => base_eqb BNone (class_of v) | IsInt => base_eqb BInt (class_of v) end.

Definition only (b : base) (l : list base) : list base := filter (base_eqb b) l.
Definition without (b : base) (l : list base) : list base := filter (fun x => negb (base_eqb b x)) l.
Definition split_type (g : tst) (t : ty) : option (ty * ty) :=
  match t, g with
  | TAny, Truthy => None
  | TAny, IsNone => Some (TUnion [BNone], TAny)
  | TAny, IsInt => Some (TUnion [BInt], TAny)
  | TUnion l, Truthy => if mem BNone l || mem BObj l then Some (TUnion (without BNone l), TUnion (without BObj l)) else None
  | TUnion l, IsNone => Some (TUnion (only BNone l), TUnion (without BNone l))
  | TUnion l, IsInt => Some (TUnion (only BInt l), TUnion (without BInt l))
  end.

Definition is_never (t : ty) : bool := match t with TUnion [] => true | _ => false end.
Definition is_any (t : ty) : bool := match t with TAny => true | _ => false end.
Definition none_in (t : ty) : bool := match t with TUnion l => mem BNone l | TAny => false end.
Definition no_none (t : ty) : ty := match t with TUnion l => TUnion (without BNone l) | TAny => TAny end.

Definition int := TUnion [BInt].
Definition str := TUnion [BStr].
Definition none := TUnion [BNone].
Definition obj := TUnion [BObj].
Definition int_or_str := TUnion [BInt; BStr].
Definition int_or_none := TUnion [BInt; BNone].
Definition obj_or_none := TUnion [BObj; BNone].
Definition int_str_none := TUnion [BInt; BStr; BNone].

(** ** What is asked of types holds here *)
Lemma mem_app : forall b l m, mem b (l ++ m) = mem b l || mem b m.
Proof. intros b l m. apply existsb_app. Qed.

Lemma base_eqb_eq : forall a b, base_eqb a b = true <-> a = b.
Proof. intros [] []; split; intros H; congruence || reflexivity || discriminate. Qed.

Lemma mem_filter : forall b p l, mem b (filter p l) = mem b l && p b.
Proof.
  intros b p l. induction l as [|x l IH]; [reflexivity|]. cbn [filter mem existsb]. unfold mem in IH.
  destruct (p x) eqn:P; cbn [existsb]; rewrite IH; destruct (base_eqb b x) eqn:E; cbn [orb andb]; try reflexivity.
  - apply base_eqb_eq in E. subst x. now rewrite P.
  - apply base_eqb_eq in E. subst x. rewrite P. now rewrite andb_false_r.
Qed.

Lemma join_has : forall t1 t2 v, has t1 v \/ has t2 v -> has (join t1 t2) v.
Proof.
  intros [|l] [|m] v H; try reflexivity. unfold has in *. cbn [join hasb] in *. rewrite mem_app, mem_filter. destruct (mem (class_of v) l); [reflexivity|].
  destruct H as [H|H]; [discriminate|now rewrite H].
Qed.

Lemma meet_has : forall t1 t2 t v, meet t1 t2 = Some t -> has t1 v -> has t2 v -> has t v.
Proof.
  intros [|l] [|m] t v E H1 H2; cbn [meet] in E; try (injection E as <-; assumption).
  unfold has in *. cbn [hasb] in *. pose proof (mem_filter (class_of v) (fun x => mem x m) l) as F. cbv beta in F. rewrite H1, H2 in F.
  destruct (filter (fun x => mem x m) l) as [|x r]; [discriminate|]. injection E as <-. exact F.
Qed.

Lemma meet_none : forall t1 t2 v, meet t1 t2 = None -> has t1 v -> ~ has t2 v.
Proof.
  intros [|l] [|m] v E H1 H2; cbn [meet] in E; try discriminate.
  unfold has in *. cbn [hasb] in *. pose proof (mem_filter (class_of v) (fun x => mem x m) l) as F. cbv beta in F. rewrite H1, H2 in F.
  destruct (filter (fun x => mem x m) l) as [|x r]; [|discriminate]. cbn [mem existsb] in F. discriminate.
Qed.

Lemma never_has : forall t v, is_never t = true -> ~ has t v.
Proof. intros [|[|x l]] v H1 H2; discriminate. Qed.

Lemma split_has : forall g t a b v, split_type g t = Some (a, b) -> has t v -> has (if passes g v then a else b) v.
Proof.
  intros g [|l] a b v E H; unfold has in *; cbn [hasb split_type] in *.
  - destruct g; [discriminate| |]; injection E as <- <-; destruct v; reflexivity.
  - destruct g; cbn [passes].
    + destruct (mem BNone l || mem BObj l); [|discriminate]. injection E as <- <-.
      destruct v as [[]|[]| |]; cbn [truth hasb class_of] in *; unfold without; now rewrite mem_filter, H.
    + injection E as <- <-. destruct v; cbn [base_eqb class_of hasb] in *; unfold only, without; now rewrite mem_filter, H.
    + injection E as <- <-. destruct v; cbn [base_eqb class_of hasb] in *; unfold only, without; now rewrite mem_filter, H.
Qed.

Lemma any_has : forall t t' v, is_any t = true -> has (join t' t) v.
Proof. intros [|l] [|m] v H; try discriminate; reflexivity. Qed.

(** ** Running it; every key is declared as [t] *)
Definition analysis (t : ty) (params : list N) (body : stmt ty tst) : list (N * report ty) :=
  function ty tst TAny (TUnion []) is_never is_any is_any none_in (fun _ => true) no_none (fun t => t) join join meet split_type Truthy
    (fun _ => t) (fun _ => false) params body.

Definition execution (t : ty) : stmt ty tst -> store val -> list (N * val) -> outcome -> store val -> Prop :=
  runs ty tst val Truthy (fun _ => t) has passes.

(** There is an execution that shows that something the user was told is wrong *)
Definition misleading (t : ty) (params : list N) (body : stmt ty tst) : Prop :=
  exists s ev o s', well_typed ty val (fun _ => t) has s /\ execution t body s ev o s' /\ ~ right ty val has (analysis t params body) ev.

Definition shown (reports : list (N * report ty)) (seen : N * val) : bool :=
  existsb (fun r => (fst r =? fst seen)%N && match snd r with Revealed _ t => hasb t (snd seen) | ReadingDeleted _ => false end) reports.

Lemma right_shown : forall reports ev, right ty val has reports ev -> forallb (shown reports) ev = true.
Proof.
  intros reports ev H. apply forallb_forall. intros [l v] Hi. destruct (H l v Hi) as [t [E1 E2]]. unfold shown. apply existsb_exists.
  exists (l, Revealed _ t). split; [exact E1|]. cbn [fst snd]. now rewrite N.eqb_refl.
Qed.

(** ** Stores for examples *)
Definition set (s : store val) (k : key) (v : option val) : store val := fun k' => if equals k' k then v else s k'.
Definition all (v : val) : store val := fun _ => Some v.

Lemma equals_same : forall k, equals k k = true.
Proof.
  induction k as [n|k IH n|k IH i]; cbn [equals].
  - apply N.eqb_refl.
  - now rewrite IH, N.eqb_refl.
  - rewrite IH. destruct i as [i|i]; cbn [index_eqb andb]; [apply Z.eqb_refl|apply N.eqb_refl].
Qed.

Lemma equals_true : forall a b, equals a b = true -> a = b.
Proof.
  induction a as [n|k IH n|k IH i]; intros [m|l m|l j] H; cbn [equals] in H; try discriminate.
  - now apply N.eqb_eq in H as ->.
  - apply andb_prop in H as [H1 H2]. apply IH in H1 as ->. now apply N.eqb_eq in H2 as ->.
  - apply andb_prop in H as [H1 H2]. apply IH in H1 as ->. destruct i as [i|i], j as [j|j]; cbn [index_eqb] in H2; try discriminate.
    + now apply Z.eqb_eq in H2 as ->.
    + now apply N.eqb_eq in H2 as ->.
Qed.

Definition fit (t : ty) (v : option val) : bool := match v with Some v => hasb t v | None => true end.

(** Stores that are changed at a few places only *)
Inductive simple (t : ty) : store val -> Prop :=
| simple_all v : hasb t v = true -> simple t (all v)
| simple_set s k v : fit t v = true -> simple t s -> simple t (set s k v).

Lemma simple_typed : forall t s, simple t s -> well_typed ty val (fun _ => t) has s.
Proof.
  intros t s H. induction H as [v Hv|s k v Hv H IH]; intros k' w E.
  - injection E as <-. exact Hv.
  - unfold set in E. destruct (equals k' k); [|now apply (IH k')]. subst v. exact Hv.
Qed.

Lemma updated_set : forall t s k v, simple t s -> fit t v = true -> updated ty val (fun _ => t) has s k v (set s k v).
Proof.
  intros t s k v H Hv. split; [unfold set; now rewrite equals_same|]. split.
  - intros k' Hk _. unfold set. destruct (equals k' k) eqn:E; [|reflexivity]. apply equals_true in E. contradiction.
  - apply simple_typed. now constructor.
Qed.
