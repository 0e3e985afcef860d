(** C67: the types that are inferred for the type variables of a call. *)
From Coq Require Import List NArith Bool Lia PeanoNat.
From Verif Require Import SolveModel SolveSpec Solve SolveCall SolveInstance.
Import ListNotations.
Local Open Scope nat_scope.

Section Theorems.
Variable T : Type.
Variables le same eq : T -> T -> bool.
Variables base sub : T -> T -> option T.
Variable inst : N -> list T -> T.
Variable union : list T -> T.
Variable variances : N -> list variance.
Variables as_instance_of instance_of : T -> N -> option (list T).
Variable members : T -> list T.
Variable kinds : nat -> kind T.
Hypothesis O : order T le same eq.
Hypothesis J : joins T le base sub.
Hypothesis C : classes T le inst union variances as_instance_of instance_of members.

Notation match_call := (match_call T le same eq base sub variances as_instance_of instance_of members kinds).
Notation merge := (merge T le same eq base sub).
Notation result s i := (into_generic_item T (s i)).

(** If two bounds can be merged, everything within the new bound is within both; otherwise the type
    variable is marked. *)
Theorem C67_merge a other : wf T le (type_ a) -> wf T le other ->
  let r := merge a other in
  wf T le (type_ (snd r)) /\
  (forall t, sat T le (type_ (snd r)) t -> sat T le (type_ a) t) /\
  (fst r = true -> forall t, sat T le (type_ (snd r)) t -> sat T le other t) /\
  uninferrable (snd r) = uninferrable a || negb (fst r).
Proof.
  intros W Wo. destruct (merge_any T le same eq base sub O J a other W Wo) as (A & B & D). cbv zeta in *.
  split; [exact A|]. split; [exact B|]. split; [exact D|]. clear.
  unfold SolveModel.merge. destruct (bound_eq T eq (type_ a) other); [symmetry; apply orb_false_r|].
  destruct (type_ a) as [f | k | k | u l | k]; [destruct (calculated T other || _)|..];
    destruct other as [g | k2 | k2 | u2 l2 | k2]; cbn [fst snd uninferrable negb]; rewrite ?orb_false_r; reflexivity.
Qed.

(** Nothing within both is lost. *)
Theorem C67_merge_all a other t : complete_joins T le base sub ->
  wf T le (type_ a) -> wf T le other -> sat T le (type_ a) t -> sat T le other t ->
  fst (merge a other) = true /\ sat T le (type_ (snd (merge a other))) t.
Proof. intros CJ. apply (merge_any_complete T le same eq base sub O J CJ). Qed.

(** An accepted call: with the types that were inferred, all arguments are right for their
    parameters. *)
Theorem C67_call never params s :
  Forall (fun p => well_formed T variances (fst p)) params ->
  match_call params (start T) = (true, s) -> (forall i, result s i <> Any) ->
  solves T le inst union params
    (fun i => match result s i with Inferred t => t | _ => never end).
Proof.
  apply (call_right T le same eq base sub inst union variances as_instance_of instance_of members kinds O J C never).
Qed.

(** Without unions and turned around classes, no type variable becomes [Any]. *)
Theorem C67_any params s i :
  Forall (fun p => plain T variances Covariant (fst p)) params ->
  match_call params (start T) = (true, s) -> result s i <> Any.
Proof. intros F E. apply (call_not_any T le same eq base sub variances as_instance_of instance_of members kinds params s F E). Qed.

(** The type is below the declared bound, or one of the constraints. *)
Theorem C67_kind params s i t :
  Forall (fun p => plain T variances Covariant (fst p)) params ->
  match_call params (start T) = (true, s) -> result s i = Inferred t ->
  match kinds i with
  | Unrestricted => True
  | Bound_ b => le t b = true
  | Constraints cs => In t cs
  end.
Proof. apply (call_kind T le same eq base sub variances as_instance_of instance_of members kinds O J). Qed.

Section Free.
Hypothesis CJ : complete_joins T le base sub.
Hypothesis CC : complete_classes T le inst variances as_instance_of instance_of members.
Hypothesis free : forall i, kinds i = Unrestricted.
Variable params : list (formal T * T).
Hypothesis P : Forall (fun p => plain T variances Covariant (fst p) /\ well_formed T variances (fst p)) params.

(** A call is accepted exactly if there are types for the type variables. *)
Theorem C67_accepts (never : T) :
  fst (match_call params (start T)) = true <-> exists sigma, solves T le inst union params sigma.
Proof.
  apply (call_accepts T le same eq base sub inst union variances as_instance_of instance_of members kinds O J C CJ CC free
    params never P).
Qed.

(** The inferred type is the least one, if a value bounds it from below. *)
Theorem C67_least s sigma i :
  match_call params (start T) = (true, s) -> solves T le inst union params sigma ->
  (exists p, In p params /\ bounds_below T variances i Covariant (fst p)) ->
  exists t, result s i = Inferred t /\ le t (sigma i) = true.
Proof.
  apply (call_least T le same eq base sub inst union variances as_instance_of instance_of members kinds O J C CJ CC free
    params s sigma i P).
Qed.

(** It is the greatest one if it is only bounded from above. *)
Theorem C67_greatest s sigma i :
  match_call params (start T) = (true, s) -> solves T le inst union params sigma ->
  (exists p, In p params /\ used T i (fst p)) ->
  (forall p, In p params -> ~ bounds_below T variances i Covariant (fst p)) ->
  exists t, result s i = Inferred t /\ le (sigma i) t = true.
Proof.
  apply (call_greatest T le same eq base sub inst union variances as_instance_of instance_of members kinds O J C CJ CC free
    params s sigma i P).
Qed.

(** Neither the order of the arguments nor repeating one matters. *)
Theorem C67_order (never : T) params' : incl params params' -> incl params' params ->
  fst (match_call params (start T)) = fst (match_call params' (start T)) /\
  (fst (match_call params (start T)) = true -> forall i,
     match result (snd (match_call params (start T))) i, result (snd (match_call params' (start T))) i with
     | Inferred t, Inferred u => le t u = true /\ le u t = true
     | Never, Never => True
     | _, _ => False
     end).
Proof.
  intros I1 I2.
  pose proof (call_order T le same eq base sub inst union variances as_instance_of instance_of members kinds O J C CJ CC free
    params params' never P I1 I2) as [A B].
  split; [exact A|]. intros E i. specialize (B E i).
  assert (Forall (fun p => plain T variances Covariant (fst p)) params) as P1
    by (eapply Forall_impl; [|exact P]; intros p Hp; apply Hp).
  destruct (match_call params (start T)) as [m s] eqn:Em. cbn [fst snd] in *. rewrite E in Em. clear A E m.
  pose proof (C67_any params s i P1 Em) as N.
  destruct (result s i); [exact B | contradiction N; reflexivity | ].
  destruct (into_generic_item T (snd (match_call params' (start T)) i)); exact B.
Qed.

End Free.
End Theorems.

(** ** A concrete case *)
Definition ex_match (kinds : nat -> kind ty) :=
  match_call ty le same same join meet variances as_instance_of instance_of members kinds.
Definition ex_free (i : nat) : kind ty := Unrestricted.
Definition ex_result (kinds : nat -> kind ty) params (i : nat) : bool * result ty :=
  let r := ex_match kinds params (start ty) in (fst r, into_generic_item ty (snd r i)).

(** [def f(a: Box[T], b: T, c: Fun[T], d: Cell[U])] *)
Definition ex_params (a b c d : ty) : list (formal ty * ty) :=
  [(Class 0%N [Var 0], a); (Var 0, b); (Class 1%N [Var 0], c); (Class 2%N [Var 1], d)].

Example ex_call :
  ex_result ex_free (ex_params IntBox Num (Fun Object) (Cell Str)) 0 = (true, Inferred Num) /\
  ex_result ex_free (ex_params IntBox Num (Fun Object) (Cell Str)) 1 = (true, Inferred Str) /\
  fst (ex_result ex_free (ex_params IntBox Str (Fun Num) (Cell Str)) 0) = false /\
  ex_result ex_free [(Class 1%N [Var 0], Fun Num); (Class 1%N [Var 0], Fun Int)] 0 = (true, Inferred Int) /\
  ex_result ex_free [(Class 1%N [Class 1%N [Var 0]], Fun (Fun Int)); (Var 0, Str)] 0 = (true, Inferred Object) /\
  ex_result (fun _ => Bound_ Num) [(Var 0, Int); (Class 0%N [Var 0], IntBox)] 0 = (true, Inferred Int) /\
  ex_result (fun _ => Constraints [Str; Num]) [(Var 0, Int); (Class 0%N [Var 0], IntBox)] 0 = (true, Inferred Num).
Proof. vm_compute. tauto. Qed.

Lemma ex_params_right a b c d :
  Forall (fun p => plain ty variances Covariant (fst p) /\ well_formed ty variances (fst p)) (ex_params a b c d).
Proof.
  repeat constructor; discriminate.
Qed.

(** The theorems for this call. *)
Example ex_least sigma : solves ty le inst union (ex_params IntBox Num (Fun Object) (Cell Str)) sigma ->
  le Num (sigma 0) = true.
Proof.
  intros H.
  destruct (C67_least ty le same same join meet inst union variances as_instance_of instance_of members ex_free
    ty_order ty_joins ty_classes ty_complete_joins ty_complete_classes (fun _ => eq_refl) _
    (ex_params_right IntBox Num (Fun Object) (Cell Str))
    (snd (ex_match ex_free (ex_params IntBox Num (Fun Object) (Cell Str)) (start ty))) sigma 0 eq_refl H) as (t & E & L).
  - exists (Var 0, Num). split; [right; left; reflexivity | constructor; discriminate].
  - vm_compute in E. injection E as <-. exact L.
Qed.

Example ex_order a b c d p : incl (ex_params a b c d) p -> incl p (ex_params a b c d) ->
  fst (ex_match ex_free (ex_params a b c d) (start ty)) = fst (ex_match ex_free p (start ty)).
Proof.
  intros H1 H2.
  apply (C67_order ty le same same join meet inst union variances as_instance_of instance_of members ex_free
    ty_order ty_joins ty_classes ty_complete_joins ty_complete_classes (fun _ => eq_refl) _
    (ex_params_right a b c d) Object p H1 H2).
Qed.

(** ** What does not hold *)

(** A declared bound is asked for values that only bound the type from above as well: with
    [T: Num], [def f(x: Fun[T])] does not take a [Fun[object]], though [T = Num] is right. *)
Theorem C67_bound_refuted :
  let kinds := fun _ : nat => Bound_ Num in
  let params := [(Class 1%N [Var 0], Fun Object)] in
  solves ty le inst union params (fun _ => Num) /\ le Num Num = true /\
  fst (ex_match kinds params (start ty)) = false.
Proof.
  cbv zeta. split; [|split; reflexivity]. intros f t [[= <- <-] | []]. reflexivity.
Qed.

(** The first constraint that fits the first value is taken: the call with an [Int] and a [Num] is
    rejected, though the constraint [Num] fits both. *)
Theorem C67_constraints_refuted :
  let kinds := fun _ : nat => Constraints [Int; Num] in
  let params := [(Var 0, Int); (Var 0, Num)] in
  solves ty le inst union params (fun _ => Num) /\
  fst (ex_match kinds params (start ty)) = false.
Proof.
  cbv zeta. split; [|reflexivity]. intros f t [[= <- <-] | [[= <- <-] | []]]; reflexivity.
Qed.

(** A type variable in a union takes a value that another member of the union would have taken: with
    [def f(x: T | Str, y: Cell[T])], a [Str] and a [Cell[Num]] are rejected. *)
Theorem C67_union_refuted :
  let params := [(Union [Var 0; Closed Str], Str); (Class 2%N [Var 0], Cell Num)] in
  solves ty le inst union params (fun _ => Num) /\
  fst (ex_match ex_free params (start ty)) = false.
Proof.
  cbv zeta. split; [|reflexivity]. intros f t [[= <- <-] | [[= <- <-] | []]]; reflexivity.
Qed.

(** A value that is not below the declared bound of a type variable in a union is kept for it: with
    [T: Num] and [def f(x: T | Str)], a [Str] is accepted and the type of [T] is [Str]. *)
Theorem C67_kind_refuted :
  let kinds := fun _ : nat => Bound_ Num in
  let params := [(Union [Var 0; Closed Str], Str)] in
  ex_result kinds params 0 = (true, Inferred Str) /\ le Str Num = false.
Proof. split; reflexivity. Qed.

(** Implicit literals.  A type is a set of the integers 1, 2 and 3 and whether it is an implicit
    literal; a common base is made of the types without the literals. *)
Definition lit_le (a b : N * bool) : bool := N.eqb (N.land (fst a) (fst b)) (fst a).
Definition lit_eq (a b : N * bool) : bool := N.eqb (fst a) (fst b) && Bool.eqb (snd a) (snd b).
Definition avoid_implicit_literal (a : N * bool) : N := if snd a then 7%N else fst a.
Definition lit_base (a b : N * bool) : option (N * bool) :=
  Some (N.lor (avoid_implicit_literal a) (avoid_implicit_literal b), false).
Definition lit_sub (a b : N * bool) : option (N * bool) := Some (N.land (fst a) (fst b), false).
Definition lit_add := match_or_add (N * bool) lit_le (fun a b => lit_le a b && lit_le b a) lit_eq lit_base lit_sub Unrestricted.

(** [f(callback, 1, 1)], where the callback takes [Literal[1, 2]], is accepted with [int], which the
    callback does not take. *)
Theorem C67_literal_refuted :
  let r1 := lit_add (mk_arg (Uncalculated None) false) (3%N, false) Contravariant in
  let r2 := lit_add (snd r1) (1%N, true) Covariant in
  let r3 := lit_add (snd r2) (1%N, true) Covariant in
  fst r1 = true /\ fst r2 = true /\ fst r3 = true /\
  into_generic_item _ (snd r3) = Inferred (7%N, false) /\ lit_le (7%N, false) (3%N, false) = false.
Proof. repeat split; reflexivity. Qed.

(** [f(callback, 1, 2)] is rejected. *)
Theorem C67_literals_refuted :
  let r1 := lit_add (mk_arg (Uncalculated None) false) (3%N, false) Contravariant in
  let r2 := lit_add (snd r1) (1%N, true) Covariant in
  let r3 := lit_add (snd r2) (2%N, true) Covariant in
  lit_le (1%N, true) (3%N, false) = true /\ lit_le (2%N, true) (3%N, false) = true /\
  fst r1 && fst r2 && fst r3 = false.
Proof. repeat split; reflexivity. Qed.

Print Assumptions C67_merge.
Print Assumptions C67_merge_all.
Print Assumptions C67_call.
Print Assumptions C67_any.
Print Assumptions C67_kind.
Print Assumptions C67_accepts.
Print Assumptions C67_least.
Print Assumptions C67_greatest.
Print Assumptions C67_order.
Print Assumptions C67_bound_refuted.
Print Assumptions C67_constraints_refuted.
Print Assumptions C67_union_refuted.
Print Assumptions C67_kind_refuted.
Print Assumptions C67_literal_refuted.
Print Assumptions C67_literals_refuted.
