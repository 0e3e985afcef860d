(** The equality of types against [same]. *)
From Coq Require Import List Arith Bool Permutation Lia.
From Verif Require Import EqualModel EqualSpec.
Import ListNotations.

(** ** Induction over types and their parts *)
Section Ind.
Variable P : ty -> Prop.
Variable Pg : garg -> Prop.
Variable Pt : targs -> Prop.
Variable Pu : unpack_ -> Prop.
Variable Pc : cparams -> Prop.
Variable Pp : param -> Prop.
Variable Pk : ptype -> Prop.
Variable Pm : member -> Prop.
Variable Pd : guard_ -> Prop.
Definition of_opt {A : Type} (Q : A -> Prop) (o : option A) : Prop := match o with None => True | Some x => Q x end.
Hypothesis h_class : forall l g, Forall Pg g -> P (TClass l g).
Hypothesis h_dataclass : forall l g, Forall Pg g -> P (TDataclass l g).
Hypothesis h_tuple : forall a, Pt a -> P (TTuple a).
Hypothesis h_named : forall d a, Pt a -> P (TNamedTuple d a).
Hypothesis h_dict : forall ms e, Forall Pm ms -> of_opt Pm e -> P (TTypedDict ms e).
Hypothesis h_callable : forall r p v g, P r -> Pc p -> of_opt Pd g -> P (TCallable r p v g).
Hypothesis h_type : forall t, P t -> P (TType t).
Hypothesis h_form : forall t, P t -> P (TTypeForm t).
Hypothesis h_literal : forall v i f, P (TLiteral v i f).
Hypothesis h_string : forall i, P (TLiteralString i).
Hypothesis h_any : forall c, P (TAny c).
Hypothesis h_never : forall c, P (TNever c).
Hypothesis h_union : forall l, Forall P l -> P (TUnion l).
Hypothesis h_inter : forall l, Forall P l -> P (TIntersection l).
Hypothesis h_member : forall d i, P (TEnumMember d i).
Hypothesis h_other : forall w, P (TOther w).
Hypothesis h_targ : forall t, P t -> Pg (TypeArg t).
Hypothesis h_targs : forall a, Pt a -> Pg (TypeArgs a).
Hypothesis h_spec : forall v p, Pc p -> Pg (ParamSpecArg v p).
Hypothesis h_unpack : forall b u a, Forall P b -> Pu u -> Forall P a -> Pt (WithUnpack b u a).
Hypothesis h_fixed : forall l, Forall P l -> Pt (FixedLen l).
Hypothesis h_len : forall t, P t -> Pt (ArbitraryLen t).
Hypothesis h_utvt : forall u, Pu (UTypeVarTuple u).
Hypothesis h_ulen : forall t, P t -> Pu (UArbitraryLen t).
Hypothesis h_simple : forall l, Forall Pp l -> Pc (Simple l).
Hypothesis h_anyp : forall c, Pc (AnyParams c).
Hypothesis h_param : forall d n k, Pk k -> Pp (Param d n k).
Hypothesis h_pos : forall t, P t -> Pk (PositionalOnly t).
Hypothesis h_pok : forall t, P t -> Pk (PositionalOrKeyword t).
Hypothesis h_kw : forall t, P t -> Pk (KeywordOnly t).
Hypothesis h_star : forall t, P t -> Pk (StarArbitraryLen t).
Hypothesis h_starps : forall u, Pk (StarParamSpecArgs u).
Hypothesis h_startup : forall a, Pt a -> Pk (StarUnpackedTuple a).
Hypothesis h_ss : forall t, P t -> Pk (StarStarValueType t).
Hypothesis h_ssps : forall u, Pk (StarStarParamSpecKwargs u).
Hypothesis h_sstd : forall ms e, Forall Pm ms -> of_opt Pm e -> Pk (StarStarUnpackTypedDict ms e).
Hypothesis h_mem : forall n r o t, P t -> Pm (Member n r o t).
Hypothesis h_guard : forall i t, P t -> Pd (Guard i t).

Definition all {A : Type} (Q : A -> Prop) (f : forall x, Q x) : forall l, Forall Q l :=
  fix go l := match l with [] => Forall_nil Q | x :: r => Forall_cons x (f x) (go r) end.
Definition opt {A : Type} (Q : A -> Prop) (f : forall x, Q x) (o : option A) : of_opt Q o := match o with None => I | Some x => f x end.

Fixpoint ty_all (t : ty) : P t :=
  match t with
  | TClass l g => h_class l g (all Pg garg_all g)
  | TDataclass l g => h_dataclass l g (all Pg garg_all g)
  | TTuple a => h_tuple a (targs_all a)
  | TNamedTuple d a => h_named d a (targs_all a)
  | TTypedDict ms e => h_dict ms e (all Pm member_all ms) (opt Pm member_all e)
  | TCallable r p v g => h_callable r p v g (ty_all r) (cparams_all p) (opt Pd guard_all g)
  | TType t => h_type t (ty_all t)
  | TTypeForm t => h_form t (ty_all t)
  | TLiteral v i f => h_literal v i f
  | TLiteralString i => h_string i
  | TAny c => h_any c
  | TNever c => h_never c
  | TUnion l => h_union l (all P ty_all l)
  | TIntersection l => h_inter l (all P ty_all l)
  | TEnumMember d i => h_member d i
  | TOther w => h_other w
  end
with garg_all (g : garg) : Pg g :=
  match g with TypeArg t => h_targ t (ty_all t) | TypeArgs a => h_targs a (targs_all a) | ParamSpecArg v p => h_spec v p (cparams_all p) end
with targs_all (a : targs) : Pt a :=
  match a with
  | WithUnpack b u a => h_unpack b u a (all P ty_all b) (unpack_all u) (all P ty_all a)
  | FixedLen l => h_fixed l (all P ty_all l)
  | ArbitraryLen t => h_len t (ty_all t)
  end
with unpack_all (u : unpack_) : Pu u := match u with UTypeVarTuple u => h_utvt u | UArbitraryLen t => h_ulen t (ty_all t) end
with cparams_all (p : cparams) : Pc p := match p with Simple l => h_simple l (all Pp param_all l) | AnyParams c => h_anyp c end
with param_all (p : param) : Pp p := match p with Param d n k => h_param d n k (ptype_all k) end
with ptype_all (k : ptype) : Pk k :=
  match k with
  | PositionalOnly t => h_pos t (ty_all t)
  | PositionalOrKeyword t => h_pok t (ty_all t)
  | KeywordOnly t => h_kw t (ty_all t)
  | StarArbitraryLen t => h_star t (ty_all t)
  | StarParamSpecArgs u => h_starps u
  | StarUnpackedTuple a => h_startup a (targs_all a)
  | StarStarValueType t => h_ss t (ty_all t)
  | StarStarParamSpecKwargs u => h_ssps u
  | StarStarUnpackTypedDict ms e => h_sstd ms e (all Pm member_all ms) (opt Pm member_all e)
  end
with member_all (x : member) : Pm x := match x with Member n r o t => h_mem n r o t (ty_all t) end
with guard_all (g : guard_) : Pd g := match g with Guard i t => h_guard i t (ty_all t) end.

Theorem mut_all : (forall t, P t) /\ (forall g, Pg g) /\ (forall a, Pt a) /\ (forall u, Pu u) /\ (forall p, Pc p) /\ (forall p, Pp p) /\ (forall k, Pk k) /\ (forall m, Pm m) /\ (forall g, Pd g).
Proof. exact (conj ty_all (conj garg_all (conj targs_all (conj unpack_all (conj cparams_all (conj param_all (conj ptype_all (conj member_all guard_all)))))))). Qed.
End Ind.

(** ** Lists *)
Lemma Forall2_refl {A} (R : A -> A -> Prop) l : Forall (fun x => R x x) l -> Forall2 R l l.
Proof. induction 1; constructor; assumption. Qed.
Lemma Forall2_sym {A} (R : A -> A -> Prop) l l' : Forall (fun x => forall y, R x y -> R y x) l -> Forall2 R l l' -> Forall2 R l' l.
Proof. intros F H. induction H; [constructor|]. inversion F as [|? ? F1 F2]; subst. constructor; [apply F1; assumption|apply IHForall2; assumption]. Qed.
Lemma Forall2_trans {A} (R : A -> A -> Prop) l1 : forall l2 l3, Forall (fun x => forall y z, R x y -> R y z -> R x z) l1 -> Forall2 R l1 l2 -> Forall2 R l2 l3 -> Forall2 R l1 l3.
Proof.
  induction l1 as [|x l1 IH]; intros l2 l3 F H1 H2.
  - inversion H1; subst. inversion H2; subst. constructor.
  - inversion H1 as [|? y ? r2 A1 A2]; subst. inversion H2 as [|? z ? r3 B1 B2]; subst. inversion F as [|? ? F1 F2]; subst.
    constructor; [exact (F1 _ _ A1 B1)|exact (IH _ _ F2 A2 B2)].
Qed.
Lemma Forall2_perm_left {A B} (R : A -> B -> Prop) l1 l1' : Permutation l1 l1' -> forall l2, Forall2 R l1 l2 -> exists l2', Permutation l2 l2' /\ Forall2 R l1' l2'.
Proof.
  induction 1 as [|x l l' Hp IH|x y l|l l' l'' H1 IH1 H2 IH2]; intros l2 H.
  - exists l2. split; [apply Permutation_refl|exact H].
  - inversion H as [|? b ? r A1 A2]; subst. destruct (IH _ A2) as (r' & P1 & F1). exists (b :: r'). split; [constructor; exact P1|constructor; assumption].
  - inversion H as [|? b ? r A1 A2]; subst. inversion A2 as [|? c ? r' B1 B2]; subst. exists (c :: b :: r'). split; [apply perm_swap|constructor; [exact B1|constructor; assumption]].
  - destruct (IH1 _ H) as (m & P1 & F1). destruct (IH2 _ F1) as (m' & P2 & F2). exists m'. split; [exact (Permutation_trans P1 P2)|exact F2].
Qed.
Lemma Forall2_length {A B} (R : A -> B -> Prop) l1 l2 : Forall2 R l1 l2 -> length l1 = length l2.
Proof. induction 1; cbn; congruence. Qed.
Lemma Forall2_flip {A B} (R : A -> B -> Prop) l1 l2 : Forall2 R l1 l2 -> Forall2 (fun b a => R a b) l2 l1.
Proof. induction 1; constructor; assumption. Qed.
Lemma Forall2_impl_left {A B} (R S : A -> B -> Prop) l1 l2 : Forall (fun x => forall y, R x y -> S x y) l1 -> Forall2 R l1 l2 -> Forall2 S l1 l2.
Proof. intros F H. induction H; [constructor|]. inversion F; subst. constructor; auto. Qed.

(** ** [same] is an equivalence relation *)
Lemma same_refl_all : (forall t, same t t) /\ (forall g, same_arg g g) /\ (forall a, same_tuple_args a a) /\ (forall u, same_unpack u u) /\ (forall p, same_params p p) /\ (forall p, same_param p p) /\ (forall k n, same_ptype n n k k) /\ (forall m, same_member m m) /\ (forall g, same_guard (Some g) (Some g)).
Proof.
  apply mut_all; intros; try (constructor; (assumption || (apply Forall2_refl; assumption) || apply Permutation_refl || auto)).
  - destruct e as [e|]; [|constructor]. destruct e. cbn in H0. inversion H0; subst. constructor. assumption.
  - destruct g as [g|]; [|constructor]. exact H1.
  - apply (same_union _ _ l); [apply Permutation_refl|apply Forall2_refl; assumption].
  - apply (same_intersection _ _ l); [apply Permutation_refl|apply Forall2_refl; assumption].
  - destruct e as [e|]; [|constructor]. destruct e. cbn in H0. inversion H0; subst. constructor. assumption.
Qed.
Lemma same_refl t : same t t.
Proof. apply same_refl_all. Qed.

Definition symm {A} (R : A -> A -> Prop) (x : A) : Prop := forall y, R x y -> R y x.
Lemma extra_symm e e' : of_opt (symm same_member) e -> same_extra e e' -> same_extra e' e.
Proof.
  intros F H. destruct H as [|n1 n2 r1 r2 o t1 t2 H]; [constructor|]. cbn in F.
  specialize (F (Member n1 r1 o t2) (same_member_of n1 r1 o t1 t2 H)). inversion F; subst. constructor. assumption.
Qed.
Lemma same_sym_all : (forall t, symm same t) /\ (forall g, symm same_arg g) /\ (forall a, symm same_tuple_args a) /\ (forall u, symm same_unpack u) /\ (forall p, symm same_params p) /\ (forall p, symm same_param p) /\ (forall k n1 n2 k', same_ptype n1 n2 k k' -> same_ptype n2 n1 k' k) /\ (forall m, symm same_member m) /\ (forall g g', same_guard (Some g) g' -> same_guard g' (Some g)).
Proof.
  apply mut_all; intros;
    try (intros y Hy; inversion Hy; subst; constructor; (assumption || (eapply Forall2_sym; eassumption) || auto; fail));
    try (match goal with H : same_ptype _ _ _ _ |- _ => inversion H; subst; constructor; (assumption || auto; fail) end).
  - intros y Hy. inversion Hy as [| | | |m1 m2 e1 e2 Hm He| | | | | | | | | | |]; subst. constructor; [eapply Forall2_sym; eassumption|apply extra_symm; assumption].
  - intros y Hy. inversion Hy as [| | | | |r1 r2 p1 p2 v' g1 g2 Hr Hp Hg| | | | | | | | | |]; subst. constructor; [apply H; assumption|apply H0; assumption|].
    destruct g as [g|]; [apply H1; exact Hg|inversion Hg; subst; constructor].
  - intros y Hy. inversion Hy as [| | | | | | | | | | | |l1 l2 l' Hp Hf| | |]; subst.
    assert (F : Forall2 same l' l) by (eapply Forall2_sym; eassumption).
    destruct (Forall2_perm_left _ _ _ (Permutation_sym Hp) _ F) as (m & P1 & F1).
    apply (same_union _ _ m); assumption.
  - intros y Hy. inversion Hy as [| | | | | | | | | | | | |l1 l2 l' Hp Hf| |]; subst.
    assert (F : Forall2 same l' l) by (eapply Forall2_sym; eassumption).
    destruct (Forall2_perm_left _ _ _ (Permutation_sym Hp) _ F) as (m & P1 & F1).
    apply (same_intersection _ _ m); assumption.
  - inversion H1; subst. constructor; [eapply Forall2_sym; eassumption|apply extra_symm; assumption].
  - inversion H0; subst. constructor. apply H. assumption.
Qed.
Lemma same_sym a b : same a b -> same b a.
Proof. apply same_sym_all. Qed.

Definition trans {A} (R : A -> A -> Prop) (x : A) : Prop := forall y z, R x y -> R y z -> R x z.
Lemma extra_trans e e' e'' : of_opt (trans same_member) e -> same_extra e e' -> same_extra e' e'' -> same_extra e e''.
Proof.
  intros F H H'. destruct H as [|n1 n2 r1 r2 o t1 t2 H]; [inversion H'; subst; constructor|]. inversion H' as [|? n3 ? r3 ? ? t3 H3]; subst. cbn in F.
  specialize (F (Member n1 r1 o t2) (Member n1 r1 o t3) (same_member_of n1 r1 o t1 t2 H) (same_member_of n1 r1 o t2 t3 H3)). inversion F; subst. constructor. assumption.
Qed.
Lemma same_trans_all : (forall t, trans same t) /\ (forall g, trans same_arg g) /\ (forall a, trans same_tuple_args a) /\ (forall u, trans same_unpack u) /\ (forall p, trans same_params p) /\ (forall p, trans same_param p) /\
  (forall k n1 n2 n3 k' k'', same_ptype n1 n2 k k' -> same_ptype n2 n3 k' k'' -> same_ptype n1 n3 k k'') /\ (forall m, trans same_member m) /\ (forall g g' g'', same_guard (Some g) g' -> same_guard g' g'' -> same_guard (Some g) g'').
Proof.
  apply mut_all; intros;
    try (intros y z Hy Hz; inversion Hy; subst; inversion Hz; subst; constructor; (assumption || (eapply Forall2_trans; eassumption) || eauto; fail));
    try (match goal with H : same_ptype _ ?n _ _, H' : same_ptype ?n _ _ _ |- _ => inversion H; subst; inversion H'; subst; constructor; (assumption || eauto; fail) end).
  - intros y z Hy Hz. inversion Hy as [| | | |m1 m2 e1 e2 Hm He| | | | | | | | | | |]; subst. inversion Hz as [| | | |m1' m3 e1' e3 Hm' He'| | | | | | | | | | |]; subst.
    constructor; [eapply Forall2_trans; eassumption|eapply extra_trans; eassumption].
  - intros y z Hy Hz. inversion Hy as [| | | | |r1 r2 p1 p2 v' g1 g2 Hr Hp Hg| | | | | | | | | |]; subst. inversion Hz as [| | | | |r1' r3 p1' p3 v'' g1' g3 Hr' Hp' Hg'| | | | | | | | | |]; subst.
    constructor; [eapply H; eassumption|eapply H0; eassumption|].
    destruct g as [g|]; [eapply H1; eassumption|inversion Hg; subst; inversion Hg'; subst; constructor].
  - intros y z Hy Hz. inversion Hy as [| | | | | | | | | | | |l1 l2 l' Hp Hf| | |]; subst. inversion Hz as [| | | | | | | | | | | |l1' l3 l'' Hp' Hf'| | |]; subst.
    destruct (Forall2_perm_left _ _ _ Hp _ Hf') as (m & P1 & F1). apply (same_union _ _ m); [exact (Permutation_trans Hp' P1)|eapply Forall2_trans; eassumption].
  - intros y z Hy Hz. inversion Hy as [| | | | | | | | | | | | |l1 l2 l' Hp Hf| |]; subst. inversion Hz as [| | | | | | | | | | | | |l1' l3 l'' Hp' Hf'| |]; subst.
    destruct (Forall2_perm_left _ _ _ Hp _ Hf') as (m & P1 & F1). apply (same_intersection _ _ m); [exact (Permutation_trans Hp' P1)|eapply Forall2_trans; eassumption].
  - inversion H1; subst. inversion H2; subst. constructor; [eapply Forall2_trans; eassumption|eapply extra_trans; eassumption].
  - inversion H0; subst. inversion H1; subst. constructor. eapply H; eassumption.
Qed.
Lemma same_trans a b c : same a b -> same b c -> same a c.
Proof. apply same_trans_all. Qed.

(** ** The loops *)
Lemma zip_all_Forall2 {A} (f : A -> A -> bool) l1 : forall l2, length l1 = length l2 -> (zip_all f l1 l2 = true <-> Forall2 (fun x y => f x y = true) l1 l2).
Proof.
  induction l1 as [|x l1 IH]; intros [|y l2] E; try discriminate E; cbn; [split; constructor|].
  injection E as E. rewrite andb_true_iff, (IH _ E). split.
  - intros [A1 A2]. constructor; assumption.
  - intros H. inversion H; subst. split; assumption.
Qed.

Lemma remove_first_some {A} (p : A -> bool) l : forall r, remove_first p l = Some r -> exists x, p x = true /\ Permutation l (x :: r).
Proof.
  induction l as [|y l IH]; cbn; intros r H; [discriminate|]. destruct (p y) eqn:E.
  - injection H as <-. exists y. split; [exact E|apply Permutation_refl].
  - destruct (remove_first p l) as [r'|] eqn:E'; [|discriminate]. injection H as <-. destruct (IH _ eq_refl) as (x & Hx & Hp). exists x. split; [exact Hx|].
    apply (Permutation_trans (perm_skip y Hp)). apply perm_swap.
Qed.
Lemma remove_first_none {A} (p : A -> bool) l : remove_first p l = None -> forall x, In x l -> p x = false.
Proof.
  induction l as [|y l IH]; cbn; intros H x; [contradiction|]. destruct (p y) eqn:E; [discriminate|].
  destruct (remove_first p l); [discriminate|]. intros [<-|Hx]; [exact E|exact (IH eq_refl _ Hx)].
Qed.

Lemma match_up_sound {A} (f : A -> A -> bool) l1 : forall l2, match_up f l1 l2 = true -> exists l, Permutation l2 l /\ Forall2 (fun x y => f x y = true) l1 l.
Proof.
  induction l1 as [|x l1 IH]; cbn; intros l2 H.
  - destruct l2; [|discriminate]. exists []. split; constructor.
  - destruct (remove_first (f x) l2) as [r|] eqn:E; [|discriminate]. destruct (remove_first_some _ _ _ E) as (y & Hy & Hp).
    destruct (IH _ H) as (l & Hp' & Hf). exists (y :: l). split; [exact (Permutation_trans Hp (perm_skip y Hp'))|constructor; assumption].
Qed.

Lemma match_up_complete {A} (f : A -> A -> bool) l1 : forall l2 l,
  (forall x w y z, In x l1 -> In w l1 -> In y l2 -> In z l2 -> f x y = true -> f x z = true -> f w z = true -> f w y = true) ->
  Permutation l2 l -> Forall2 (fun x y => f x y = true) l1 l -> match_up f l1 l2 = true.
Proof.
  induction l1 as [|x l1 IH]; cbn; intros l2 l Rect Hp Hf.
  - inversion Hf; subst. apply Permutation_sym, Permutation_nil in Hp. subst. reflexivity.
  - inversion Hf as [|? y ? l' Hy Hr]; subst.
    assert (Iy : In y l2) by (apply (Permutation_in _ (Permutation_sym Hp)); left; reflexivity).
    destruct (remove_first (f x) l2) as [r|] eqn:E; [|rewrite (remove_first_none _ _ E y Iy) in Hy; discriminate].
    destruct (remove_first_some _ _ _ E) as (z & Hz & Hpz).
    assert (Iz : In z l2) by (apply (Permutation_in _ (Permutation_sym Hpz)); left; reflexivity).
    assert (Sub : forall a, In a r -> In a l2) by (intros a Ha; apply (Permutation_in _ (Permutation_sym Hpz)); right; exact Ha).
    assert (R' : forall x w y z, In x l1 -> In w l1 -> In y r -> In z r -> f x y = true -> f x z = true -> f w z = true -> f w y = true)
      by (intros; apply (Rect x0 w y0 z0); auto).
    assert (Pzy : Permutation (z :: r) (y :: l')) by (exact (Permutation_trans (Permutation_sym Hpz) Hp)).
    assert (Iz' : In z (y :: l')) by (apply (Permutation_in _ Pzy); left; reflexivity).
    destruct Iz' as [<-|Iz'].
    + apply (IH _ l' R'); [exact (Permutation_cons_inv Pzy)|exact Hr].
    + destruct (in_split _ _ Iz') as (a & b & ->).
      apply (IH _ (a ++ y :: b) R').
      * apply (Permutation_cons_inv (a := z)). apply (Permutation_trans Pzy).
        apply (Permutation_trans (perm_skip y (Permutation_sym (Permutation_middle a b z)))).
        apply (Permutation_trans (perm_swap _ _ _)). apply perm_skip. apply Permutation_middle.
      * apply Forall2_app_inv_r in Hr. destruct Hr as (l1a & l1b & Ha & Hb & ->). apply Forall2_app; [exact Ha|].
        inversion Hb as [|w ? l1b' ? Hw Hb']; subst. constructor; [|exact Hb'].
        apply (Rect x w y z); auto. right. apply in_or_app. right. left. reflexivity.
Qed.

(** ** The equality is right about uniform types *)
Section Right.
Variable n m : nat.
Variable arity : nat -> nat.
Notation eq := (is_equal_type false false).
Notation U := (uniform n m arity).
Notation Ug := (uniform_arg n m arity).
Notation Ut := (uniform_tuple n m arity).
Notation Uc := (uniform_params n m arity).
Notation Up := (uniform_param n m arity).
Notation Uk := (uniform_ptype n m arity).
Notation Um := (uniform_member n m arity).
Notation Ud := (uniform_guard n m arity).
Definition right {A} (u : A -> bool) (f : A -> A -> bool) (R : A -> A -> Prop) (x : A) : Prop := forall y, u x = true -> u y = true -> (f x y = true <-> R x y).

Lemma right_list {A} (u : A -> bool) f R l1 : Forall (right u f R) l1 -> forall l2, forallb u l1 = true -> forallb u l2 = true -> (Forall2 (fun x y => f x y = true) l1 l2 <-> Forall2 R l1 l2).
Proof.
  induction 1 as [|x l1 Hx Hl IH]; intros [|y l2] U1 U2; cbn in U1, U2; try (split; intros H'; inversion H'; fail).
  - split; constructor.
  - apply andb_true_iff in U1. apply andb_true_iff in U2. destruct U1 as [Ux U1], U2 as [Uy U2]. split; intros H'; inversion H'; subst; constructor;
      solve [apply (Hx y Ux Uy); assumption|apply (IH l2 U1 U2); assumption].
Qed.
Lemma right_zip {A} (u : A -> bool) f R l1 l2 : Forall (right u f R) l1 -> length l1 = length l2 -> forallb u l1 = true -> forallb u l2 = true -> (zip_all f l1 l2 = true <-> Forall2 R l1 l2).
Proof. intros F E U1 U2. rewrite (zip_all_Forall2 f l1 l2 E). apply (right_list u); assumption. Qed.

Lemma right_union l1 l2 : Forall (right U eq same) l1 -> forallb U l1 = true -> forallb U l2 = true ->
  (is_equal_union_or_intersection eq l1 l2 = true <-> exists l, Permutation l2 l /\ Forall2 same l1 l).
Proof.
  intros F U1 U2. unfold is_equal_union_or_intersection.
  assert (Uperm : forall l, Permutation l2 l -> forallb U l = true).
  { intros l Hp. apply forallb_forall. intros x Hx. rewrite forallb_forall in U2. apply U2. exact (Permutation_in _ (Permutation_sym Hp) Hx). }
  split.
  - intros H. apply andb_true_iff in H. destruct H as [_ H]. destruct (match_up_sound _ _ _ H) as (l & Hp & Hf). exists l. split; [exact Hp|].
    apply (right_list U _ _ _ F _ U1 (Uperm _ Hp)). exact Hf.
  - intros (l & Hp & Hf). apply andb_true_iff. split; [apply Nat.eqb_eq; rewrite (Forall2_length _ _ _ Hf); symmetry; exact (Permutation_length Hp)|].
    apply (match_up_complete _ _ _ l); [|exact Hp|apply (right_list U _ _ _ F _ U1 (Uperm _ Hp)); exact Hf].
    intros x w y z Ix Iw Iy Iz. rewrite Forall_forall in F. rewrite forallb_forall in U1, U2.
    rewrite (F x Ix y (U1 _ Ix) (U2 _ Iy)), (F x Ix z (U1 _ Ix) (U2 _ Iz)), (F w Iw z (U1 _ Iw) (U2 _ Iz)), (F w Iw y (U1 _ Iw) (U2 _ Iy)).
    intros A1 A2 A3. exact (same_trans _ _ _ A3 (same_trans _ _ _ (same_sym _ _ A2) A1)).
Qed.

Lemma right_extra e1 e2 : of_opt (right Um (member_eq false false) same_member) e1 ->
  match e1 with None => true | Some e => Um e end = true -> match e2 with None => true | Some e => Um e end = true ->
  (both (extra_eq false false) e1 e2 = true <-> same_extra e1 e2).
Proof.
  destruct e1 as [[n1 r1 o1 t1]|], e2 as [[n2 r2 o2 t2]|]; cbn; intros F U1 U2; try (split; [discriminate|intros H; inversion H]); [|split; [constructor|reflexivity]].
  specialize (F (Member n1 r1 o1 t2) U1 U2). cbn in F. rewrite Nat.eqb_refl, !eqb_reflx in F. cbn in F.
  rewrite andb_true_iff, F, eqb_true_iff. split.
  - intros [H ->]. inversion H; subst. constructor. assumption.
  - intros H. inversion H; subst. split; [constructor; assumption|reflexivity].
Qed.

Ltac bools := repeat match goal with
  | H : _ && _ = true |- _ => apply andb_true_iff in H; destruct H
  | H : (_ =? _) = true |- _ => apply Nat.eqb_eq in H
  | H : Bool.eqb _ _ = true |- _ => apply eqb_prop in H
  end.

Lemma opt_eqb_eq a b : opt_eqb a b = true <-> a = b.
Proof. destruct a, b; cbn; rewrite ?Nat.eqb_eq; split; congruence. Qed.

Lemma eq_class l1 g1 l2 g2 : eq (TClass l1 g1) (TClass l2 g2) = (l1 =? l2) && zip_all (generic_eq false false) g1 g2.
Proof. reflexivity. Qed.
Lemma eq_dataclass l1 g1 l2 g2 : eq (TDataclass l1 g1) (TDataclass l2 g2) = (l1 =? l2) && zip_all (generic_eq false false) g1 g2.
Proof. reflexivity. Qed.
Lemma eq_tuple a1 a2 : eq (TTuple a1) (TTuple a2) = tuple_args_eq false false a1 a2.
Proof. reflexivity. Qed.
Lemma eq_dict m1 e1 m2 e2 : eq (TTypedDict m1 e1) (TTypedDict m2 e2) = (length m1 =? length m2) && zip_all (member_eq false false) m1 m2 && both (extra_eq false false) e1 e2.
Proof. reflexivity. Qed.
Lemma eq_callable r1 p1 v1 g1 r2 p2 v2 g2 : eq (TCallable r1 p1 v1 g1) (TCallable r2 p2 v2 g2) = eq r1 r2 && params_eq false false p1 p2 && (v1 =? v2) && both (guard_eq false false) g1 g2.
Proof. reflexivity. Qed.
Lemma eq_type t1 t2 : eq (TType t1) (TType t2) = eq t1 t2.
Proof. reflexivity. Qed.
Lemma eq_form t1 t2 : eq (TTypeForm t1) (TTypeForm t2) = eq t1 t2.
Proof. reflexivity. Qed.
Lemma eq_literal v1 i1 f1 v2 i2 f2 : eq (TLiteral v1 i1 f1) (TLiteral v2 i2 f2) = (v1 =? v2).
Proof. reflexivity. Qed.
Lemma eq_union l1 l2 : eq (TUnion l1) (TUnion l2) = is_equal_union_or_intersection eq l1 l2.
Proof. reflexivity. Qed.
Lemma eq_inter l1 l2 : eq (TIntersection l1) (TIntersection l2) = is_equal_union_or_intersection eq l1 l2.
Proof. reflexivity. Qed.
Lemma eq_enum d1 i1 d2 i2 : eq (TEnumMember d1 i1) (TEnumMember d2 i2) = (i1 =? i2) && (d1 =? d2).
Proof. reflexivity. Qed.
Lemma eq_other w1 w2 : eq (TOther w1) (TOther w2) = (w1 =? w2).
Proof. reflexivity. Qed.
Lemma eq_arg t1 t2 : generic_eq false false (TypeArg t1) (TypeArg t2) = eq t1 t2.
Proof. reflexivity. Qed.
Lemma eq_args t1 t2 : generic_eq false false (TypeArgs t1) (TypeArgs t2) = tuple_args_eq false false t1 t2.
Proof. reflexivity. Qed.
Lemma eq_spec v1 t1 v2 t2 : generic_eq false false (ParamSpecArg v1 t1) (ParamSpecArg v2 t2) = (v1 =? v2) && params_eq false false t1 t2.
Proof. reflexivity. Qed.
Lemma eq_fixed t1 t2 : tuple_args_eq false false (FixedLen t1) (FixedLen t2) = zip_all eq t1 t2.
Proof. reflexivity. Qed.
Lemma eq_len t1 t2 : tuple_args_eq false false (ArbitraryLen t1) (ArbitraryLen t2) = eq t1 t2.
Proof. reflexivity. Qed.
Lemma eq_simple t1 t2 : params_eq false false (Simple t1) (Simple t2) = zip_all (param_eq false false) t1 t2.
Proof. reflexivity. Qed.
Lemma eq_param d1 n1 k1 d2 n2 k2 : param_eq false false (Param d1 n1 k1) (Param d2 n2 k2) = Bool.eqb d1 d2 && ptype_eq false false n1 n2 k1 k2.
Proof. reflexivity. Qed.
Lemma eq_PositionalOnly n1 n2 t1 t2 : ptype_eq false false n1 n2 (PositionalOnly t1) (PositionalOnly t2) = eq t1 t2.
Proof. reflexivity. Qed.
Lemma eq_PositionalOrKeyword n1 n2 t1 t2 : ptype_eq false false n1 n2 (PositionalOrKeyword t1) (PositionalOrKeyword t2) = eq t1 t2 && opt_eqb n1 n2.
Proof. reflexivity. Qed.
Lemma eq_KeywordOnly n1 n2 t1 t2 : ptype_eq false false n1 n2 (KeywordOnly t1) (KeywordOnly t2) = eq t1 t2 && opt_eqb n1 n2.
Proof. reflexivity. Qed.
Lemma eq_StarArbitraryLen n1 n2 t1 t2 : ptype_eq false false n1 n2 (StarArbitraryLen t1) (StarArbitraryLen t2) = eq t1 t2.
Proof. reflexivity. Qed.
Lemma eq_StarParamSpecArgs n1 n2 t1 t2 : ptype_eq false false n1 n2 (StarParamSpecArgs t1) (StarParamSpecArgs t2) = (t1 =? t2).
Proof. reflexivity. Qed.
Lemma eq_StarUnpackedTuple n1 n2 t1 t2 : ptype_eq false false n1 n2 (StarUnpackedTuple t1) (StarUnpackedTuple t2) = tuple_args_eq false false t1 t2.
Proof. reflexivity. Qed.
Lemma eq_StarStarValueType n1 n2 t1 t2 : ptype_eq false false n1 n2 (StarStarValueType t1) (StarStarValueType t2) = eq t1 t2.
Proof. reflexivity. Qed.
Lemma eq_StarStarParamSpecKwargs n1 n2 t1 t2 : ptype_eq false false n1 n2 (StarStarParamSpecKwargs t1) (StarStarParamSpecKwargs t2) = (t1 =? t2).
Proof. reflexivity. Qed.
Lemma eq_SSTD n1 n2 m1 e1 m2 e2 : ptype_eq false false n1 n2 (StarStarUnpackTypedDict m1 e1) (StarStarUnpackTypedDict m2 e2) = (length m1 =? length m2) && zip_all (member_eq false false) m1 m2 && both (extra_eq false false) e1 e2.
Proof. reflexivity. Qed.
Lemma eq_member n1 r1 o1 t1 n2 r2 o2 t2 : member_eq false false (Member n1 r1 o1 t1) (Member n2 r2 o2 t2) = (n1 =? n2) && Bool.eqb r1 r2 && Bool.eqb o1 o2 && eq t1 t2.
Proof. reflexivity. Qed.
Lemma eq_guard i1 t1 i2 t2 : both (guard_eq false false) (Some (Guard i1 t1)) (Some (Guard i2 t2)) = i1 && i2 && eq t1 t2.
Proof. reflexivity. Qed.
Lemma u_class l g : U (TClass l g) = (length g =? arity l) && forallb Ug g.
Proof. reflexivity. Qed.
Lemma u_dataclass l g : U (TDataclass l g) = (length g =? arity l) && forallb Ug g.
Proof. reflexivity. Qed.
Lemma u_tuple a : U (TTuple a) = Ut a.
Proof. reflexivity. Qed.
Lemma u_dict ms e : U (TTypedDict ms e) = forallb Um ms && match e with None => true | Some e => Um e end.
Proof. reflexivity. Qed.
Lemma u_callable r p v g : U (TCallable r p v g) = U r && Uc p && match g with None => true | Some g => Ud g end.
Proof. reflexivity. Qed.
Lemma u_TType t : U (TType t) = U t.
Proof. reflexivity. Qed.
Lemma u_TTypeForm t : U (TTypeForm t) = U t.
Proof. reflexivity. Qed.
Lemma u_TUnion l : U (TUnion l) = forallb U l.
Proof. reflexivity. Qed.
Lemma u_TIntersection l : U (TIntersection l) = forallb U l.
Proof. reflexivity. Qed.
Lemma u_arg t : Ug (TypeArg t) = U t.
Proof. reflexivity. Qed.
Lemma u_args t : Ug (TypeArgs t) = Ut t.
Proof. reflexivity. Qed.
Lemma u_spec v t : Ug (ParamSpecArg v t) = Uc t.
Proof. reflexivity. Qed.
Lemma u_fixed l : Ut (FixedLen l) = (length l =? n) && forallb U l.
Proof. reflexivity. Qed.
Lemma u_len t : Ut (ArbitraryLen t) = U t.
Proof. reflexivity. Qed.
Lemma u_simple l : Uc (Simple l) = (length l =? m) && forallb Up l.
Proof. reflexivity. Qed.
Lemma u_param d x k : Up (Param d x k) = Uk k.
Proof. reflexivity. Qed.
Lemma u_PositionalOnly t : Uk (PositionalOnly t) = U t.
Proof. reflexivity. Qed.
Lemma u_PositionalOrKeyword t : Uk (PositionalOrKeyword t) = U t.
Proof. reflexivity. Qed.
Lemma u_KeywordOnly t : Uk (KeywordOnly t) = U t.
Proof. reflexivity. Qed.
Lemma u_StarArbitraryLen t : Uk (StarArbitraryLen t) = U t.
Proof. reflexivity. Qed.
Lemma u_StarStarValueType t : Uk (StarStarValueType t) = U t.
Proof. reflexivity. Qed.
Lemma u_StarUnpackedTuple t : Uk (StarUnpackedTuple t) = Ut t.
Proof. reflexivity. Qed.
Lemma u_SSTD ms e : Uk (StarStarUnpackTypedDict ms e) = forallb Um ms && match e with None => true | Some e => Um e end.
Proof. reflexivity. Qed.
Lemma u_member x r o t : Um (Member x r o t) = U t.
Proof. reflexivity. Qed.
Lemma u_guard i t : Ud (Guard i t) = i && U t.
Proof. reflexivity. Qed.
Hint Rewrite eq_class eq_dataclass eq_tuple eq_dict eq_callable eq_type eq_form eq_literal eq_union eq_inter eq_enum eq_other eq_arg eq_args eq_spec eq_fixed eq_len eq_simple eq_param eq_PositionalOnly eq_PositionalOrKeyword eq_KeywordOnly eq_StarArbitraryLen eq_StarParamSpecArgs eq_StarUnpackedTuple eq_StarStarValueType eq_StarStarParamSpecKwargs eq_SSTD eq_member eq_guard u_class u_dataclass u_tuple u_dict u_callable u_TType u_TTypeForm u_TUnion u_TIntersection u_arg u_args u_spec u_fixed u_len u_simple u_param u_PositionalOnly u_PositionalOrKeyword u_KeywordOnly u_StarArbitraryLen u_StarStarValueType u_StarUnpackedTuple u_SSTD u_member u_guard : equations.
Ltac eqns := autorewrite with equations in *.

Ltac other := split; [discriminate|let H := fresh in intros H; inversion H].

Lemma equal_right_all :
  (forall t, right U eq same t) /\ (forall g, right Ug (generic_eq false false) same_arg g) /\ (forall a, right Ut (tuple_args_eq false false) same_tuple_args a) /\ (forall u : unpack_, True) /\
  (forall p, right Uc (params_eq false false) same_params p) /\ (forall p, right Up (param_eq false false) same_param p) /\
  (forall k n1 n2 k', Uk k = true -> Uk k' = true -> (ptype_eq false false n1 n2 k k' = true <-> same_ptype n1 n2 k k')) /\
  (forall x, right Um (member_eq false false) same_member x) /\ (forall g g', Ud g = true -> match g' with None => true | Some g => Ud g end = true -> (both (guard_eq false false) (Some g) g' = true <-> same_guard (Some g) g')).
Proof.
  apply mut_all; intros; try exact I;
    try (match goal with |- right _ _ _ _ => intros y U1 U2 end); idtac.
  (* class *)
  - destruct y as [l2 g2| | | | | | | | | | | | | | |]; try other; eqns. eqns; bools. split.
    + intros E. bools. subst l2. constructor. apply (right_zip Ug (generic_eq false false)); try assumption. congruence.
    + intros E. inversion E; subst. rewrite Nat.eqb_refl. cbn. apply (right_zip Ug (generic_eq false false) same_arg); try assumption. congruence.
  - destruct y as [|l2 g2| | | | | | | | | | | | | |]; try other; eqns. eqns; bools. split.
    + intros E. bools. subst l2. constructor. apply (right_zip Ug (generic_eq false false)); try assumption. congruence.
    + intros E. inversion E; subst. rewrite Nat.eqb_refl. cbn. apply (right_zip Ug (generic_eq false false) same_arg); try assumption. congruence.
  - destruct y as [| |a2| | | | | | | | | | | | |]; try other; eqns. rewrite (H a2 U1 U2). split; intros E; [constructor; exact E|inversion E; assumption].
  - discriminate.
  - destruct y as [| | | |ms2 e2| | | | | | | | | | |]; try other; eqns. bools. rewrite !andb_true_iff, Nat.eqb_eq, (right_extra e e2 H0 ltac:(assumption) ltac:(assumption)). split.
    + intros [[E1 E2] E3]. constructor; [|exact E3]. apply (right_zip Um (member_eq false false)); assumption.
    + intros E. inversion E; subst. assert (El : length ms = length ms2) by (eapply Forall2_length; eassumption).
      refine (conj (conj El _) _); [apply (right_zip Um (member_eq false false) same_member); assumption|assumption].
  - destruct y as [| | | | |r2 p2 v2 g2| | | | | | | | | |]; try other; eqns. bools. rewrite !andb_true_iff, Nat.eqb_eq, (H r2), (H0 p2) by assumption.
    assert (Hg : both (guard_eq false false) g g2 = true <-> same_guard g g2).
    { destruct g as [g|]; [apply H1; assumption|]. destruct g2; cbn; [other|split; [constructor|reflexivity]]. }
    rewrite Hg. split; [intros (((A1 & A2) & ->) & A3); constructor; assumption|intros E; inversion E; subst; auto].
  - destruct y as [| | | | | |t2| | | | | | | | |]; try other; eqns. rewrite (H t2 U1 U2). split; intros E; [constructor; exact E|inversion E; assumption].
  - destruct y as [| | | | | | |t2| | | | | | | |]; try other; eqns. rewrite (H t2 U1 U2). split; intros E; [constructor; exact E|inversion E; assumption].
  - destruct y as [| | | | | | | |v2 i2 f2| | | | | | |]; try other; eqns. rewrite Nat.eqb_eq. split; [intros ->; constructor|intros E; inversion E; reflexivity].
  - destruct y as [| | | | | | | | |i2| | | | | |]; try other; eqns. split; [constructor|reflexivity].
  - destruct y as [| | | | | | | | | |c2| | | | |]; try other; eqns. split; [constructor|reflexivity].
  - destruct y as [| | | | | | | | | | |c2| | | |]; try other; eqns. split; [constructor|reflexivity].
  - destruct y as [| | | | | | | | | | | |l2| | |]; try other; eqns. rewrite (right_union l l2 H U1 U2). split.
    + intros (l' & A1 & A2). exact (same_union _ _ _ A1 A2).
    + intros E. inversion E as [| | | | | | | | | | | |? ? l' A1 A2| | |]; subst. exists l'. split; assumption.
  - destruct y as [| | | | | | | | | | | | |l2| |]; try other; eqns. rewrite (right_union l l2 H U1 U2). split.
    + intros (l' & A1 & A2). exact (same_intersection _ _ _ A1 A2).
    + intros E. inversion E as [| | | | | | | | | | | | |? ? l' A1 A2| |]; subst. exists l'. split; assumption.
  - destruct y as [| | | | | | | | | | | | | |d2 i2|]; try other; eqns. rewrite andb_true_iff, !Nat.eqb_eq. split; [intros [-> ->]; constructor|intros E; inversion E; auto].
  - destruct y as [| | | | | | | | | | | | | | |w2]; try other; eqns. rewrite Nat.eqb_eq. split; [intros ->; constructor|intros E; inversion E; auto].
  (* arguments *)
  - destruct y as [t2| |]; try other; eqns. rewrite (H t2 U1 U2). split; intros E; [constructor; exact E|inversion E; assumption].
  - destruct y as [|a2|]; try other; eqns. rewrite (H a2 U1 U2). split; intros E; [constructor; exact E|inversion E; assumption].
  - destruct y as [| |v2 p2]; try other; eqns. rewrite andb_true_iff, Nat.eqb_eq, (H p2 U1 U2). split; [intros [-> E]; constructor; exact E|intros E; inversion E; auto].
  - discriminate.
  - destruct y as [|l2|]; try other; eqns. bools. rewrite (right_zip U eq same l l2 H) by (assumption || congruence). split; intros E; [constructor; exact E|inversion E; assumption].
  - destruct y as [| |t2]; try other; eqns. rewrite (H t2 U1 U2). split; intros E; [constructor; exact E|inversion E; assumption].
  - destruct y as [l2|]; try other; eqns. bools. rewrite (right_zip Up (param_eq false false) same_param l l2 H) by (assumption || congruence). split; intros E; [constructor; exact E|inversion E; assumption].
  - destruct y as [|c2]; try other; eqns. split; [constructor|reflexivity].
  - destruct y as [d2 n2 k2]; eqns. rewrite andb_true_iff, eqb_true_iff, (H n0 n2 k2 U1 U2). split; [intros [-> E]; constructor; exact E|intros E; inversion E; auto].
  - destruct k' as [t2| | | | | | | |]; try other; eqns. rewrite (H t2 H0 H1). split; intros E; [constructor; exact E|inversion E; assumption].
  - destruct k' as [|t2| | | | | | |]; try other; eqns. rewrite andb_true_iff, opt_eqb_eq, (H t2 H0 H1). split; [intros [E ->]; constructor; exact E|intros E; inversion E; auto].
  - destruct k' as [| |t2| | | | | |]; try other; eqns. rewrite andb_true_iff, opt_eqb_eq, (H t2 H0 H1). split; [intros [E ->]; constructor; exact E|intros E; inversion E; auto].
  - destruct k' as [| | |t2| | | | |]; try other; eqns. rewrite (H t2 H0 H1). split; intros E; [constructor; exact E|inversion E; assumption].
  - destruct k' as [| | | |u2| | | |]; try other; eqns. rewrite Nat.eqb_eq. split; [intros ->; constructor|intros E; inversion E; reflexivity].
  - destruct k' as [| | | | |a2| | |]; try other; eqns. rewrite (H a2 H0 H1). split; intros E; [constructor; exact E|inversion E; assumption].
  - destruct k' as [| | | | | |t2| |]; try other; eqns. rewrite (H t2 H0 H1). split; intros E; [constructor; exact E|inversion E; assumption].
  - destruct k' as [| | | | | | |u2|]; try other; eqns. rewrite Nat.eqb_eq. split; [intros ->; constructor|intros E; inversion E; reflexivity].
  - destruct k' as [| | | | | | | |ms2 e2]; try other; eqns. bools. rewrite !andb_true_iff, Nat.eqb_eq, (right_extra e e2 H0 ltac:(assumption) ltac:(assumption)). split.
    + intros [[E1 E2] E3]. constructor; [|exact E3]. apply (right_zip Um (member_eq false false)); assumption.
    + intros E. inversion E; subst. assert (El : length ms = length ms2) by (eapply Forall2_length; eassumption).
      refine (conj (conj El _) _); [apply (right_zip Um (member_eq false false) same_member); assumption|assumption].
  - destruct y as [n2 r2 o2 t2]; eqns. rewrite !andb_true_iff, Nat.eqb_eq, !eqb_true_iff, (H t2 U1 U2). split; [intros [[[-> ->] ->] E]; constructor; exact E|intros E; inversion E; subst; auto].
  - destruct g' as [[i2 t2]|]; [|other]. eqns; bools. rewrite !andb_true_iff, (H t2) by assumption. split.
    + intros [[-> ->] E]. constructor. exact E.
    + intros E. inversion E; subst. auto.
Qed.

Theorem equal_right a b : U a = true -> U b = true -> (eq a b = true <-> same a b).
Proof. apply (proj1 equal_right_all a b). Qed.
End Right.

(** ** Every type equals itself, but for [TypeGuard]s *)
Section Refl.
Variable mypy any : bool.
Definition selfeq {A} (u : A -> bool) (f : A -> A -> bool) (x : A) : Prop := u x = true -> f x x = true.
Lemma zip_all_refl {A} (u : A -> bool) f (l : list A) : Forall (selfeq u f) l -> forallb u l = true -> zip_all f l l = true.
Proof. induction 1 as [|x l Hx Hl IH]; cbn; intros E; [reflexivity|]. apply andb_true_iff in E. destruct E as [E1 E2]. rewrite (Hx E1), (IH E2). reflexivity. Qed.
Lemma match_up_refl {A} (u : A -> bool) f (l : list A) : Forall (selfeq u f) l -> forallb u l = true -> match_up f l l = true.
Proof. induction 1 as [|x l Hx Hl IH]; cbn; intros E; [reflexivity|]. apply andb_true_iff in E. destruct E as [E1 E2]. rewrite (Hx E1). exact (IH E2). Qed.
Lemma union_refl {A} (u : A -> bool) f (l : list A) : Forall (selfeq u f) l -> forallb u l = true -> is_equal_union_or_intersection f l l = true.
Proof. intros F E. unfold is_equal_union_or_intersection. rewrite Nat.eqb_refl. exact (match_up_refl u f l F E). Qed.
Lemma extra_refl o : of_opt (selfeq guardless_member (member_eq mypy any)) o -> match o with None => true | Some e => guardless_member e end = true -> both (extra_eq mypy any) o o = true.
Proof.
  destruct o as [[n r o t]|]; intros H E; [|reflexivity]. specialize (H E).
  change ((n =? n) && Bool.eqb r r && Bool.eqb o o && is_equal_type mypy any t t = true) in H. change (is_equal_type mypy any t t && Bool.eqb o o = true).
  apply andb_true_iff in H. destruct H as [_ H]. rewrite H, eqb_reflx. reflexivity.
Qed.
Lemma opt_eqb_refl n : opt_eqb n n = true.
Proof. destruct n; cbn; [apply Nat.eqb_refl|reflexivity]. Qed.

Lemma equal_refl_all :
  (forall t, selfeq guardless (is_equal_type mypy any) t) /\ (forall g, selfeq guardless_arg (generic_eq mypy any) g) /\ (forall a, selfeq guardless_tuple (tuple_args_eq mypy any) a) /\ (forall u : unpack_, True) /\
  (forall p, selfeq guardless_params (params_eq mypy any) p) /\ (forall p, selfeq guardless_param (param_eq mypy any) p) /\
  (forall k n, guardless_ptype k = true -> ptype_eq mypy any n n k k = true) /\ (forall x, selfeq guardless_member (member_eq mypy any) x) /\ (forall g, selfeq guardless_guard (guard_eq mypy any) g).
Proof.
  apply mut_all; intros; try exact I; try (match goal with |- selfeq _ _ _ => intros E end); try reflexivity.
  - change (forallb guardless_arg g = true) in E. change ((l =? l) && zip_all (generic_eq mypy any) g g = true). rewrite Nat.eqb_refl. exact (zip_all_refl _ _ _ H E).
  - change (forallb guardless_arg g = true) in E. change ((l =? l) && zip_all (generic_eq mypy any) g g = true). rewrite Nat.eqb_refl. exact (zip_all_refl _ _ _ H E).
  - exact (H E).
  - exact (H E).
  - change (forallb guardless_member ms && match e with None => true | Some e => guardless_member e end = true) in E. apply andb_true_iff in E. destruct E as [E1 E2].
    change ((length ms =? length ms) && zip_all (member_eq mypy any) ms ms && both (extra_eq mypy any) e e = true).
    rewrite Nat.eqb_refl, (zip_all_refl _ _ _ H E1), (extra_refl e H0 E2). reflexivity.
  - change (guardless r && guardless_params p && match g with None => true | Some g => guardless_guard g end = true) in E. apply andb_true_iff in E. destruct E as [E E3]. apply andb_true_iff in E. destruct E as [E1 E2].
    change (is_equal_type mypy any r r && params_eq mypy any p p && (v =? v) && both (guard_eq mypy any) g g = true).
    rewrite (H E1), (H0 E2), Nat.eqb_refl. destruct g as [g|]; [exact (H1 E3)|reflexivity].
  - exact (H E).
  - exact (H E).
  - apply Nat.eqb_refl.
  - exact (union_refl _ _ _ H E).
  - exact (union_refl _ _ _ H E).
  - cbn. rewrite !Nat.eqb_refl. reflexivity.
  - apply Nat.eqb_refl.
  - exact (H E).
  - exact (H E).
  - change ((v =? v) && params_eq mypy any p p = true). rewrite Nat.eqb_refl. exact (H E).
  - change (forallb guardless b && forallb guardless a = true) in E. apply andb_true_iff in E. destruct E as [E1 E2].
    change (zip_all (is_equal_type mypy any) b b && zip_all (is_equal_type mypy any) a a = true). rewrite (zip_all_refl _ _ _ H E1). exact (zip_all_refl _ _ _ H1 E2).
  - exact (zip_all_refl _ _ _ H E).
  - exact (H E).
  - exact (zip_all_refl _ _ _ H E).
  - change (Bool.eqb d d && ptype_eq mypy any n n k k = true). rewrite eqb_reflx. exact (H n E).
  - exact (H H0).
  - change (is_equal_type mypy any t t && opt_eqb n n = true). rewrite (H H0). apply opt_eqb_refl.
  - change (is_equal_type mypy any t t && opt_eqb n n = true). rewrite (H H0). apply opt_eqb_refl.
  - exact (H H0).
  - apply Nat.eqb_refl.
  - exact (H H0).
  - exact (H H0).
  - apply Nat.eqb_refl.
  - change (forallb guardless_member ms && match e with None => true | Some e => guardless_member e end = true) in H1. apply andb_true_iff in H1. destruct H1 as [E1 E2].
    change ((length ms =? length ms) && zip_all (member_eq mypy any) ms ms && both (extra_eq mypy any) e e = true).
    rewrite Nat.eqb_refl, (zip_all_refl _ _ _ H E1), (extra_refl e H0 E2). reflexivity.
  - change ((n =? n) && Bool.eqb r r && Bool.eqb o o && is_equal_type mypy any t t = true). rewrite Nat.eqb_refl, !eqb_reflx. exact (H E).
  - change (i && guardless t = true) in E. apply andb_true_iff in E. destruct E as [-> E]. exact (H E).
Qed.
Theorem equal_refl t : guardless t = true -> is_equal_type mypy any t t = true.
Proof. apply equal_refl_all. Qed.
End Refl.
