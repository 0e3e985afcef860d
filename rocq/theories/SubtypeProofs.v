(** Proofs about [SubtypeModel] *)
From Coq Require Import List NArith Bool Lia.
From Verif Require Import TupleModel TupleSpec SubtypeModel SubtypeSpec.
Import ListNotations.
Open Scope N_scope.

(** ** Lists *)
Lemma Forall_map_id : forall {A} (f : A -> Prop) l, Forall (fun s : Prop => s) (map f l) <-> Forall f l.
Proof.
  intros A f l. induction l as [|x l IH]; cbn [map]; split; intros H; try constructor; inversion H; subst; try assumption; apply IH; assumption.
Qed.

Lemma Forall2_same_nth : forall {A B} (R : A -> B -> Prop) l m, length l = length m ->
  (forall i a b, nth_error l i = Some a -> nth_error m i = Some b -> R a b) -> Forall2 R l m.
Proof.
  intros A B R l. induction l as [|x l IH]; intros [|y m] H N; try discriminate H; constructor.
  - exact (N O x y eq_refl eq_refl).
  - apply IH; [injection H as H; exact H|]. intros i a b Ha Hb. exact (N (S i) a b Ha Hb).
Qed.

Lemma Forall2_at : forall {A B} (R : A -> B -> Prop) l m i a b, Forall2 R l m -> nth_error l i = Some a -> nth_error m i = Some b -> R a b.
Proof.
  intros A B R l m i a b H. revert i. induction H as [|x y l m Hxy H IH]; intros i Ha Hb; destruct i as [|i]; cbn in Ha, Hb; try discriminate Ha.
  - injection Ha as <-. injection Hb as <-. exact Hxy.
  - exact (IH i Ha Hb).
Qed.

Lemma Forall_of_map : forall {A} (f : A -> Prop) l, Forall (fun s : Prop => s) (map f l) -> Forall f l.
Proof. intros A f l. apply Forall_map_id. Qed.

Lemma map_of_Forall : forall {A} (f : A -> Prop) l, Forall f l -> Forall (fun s : Prop => s) (map f l).
Proof. intros A f l. apply Forall_map_id. Qed.

(** ** Induction over nested types *)
Section Induction.
Variable P : type -> Prop.
Hypothesis H_any : P Any.
Hypothesis H_none : P NoneType.
Hypothesis H_never : P Never.
Hypothesis H_class : forall c gs, Forall P gs -> P (Class c gs).
Hypothesis H_dataclass : forall c gs, Forall P gs -> P (Dataclass c gs).
Hypothesis H_literal : forall l, P (Literal l).
Hypothesis H_text : P LiteralString.
Hypothesis H_fixed : forall ts, Forall P ts -> P (Tuple (FixedLen ts)).
Hypothesis H_arbitrary : forall t, P t -> P (Tuple (ArbitraryLen t)).
Hypothesis H_unpack : forall b n a, Forall P b -> Forall P a -> P (Tuple (WithUnpack (mk_unpack b (TypeVarTuple n) a))).
Hypothesis H_many : forall b t a, Forall P b -> P t -> Forall P a -> P (Tuple (WithUnpack (mk_unpack b (Many t) a))).
Hypothesis H_union : forall ts, Forall P ts -> P (Union ts).
Hypothesis H_intersection : forall ts, Forall P ts -> P (Intersection ts).
Hypothesis H_enum : forall e, P (Enum e).
Hypothesis H_member : forall e m, P (EnumMember e m).
Hypothesis H_newtype : forall n, P (NewType n).
Hypothesis H_var : forall n, P (TypeVar n).
Hypothesis H_typeof : forall t, P t -> P (TypeOf t).

Fixpoint type_induction (t : type) : P t :=
  let list_ := fix list_ (l : list type) : Forall P l :=
    match l with [] => Forall_nil P | x :: l => Forall_cons x (type_induction x) (list_ l) end in
  match t with
  | Any => H_any
  | NoneType => H_none
  | Never => H_never
  | Class c gs => H_class c gs (list_ gs)
  | Dataclass c gs => H_dataclass c gs (list_ gs)
  | Literal l => H_literal l
  | LiteralString => H_text
  | Tuple (FixedLen ts) => H_fixed ts (list_ ts)
  | Tuple (ArbitraryLen t) => H_arbitrary t (type_induction t)
  | Tuple (WithUnpack (mk_unpack b (TypeVarTuple n) a)) => H_unpack b n a (list_ b) (list_ a)
  | Tuple (WithUnpack (mk_unpack b (Many t) a)) => H_many b t a (list_ b) (type_induction t) (list_ a)
  | Union ts => H_union ts (list_ ts)
  | Intersection ts => H_intersection ts (list_ ts)
  | Enum e => H_enum e
  | EnumMember e m => H_member e m
  | NewType n => H_newtype n
  | TypeVar n => H_var n
  | TypeOf t => H_typeof t (type_induction t)
  end.
End Induction.

(** ** Sets of values *)
Section Sets.
Context {V : Type}.
Variable w : world V.
Definition within (s r : V -> Prop) : Prop := forall x, s x -> r x.

Lemma items_within : forall (l m : list (V -> Prop)) vs, Forall2 within l m ->
  Forall2 (fun (s : V -> Prop) x => s x) l vs -> Forall2 (fun (s : V -> Prop) x => s x) m vs.
Proof.
  intros l m vs H. revert vs. induction H as [|s r l m Hs H IH]; intros vs Hv; inversion Hv; subst; constructor; auto.
Qed.

Definition same_sets (l m : list (V -> Prop)) : Prop := Forall2 (fun s r => forall x, s x <-> r x) l m.

Lemma same_within : forall l m, same_sets l m -> Forall2 within l m.
Proof. intros l m H. induction H; constructor; [|assumption]. intros v. apply H. Qed.

Lemma same_sets_sym : forall l m, same_sets l m -> same_sets m l.
Proof. intros l m H. induction H; constructor; [|assumption]. intros v. symmetry. apply H. Qed.

Lemma fixed_within : forall l m v, Forall2 within l m -> tuple_of w (FixedLen l) v -> tuple_of w (FixedLen m) v.
Proof. intros l m v H [vs [Hv Hs]]. exists vs. split; [exact Hv|]. exact (items_within l m vs H Hs). Qed.

Lemma arbitrary_within : forall s r v, within s r -> tuple_of w (ArbitraryLen s) v -> tuple_of w (ArbitraryLen r) v.
Proof. intros s r v H [vs [Hv Hs]]. exists vs. split; [exact Hv|]. exact (Forall_impl _ H Hs). Qed.

Lemma unpack_within : forall b b' u u' a a' v, Forall2 within b b' -> Forall2 within a a' ->
  (forall vs, in_middle (fun (s : V -> Prop) x => s x) (stands_for w) u vs -> in_middle (fun (s : V -> Prop) x => s x) (stands_for w) u' vs) ->
  tuple_of w (WithUnpack (mk_unpack b u a)) v -> tuple_of w (WithUnpack (mk_unpack b' u' a')) v.
Proof.
  intros b b' u u' a a' v Hb Ha Hu [vs [Hv [x [y [z [E [Hx [Hy Hz]]]]]]]]. exists vs. split; [exact Hv|]. exists x, y, z.
  split; [exact E|]. split; [exact (items_within b b' x Hb Hx)|]. split; [exact (Hu y Hy)|exact (items_within a a' z Ha Hz)].
Qed.

Lemma has_union : forall env ts v, has w env (Union ts) v <-> exists t, In t ts /\ has w env t v.
Proof.
  intros env ts v. cbn. rewrite Exists_exists. split.
  - intros [s [Hs Hv]]. apply in_map_iff in Hs. destruct Hs as [t [<- Ht]]. exists t. auto.
  - intros [t [Ht Hv]]. exists (has w env t). split; [apply in_map; exact Ht|exact Hv].
Qed.

Lemma has_intersection : forall env ts v, has w env (Intersection ts) v <-> forall t, In t ts -> has w env t v.
Proof.
  intros env ts v. cbn. rewrite Forall_forall. split.
  - intros H t Ht. apply (H (has w env t)). apply in_map. exact Ht.
  - intros H s Hs. apply in_map_iff in Hs. destruct Hs as [t [<- Ht]]. exact (H t Ht).
Qed.
End Sets.

(** ** Types put in the place of the type variables of a class *)
Section Substitution.
Context {V : Type}.
Variables (p : program) (w : world V).
Hypothesis arguments_law : forall c s r v, length s = length (variances p c) -> length r = length (variances p c) ->
  (forall i u a b, nth_error (variances p c) i = Some u -> nth_error s i = Some a -> nth_error r i = Some b -> related u a b) ->
  instance w c s v -> instance w c r v.

Lemma instance_same : forall c l m v, length l = length (variances p c) -> same_sets l m -> instance w c l v <-> instance w c m v.
Proof.
  intros c l m v Hl H. assert (Hm : length m = length (variances p c)) by (rewrite <- Hl; clear Hl; induction H; cbn; congruence).
  split; apply arguments_law; try assumption; intros i u a b _ Ha Hb.
  - assert (E := Forall2_at _ _ _ _ _ _ H Ha Hb). destruct u; intros x; apply E || exact (E x).
  - assert (E := Forall2_at _ _ _ _ _ _ H Hb Ha). destruct u; intros x; try apply E. symmetry. apply E.
Qed.

Definition substituted (env : N -> V -> Prop) (gs : list type) (t : type) : Prop :=
  forall v, has w env (substitute gs t) v <-> has w (arguments (map (has w env) gs)) t v.

Lemma same_substituted : forall env gs ts, Forall (substituted env gs) ts ->
  same_sets (map (has w env) (map (substitute gs) ts)) (map (has w (arguments (map (has w env) gs))) ts).
Proof. intros env gs ts H. induction H as [|t ts Ht H IH]; cbn; constructor; assumption. Qed.

Lemma Forall_mp : forall {A} (P Q : A -> Prop) l, Forall (fun x => P x -> Q x) l -> Forall P l -> Forall Q l.
Proof. intros A P Q l H. induction H as [|x l Hx H IH]; intros HP; [constructor|]. inversion HP; subst. constructor; auto. Qed.

Lemma has_substitute_fine : forall env gs k t, fine p k t -> substituted env gs t.
Proof.
  intros env gs k t. induction t using type_induction; intros Hf v; cbn [substitute]; try (cbn; tauto).
  - cbn [fine] in Hf. destruct Hf as [Hl [_ [_ [_ [_ [_ Hf]]]]]]. apply Forall_of_map in Hf. cbn [has].
    apply instance_same; [rewrite !map_length; exact Hl|]. apply same_substituted. exact (Forall_mp _ _ _ H Hf).
  - cbn [fine] in Hf. destruct Hf as [Hl [_ Hf]]. apply Forall_of_map in Hf. cbn [has].
    apply instance_same; [rewrite !map_length; exact Hl|]. apply same_substituted. exact (Forall_mp _ _ _ H Hf).
  - cbn [fine] in Hf. apply Forall_of_map in Hf. assert (E := same_substituted env gs ts (Forall_mp _ _ _ H Hf)). cbn [has].
    split; apply fixed_within, same_within; [exact E|apply same_sets_sym; exact E].
  - cbn [fine] in Hf. cbn [has]. split; apply arbitrary_within; intros x; apply (IHt Hf).
  - cbn [fine] in Hf. destruct Hf as [Hb Ha]. apply Forall_of_map in Hb. apply Forall_of_map in Ha. cbn [has].
    assert (Eb := same_substituted env gs b (Forall_mp _ _ _ H Hb)). assert (Ea := same_substituted env gs a (Forall_mp _ _ _ H0 Ha)).
    split; apply unpack_within; try (apply same_within); auto using same_sets_sym.
  - destruct Hf.
  - cbn [fine] in Hf. destruct Hf as [_ [_ [_ Hf]]]. apply Forall_of_map in Hf. rewrite !has_union. assert (E := Forall_mp _ _ _ H Hf).
    rewrite Forall_forall in E. split.
    + intros [s [Hs Hv]]. apply in_map_iff in Hs. destruct Hs as [t [<- Ht]]. exists t. split; [exact Ht|apply (E t Ht); exact Hv].
    + intros [t [Ht Hv]]. exists (substitute gs t). split; [apply in_map; exact Ht|apply (E t Ht); exact Hv].
  - cbn [fine] in Hf. destruct Hf as [_ Hf]. apply Forall_of_map in Hf. rewrite !has_intersection. assert (E := Forall_mp _ _ _ H Hf).
    rewrite Forall_forall in E. split.
    + intros Hv t Ht. apply (E t Ht). apply Hv. apply in_map. exact Ht.
    + intros Hv s Hs. apply in_map_iff in Hs. destruct Hs as [t [<- Ht]]. apply (E t Ht). exact (Hv t Ht).
  - cbn [has]. unfold arguments. change (fun _ : V => True) with (has w env Any). rewrite map_nth. reflexivity.
  - cbn [fine] in Hf. destruct Hf as [_ Hf]. cbn [has]. split; intros [x [Hx Hv]]; exists x; (split; [exact Hx|]); apply (IHt Hf); exact Hv.
Qed.

Lemma has_substitute : forall env gs k t, fine_value p k t -> substituted env gs t.
Proof.
  intros env gs k t Hf. destruct t; try exact (has_substitute_fine env gs k _ Hf); [|intros v; reflexivity]. destruct Hf as [Hl [_ Hf]]. intros v. cbn [substitute has].
  apply instance_same; [rewrite !map_length; exact Hl|]. apply same_substituted. apply Forall_of_map in Hf.
  eapply Forall_impl; [|exact Hf]. intros t. apply has_substitute_fine.
Qed.

Lemma typable_substitute : forall gs k t, typable p (Some k) t -> typable p None (substitute gs t).
Proof.
  intros gs k t. induction t using type_induction; intros Hf; cbn [substitute]; try exact I; [|destruct Hf].
  cbn [typable] in *. apply Forall_of_map in Hf. apply map_of_Forall. apply Forall_map. exact (Forall_mp _ _ _ H Hf).
Qed.

Lemma bools_substitute : forall gs ts, Forall (fun t => ~ is_type_var t) ts -> distinct_bools ts -> distinct_bools (map (substitute gs) ts).
Proof.
  intros gs ts Hn Hd Hc.
  assert (F : forall t, ~ is_type_var t -> forall b, substitute gs t = Literal (LBool b) <-> t = Literal (LBool b)).
  { intros t Ht b. destruct t as [| | |? ?|? ?|l| |a|? |? |? |? ?|? |n|?]; cbn [substitute]; try (split; intros E; discriminate E); try tauto.
    - destruct a as [ts'|t'|[b' [n|t'] a']]; split; intros E; discriminate E.
    - destruct (Ht I). }
  assert (E : length (filter (fun t => match t with Literal (LBool _) => true | _ => false end) (map (substitute gs) ts)) =
              length (filter (fun t => match t with Literal (LBool _) => true | _ => false end) ts)).
  { clear Hd Hc. induction Hn as [|t ts Ht Hn IH]; [reflexivity|]. cbn [map filter].
    destruct t as [| | |? ?|? ?|l| |a|? |? |? |? ?|? |n|?]; cbn [substitute]; try exact IH.
    - destruct l; cbn [length]; try exact IH. f_equal. exact IH.
    - destruct a as [ts'|t'|[b' [n|t'] a']]; exact IH.
    - destruct (Ht I). }
  rewrite E in Hc. destruct (Hd Hc) as [H1 H2]. split.
  - change (Literal (LBool true)) with (substitute gs (Literal (LBool true))). apply in_map. exact H1.
  - change (Literal (LBool false)) with (substitute gs (Literal (LBool false))). apply in_map. exact H2.
Qed.

Lemma fine_substitute : forall gs t, Forall (fine p None) gs -> fine p (Some (length gs)) t -> fine p None (substitute gs t).
Proof.
  intros gs t Hg. assert (G : forall ts, Forall (fun t => fine p (Some (length gs)) t -> fine p None (substitute gs t)) ts ->
    Forall (fun s => s) (map (fine p (Some (length gs))) ts) -> Forall (fun s => s) (map (fine p None) (map (substitute gs) ts))).
  { intros ts H Hf. apply Forall_of_map in Hf. apply map_of_Forall. apply Forall_map. exact (Forall_mp _ _ _ H Hf). }
  induction t using type_induction; intros Hf; cbn [substitute]; try exact I; try (destruct Hf; fail).
  - cbn [fine] in *. destruct Hf as [Hl [H1 [H2 [H3 [H4 [H5 Hf]]]]]]. rewrite map_length.
    exact (conj Hl (conj H1 (conj H2 (conj H3 (conj H4 (conj H5 (G gs0 H Hf))))))).
  - cbn [fine] in *. destruct Hf as [Hl [H1 Hf]]. rewrite map_length. exact (conj Hl (conj H1 (G gs0 H Hf))).
  - cbn [fine] in *. exact (G ts H Hf).
  - cbn [fine] in *. exact (IHt Hf).
  - cbn [fine] in *. destruct Hf as [Hb Ha]. exact (conj (G b H Hb) (G a H0 Ha)).
  - cbn [fine] in *. destruct Hf as [Hn [Hd [Hv Hf]]]. assert (Hv' := Hv ltac:(discriminate)).
    split; [destruct ts; [destruct (Hn eq_refl)|discriminate]|]. split; [exact (bools_substitute gs ts Hv' Hd)|].
    split; [intros E; destruct (E eq_refl)|exact (G ts H Hf)].
  - cbn [fine] in *. destruct Hf as [Hn Hf]. split; [destruct ts; [destruct (Hn eq_refl)|discriminate]|exact (G ts H Hf)].
  - cbn [fine] in Hf. rewrite Forall_forall in Hg. apply Hg. apply nth_In. exact Hf.
  - cbn [fine] in *. destruct Hf as [Ht Hf]. split; [exact (typable_substitute gs _ t Ht)|exact (IHt Hf)].
Qed.

Lemma fine_is_value : forall k t, fine p k t -> fine_value p k t.
Proof. intros k t H. destruct t; try exact H; [|exact I]. destruct H as [Hl [Hi [_ [_ [_ [_ H]]]]]]. exact (conj Hl (conj Hi H)). Qed.

Lemma fine_value_substitute : forall gs t, Forall (fine p None) gs -> fine_value p (Some (length gs)) t -> fine_value p None (substitute gs t).
Proof.
  intros gs t Hg Hf. destruct t; try (apply fine_is_value; exact (fine_substitute gs _ Hg Hf)); [|exact I]. destruct Hf as [Hl [Hi Hf]].
  cbn [substitute fine_value]. rewrite map_length. split; [exact Hl|]. split; [exact Hi|]. apply Forall_of_map in Hf. apply map_of_Forall.
  apply Forall_map. eapply Forall_impl; [|exact Hf]. intros t. apply fine_substitute. exact Hg.
Qed.
End Substitution.
