(** Trees that are finished: every node starts with its first leaf and ends with its last one. *)
From Coq Require Import List Arith NArith Bool Lia.
From Verif Require Import TreeModel TreeSpec TreeProofs ParserModel ParserSpec.
Import ListNotations.

Inductive fine : tree -> Prop :=
| fine_leaf ty s l : (ty < 32768)%N -> fine (Leaf ty s l)
| fine_node ty s l c cs : (32768 <= ty)%N -> Forall fine (c :: cs) -> s = start_of c -> s + l = end_of (last (c :: cs) c) ->
    fine (Node ty s l (c :: cs)).

Lemma fine_proper : forall t, fine t -> proper t.
Proof.
  intros t. induction t as [ty s l|ty s l cs IH] using tree_ind'; intros F; inversion F; subst; constructor; auto; [discriminate|].
  rewrite Forall_forall in *. intros x X. apply IH; [exact X|]. auto.
Qed.

Definition span_of (n : node) : nat * nat := (start_index n, length_ n).
Definition spans (ns : list node) : list (nat * nat) := map span_of (filter is_leaf ns).

Lemma spans_app : forall a b, spans (a ++ b) = spans a ++ spans b.
Proof. intros a b. unfold spans. rewrite filter_app. apply map_app. Qed.

Lemma node_no_leaf : forall ty, (32768 <= ty)%N -> (ty <? 32768)%N = false.
Proof. intros ty H. apply N.ltb_ge. exact H. Qed.

Lemma spans_flatten : forall t, proper t -> forall b, spans (flatten b t) = leaves t.
Proof.
  intros t. induction t as [ty s l|ty s l cs IH] using tree_ind'; intros P b.
  - inversion P; subst. cbn. unfold spans. cbn [filter]. unfold is_leaf. cbn [type_]. rewrite (proj2 (N.ltb_lt _ _)) by assumption. reflexivity.
  - inversion P as [|ty0 s0 l0 cs0 Ty Ne Fa]; subst. rewrite flatten_node. cbn [leaves]. unfold spans. cbn [filter]. unfold is_leaf at 1. cbn [type_].
    rewrite node_no_leaf by assumption. fold (spans (flat_children cs)). clear P Ne. induction cs as [|c cs IHcs]; [reflexivity|].
    inversion IH; subst. inversion Fa; subst. cbn [flat_children flat_map]. rewrite spans_app. f_equal; auto.
Qed.

Lemma spans_children : forall cs, Forall proper cs -> spans (flat_children cs) = flat_map leaves cs.
Proof. intros cs H. induction H as [|c cs Hc Hcs IH]; [reflexivity|]. cbn [flat_children flat_map]. rewrite spans_app, spans_flatten, IH by assumption. reflexivity. Qed.
Lemma spans_init : forall cs, Forall proper cs -> spans (flat_init cs) = flat_map leaves cs.
Proof. intros cs H. induction H as [|c cs Hc Hcs IH]; [reflexivity|]. cbn [flat_init flat_map]. rewrite spans_app, spans_flatten, IH by assumption. reflexivity. Qed.

Lemma fine_first : forall t, fine t -> exists l r, leaves t = (start_of t, l) :: r.
Proof.
  intros t. induction t as [ty s l|ty s l cs IH] using tree_ind'; intros F; inversion F; subst.
  - cbn. eauto.
  - inversion IH; subst. match goal with H : Forall fine _ |- _ => inversion H; subst end.
    match goal with H : fine c -> _ |- _ => destruct H as (l1 & r1 & E); [assumption|] end.
    cbn [leaves flat_map start_of]. rewrite E. cbn. eauto.
Qed.

Lemma fine_last : forall t, fine t -> exists s l r, leaves t = r ++ [(s, l)] /\ s + l = end_of t.
Proof.
  intros t. induction t as [ty s l|ty s l cs IH] using tree_ind'; intros F; inversion F; subst.
  - exists s, l, []. cbn. auto.
  - assert (L : exists i x, c :: cs0 = i ++ [x]) by (destruct (exists_last (l := c :: cs0)) as (i & x & E); [discriminate|]; eauto).
    destruct L as (i & x & E). rewrite E in *. rewrite last_last in *.
    match goal with H : Forall fine _ |- _ => apply Forall_app in H; destruct H as [_ Fx]; inversion Fx; subst end.
    apply Forall_app in IH. destruct IH as [_ IHx]. inversion IHx; subst.
    match goal with H : fine x -> _ |- _ => destruct H as (s1 & l1 & r1 & E1 & E2); [assumption|] end.
    exists s1, l1, (flat_map leaves i ++ r1). cbn [leaves end_of]. rewrite flat_map_app. cbn [flat_map]. rewrite app_nil_r, E1, app_assoc. split; [reflexivity|lia].
Qed.

Lemma flatten_nonempty : forall b t, flatten b t <> [].
Proof. intros b t H. pose proof (flatten_length t b) as L. rewrite H in L. pose proof (size_pos t). cbn in L. lia. Qed.

Lemma fine_last_node : forall t, fine t -> forall b d, end_ (last (flatten b t) d) = end_of t.
Proof.
  intros t. induction t as [ty s l|ty s l cs IH] using tree_ind'; intros F b d; inversion F; subst.
  - reflexivity.
  - assert (L : exists i x, c :: cs0 = i ++ [x]) by (destruct (exists_last (l := c :: cs0)) as (i & x & E); [discriminate|]; eauto).
    destruct L as (i & x & E). rewrite flatten_node. rewrite E in *. rewrite last_last in *.
    match goal with H : Forall fine _ |- _ => apply Forall_app in H; destruct H as [_ Fx]; inversion Fx; subst end.
    apply Forall_app in IH. destruct IH as [_ IHx]. inversion IHx; subst.
    rewrite flat_split. cbn [flat_children]. rewrite app_nil_r. cbn [end_of].
    match goal with H : fine x -> _ |- _ => pose proof (H ltac:(assumption) true d) as E1 end.
    match goal with |- end_ (last (?h :: ?a ++ flatten true x) d) = _ => replace (last (h :: a ++ flatten true x) d) with (last (flatten true x) d) end; [lia|].
    destruct (exists_last (flatten_nonempty true x)) as (j & y & Ej). rewrite Ej. rewrite app_assoc, app_comm_cons, !last_last. reflexivity.
Qed.

(** Spans one after the other. *)
Fixpoint ordered (from : nat) (l : list (nat * nat)) : Prop :=
  match l with
  | [] => True
  | (s, n) :: r => from <= s /\ ordered (s + n) r
  end.

Lemma ordered_le : forall l a b, a <= b -> ordered b l -> ordered a l.
Proof. intros [|[s n] l] a b L H; [exact I|]. cbn in *. split; [lia|tauto]. Qed.

Lemma ordered_app : forall l a m, ordered a (l ++ m) -> ordered a l /\ ordered a m.
Proof.
  induction l as [|[s n] l IH]; intros a m H; [split; [exact I|exact H]|]. cbn in *. destruct H as [H1 H2]. apply IH in H2. destruct H2 as [H2 H3].
  repeat split; [lia|assumption|]. apply (ordered_le _ a (s + n)); [lia|assumption].
Qed.

Lemma ordered_behind : forall l a s n m, ordered a (l ++ (s, n) :: m) -> ordered (s + n) m.
Proof. induction l as [|[x y] l IH]; intros a s n m H; cbn in H; destruct H as [H1 H2]; [exact H2|]. apply (IH _ _ _ _ H2). Qed.

Lemma ordered_from : forall l a s n m, ordered a (l ++ (s, n) :: m) -> a <= s.
Proof. induction l as [|[x y] l IH]; intros a s n m H; cbn in H; destruct H as [H1 H2]; [exact H1|]. apply IH in H2. lia. Qed.

Lemma fine_start_end : forall t a, fine t -> ordered a (leaves t) -> start_of t <= end_of t.
Proof.
  intros t a F O. destruct (fine_first t F) as (l & r & E). destruct (fine_last t F) as (s1 & l1 & r1 & E1 & E2).
  rewrite E in *. destruct r1 as [|[x y] r1]; cbn in E1; injection E1 as A B.
  - subst. lia.
  - subst x y. subst r. cbn in O. destruct O as [_ O]. apply ordered_from in O. lia.
Qed.

Definition places (t : tree) : Prop := fine t -> forall lo a, ordered a (leaves t) -> lo <= start_of t -> placed lo t (end_of t).

Lemma last_cons2 : forall {A} (cs : list A) c d, last (c :: d :: cs) c = last (d :: cs) d.
Proof.
  intros A cs c d. change (last (d :: cs) c = last (d :: cs) d). revert d. induction cs as [|e cs IH]; intros d; [reflexivity|].
  change (last (e :: cs) c = last (e :: cs) d). destruct cs as [|x cs]; [reflexivity|]. clear IH.
  revert e x. induction cs as [|y cs IH]; intros e x; [reflexivity|]. cbn [last] in *. apply (IH e y).
Qed.

(** The children are in order: each starts at the end of the one before or later. *)
Lemma children_placed : forall cs c lo, Forall places (c :: cs) -> Forall fine (c :: cs) -> forall a, ordered a (leaves c ++ flat_map leaves cs) ->
  lo <= start_of c -> placed_all lo (c :: cs) (end_of (last (c :: cs) c)).
Proof.
  induction cs as [|d cs IHcs]; intros c lo IH Fa a O L.
  - inversion IH as [|x y Pc _]; subst. inversion Fa; subst. cbn [last]. cbn in O. rewrite app_nil_r in O.
    apply placed_more with (mid := end_of c); [|constructor]. apply (Pc ltac:(assumption) lo a O L).
  - inversion IH as [|x1 x2 IHc IHr]; subst. inversion Fa as [|y1 y2 Fc Fr]; subst.
    apply placed_more with (mid := end_of c).
    + apply (IHc Fc lo a); [|exact L]. apply ordered_app in O. tauto.
    + rewrite last_cons2.
      destruct (fine_last c Fc) as (s1 & l1 & r1 & E1 & E2). inversion Fr as [|z1 z2 Fd Fr']; subst. destruct (fine_first d Fd) as (l2 & r2 & E3).
      rewrite E1 in O. cbn [flat_map] in O. rewrite <- app_assoc in O. cbn [app] in O. pose proof (ordered_behind _ _ _ _ _ O) as O2.
      apply (IHcs d (end_of c) IHr Fr (s1 + l1)); [exact O2|]. rewrite E3 in O2. cbn in O2. lia.
Qed.

Lemma fine_placed : forall t, places t.
Proof.
  intros t. induction t as [ty s l|ty s l cs IH] using tree_ind'; intros F lo a O L; [constructor; exact L|].
  cbn [end_of]. constructor; [exact L|]. inversion F as [|ty0 s0 l0 c cs0 Ty Fa St En]; subst. rewrite En.
  apply (children_placed cs0 c (start_of c) IH Fa a); [exact O|lia].
Qed.

(** The root may start before its first leaf. *)
Lemma root_placed : forall c cs a ty, Forall fine (c :: cs) -> ordered a (flat_map leaves (c :: cs)) ->
  placed 0 (Node ty 0 (end_of (last (c :: cs) c)) (c :: cs)) (end_of (last (c :: cs) c)).
Proof.
  intros c cs a ty Fa O. apply (placed_node 0 ty 0 (end_of (last (c :: cs) c)) (c :: cs)); [lia|].
  apply (children_placed cs c 0) with (a := a); [|exact Fa|exact O|lia]. apply Forall_forall. intros x _. apply fine_placed.
Qed.

(** The type of a node can change inside its half of the numbers. *)
Definition retype (ty : N) (t : tree) : tree := match t with Leaf _ s l => Leaf ty s l | Node _ s l cs => Node ty s l cs end.

Lemma error_bit_leaf : forall ty, (ty < 32768)%N -> (set_error_bit ty < 32768)%N.
Proof.
  intros ty H. unfold set_error_bit. destruct (N.eq_dec (N.lor ty 16384) 0) as [->|Z]; [reflexivity|].
  change 32768%N with (2 ^ 15)%N. apply N.log2_lt_pow2; [lia|]. rewrite N.log2_lor.
  apply N.max_lub_lt; [|reflexivity]. destruct (N.eq_dec ty 0) as [->|Y]; [reflexivity|]. apply N.log2_lt_pow2; [lia|exact H].
Qed.

Lemma error_bit_node : forall ty, (32768 <= ty)%N -> (32768 <= set_error_bit ty)%N.
Proof.
  intros ty H. unfold set_error_bit. change 32768%N with (2 ^ 15)%N in *.
  assert (L : (15 <= N.log2 ty)%N) by (apply N.log2_le_pow2; [lia|exact H]).
  apply N.log2_le_pow2; [|rewrite N.log2_lor; lia]. assert (N.lor ty 16384 <> 0)%N; [|lia]. intros E. apply N.lor_eq_0_l in E. lia.
Qed.

Definition failed (t : tree) : tree := retype (set_error_bit (type_of t)) t.

Lemma failed_fine : forall t, fine t -> fine (failed t).
Proof. intros t F. inversion F; subst; cbn; constructor; auto using error_bit_leaf, error_bit_node. Qed.
Lemma failed_size : forall t, size (failed t) = size t. Proof. intros []; reflexivity. Qed.
Lemma failed_leaves : forall t, leaves (failed t) = leaves t. Proof. intros []; reflexivity. Qed.
Lemma failed_start : forall t, start_of (failed t) = start_of t. Proof. intros []; reflexivity. Qed.
Lemma failed_end : forall t, end_of (failed t) = end_of t. Proof. intros []; reflexivity. Qed.

Lemma flatten_head : forall b t, exists r, flatten b t = mk_node (if b then 0 else size t) (type_of t) (start_of t) (end_of t - start_of t) :: r /\
  flatten b (failed t) = mk_node (if b then 0 else size t) (set_error_bit (type_of t)) (start_of t) (end_of t - start_of t) :: r.
Proof.
  intros b [ty s l|ty s l cs]; cbn [failed retype type_of start_of end_of].
  - exists []. cbn. replace (s + l - s) with l by lia. auto.
  - rewrite !flatten_node. exists (flat_children cs). replace (s + l - s) with l by lia. auto.
Qed.
