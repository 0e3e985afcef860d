(** * Proofs about folding ranges *)
From Coq Require Import Ascii List Bool Arith Sorted Lia.
From Verif Require Import AutoImportModel AutoImportSpec AutoImport FoldingModel FoldingSpec.
Import ListNotations.
Open Scope nat_scope.
Open Scope list_scope.

Fixpoint tree_ind' (P : tree -> Prop) (HL : forall l, P (Leaf l)) (HN : forall k cs, Forall P cs -> P (Node k cs)) (t : tree) : P t :=
  match t with
  | Leaf l => HL l
  | Node k cs => HN k cs ((fix go (cs : list tree) : Forall P cs := match cs with [] => Forall_nil _ | c :: cs => Forall_cons _ (tree_ind' P HL HN c) (go cs) end) cs)
  end.
Fixpoint folds_list (before : list leaf) (l : list tree) : list (option (nat * nat)) :=
  match l with [] => [] | c :: l => folding_blocks before c ++ folds_list (before ++ leaves c) l end.
Lemma folding_node : forall before k cs, folding_blocks before (Node k cs) = fold_of before k cs ++ folds_list before cs.
Proof. reflexivity. Qed.

(** ** One node *)
Lemma skip_last : forall ls more, (exists l, In l ls /\ lf_kind l <> Dedent) -> exists b, last_solid ls b /\ skip_dedents (rev ls ++ more) = Some b.
Proof.
  induction ls as [|x ls IH] using rev_ind; intros more (l & H & E); [destruct H|]. rewrite rev_app_distr. cbn [rev app skip_dedents].
  destruct (lf_kind x) eqn:K; try (exists x; split; [|reflexivity]; split; [rewrite K; discriminate|]; exists ls, []; split; [reflexivity|intros d []]).
  destruct (IH more) as (b & (B1 & p & q & -> & B2) & B3).
  - exists l. split; [|exact E]. apply in_app_iff in H. destruct H as [H|[<-|[]]]; [exact H|contradiction].
  - exists b. split; [|exact B3]. split; [exact B1|]. exists p, (q ++ [x]). split; [rewrite <- app_assoc; reflexivity|]. intros d Hd. apply in_app_iff in Hd. destruct Hd as [Hd|[<-|[]]]; [apply B2; exact Hd|exact K].
Qed.
Lemma foldable_parts : forall k cs a, foldable (Node k cs) a -> exists pre tail, cs = pre ++ tail /\ indented a tail /\ ((k = Block /\ pre = []) \/ (k = MatchStmt /\ List.length pre = 3)).
Proof.
  intros k cs a H. inversion H as [nl ch Hi|nl x y z tail Hi]; subst.
  - exists [], cs. auto.
  - exists [x; y; z], tail. auto.
Qed.
Lemma indented_leaves : forall a tail, indented a tail -> exists rest, tail = Leaf a :: rest /\ exists l, In l (flat_map leaves rest) /\ lf_kind l <> Dedent.
Proof.
  intros a tail (K & L & i & stmts & d & Ki & -> & Ne & S1). eexists. split; [reflexivity|]. exists i. split; [left; reflexivity|rewrite Ki; discriminate].
Qed.
Lemma fold_foldable : forall before k cs a, foldable (Node k cs) a -> exists b, last_solid (leaves (Node k cs)) b /\ fold_of before k cs = [Some (lf_start a, lf_start b)].
Proof.
  intros before k cs a H. destruct (foldable_parts k cs a H) as (pre & tail & -> & Hi & Hk). destruct (indented_leaves a tail Hi) as (rest & -> & x & Hx & Kx).
  destruct (skip_last (leaves (Node k (pre ++ Leaf a :: rest))) (rev before)) as (b & B1 & B2).
  { exists x. split; [|exact Kx]. cbn [leaves]. rewrite flat_map_app. apply in_or_app. right. cbn [flat_map]. apply in_or_app. right. exact Hx. }
  exists b. split; [exact B1|]. assert (E : end_ before (Node k (pre ++ Leaf a :: rest)) = Some (lf_start b)) by (unfold end_; rewrite rev_app_distr, B2; reflexivity).
  unfold fold_of. destruct Hk as [[-> ->]|[-> Hl]]; rewrite E.
  - cbn [app is_simple_stmts]. reflexivity.
  - rewrite nth_error_app2, Hl by lia. cbn [Nat.sub nth_error]. reflexivity.
Qed.
Lemma fold_other : forall before k cs, grammatical (Node k cs) -> fold_of before k cs = [] \/ exists a, foldable (Node k cs) a.
Proof.
  intros before k cs H. inversion H as [|? ? _ HB HM]; subst. destruct k; [| |left; reflexivity|left; reflexivity].
  - destruct (HB eq_refl) as [(l & ->)|X]; [left; reflexivity|right; exact X].
  - right. apply HM. reflexivity.
Qed.

(** ** All nodes *)
Definition about (t : tree) (o : option (nat * nat)) : Prop :=
  exists n a b, o = Some (lf_start a, lf_start b) /\ subtree n t /\ foldable n a /\ last_solid (leaves n) b.
Lemma folds_sound : forall t before, grammatical t -> Forall (about t) (folding_blocks before t).
Proof.
  induction t as [l|k cs IH] using tree_ind'; intros before G; [constructor|]. rewrite folding_node. apply Forall_app. split.
  - destruct (fold_other before k cs G) as [->|[a Ha]]; [constructor|]. destruct (fold_foldable before k cs a Ha) as (b & B1 & ->). constructor; [|constructor]. exists (Node k cs), a, b. repeat split; try assumption; try apply B1. constructor.
  - inversion G as [|? ? Gc _ _]; subst. assert (X : forall l before, (forall c, In c l -> In c cs) -> Forall (about (Node k cs)) (folds_list before l)).
    { induction l as [|c l IHl]; intros bf Hl; cbn [folds_list]; [constructor|]. apply Forall_app. split; [|apply IHl; intros d Hd; apply Hl; right; exact Hd]. assert (Hc : In c cs) by (apply Hl; left; reflexivity).
      rewrite Forall_forall in IH, Gc. pose proof (IH c Hc bf (Gc c Hc)) as F. apply Forall_forall. intros o Ho. rewrite Forall_forall in F. destruct (F o Ho) as (n & a & b & E & S1 & Ff & L). exists n, a, b. repeat split; try assumption; try apply L. eapply subtree_child; eassumption. }
    apply X. auto.
Qed.
Lemma folds_complete : forall n t, subtree n t -> forall before a, foldable n a -> exists b, last_solid (leaves n) b /\ In (Some (lf_start a, lf_start b)) (folding_blocks before t).
Proof.
  intros n t H. induction H as [t|t c k cs Hc H IH]; intros before a F.
  - destruct t as [l|k cs]; [inversion F|]. destruct (fold_foldable before k cs a F) as (b & B1 & B2). exists b. split; [exact B1|]. rewrite folding_node, B2. left. reflexivity.
  - rewrite folding_node. assert (X : forall bf, exists b, last_solid (leaves t) b /\ In (Some (lf_start a, lf_start b)) (folds_list bf cs)).
    { induction cs as [|d cs IHc]; intros bf; [destruct Hc|]. cbn [folds_list]. destruct Hc as [<-|Hc].
      - destruct (IH bf a F) as (b & B1 & B2). exists b. split; [exact B1|]. apply in_or_app. left. exact B2.
      - destruct (IHc Hc (bf ++ leaves d)) as (b & B1 & B2). exists b. split; [exact B1|]. apply in_or_app. right. exact B2. }
    destruct (X before) as (b & B1 & B2). exists b. split; [exact B1|]. apply in_or_app. right. exact B2.
Qed.
Lemma last_solid_unique : forall ls a b, last_solid ls a -> last_solid ls b -> a = b.
Proof.
  induction ls as [|x ls IH] using rev_ind; intros a b (A1 & p & q & E & A2) (B1 & r & s & E' & B2); [destruct p; discriminate E|].
  destruct (lf_kind x) eqn:K.
  1, 2, 4: assert (Z : forall y u v, ls ++ [x] = u ++ y :: v -> (forall d, In d v -> lf_kind d = Dedent) -> y = x);
    [intros y u v Ez Hv; destruct v as [|w v] using rev_ind; [apply app_inj_tail in Ez; symmetry; apply Ez|]; rewrite app_comm_cons, app_assoc in Ez; apply app_inj_tail in Ez; destruct Ez as [_ <-]; assert (Y : lf_kind x = Dedent) by (apply Hv; apply in_or_app; right; left; reflexivity); rewrite K in Y; discriminate Y
    |rewrite (Z a p q E A2), (Z b r s E' B2); reflexivity].
  apply IH.
  - split; [exact A1|]. destruct q as [|w q _] using rev_ind; [apply app_inj_tail in E; destruct E as [_ <-]; contradiction|]. rewrite app_comm_cons, app_assoc in E. apply app_inj_tail in E. destruct E as [E _]. exists p, q. split; [exact E|]. intros d Hd. apply A2. apply in_or_app. left. exact Hd.
  - split; [exact B1|]. destruct s as [|w s _] using rev_ind; [apply app_inj_tail in E'; destruct E' as [_ <-]; contradiction|]. rewrite app_comm_cons, app_assoc in E'. apply app_inj_tail in E'. destruct E' as [E' _]. exists r, s. split; [exact E'|]. intros d Hd. apply B2. apply in_or_app. left. exact Hd.
Qed.

(** ** Order *)
Lemma in_order_app : forall p q, in_order (p ++ q) -> in_order p /\ in_order q /\ forall a b, In a p -> In b q -> lf_start a + lf_length a <= lf_start b.
Proof.
  induction p as [|x p IH]; intros q H; cbn [app] in H; [split; [constructor|]; split; [exact H|intros a b []]|]. inversion H as [|? ? H1 H2]; subst. destruct (IH q H1) as (P1 & P2 & P3). rewrite Forall_app in H2. destruct H2 as [F1 F2]. rewrite Forall_forall in F2.
  split; [constructor; assumption|]. split; [exact P2|]. intros a b [<-|Ha] Hb; [apply F2; exact Hb|apply P3; assumption].
Qed.
Lemma from_here : forall p x q y, in_order (p ++ x :: q) -> In y (x :: q) -> lf_start x <= lf_start y.
Proof. intros p x q y H Hy. destruct (in_order_app p (x :: q) H) as (_ & H1 & _). inversion H1 as [|? ? _ F]; subst. rewrite Forall_forall in F. destruct Hy as [<-|Hy]; [lia|]. specialize (F y Hy). cbn beta in F. lia. Qed.
Lemma to_last : forall ls b y, in_order ls -> last_solid ls b -> In y ls -> lf_kind y <> Dedent -> lf_start y <= lf_start b.
Proof.
  intros ls b y O (_ & p & q & -> & Hq) Hy K. apply in_app_iff in Hy. destruct Hy as [Hy|[->|Hy]]; [|lia|specialize (Hq y Hy); contradiction]. destruct (in_order_app p (b :: q) O) as (_ & _ & H). specialize (H y b Hy (or_introl eq_refl)). lia.
Qed.
Lemma subtree_leaves : forall n t, subtree n t -> forall l, In l (leaves n) -> In l (leaves t).
Proof. intros n t H. induction H as [t|t c k cs Hc H IH]; intros l Hl; [exact Hl|]. cbn [leaves]. apply in_flat_map. exists c. split; [exact Hc|apply IH; exact Hl]. Qed.
Lemma foldable_leaf : forall n a, foldable n a -> In a (leaves n).
Proof. intros [l|k cs] a H; [inversion H|]. destruct (foldable_parts k cs a H) as (pre & tail & -> & Hi & _). destruct (indented_leaves a tail Hi) as (rest & -> & _). cbn [leaves]. rewrite flat_map_app. apply in_or_app. right. left. reflexivity. Qed.
Lemma solid_leaf : forall ls b, last_solid ls b -> In b ls.
Proof. intros ls b (_ & p & q & -> & _). apply in_or_app. right. left. reflexivity. Qed.

(** ** No two ranges cross *)
Definition both (x y : option (nat * nat)) : Prop := forall u v, x = Some u -> y = Some v -> apart_or_nested u v.
Lemma pairs_app : forall (A : Type) (R : A -> A -> Prop) l m, ForallOrdPairs R l -> ForallOrdPairs R m -> (forall a b, In a l -> In b m -> R a b) -> ForallOrdPairs R (l ++ m).
Proof.
  intros A R l m Hl Hm H. induction Hl as [|x l F Hl IH]; cbn [app]; [exact Hm|]. constructor; [|apply IH; intros a b Ha Hb; apply H; [right; exact Ha|exact Hb]]. apply Forall_app. split; [exact F|]. apply Forall_forall. intros b Hb. apply H; [left; reflexivity|exact Hb].
Qed.
Lemma list_sound : forall cs before o, Forall grammatical cs -> In o (folds_list before cs) -> exists c, In c cs /\ about c o.
Proof.
  induction cs as [|c cs IH]; intros before o G H; [destruct H|]. inversion G as [|? ? G1 G2]; subst. cbn [folds_list] in H. apply in_app_iff in H. destruct H as [H|H].
  - exists c. split; [left; reflexivity|]. pose proof (folds_sound c before G1) as F. rewrite Forall_forall in F. apply F. exact H.
  - destruct (IH _ o G2 H) as (d & Hd & A). exists d. split; [right; exact Hd|exact A].
Qed.
Lemma about_leaves : forall t u v, about t (Some (u, v)) -> exists a b, In a (leaves t) /\ In b (leaves t) /\ lf_kind b <> Dedent /\ u = lf_start a /\ v = lf_start b.
Proof. intros t u v (n & a & b & E & S1 & F & L). injection E as -> ->. exists a, b. split; [apply (subtree_leaves n t S1); apply foldable_leaf; exact F|]. split; [apply (subtree_leaves n t S1); apply (solid_leaf _ _ L)|]. split; [apply L|auto]. Qed.
Lemma folds_pairs : forall t before, grammatical t -> in_order (leaves t) -> ForallOrdPairs both (folding_blocks before t).
Proof.
  induction t as [l|k cs IH] using tree_ind'; intros before G O; [constructor|]. rewrite folding_node. inversion G as [|? ? Gc _ _]; subst. cbn [leaves] in O. apply pairs_app.
  - destruct (fold_other before k cs G) as [->|[a Ha]]; [constructor|]. destruct (fold_foldable before k cs a Ha) as (b & _ & ->). constructor; constructor.
  - clear G. revert before. induction cs as [|c cs IHc]; intros before; cbn [folds_list]; [constructor|]. inversion IH as [|? ? I1 I2]; subst. inversion Gc as [|? ? G1 G2]; subst. cbn [flat_map] in O. destruct (in_order_app _ _ O) as (O1 & O2 & O3). apply pairs_app; [apply I1; assumption|apply IHc; assumption|].
    intros x y Hx Hy [u v] [u' v'] -> ->. pose proof (folds_sound c before G1) as F. rewrite Forall_forall in F. destruct (about_leaves c u v (F _ Hx)) as (a & b & _ & Hb & _ & -> & ->). destruct (list_sound cs _ _ G2 Hy) as (d & Hd & A). destruct (about_leaves d u' v' A) as (a' & b' & Ha' & _ & _ & -> & ->).
    left. cbn [fst snd]. assert (X : In a' (flat_map leaves cs)) by (apply in_flat_map; exists d; auto). specialize (O3 b a' Hb X). lia.
  - intros x y Hx Hy [u v] [u' v'] -> ->. destruct (fold_other before k cs G) as [E|[a Ha]]; [rewrite E in Hx; destruct Hx|]. destruct (fold_foldable before k cs a Ha) as (b & B1 & E). rewrite E in Hx. destruct Hx as [Hx|[]]. injection Hx as <- <-.
    destruct (list_sound cs _ _ Gc Hy) as (d & Hd & A). destruct (about_leaves d u' v' A) as (a' & b' & Ha' & Hb' & Kb & -> & ->). destruct (foldable_parts k cs a Ha) as (pre & tail & -> & Hi & _). destruct (indented_leaves a tail Hi) as (rest & -> & _).
    rewrite flat_map_app in O. cbn [flat_map leaves app] in O. apply in_app_iff in Hd. destruct Hd as [Hd|Hd].
    + right. left. cbn [fst snd]. destruct (in_order_app _ _ O) as (_ & _ & O3). assert (X : In b' (flat_map leaves pre)) by (apply in_flat_map; exists d; auto). specialize (O3 b' a X (or_introl eq_refl)). lia.
    + right. right. left. cbn [fst snd]. split.
      * apply (from_here _ _ _ a' O). assert (X : In a' (flat_map leaves (Leaf a :: rest))) by (apply in_flat_map; exists d; auto). exact X.
      * apply (to_last _ b b') in B1; [exact B1| |cbn [leaves]; apply in_flat_map; exists d; split; [apply in_or_app; right; exact Hd|exact Hb']|exact Kb]. cbn [leaves]. rewrite flat_map_app. exact O.
Qed.

(** ** Lines *)
Lemma spans : forall k cs a b, foldable (Node k cs) a -> in_order (leaves (Node k cs)) -> last_solid (leaves (Node k cs)) b -> 0 < lf_length a /\ lf_start a + lf_length a <= lf_start b.
Proof.
  intros k cs a b F O L. destruct (foldable_parts k cs a F) as (pre & tail & -> & Hi & _). pose proof Hi as (_ & L0 & _). split; [exact L0|]. destruct (indented_leaves a tail Hi) as (rest & -> & x & Hx & Kx). cbn [leaves] in O, L.
  assert (X : lf_start x <= lf_start b) by (apply (to_last _ b x O L); [rewrite flat_map_app; apply in_or_app; right; right; exact Hx|exact Kx]).
  rewrite flat_map_app in O. cbn [flat_map leaves app] in O. change (a :: flat_map leaves rest) with ([a] ++ flat_map leaves rest) in O. rewrite app_assoc in O. destruct (in_order_app _ _ O) as (_ & _ & O3). assert (Ia : In a (flat_map leaves pre ++ [a])) by (apply in_or_app; right; left; reflexivity). specialize (O3 a x Ia Hx). lia.
Qed.
