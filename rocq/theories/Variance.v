(** Proofs about the checks of variances. *)
From Coq Require Import List Bool PeanoNat Lia.
From Verif Require Import VarianceModel VarianceSpec.
Import ListNotations.

Lemma type_induction : forall P : type -> Prop,
  (forall y, P (Var y)) -> P Any ->
  (forall c ts, (forall t, In t ts -> P t) -> P (Instance c ts)) ->
  (forall ps r, (forall p, In p ps -> P p) -> P r -> P (Function ps r)) ->
  (forall ts, (forall t, In t ts -> P t) -> P (Tuple ts)) ->
  (forall ts, (forall t, In t ts -> P t) -> P (Union ts)) ->
  forall t, P t.
Proof.
  intros P HV HA HI HF HT HU. fix IH 1. intro t.
  assert (L : forall ts t, In t ts -> P t).
  { fix IHl 1. intros ts u. destruct ts as [| v ts]; intro H; [destruct H |].
    destruct H as [<- | H]; [apply IH | apply (IHl ts u H)]. }
  destruct t as [y | | c ts | ps r | ts | ts].
  - apply HV.
  - apply HA.
  - apply HI. apply L.
  - apply HF; [apply L | apply IH].
  - apply HT. apply L.
  - apply HU. apply L.
Qed.

(** ** Sizes and fuel *)
Lemma size_pos : forall t, 1 <= size t.
Proof. destruct t; cbn; lia. Qed.

Lemma size_in : forall t ts, In t ts -> size t <= list_sum (map size ts).
Proof.
  intros t ts H. induction ts as [| u ts IH]; [destruct H |]. cbn [map list_sum fold_right].
  change (fold_right Nat.add 0 (map size ts)) with (list_sum (map size ts)).
  destruct H as [<- | H]; [lia | specialize (IH H); lia].
Qed.

Lemma existsb_ext_in : forall A (f g : A -> bool) l, (forall a, In a l -> f a = g a) -> existsb f l = existsb g l.
Proof.
  intros A f g l H. induction l as [| a l IH]; [reflexivity |]. cbn [existsb].
  rewrite (H a (or_introl eq_refl)), IH; [reflexivity |]. intros b Hb. apply H. right. exact Hb.
Qed.
Lemma forallb_ext_in : forall A (f g : A -> bool) l, (forall a, In a l -> f a = g a) -> forallb f l = forallb g l.
Proof.
  intros A f g l H. induction l as [| a l IH]; [reflexivity |]. cbn [forallb].
  rewrite (H a (or_introl eq_refl)), IH; [reflexivity |]. intros b Hb. apply H. right. exact Hb.
Qed.
Lemma all2_ext_in : forall A B (f g : A -> B -> bool) l m,
  (forall a b, In a l -> In b m -> f a b = g a b) -> all2 f l m = all2 g l m.
Proof.
  intros A B f g l. induction l as [| a l IH]; intros [| b m] H; cbn [all2]; try reflexivity.
  rewrite (H a b (or_introl eq_refl) (or_introl eq_refl)), (IH m); [reflexivity |].
  intros a' b' Ha Hb. apply H; right; assumption.
Qed.

Section Program.
Variable inherits : nat -> list type -> nat -> list type -> bool.
Variable table : nat -> nat -> variance.
Notation sub := (sub inherits table).
Notation is_sub_type := (is_sub_type inherits table).
Notation arguments_match := (arguments_match table).

Lemma arguments_match_ext : forall f g c ts us i,
  (forall t u, In t ts -> In u us -> f t u = g t u /\ f u t = g u t) ->
  arguments_match f c i ts us = arguments_match g c i ts us.
Proof.
  intros f g c ts. induction ts as [| t ts IH]; intros [| u us] i H; cbn [VarianceModel.arguments_match]; try reflexivity.
  destruct (H t u (or_introl eq_refl) (or_introl eq_refl)) as [E1 E2]. rewrite E1, E2, (IH us (S i)); [reflexivity |].
  intros t' u' Ht Hu. apply H; right; assumption.
Qed.

Lemma sub_fuel : forall n m t u, size t + size u <= n -> size t + size u <= m -> sub n t u = sub m t u.
Proof.
  induction n as [| n IH]; intros m t u Hn Hm; [pose proof (size_pos t); lia |].
  destruct m as [| m]; [pose proof (size_pos t); lia |].
  assert (Hl : forall t u ts, In t ts -> list_sum (map size ts) + size u <= n -> list_sum (map size ts) + size u <= m -> sub n t u = sub m t u).
  { intros a b l Ha H1 H2. apply size_in in Ha. apply IH; lia. }
  assert (H2 : forall a b ts us, In a ts -> In b us -> list_sum (map size ts) + list_sum (map size us) <= n ->
    list_sum (map size ts) + list_sum (map size us) <= m -> sub n a b = sub m a b /\ sub n b a = sub m b a).
  { intros a b l k Ha Hb H1 H2. apply size_in in Ha, Hb. split; apply IH; lia. }
  cbn [VarianceModel.sub].
  destruct t as [y | | c ts | ps r | ts | ts]; destruct u as [z | | d us | qs s | us | us]; try reflexivity; cbn [size] in Hn, Hm.
  all: try (apply existsb_ext_in; intros w Hw; apply size_in in Hw; apply IH; cbn [size]; lia).
  all: try (apply forallb_ext_in; intros w Hw; apply size_in in Hw; apply IH; cbn [size]; lia).
  - destruct d as [| d]; [destruct us as [| u us]; [reflexivity |] |].
    + destruct (c =? 0); [| reflexivity]. apply arguments_match_ext. intros a b Ha Hb. apply (H2 a b ts (u :: us)); try assumption; lia.
    + destruct (c =? S d); [| reflexivity]. apply arguments_match_ext. intros a b Ha Hb. apply (H2 a b ts us); try assumption; lia.
  - rewrite (IH m r s) by lia. f_equal. apply all2_ext_in. intros a b Ha Hb. apply (H2 a b ps qs); try assumption; lia.
  - apply all2_ext_in. intros a b Ha Hb. apply (H2 a b ts us); try assumption; lia.
Qed.

Lemma sub_enough : forall n t u, size t + size u <= n -> sub n t u = is_sub_type t u.
Proof. intros n t u H. unfold VarianceModel.is_sub_type. apply sub_fuel; lia. Qed.

(** The rules *)
Lemma is_sub_any_left : forall u, is_sub_type Any u = true.
Proof. intro u. unfold VarianceModel.is_sub_type. cbn. reflexivity. Qed.
Lemma is_sub_any_right : forall t, is_sub_type t Any = true.
Proof. intro t. rewrite <- (sub_enough (S (size t + size Any))) by lia. destruct t; reflexivity. Qed.
Lemma is_sub_union_left : forall ts u, u <> Any -> is_sub_type (Union ts) u = forallb (fun t => is_sub_type t u) ts.
Proof.
  intros ts u Hu. unfold VarianceModel.is_sub_type at 1. cbn [size Nat.add].
  remember (list_sum (map size ts) + size u) as n eqn:En.
  assert (H : sub (S n) (Union ts) u = forallb (fun t => sub n t u) ts) by (destruct u; try reflexivity; congruence).
  rewrite H. apply forallb_ext_in. intros t Ht. apply size_in in Ht. apply sub_enough. lia.
Qed.
Lemma is_sub_union_right : forall t us, no_union t -> t <> Any -> is_sub_type t (Union us) = existsb (fun u => is_sub_type t u) us.
Proof.
  intros t us Hn Ha. rewrite <- (sub_enough (S (size t + list_sum (map size us)))) by (cbn [size]; lia).
  assert (H : sub (S (size t + list_sum (map size us))) t (Union us) = existsb (fun u => sub (size t + list_sum (map size us)) t u) us).
  { destruct t; try reflexivity; [congruence | destruct Hn]. }
  rewrite H. apply existsb_ext_in. intros u Hu. apply size_in in Hu. apply sub_enough. lia.
Qed.
Lemma is_sub_object : forall t, is_sub_type t object = true.
Proof.
  induction t as [y | | c ts _ | ps r _ _ | ts _ | ts IH] using type_induction;
    try (rewrite <- (sub_enough (S (size object + size (Var 0)))); reflexivity).
  1-5: unfold VarianceModel.is_sub_type; cbn [size Nat.add VarianceModel.sub object]; reflexivity.
  rewrite is_sub_union_left by discriminate. apply forallb_forall. exact IH.
Qed.
Lemma is_sub_instance : forall c ts us, length ts = length us ->
  is_sub_type (Instance c ts) (Instance c us) = arguments_match is_sub_type c 0 ts us.
Proof.
  intros c ts us Hl. unfold VarianceModel.is_sub_type at 1. cbn [size Nat.add VarianceModel.sub].
  remember (list_sum (map size ts) + S (list_sum (map size us))) as n eqn:En.
  assert (H : arguments_match (sub n) c 0 ts us = arguments_match is_sub_type c 0 ts us).
  { apply arguments_match_ext. intros t u Ht Hu. apply size_in in Ht, Hu. split; apply sub_enough; lia. }
  destruct c as [| c].
  - destruct us as [| u us]; [destruct ts; [reflexivity | discriminate] |]. cbn [Nat.eqb]. exact H.
  - rewrite Nat.eqb_refl. exact H.
Qed.
Lemma is_sub_other : forall c ts d us, d <> 0 -> c <> d ->
  is_sub_type (Instance c ts) (Instance d us) = inherits c ts d us.
Proof.
  intros c ts d us Hd Hc. unfold VarianceModel.is_sub_type. cbn [size Nat.add VarianceModel.sub].
  destruct d as [| d]; [congruence |]. rewrite (proj2 (Nat.eqb_neq c (S d)) Hc). reflexivity.
Qed.
Lemma is_sub_function : forall ps r qs s,
  is_sub_type (Function ps r) (Function qs s) = all2 (fun p q => is_sub_type q p) ps qs && is_sub_type r s.
Proof.
  intros ps r qs s. unfold VarianceModel.is_sub_type at 1. cbn [size Nat.add VarianceModel.sub].
  f_equal; [| apply sub_enough; lia]. apply all2_ext_in. intros p q Hp Hq. apply size_in in Hp, Hq. apply sub_enough. lia.
Qed.
Lemma is_sub_tuple : forall ts us, is_sub_type (Tuple ts) (Tuple us) = all2 is_sub_type ts us.
Proof.
  intros ts us. unfold VarianceModel.is_sub_type at 1. cbn [size Nat.add VarianceModel.sub].
  apply all2_ext_in. intros p q Hp Hq. apply size_in in Hp, Hq. apply sub_enough. lia.
Qed.

(** ** Reflexivity *)
Lemma same_refl : forall t, same t t = true.
Proof.
  assert (L : forall ts, (forall t, In t ts -> same t t = true) ->
    (fix all ts us := match ts, us with [], [] => true | t :: ts, u :: us => same t u && all ts us | _, _ => false end) ts ts = true).
  { induction ts as [| t ts IH]; intro H; [reflexivity |]. rewrite (H t (or_introl eq_refl)). cbn [andb].
    apply IH. intros u Hu. apply H. right. exact Hu. }
  induction t as [y | | c ts IH | ps r IHp IHr | ts IH | ts IH] using type_induction; cbn [same].
  - apply Nat.eqb_refl.
  - reflexivity.
  - rewrite Nat.eqb_refl. apply L. exact IH.
  - rewrite IHr, andb_true_r. apply L. exact IHp.
  - apply L. exact IH.
  - apply L. exact IH.
Qed.

Lemma is_sub_into_union : forall t u us, In u us -> is_sub_type t u = true -> is_sub_type t (Union us) = true.
Proof.
  induction t as [y | | c ts _ | ps r _ _ | ts _ | ts IH] using type_induction; intros u us Hu H;
    try apply is_sub_any_left;
    try (rewrite is_sub_union_right; [apply existsb_exists; exists u; split; assumption | exact Logic.I | discriminate]).
  rewrite is_sub_union_left by discriminate. apply forallb_forall. intros t Ht. apply (IH t Ht u us Hu).
  destruct u as [y | | c us' | ps r | us' | us']; try apply is_sub_any_right;
    rewrite is_sub_union_left in H by discriminate; apply (proj1 (forallb_forall _ _) H t Ht).
Qed.

Lemma all2_refl : forall A (f : A -> A -> bool) l, (forall a, In a l -> f a a = true) -> all2 f l l = true.
Proof.
  intros A f l H. induction l as [| a l IH]; [reflexivity |]. cbn [all2]. rewrite (H a (or_introl eq_refl)).
  apply IH. intros b Hb. apply H. right. exact Hb.
Qed.

Lemma is_sub_refl : forall t, is_sub_type t t = true.
Proof.
  induction t as [y | | c ts IH | ps r IHp IHr | ts IH | ts IH] using type_induction.
  - unfold VarianceModel.is_sub_type. cbn. apply Nat.eqb_refl.
  - reflexivity.
  - rewrite is_sub_instance by reflexivity. generalize 0. induction ts as [| t ts IHl]; intro i; [reflexivity |].
    cbn [VarianceModel.arguments_match]. rewrite (IH t (or_introl eq_refl)), same_refl.
    rewrite IHl by (intros u Hu; apply IH; right; exact Hu). destruct (table c i); reflexivity.
  - rewrite is_sub_function, IHr, andb_true_r. apply all2_refl. exact IHp.
  - rewrite is_sub_tuple. apply all2_refl. exact IH.
  - rewrite is_sub_union_left by discriminate. apply forallb_forall. intros t Ht. apply (is_sub_into_union t t ts Ht).
    apply IH. exact Ht.
Qed.

(** ** Replacing *)
Section Check.
Variable x : nat.
Notation signs := (signs table x).
Notation replaced := (replace x object).

Fixpoint argument_signs (c i : nat) (ts : list type) : list sign :=
  match ts with [] => [] | t :: ts => map (under (table c i)) (signs t) ++ argument_signs c (S i) ts end.
Lemma signs_instance : forall c ts, signs (Instance c ts) = argument_signs c 0 ts.
Proof.
  intros c ts. cbn [VarianceSpec.signs]. generalize 0. induction ts as [| t ts IH]; intro i; [reflexivity |].
  cbn [argument_signs]. f_equal; apply IH.
Qed.

Lemma replace_unchanged : forall u t, mentions x t = false -> replace x u t = t.
Proof.
  intros u t. assert (L : forall ts, (forall t, In t ts -> mentions x t = false -> replace x u t = t) ->
    existsb (mentions x) ts = false -> map (replace x u) ts = ts).
  { induction ts as [| w ts IH]; intros H E; [reflexivity |]. cbn [existsb] in E. apply orb_false_iff in E. destruct E as [E1 E2].
    cbn [map]. rewrite (H w (or_introl eq_refl) E1), IH; [reflexivity | | exact E2]. intros v Hv. apply H. right. exact Hv. }
  induction t as [y | | c ts IH | ps r IHp IHr | ts IH | ts IH] using type_induction; cbn [mentions replace]; intro E.
  - rewrite E. reflexivity.
  - reflexivity.
  - rewrite (L ts IH E). reflexivity.
  - apply orb_false_iff in E. destruct E as [E1 E2]. rewrite (L ps IHp E1), (IHr E2). reflexivity.
  - rewrite (L ts IH E). reflexivity.
  - rewrite (L ts IH E). reflexivity.
Qed.

Lemma flat_map_nil : forall A B (f : A -> list B) l, flat_map f l = [] <-> forall a, In a l -> f a = [].
Proof.
  intros A B f l. induction l as [| a l IH]; cbn [flat_map].
  - split; [intros _ b [] | reflexivity].
  - split.
    + intros H b Hb. apply app_eq_nil in H. destruct H as [H1 H2]. destruct Hb as [<- | Hb]; [exact H1 | apply IH; assumption].
    + intro H. rewrite (H a (or_introl eq_refl)). apply IH. intros b Hb. apply H. right. exact Hb.
Qed.

Lemma argument_signs_nil : forall c ts i, argument_signs c i ts = [] <-> forall t, In t ts -> signs t = [].
Proof.
  intros c ts. induction ts as [| t ts IH]; intro i; cbn [argument_signs].
  - split; [intros _ u [] | reflexivity].
  - split.
    + intros H u Hu. apply app_eq_nil in H. destruct H as [H1 H2]. destruct Hu as [<- | Hu].
      * apply map_eq_nil in H1. exact H1.
      * apply (proj1 (IH (S i)) H2 u Hu).
    + intro H. rewrite (H t (or_introl eq_refl)). apply (proj2 (IH (S i))). intros u Hu. apply H. right. exact Hu.
Qed.

Lemma existsb_false : forall A (f : A -> bool) l, existsb f l = false <-> forall a, In a l -> f a = false.
Proof.
  intros A f l. induction l as [| a l IH]; cbn [existsb].
  - split; [intros _ b [] | reflexivity].
  - rewrite orb_false_iff, IH. split.
    + intros [H1 H2] b [<- | Hb]; [exact H1 | apply H2; exact Hb].
    + intro H. split; [apply H; left; reflexivity | intros b Hb; apply H; right; exact Hb].
Qed.

Lemma mentions_signs : forall t, mentions x t = false <-> signs t = [].
Proof.
  assert (L : forall ts, (forall t, In t ts -> mentions x t = false <-> signs t = []) ->
    existsb (mentions x) ts = false <-> forall t, In t ts -> signs t = []).
  { intros ts H. rewrite existsb_false. split; intros H2 t Ht; apply (H t Ht); apply H2; exact Ht. }
  induction t as [y | | c ts IH | ps r IHp IHr | ts IH | ts IH] using type_induction.
  - cbn [mentions VarianceSpec.signs]. destruct (x =? y); split; congruence.
  - split; reflexivity.
  - rewrite signs_instance, argument_signs_nil. apply L. exact IH.
  - cbn [mentions VarianceSpec.signs]. rewrite orb_false_iff, (L ps IHp), IHr. split.
    + intros [H1 H2]. rewrite (proj2 (flat_map_nil _ _ _ _) H1), H2. reflexivity.
    + intro H. apply app_eq_nil in H. destruct H as [H1 H2]. apply map_eq_nil in H1. split; [apply flat_map_nil; exact H1 | exact H2].
  - cbn [mentions VarianceSpec.signs]. rewrite flat_map_nil. apply L. exact IH.
  - cbn [mentions VarianceSpec.signs]. rewrite flat_map_nil. apply L. exact IH.
Qed.

(** Two types are the same only if they are equal. *)
Lemma same_eq : forall t u, same t u = true -> t = u.
Proof.
  assert (L : forall ts, (forall t, In t ts -> forall u, same t u = true -> t = u) -> forall us,
    (fix all ts us := match ts, us with [], [] => true | t :: ts, u :: us => same t u && all ts us | _, _ => false end) ts us = true -> ts = us).
  { induction ts as [| t ts IH]; intros H [| u us] E; try discriminate; [reflexivity |].
    apply andb_true_iff in E. destruct E as [E1 E2]. rewrite (H t (or_introl eq_refl) u E1).
    f_equal. apply IH; [| exact E2]. intros v Hv. apply H. right. exact Hv. }
  induction t as [y | | c ts IH | ps r IHp IHr | ts IH | ts IH] using type_induction; intros [z | | d us | qs s | us | us] E;
    cbn [same] in E; try discriminate.
  - apply Nat.eqb_eq in E. congruence.
  - reflexivity.
  - apply andb_true_iff in E. destruct E as [E1 E2]. apply Nat.eqb_eq in E1. subst. f_equal. apply (L ts IH us E2).
  - apply andb_true_iff in E. destruct E as [E1 E2]. f_equal; [apply (L ps IHp qs E1) | apply IHr; exact E2].
  - f_equal. apply (L ts IH us E).
  - f_equal. apply (L ts IH us E).
Qed.

Lemma replaced_not_mentions : forall t, mentions x (replaced t) = false.
Proof.
  assert (L : forall ts, (forall t, In t ts -> mentions x (replaced t) = false) -> existsb (mentions x) (map replaced ts) = false).
  { intros ts H. apply existsb_false. intros a Ha. apply in_map_iff in Ha. destruct Ha as (t & <- & Ht). apply H. exact Ht. }
  induction t as [y | | c ts IH | ps r IHp IHr | ts IH | ts IH] using type_induction; cbn [replace mentions].
  - destruct (x =? y) eqn:E; [reflexivity | exact E].
  - reflexivity.
  - apply L. exact IH.
  - rewrite (L ps IHp), IHr. reflexivity.
  - apply L. exact IH.
  - apply L. exact IH.
Qed.

Lemma same_replaced : forall t, same t (replaced t) = negb (mentions x t) /\ same (replaced t) t = negb (mentions x t).
Proof.
  intro t. destruct (mentions x t) eqn:E; cbn [negb].
  - assert (H : replaced t <> t) by (intro H; pose proof (replaced_not_mentions t); congruence).
    split; [destruct (same t (replaced t)) eqn:E1 | destruct (same (replaced t) t) eqn:E1]; try reflexivity; apply same_eq in E1; congruence.
  - rewrite (replace_unchanged object t E). rewrite same_refl. split; reflexivity.
Qed.

(** ** The check tells the signs *)
Definition all_plus (l : list sign) : Prop := Forall (fun s => s = Plus) l.
Definition all_minus (l : list sign) : Prop := Forall (fun s => s = Minus) l.

Lemma plus_flip : forall l, all_plus (map flip l) <-> all_minus l.
Proof.
  intro l. unfold all_plus, all_minus. rewrite Forall_map. split; apply Forall_impl; intros [| |]; cbn; congruence.
Qed.
Lemma minus_flip : forall l, all_minus (map flip l) <-> all_plus l.
Proof.
  intro l. unfold all_plus, all_minus. rewrite Forall_map. split; apply Forall_impl; intros [| |]; cbn; congruence.
Qed.
Lemma map_same : forall (l : list sign), map (fun s => s) l = l.
Proof. induction l; cbn; congruence. Qed.
Lemma plus_both : forall (l : list sign), all_plus (map (under Invariant) l) <-> l = [].
Proof.
  intros [| s l]; split; intro H; try reflexivity; try discriminate.
  - constructor.
  - inversion H as [| a b Ha Hb E]. discriminate Ha.
Qed.
Lemma minus_both : forall (l : list sign), all_minus (map (under Invariant) l) <-> l = [].
Proof.
  intros [| s l]; split; intro H; try reflexivity; try discriminate.
  - constructor.
  - inversion H as [| a b Ha Hb E]. discriminate Ha.
Qed.
Lemma plus_app : forall l m, all_plus (l ++ m) <-> all_plus l /\ all_plus m.
Proof. intros l m. apply Forall_app. Qed.
Lemma minus_app : forall l m, all_minus (l ++ m) <-> all_minus l /\ all_minus m.
Proof. intros l m. apply Forall_app. Qed.
Lemma plus_flat : forall A (f : A -> list sign) l, all_plus (flat_map f l) <-> forall a, In a l -> all_plus (f a).
Proof.
  intros A f l. induction l as [| a l IH]; cbn [flat_map].
  - split; [intros _ b [] | constructor].
  - rewrite plus_app, IH. split.
    + intros [H1 H2] b [<- | Hb]; [exact H1 | apply H2; exact Hb].
    + intro H. split; [apply H; left; reflexivity | intros b Hb; apply H; right; exact Hb].
Qed.
Lemma minus_flat : forall A (f : A -> list sign) l, all_minus (flat_map f l) <-> forall a, In a l -> all_minus (f a).
Proof.
  intros A f l. induction l as [| a l IH]; cbn [flat_map].
  - split; [intros _ b [] | constructor].
  - rewrite minus_app, IH. split.
    + intros [H1 H2] b [<- | Hb]; [exact H1 | apply H2; exact Hb].
    + intro H. split; [apply H; left; reflexivity | intros b Hb; apply H; right; exact Hb].
Qed.

Definition told (t : type) : Prop :=
  (is_sub_type t (replaced t) = true <-> all_plus (signs t)) /\ (is_sub_type (replaced t) t = true <-> all_minus (signs t)).

Lemma told_all2 : forall ts, (forall t, In t ts -> told t) ->
  (all2 is_sub_type ts (map replaced ts) = true <-> all_plus (flat_map signs ts))
  /\ (all2 is_sub_type (map replaced ts) ts = true <-> all_minus (flat_map signs ts))
  /\ (all2 (fun p q => is_sub_type q p) ts (map replaced ts) = true <-> all_minus (flat_map signs ts))
  /\ (all2 (fun p q => is_sub_type q p) (map replaced ts) ts = true <-> all_plus (flat_map signs ts)).
Proof.
  induction ts as [| t ts IH]; intro H; cbn [map all2 flat_map].
  - repeat (split; [split; [constructor | reflexivity] |]). split; [constructor | reflexivity].
  - destruct (H t (or_introl eq_refl)) as [H1 H2]. destruct IH as (I1 & I2 & I3 & I4); [intros u Hu; apply H; right; exact Hu |].
    rewrite !andb_true_iff, !plus_app, !minus_app, H1, H2, I1, I2, I3, I4. tauto.
Qed.

Lemma apart_false : forall m u, mentions x m = true -> no_union m -> apart inherits x m u ->
  is_sub_type m (replaced u) = false /\ is_sub_type (replaced m) u = false.
Proof.
  intros m u Hm Hn Ha. destruct m as [y | | c ts | ps r | ts | ts]; try discriminate; try (destruct Hn; fail);
    destruct u as [z | | d us | qs s | us | us]; cbn [apart] in Ha; try contradiction; cbn [replace].
  all: try (rewrite (proj2 (Nat.eqb_neq x z) Ha)).
  all: try (cbn [mentions] in Hm; rewrite Hm).
  all: try (split; unfold VarianceModel.is_sub_type; cbn [size Nat.add VarianceModel.sub object]; reflexivity).
  - apply Nat.eqb_eq in Hm. subst y. split; [| reflexivity]. unfold VarianceModel.is_sub_type. cbn. apply Nat.eqb_neq. exact Ha.
  - destruct Ha as [Hd Hi]. split.
    + unfold VarianceModel.is_sub_type. cbn [size Nat.add VarianceModel.sub]. destruct d as [| d]; [congruence | reflexivity].
    + unfold object. rewrite is_sub_other by congruence. apply Hi.
  - destruct Ha as (Hd & Hc & Hi). rewrite !is_sub_other by congruence. rewrite !Hi. split; reflexivity.
  - destruct Ha as [Hd _]. destruct d as [| d]; [congruence |].
    split; unfold VarianceModel.is_sub_type; cbn [size Nat.add VarianceModel.sub]; reflexivity.
  - destruct Ha as [Hd _]. destruct d as [| d]; [congruence |].
    split; unfold VarianceModel.is_sub_type; cbn [size Nat.add VarianceModel.sub]; reflexivity.
Qed.

Lemma mentions_any : forall t, mentions x t = true -> t <> Any.
Proof. intros t H ->. discriminate. Qed.
Lemma replaced_no_union : forall t, no_union t -> no_union (replaced t).
Proof. intros [y | | c ts | ps r | ts | ts] H; cbn [replace]; try exact Logic.I; [destruct (x =? y); exact Logic.I | destruct H]. Qed.
Lemma replaced_any : forall t, t <> Any -> replaced t <> Any.
Proof. intros [y | | c ts | ps r | ts | ts] H; cbn [replace]; try discriminate; try congruence. destruct (x =? y); discriminate. Qed.

Theorem simple_told : forall t, simple inherits x t -> told t.
Proof.
  intros t Hs. induction Hs as [y | | c ts Hs IH | ps r Hp IHp Hr IHr | ts Hs IH | ts Hs IH Ha]; unfold told; cbn [replace].
  - cbn [VarianceSpec.signs]. destruct (x =? y) eqn:E.
    + rewrite is_sub_object. split; [split; [intros _; constructor; [reflexivity | constructor] | reflexivity] |].
      split; [intro H; discriminate |]. intro H. inversion H as [| a b E1 E2]. discriminate E1.
    + rewrite is_sub_refl. split; (split; [constructor | reflexivity]).
  - rewrite is_sub_refl. split; (split; [constructor | reflexivity]).
  - rewrite !is_sub_instance by (rewrite map_length; reflexivity). rewrite signs_instance.
    clear Hs. generalize 0. induction ts as [| t ts IHl]; intro i; cbn [map VarianceModel.arguments_match argument_signs].
    + split; (split; [constructor | reflexivity]).
    + destruct (IH t (or_introl eq_refl)) as [H1 H2].
      destruct (IHl (fun u Hu => IH u (or_intror Hu)) (S i)) as [I1 I2].
      rewrite !andb_true_iff, plus_app, minus_app, I1, I2.
      destruct (same_replaced t) as [S1 S2].
      assert (S3 : negb (mentions x t) = true <-> signs t = []) by (rewrite negb_true_iff; apply mentions_signs).
      destruct (table c i); cbn [under].
      * rewrite S1, S2, S3. change (map (fun s => Both) (signs t)) with (map (under Invariant) (signs t)).
        rewrite plus_both, minus_both. tauto.
      * rewrite map_same, H1, H2. tauto.
      * change (map (fun s => flip s) (signs t)) with (map flip (signs t)). rewrite plus_flip, minus_flip, H1, H2. tauto.
  - rewrite !is_sub_function. cbn [VarianceSpec.signs]. destruct IHr as [R1 R2].
    destruct (told_all2 ps IHp) as (_ & _ & A3 & A4).
    rewrite !andb_true_iff, plus_app, minus_app, plus_flip, minus_flip, R1, R2, A3, A4. tauto.
  - rewrite !is_sub_tuple. cbn [VarianceSpec.signs]. destruct (told_all2 ts IH) as (A1 & A2 & _ & _). rewrite A1, A2. tauto.
  - rewrite !is_sub_union_left by discriminate. cbn [VarianceSpec.signs]. rewrite !forallb_forall, plus_flat, minus_flat.
    assert (Hone : forall t, In t ts ->
      (is_sub_type t (Union (map replaced ts)) = true <-> all_plus (signs t))
      /\ (is_sub_type (replaced t) (Union ts) = true <-> all_minus (signs t))).
    { intros t Ht. destruct (IH t Ht) as [H1 H2]. destruct (mentions x t) eqn:Hm.
      - apply in_split in Ht. destruct Ht as (before & after & E). destruct (Ha before t after E Hm) as [Hn Hap].
        rewrite is_sub_union_right by (try exact Hn; apply mentions_any; exact Hm).
        rewrite is_sub_union_right by (try (apply replaced_no_union; exact Hn); apply replaced_any, mentions_any; exact Hm).
        rewrite <- H1, <- H2, !existsb_exists. split; split.
        + intros (u & Hu & Hsub). apply in_map_iff in Hu. destruct Hu as (w & <- & Hw). rewrite E in Hw.
          apply in_app_iff in Hw. cbn [In] in Hw. destruct Hw as [Hw | [<- | Hw]]; [| exact Hsub |];
            (assert (Hw2 : In w (before ++ after)) by (apply in_or_app; tauto); destruct (apart_false t w Hm Hn (Hap w Hw2)); congruence).
        + intro Hsub. exists (replaced t). split; [| exact Hsub]. apply in_map. rewrite E. apply in_or_app. right. left. reflexivity.
        + intros (w & Hw & Hsub). rewrite E in Hw.
          apply in_app_iff in Hw. cbn [In] in Hw. destruct Hw as [Hw | [<- | Hw]]; [| exact Hsub |];
            (assert (Hw2 : In w (before ++ after)) by (apply in_or_app; tauto); destruct (apart_false t w Hm Hn (Hap w Hw2)); congruence).
        + intro Hsub. exists t. split; [| exact Hsub]. rewrite E. apply in_or_app. right. left. reflexivity.
      - apply mentions_signs in Hm as Hg. rewrite Hg. rewrite (replace_unchanged object t Hm).
        split; (split; [constructor |]); intros _.
        + apply (is_sub_into_union t t); [| apply is_sub_refl]. rewrite <- (replace_unchanged object t Hm) at 1. apply in_map. exact Ht.
        + apply (is_sub_into_union t t ts Ht). apply is_sub_refl. }
    split; split.
    + intros H t Ht. apply (Hone t Ht). apply H. exact Ht.
    + intros H t Ht. apply (Hone t Ht). apply H. exact Ht.
    + intros H t Ht. apply (Hone t Ht). apply H. apply in_map. exact Ht.
    + intros H t Ht. apply in_map_iff in Ht. destruct Ht as (w & <- & Hw). apply (Hone w Hw). apply H. exact Hw.
Qed.

Lemma check_told : forall t, simple inherits x t ->
  match check inherits table x t with
  | Some (co, contra) => (co = true <-> all_plus (signs t)) /\ (contra = true <-> all_minus (signs t)) /\ signs t <> []
  | None => signs t = []
  end.
Proof.
  intros t Hs. unfold check. destruct (mentions x t) eqn:Hm.
  - destruct (simple_told t Hs) as [H1 H2]. split; [exact H1 |]. split; [exact H2 |]. intro E. apply mentions_signs in E. congruence.
  - apply mentions_signs. exact Hm.
Qed.
End Check.
End Program.
