(** Proofs about the members of an enum. *)
From Coq Require Import Ascii String List Bool NArith Lia PeanoNat.
From Verif Require Import EnumModel EnumSpec.
Import ListNotations.
Open Scope list_scope.

Lemma same_iff : forall a b, same a b = true <-> a = b.
Proof. intros a b. unfold same. destruct (name_dec a b); split; congruence. Qed.
Lemma same_refl : forall a, same a a = true.
Proof. intro a. apply same_iff. reflexivity. Qed.
Lemma same_sym : forall a b, same a b = same b a.
Proof. intros a b. unfold same. destruct (name_dec a b), (name_dec b a); congruence. Qed.
Lemma same_false : forall a b, same a b = false <-> a <> b.
Proof. intros a b. unfold same. destruct (name_dec a b); split; congruence. Qed.

Lemma starts_with_app : forall p n, starts_with p (p ++ n) = true.
Proof.
  induction p as [| c p IH]; intro n; cbn [starts_with app]; [reflexivity |].
  destruct (ascii_dec c c) as [_ | H]; [apply IH | congruence].
Qed.

Lemma starts_with_split : forall p n, starts_with p n = true -> exists r, n = p ++ r.
Proof.
  induction p as [| c p IH]; intros n H; [exists n; reflexivity |].
  destruct n as [| d n]; [discriminate |]. cbn [starts_with] in H.
  destruct (ascii_dec c d) as [-> | _]; [| discriminate].
  destruct (IH n H) as (r & ->). exists r. reflexivity.
Qed.

(** ** The forms of names *)

Definition begins (c : name) : Prop := exists x rest, c = x :: rest /\ x <> underscore.

Lemma core_begins : forall c, core c -> begins c /\ begins (rev c).
Proof.
  intros c [H (x & rest & -> & Hx)]. split; [exact H |]. exists x, (rev rest).
  rewrite rev_app_distr. split; [reflexivity | exact Hx].
Qed.

Lemma under_length : forall k, length (under k) = k.
Proof. induction k as [| k IH]; cbn; [reflexivity | rewrite IH; reflexivity]. Qed.

Lemma under_snoc : forall k, under k ++ [underscore] = underscore :: under k.
Proof. induction k as [| k IH]; [reflexivity |]. cbn [under app]. rewrite IH. reflexivity. Qed.
Lemma under_rev : forall k, rev (under k) = under k.
Proof. induction k as [| k IH]; [reflexivity |]. cbn [under rev]. rewrite IH. apply under_snoc. Qed.

Lemma at_inside : forall a r i, i < a -> is_underscore (at_ (under a ++ r) i) = true.
Proof.
  induction a as [| a IH]; intros r i Hi; [lia |]. destruct i as [| i]; cbn [under app].
  - reflexivity.
  - unfold at_. cbn [nth_error]. apply IH. lia.
Qed.
Lemma at_edge : forall a c r, begins c -> is_underscore (at_ (under a ++ c ++ r) a) = false.
Proof.
  intros a c r (x & rest & -> & Hx). induction a as [| a IH]; [| exact IH].
  unfold at_. cbn [under app nth_error is_underscore].
  destruct (ascii_dec x underscore); [contradiction | reflexivity].
Qed.

Section Form.
Variables (a b : nat) (c : name).
Hypothesis Hc : core c.
Notation n := (under a ++ c ++ under b).

Lemma form_rev : rev n = under b ++ rev c ++ under a.
Proof. rewrite !rev_app_distr, !under_rev, app_assoc. reflexivity. Qed.

Lemma front : forall i, i <= a -> is_underscore (at_ n i) = Nat.ltb i a.
Proof.
  intros i Hi. destruct (Nat.ltb_spec i a).
  - apply at_inside. assumption.
  - replace i with a by lia. apply at_edge. apply core_begins. exact Hc.
Qed.
Lemma back : forall i, i <= b -> is_underscore (at_end n i) = Nat.ltb i b.
Proof.
  intros i Hi. unfold at_end. rewrite form_rev. change (nth_error ?l i) with (at_ l i).
  destruct (Nat.ltb_spec i b).
  - apply at_inside. assumption.
  - replace i with b by lia. apply at_edge. apply core_begins. exact Hc.
Qed.
Lemma form_length : length n = a + length c + b /\ 1 <= length c.
Proof.
  rewrite !app_length, !under_length. split; [lia |].
  destruct Hc as [(x & rest & -> & _) _]. cbn. lia.
Qed.
End Form.

Lemma starts_underscore : forall n, starts_with (text "_") n = is_underscore (at_ n 0).
Proof.
  intros [| x n]; [reflexivity |]. unfold at_, text. cbn [list_ascii_of_string starts_with nth_error is_underscore].
  fold underscore. destruct (ascii_dec underscore x), (ascii_dec x underscore); congruence.
Qed.
Lemma starts_underscores : forall n,
  starts_with (text "__") n = is_underscore (at_ n 0) && is_underscore (at_ n 1).
Proof.
  intros [| x [| y n]]; [reflexivity | |]; unfold at_, text; cbn [list_ascii_of_string starts_with nth_error is_underscore];
    fold underscore; destruct (ascii_dec underscore x), (ascii_dec x underscore); try congruence; try reflexivity.
  destruct (ascii_dec underscore y), (ascii_dec y underscore); try congruence; reflexivity.
Qed.
Lemma ends_underscore : forall n, ends_with (text "_") n = is_underscore (at_end n 0).
Proof. intro n. unfold ends_with. apply starts_underscore. Qed.

Lemma excluded_form : forall n,
  excluded n = is_underscore (at_ n 0) && (is_underscore (at_end n 0) || is_underscore (at_ n 1)).
Proof.
  intro n. unfold excluded. rewrite starts_underscore, starts_underscores, ends_underscore.
  destruct (is_underscore (at_ n 0)); reflexivity.
Qed.

(** The name of the class *)
Definition proper_class (cls : name) : Prop := begins cls.

Lemma strip_proper : forall cls, proper_class cls -> strip cls = cls.
Proof.
  intros cls (x & rest & -> & Hx). cbn. destruct (ascii_dec x underscore); [contradiction | reflexivity].
Qed.

Definition mangled (n : name) : bool :=
  is_underscore (at_ n 0) && is_underscore (at_ n 1) && negb (is_underscore (at_end n 0) && is_underscore (at_end n 1)).

Lemma mangle_proper : forall cls n, proper_class cls ->
  mangle cls n = if mangled n then underscore :: cls ++ n else n.
Proof.
  intros cls n Hp. unfold mangle. fold (mangled n). rewrite (strip_proper cls Hp).
  destruct (mangled n); [| reflexivity]. destruct Hp as (x & rest & -> & _). reflexivity.
Qed.

Lemma at_end_app : forall p n i, i < length n -> at_end (p ++ n) i = at_end n i.
Proof.
  intros p n i Hi. unfold at_end. rewrite rev_app_distr. apply nth_error_app1.
  rewrite rev_length. exact Hi.
Qed.

Lemma is_underscore_some : forall n i, is_underscore (at_ n i) = true -> i < length n.
Proof.
  intros n i H. apply nth_error_Some. unfold at_ in H. intro E. rewrite E in H. discriminate.
Qed.

Lemma starts_private : forall cls n,
  is_underscore (at_ n 0) = true -> is_underscore (at_ n 1) = true ->
  starts_with (private_prefix cls) (underscore :: cls ++ n) = true.
Proof.
  intros cls n H0 H1. destruct n as [| x [| y n]]; try discriminate.
  cbn in H0, H1. destruct (ascii_dec x underscore) as [-> | _]; [| discriminate].
  destruct (ascii_dec y underscore) as [-> | _]; [| discriminate].
  unfold private_prefix.
  replace (underscore :: cls ++ underscore :: underscore :: n)
    with ((underscore :: cls ++ [underscore; underscore]) ++ n)
    by (cbn [app]; rewrite <- app_assoc; reflexivity).
  apply starts_with_app.
Qed.

Lemma private_mangled : forall cls n,
  mangled n = true -> 2 < length n -> is_private cls (underscore :: cls ++ n) = true.
Proof.
  intros cls n Hm Hl. unfold mangled in Hm. apply andb_true_iff in Hm. destruct Hm as [Hm He].
  apply andb_true_iff in Hm. destruct Hm as [H0 H1]. unfold is_private.
  rewrite (starts_private cls n H0 H1).
  change (underscore :: cls ++ n) with ((underscore :: cls) ++ n).
  rewrite !at_end_app by lia.
  assert (Hlen : Nat.ltb (length (private_prefix cls)) (length ((underscore :: cls) ++ n)) = true).
  { apply Nat.ltb_lt. unfold private_prefix. cbn [length app]. rewrite !app_length. cbn [length]. lia. }
  rewrite Hlen. rewrite <- negb_andb, He. reflexivity.
Qed.

Lemma not_private : forall cls n,
  starts_with (private_prefix cls) n = false -> is_private cls n = false.
Proof. intros cls n H. unfold is_private. rewrite H. rewrite andb_false_r. reflexivity. Qed.

Definition expected (a b : nat) : bool :=
  match a, b with
  | 1, 1 => true
  | 2, 2 => true
  | S (S _), 0 | S (S _), 1 => true
  | _, _ => false
  end%nat.

Lemma special_of_form : forall cls a b c,
  proper_class cls -> core c -> starts_with (private_prefix cls) (under a ++ c ++ under b) = false ->
  special cls (mangle cls (under a ++ c ++ under b)) = expected a b.
Proof.
  intros cls a b c Hp Hc Hn. rewrite (mangle_proper _ _ Hp).
  pose proof (front a b c Hc) as Hf. pose proof (back a b c Hc) as Hb.
  destruct (form_length a b c Hc) as [Hl Hl1].
  remember (under a ++ c ++ under b) as n eqn:En. clear En.
  assert (Hpriv : mangled n = true -> is_private cls (underscore :: cls ++ n) = true).
  { intro Hm. apply private_mangled; [exact Hm |].
    unfold mangled in Hm. apply andb_true_iff in Hm. destruct Hm as [Hm _].
    apply andb_true_iff in Hm. destruct Hm as [H0 H1].
    destruct a as [| [| a]]; [rewrite Hf in H0 by lia; discriminate | rewrite Hf in H1 by lia; discriminate | lia]. }
  unfold mangled in *.
  destruct a as [| [| a]].
  - rewrite (Hf 0) in * by lia. cbn [Nat.ltb Nat.leb andb expected] in *. unfold special, is_sunder, is_dunder.
    remember (Nat.ltb 2 (length n)) as l3 eqn:E3. remember (Nat.ltb 4 (length n)) as l5 eqn:E5.
    rewrite (Hf 0) by lia. cbn [Nat.ltb Nat.leb]. rewrite !andb_false_r. cbn [andb].
    rewrite (not_private _ _ Hn). reflexivity.
  - rewrite (Hf 0), (Hf 1) in * by lia. cbn [Nat.ltb Nat.leb andb] in *. unfold special, is_sunder, is_dunder.
    remember (Nat.ltb 2 (length n)) as l3 eqn:E3. remember (Nat.ltb 4 (length n)) as l5 eqn:E5.
    rewrite (not_private _ _ Hn), (Hf 0), (Hf 1) by lia. cbn [Nat.ltb Nat.leb andb negb orb].
    rewrite !andb_false_r. cbn [andb orb].
    destruct b as [| [| b]].
    + rewrite (Hb 0) by lia. cbn [Nat.ltb Nat.leb andb]. rewrite !andb_false_r. reflexivity.
    + rewrite (Hb 0), (Hb 1) by lia. cbn [Nat.ltb Nat.leb andb negb].
      rewrite (proj2 (Nat.ltb_lt 2 (length n))) in E3 by lia. rewrite E3. reflexivity.
    + rewrite (Hb 0), (Hb 1) by lia. cbn [Nat.ltb Nat.leb andb negb]. rewrite !andb_false_r. reflexivity.
  - rewrite (Hf 0), (Hf 1) in * by lia. cbn [Nat.ltb Nat.leb andb] in *.
    destruct b as [| [| b]].
    + rewrite (Hb 0) in * by lia. cbn [Nat.ltb Nat.leb andb negb] in *. unfold special.
      rewrite (Hpriv eq_refl). destruct a; reflexivity.
    + rewrite (Hb 0), (Hb 1) in * by lia. cbn [Nat.ltb Nat.leb andb negb] in *. unfold special.
      rewrite (Hpriv eq_refl). destruct a; reflexivity.
    + rewrite (Hb 0), (Hb 1) in * by lia. cbn [Nat.ltb Nat.leb andb negb] in *.
      unfold special, is_sunder, is_dunder.
    remember (Nat.ltb 2 (length n)) as l3 eqn:E3. remember (Nat.ltb 4 (length n)) as l5 eqn:E5.
      rewrite (not_private _ _ Hn), (Hf 0), (Hf 1), (Hf 2), (Hb 0), (Hb 1), (Hb 2) by lia.
      cbn [Nat.ltb Nat.leb andb negb]. rewrite !andb_false_r, !andb_true_r. cbn [orb].
      destruct a as [| a], b as [| b]; cbn [Nat.leb andb negb expected]; rewrite ?andb_false_r; try reflexivity.
      rewrite (proj2 (Nat.ltb_lt 4 (length n))) in E5 by lia. rewrite E5. reflexivity.
Qed.

Lemma excluded_of_form : forall a b c, core c ->
  excluded (under a ++ c ++ under b) = Nat.ltb 0 a && (Nat.ltb 0 b || Nat.ltb 1 a).
Proof.
  intros a b c Hc. rewrite excluded_form, (front a b c Hc), (back a b c Hc) by lia.
  destruct a as [| a]; [reflexivity |]. rewrite (front (S a) b c Hc) by lia. reflexivity.
Qed.

Lemma regular_special : forall cls n, proper_class cls -> regular cls n ->
  special cls (mangle cls n) = excluded n.
Proof.
  intros cls n Hp ((a & b & c & -> & Hc & Hform) & Hn).
  rewrite (special_of_form cls a b c Hp Hc Hn), (excluded_of_form a b c Hc).
  destruct Hform as [[-> | (-> & ->)] | [(-> & ->) | [(-> & ->) | (Ha & Hb)]]]; try reflexivity.
  destruct a as [| [| a]]; try lia. destruct b as [| [| b]]; try lia; destruct a; reflexivity.
Qed.

Lemma regular_unmangled : forall cls n, proper_class cls -> regular cls n ->
  excluded n = false -> mangle cls n = n.
Proof.
  intros cls n Hp ((a & b & c & -> & Hc & Hform) & _) He.
  rewrite (mangle_proper _ _ Hp). unfold mangled. rewrite (excluded_of_form a b c Hc) in He.
  destruct a as [| [| a]].
  - rewrite (front 0 b c Hc 0) by lia. reflexivity.
  - rewrite (front 1 b c Hc 0), (front 1 b c Hc 1) by lia. reflexivity.
  - cbn in He. rewrite orb_true_r in He. discriminate.
Qed.

Lemma mangled_ends : forall cls n, mangled n = true -> starts_with (private_prefix cls) (underscore :: cls ++ n) = true.
Proof.
  intros cls n Hm. unfold mangled in Hm. apply andb_true_iff in Hm. destruct Hm as [Hm _].
  apply andb_true_iff in Hm. destruct Hm as [H0 H1]. apply starts_private; assumption.
Qed.

Lemma mangle_injective : forall cls n m, proper_class cls -> regular cls n -> regular cls m ->
  mangle cls n = mangle cls m -> n = m.
Proof.
  intros cls n m Hp [_ Hn] [_ Hm] H. rewrite !(mangle_proper _ _ Hp) in H.
  destruct (mangled n) eqn:En, (mangled m) eqn:Em.
  - injection H as H. apply app_inv_head in H. exact H.
  - rewrite <- H, (mangled_ends _ _ En) in Hm. discriminate.
  - rewrite H, (mangled_ends _ _ Em) in Hn. discriminate.
  - exact H.
Qed.
