(** Proofs about subscripts of tuples and the parts of tuples *)
From Coq Require Import List ZArith Bool Lia.
From Verif Require Import TupleModel TupleSpec.
Import ListNotations.
Open Scope Z_scope.

(** ** Lists *)

Lemma nth_skipn : forall {A} n (l : list A) k, nth_error (skipn n l) k = nth_error l (n + k).
Proof.
  intros A n; induction n as [|n IH]; intros l k; [reflexivity|]. destruct l as [|x l]; [destruct k; reflexivity|]. exact (IH l k).
Qed.

Lemma nth_rev : forall {A} (l : list A) k, nth_error (rev l) k = if Nat.ltb k (length l) then nth_error l (length l - 1 - k) else None.
Proof.
  intros A l k. destruct (Nat.ltb k (length l)) eqn:E.
  - apply Nat.ltb_lt in E. destruct (nth_error l (length l - 1 - k)) as [x|] eqn:Ex.
    + assert (Hl : (k < length (rev l))%nat) by (rewrite rev_length; exact E).
      rewrite (nth_error_nth' (rev l) x Hl). f_equal. rewrite rev_nth by exact E.
      replace (length l - S k)%nat with (length l - 1 - k)%nat by lia. exact (nth_error_nth _ _ _ Ex).
    + apply nth_error_None in Ex. lia.
  - apply Nat.ltb_ge in E. apply nth_error_None. rewrite rev_length. exact E.
Qed.

Lemma nth_step : forall {A} (l : list A) c k j, nth_error (step_from c k l) j = nth_error l (c + j * S k).
Proof.
  intros A l; induction l as [|x l IH]; intros c k j.
  - cbn. destruct j; destruct c; destruct k; reflexivity.
  - cbn [step_from]. destruct c as [|c].
    + destruct j as [|j]; [reflexivity|]. cbn [nth_error]. rewrite IH. replace (0 + S j * S k)%nat with (S (k + j * S k)) by lia. reflexivity.
    + rewrite IH. reflexivity.
Qed.

Lemma nth_middle : forall {A} a b (l : list A) j,
  nth_error (rev (skipn b (rev (skipn a l)))) j = if Nat.ltb (a + j) (length l - b) then nth_error l (a + j) else None.
Proof.
  intros A a b l j. rewrite nth_rev, nth_skipn, nth_rev, nth_skipn, !skipn_length, rev_length, !skipn_length.
  destruct (Nat.ltb (a + j) (length l - b)) eqn:E; [apply Nat.ltb_lt in E|apply Nat.ltb_ge in E].
  - replace (Nat.ltb j (length l - a - b)) with true by (symmetry; apply Nat.ltb_lt; lia).
    match goal with |- (if ?c then _ else _) = _ => replace c with true by (symmetry; apply Nat.ltb_lt; lia) end.
    f_equal. lia.
  - replace (Nat.ltb j (length l - a - b)) with false by (symmetry; apply Nat.ltb_ge; lia). reflexivity.
Qed.

Lemma nth_rev_middle : forall {A} a b (l : list A) j,
  nth_error (skipn b (rev (skipn a l))) j = if Nat.ltb (a + b + j) (length l) then nth_error l (length l - 1 - b - j) else None.
Proof.
  intros A a b l j. rewrite nth_skipn, nth_rev, nth_skipn, skipn_length.
  destruct (Nat.ltb (a + b + j) (length l)) eqn:E; [apply Nat.ltb_lt in E|apply Nat.ltb_ge in E].
  - replace (Nat.ltb (b + j) (length l - a)) with true by (symmetry; apply Nat.ltb_lt; lia). f_equal. lia.
  - replace (Nat.ltb (b + j) (length l - a)) with false by (symmetry; apply Nat.ltb_ge; lia). reflexivity.
Qed.

Lemma nth_ext_eq : forall {A} (l k : list A), (forall n, nth_error l n = nth_error k n) -> l = k.
Proof.
  intros A l; induction l as [|x l IH]; intros [|y k] H; [reflexivity|discriminate (H O)|discriminate (H O)|].
  assert (Hx := H O). cbn in Hx. injection Hx as ->. f_equal. apply IH. intros n. exact (H (S n)).
Qed.

Lemma sliced_unique : forall {A} (l : list A) start stop step r r', sliced l start stop step r -> sliced l start stop step r' -> r = r'.
Proof. intros A l start stop step r r' [_ H] [_ H']. apply nth_ext_eq. intros n. rewrite H, H'. reflexivity. Qed.

(** ** Slices of a list *)

Theorem fixed_sliced : forall {A} (l : list A) start stop step, step <> 0 -> sliced l start stop step (as_fixed_len_tuple l start stop step).
Proof.
  intros A l start stop step Hs. split; [exact Hs|]. intros k. cbv zeta. unfold as_fixed_len_tuple, step_by. cbv zeta. change (Z.of_nat (length l)) with (len l).
  assert (Hn : len l = Z.of_nat (length l)) by reflexivity.
  destruct (step <? 0) eqn:E.
  - apply Z.ltb_lt in E. rewrite nth_step. replace (step >? 0) with false by (symmetry; rewrite Z.gtb_ltb; apply Z.ltb_ge; lia).
    replace (S (pred (Z.to_nat (- step)))) with (Z.to_nat (- step)) by lia.
    set (p := (k * Z.to_nat (- step))%nat). assert (Hp : Z.of_nat k * step = - Z.of_nat p) by (unfold p; rewrite Nat2Z.inj_mul, Z2Nat.id by lia; lia).
    rewrite Hp. clearbody p. clear Hp. cbn [Nat.add]. rewrite nth_rev_middle.
    match goal with |- (if ?c then _ else _) = (if ?d then _ else _) => assert (Hc : c = d) end.
    { unfold first_position, end_position, limited, counted.
      replace (step >? 0) with false by (symmetry; rewrite Z.gtb_ltb; apply Z.ltb_ge; lia). rewrite Z.gtb_ltb. apply eq_iff_eq_true. rewrite Nat.ltb_lt, Z.ltb_lt.
      destruct start as [s|]; destruct stop as [e|]; cbn [option_map];
        repeat match goal with |- context [if ?c then _ else _] => let E := fresh "E" in destruct c eqn:E; [apply Z.ltb_lt in E|apply Z.ltb_ge in E] end; lia. }
    rewrite <- Hc. match goal with |- (if ?c then _ else _) = _ => destruct c eqn:Ec end; [|reflexivity]. apply Nat.ltb_lt in Ec. f_equal.
    unfold first_position, limited, counted in *. replace (step >? 0) with false by (symmetry; rewrite Z.gtb_ltb; apply Z.ltb_ge; lia).
    clear Hc. destruct start as [s|]; destruct stop as [e|]; cbn [option_map] in *;
        repeat match goal with
               | |- context [if ?c then _ else _] => let E := fresh "E" in destruct c eqn:E; [apply Z.ltb_lt in E|apply Z.ltb_ge in E]
               | H : context [if ?c then _ else _] |- _ => let E := fresh "E" in destruct c eqn:E; [apply Z.ltb_lt in E|apply Z.ltb_ge in E]
               end; lia.
  - apply Z.ltb_ge in E. rewrite nth_step. replace (step >? 0) with true by (symmetry; rewrite Z.gtb_ltb; apply Z.ltb_lt; lia).
    replace (S (pred (Z.to_nat step))) with (Z.to_nat step) by lia.
    set (p := (k * Z.to_nat step)%nat). assert (Hp : Z.of_nat k * step = Z.of_nat p) by (unfold p; rewrite Nat2Z.inj_mul, Z2Nat.id by lia; lia).
    rewrite Hp. clearbody p. clear Hp. cbn [Nat.add]. rewrite nth_middle.
    match goal with |- (if ?c then _ else _) = (if ?d then _ else _) => assert (Hc : c = d) end.
    { unfold first_position, end_position, limited, counted.
      replace (step >? 0) with true by (symmetry; rewrite Z.gtb_ltb; apply Z.ltb_lt; lia). apply eq_iff_eq_true. rewrite Nat.ltb_lt, Z.ltb_lt.
      destruct start as [s|]; destruct stop as [e|]; cbn [option_map];
        repeat match goal with |- context [if ?c then _ else _] => let E := fresh "E" in destruct c eqn:E; [apply Z.ltb_lt in E|apply Z.ltb_ge in E] end; lia. }
    rewrite <- Hc. match goal with |- (if ?c then _ else _) = _ => destruct c eqn:Ec end; [|reflexivity]. apply Nat.ltb_lt in Ec. f_equal.
    unfold first_position, limited, counted in *. replace (step >? 0) with true by (symmetry; rewrite Z.gtb_ltb; apply Z.ltb_lt; lia).
    clear Hc. destruct start as [s|]; destruct stop as [e|]; cbn [option_map] in *;
        repeat match goal with
               | |- context [if ?c then _ else _] => let E := fresh "E" in destruct c eqn:E; [apply Z.ltb_lt in E|apply Z.ltb_ge in E]
               | H : context [if ?c then _ else _] |- _ => let E := fresh "E" in destruct c eqn:E; [apply Z.ltb_lt in E|apply Z.ltb_ge in E]
               end; lia.
Qed.

Ltac cases_of_bounds :=
  repeat match goal with
         | |- context [if ?c then _ else _] => let E := fresh "E" in destruct c eqn:E; [apply Z.ltb_lt in E|apply Z.ltb_ge in E]
         | H : context [if ?c then _ else _] |- _ => let E := fresh "E" in destruct c eqn:E; [apply Z.ltb_lt in E|apply Z.ltb_ge in E]
         end.

Lemma gtb_true : forall a b, b < a -> (a >? b) = true.
Proof. intros a b H. rewrite Z.gtb_ltb. apply Z.ltb_lt. exact H. Qed.

Lemma gtb_false : forall a b, a <= b -> (a >? b) = false.
Proof. intros a b H. rewrite Z.gtb_ltb. apply Z.ltb_ge. exact H. Qed.

Lemma get_prefix : forall {A} (p q : list A) i, 0 <= i < Z.of_nat (length p) -> nth_error (p ++ q) (Z.to_nat i) = nth_error p (Z.to_nat i).
Proof. intros A p q i H. apply nth_error_app1. lia. Qed.

Lemma get_suffix : forall {A} (q p : list A) i, 0 <= i -> nth_error (q ++ p) (Z.to_nat (i + Z.of_nat (length q))) = nth_error p (Z.to_nat i).
Proof. intros A q p i H. rewrite nth_error_app2 by lia. f_equal. lia. Qed.

(** A slice of a prefix is a slice of the whole if it ends there. *)
Lemma prefix_up : forall {A} (p q r : list A) start e step, 0 < step -> 0 <= e <= Z.of_nat (length p) ->
  (forall s, start = Some s -> 0 <= s) -> sliced p start (Some e) step r -> sliced (p ++ q) start (Some e) step r.
Proof.
  intros A p q r start e step Hs He Hst [Hn H]. split; [exact Hn|]. intros k. cbv zeta. rewrite H. cbv zeta. rewrite !(gtb_true step 0 Hs).
  rewrite app_length, Nat2Z.inj_add. unfold first_position, end_position, limited, counted. rewrite !(gtb_true step 0 Hs).
  assert (Hd : 0 <= Z.of_nat k * step) by nia. set (d := Z.of_nat k * step) in *. clearbody d.
  assert (Hst' : match start with Some s => 0 <= s | None => True end) by (destruct start; [apply Hst; reflexivity|exact I]).
  match goal with |- (if ?c then _ else _) = (if ?x then _ else _) => assert (Hc : c = x) end.
  { apply eq_iff_eq_true. rewrite !Z.ltb_lt. destruct start as [s|]; cases_of_bounds; lia. }
  rewrite <- Hc. match goal with |- (if ?c then _ else _) = _ => destruct c eqn:Ec end; [|reflexivity].
  apply Z.ltb_lt in Ec. symmetry in Hc. apply Z.ltb_lt in Hc. destruct start as [s|].
  - rewrite <- (get_prefix p q) by (cases_of_bounds; lia). f_equal. cases_of_bounds; lia.
  - rewrite <- (get_prefix p q) by (cases_of_bounds; lia). f_equal.
Qed.

Lemma prefix_down : forall {A} (p q r : list A) s stop step, step < 0 -> 0 <= s ->
  (s < Z.of_nat (length p) \/ exists e, stop = Some e /\ s <= e) ->
  (forall e, stop = Some e -> 0 <= e) -> s <= Z.of_nat (length p) -> sliced p (Some s) stop step r -> sliced (p ++ q) (Some s) stop step r.
Proof.
  intros A p q r s stop step Hs H0 Hc He Hle [Hn H]. split; [exact Hn|]. intros k. cbv zeta. rewrite H. cbv zeta.
  rewrite !(gtb_false step 0) by lia. rewrite app_length, Nat2Z.inj_add.
  unfold first_position, end_position, limited, counted. rewrite !(gtb_false step 0) by lia. rewrite !Z.gtb_ltb.
  assert (Hd : Z.of_nat k * step <= 0) by nia. set (d := Z.of_nat k * step) in *. clearbody d.
  assert (He' : match stop with Some e => 0 <= e | None => True end) by (destruct stop; [apply He; reflexivity|exact I]).
  assert (Hc' : s < Z.of_nat (length p) \/ match stop with Some e => s <= e | None => False end).
  { destruct Hc as [Hc|[e [-> Hc]]]; [left; exact Hc|right; exact Hc]. }
  clear Hc He. match goal with |- (if ?c then _ else _) = (if ?x then _ else _) => assert (Hc : c = x) end.
  { apply eq_iff_eq_true. rewrite !Z.ltb_lt. destruct stop as [e|]; cases_of_bounds; lia. }
  rewrite <- Hc. match goal with |- (if ?c then _ else _) = _ => destruct c eqn:Ec end; [|reflexivity].
  apply Z.ltb_lt in Ec. symmetry in Hc. apply Z.ltb_lt in Hc.
  destruct stop as [e|]; (rewrite <- (get_prefix p q) by (cases_of_bounds; lia)); f_equal; cases_of_bounds; lia.
Qed.

(** And a slice of a suffix, counted from the end. *)
Lemma suffix_down : forall {A} (q p r : list A) start e step, step < 0 -> e < 0 -> - e - 1 <= Z.of_nat (length p) ->
  (forall s, start = Some s -> s < 0) -> sliced p start (Some e) step r -> sliced (q ++ p) start (Some e) step r.
Proof.
  intros A q p r start e step Hs H0 Hle He [Hn H]. split; [exact Hn|]. intros k. cbv zeta. rewrite H. cbv zeta.
  rewrite !(gtb_false step 0) by lia. rewrite app_length, Nat2Z.inj_add.
  unfold first_position, end_position, limited, counted. rewrite !(gtb_false step 0) by lia. rewrite !Z.gtb_ltb.
  assert (Hd : Z.of_nat k * step <= 0) by nia. set (d := Z.of_nat k * step) in *. clearbody d.
  assert (He' : match start with Some s => s < 0 | None => True end) by (destruct start; [apply He; reflexivity|exact I]).
  clear He. match goal with |- (if ?c then _ else _) = (if ?x then _ else _) => assert (Hc : c = x) end.
  { apply eq_iff_eq_true. rewrite !Z.ltb_lt. destruct start as [s|]; cases_of_bounds; lia. }
  rewrite <- Hc. match goal with |- (if ?c then _ else _) = _ => destruct c eqn:Ec end; [|reflexivity].
  apply Z.ltb_lt in Ec. symmetry in Hc. apply Z.ltb_lt in Hc.
  destruct start as [s|]; (rewrite <- (get_suffix q p) by (cases_of_bounds; lia)); f_equal; cases_of_bounds; lia.
Qed.

Lemma suffix_up : forall {A} (q p r : list A) s stop step, 0 < step -> s < 0 -> - s <= Z.of_nat (length p) ->
  (forall e, stop = Some e -> e < 0) -> sliced p (Some s) stop step r -> sliced (q ++ p) (Some s) stop step r.
Proof.
  intros A q p r s stop step Hs H0 Hle He [Hn H]. split; [exact Hn|]. intros k. cbv zeta. rewrite H. cbv zeta.
  rewrite !(gtb_true step 0) by lia. rewrite app_length, Nat2Z.inj_add.
  unfold first_position, end_position, limited, counted. rewrite !(gtb_true step 0) by lia.
  assert (Hd : 0 <= Z.of_nat k * step) by nia. set (d := Z.of_nat k * step) in *. clearbody d.
  assert (He' : match stop with Some s => s < 0 | None => True end) by (destruct stop; [apply He; reflexivity|exact I]).
  clear He. match goal with |- (if ?c then _ else _) = (if ?x then _ else _) => assert (Hc : c = x) end.
  { apply eq_iff_eq_true. rewrite !Z.ltb_lt. destruct stop as [e|]; cases_of_bounds; lia. }
  rewrite <- Hc. match goal with |- (if ?c then _ else _) = _ => destruct c eqn:Ec end; [|reflexivity].
  apply Z.ltb_lt in Ec. symmetry in Hc. apply Z.ltb_lt in Hc.
  destruct stop as [e|]; (rewrite <- (get_suffix q p) by (cases_of_bounds; lia)); f_equal; cases_of_bounds; lia.
Qed.

(** [l[a:]], [l[a:-b]] and [l[::-1]] *)
Lemma sliced_middle : forall {A} (l : list A) a b, (a + b <= length l)%nat ->
  forall start stop, value_or_zero start = Z.of_nat a -> value_or_zero stop = - Z.of_nat b -> (b = O -> stop = None) ->
  sliced l start stop 1 (skipn a (drop_last b l)).
Proof.
  intros A l a b Hab start stop Hs He Hb. assert (Hb' : match stop with Some _ => (0 < b)%nat | None => True end).
  { destruct stop; [|exact I]. destruct b; [discriminate (Hb eq_refl)|lia]. }
  split; [lia|]. intros k. cbv zeta. unfold drop_last.
  rewrite nth_skipn. rewrite nth_rev, nth_skipn, nth_rev, skipn_length, rev_length.
  unfold first_position, end_position, limited, counted. change (1 >? 0) with true. cbv iota.
  destruct (Nat.ltb (a + k) (length l - b)) eqn:E; [apply Nat.ltb_lt in E|apply Nat.ltb_ge in E].
  - match goal with |- (if ?c then _ else _) = _ => replace c with true by (symmetry; apply Nat.ltb_lt; lia) end.
    match goal with |- _ = (if ?c then _ else _) => replace c with true end.
    + f_equal. destruct start as [s|]; cbn in Hs; cases_of_bounds; lia.
    + symmetry. apply Z.ltb_lt. destruct start as [s|]; cbn in Hs; destruct stop as [e|]; cbn in He; cases_of_bounds; lia.
  - match goal with |- _ = (if ?c then _ else _) => replace c with false; [reflexivity|] end. symmetry. apply Z.ltb_ge.
    destruct start as [s|]; cbn in Hs; destruct stop as [e|]; cbn in He; cases_of_bounds; lia.
Qed.

Lemma sliced_rev : forall {A} (l : list A), sliced l None None (-1) (rev l).
Proof.
  intros A l. split; [lia|]. intros k. cbv zeta. rewrite nth_rev. unfold first_position, end_position. change (-1 >? 0) with false. cbv iota.
  destruct (Nat.ltb k (length l)) eqn:E; [apply Nat.ltb_lt in E|apply Nat.ltb_ge in E].
  - rewrite gtb_true by lia. f_equal. lia.
  - rewrite gtb_false by lia. reflexivity.
Qed.

(** ** Slices of lists that correspond item by item *)

Lemma Forall2_nth : forall {A B} (R : A -> B -> Prop) l k, Forall2 R l k <->
  length l = length k /\ forall n a b, nth_error l n = Some a -> nth_error k n = Some b -> R a b.
Proof.
  intros A B R l; induction l as [|x l IH]; intros k; split.
  - intros H. inversion H; subst. split; [reflexivity|]. intros [|n]; discriminate.
  - intros [H _]. destruct k; [constructor|discriminate H].
  - intros H. inversion H as [|? y ? k' Hxy Hl]; subst. apply IH in Hl. destruct Hl as [Hl Hn]. split; [cbn; congruence|].
    intros [|n] a b Ha Hb; cbn in *; [injection Ha as <-; injection Hb as <-; exact Hxy|exact (Hn n a b Ha Hb)].
  - intros [H Hn]. destruct k as [|y k]; [discriminate H|]. constructor; [exact (Hn O x y eq_refl eq_refl)|].
    apply IH. split; [injection H; auto|]. intros n a b Ha Hb. exact (Hn (S n) a b Ha Hb).
Qed.

Lemma Forall2_app_split : forall {A B} (R : A -> B -> Prop) a b l, Forall2 R (a ++ b) l -> exists x y, l = x ++ y /\ Forall2 R a x /\ Forall2 R b y.
Proof. intros A B R a b l H. apply Forall2_app_inv_l in H. destruct H as [x [y [Hx [Hy ->]]]]. exists x, y. auto. Qed.

Lemma Forall2_skipn : forall {A B} (R : A -> B -> Prop) n l k, Forall2 R l k -> Forall2 R (skipn n l) (skipn n k).
Proof. intros A B R n; induction n as [|n IH]; intros l k H; [exact H|]. inversion H; subst; [constructor|]. cbn. apply IH. assumption. Qed.

Lemma Forall2_firstn : forall {A B} (R : A -> B -> Prop) n l k, Forall2 R l k -> Forall2 R (firstn n l) (firstn n k).
Proof. intros A B R n; induction n as [|n IH]; intros l k H; [constructor|]. inversion H; subst; [constructor|]. cbn. constructor; [assumption|]. apply IH. assumption. Qed.

Lemma Forall2_rev : forall {A B} (R : A -> B -> Prop) l k, Forall2 R l k -> Forall2 R (rev l) (rev k).
Proof. intros A B R l k H. induction H; [constructor|]. cbn. apply Forall2_app; [assumption|]. constructor; [assumption|constructor]. Qed.

Lemma Forall2_len : forall {A B} (R : A -> B -> Prop) l k, Forall2 R l k -> length l = length k.
Proof. intros A B R l k H. apply Forall2_nth in H. apply H. Qed.

Lemma Forall2_slice : forall {A B} (R : A -> B -> Prop) l k start stop step, Forall2 R l k -> step <> 0 ->
  Forall2 R (as_fixed_len_tuple l start stop step) (as_fixed_len_tuple k start stop step).
Proof.
  intros A B R l k start stop step H Hs. assert (Hl := Forall2_len _ _ _ H). apply Forall2_nth in H. destruct H as [_ H].
  destruct (fixed_sliced l start stop step Hs) as [_ H1]. destruct (fixed_sliced k start stop step Hs) as [_ H2].
  set (x := as_fixed_len_tuple l start stop step) in *. set (y := as_fixed_len_tuple k start stop step) in *. clearbody x y.
  cbv zeta in H1, H2. rewrite <- Hl in H2.
  assert (Hxy : forall n, (nth_error x n = None <-> nth_error y n = None)).
  { intros n. rewrite H1, H2. match goal with |- (if ?c then _ else _) = None <-> _ => destruct c end; [|tauto].
    rewrite !nth_error_None, Hl. tauto. }
  apply Forall2_nth. split.
  - assert (A1 := Hxy (length x)). assert (A2 := Hxy (length y)). rewrite !nth_error_None in A1, A2. lia.
  - intros n a b Ha Hb. rewrite H1 in Ha. rewrite H2 in Hb.
    match type of Ha with (if ?c then _ else _) = _ => destruct c end; [|discriminate Ha]. exact (H _ a b Ha Hb).
Qed.

(** ** Indexes that are literals *)

Lemma run_literals : forall {R} (join : R -> R -> R) f i is r, run_on_int_literals join f i = (is, Some r) ->
  exists first others, i = Literals first others /\
  forall l, In l (first :: others) -> exists z iz rz, l = Some z /\ f z = (iz, Some rz) /\ (is = [] -> iz = []) /\
    forall P : R -> Prop, (forall x y, P x \/ P y -> P (join x y)) -> P rz -> P r.
Proof.
  intros R join f i is r H. destruct i as [first others|]; [|discriminate H]. exists first, others. split; [reflexivity|].
  unfold run_on_int_literals in H. set (infer := infer_literal f) in *. set (next := next_literal join f) in *.
  assert (Hn : forall os is0, fold_left next os (is0, None) = (is0, None)).
  { intros os; induction os as [|o os IH]; intros is0; [reflexivity|]. exact (IH is0). }
  assert (Hf : forall os is0 r0, fold_left next os (is0, Some r0) = (is, Some r) ->
     ((is = [] -> is0 = []) /\ (forall P : R -> Prop, (forall x y, P x \/ P y -> P (join x y)) -> P r0 -> P r)) /\
     forall l, In l os -> exists z iz rz, l = Some z /\ f z = (iz, Some rz) /\ (is = [] -> iz = []) /\
      forall P : R -> Prop, (forall x y, P x \/ P y -> P (join x y)) -> P rz -> P r).
  { intros os; induction os as [|o os IH]; intros is0 r0 Ho.
    - cbn in Ho. injection Ho as -> ->. split; [split; [tauto|intros P _ Hp; exact Hp]|intros l []].
    - cbn [fold_left] in Ho. unfold next at 2 in Ho. unfold next_literal in Ho. cbn [snd fst] in Ho.
      fold infer in Ho. destruct (infer o) as [iz [rz|]] eqn:Eo; cbn [option_map fst snd] in Ho.
      2:{ rewrite Hn in Ho. discriminate Ho. }
      destruct (IH _ _ Ho) as [[Hi Hp] Hl]. split.
      + split; [intros Hnil; apply Hi in Hnil; apply app_eq_nil in Hnil; apply Hnil|]. intros P Hj Hr. apply (Hp P Hj). apply Hj. left. exact Hr.
      + intros l [<-|Hin]; [|exact (Hl l Hin)]. unfold infer in Eo. destruct o as [z|]; [|discriminate Eo].
        exists z, iz, rz. split; [reflexivity|]. split; [exact Eo|]. split.
        * intros Hnil. apply Hi in Hnil. apply app_eq_nil in Hnil. apply Hnil.
        * intros P Hj Hr. apply (Hp P Hj). apply Hj. right. exact Hr. }
  destruct (infer first) as [iz [rz|]] eqn:Ef; [|rewrite Hn in H; discriminate H].
  destruct (Hf _ _ _ H) as [[Hi Hp] Hl]. intros l [<-|Hin]; [|exact (Hl l Hin)].
  unfold infer in Ef. destruct first as [z|]; [|discriminate Ef]. exists z, iz, rz.
  split; [reflexivity|]. split; [exact Ef|]. split; [exact Hi|]. intros P Hj Hr. exact (Hp P Hj Hr).
Qed.

(** With int literals only and a callback that always answers, there is an answer, and an issue if there is one for a literal. *)
Lemma run_answers : forall {R} (join : R -> R -> R) f first others,
  (forall z, snd (f z) <> None) -> ~ In None (first :: others) ->
  exists is r, run_on_int_literals join f (Literals first others) = (is, Some r) /\
    (is <> [] -> exists z, In (Some z) (first :: others) /\ fst (f z) <> []).
Proof.
  intros R join f first others Hf Hn. unfold run_on_int_literals.
  assert (H : forall os is0 r0, ~ In None os -> exists is r,
    fold_left (next_literal join f) os (is0, Some r0) = (is, Some r) /\
    (is <> [] -> is0 <> [] \/ exists z, In (Some z) os /\ fst (f z) <> [])).
  { intros os; induction os as [|o os IH]; intros is0 r0 Ho.
    - exists is0, r0. split; [reflexivity|]. intros H; left; exact H.
    - cbn [fold_left]. unfold next_literal at 2. cbn [snd fst]. destruct o as [z|]; [|destruct Ho; left; reflexivity]. cbn [infer_literal].
      destruct (f z) as [iz [rz|]] eqn:E; [|destruct (Hf z); rewrite E; reflexivity]. cbn [option_map fst snd].
      destruct (IH (is0 ++ iz) (join r0 rz)) as [is [r [Hr Hi]]]; [intros Hin; apply Ho; right; exact Hin|].
      exists is, r. split; [exact Hr|]. intros Hnil. destruct (Hi Hnil) as [Ha|[z' [Hz Hz']]].
      + destruct is0 as [|x is0]; [|left; discriminate]. right. exists z. split; [left; reflexivity|]. rewrite E. exact Ha.
      + right. exists z'. split; [right; exact Hz|exact Hz']. }
  destruct first as [z|]; [|destruct Hn; left; reflexivity]. cbn [infer_literal].
  destruct (f z) as [iz [rz|]] eqn:E; [|destruct (Hf z); rewrite E; reflexivity].
  destruct (H others iz rz) as [is [r [Hr Hi]]]; [intros Hin; apply Hn; right; exact Hin|]. exists is, r. split; [exact Hr|].
  intros Hnil. destruct (Hi Hnil) as [Ha|[z' [Hz Hz']]].
  - exists z. split; [left; reflexivity|]. rewrite E. exact Ha.
  - exists z'. split; [right; exact Hz|exact Hz'].
Qed.

Section Sound.
Context {T V : Type}.
Variables (has : T -> V -> Prop) (stands_for : N -> list V -> Prop).
Variables (object error : T) (union : list T -> T) (avoid_implicit_literal : T -> T).
Notation is_tuple := (is_tuple has stands_for).
Notation item_at := (item_at object error union).
Notation get_item := (get_item object error union avoid_implicit_literal).
Notation get_slice := (get_slice object error union avoid_implicit_literal).
Notation union_of_entries := (union_of_entries object union avoid_implicit_literal).

Hypothesis has_object : forall v, has object v.
Hypothesis has_union : forall l t v, In t l -> has t v -> has (union l) v.
Hypothesis has_avoid : forall t v, has t v -> has (avoid_implicit_literal t) v.

Lemma Forall2_In_r : forall ts vs v, Forall2 has ts vs -> In v vs -> exists t, In t ts /\ has t v.
Proof.
  intros ts vs v H. induction H as [|t u ts us Ht Hr IH]; intros Hv; [destruct Hv|]. destruct Hv as [<-|Hv].
  - exists t. split; [left; reflexivity|exact Ht].
  - destruct (IH Hv) as [s [Hs Hh]]. exists s. split; [right; exact Hs|exact Hh].
Qed.

Lemma union_entries : forall a vs v, is_tuple a vs -> In v vs -> has (union_of_entries a) v.
Proof.
  intros a vs v H Hv. destruct a as [ts|t|w]; cbn [TupleSpec.is_tuple TupleModel.union_of_entries] in *.
  - destruct (Forall2_In_r _ _ _ H Hv) as [t [Ht Hh]]. apply (has_union _ (avoid_implicit_literal t)); [apply in_map; exact Ht|apply has_avoid; exact Hh].
  - rewrite Forall_forall in H. exact (H v Hv).
  - destruct H as [l [m [r [-> [Hl [Hm Hr]]]]]]. destruct (middle w) as [n|t]; [apply has_object|].
    assert (Ht : exists s, In s (before w ++ t :: after w) /\ has s v).
    { apply in_app_or in Hv. destruct Hv as [Hv|Hv]; [|apply in_app_or in Hv; destruct Hv as [Hv|Hv]].
      - destruct (Forall2_In_r _ _ _ Hl Hv) as [s [Hs Hh]]. exists s. split; [apply in_or_app; left; exact Hs|exact Hh].
      - cbn in Hm. rewrite Forall_forall in Hm. exists t. split; [apply in_or_app; right; left; reflexivity|exact (Hm v Hv)].
      - destruct (Forall2_In_r _ _ _ Hr Hv) as [s [Hs Hh]]. exists s. split; [apply in_or_app; right; right; exact Hs|exact Hh]. }
    destruct Ht as [s [Hs Hh]]. apply (has_union _ (avoid_implicit_literal s)); [apply in_map; exact Hs|apply has_avoid; exact Hh].
Qed.

Lemma item_In : forall (vs : list V) z v, item vs z v -> In v vs.
Proof. intros vs z v [n [H _]]. exact (nth_error_In _ _ H). Qed.

Lemma In_firstn_nth : forall {A} n (l : list A) k x, nth_error l k = Some x -> (k < n)%nat -> In x (firstn n l).
Proof.
  intros A n; induction n as [|n IH]; intros l k x H Hk; [lia|]. destruct l as [|y l]; [destruct k; discriminate H|].
  destruct k as [|k]; [injection H as ->; left; reflexivity|]. right. apply (IH l k x H). lia.
Qed.

Lemma In_take_last : forall {A} n (l : list A) k x, nth_error l (length l - 1 - k) = Some x -> (k < length l)%nat -> (k < n)%nat -> In x (take_last n l).
Proof.
  intros A n l k x H Hl Hk. unfold take_last. apply in_rev. rewrite rev_involutive. apply (In_firstn_nth n (rev l) k x); [|exact Hk].
  rewrite nth_rev. apply Nat.ltb_lt in Hl. rewrite Hl. exact H.
Qed.

Lemma Forall2_nth_r : forall ts vs n v, Forall2 has ts vs -> nth_error vs n = Some v -> exists t, nth_error ts n = Some t /\ has t v.
Proof.
  intros ts vs n v H Hv. apply Forall2_nth in H. destruct H as [Hl Hn]. destruct (nth_error ts n) as [t|] eqn:E.
  - exists t. split; [reflexivity|exact (Hn n t v E Hv)].
  - apply nth_error_None in E. assert (nth_error vs n <> None) by congruence. apply nth_error_Some in H. lia.
Qed.

(** One literal: the item has the type, and it is there if nothing is reported. *)
Lemma item_at_sound : forall a z is r vs v, item_at a z = (is, r) -> is = [] -> is_tuple a vs -> item vs z v -> exists t, r = Some t /\ has t v.
Proof.
  intros a z is r vs v H Hi Ha [n [Hn Hz]]. subst is. destruct a as [ts|t|w]; cbn [TupleSpec.is_tuple] in Ha.
  - destruct (Forall2_nth_r _ _ _ _ Ha Hn) as [t [Ht Hh]]. assert (Hl := Forall2_len _ _ _ Ha).
    assert (Hlt : (n < length ts)%nat) by (apply nth_error_Some; congruence).
    assert (E : (if z <? 0 then get ts (len ts + z) else get ts z) = Some t).
    { unfold get, len. destruct (z <? 0) eqn:Ez; [apply Z.ltb_lt in Ez|apply Z.ltb_ge in Ez].
      - destruct (Z.of_nat (length ts) + z <? 0) eqn:Ey; [apply Z.ltb_lt in Ey; lia|]. rewrite <- Ht. f_equal. lia.
      - replace (z <? 0) with false by (symmetry; apply Z.ltb_ge; lia). rewrite <- Ht. f_equal. lia. }
    cbn [TupleModel.item_at] in H. rewrite E in H. cbn in H. injection H as <-. exists t. auto.
  - cbn in H. injection H as <-. exists t. split; [reflexivity|]. rewrite Forall_forall in Ha. apply Ha. exact (nth_error_In _ _ Hn).
  - destruct Ha as [l [m [r0 [-> [Hl [Hm Hr]]]]]]. assert (Ll := Forall2_len _ _ _ Hl). assert (Lr := Forall2_len _ _ _ Hr).
    cbn [TupleModel.item_at] in H. rewrite !app_length in Hz.
    assert (Hlt : (n < length l + (length m + length r0))%nat) by (rewrite <- !app_length; apply nth_error_Some; congruence).
    destruct (z <? 0) eqn:Ez; [apply Z.ltb_lt in Ez|apply Z.ltb_ge in Ez].
    + set (k := Z.to_nat (- z - 1)) in H. assert (Hk : n = (length l + length m + length r0 - 1 - k)%nat) by (unfold k; lia).
      destruct (Nat.leb (length (after w) + length (before w)) k) eqn:E1; [discriminate H|]. apply Nat.leb_gt in E1.
      destruct (Nat.ltb k (length (after w))) eqn:E2; [apply Nat.ltb_lt in E2|apply Nat.ltb_ge in E2].
      * rewrite app_assoc, nth_error_app2 in Hn by (rewrite app_length; lia). rewrite app_length in Hn.
        destruct (Forall2_nth_r _ _ _ _ Hr Hn) as [t [Ht Hh]].
        replace (n - (length l + length m))%nat with (length (after w) - k - 1)%nat in Ht by lia.
        rewrite Ht in H. cbn in H. injection H as <-. exists t. auto.
      * destruct (middle w) as [x|t]; injection H as <-; [exists object; split; [reflexivity|apply has_object]|].
        eexists. split; [reflexivity|]. destruct (Nat.ltb n (length l)) eqn:E3; [apply Nat.ltb_lt in E3|apply Nat.ltb_ge in E3].
        -- rewrite nth_error_app1 in Hn by exact E3. destruct (Forall2_nth_r _ _ _ _ Hl Hn) as [s [Hs Hh]].
           apply (has_union _ s); [|exact Hh]. apply in_or_app. left.
           apply (In_take_last _ _ (length (before w) - 1 - n)); [|lia|lia]. rewrite <- Hs. f_equal. lia.
        -- apply (has_union _ t); [apply in_or_app; right; left; reflexivity|]. cbn in Hm. rewrite Forall_forall in Hm. apply Hm.
           rewrite nth_error_app2 in Hn by exact E3. rewrite nth_error_app1 in Hn by lia. exact (nth_error_In _ _ Hn).
    + assert (Hzn : Z.to_nat z = n) by lia. cbv zeta in H. rewrite Hzn in H.
      destruct (Nat.leb (length (before w) + length (after w)) n) eqn:E1; [discriminate H|]. apply Nat.leb_gt in E1.
      destruct (Nat.ltb n (length (before w))) eqn:E2; [apply Nat.ltb_lt in E2|apply Nat.ltb_ge in E2].
      * rewrite nth_error_app1 in Hn by lia. destruct (Forall2_nth_r _ _ _ _ Hl Hn) as [t [Ht Hh]].
        rewrite Ht in H. cbn in H. injection H as <-. exists t. auto.
      * destruct (middle w) as [x|t]; injection H as <-; [exists object; split; [reflexivity|apply has_object]|].
        eexists. split; [reflexivity|]. rewrite nth_error_app2 in Hn by lia.
        destruct (Nat.ltb (n - length l) (length m)) eqn:E3; [apply Nat.ltb_lt in E3|apply Nat.ltb_ge in E3].
        -- apply (has_union _ t); [left; reflexivity|]. cbn in Hm. rewrite Forall_forall in Hm. apply Hm.
           rewrite nth_error_app1 in Hn by lia. exact (nth_error_In _ _ Hn).
        -- rewrite nth_error_app2 in Hn by lia. destruct (Forall2_nth_r _ _ _ _ Hr Hn) as [s [Hs Hh]].
           apply (has_union _ s); [|exact Hh]. right. apply (In_firstn_nth _ _ _ _ Hs). lia.
Qed.

Definition all_ints (i : index) : Prop := match i with Literals first others => ~ In None (first :: others) | NotLiteral => False end.

Lemma get_item_sound : forall a i t vs z v, get_item a i = ([], t) -> is_tuple a vs -> index_value i z -> item vs z v -> has t v.
Proof.
  intros a i t vs z v H Ha Hz Hv.
  assert (G : forall is r, run_on_int_literals (fun s t => union [s; t]) (item_at a) i = (is, r) ->
    (is, match r with Some t => t | None => union_of_entries a end) = ([], t) -> has t v).
  { intros is r Hr He. injection He as -> <-. destruct r as [r|].
    - destruct (run_literals _ _ _ _ _ Hr) as [first [others [-> Hl]]]. destruct Hz as [Hz|Hz].
      + destruct (Hl _ Hz) as [z' [iz [rz [E1 [E2 [E3 E4]]]]]]. injection E1 as <-.
        destruct (item_at_sound _ _ _ _ _ _ E2 (E3 eq_refl) Ha Hv) as [t [Et Hh]]. injection Et as ->.
        apply (E4 (fun r => has r v)); [|exact Hh]. intros x y [Hx|Hy].
        * apply (has_union _ x); [left; reflexivity|exact Hx].
        * apply (has_union _ y); [right; left; reflexivity|exact Hy].
      + destruct (Hl _ Hz) as [z' [iz [rz [E1 _]]]]. discriminate E1.
    - apply (union_entries a vs v Ha). exact (item_In _ _ _ Hv). }
  unfold TupleModel.get_item in H. destruct a as [ts|t'|w].
  - destruct (run_on_int_literals _ (item_at (FixedLen ts)) i) as [is r] eqn:E. exact (G is r eq_refl H).
  - injection H as ->. cbn in Ha. rewrite Forall_forall in Ha. apply Ha. exact (item_In _ _ _ Hv).
  - destruct (run_on_int_literals _ (item_at (WithUnpack w)) i) as [is r] eqn:E. exact (G is r eq_refl H).
Qed.

Definition arbitrary (a : args T) : bool := match a with ArbitraryLen _ => true | _ => false end.

Lemma item_of_pos : forall (vs : list V) n z, (n < length vs)%nat -> z = Z.of_nat n \/ z = Z.of_nat n - Z.of_nat (length vs) -> exists v, item vs z v.
Proof.
  intros vs n z Hn Hz. destruct (nth_error vs n) as [v|] eqn:E; [|apply nth_error_None in E; lia]. exists v, n. auto.
Qed.

(** Where nothing is reported, the item exists in every tuple of the type. *)
Lemma item_at_exists : forall a z vs, arbitrary a = false -> fst (item_at a z) = [] -> is_tuple a vs -> exists v, item vs z v.
Proof.
  intros a z vs Hb H Ha. destruct a as [ts|t|w]; [|discriminate Hb|]; cbn [TupleSpec.is_tuple TupleModel.item_at] in *.
  - assert (Hl := Forall2_len _ _ _ Ha). unfold get, len in H.
    destruct (z <? 0) eqn:Ez; [apply Z.ltb_lt in Ez|apply Z.ltb_ge in Ez].
    + destruct (Z.of_nat (length ts) + z <? 0) eqn:Ey; [discriminate H|apply Z.ltb_ge in Ey].
      apply (item_of_pos vs (Z.to_nat (Z.of_nat (length ts) + z))); lia.
    + replace (z <? 0) with false in H by (symmetry; apply Z.ltb_ge; lia).
      destruct (nth_error ts (Z.to_nat z)) as [t|] eqn:E; [|discriminate H]. assert (nth_error ts (Z.to_nat z) <> None) by congruence.
      apply nth_error_Some in H0. apply (item_of_pos vs (Z.to_nat z)); lia.
  - destruct Ha as [l [m [r0 [-> [Hl [Hm Hr]]]]]]. assert (Ll := Forall2_len _ _ _ Hl). assert (Lr := Forall2_len _ _ _ Hr).
    destruct (z <? 0) eqn:Ez; [apply Z.ltb_lt in Ez|apply Z.ltb_ge in Ez]; cbv zeta in H.
    + destruct (Nat.leb (length (after w) + length (before w)) (Z.to_nat (- z - 1))) eqn:E1; [discriminate H|]. apply Nat.leb_gt in E1.
      apply (item_of_pos _ (Z.to_nat (Z.of_nat (length (l ++ m ++ r0)) + z))); rewrite ?app_length; lia.
    + destruct (Nat.leb (length (before w) + length (after w)) (Z.to_nat z)) eqn:E1; [discriminate H|]. apply Nat.leb_gt in E1.
      apply (item_of_pos _ (Z.to_nat z)); rewrite ?app_length; lia.
Qed.

(** Where something is reported, the item is missing in the shortest tuple of the type. *)
Lemma item_at_reported : forall a z vs v, fst (item_at a z) <> [] -> is_tuple a vs ->
  match a with FixedLen ts => True | ArbitraryLen _ => True | WithUnpack w => length vs = (length (before w) + length (after w))%nat end -> ~ item vs z v.
Proof.
  intros a z vs v H Ha Hs [n [Hn Hz]]. assert (Hlt : (n < length vs)%nat) by (apply nth_error_Some; congruence).
  destruct a as [ts|t|w]; cbn [TupleSpec.is_tuple TupleModel.item_at] in *.
  - assert (Hl := Forall2_len _ _ _ Ha). unfold get, len in H.
    assert (Hne : nth_error ts n <> None) by (apply nth_error_Some; lia).
    destruct (z <? 0) eqn:Ez; [apply Z.ltb_lt in Ez|apply Z.ltb_ge in Ez].
    + destruct (Z.of_nat (length ts) + z <? 0) eqn:Ey; [apply Z.ltb_lt in Ey; lia|].
      replace (Z.to_nat (Z.of_nat (length ts) + z)) with n in H by lia. destruct (nth_error ts n); [apply H; reflexivity|apply Hne; reflexivity].
    + replace (z <? 0) with false in H by (symmetry; apply Z.ltb_ge; lia). replace (Z.to_nat z) with n in H by lia.
      destruct (nth_error ts n); [apply H; reflexivity|apply Hne; reflexivity].
  - apply H. reflexivity.
  - destruct (z <? 0) eqn:Ez; [apply Z.ltb_lt in Ez|apply Z.ltb_ge in Ez]; cbv zeta in H.
    + destruct (Nat.leb (length (after w) + length (before w)) (Z.to_nat (- z - 1))) eqn:E1; [apply Nat.leb_le in E1; lia|]. apply Nat.leb_gt in E1.
      destruct (Nat.ltb (Z.to_nat (- z - 1)) (length (after w))) eqn:E2; [apply Nat.ltb_lt in E2|destruct (middle w); apply H; reflexivity].
      destruct (nth_error (after w) (length (after w) - Z.to_nat (- z - 1) - 1)) eqn:E; [apply H; reflexivity|apply nth_error_None in E; lia].
    + destruct (Nat.leb (length (before w) + length (after w)) (Z.to_nat z)) eqn:E1; [apply Nat.leb_le in E1; lia|]. apply Nat.leb_gt in E1.
      destruct (Nat.ltb (Z.to_nat z) (length (before w))) eqn:E2; [apply Nat.ltb_lt in E2|destruct (middle w); apply H; reflexivity].
      destruct (nth_error (before w) (Z.to_nat z)) eqn:E; [apply H; reflexivity|apply nth_error_None in E; lia].
Qed.

Lemma item_at_answers : forall a z, snd (item_at a z) <> None.
Proof.
  intros a z. unfold TupleModel.item_at. destruct a as [ts|t|w]; [|discriminate|].
  - unfold found. destruct (if z <? 0 then get ts (len ts + z) else get ts z); discriminate.
  - cbv zeta. unfold found, out_of_range. repeat match goal with |- context [match ?c with _ => _ end] => destruct c; try discriminate end.
Qed.

End Sound.
