(** The tokenizer of the parser: which tokens it has, and what its operations do. *)
From Coq Require Import List Arith NArith Bool Lia.
From Verif Require Import TreeModel TreeSpec TreeProofs BacktrackModel ParserModel ParserSpec ParserTree ParserInv ParserPop.
Import ListNotations.

Section Tok.
  Variable all : list token.

  (** [pos]: the number of tokens that were read; [base]: the first token in the buffer; [fresh]: the last token was just read. *)
  Definition tk_ok (base pos : nat) (fresh : bool) (t : tokenizer token) : Prop :=
    exists high, tk_rest token t = skipn high all /\ high <= length all /\ pos <= high /\ (fresh = true -> 0 < pos) /\
      (tk_tokens token t = [] /\ pos = high /\ tk_recording token t = false \/
       tk_tokens token t = firstn (high - base) (skipn base all) /\ base < high /\ base <= pos /\ (fresh = true -> base < pos) /\
       (tk_next token t = pos - base \/ fresh = false /\ pos = length all /\ pos - base <= tk_next token t)).

  Lemma tk_new : forall base, tk_ok base 0 false (BacktrackModel.new token all).
  Proof. intros base. exists 0. cbn. repeat split; try lia; try discriminate. left. auto. Qed.

  Lemma window_nth : forall base high i, i < high - base -> nth_error (firstn (high - base) (skipn base all)) i = nth_error all (base + i).
  Proof. intros base high i H. rewrite nth_firstn by exact H. apply nth_skipn. Qed.
  Lemma window_none : forall base high i, high - base <= i -> nth_error (firstn (high - base) (skipn base all)) i = None.
  Proof. intros base high i H. apply nth_error_None. rewrite firstn_length. lia. Qed.
  Lemma window_nonempty : forall base high, base < high -> high <= length all -> firstn (high - base) (skipn base all) <> [].
  Proof. intros base high H L E. apply (f_equal (@length _)) in E. rewrite firstn_length, skipn_length in E. cbn in E. lia. Qed.

  Lemma skipn_cons_at : forall {A} n (l : list A) x r, skipn n l = x :: r -> nth_error l n = Some x /\ skipn (S n) l = r /\ n < length l.
  Proof.
    intros A n. induction n as [|n IH]; intros [|a l] x r H; cbn in H; try discriminate.
    - injection H as -> ->. cbn. repeat split; lia.
    - destruct (IH l x r H) as (E1 & E2 & E3). cbn [nth_error length]. repeat split; [exact E1|exact E2|lia].
  Qed.
  Lemma skipn_nil_len : forall {A} n (l : list A), skipn n l = [] -> length l <= n.
  Proof. intros A n l H. apply (f_equal (@length _)) in H. rewrite skipn_length in H. cbn in H. lia. Qed.

  Lemma window_snoc : forall base high x, base <= high -> nth_error all high = Some x ->
    firstn (high - base) (skipn base all) ++ [x] = firstn (S high - base) (skipn base all).
  Proof.
    intros base high x H N. replace (S high - base) with (S (high - base)) by lia.
    assert (N' : nth_error (skipn base all) (high - base) = Some x) by (rewrite nth_skipn; replace (base + (high - base)) with high by lia; exact N).
    revert N'. generalize (skipn base all) as l. generalize (high - base) as k. clear. induction k as [|k IH]; intros [|a l] N; cbn in *; try discriminate.
    - injection N as ->. reflexivity.
    - f_equal. apply IH. exact N.
  Qed.

  Lemma tk_next_some : forall base pos fr t tok t', tk_ok base pos fr t -> BacktrackModel.next token t = (Some tok, t') ->
    nth_error all pos = Some tok /\ tk_ok base (S pos) true t' /\ (tk_recording token t' = tk_recording token t).
  Proof.
    intros base pos fr t tok t' (high & R & L & Lp & Fr & C) H. unfold BacktrackModel.next in H. destruct C as [(C1 & C2 & C3)|(C1 & C2 & C3 & C4 & C5)].
    - rewrite C1, R in H. destruct (skipn high all) as [|x r] eqn:Sk; [discriminate|]. injection H as <- <-. destruct (skipn_cons_at _ _ _ _ Sk) as (E1 & E2 & E3). subst pos.
      split; [exact E1|]. split; [|reflexivity]. exists (S high). cbn. repeat split; try lia; auto.
    - rewrite C1 in H. destruct (firstn (high - base) (skipn base all)) as [|a b] eqn:W; [elim (window_nonempty base high C2 L W)|]. rewrite <- W in *.
      destruct C5 as [C5|(C5 & C6 & C7)].
      + rewrite C5 in H. destruct (le_lt_dec high pos) as [P|P].
        * rewrite window_none in H by lia. rewrite R in H. destruct (skipn high all) as [|x r] eqn:Sk; [discriminate|]. destruct (skipn_cons_at _ _ _ _ Sk) as (E1 & E2 & E3).
          assert (pos = high) by lia. subst pos. injection H as <- <-. split; [exact E1|]. destruct (tk_recording token t) eqn:Re.
          -- split; [|reflexivity]. exists (S high). cbn [tk_rest tk_tokens tk_next tk_recording]. repeat split; try lia; [auto|]. right. rewrite window_snoc by (try lia; exact E1). repeat split; try lia.
          -- split; [|reflexivity]. exists (S high). cbn. repeat split; try lia; auto.
        * rewrite window_nth in H by lia. replace (base + (pos - base)) with pos in H by lia. destruct (nth_error all pos) as [x|] eqn:E; [|apply nth_error_None in E; lia].
          injection H as <- <-. split; [reflexivity|]. split; [|reflexivity]. exists high. cbn [tk_rest tk_tokens tk_next tk_recording]. repeat split; auto; try lia. right. repeat split; auto; lia.
      + exfalso. rewrite window_none in H by lia. rewrite R in H. rewrite skipn_all2 in H by lia. discriminate.
  Qed.

  Lemma tk_next_none : forall base pos fr t t', tk_ok base pos fr t -> BacktrackModel.next token t = (None, t') ->
    pos = length all /\ tk_ok base pos false t' /\ (tk_recording token t' = tk_recording token t).
  Proof.
    intros base pos fr t t' (high & R & L & Lp & Fr & C) H. unfold BacktrackModel.next in H. destruct C as [(C1 & C2 & C3)|(C1 & C2 & C3 & C4 & C5)].
    - rewrite C1, R in H. destruct (skipn high all) as [|x r] eqn:Sk; [|discriminate]. apply skipn_nil_len in Sk. injection H as <-. split; [lia|]. split; [|reflexivity].
      exists high. repeat split; auto; try discriminate. rewrite R. symmetry. apply skipn_all2. exact Sk.
    - rewrite C1 in H. destruct (firstn (high - base) (skipn base all)) as [|a b] eqn:W; [elim (window_nonempty base high C2 L W)|]. rewrite <- W in *.
      assert (N : nth_error (firstn (high - base) (skipn base all)) (tk_next token t) = None).
      { destruct (nth_error _ (tk_next token t)); [discriminate|reflexivity]. }
      rewrite N in H. rewrite R in H. destruct (skipn high all) as [|x r] eqn:Sk; [|discriminate]. apply skipn_nil_len in Sk.
      assert (P : pos = length all).
      { destruct C5 as [C5|(C5 & C6 & C7)]; [|lia]. rewrite C5 in N. destruct (le_lt_dec high pos) as [P|P]; [lia|]. rewrite window_nth in N by lia. apply nth_error_None in N. lia. }
      split; [exact P|]. assert (high = length all) by lia. subst high. injection H as <-. destruct (tk_recording token t) eqn:Re.
      + split; [|reflexivity]. exists (length all). cbn [tk_rest tk_tokens tk_next tk_recording]. rewrite app_nil_r, skipn_all. repeat split; auto; try discriminate.
        right. repeat split; auto; try discriminate. right. repeat split; auto. destruct C5 as [C5|(C5 & C6 & C7)]; lia.
      + split; [|reflexivity]. exists (length all). cbn [tk_rest tk_tokens tk_next tk_recording]. rewrite skipn_all. repeat split; auto; try discriminate.
  Qed.

  Lemma tk_start : forall base pos t tok t' i, tk_ok base pos true t -> nth_error all (pos - 1) = Some tok -> BacktrackModel.start token t tok = (t', i) ->
    exists base', (tk_recording token t = true -> base' = base) /\ tk_ok base' pos true t' /\ tk_recording token t' = true /\ base' + i = pos - 1.
  Proof.
    intros base pos t tok t' i (high & R & L & Lp & Fr & C) N H. unfold BacktrackModel.start in H. specialize (Fr eq_refl). destruct C as [(C1 & C2 & C3)|(C1 & C2 & C3 & C4 & C5)].
    - rewrite C1 in H. injection H as <- <-. exists (pos - 1). refine (conj _ (conj _ (conj eq_refl _))); [congruence| |lia].
      exists high. cbn [tk_rest tk_tokens tk_next tk_recording]. repeat split; auto. right. subst high. replace (pos - (pos - 1)) with 1 by lia.
      repeat split; try lia. destruct (skipn (pos - 1) all) as [|x r] eqn:Sk; [apply skipn_nil_len in Sk; lia|]. destruct (skipn_cons_at _ _ _ _ Sk) as (E1 & _). cbn. congruence.
    - specialize (C4 eq_refl). rewrite C1 in H. destruct (firstn (high - base) (skipn base all)) as [|a b] eqn:W; [elim (window_nonempty base high C2 L W)|]. rewrite <- W in *.
      destruct C5 as [C5|(C5 & _)]; [|discriminate]. injection H as <- <-. exists base. refine (conj (fun _ => eq_refl) (conj _ (conj eq_refl _))); [|lia].
      exists high. cbn [tk_rest tk_tokens tk_next tk_recording]. repeat split; auto. right. repeat split; auto.
  Qed.

  Lemma tk_reset : forall base pos fr t q, tk_ok base pos fr t -> tk_recording token t = true -> base <= q -> q <= pos ->
    tk_ok base q false (BacktrackModel.reset token t (q - base)).
  Proof.
    intros base pos fr t q (high & R & L & Lp & Fr & C) Re B Q. destruct C as [(C1 & C2 & C3)|(C1 & C2 & C3 & C4 & C5)]; [congruence|].
    exists high. cbn. repeat split; auto; try lia; try discriminate. right. repeat split; auto; discriminate.
  Qed.

  Lemma tk_stop : forall base pos fr t, tk_ok base pos fr t -> tk_ok base pos fr (BacktrackModel.stop token t).
  Proof.
    intros base pos fr t (high & R & L & Lp & Fr & C). exists high. cbn. repeat split; auto. destruct C as [(C1 & C2 & C3)|C]; [left; auto|right; exact C].
  Qed.

  Lemma tk_stale : forall base pos t, tk_ok base pos true t -> tk_ok base pos false t.
  Proof.
    intros base pos t (high & R & L & Lp & Fr & C). exists high. repeat split; auto; try discriminate. destruct C as [C|(C1 & C2 & C3 & C4 & C5)]; [left; exact C|right].
    repeat split; auto; try discriminate. destruct C5 as [C5|(C5 & _)]; [left; exact C5|discriminate].
  Qed.

  Hypothesis Order : in_order 0 all.

  Lemma order_between : forall l a i j x y, in_order a l -> i < j -> nth_error l i = Some x -> nth_error l j = Some y -> t_start x + t_len x <= t_start y.
  Proof.
    assert (F : forall l a j y, in_order a l -> nth_error l j = Some y -> a <= t_start y).
    { induction l as [|t l IH]; intros a j y O N; [destruct j; discriminate|]. destruct O as [O1 O2]. destruct j as [|j]; cbn in N; [injection N as <-; exact O1|]. specialize (IH _ j y O2 N). lia. }
    induction l as [|t l IH]; intros a i j x y O Lt Ni Nj; [destruct i; discriminate|]. destruct O as [O1 O2]. destruct j as [|j]; [lia|]. cbn in Nj. destruct i as [|i]; cbn in Ni.
    - injection Ni as <-. apply (F l _ j y O2 Nj).
    - apply (IH _ i j x y O2 ltac:(lia) Ni Nj).
  Qed.

  (** A token with a length is found by its place. *)
  Lemma unique : forall i j x y, nth_error all i = Some x -> nth_error all j = Some y -> t_start x = t_start y -> t_len x = t_len y -> t_len x <> 0 -> i = j.
  Proof.
    intros i j x y Ni Nj S L Z. destruct (lt_eq_lt_dec i j) as [[C|C]|C]; [|exact C|].
    - pose proof (order_between all 0 i j x y Order C Ni Nj). lia.
    - pose proof (order_between all 0 j i y x Order C Nj Ni). lia.
  Qed.

  Lemma last_match_some : forall l i a n j, last_match token t_start t_len l i a n = Some j ->
    exists k x, j = i + k /\ nth_error l k = Some x /\ t_start x = a /\ t_len x = n.
  Proof.
    induction l as [|t l IH]; intros i a n j H; cbn [last_match] in H; [discriminate|]. destruct (last_match token t_start t_len l (S i) a n) as [j'|] eqn:E.
    - injection H as <-. destruct (IH _ _ _ _ E) as (k & x & -> & N & Sx & L). exists (S k), x. cbn. repeat split; auto; lia.
    - destruct ((t_start t =? a) && (t_len t =? n)) eqn:C; [|discriminate]. injection H as <-. apply andb_true_iff in C. destruct C as [C1 C2]. apply Nat.eqb_eq in C1, C2.
      exists 0, t. cbn. repeat split; auto; lia.
  Qed.

  (** Going back behind the leaf for token number [q]. *)
  Lemma tk_leaf : forall base pos fr t q x t', tk_ok base pos fr t -> tk_recording token t = true -> base <= q -> q < pos -> nth_error all q = Some x -> t_len x <> 0 ->
    reset_to_last_leaf token t_start t_len t (t_start x) (t_len x) = Some t' -> tk_ok base (S q) false t' /\ tk_recording token t' = true.
  Proof.
    intros base pos fr t q x t' T Re B Q N Z H. pose proof T as (high & R & L & Lp & Fr & C). unfold reset_to_last_leaf in H.
    destruct (last_match token t_start t_len (tk_tokens token t) 0 (t_start x) (t_len x)) as [j|] eqn:E; [|discriminate]. injection H as <-.
    destruct C as [(C1 & C2 & C3)|(C1 & C2 & C3 & C4 & C5)]; [congruence|].
    destruct (last_match_some _ _ _ _ _ E) as (k & y & -> & Nk & S1 & S2). cbn [plus] in *. rewrite C1 in Nk.
    assert (K : k < high - base) by (destruct (le_lt_dec (high - base) k) as [X|X]; [rewrite window_none in Nk by exact X; discriminate|exact X]).
    rewrite window_nth in Nk by exact K. assert (Eq : base + k = q) by (apply (unique (base + k) q y x); auto; congruence). subst q.
    split; [|exact Re]. replace (S k) with (S (base + k) - base) by lia. apply (tk_reset base pos fr); auto; lia.
  Qed.
End Tok.
