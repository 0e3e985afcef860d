(** The nondeterministic automaton of a rule. *)
From Coq Require Import List Arith NArith Bool Lia.
From Verif Require Import AutomatonModel AutomatonSpec.
Import ListNotations.

Notation nfa := (list (list (option symbol * nat))) (only parsing).

Definition edge (a : nfa) (p : nat) (x : option symbol) (q : nat) : Prop := In (x, q) (nth p a []).
Definition label (x : option symbol) : list symbol := match x with Some s => [s] | None => [] end.

(** Paths; the number is the length. *)
Inductive path (a : nfa) : nat -> nat -> list symbol -> nat -> Prop :=
| path_nil p : path a 0 p [] p
| path_cons n p x q w r : edge a p x q -> path a n q w r -> path a (S n) p (label x ++ w) r.

Lemma path_app : forall a n p u q, path a n p u q -> forall m v r, path a m q v r -> path a (n + m) p (u ++ v) r.
Proof. intros a n p u q H. induction H as [|n p x q w r E H IH]; intros m v r' H2; [exact H2|]. rewrite <- app_assoc. cbn [Nat.add]. econstructor; [exact E|]. apply IH. exact H2. Qed.

Lemma path_mono : forall a b, (forall p x q, edge a p x q -> edge b p x q) -> forall n p w q, path a n p w q -> path b n p w q.
Proof. intros a b S n p w q H. induction H; econstructor; eauto. Qed.

Lemma add_length : forall a p q x, length (add_transition a p q x) = length a.
Proof. induction a as [|ts a IH]; intros [|p] q x; cbn; try reflexivity. f_equal. apply IH. Qed.

Lemma add_edge : forall a p q x p' y q', p < length a -> (edge (add_transition a p q x) p' y q' <-> edge a p' y q' \/ (p' = p /\ y = x /\ q' = q)).
Proof.
  unfold edge. induction a as [|ts a IH]; intros p q x p' y q' L; [cbn in L; lia|]. destruct p as [|p]; cbn [add_transition].
  - destruct p' as [|p']; cbn [nth]; [|split; [auto|intros [H|(E & _)]; [exact H|discriminate]]]. rewrite in_app_iff. cbn [In]. split.
    + intros [H|[H|[]]]; [left; exact H|right]. injection H as -> ->. auto.
    + intros [H|(_ & -> & ->)]; [left; exact H|right; left; reflexivity].
  - cbn [length] in L. destruct p' as [|p']; cbn [nth]; [split; [auto|intros [H|(E & _)]; [exact H|discriminate]]|]. rewrite IH by lia. split; (intros [H|(E & H)]; [left; exact H|right; split; [lia|exact H]]).
Qed.

(** What [build] adds: states from [length a] on, with edges among themselves. *)
Definition extends (a b : nfa) : Prop := length a <= length b /\ (forall p x q, p < length a -> (edge b p x q <-> edge a p x q)) /\
  (forall p x q, length a <= p -> edge b p x q -> length a <= q < length b).

Definition no_entry (b : nfa) (s : nat) : Prop := forall p x, ~ edge b p x s.
Definition no_exit (b : nfa) (e : nat) : Prop := forall x q, ~ edge b e x q.

Definition well (a : nfa) : Prop := forall p x q, edge a p x q -> q < length a.

Lemma edge_bound : forall (a : nfa) p x q, edge a p x q -> p < length a.
Proof. intros a p x q H. unfold edge in H. destruct (lt_dec p (length a)) as [L|L]; [exact L|]. rewrite nth_overflow in H by lia. destruct H. Qed.

Lemma new_extends : forall a x, extends a (add_transition (a ++ [[]; []]) (length a) (S (length a)) x) /\
  (forall p y q, length a <= p -> edge (add_transition (a ++ [[]; []]) (length a) (S (length a)) x) p y q -> p = length a /\ y = x /\ q = S (length a)).
Proof.
  intros a x. assert (L : length (a ++ [[]; []]) = S (S (length a))) by (rewrite app_length; cbn; lia).
  assert (N : forall p y q, length a <= p -> ~ edge (a ++ [[]; []]) p y q).
  { intros p y q G H. unfold edge in H. rewrite app_nth2 in H by lia. destruct (p - length a) as [|[|[|k]]]; cbn in H; contradiction. }
  assert (K : forall p y q, length a <= p -> edge (add_transition (a ++ [[]; []]) (length a) (S (length a)) x) p y q -> p = length a /\ y = x /\ q = S (length a)).
  { intros p y q G H. apply add_edge in H; [|lia]. destruct H as [H|H]; [exfalso; exact (N _ _ _ G H)|exact H]. }
  split; [|exact K]. split; [rewrite add_length; lia|]. split.
  - intros p y q G. rewrite add_edge by lia. unfold edge. rewrite app_nth1 by lia. split; [intros [H|(-> & _)]; [exact H|lia]|auto].
  - intros p y q G H. destruct (K _ _ _ G H) as (_ & _ & ->). rewrite add_length. lia.
Qed.

Lemma extends_refl_new : forall (a : nfa), extends a (a ++ [[]; []]) /\ (forall p x q, length a <= p -> ~ edge (a ++ [[]; []]) p x q).
Proof.
  intros a. assert (L : length (a ++ [[]; []]) = S (S (length a))) by (rewrite app_length; cbn; lia).
  assert (N : forall p y q, length a <= p -> ~ edge (a ++ [[]; []]) p y q).
  { intros p y q G H. unfold edge in H. rewrite app_nth2 in H by lia. destruct (p - length a) as [|[|[|k]]]; cbn in H; contradiction. }
  split; [|exact N]. split; [lia|]. split; [|intros p x q G H; exfalso; exact (N _ _ _ G H)]. intros p x q G. unfold edge. rewrite app_nth1 by lia. reflexivity.
Qed.

Lemma extends_trans : forall a b c, extends a b -> extends b c -> extends a c.
Proof.
  intros a b c (L1 & O1 & N1) (L2 & O2 & N2). split; [lia|]. split.
  - intros p x q G. rewrite O2 by lia. apply O1. exact G.
  - intros p x q G H. destruct (lt_dec p (length b)) as [B|B].
    + apply O2 in H; [|exact B]. specialize (N1 p x q G H). lia.
    + specialize (N2 p x q ltac:(lia) H). lia.
Qed.

Lemma extends_add : forall a b p q x, extends a b -> length a <= p < length b -> length a <= q < length b -> extends a (add_transition b p q x).
Proof.
  intros a b p q x (L & O & N) P Q. split; [rewrite add_length; exact L|]. split.
  - intros p' y q' G. rewrite add_edge by lia. rewrite <- O by exact G. split; [intros [H|(-> & _)]; [exact H|lia]|auto].
  - intros p' y q' G H. rewrite add_length. apply add_edge in H; [|lia]. destruct H as [H|(_ & _ & ->)]; [exact (N _ _ _ G H)|exact Q].
Qed.

(** A path in an extended automaton that starts among the new states stays there; one that starts among the old ones is an old path. *)
Lemma old_path : forall a b, extends a b -> well a -> forall n p w q, path b n p w q -> p < length a -> path a n p w q.
Proof.
  intros a b (L & O & N) W n p w q H. induction H as [p|n p x q w r E H IH]; intros G; [constructor|]. apply O in E; [|exact G]. econstructor; [exact E|]. apply IH. exact (W _ _ _ E).
Qed.
Lemma old_to_new : forall a b, extends a b -> forall p x q, edge a p x q -> edge b p x q.
Proof. intros a b (L & O & N) p x q H. apply O; [exact (edge_bound _ _ _ _ H)|exact H]. Qed.

Lemma well_extends : forall a b, extends a b -> well a -> well b.
Proof.
  intros a b (L & O & N) W p x q H. destruct (lt_dec p (length a)) as [G|G]; [|assert (A := N p x q ltac:(lia) H); lia]. apply O in H; [|exact G]. assert (A := W _ _ _ H). lia.
Qed.

(** Paths through one added edge. *)
Lemma path_add : forall a s t x, s < length a -> forall n p w q, path (add_transition a s t x) n p w q ->
  path a n p w q \/ exists k m u v, path a k p u s /\ path (add_transition a s t x) m t v q /\ w = u ++ label x ++ v /\ n = k + S m.
Proof.
  intros a s t x L n p w q H. induction H as [p|n p y q w r E H IH]; [left; constructor|]. assert (E' := E). apply add_edge in E'; [|exact L]. destruct E' as [E'|(-> & -> & ->)].
  - destruct IH as [IH|(k & m & u & v & P1 & P2 & -> & ->)]; [left; econstructor; eassumption|]. right. exists (S k), m, (label y ++ u), v.
    split; [econstructor; eassumption|]. split; [exact P2|]. split; [rewrite <- app_assoc; reflexivity|lia].
  - right. exists 0, n, [], w. split; [constructor|]. split; [exact H|]. split; [reflexivity|lia].
Qed.

Lemma no_entry_path : forall b s, no_entry b s -> forall n p w, path b n p w s -> n = 0 /\ p = s /\ w = [].
Proof.
  intros b s N n p w H. remember s as e eqn:Ee in H. induction H as [p|n p x q w r E H IH]; [auto|]. destruct (IH Ee) as (-> & -> & ->). subst r. exfalso. exact (N _ _ E).
Qed.
Lemma no_exit_path : forall b e, no_exit b e -> forall n w q, path b n e w q -> n = 0 /\ q = e /\ w = [].
Proof. intros b e N n w q H. inversion H as [|? ? x q' w' r E H']; subst; [auto|]. exfalso. exact (N _ _ E). Qed.

Lemma path_last : forall a n p w q, path a n p w q -> (n = 0 /\ w = [] /\ p = q) \/ exists m u x r, path a m p u r /\ edge a r x q /\ w = u ++ label x.
Proof.
  intros a n p w q H. induction H as [p|n p x q w r E H IH]; [left; auto|]. right. destruct IH as [(-> & -> & ->)|(m & u & y & t & P & Ed & ->)].
  - exists 0, [], x, p. split; [constructor|]. split; [exact E|]. rewrite app_nil_r. reflexivity.
  - exists (S m), (label x ++ u), y, t. split; [econstructor; eassumption|]. split; [exact Ed|]. rewrite app_assoc. reflexivity.
Qed.
Lemma no_entry_add : forall b p q x s, p < length b -> no_entry b s -> q <> s -> no_entry (add_transition b p q x) s.
Proof. intros b p q x s L N D p' y H. apply add_edge in H; [|exact L]. destruct H as [H|(_ & _ & E)]; [exact (N _ _ H)|congruence]. Qed.
Lemma no_exit_add : forall b p q x e, p < length b -> no_exit b e -> p <> e -> no_exit (add_transition b p q x) e.
Proof. intros b p q x e L N D y q' H. apply add_edge in H; [|exact L]. destruct H as [H|(E & _)]; [exact (N _ _ H)|congruence]. Qed.

Section Build.
Variables (terminal_map nonterminal_map : N -> option N).
Notation build := (build terminal_map nonterminal_map).
Notation derives := (derives terminal_map nonterminal_map).

Lemma build_extends : forall r a b s e, build a r = Some (b, s, e) -> extends a b /\ length a <= s < length b /\ length a <= e < length b /\ s <> e.
Proof.
  induction r as [name|name|r1 IH1 r2 IH2|r IH|r IH|r1 IH1 r2 IH2|r IH|r IH]; intros a b s e H; cbn [AutomatonModel.build new_nfa_states] in H.
  - assert (G : forall x, Some (add_transition (a ++ [[]; []]) (length a) (S (length a)) (Some x), length a, S (length a)) = Some (b, s, e) -> extends a b /\ length a <= s < length b /\ length a <= e < length b /\ s <> e).
    { intros x E. injection E as <- <- <-. rewrite add_length, app_length. cbn [length]. split; [apply new_extends|lia]. }
    destruct (terminal_map name) as [t|]; [exact (G _ H)|]. destruct (nonterminal_map name) as [t|]; [exact (G _ H)|discriminate].
  - injection H as <- <- <-. rewrite add_length, app_length. cbn [length]. split; [apply new_extends|lia].
  - destruct (build (a ++ [[]; []]) r1) as [[[b1 x1] y1]|] eqn:E1; [|discriminate]. destruct (IH1 _ _ _ _ E1) as (X1 & S1 & Y1 & _). rewrite app_length in S1, Y1. cbn [length] in S1, Y1.
    unfold add_empty_transition in H. set (b2 := add_transition (add_transition b1 (length a) x1 None) y1 (S (length a)) None) in *.
    destruct (build b2 r2) as [[[b3 x2] y2]|] eqn:E2; [|discriminate]. destruct (IH2 _ _ _ _ E2) as (X2 & S2 & Y2 & _). injection H as <- <- <-.
    assert (L2 : length b2 = length b1) by (unfold b2; rewrite !add_length; reflexivity).
    assert (A : extends a b2). { unfold b2. apply extends_add; [apply extends_add|..]; rewrite ?add_length; try lia. exact (extends_trans _ _ _ (proj1 (extends_refl_new a)) X1). }
    assert (B : extends a b3) by exact (extends_trans _ _ _ A X2). assert (L3 := proj1 X2).
    split; [|rewrite !add_length; lia]. apply extends_add; [apply extends_add|..]; rewrite ?add_length; try lia. exact B.
  - destruct (build a r) as [[[b1 s1] e1]|] eqn:E; [|discriminate]. injection H as <- <- <-. destruct (IH _ _ _ _ E) as (X & S1 & Y & D). unfold add_empty_transition. rewrite add_length.
    split; [apply extends_add; assumption|auto].
  - destruct (build a r) as [[[b1 s1] e1]|] eqn:E; [|discriminate]. injection H as <- <- <-. destruct (IH _ _ _ _ E) as (X & S1 & Y & D). unfold add_empty_transition. rewrite add_length.
    split; [apply extends_add; assumption|auto].
  - destruct (build a r1) as [[[b1 s1] e1]|] eqn:E1; [|discriminate]. destruct (build b1 r2) as [[[b2 s2] e2]|] eqn:E2; [|discriminate]. injection H as <- <- <-.
    destruct (IH1 _ _ _ _ E1) as (X1 & S1 & Y1 & D1). destruct (IH2 _ _ _ _ E2) as (X2 & S2 & Y2 & D2). unfold add_empty_transition. rewrite add_length. assert (L1 := proj1 X1). assert (L2 := proj1 X2).
    split; [apply extends_add; [exact (extends_trans _ _ _ X1 X2)|lia|lia]|lia].
  - exact (IH _ _ _ _ H).
  - exact (IH _ _ _ _ H).
Qed.

(** Everything a rule derives has a path. *)
Lemma derives_path : forall r a b s e, build a r = Some (b, s, e) -> forall w, derives r w -> exists n, path b n s w e.
Proof.
  induction r as [name|name|r1 IH1 r2 IH2|r IH|r IH|r1 IH1 r2 IH2|r IH|r IH]; intros a b s e H w D; cbn [AutomatonModel.build new_nfa_states] in H.
  - assert (L : length a < length (a ++ [[]; []])) by (rewrite app_length; cbn; lia).
    inversion D as [? t T|? t T T'| | | | | | | | | |]; subst; rewrite T in H; [|rewrite T' in H]; injection H as <- <- <-; exists 1;
      (match goal with |- path _ _ _ [?x] _ => change [x] with (label (Some x) ++ []) end; econstructor; [apply add_edge; [exact L|right; auto]|constructor]).
  - assert (L : length a < length (a ++ [[]; []])) by (rewrite app_length; cbn; lia).
    inversion D; subst. injection H as <- <- <-. exists 1. change [Keyword name] with (label (Some (Keyword name)) ++ []). econstructor; [apply add_edge; [exact L|right; auto]|constructor].
  - destruct (build (a ++ [[]; []]) r1) as [[[b1 x1] y1]|] eqn:E1; [|discriminate]. destruct (build_extends _ _ _ _ _ E1) as (X1 & S1 & Y1 & _). rewrite app_length in S1, Y1. cbn [length] in S1, Y1.
    unfold add_empty_transition in H. set (b2 := add_transition (add_transition b1 (length a) x1 None) y1 (S (length a)) None) in *.
    destruct (build b2 r2) as [[[b3 x2] y2]|] eqn:E2; [|discriminate]. destruct (build_extends _ _ _ _ _ E2) as (X2 & S2 & Y2 & _). injection H as <- <- <-.
    assert (L2 : length b2 = length b1) by (unfold b2; rewrite !add_length; reflexivity). assert (L3 := proj1 X2).
    set (b4 := add_transition (add_transition b3 (length a) x2 None) y2 (S (length a)) None).
    assert (M : forall p x q, edge b3 p x q -> edge b4 p x q). { intros p x q K. unfold b4. apply add_edge; [rewrite add_length; lia|]. left. apply add_edge; [lia|]. left. exact K. }
    assert (Through : forall n x y w, edge b4 (length a) None x -> edge b4 y None (S (length a)) -> path b4 n x w y -> exists m, path b4 m (length a) w (S (length a))).
    { intros n x y v K1 K2 P. exists (S (n + 1)). change v with (label None ++ v). econstructor; [exact K1|]. rewrite <- (app_nil_r v). apply (path_app _ _ _ _ _ P). change (@nil symbol) with (label None ++ []).
      econstructor; [exact K2|constructor]. }
    inversion D as [| | |? ? ? D1|? ? ? D1| | | | | | |]; subst.
    + destruct (IH1 _ _ _ _ E1 w D1) as [n P]. apply (Through n x1 y1 w).
      * apply M. apply (old_to_new _ _ X2). unfold b2. apply add_edge; [rewrite add_length; lia|]. left. apply add_edge; [lia|]. right. auto.
      * apply M. apply (old_to_new _ _ X2). unfold b2. apply add_edge; [rewrite add_length; lia|]. right. auto.
      * revert P. apply path_mono. intros p x q K. apply M, (old_to_new _ _ X2). unfold b2. apply add_edge; [rewrite add_length; lia|]. left. apply add_edge; [lia|]. left. exact K.
    + destruct (IH2 _ _ _ _ E2 w D1) as [n P]. apply (Through n x2 y2 w).
      * unfold b4. apply add_edge; [rewrite add_length; lia|]. left. apply add_edge; [lia|]. right. auto.
      * unfold b4. apply add_edge; [rewrite add_length; lia|]. right. auto.
      * revert P. apply path_mono. exact M.
  - destruct (build a r) as [[[b1 s1] e1]|] eqn:E; [|discriminate]. injection H as <- <- <-. destruct (build_extends _ _ _ _ _ E) as (X & S1 & Y & Df). unfold add_empty_transition.
    inversion D as [| | | | |? |? ? D1| | | | |]; subst.
    + exists 1. change (@nil symbol) with (label None ++ []). econstructor; [apply add_edge; [lia|right; auto]|constructor].
    + destruct (IH _ _ _ _ E w D1) as [n P]. exists n. revert P. apply path_mono. intros p x q K. apply add_edge; [lia|left; exact K].
  - destruct (build a r) as [[[b1 s1] e1]|] eqn:E; [|discriminate]. injection H as <- <- <-. destruct (build_extends _ _ _ _ _ E) as (X & S1 & Y & Df). unfold add_empty_transition.
    assert (One : forall u, derives r u -> exists n, path (add_transition b1 e1 s1 None) n s1 u e1).
    { intros u D1. destruct (IH _ _ _ _ E u D1) as [n P]. exists n. revert P. apply path_mono. intros p x q K. apply add_edge; [lia|left; exact K]. }
    remember (Multiple r) as m eqn:Em. induction D; try discriminate.
    + injection Em as ->. apply One. assumption.
    + injection Em as ->. destruct (One u D1) as [n1 P1]. destruct (IHD2 eq_refl) as [n2 P2]. exists (n1 + S n2). apply (path_app _ _ _ _ _ P1). change v with (label None ++ v).
      econstructor; [apply add_edge; [lia|right; auto]|exact P2].
  - destruct (build a r1) as [[[b1 s1] e1]|] eqn:E1; [|discriminate]. destruct (build b1 r2) as [[[b2 s2] e2]|] eqn:E2; [|discriminate]. injection H as <- <- <-.
    destruct (build_extends _ _ _ _ _ E1) as (X1 & S1 & Y1 & D1). destruct (build_extends _ _ _ _ _ E2) as (X2 & S2 & Y2 & D2). unfold add_empty_transition. assert (L1 := proj1 X1). assert (L2 := proj1 X2).
    inversion D as [| | | | | | | | |? ? u v Du Dv| |]; subst. destruct (IH1 _ _ _ _ E1 u Du) as [n P]. destruct (IH2 _ _ _ _ E2 v Dv) as [m Q]. exists (n + S m).
    apply path_app with (q := e1); [|change v with (label None ++ v); econstructor; [apply add_edge; [lia|right; auto]|]].
    + revert P. apply path_mono. intros p x q K. apply add_edge; [lia|]. left. exact (old_to_new _ _ X2 _ _ _ K).
    + revert Q. apply path_mono. intros p x q K. apply add_edge; [lia|]. left. exact K.
  - inversion D; subst. eapply IH; eassumption.
  - inversion D; subst. eapply IH; eassumption.
Qed.

(** No edge comes back to the first state, or leaves the last. *)
Lemma build_ends : forall r a b s e, well a -> build a r = Some (b, s, e) -> (entered r = false -> no_entry b s) /\ (left_again r = false -> no_exit b e).
Proof.
  assert (Base : forall (a : nfa) x, well a -> no_entry (add_transition (a ++ [[]; []]) (length a) (S (length a)) x) (length a) /\
      no_exit (add_transition (a ++ [[]; []]) (length a) (S (length a)) x) (S (length a))).
  { intros a x W. destruct (new_extends a x) as [X K]. split.
    - intros p y H. destruct (lt_dec p (length a)) as [L|L]; [apply (proj1 (proj2 X)) in H; [|exact L]; assert (A := W _ _ _ H); lia|]. destruct (K p y _ ltac:(lia) H) as (_ & _ & E). lia.
    - intros y q H. destruct (K (S (length a)) y q ltac:(lia) H) as (E & _). lia. }
  induction r as [name|name|r1 IH1 r2 IH2|r IH|r IH|r1 IH1 r2 IH2|r IH|r IH]; intros a b s e W H; cbn [AutomatonModel.build new_nfa_states] in H; cbn [entered left_again].
  - destruct (terminal_map name) as [t|]; [injection H as <- <- <-; destruct (Base a (Some (Terminal t)) W); auto|].
    destruct (nonterminal_map name) as [t|]; [injection H as <- <- <-; destruct (Base a (Some (Nonterminal t)) W); auto|discriminate].
  - injection H as <- <- <-. destruct (Base a (Some (Keyword name)) W); auto.
  - destruct (build (a ++ [[]; []]) r1) as [[[b1 x1] y1]|] eqn:E1; [|discriminate]. destruct (build_extends _ _ _ _ _ E1) as (X1 & S1 & Y1 & _). rewrite app_length in S1, Y1. cbn [length] in S1, Y1.
    unfold add_empty_transition in H. set (b2 := add_transition (add_transition b1 (length a) x1 None) y1 (S (length a)) None) in *.
    destruct (build b2 r2) as [[[b3 x2] y2]|] eqn:E2; [|discriminate]. destruct (build_extends _ _ _ _ _ E2) as (X2 & S2 & Y2 & _). injection H as <- <- <-.
    assert (L2 : length b2 = length b1) by (unfold b2; rewrite !add_length; reflexivity). assert (L3 := proj1 X2). destruct (extends_refl_new a) as [X0 N0].
    assert (L0 : length (a ++ [[]; []]) = S (S (length a))) by (rewrite app_length; cbn; lia).
    assert (In1 : no_entry b1 (length a)).
    { intros p y H. destruct (lt_dec p (S (S (length a)))) as [L|L].
      - apply (proj1 (proj2 X1)) in H; [|lia]. destruct (lt_dec p (length a)) as [L'|L']; [|exact (N0 p y _ ltac:(lia) H)]. apply (proj1 (proj2 X0)) in H; [|exact L']. assert (A := W _ _ _ H). lia.
      - assert (A := proj2 (proj2 X1) p y _ ltac:(lia) H). lia. }
    assert (Out1 : no_exit b1 (S (length a))). { intros y q H. apply (proj1 (proj2 X1)) in H; [|lia]. exact (N0 (S (length a)) y q ltac:(lia) H). }
    assert (In2 : no_entry b2 (length a)). { unfold b2. apply no_entry_add; [rewrite add_length; lia| |lia]. apply no_entry_add; [lia|exact In1|lia]. }
    assert (Out2 : no_exit b2 (S (length a))). { unfold b2. apply no_exit_add; [rewrite add_length; lia| |lia]. apply no_exit_add; [lia|exact Out1|lia]. }
    assert (In3 : no_entry b3 (length a)).
    { intros p y H. destruct (lt_dec p (length b2)) as [L|L]; [apply (proj1 (proj2 X2)) in H; [|exact L]; exact (In2 _ _ H)|]. assert (A := proj2 (proj2 X2) p y _ ltac:(lia) H). lia. }
    assert (Out3 : no_exit b3 (S (length a))). { intros y q H. apply (proj1 (proj2 X2)) in H; [|lia]. exact (Out2 _ _ H). }
    split; intros _.
    + apply no_entry_add; [rewrite add_length; lia| |lia]. apply no_entry_add; [lia|exact In3|lia].
    + apply no_exit_add; [rewrite add_length; lia| |lia]. apply no_exit_add; [lia|exact Out3|lia].
  - destruct (build a r) as [[[b1 s1] e1]|] eqn:E; [|discriminate]. injection H as <- <- <-. destruct (build_extends _ _ _ _ _ E) as (X & S1 & Y & D). destruct (IH _ _ _ _ W E) as [I O].
    unfold add_empty_transition. split; intros K; [apply no_entry_add; [lia|exact (I K)|congruence]|apply no_exit_add; [lia|exact (O K)|congruence]].
  - split; discriminate.
  - destruct (build a r1) as [[[b1 s1] e1]|] eqn:E1; [|discriminate]. destruct (build b1 r2) as [[[b2 s2] e2]|] eqn:E2; [|discriminate]. injection H as <- <- <-.
    destruct (build_extends _ _ _ _ _ E1) as (X1 & S1 & Y1 & D1). destruct (build_extends _ _ _ _ _ E2) as (X2 & S2 & Y2 & D2). assert (L1 := proj1 X1). assert (L2 := proj1 X2).
    assert (W1 := well_extends _ _ X1 W). destruct (IH1 _ _ _ _ W E1) as [I1 _]. destruct (IH2 _ _ _ _ W1 E2) as [_ O2]. unfold add_empty_transition. split; intros K.
    + apply no_entry_add; [lia| |lia]. intros p y H. destruct (lt_dec p (length b1)) as [L|L]; [apply (proj1 (proj2 X2)) in H; [|exact L]; exact (I1 K _ _ H)|].
      assert (A := proj2 (proj2 X2) p y _ ltac:(lia) H). lia.
    + apply no_exit_add; [lia|exact (O2 K)|lia].
  - exact (IH _ _ _ _ W H).
  - exact (IH _ _ _ _ W H).
Qed.

(** Repetition of something. *)
Lemma multiple_app : forall r u v, derives (Multiple r) u -> derives (Multiple r) v -> derives (Multiple r) (u ++ v).
Proof.
  intros r u v H. remember (Multiple r) as m eqn:E. induction H; try discriminate; intros K; injection E as ->.
  - apply der_again; assumption.
  - rewrite <- app_assoc. apply der_again; [assumption|]. apply IHderives2; auto.
Qed.

(** Paths that leave old states for new ones by one edge. *)
Lemma path_derives : forall r a b s e, safe r = true -> well a -> build a r = Some (b, s, e) -> forall n w, path b n s w e -> derives r w.
Proof.
  induction r as [name|name|r1 IH1 r2 IH2|r IH|r IH|r1 IH1 r2 IH2|r IH|r IH]; intros a b s e Sf W H n w P; cbn [AutomatonModel.build new_nfa_states] in H; cbn [safe] in Sf.
  - assert (Base : forall x, b = add_transition (a ++ [[]; []]) (length a) (S (length a)) (Some x) -> s = length a -> e = S (length a) -> w = [x]).
    { intros x -> -> ->. destruct (new_extends a (Some x)) as [_ K]. inversion P as [? E|m ? y q v ? Ed P']; subst; [lia|]. destruct (K _ _ _ (le_n _) Ed) as (_ & -> & ->).
      inversion P' as [|m' ? y' q' v' ? Ed' P'']; subst; [reflexivity|]. destruct (K (S (length a)) _ _ ltac:(lia) Ed') as (E & _). lia. }
    destruct (terminal_map name) as [t|] eqn:T; [injection H as H1 H2 H3; rewrite (Base (Terminal t)) by auto; apply der_terminal; exact T|].
    destruct (nonterminal_map name) as [t|] eqn:T'; [injection H as H1 H2 H3; rewrite (Base (Nonterminal t)) by auto; apply der_nonterminal; assumption|discriminate].
  - injection H as <- <- <-. destruct (new_extends a (Some (Keyword name))) as [_ K]. inversion P as [? E|m ? y q v ? Ed P']; subst; [lia|]. destruct (K _ _ _ (le_n _) Ed) as (_ & -> & ->).
    inversion P' as [|m' ? y' q' v' ? Ed' P'']; subst; [apply der_keyword|]. destruct (K (S (length a)) _ _ ltac:(lia) Ed') as (E & _). lia.
  - apply andb_true_iff in Sf. destruct Sf as [Sf1 Sf2].
    destruct (build (a ++ [[]; []]) r1) as [[[b1 x1] y1]|] eqn:E1; [|discriminate]. destruct (build_extends _ _ _ _ _ E1) as (X1 & S1 & Y1 & _). rewrite app_length in S1, Y1. cbn [length] in S1, Y1.
    unfold add_empty_transition in H. set (b2 := add_transition (add_transition b1 (length a) x1 None) y1 (S (length a)) None) in *.
    destruct (build b2 r2) as [[[b3 x2] y2]|] eqn:E2; [|discriminate]. destruct (build_extends _ _ _ _ _ E2) as (X2 & S2 & Y2 & _). injection H as <- <- <-.
    assert (L2 : length b2 = length b1) by (unfold b2; rewrite !add_length; reflexivity). assert (L3 := proj1 X2). destruct (extends_refl_new a) as [X0 N0].
    assert (L0 : length (a ++ [[]; []]) = S (S (length a))) by (rewrite app_length; cbn; lia).
    assert (W0 : well (a ++ [[]; []])) by exact (well_extends _ _ X0 W).
    assert (W1 : well b1) by exact (well_extends _ _ X1 W0).
    assert (X2a : extends a b2). { unfold b2. apply extends_add; [apply extends_add|..]; rewrite ?add_length; try lia. exact (extends_trans _ _ _ X0 X1). }
    assert (W2 : well b2) by exact (well_extends _ _ X2a W).
    set (b4 := add_transition (add_transition b3 (length a) x2 None) y2 (S (length a)) None) in *.
    (* all the edges *)
    assert (Edges : forall p y q, edge b4 p y q -> p <> S (length a) /\
        (p = length a -> y = None /\ (q = x1 \/ q = x2)) /\
        (S (S (length a)) <= p < length b1 -> edge b1 p y q \/ (p = y1 /\ y = None /\ q = S (length a))) /\
        (length b1 <= p -> edge b3 p y q \/ (p = y2 /\ y = None /\ q = S (length a)))).
    { intros p y q H. unfold b4 in H. apply add_edge in H; [|rewrite add_length; lia].
      assert (B2 : edge b2 p y q -> p <> S (length a) /\ (p = length a -> y = None /\ (q = x1 \/ q = x2)) /\ (S (S (length a)) <= p < length b1 -> edge b1 p y q \/ (p = y1 /\ y = None /\ q = S (length a))) /\ p < length b1).
      { intros K. assert (Bd := edge_bound _ _ _ _ K). unfold b2 in K. apply add_edge in K; [|rewrite add_length; lia]. destruct K as [K|(-> & -> & ->)]; [|split; [lia|]; split; [lia|]; split; [auto|lia]].
        apply add_edge in K; [|lia]. destruct K as [K|(-> & -> & ->)]; [|split; [lia|]; split; [auto|]; split; lia].
        destruct (lt_dec p (S (S (length a)))) as [Lp|Lp].
        - apply (proj1 (proj2 X1)) in K; [|lia]. destruct (lt_dec p (length a)) as [L'|L']; [|exfalso; exact (N0 p y q ltac:(lia) K)]. split; [lia|]. split; [lia|]. split; lia.
        - split; [lia|]. split; [lia|]. split; [auto|lia]. }
      destruct H as [H|(-> & -> & ->)]; [|split; [lia|]; split; [lia|]; split; [lia|auto]]. apply add_edge in H; [|lia]. destruct H as [H|(-> & -> & ->)]; [|split; [lia|]; split; [auto|]; split; lia].
      destruct (lt_dec p (length b2)) as [Lp|Lp].
      - apply (proj1 (proj2 X2)) in H; [|exact Lp]. destruct (B2 H) as (A & B & C & D). split; [exact A|]. split; [exact B|]. split; [exact C|lia].
      - split; [lia|]. split; [lia|]. split; [lia|]. intros _. left. exact H. }
    (* in the first alternative *)
    assert (In1 : forall m p v, path b4 m p v (S (length a)) -> S (S (length a)) <= p < length b1 -> exists m', path b1 m' p v y1).
    { intros m p v Q. remember (S (length a)) as ee eqn:Ee in Q at 1. revert Ee. induction Q as [p|m p y q v r' Ed Q IH]; intros Ee Rg; [lia|]. subst r'. destruct (Edges _ _ _ Ed) as (_ & _ & A & _). destruct (A Rg) as [Ed'|(-> & -> & ->)].
      - assert (Q' : S (S (length a)) <= q < length b1).
        { split; [|exact (W1 _ _ _ Ed')]. destruct X1 as (_ & _ & N1). rewrite L0 in N1. apply (N1 p y q); [lia|exact Ed']. }
        destruct (IH eq_refl Q') as [m' P']. exists (S m'). econstructor; eassumption.
      - assert (v = []) as ->. { inversion Q as [|? ? y' q' v' ? Ed' Q']; subst; [reflexivity|]. destruct (Edges _ _ _ Ed') as (A' & _). congruence. }
        exists 0. constructor. }
    assert (In2 : forall m p v, path b4 m p v (S (length a)) -> length b1 <= p -> exists m', path b3 m' p v y2).
    { intros m p v Q. remember (S (length a)) as ee eqn:Ee in Q at 1. revert Ee. induction Q as [p|m p y q v r' Ed Q IH]; intros Ee Rg; [lia|]. subst r'. destruct (Edges _ _ _ Ed) as (_ & _ & _ & A). destruct (A Rg) as [Ed'|(-> & -> & ->)].
      - assert (Q' : length b1 <= q). { destruct X2 as (_ & _ & N2). rewrite <- L2. apply (N2 p y q); [lia|exact Ed']. }
        destruct (IH eq_refl Q') as [m' P']. exists (S m'). econstructor; eassumption.
      - assert (v = []) as ->. { inversion Q as [|? ? y' q' v' ? Ed' Q']; subst; [reflexivity|]. destruct (Edges _ _ _ Ed') as (A' & _). congruence. }
        exists 0. constructor. }
    inversion P as [? E|m ? y q v ? Ed Q]; subst; [lia|]. destruct (Edges _ _ _ Ed) as (_ & A & _). destruct (A eq_refl) as [-> [->| ->]]; cbn [label app].
    + destruct (In1 _ _ _ Q ltac:(lia)) as [m' P']. apply der_left. exact (IH1 _ _ _ _ Sf1 W0 E1 _ _ P').
    + destruct (In2 _ _ _ Q ltac:(lia)) as [m' P']. apply der_right. exact (IH2 _ _ _ _ Sf2 W2 E2 _ _ P').
  - apply andb_true_iff in Sf. destruct Sf as [Sf Cond].
    destruct (build a r) as [[[b1 s1] e1]|] eqn:E; [|discriminate]. injection H as <- <- <-. destruct (build_extends _ _ _ _ _ E) as (X & S1 & Y & D). unfold add_empty_transition in P.
    destruct (build_ends _ _ _ _ _ W E) as [Ent Ext].
    assert (Simple : entered r = false -> left_again r = false -> derives (Maybe r) w).
    { intros K1 K2. destruct (path_add _ _ _ _ (proj2 S1) _ _ _ _ P) as [P'|(k & m & u & v & P1 & P2 & -> & _)]; [apply der_something; exact (IH _ _ _ _ Sf W E _ _ P')|].
      destruct (no_entry_path _ _ (Ent K1) _ _ _ P1) as (_ & _ & ->). assert (No : no_exit (add_transition b1 s1 e1 None) e1) by (apply no_exit_add; [lia|exact (Ext K2)|exact D]).
      destruct (no_exit_path _ _ No _ _ _ P2) as (_ & _ & ->). apply der_nothing. }
    assert (Cond' : (entered r = false /\ left_again r = false) \/ exists r', r = Multiple r' /\ entered r' = false /\ left_again r' = false).
    { destruct r; try (apply andb_true_iff in Cond; destruct Cond as [C1 C2]; apply negb_true_iff in C1, C2; left; split; assumption).
      apply andb_true_iff in Cond; destruct Cond as [C1 C2]; apply negb_true_iff in C1, C2. right. exists r. auto. }
    destruct Cond' as [[K1 K2]|(r' & -> & K1 & K2)]; [exact (Simple K1 K2)|]. clear Simple Ent Ext Cond.
    assert (Eb := E). cbn [AutomatonModel.build] in E. destruct (build a r') as [[[b0 s0] e0]|] eqn:E0; [|discriminate]. injection E as <- <- <-. unfold add_empty_transition in *. rewrite add_length in *.
    destruct (build_ends _ _ _ _ _ W E0) as [Ent Ext]. specialize (Ent K1). specialize (Ext K2).
    assert (Back : forall k u, path (add_transition b0 e0 s0 None) k s0 u s0 -> u = [] \/ derives (Multiple r') u).
    { intros k u Q. destruct (path_last _ _ _ _ _ Q) as [(_ & -> & _)|(k' & u' & x & q & Q' & Ed & ->)]; [left; reflexivity|].
      apply add_edge in Ed; [|lia]. destruct Ed as [Ed|(-> & -> & _)]; [exfalso; exact (Ent _ _ Ed)|]. right. cbn [label]. rewrite app_nil_r. exact (IH a _ _ _ Sf W Eb _ _ Q'). }
    assert (All : forall m, (forall v, path (add_transition (add_transition b0 e0 s0 None) s0 e0 None) m s0 v e0 -> v = [] \/ derives (Multiple r') v) /\
        (forall v, path (add_transition (add_transition b0 e0 s0 None) s0 e0 None) m e0 v e0 -> v = [] \/ derives (Multiple r') v)).
    { intros m. induction m as [m IHm] using lt_wf_ind. split; intros v Q.
      - assert (Ls : s0 < length (add_transition b0 e0 s0 None)) by (rewrite add_length; lia).
        destruct (path_add _ _ _ _ Ls _ _ _ _ Q) as [Q'|(k & m' & u & v' & Q1 & Q2 & -> & ->)]; [right; exact (IH a _ _ _ Sf W Eb _ _ Q')|]. cbn [label app].
        destruct (IHm m' ltac:(lia)) as [_ IH2]. destruct (Back _ _ Q1) as [->|D1]; destruct (IH2 _ Q2) as [->|D2]; cbn [app]; auto.
        + rewrite app_nil_r. auto.
        + right. apply multiple_app; assumption.
      - inversion Q as [|m' ? x q v' ? Ed Q']; subst; [left; reflexivity|]. apply add_edge in Ed; [|rewrite add_length; lia]. destruct Ed as [Ed|(E' & _)]; [|exfalso; apply D; congruence].
        apply add_edge in Ed; [|lia]. destruct Ed as [Ed|(_ & -> & ->)]; [exfalso; exact (Ext _ _ Ed)|]. cbn [label app]. exact (proj1 (IHm m' ltac:(lia)) _ Q'). }
    destruct (proj1 (All n) w P) as [->|D1]; [apply der_nothing|apply der_something; exact D1].
  - destruct (build a r) as [[[b1 s1] e1]|] eqn:E; [|discriminate]. injection H as <- <- <-. destruct (build_extends _ _ _ _ _ E) as (X & S1 & Y & D). unfold add_empty_transition in P.
    revert w P. induction n as [n IHn] using lt_wf_ind. intros w P. destruct (path_add _ _ _ _ (proj2 Y) _ _ _ _ P) as [P'|(k & m & u & v & P1 & P2 & -> & ->)].
    + apply der_once. exact (IH _ _ _ _ Sf W E _ _ P').
    + cbn [label app]. apply der_again; [exact (IH _ _ _ _ Sf W E _ _ P1)|]. exact (IHn m ltac:(lia) v P2).
  - apply andb_true_iff in Sf. destruct Sf as [Sf1 Sf2]. destruct (build a r1) as [[[b1 s1] e1]|] eqn:E1; [|discriminate]. destruct (build b1 r2) as [[[b2 s2] e2]|] eqn:E2; [|discriminate]. injection H as <- <- <-.
    destruct (build_extends _ _ _ _ _ E1) as (X1 & S1 & Y1 & D1). destruct (build_extends _ _ _ _ _ E2) as (X2 & S2 & Y2 & D2). assert (L1 := proj1 X1). assert (L2 := proj1 X2).
    assert (W1 := well_extends _ _ X1 W). unfold add_empty_transition in P.
    destruct (path_add b2 e1 s2 None ltac:(lia) _ _ _ _ P) as [P'|(k & m & u & v & P1 & P2 & -> & ->)].
    + exfalso. apply (old_path _ _ X2 W1) in P'; [|lia]. assert (B : forall k p v q, path b1 k p v q -> p < length b1 -> q < length b1).
      { intros k p v q Q. induction Q as [|k p x q v r' Ed Q IHQ]; intros Lp; [exact Lp|]. apply IHQ. exact (W1 _ _ _ Ed). }
      assert (A := B _ _ _ _ P' ltac:(lia)). lia.
    + cbn [label app]. apply der_next.
      * apply (old_path _ _ X2 W1) in P1; [|lia]. exact (IH1 _ _ _ _ Sf1 W E1 _ _ P1).
      * assert (Stay : forall k p v q, path (add_transition b2 e1 s2 None) k p v q -> length b1 <= p -> path b2 k p v q).
        { intros k' p v' q Q. induction Q as [p|k' p x q v' r' Ed Q IHQ]; intros Lp; [constructor|]. apply add_edge in Ed; [|lia]. destruct Ed as [Ed|(-> & _)]; [|lia].
          econstructor; [exact Ed|]. apply IHQ. apply (proj2 (proj2 X2) p x q Lp Ed). }
        exact (IH2 _ _ _ _ Sf2 W1 E2 _ _ (Stay _ _ _ _ P2 ltac:(lia))).
  - apply der_omitted. exact (IH _ _ _ _ Sf W H _ _ P).
  - apply der_recovery. exact (IH _ _ _ _ Sf W H _ _ P).
Qed.
End Build.
