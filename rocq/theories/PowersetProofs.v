(** The powerset construction: the deterministic automaton goes along the paths of the other one. *)
From Coq Require Import List Arith NArith Bool Lia Permutation Sorting.Sorted.
From Verif Require Import AutomatonModel AutomatonSpec AutomatonProofs.
Import ListNotations.

(** ** Sets *)
Lemma in_insert : forall s x y, In y (insert x s) <-> y = x \/ In y s.
Proof.
  induction s as [|z r IH]; intros x y; cbn [insert In]; [intuition congruence|]. destruct (Nat.compare_spec x z) as [->|L|L]; cbn [In]; rewrite ?IH; intuition congruence.
Qed.
Lemma in_extend : forall t s y, In y (extend s t) <-> In y t \/ In y s.
Proof. unfold extend. induction t as [|x t IH]; intros s y; cbn [fold_right In]; [intuition|]. rewrite in_insert, IH. intuition congruence. Qed.
Lemma mem_spec : forall x s, mem x s = true <-> In x s.
Proof. intros x s. unfold mem. rewrite existsb_exists. split; [intros (y & I & E); apply Nat.eqb_eq in E; congruence|intros I; exists x; split; [exact I|apply Nat.eqb_refl]]. Qed.
Lemma sorted_insert : forall s x, StronglySorted lt s -> StronglySorted lt (insert x s).
Proof.
  induction s as [|z r IH]; intros x H; cbn [insert]; [repeat constructor|]. inversion H as [|? ? Hr F]; subst. destruct (Nat.compare_spec x z) as [->|L|L]; [exact H| |].
  - constructor; [exact H|]. constructor; [exact L|]. rewrite Forall_forall in *. intros y I. specialize (F y I). lia.
  - constructor; [apply IH; exact Hr|]. rewrite Forall_forall in *. intros y I. apply in_insert in I. destruct I as [->|I]; [exact L|exact (F y I)].
Qed.
Lemma sorted_extend : forall t s, StronglySorted lt s -> StronglySorted lt (extend s t).
Proof. induction t as [|x t IH]; intros s H; [exact H|]. apply sorted_insert, IH, H. Qed.
Lemma set_eqb_spec : forall s t, set_eqb s t = true <-> s = t.
Proof.
  induction s as [|x s IH]; intros [|y t]; cbn [set_eqb]; split; try discriminate; try reflexivity.
  - intros H. apply andb_true_iff in H. destruct H as [A B]. apply Nat.eqb_eq in A. apply IH in B. congruence.
  - intros H. injection H as -> ->. rewrite Nat.eqb_refl. apply IH. reflexivity.
Qed.
Lemma sorted_nodup : forall s, StronglySorted lt s -> NoDup s.
Proof.
  intros s H. induction H as [|x s H IH F]; constructor; [|exact IH]. intros I. rewrite Forall_forall in F. specialize (F x I). lia.
Qed.

(** All the sorted lists of numbers below [n]; there are [2 ^ n]. *)
Fixpoint subsets (lo n : nat) : list (list nat) :=
  match n with
  | 0 => [[]]
  | S n => subsets (S lo) n ++ map (cons lo) (subsets (S lo) n)
  end.
Lemma subsets_length : forall n lo, length (subsets lo n) = 2 ^ n.
Proof. induction n as [|n IH]; intros lo; [reflexivity|]. cbn [subsets Nat.pow]. rewrite app_length, map_length, !IH. lia. Qed.
Lemma subsets_all : forall n lo s, StronglySorted lt s -> (forall x, In x s -> lo <= x < lo + n) -> In s (subsets lo n).
Proof.
  induction n as [|n IH]; intros lo s H B.
  - destruct s as [|x s]; [left; reflexivity|]. specialize (B x (or_introl eq_refl)). lia.
  - cbn [subsets]. apply in_or_app. inversion H as [E|x r Hr F E]; [left|]. 
    + apply IH; [constructor|]. intros x [].
    + subst s. rewrite Forall_forall in F. assert (Bx := B x (or_introl eq_refl)). destruct (Nat.eq_dec x lo) as [->|D].
      * right. apply in_map. apply IH; [exact Hr|]. intros y I. specialize (F y I). specialize (B y (or_intror I)). lia.
      * left. apply IH; [exact H|]. intros y [<-|I]; [lia|]. specialize (F y I). specialize (B y (or_intror I)). lia.
Qed.

Lemma NoDup_app_snoc : forall {A} (l : list A) x, NoDup l -> ~ In x l -> NoDup (l ++ [x]).
Proof.
  intros A l x N F. apply NoDup_rev in N. rewrite <- (rev_involutive (l ++ [x])). apply NoDup_rev. rewrite rev_app_distr. cbn. constructor; [|exact N]. rewrite <- in_rev. exact F.
Qed.

Section Powerset.
Variables (a : list (list (option symbol * nat))) (end_ : nat).
Variable order_states : list nat -> list nat.
Variable order_groups : list (symbol * list nat) -> list (symbol * list nat).
Hypothesis states_permuted : forall s, Permutation s (order_states s).
Hypothesis groups_permuted : forall g, Permutation g (order_groups g).
Hypothesis well_a : well a.

(** ** Closure under empty transitions *)
Inductive free : nat -> nat -> Prop :=
| free_refl x : free x x
| free_step x y z : edge a x None y -> free y z -> free x z.
Lemma free_trans : forall x y z, free x y -> free y z -> free x z.
Proof. intros x y z H. induction H; intros K; [exact K|]. econstructor; eauto. Qed.

Definition closed (s : list nat) : Prop := forall x y, In x s -> edge a x None y -> In y s.
Lemma closed_free : forall s, closed s -> forall x y, free x y -> In x s -> In y s.
Proof. intros s C x y H. induction H as [|x y z E H IH]; intros I; [exact I|]. apply IH. exact (C x y I E). Qed.

Lemma empty_targets_spec : forall x y, In y (empty_targets a x) <-> edge a x None y.
Proof.
  intros x y. unfold empty_targets, transitions_of, edge. rewrite in_flat_map. split.
  - intros ([[t|] z] & I & H); cbn in H; [destruct H|]. destruct H as [<-|[]]. exact I.
  - intros I. exists (None, y). split; [exact I|]. left. reflexivity.
Qed.
Lemma targets_of_set : forall s y, In y (flat_map (empty_targets a) s) <-> exists x, In x s /\ edge a x None y.
Proof. intros s y. rewrite in_flat_map. split; intros (x & I & H); exists x; (split; [exact I|]); apply empty_targets_spec; exact H. Qed.

Lemma order_in : forall s x, In x (order_states s) <-> In x s.
Proof. intros s x. split; apply Permutation_in; [apply Permutation_sym|]; apply states_permuted. Qed.

Definition group_step (fuel : nat) (ids : list nat) (set : option (list nat)) (to : nat) : option (list nat) :=
  match set with
  | None => None
  | Some set =>
      let set := insert to set in
      if mem to ids then Some set
      else match group_nfas a order_states fuel (order_states set) with None => None | Some more => Some (extend set more) end
  end.
Lemma group_unfold : forall fuel ids, group_nfas a order_states (S fuel) ids = fold_left (group_step fuel ids) (flat_map (empty_targets a) ids) (Some (extend [] ids)).
Proof. reflexivity. Qed.

Lemma fold_cons : forall fuel ids to l set, fold_left (group_step fuel ids) (to :: l) (Some set) = fold_left (group_step fuel ids) l
  (if mem to ids then Some (insert to set) else match group_nfas a order_states fuel (order_states (insert to set)) with None => None | Some more => Some (extend (insert to set) more) end).
Proof. reflexivity. Qed.
Lemma fold_none : forall fuel ids l, fold_left (group_step fuel ids) l None = None.
Proof. induction l; [reflexivity|assumption]. Qed.

Lemma group_spec : forall fuel ids s, group_nfas a order_states fuel ids = Some s ->
  StronglySorted lt s /\ closed s /\ (forall y, In y s <-> exists x, In x ids /\ free x y).
Proof.
  induction fuel as [|fuel IH]; intros ids s H; [discriminate|]. rewrite group_unfold in H.
  assert (G : forall l done set, (forall y, In y l -> exists x, In x ids /\ edge a x None y) ->
    StronglySorted lt set -> (forall y, In y set -> exists x, In x ids /\ free x y) -> incl ids set ->
    closed set \/ (incl set ids /\ forall y, In y done -> In y ids) -> fold_left (group_step fuel ids) l (Some set) = Some s ->
    StronglySorted lt s /\ (forall y, In y s -> exists x, In x ids /\ free x y) /\ incl ids s /\ (closed s \/ (incl s ids /\ forall y, In y (done ++ l) -> In y ids))).
  { induction l as [|to l IHl]; intros done set T So Re Inc C F.
    - injection F as <-. rewrite app_nil_r. auto.
    - rewrite fold_cons in F. destruct (T to (or_introl eq_refl)) as (x0 & I0 & E0).
      assert (Re' : forall y, In y (insert to set) -> exists x, In x ids /\ free x y).
      { intros y I. apply in_insert in I. destruct I as [->|I]; [|exact (Re y I)]. exists x0. split; [exact I0|]. econstructor; [exact E0|constructor]. }
      destruct (mem to ids) eqn:M.
      + apply mem_spec in M. replace (done ++ to :: l) with ((done ++ [to]) ++ l) by (rewrite <- app_assoc; reflexivity). apply (IHl (done ++ [to]) (insert to set)).
        * intros y I. apply T. right. exact I.
        * apply sorted_insert, So.
        * exact Re'.
        * intros y I. apply in_insert. right. exact (Inc y I).
        * destruct C as [C|[C D]].
          -- left. intros x y I E. apply in_insert. right. apply in_insert in I. destruct I as [->|I]; [|exact (C x y I E)]. exact (C to y (Inc to M) E).
          -- right. split; [intros y I; apply in_insert in I; destruct I as [->|I]; [exact M|exact (C y I)]|]. intros y I. apply in_app_or in I. destruct I as [I|[<-|[]]]; [exact (D y I)|exact M].
        * exact F.
      + destruct (group_nfas a order_states fuel (order_states (insert to set))) as [more|] eqn:Gr; [|rewrite fold_none in F; discriminate].
        destruct (IH _ _ Gr) as (So' & Cl & Re2). replace (done ++ to :: l) with ((done ++ [to]) ++ l) by (rewrite <- app_assoc; reflexivity). apply (IHl (done ++ [to]) (extend (insert to set) more)).
        * intros y I. apply T. right. exact I.
        * apply sorted_extend, sorted_insert, So.
        * intros y I. apply in_extend in I. destruct I as [I|I]; [|exact (Re' y I)]. apply Re2 in I. destruct I as (x & Ix & Fx). apply (proj1 (order_in _ _)) in Ix. destruct (Re' x Ix) as (x1 & I1 & F1).
          exists x1. split; [exact I1|]. exact (free_trans _ _ _ F1 Fx).
        * intros y I. apply in_extend. right. apply in_insert. right. exact (Inc y I).
        * left. intros x y I E. apply in_extend. left. apply in_extend in I. assert (Im : In x more). { destruct I as [I|I]; [exact I|]. apply Re2. exists x. split; [apply order_in; exact I|constructor]. }
          exact (Cl x y Im E).
        * exact F. }
  destruct (G (flat_map (empty_targets a) ids) [] (extend [] ids)) as (So & Re & Inc & C).
  - intros y I. apply targets_of_set. exact I.
  - apply sorted_extend. constructor.
  - intros y I. apply in_extend in I. destruct I as [I|[]]. exists y. split; [exact I|constructor].
  - intros y I. apply in_extend. left. exact I.
  - right. split; [intros y I; apply in_extend in I; destruct I as [I|[]]; exact I|intros y []].
  - exact H.
  - assert (Cl : closed s). { destruct C as [C|[C D]]; [exact C|]. intros x y I E. apply Inc, D. cbn [app]. apply targets_of_set. exists x. split; [exact (C x I)|exact E]. }
    split; [exact So|]. split; [exact Cl|]. intros y. split; [apply Re|]. intros (x & I & F). exact (closed_free s Cl x y F (Inc x I)).
Qed.

Lemma group_terminates : forall fuel ids, (forall x, In x ids -> x < length a) -> length a < length (extend [] ids) + fuel -> group_nfas a order_states fuel ids <> None.
Proof.
  induction fuel as [|fuel IH]; intros ids B L.
  - exfalso. assert (N : NoDup (extend [] ids)) by (apply sorted_nodup, sorted_extend; constructor). assert (Inc : incl (extend [] ids) (seq 0 (length a))).
    { intros x I. apply in_extend in I. destruct I as [I|[]]. apply in_seq. specialize (B x I). lia. }
    assert (Le := NoDup_incl_length N Inc). rewrite seq_length in Le. lia.
  - rewrite group_unfold. assert (G : forall l set, (forall y, In y l -> y < length a) -> StronglySorted lt set -> (forall y, In y set -> y < length a) -> incl ids set ->
      fold_left (group_step fuel ids) l (Some set) <> None).
    { induction l as [|to l IHl]; intros set T So Bs Inc; [discriminate|]. rewrite fold_cons.
      assert (Bi : forall y, In y (insert to set) -> y < length a) by (intros y I; apply in_insert in I; destruct I as [->|I]; [exact (T to (or_introl eq_refl))|exact (Bs y I)]).
      destruct (mem to ids) eqn:M.
      - apply IHl; [intros y I; apply T; right; exact I|apply sorted_insert, So|exact Bi|intros y I; apply in_insert; right; exact (Inc y I)].
      - assert (T' : group_nfas a order_states fuel (order_states (insert to set)) <> None); [apply IH|destruct (group_nfas a order_states fuel (order_states (insert to set))) as [more|] eqn:Em; [clear T'|congruence]].
        + intros x I. apply (proj1 (order_in _ _)) in I. exact (Bi x I).
        + assert (N : NoDup (to :: extend [] ids)).
          { constructor; [|apply sorted_nodup, sorted_extend; constructor]. intros I. apply in_extend in I. destruct I as [I|[]]. apply mem_spec in I. congruence. }
          assert (Inc' : incl (to :: extend [] ids) (extend [] (order_states (insert to set)))).
          { intros x I. apply in_extend. left. apply order_in, in_insert. destruct I as [<-|I]; [left; reflexivity|right]. apply in_extend in I. destruct I as [I|[]]. exact (Inc x I). }
          assert (Le := NoDup_incl_length N Inc'). cbn [length] in Le. lia.
        + destruct (group_spec _ _ _ Em) as (_ & _ & Re). apply IHl; [intros y I; apply T; right; exact I|apply sorted_extend, sorted_insert, So| |].
          * intros y I. apply in_extend in I. destruct I as [I|I]; [|exact (Bi y I)]. apply Re in I. destruct I as (x & Ix & Fx). apply (proj1 (order_in _ _)) in Ix. assert (Bx := Bi x Ix). clear -Bx Fx well_a.
            induction Fx as [|x y z E F IHF]; [exact Bx|]. apply IHF. exact (well_a _ _ _ E).
          * intros y I. apply in_extend. right. apply in_insert. right. exact (Inc y I). }
    apply G.
    + intros y I. apply targets_of_set in I. destruct I as (x & _ & E). exact (well_a _ _ _ E).
    + apply sorted_extend. constructor.
    + intros y I. apply in_extend in I. destruct I as [I|[]]. exact (B y I).
    + intros y I. apply in_extend. left. exact I.
Qed.

Lemma free_bound : forall x y, free x y -> x < length a -> y < length a.
Proof. intros x y H. induction H as [|x y z E F IH]; intros L; [exact L|]. apply IH. exact (well_a _ _ _ E). Qed.

(** ** The states of the deterministic automaton *)

(** The states that can be reached from [s] with one symbol. *)
Definition moved (s : list nat) (x : symbol) (y : nat) : Prop := exists p q, In p s /\ edge a p (Some x) q /\ free q y.

Definition good_set (s : list nat) : Prop := StronglySorted lt s /\ closed s /\ forall x, In x s -> x < length a.
Definition good_dfa (d : dfa) : Prop := good_set (nfa_set d) /\ (is_final d = true <-> In end_ (nfa_set d)).
Definition good_transitions (dfas : list dfa) (d : dfa) : Prop :=
  NoDup (map fst (transitions d)) /\
  (forall x j, In (x, j) (transitions d) -> exists e, nth_error dfas j = Some e /\ forall y, In y (nfa_set e) <-> moved (nfa_set d) x y) /\
  (forall p x q, In p (nfa_set d) -> edge a p (Some x) q -> In x (map fst (transitions d))).
Definition good (dfas : list dfa) : Prop :=
  NoDup (map nfa_set dfas) /\ Forall good_dfa dfas /\ (forall i d, nth_error dfas i = Some d -> is_calculated d = true -> good_transitions dfas d) /\
  (forall i d, nth_error dfas i = Some d -> is_calculated d = false -> transitions d = []).

(** Later lists of states. *)
Definition later (d e : list dfa) : Prop :=
  forall i x, nth_error d i = Some x -> exists y, nth_error e i = Some y /\ nfa_set y = nfa_set x /\ is_final y = is_final x /\ (is_calculated x = true -> y = x).
Lemma later_refl : forall d, later d d.
Proof. intros d i x H. exists x. auto. Qed.
Lemma later_trans : forall d e f, later d e -> later e f -> later d f.
Proof.
  intros d e f A B i x H. destruct (A i x H) as (y & Y & S1 & F1 & C1). destruct (B i y Y) as (z & Z & S2 & F2 & C2). exists z. split; [exact Z|]. split; [congruence|]. split; [congruence|].
  intros C. specialize (C1 C). subst y. apply C2. exact C.
Qed.
Lemma later_transitions : forall d e x, later d e -> good_transitions d x -> good_transitions e x.
Proof.
  intros d e x L (N & T & M). split; [exact N|]. split; [|exact M]. intros s j I. destruct (T s j I) as (y & Y & E). destruct (L j y Y) as (z & Z & S' & _). exists z. split; [exact Z|]. rewrite S'. exact E.
Qed.

Lemma find_set_spec : forall dfas s, match find_set dfas s with
  | Some i => exists d, nth_error dfas i = Some d /\ nfa_set d = s
  | None => ~ In s (map nfa_set dfas)
  end.
Proof.
  induction dfas as [|d r IH]; intros s; cbn [find_set map In]; [auto|]. destruct (set_eqb (nfa_set d) s) eqn:E; [apply set_eqb_spec in E; exists d; auto|].
  specialize (IH s). destruct (find_set r s) as [i|]; cbn [option_map]; [exact IH|]. intros [H|H]; [|exact (IH H)]. apply set_eqb_spec in H. congruence.
Qed.

Lemma good_snoc : forall dfas s, good dfas -> good_set s -> ~ In s (map nfa_set dfas) -> good (dfas ++ [mk_dfa s (mem end_ s) false []]) /\ later dfas (dfas ++ [mk_dfa s (mem end_ s) false []]).
Proof.
  intros dfas s (N & F & C & U) G Fresh. set (d := mk_dfa s (mem end_ s) false []).
  assert (L : later dfas (dfas ++ [d])).
  { intros i x H. exists x. split; [|auto]. rewrite nth_error_app1; [exact H|]. apply nth_error_Some. congruence. }
  split; [|exact L]. assert (Split : forall i e, nth_error (dfas ++ [d]) i = Some e -> nth_error dfas i = Some e \/ e = d).
  { intros i e H. destruct (lt_dec i (length dfas)) as [B|B]; [left; rewrite nth_error_app1 in H by exact B; exact H|]. rewrite nth_error_app2 in H by lia. destruct (i - length dfas) as [|[|k]]; cbn in H; [right; congruence|discriminate|discriminate]. }
  split; [|split; [|split]].
  - rewrite map_app. cbn [map nfa_set d]. apply NoDup_app_snoc; assumption.
  - apply Forall_app. split; [exact F|]. constructor; [|constructor]. split; [exact G|]. cbn [is_final nfa_set d]. apply mem_spec.
  - intros i e H K. destruct (Split i e H) as [H'| ->]; [exact (later_transitions _ _ _ L (C i e H' K))|discriminate].
  - intros i e H K. destruct (Split i e H) as [H'| ->]; [exact (U i e H' K)|reflexivity].
Qed.

Lemma good_nfa_to_dfa : forall dfas starts, good dfas -> (forall x, In x starts -> x < length a) ->
  exists more i d, nfa_to_dfa a end_ order_states dfas starts = Some (dfas ++ more, i) /\ good (dfas ++ more) /\ later dfas (dfas ++ more) /\
    nth_error (dfas ++ more) i = Some d /\ (forall y, In y (nfa_set d) <-> exists x, In x starts /\ free x y) /\
    (forall k, length dfas <= k < length (dfas ++ more) -> k = i) /\ Forall (fun e => is_calculated e = false) more.
Proof.
  intros dfas starts G B. unfold nfa_to_dfa. assert (T := group_terminates (S (length a)) starts B ltac:(lia)). destruct (group_nfas a order_states (S (length a)) starts) as [s|] eqn:E; [|congruence].
  clear T. destruct (group_spec _ _ _ E) as (So & Cl & Re).
  assert (Gs : good_set s). { split; [exact So|]. split; [exact Cl|]. intros x I. apply Re in I. destruct I as (z & I & F). exact (free_bound _ _ F (B z I)). }
  assert (F := find_set_spec dfas s). destruct (find_set dfas s) as [i|].
  - destruct F as (d & Nd & Es). exists [], i, d. rewrite app_nil_r. refine (conj _ (conj _ (conj _ (conj _ (conj _ (conj _ _)))))); [reflexivity|exact G|apply later_refl|exact Nd|rewrite Es; exact Re|intros k K; lia|constructor].
  - destruct (good_snoc dfas s G Gs F) as [G' L]. exists [mk_dfa s (mem end_ s) false []], (length dfas), (mk_dfa s (mem end_ s) false []).
    refine (conj _ (conj _ (conj _ (conj _ (conj _ (conj _ _)))))); [reflexivity|exact G'|exact L| |exact Re| |repeat constructor].
    + rewrite nth_error_app2 by lia. rewrite Nat.sub_diag. reflexivity.
    + intros k K. rewrite app_length in K. cbn [length] in K. lia.
Qed.

Lemma good_all_to_dfas : forall groups dfas, good dfas -> (forall s v x, In (s, v) groups -> In x v -> x < length a) ->
  exists more ts, all_to_dfas a end_ order_states dfas groups = Some (dfas ++ more, ts) /\ good (dfas ++ more) /\ later dfas (dfas ++ more) /\ map fst ts = map fst groups /\
    (forall s j, In (s, j) ts -> exists v e, In (s, v) groups /\ nth_error (dfas ++ more) j = Some e /\ forall y, In y (nfa_set e) <-> exists x, In x v /\ free x y) /\
    (forall k, length dfas <= k < length (dfas ++ more) -> In k (map snd ts)) /\ Forall (fun e => is_calculated e = false) more.
Proof.
  induction groups as [|[s v] r IH]; intros dfas G B; cbn [all_to_dfas].
  - exists [], []. rewrite app_nil_r. refine (conj _ (conj _ (conj _ (conj _ (conj _ (conj _ _)))))); [reflexivity|exact G|apply later_refl|reflexivity|intros ? ? []|intros k K; lia|constructor].
  - destruct (good_nfa_to_dfa dfas v G) as (more & i & d & E & G1 & L1 & Nd & Re & New & Un). { intros x I. exact (B s v x (or_introl eq_refl) I). }
    rewrite E. destruct (IH (dfas ++ more) G1) as (more2 & ts & E2 & G2 & L2 & Fs & Ts & New2 & Un2). { intros s' v' x I. apply (B s' v' x). right. exact I. }
    rewrite E2. exists (more ++ more2), ((s, i) :: ts). rewrite app_assoc. refine (conj _ (conj _ (conj _ (conj _ (conj _ (conj _ _)))))); [reflexivity|exact G2|exact (later_trans _ _ _ L1 L2)|cbn [map fst]; congruence| | |].
    + intros s' j [H|H].
      * injection H as <- <-. destruct (L2 i d Nd) as (e & Ne & Se & _). exists v, e. split; [left; reflexivity|]. split; [exact Ne|]. rewrite Se. exact Re.
      * destruct (Ts s' j H) as (v' & e & I & Ne & Re'). exists v', e. split; [right; exact I|]. auto.
    + intros k K. cbn [map snd In]. destruct (lt_dec k (length (dfas ++ more))) as [Lk|Lk]; [left; symmetry; apply New; lia|right; apply New2; lia].
    + apply Forall_app. split; assumption.
Qed.

(** ** The symbols that lead out of a set *)
Lemma symbol_eqb_spec : forall s t, symbol_eqb s t = true <-> s = t.
Proof. intros [s|s|s] [t|t|t]; cbn [symbol_eqb]; rewrite ?N.eqb_eq; split; intros H; try discriminate; try congruence. Qed.

Lemma add_group_keys : forall g t to s, In s (map fst (add_group g t to)) <-> s = t \/ In s (map fst g).
Proof.
  induction g as [|[u v] r IH]; intros t to s; cbn [add_group map fst In]; [intuition congruence|]. destruct (symbol_eqb u t) eqn:E.
  - apply symbol_eqb_spec in E. subst u. cbn [map fst In]. intuition congruence.
  - cbn [map fst In]. rewrite IH. intuition congruence.
Qed.
Lemma add_group_nodup : forall g t to, NoDup (map fst g) -> NoDup (map fst (add_group g t to)).
Proof.
  induction g as [|[u v] r IH]; intros t to N; cbn [add_group map fst]; [repeat constructor; intros []|]. inversion N as [|? ? F N']; subst. destruct (symbol_eqb u t) eqn:E; cbn [map fst]; [exact N|].
  constructor; [|apply IH; exact N']. rewrite add_group_keys. intros [->|I]; [|exact (F I)]. assert (K : symbol_eqb t t = true) by (apply symbol_eqb_spec; reflexivity). congruence.
Qed.
Definition grouped (g : list (symbol * list nat)) (s : symbol) (q : nat) : Prop := exists v, In (s, v) g /\ In q v.
Lemma add_group_grouped : forall g t to s q, grouped (add_group g t to) s q <-> grouped g s q \/ (s = t /\ q = to).
Proof.
  intros g t to s q. unfold grouped. induction g as [|[u v] r IH]; cbn [add_group].
  - split; [intros (w & [H|[]] & I); injection H as <- <-; destruct I as [<-|[]]; right; auto|]. intros [(w & [] & _)|(-> & ->)]. exists [to]. split; left; reflexivity.
  - destruct (symbol_eqb u t) eqn:E.
    + apply symbol_eqb_spec in E. subst u. split.
      * intros (w & [H|H] & I); [|left; exists w; split; [right; exact H|exact I]]. injection H as <- <-. apply in_app_or in I. destruct I as [I|[<-|[]]]; [left; exists v; split; [left; reflexivity|exact I]|right; auto].
      * intros [(w & [H|H] & I)|(-> & ->)].
        -- injection H as <- <-. exists (v ++ [to]). split; [left; reflexivity|]. apply in_or_app. left. exact I.
        -- exists w. split; [right; exact H|exact I].
        -- exists (v ++ [to]). split; [left; reflexivity|]. apply in_or_app. right. left. reflexivity.
    + split.
      * intros (w & [H|H] & I); [left; exists w; split; [left; exact H|exact I]|]. destruct (proj1 IH) as [(w' & H' & I')|K]; [exists w; auto|left; exists w'; split; [right; exact H'|exact I']|right; exact K].
      * intros K. assert (K' : (u, v) = (s, v) /\ In q v \/ ((exists w, In (s, w) r /\ In q w) \/ s = t /\ q = to)).
        { destruct K as [(w & [H|H] & I)|K]; [injection H as <- <-; auto|right; left; exists w; auto|right; right; exact K]. }
        destruct K' as [(H & I)|K']; [exists v; split; [left; exact H|exact I]|]. apply IH in K'. destruct K' as (w & H & I). exists w. split; [right; exact H|exact I].
Qed.

Lemma grouped_spec : forall s, NoDup (map fst (grouped_transitions a s)) /\ (forall x q, grouped (grouped_transitions a s) x q <-> exists p, In p s /\ edge a p (Some x) q) /\
  (forall x, In x (map fst (grouped_transitions a s)) <-> exists p q, In p s /\ edge a p (Some x) q).
Proof.
  intros s. unfold grouped_transitions.
  assert (G : forall l g, NoDup (map fst g) ->
    let h := fold_left (fun groups t => match fst t with Some x => add_group groups x (snd t) | None => groups end) l g in
    NoDup (map fst h) /\ (forall x q, grouped h x q <-> grouped g x q \/ In (Some x, q) l) /\ (forall x, In x (map fst h) <-> In x (map fst g) \/ exists q, In (Some x, q) l)).
  { induction l as [|[[t|] to] l IH]; intros g N; cbn [fold_left fst snd].
    - split; [exact N|]. split; intros; cbn [In]; [tauto|]. split; [auto|intros [H|(q & [])]; exact H].
    - destruct (IH (add_group g t to) (add_group_nodup g t to N)) as (A & B & C). split; [exact A|]. split.
      + intros x q. rewrite B, add_group_grouped. cbn [In]. split; [intros [[H|(-> & ->)]|H]; auto|intros [H|[H|H]]; auto]. injection H as <- <-. auto.
      + intros x. rewrite C, add_group_keys. cbn [In]. split.
        * intros [[->|H]|(q & H)]; [right; exists to; auto|auto|right; exists q; auto].
        * intros [H|(q & [H|H])]; [auto|injection H as <- <-; auto|right; exists q; exact H].
    - destruct (IH g N) as (A & B & C). split; [exact A|]. split.
      + intros x q. rewrite B. cbn [In]. split; [intros [H|H]; auto|intros [H|[H|H]]; auto; discriminate].
      + intros x. rewrite C. cbn [In]. split; [intros [H|(q & H)]; [auto|right; exists q; auto]|intros [H|(q & [H|H])]; [auto|discriminate|right; exists q; exact H]]. }
  destruct (G (flat_map (transitions_of a) s) [] ltac:(constructor)) as (A & B & C). split; [exact A|].
  assert (F : forall x q, In (Some x, q) (flat_map (transitions_of a) s) <-> exists p, In p s /\ edge a p (Some x) q) by (intros x q; apply in_flat_map).
  split.
  - intros x q. rewrite B, F. split; [intros [(v & [] & _)|H]; exact H|auto].
  - intros x. rewrite C. split; [intros [[]|(q & H)]; apply F in H; destruct H as (p & H); exists p, q; exact H|intros (p & q & H); right; exists q; apply F; exists p; exact H].
Qed.

(** ** Marking a state as calculated *)
Lemma set_length : forall dfas d ts, length (set_transitions dfas d ts) = length dfas.
Proof. induction dfas as [|x r IH]; intros [|d] ts; cbn; try reflexivity. f_equal. apply IH. Qed.
Lemma set_sets : forall dfas d ts, map nfa_set (set_transitions dfas d ts) = map nfa_set dfas.
Proof. induction dfas as [|x r IH]; intros [|d] ts; cbn; try reflexivity. f_equal. apply IH. Qed.
Lemma set_same : forall dfas d ts x, nth_error dfas d = Some x -> nth_error (set_transitions dfas d ts) d = Some (mk_dfa (nfa_set x) (is_final x) true ts).
Proof. induction dfas as [|y r IH]; intros [|d] ts x H; cbn in *; try discriminate; [congruence|apply IH; exact H]. Qed.
Lemma set_other : forall dfas d ts i, i <> d -> nth_error (set_transitions dfas d ts) i = nth_error dfas i.
Proof. induction dfas as [|y r IH]; intros [|d] ts [|i] N; cbn; try reflexivity; try congruence. apply IH. lia. Qed.
Lemma set_later : forall dfas d ts x, nth_error dfas d = Some x -> is_calculated x = false -> later dfas (set_transitions dfas d ts).
Proof.
  intros dfas d ts x N U i y H. destruct (Nat.eq_dec i d) as [->|D].
  - rewrite N in H. injection H as <-. eexists. split; [exact (set_same _ _ ts _ N)|]. split; [reflexivity|]. split; [reflexivity|]. intros K. congruence.
  - exists y. rewrite set_other by exact D. auto.
Qed.

Definition calculated (dfas : list dfa) : nat := length (filter is_calculated dfas).
Lemma calculated_le : forall dfas, calculated dfas <= length dfas.
Proof. unfold calculated. induction dfas as [|d r IH]; cbn [filter length]; [lia|]. destruct (is_calculated d); cbn [length]; lia. Qed.
Lemma calculated_app : forall d e, calculated (d ++ e) = calculated d + calculated e.
Proof. intros d e. unfold calculated. rewrite filter_app, app_length. reflexivity. Qed.
Lemma calculated_set : forall dfas d ts x, nth_error dfas d = Some x -> is_calculated x = false -> calculated (set_transitions dfas d ts) = S (calculated dfas).
Proof.
  unfold calculated. induction dfas as [|y r IH]; intros [|d] ts x H U; cbn [nth_error set_transitions filter] in *; try discriminate.
  - injection H as ->. rewrite U. reflexivity.
  - specialize (IH d ts x H U). destruct (is_calculated y); cbn [length]; lia.
Qed.
Lemma calculated_later : forall d e, later d e -> calculated d <= calculated e.
Proof.
  induction d as [|x d IH]; intros e L; [cbn; lia|]. destruct (L 0 x eq_refl) as (y & Y & _ & _ & C). destruct e as [|z e]; [discriminate|]. injection Y as ->.
  assert (L' : later d e) by (intros i w H; exact (L (S i) w H)). specialize (IH e L'). unfold calculated in *. cbn [filter]. destruct (is_calculated x) eqn:K.
  - rewrite (C eq_refl), K. cbn [length]. lia.
  - destruct (is_calculated y); cbn [length]; lia.
Qed.
Lemma good_length : forall dfas, good dfas -> length dfas <= 2 ^ length a.
Proof.
  intros dfas (N & F & _). rewrite <- (map_length nfa_set), <- (subsets_length (length a) 0). apply NoDup_incl_length; [exact N|]. intros s I. apply in_map_iff in I. destruct I as (d & <- & I).
  rewrite Forall_forall in F. destruct (F d I) as ((So & _ & B) & _). apply subsets_all; [exact So|]. intros x Ix. specialize (B x Ix). lia.
Qed.

(** ** The construction *)
Lemma construct_step : forall dfas d state, good dfas -> nth_error dfas d = Some state -> is_calculated state = false ->
  exists more ts, all_to_dfas a end_ order_states dfas (order_groups (grouped_transitions a (nfa_set state))) = Some (dfas ++ more, ts) /\
    good (set_transitions (dfas ++ more) d ts) /\ later dfas (set_transitions (dfas ++ more) d ts) /\ S (calculated dfas) <= calculated (set_transitions (dfas ++ more) d ts) /\
    Forall (fun t => snd t < length (set_transitions (dfas ++ more) d ts)) ts /\
    (forall i x, nth_error (set_transitions (dfas ++ more) d ts) i = Some x -> is_calculated x = false -> (i <> d /\ nth_error dfas i = Some x) \/ In i (map snd ts)).
Proof.
  intros dfas d state G Nd U. destruct (grouped_spec (nfa_set state)) as (Nk & Gr & Ks). set (g := grouped_transitions a (nfa_set state)) in *.
  assert (P := groups_permuted g). assert (Ing : forall x, In x (order_groups g) <-> In x g) by (intros x; split; apply Permutation_in; [apply Permutation_sym|]; exact P).
  destruct (good_all_to_dfas (order_groups g) dfas G) as (more & ts & E & G1 & L1 & Fs & Ts & New & Un).
  { intros s v x I Ix. apply Ing in I. assert (K : grouped g s x) by (exists v; auto). apply Gr in K. destruct K as (p & _ & K). exact (well_a _ _ _ K). }
  assert (Nd1 : nth_error (dfas ++ more) d = Some state) by (rewrite nth_error_app1; [exact Nd|apply nth_error_Some; congruence]).
  assert (L2 := set_later _ _ ts _ Nd1 U). exists more, ts. repeat apply conj.
  - exact E.
  - rewrite set_sets. apply G1.
  - destruct G1 as (_ & F & _ & _). rewrite Forall_forall in *. intros x I. apply In_nth_error in I. destruct I as (i & Hi). destruct (Nat.eq_dec i d) as [->|D].
    + rewrite (set_same _ _ ts _ Nd1) in Hi. injection Hi as <-. exact (F state (nth_error_In _ _ Nd1)).
    + rewrite set_other in Hi by exact D. exact (F x (nth_error_In _ _ Hi)).
  - intros i x Hi K. apply (later_transitions (dfas ++ more)); [exact L2|]. destruct (Nat.eq_dec i d) as [->|D].
    + rewrite (set_same _ _ ts _ Nd1) in Hi. injection Hi as <-. unfold good_transitions. cbn [transitions nfa_set]. split; [rewrite Fs; apply (Permutation_NoDup (Permutation_map fst P)); exact Nk|]. split.
      * intros s j I. destruct (Ts s j I) as (v & e & Iv & Ne & Re). exists e. split; [exact Ne|]. intros y. rewrite Re. apply Ing in Iv. split.
        -- intros (q & Iq & Fq). assert (K' : grouped g s q) by (exists v; auto). apply Gr in K'. destruct K' as (p & Ip & Ep). exists p, q. auto.
        -- intros (p & q & Ip & Ep & Fq). assert (K' : grouped g s q) by (apply Gr; exists p; auto). destruct K' as (v' & Iv' & Iq). exists q. split; [|exact Fq].
           assert (v' = v); [|congruence]. clear -Nk Iv Iv'. induction g as [|[s1 v1] r IH]; [destruct Iv|]. cbn [map fst] in Nk. inversion Nk as [|? ? F N']; subst.
           destruct Iv as [H|H]; destruct Iv' as [H'|H']; [congruence| | |exact (IH N' H H')]; exfalso; apply F; apply in_map_iff; [exists (s, v')|exists (s, v)]; (split; [cbn; congruence|assumption]).
      * intros p x q Ip Ep. rewrite Fs. apply (Permutation_in x (Permutation_map fst P)). apply Ks. exists p, q. auto.
    + rewrite set_other in Hi by exact D. destruct G1 as (_ & _ & C & _). exact (C i x Hi K).
  - intros i x Hi K. destruct (Nat.eq_dec i d) as [->|D].
    + rewrite (set_same _ _ ts _ Nd1) in Hi. injection Hi as <-. discriminate.
    + rewrite set_other in Hi by exact D. destruct G1 as (_ & _ & _ & C). exact (C i x Hi K).
  - exact (later_trans _ _ _ L1 L2).
  - rewrite (calculated_set _ _ _ _ Nd1 U), calculated_app. lia.
  - rewrite Forall_forall. intros [s j] I. rewrite set_length. destruct (Ts s j I) as (v & e & _ & Ne & _). cbn [snd]. apply nth_error_Some. congruence.
  - intros i x Hi K. destruct (Nat.eq_dec i d) as [->|D].
    + rewrite (set_same _ _ ts _ Nd1) in Hi. injection Hi as <-. discriminate.
    + rewrite set_other in Hi by exact D. destruct (lt_dec i (length dfas)) as [Li|Li]; [left; split; [exact D|]; rewrite nth_error_app1 in Hi by exact Li; exact Hi|].
      right. apply New. split; [lia|]. apply nth_error_Some. congruence.
Qed.

Definition construct_all (fuel : nat) (ts : list (symbol * nat)) (start : option (list dfa)) : option (list dfa) :=
  fold_left (fun dfas t => match dfas with None => None | Some dfas => construct_powerset_for_dfa a end_ order_states order_groups fuel dfas (snd t) end) ts start.
Lemma construct_all_none : forall fuel ts, construct_all fuel ts None = None.
Proof. induction ts; [reflexivity|assumption]. Qed.

Lemma construct_spec : forall fuel dfas d R, good dfas -> construct_powerset_for_dfa a end_ order_states order_groups fuel dfas d = Some R ->
  good R /\ later dfas R /\ (exists x, nth_error R d = Some x /\ is_calculated x = true) /\
  (forall i x, nth_error R i = Some x -> is_calculated x = false -> nth_error dfas i = Some x).
Proof.
  induction fuel as [|fuel IH]; intros dfas d R G H; [discriminate|]. cbn [construct_powerset_for_dfa] in H. destruct (nth_error dfas d) as [state|] eqn:Nd; [|discriminate]. destruct (is_calculated state) eqn:U.
  - injection H as <-. split; [exact G|]. split; [apply later_refl|]. split; [exists state; auto|auto].
  - destruct (construct_step dfas d state G Nd U) as (more & ts & E & G1 & L1 & _ & _ & New). rewrite E in H. clear E. set (D := set_transitions (dfas ++ more) d ts) in *. fold (construct_all fuel ts (Some D)) in H.
    assert (K : forall ts D, good D -> construct_all fuel ts (Some D) = Some R -> good R /\ later D R /\
      (forall i x, nth_error R i = Some x -> is_calculated x = false -> nth_error D i = Some x /\ ~ In i (map snd ts))).
    { clear -IH. induction ts as [|[s j] ts IHts]; intros D G H.
      - injection H as <-. split; [exact G|]. split; [apply later_refl|]. intros i x Hi _. split; [exact Hi|intros []].
      - unfold construct_all in H. cbn [fold_left snd] in H. fold (construct_all fuel ts (construct_powerset_for_dfa a end_ order_states order_groups fuel D j)) in H.
        destruct (construct_powerset_for_dfa a end_ order_states order_groups fuel D j) as [D'|] eqn:E; [|rewrite construct_all_none in H; discriminate].
        destruct (IH _ _ _ G E) as (G' & L' & (xj & Nj & Cj) & O'). destruct (IHts D' G' H) as (G2 & L2 & O2). split; [exact G2|]. split; [exact (later_trans _ _ _ L' L2)|].
        intros i x Hi K. destruct (O2 i x Hi K) as [Hi' Ni]. split; [exact (O' i x Hi' K)|]. cbn [map snd In]. intros [<-|I]; [|exact (Ni I)]. rewrite Nj in Hi'. congruence. }
    destruct (K ts D G1 H) as (G2 & L2 & O2). split; [exact G2|]. split; [exact (later_trans _ _ _ L1 L2)|]. split.
    + assert (Nd1 : nth_error (dfas ++ more) d = Some state) by (rewrite nth_error_app1; [exact Nd|apply nth_error_Some; congruence]). assert (S1 := set_same _ _ ts _ Nd1). fold D in S1.
      destruct (L2 _ _ S1) as (y & Y & _ & _ & C). exists y. split; [exact Y|]. rewrite (C eq_refl). reflexivity.
    + intros i x Hi C. destruct (O2 i x Hi C) as [Hi' Ni]. destruct (New i x Hi' C) as [[_ Ho]|I]; [exact Ho|exfalso; exact (Ni I)].
Qed.

Lemma construct_terminates : forall fuel dfas d, good dfas -> d < length dfas -> 2 ^ length a < fuel + calculated dfas -> construct_powerset_for_dfa a end_ order_states order_groups fuel dfas d <> None.
Proof.
  induction fuel as [|fuel IH]; intros dfas d G Ld F.
  - exfalso. assert (A := good_length _ G). assert (B := calculated_le dfas). lia.
  - cbn [construct_powerset_for_dfa]. destruct (nth_error dfas d) as [state|] eqn:Nd; [|apply nth_error_None in Nd; lia]. destruct (is_calculated state) eqn:U; [discriminate|].
    destruct (construct_step dfas d state G Nd U) as (more & ts & E & G1 & L1 & Ct & Bt & _). rewrite E. clear E. set (D := set_transitions (dfas ++ more) d ts) in *. fold (construct_all fuel ts (Some D)).
    assert (Fd : 2 ^ length a < fuel + calculated D) by lia. clear -IH G1 Bt Fd states_permuted groups_permuted well_a. revert G1 Bt Fd. generalize D as E. clear D. induction ts as [|[s j] ts IHts]; intros D G1 Bt Fd; [discriminate|].
    unfold construct_all. cbn [fold_left snd]. fold (construct_all fuel ts (construct_powerset_for_dfa a end_ order_states order_groups fuel D j)).
    assert (Bj : j < length D) by (assert (X := Forall_inv Bt); exact X). assert (T := IH D j G1 Bj Fd).
    destruct (construct_powerset_for_dfa a end_ order_states order_groups fuel D j) as [D'|] eqn:E; [|congruence]. destruct (construct_spec _ _ _ _ G1 E) as (G' & L' & _ & _).
    apply IHts; [exact G'| |assert (X := calculated_later _ _ L'); lia]. assert (Len : length D <= length D').
    { destruct (le_lt_dec (length D) (length D')) as [X|X]; [exact X|]. exfalso. destruct (nth_error D (length D')) as [x|] eqn:Q; [|apply nth_error_None in Q; lia]. destruct (L' _ _ Q) as (y & Y & _).
      assert (Z : nth_error D' (length D') <> None) by congruence. apply nth_error_Some in Z. lia. }
    apply Forall_inv_tail in Bt. rewrite Forall_forall in *. intros t I. specialize (Bt t I). lia.
Qed.

Lemma good_nil : good [].
Proof. split; [constructor|]. split; [constructor|]. split; intros [|i] d H; discriminate. Qed.

Lemma powerset_spec : forall fuel start R, start < length a -> construct_powerset a end_ order_states order_groups fuel start = Some R ->
  good R /\ (forall i d, nth_error R i = Some d -> is_calculated d = true) /\ exists d0, nth_error R 0 = Some d0 /\ forall y, In y (nfa_set d0) <-> free start y.
Proof.
  intros fuel start R B H. unfold construct_powerset in H. destruct (good_nfa_to_dfa [] [start] good_nil) as (more & i & d & E & G & _ & Nd & Re & New & Un). { intros x [<-|[]]. exact B. }
  rewrite E in H. cbn [app] in *. destruct (construct_spec _ _ _ _ G H) as (G' & L & (x & Nx & Cx) & O). assert (Bi : i < length more) by (apply nth_error_Some; congruence).
  assert (i = 0) by (symmetry; apply New; cbn [length]; lia). subst i. split; [exact G'|]. split.
  - intros i y Hi. destruct (is_calculated y) eqn:K; [reflexivity|]. exfalso. assert (Hi' := O i y Hi K). assert (i = 0) by (apply New; cbn [length]; split; [lia|apply nth_error_Some; congruence]). subst i. congruence.
  - destruct (L 0 d Nd) as (y & Y & Sy & _). exists y. split; [exact Y|]. intros z. rewrite Sy, Re. split; [intros (u & [<-|[]] & F); exact F|intros F; exists start; split; [left; reflexivity|exact F]].
Qed.
Lemma powerset_terminates : forall fuel start, start < length a -> 2 ^ length a < fuel -> construct_powerset a end_ order_states order_groups fuel start <> None.
Proof.
  intros fuel start B F. unfold construct_powerset. destruct (good_nfa_to_dfa [] [start] good_nil) as (more & i & d & E & G & _ & Nd & _). { intros x [<-|[]]. exact B. }
  rewrite E. cbn [app] in *. apply construct_terminates; [exact G|apply nth_error_Some; congruence|lia].
Qed.

(** ** What it accepts *)
Lemma free_path : forall x y, free x y -> exists n, path a n x [] y.
Proof. intros x y H. induction H as [x|x y z E F (n & IH)]; [exists 0; constructor|]. exists (S n). exact (path_cons a n x None y [] z E IH). Qed.

Lemma accepts_path : forall R, good R -> (forall i d, nth_error R i = Some d -> is_calculated d = true) -> forall i w, accepts R i w ->
  exists d p n, nth_error R i = Some d /\ In p (nfa_set d) /\ path a n p w end_.
Proof.
  intros R (_ & F & C & _) A i w H. rewrite Forall_forall in F. induction H as [i d N Fi|i d s j w N I H IH].
  - exists d, end_, 0. split; [exact N|]. split; [|constructor]. apply (F d (nth_error_In _ _ N)). exact Fi.
  - destruct (C i d N (A i d N)) as (_ & T & _). destruct (T s j I) as (e & Ne & Re). destruct IH as (e' & p & n & Ne' & Ip & P). assert (e' = e) by congruence. subst e'. apply Re in Ip. destruct Ip as (p0 & q & I0 & E0 & Fq).
    destruct (free_path _ _ Fq) as (m & Pm). exists d, p0, (S (m + n)). split; [exact N|]. split; [exact I0|]. exact (path_cons a (m + n) p0 (Some s) q w end_ E0 (path_app _ _ _ _ _ Pm _ _ _ P)).
Qed.
Lemma path_accepts : forall R, good R -> (forall i d, nth_error R i = Some d -> is_calculated d = true) -> forall n p w, path a n p w end_ ->
  forall i d, nth_error R i = Some d -> In p (nfa_set d) -> accepts R i w.
Proof.
  intros R (_ & F & C & _) A n p w H. rewrite Forall_forall in F. remember end_ as e eqn:Ee. induction H as [p|n p x q w r E H IH]; intros i d N I.
  - apply (acc_end R i d); [exact N|]. apply (F d (nth_error_In _ _ N)). congruence.
  - destruct x as [s|]; cbn [label app].
    + destruct (C i d N (A i d N)) as (_ & T & M). assert (K := M p s q I E). apply in_map_iff in K. destruct K as ([s' j] & Es & Ij). cbn [fst] in Es. subst s'. destruct (T s j Ij) as (e' & Ne & Re).
      apply (acc_step R i d s j w N Ij). apply (IH Ee j e' Ne). apply Re. exists p, q. split; [exact I|]. split; [exact E|constructor].
    + apply (IH Ee i d N). destruct (F d (nth_error_In _ _ N)) as ((_ & Cl & _) & _). exact (Cl p q I E).
Qed.
End Powerset.
