(** * Proofs about the names of a dataclass *)
From Coq Require Import List Bool Arith Lia.
From Verif Require Import DataNamesModel DataNamesSpec.
Import ListNotations.

Lemma name_eqb_eq : forall a b, name_eqb a b = true <-> a = b.
Proof. intros [| | |i|i] [| | |j|j]; cbn; try (split; congruence); rewrite Nat.eqb_eq; split; congruence. Qed.
Lemma in_body_bound : forall c n, in_body c n = true <-> bound c n.
Proof.
  intros c n. unfold in_body, bound. rewrite existsb_exists. split.
  - intros (x & M & E). apply name_eqb_eq in E. now subst x.
  - intro M. exists n. split; [assumption|]. now apply name_eqb_eq.
Qed.
Lemma internal_makes : forall o n, lookup_symbol_internal o n = true <-> makes o n.
Proof. intros o n. split; [destruct n; cbn; intro E; try discriminate; now constructor|intro M; destruct M; assumption]. Qed.
Definition makes_b (c : class) (n : name) : bool := match c_data c with Some o => lookup_symbol_internal o n | None => false end.
Lemma made_b : forall c n, makes_b c n = true <-> made c n.
Proof.
  intros c n. unfold makes_b, made. destruct (c_data c) as [o|].
  - rewrite internal_makes. split; [eauto|]. intros (o' & E & M). now injection E as <-.
  - split; [discriminate|]. intros (o' & E & _). discriminate.
Qed.
Lemma not_bound : forall c n, in_body c n = false <-> ~ bound c n.
Proof. intros c n. rewrite <- in_body_bound. now rewrite not_true_iff_false. Qed.
Lemma not_made : forall c n, makes_b c n = false <-> ~ made c n.
Proof. intros c n. rewrite <- made_b. now rewrite not_true_iff_false. Qed.

(** The entry of the dictionary, computed *)
Definition dict_b (c : class) (n : name) : option origin := if in_body c n then Some InBody else if makes_b c n then Some Generated else None.
Lemma dict_some : forall c n r, dict_b c n = Some r <-> in_dict c n r.
Proof.
  intros c n r. unfold dict_b. destruct (in_body c n) eqn:B.
  - apply in_body_bound in B. split; [intros [= <-]; now constructor|]. intro D. destruct D; [reflexivity|contradiction].
  - apply not_bound in B. destruct (makes_b c n) eqn:M.
    + apply made_b in M. split; [intros [= <-]; now constructor|]. intro D. destruct D; [contradiction|reflexivity].
    + apply not_made in M. split; [discriminate|]. intro D. destruct D; contradiction.
Qed.
Lemma dict_none : forall c n, dict_b c n = None <-> ~ bound c n /\ ~ made c n.
Proof.
  intros c n. rewrite <- not_bound, <- not_made. unfold dict_b. destruct (in_body c n), (makes_b c n); split; try tauto; try discriminate; intros [A B]; discriminate.
Qed.
Fixpoint first_b (k : nat) (mro : list class) (n : name) : option (nat * origin) :=
  match mro with [] => None | c :: mro => match dict_b c n with Some r => Some (k, r) | None => first_b (S k) mro n end end.
Lemma first_shift : forall mro n k i r, first_b i mro n = Some (k, r) <-> i <= k /\ attribute mro n (k - i) r.
Proof.
  induction mro as [|c mro IH]; intros n k i r; cbn.
  - split; [discriminate|]. intros (_ & c & E & _). destruct (k - i); discriminate.
  - destruct (dict_b c n) as [q|] eqn:D.
    + split.
      * intros [= <- <-]. split; [lia|]. rewrite Nat.sub_diag. exists c. repeat split; [now apply dict_some|lia|lia].
      * intros (L & d & E & X & F). destruct (k - i) as [|m] eqn:K.
        -- cbn in E. injection E as <-. apply dict_some in X. rewrite D in X. injection X as ->. f_equal. f_equal. lia.
        -- specialize (F 0 c ltac:(lia) eq_refl). apply dict_none in F. congruence.
    + rewrite IH. split.
      * intros (L & d & E & X & F). split; [lia|]. replace (k - i) with (S (k - S i)) by lia. exists d. split; [exact E|]. split; [exact X|].
        intros [|j] e J N; [injection N as <-; now apply dict_none|]. apply (F j e); [lia|exact N].
      * intros (L & d & E & X & F). destruct (k - i) as [|m] eqn:K.
        -- cbn in E. injection E as <-. apply dict_some in X. congruence.
        -- split; [lia|]. replace (k - S i) with m by lia. exists d. split; [exact E|]. split; [exact X|].
           intros j e J N. apply (F (S j) e); [lia|exact N].
Qed.
Lemma first_exact : forall mro n k r, first_b 0 mro n = Some (k, r) <-> attribute mro n k r.
Proof. intros mro n k r. rewrite first_shift, Nat.sub_0_r. split; [tauto|]. split; [lia|assumption]. Qed.

Lemma base_dict : forall c n, ~ replaced c n -> base_symbol c n = dict_b c n.
Proof.
  intros c n R. assert (Rb : in_body c n = true -> makes_b c n = false).
  { intro B. apply not_made. intro M. apply R. split; [now apply in_body_bound|assumption]. }
  unfold base_symbol, dict_b, own_symbol, makes_b in *. destruct (c_data c) as [o|]; destruct (in_body c n); try reflexivity.
  now rewrite Rb.
Qed.
Lemma bases_first : forall bases k n, Forall (fun b => ~ replaced b n) bases -> bases_lookup k bases n = first_b k bases n.
Proof.
  induction bases as [|c bases IH]; intros k n F; cbn; [reflexivity|].
  apply Forall_cons_iff in F. destruct F as [A F]. now rewrite (base_dict c n A), IH.
Qed.
Lemma class_first : forall c bases n, Forall (fun b => ~ replaced b n) bases -> (made c n -> bound c n) -> class_lookup c bases n = first_b 0 (c :: bases) n.
Proof.
  intros c bases n F M. unfold class_lookup, own_symbol. cbn. unfold dict_b. destruct (in_body c n) eqn:B; [reflexivity|].
  destruct (makes_b c n) eqn:K; [|now apply bases_first]. apply made_b in K. apply M in K. apply in_body_bound in K. congruence.
Qed.
Lemma instance_first : forall c bases n, Forall (fun b => ~ replaced b n) bases -> lookup_on_instance c bases n = first_b 0 (c :: bases) n.
Proof.
  intros c bases n F. unfold lookup_on_instance. destruct (c_data c) as [o|] eqn:D.
  - destruct (lookup_symbol_internal o n) eqn:L, (in_body c n) eqn:B; cbn [andb negb];
    try (apply class_first; [assumption|]; rewrite <- made_b; unfold makes_b; rewrite D, <- in_body_bound; congruence).
    cbn. unfold dict_b, makes_b. now rewrite B, D, L.
  - apply class_first; [assumption|]. intros (o & E & _). congruence.
Qed.
Lemma constructor_instance : forall c bases, constructor c bases = lookup_on_instance c bases Init.
Proof.
  intros c bases. unfold constructor, lookup_on_instance. destruct (c_data c) as [o|]; [|reflexivity]. cbn [lookup_symbol_internal].
  now destruct (o_init o), (in_body c Init).
Qed.
Lemma type_instance : forall c bases n, ~ replaced c n -> (n = Init -> ~ made c n \/ bound c n) -> lookup_on_type c bases n = lookup_on_instance c bases n.
Proof.
  intros c bases n R N. assert (Rb : makes_b c n = true -> in_body c n = false).
  { intro M. apply not_bound. intro B. apply R. split; [assumption|now apply made_b]. }
  assert (Nb : n = Init -> makes_b c n = false).
  { intro E. destruct (N E) as [A|A]; [now apply not_made|]. apply not_made. intro M. apply R. now split. }
  unfold lookup_on_type, lookup_on_instance, makes_b in *. destruct (c_data c) as [o|]; [|reflexivity].
  destruct n; cbn [lookup_symbol_internal] in *; try reflexivity.
  - now rewrite (Nb eq_refl).
  - destruct (o_match_args o); [now rewrite Rb|reflexivity].
  - destruct (o_slots o); [now rewrite Rb|reflexivity].
  - destruct (o_order o); [now rewrite Rb|reflexivity].
Qed.
