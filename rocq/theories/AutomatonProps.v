(** C20: the automaton generated from a grammar rule and the symbols that the rule derives. *)
From Coq Require Import List Arith NArith Bool Lia Permutation.
From Verif Require Import AutomatonModel AutomatonSpec AutomatonProofs PowersetProofs PythonGrammar.
Import ListNotations.

Section Rule.
Variables (terminal_map nonterminal_map : N -> option N).
Variable order_states : list nat -> list nat.
Variable order_groups : list (symbol * list nat) -> list (symbol * list nat).
Hypothesis states_permuted : forall s, Permutation s (order_states s).
Hypothesis groups_permuted : forall g, Permutation g (order_groups g).
Notation automaton := (automaton terminal_map nonterminal_map order_states order_groups).
Notation derives := (derives terminal_map nonterminal_map).

Lemma well_nil : well [].
Proof. intros p x q H. apply edge_bound in H. cbn in H. lia. Qed.

Lemma build_known : forall r a, known terminal_map nonterminal_map r -> exists b s e, build terminal_map nonterminal_map a r = Some (b, s, e).
Proof.
  induction r as [name|name|r1 IH1 r2 IH2|r IH|r IH|r1 IH1 r2 IH2|r IH|r IH]; intros a K; cbn [build known new_nfa_states] in *.
  - destruct (terminal_map name); [eauto|]. destruct (nonterminal_map name); [eauto|]. destruct K; congruence.
  - eauto.
  - destruct K as [K1 K2]. destruct (IH1 (a ++ [[]; []]) K1) as (b & s & e & ->). destruct (IH2 (add_empty_transition (add_empty_transition b (length a) s) e (S (length a))) K2) as (b2 & s2 & e2 & ->). eauto.
  - destruct (IH a K) as (b & s & e & ->). eauto.
  - destruct (IH a K) as (b & s & e & ->). eauto.
  - destruct K as [K1 K2]. destruct (IH1 a K1) as (b & s & e & ->). destruct (IH2 b K2) as (b2 & s2 & e2 & ->). eauto.
  - exact (IH a K).
  - exact (IH a K).
Qed.

(** The automaton accepts what can be read along a path. *)
Lemma automaton_paths : forall fuel r dfas, automaton fuel r = Some dfas ->
  exists b s e, build terminal_map nonterminal_map [] r = Some (b, s, e) /\ well b /\ deterministic dfas /\ forall w, accepts dfas 0 w <-> exists n, path b n s w e.
Proof.
  intros fuel r dfas H. unfold AutomatonModel.automaton in H. destruct (build terminal_map nonterminal_map [] r) as [[[b s] e]|] eqn:B; [|discriminate].
  destruct (build_extends _ _ _ _ _ _ _ B) as (X & Ls & Le & _). assert (W := well_extends _ _ X well_nil).
  destruct (powerset_spec b e order_states order_groups states_permuted groups_permuted W fuel s dfas ltac:(lia) H) as (G & A & d0 & N0 & Re).
  exists b, s, e. split; [reflexivity|]. split; [exact W|]. split; [|intros w; split].
  - intros i d N. destruct G as (_ & _ & C & _). destruct (C i d N (A i d N)) as (Nd & T & _). split; [exact Nd|]. rewrite Forall_forall. intros [x j] I. destruct (T x j I) as (t & Nt & _). cbn [snd]. apply nth_error_Some. congruence.
  - intros K. destruct (accepts_path b e dfas G A 0 w K) as (d & p & n & Nd & Ip & P). assert (d = d0) by congruence. subst d. apply Re in Ip. destruct (free_path b s p Ip) as (m & Pm).
    exists (m + n). exact (path_app _ _ _ _ _ Pm _ _ _ P).
  - intros (n & P). apply (path_accepts b e dfas G A n s w P 0 d0 N0). apply Re. constructor.
Qed.

(** Generating the automaton comes to an end, and every state knows where to go with each symbol. *)
Theorem C20_automaton_generated : forall r, known terminal_map nonterminal_map r ->
  exists enough, forall fuel, enough <= fuel -> exists dfas, automaton fuel r = Some dfas /\ deterministic dfas /\ 0 < length dfas.
Proof.
  intros r K. destruct (build_known r [] K) as (b & s & e & B). exists (S (2 ^ length b)). intros fuel F. destruct (automaton fuel r) as [dfas|] eqn:E.
  - exists dfas. split; [reflexivity|]. destruct (automaton_paths _ _ _ E) as (b' & s' & e' & B' & W & D & A). split; [exact D|].
    unfold AutomatonModel.automaton in E. rewrite B in E. assert (b' = b /\ s' = s /\ e' = e) as (-> & -> & ->) by (rewrite B in B'; injection B' as -> -> ->; auto).
    destruct (build_extends _ _ _ _ _ _ _ B) as (_ & Ls & _ & _).
    destruct (powerset_spec b e order_states order_groups states_permuted groups_permuted W fuel s dfas ltac:(lia) E) as (_ & _ & d0 & N0 & _). apply nth_error_Some. congruence.
  - exfalso. unfold AutomatonModel.automaton in E. rewrite B in E. destruct (build_extends _ _ _ _ _ _ _ B) as (X & Ls & Le & _). revert E.
    apply (powerset_terminates b e order_states order_groups states_permuted groups_permuted (well_extends _ _ X well_nil)); lia.
Qed.

(** What a rule derives is accepted. *)
Theorem C20_derived_accepted : forall fuel r dfas w, automaton fuel r = Some dfas -> derives r w -> accepts dfas 0 w.
Proof.
  intros fuel r dfas w H D. destruct (automaton_paths _ _ _ H) as (b & s & e & B & W & _ & A). apply A. exact (derives_path _ _ _ _ _ _ _ B w D).
Qed.

(** What is accepted is derived, if optional parts do not begin or end with a repetition.  Rules with lookaheads are missing. *)
Theorem C20_accepted_derived_partial : forall fuel r dfas w, safe r = true -> automaton fuel r = Some dfas -> accepts dfas 0 w -> derives r w.
Proof.
  intros fuel r dfas w Sf H K. destruct (automaton_paths _ _ _ H) as (b & s & e & B & W & _ & A). apply A in K. destruct K as (n & P). exact (path_derives _ _ _ _ _ _ _ Sf well_nil B n w P).
Qed.
End Rule.

(** The random iteration order of the hash maps does not matter. *)
Theorem C20_order_irrelevant : forall terminal_map nonterminal_map os1 og1 os2 og2 fuel1 fuel2 r dfas1 dfas2,
  (forall s, Permutation s (os1 s)) -> (forall g, Permutation g (og1 g)) -> (forall s, Permutation s (os2 s)) -> (forall g, Permutation g (og2 g)) ->
  automaton terminal_map nonterminal_map os1 og1 fuel1 r = Some dfas1 -> automaton terminal_map nonterminal_map os2 og2 fuel2 r = Some dfas2 ->
  forall w, accepts dfas1 0 w <-> accepts dfas2 0 w.
Proof.
  intros tm nm os1 og1 os2 og2 f1 f2 r d1 d2 P1 Q1 P2 Q2 H1 H2 w. destruct (automaton_paths tm nm os1 og1 P1 Q1 f1 r d1 H1) as (b & s & e & B & _ & _ & A1).
  destruct (automaton_paths tm nm os2 og2 P2 Q2 f2 r d2 H2) as (b' & s' & e' & B' & _ & _ & A2). rewrite B in B'. injection B' as <- <- <-. rewrite A1, A2. reflexivity.
Qed.

Fixpoint knownb (terminal_map nonterminal_map : N -> option N) (r : rule) : bool :=
  match r with
  | Identifier name => match terminal_map name, nonterminal_map name with None, None => false | _, _ => true end
  | KeywordRule _ => true
  | Or r1 r2 | Next r1 r2 => knownb terminal_map nonterminal_map r1 && knownb terminal_map nonterminal_map r2
  | Maybe r | Multiple r | NodeMayBeOmitted r | DoesErrorRecovery r => knownb terminal_map nonterminal_map r
  end.
Lemma knownb_known : forall t n r, knownb t n r = true -> known t n r.
Proof.
  induction r as [name|name|r1 IH1 r2 IH2|r IH|r IH|r1 IH1 r2 IH2|r IH|r IH]; cbn [knownb known]; auto.
  - destruct (t name), (n name); intros H; try discriminate; [left|left|right]; discriminate.
  - rewrite andb_true_iff. intros [A B]. auto.
  - rewrite andb_true_iff. intros [A B]. auto.
Qed.

(** The rules of the Python grammar without lookaheads, except two: what the automaton accepts is what the rule derives. *)
Theorem C20_python_grammar_partial : forall r, In r python_rules -> forall order_states order_groups,
  (forall s, Permutation s (order_states s)) -> (forall g, Permutation g (order_groups g)) ->
  exists enough, forall fuel, enough <= fuel -> exists dfas, automaton python_terminals python_nonterminals order_states order_groups fuel r = Some dfas /\
    forall w, accepts dfas 0 w <-> derives python_terminals python_nonterminals r w.
Proof.
  intros r I os og P Q. assert (S : forallb safe python_rules = true) by (vm_compute; reflexivity).
  assert (K : forallb (knownb python_terminals python_nonterminals) python_rules = true) by (vm_compute; reflexivity).
  rewrite forallb_forall in S, K. destruct (C20_automaton_generated _ _ os og P Q r (knownb_known _ _ r (K r I))) as (enough & H). exists enough. intros fuel F. destruct (H fuel F) as (dfas & E & _). exists dfas. split; [exact E|].
  intros w. split; [exact (C20_accepted_derived_partial _ _ os og P Q fuel r dfas w (S r I) E)|exact (C20_derived_accepted _ _ os og P Q fuel r dfas w E)].
Qed.
Example C20_python_grammar_size : length python_rules = 133 /\ forallb (fun r => negb (safe r)) python_rules_with_optional_repetitions = true.
Proof. split; vm_compute; reflexivity. Qed.

(** ** Examples *)
Definition ex_terminals (n : N) : option N := if N.ltb n 10 then Some n else None.
Definition ex_nonterminals (n : N) : option N := if N.ltb n 20 then Some n else None.
Definition ex_rule : rule := Next (KeywordRule 1) (Or (Maybe (Multiple (Next (Identifier 3) (KeywordRule 2)))) (Identifier 12)).
Definition ex_automaton : option (list dfa) := automaton ex_terminals ex_nonterminals (@rev nat) (@rev (symbol * list nat)) 600 ex_rule.

Example C20_example_known : known ex_terminals ex_nonterminals ex_rule /\ safe ex_rule = true.
Proof. split; [|reflexivity]. cbn [known ex_rule]. repeat split; try (left; discriminate). right. discriminate. Qed.
Example C20_example_permutation : (forall s : list nat, Permutation s (rev s)) /\ (forall g : list (symbol * list nat), Permutation g (rev g)).
Proof. split; intros; apply Permutation_rev. Qed.
Example C20_example_automaton : option_map (map (fun d => (is_final d, transitions d))) ex_automaton =
  Some [(false, [(Keyword 1, 1)]); (true, [(Nonterminal 12, 2); (Terminal 3, 3)]); (true, []); (false, [(Keyword 2, 4)]); (true, [(Terminal 3, 3)])].
Proof. vm_compute. reflexivity. Qed.
Example C20_example_derives : derives ex_terminals ex_nonterminals ex_rule [Keyword 1; Terminal 3; Keyword 2; Terminal 3; Keyword 2].
Proof.
  change [Keyword 1; Terminal 3; Keyword 2; Terminal 3; Keyword 2] with ([Keyword 1] ++ ([Terminal 3] ++ [Keyword 2]) ++ ([Terminal 3] ++ [Keyword 2])). repeat constructor; apply der_left, der_something, der_again; repeat constructor.
Qed.

(** ** The two directions differ for optional parts that begin or end with a repetition *)

(** [a b*], as a whole optional: accepts [b] alone. *)
Definition optional_tail : rule := Maybe (Next (KeywordRule 1) (Maybe (Multiple (KeywordRule 2)))).
Lemma multiple_keyword : forall t n k w, derives t n (Multiple (KeywordRule k)) w -> Forall (eq (Keyword k)) w.
Proof.
  intros t n k w H. remember (Multiple (KeywordRule k)) as r eqn:E. induction H; try discriminate; injection E as ->.
  - inversion H. repeat constructor.
  - apply Forall_app. split; [inversion H; repeat constructor|]. apply IHderives2. reflexivity.
Qed.
Theorem C20_optional_tail_refuted : exists dfas, automaton ex_terminals ex_nonterminals (fun s => s) (fun g => g) 20 optional_tail = Some dfas /\
  accepts dfas 0 [Keyword 2] /\ ~ derives ex_terminals ex_nonterminals optional_tail [Keyword 2].
Proof.
  destruct (automaton ex_terminals ex_nonterminals (fun s => s) (fun g => g) 20 optional_tail) as [dfas|] eqn:E; [|vm_compute in E; discriminate]. exists dfas. split; [reflexivity|]. split.
  - vm_compute in E. injection E as <-. eapply acc_step; [reflexivity|right; left; reflexivity|]. eapply acc_end; reflexivity.
  - intros D. inversion D as [| | | | | |? ? D1| | | | |]; subst. inversion D1 as [| | | | | | | | |? ? u v Du Dv Er Ew| |]; subst. inversion Du; subst. discriminate.
Qed.

(** [a+ b], as a whole optional: accepts [a] alone. *)
Definition optional_head : rule := Maybe (Next (Multiple (KeywordRule 1)) (KeywordRule 2)).
Theorem C20_optional_head_refuted : exists dfas, automaton ex_terminals ex_nonterminals (fun s => s) (fun g => g) 20 optional_head = Some dfas /\
  accepts dfas 0 [Keyword 1] /\ ~ derives ex_terminals ex_nonterminals optional_head [Keyword 1].
Proof.
  destruct (automaton ex_terminals ex_nonterminals (fun s => s) (fun g => g) 20 optional_head) as [dfas|] eqn:E; [|vm_compute in E; discriminate]. exists dfas. split; [reflexivity|]. split.
  - vm_compute in E. injection E as <-. eapply acc_step; [reflexivity|left; reflexivity|]. eapply acc_end; reflexivity.
  - intros D. inversion D as [| | | | | |? ? D1| | | | |]; subst. inversion D1 as [| | | | | | | | |? ? u v Du Dv Er Ew| |]; subst. inversion Dv; subst.
    destruct u as [|x [|y u]]; discriminate.
Qed.

Print Assumptions C20_automaton_generated.
Print Assumptions C20_derived_accepted.
Print Assumptions C20_accepted_derived_partial.
Print Assumptions C20_order_irrelevant.
Print Assumptions C20_python_grammar_partial.
Print Assumptions C20_optional_tail_refuted.
Print Assumptions C20_optional_head_refuted.
