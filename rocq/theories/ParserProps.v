(** The parser: properties. *)
From Coq Require Import List Arith NArith Bool Lia.
From Verif Require Import TreeModel TreeSpec TreeProofs ParserModel ParserSpec ParserTree ParserProofs ParserTables.
Import ListNotations.

(** What is asked for: the array is the one of a syntax tree in which every node covers its children, and the leaves of the
    tree are the tokens. *)
Definition is_tree_of (ns : list node) (tokens : list token) : Prop :=
  exists t hi, ns = array t /\ proper t /\ placed 0 t hi /\ leaves t = map token_span tokens.
(** The input: the tokens come one after the other, and there is at least one (there is always an end marker). *)
Definition good_tokens (tokens : list token) : Prop :=
  tokens <> [] /\ in_order 0 tokens /\ Forall (fun t => (t_type t < 32768)%N) tokens.

(** For all tables and all tokens, with backtracking and error recovery: if the parser is done and none of the odd events
    happened, then the array is a tree of the tokens.  Missing: the odd events, for which it is wrong (below). *)
Theorem C40_tree_partial : forall g fuel start first tokens st,
  tables_ok g -> may_be_omitted g first = false -> (32768 <= start)%N -> good_tokens tokens ->
  parse g fuel start first tokens = Done st -> odd st = false -> is_tree_of (nodes st) tokens.
Proof.
  intros g fuel start first tokens st Tab Om Ty (Ne & Or & Tys) H Od. exact (parse_tree g tokens Or Tys Tab fuel start first st Ne Om Ty H Od).
Qed.

(** For tables without conflicts and negative lookaheads there are no odd events. *)
Theorem C40_plain_tree : forall g fuel start first own tokens st,
  tables_ok g -> plain_tables g first own -> may_be_omitted g first = false -> (32768 <= start)%N -> good_tokens tokens ->
  parse g fuel start first tokens = Done st -> is_tree_of (nodes st) tokens.
Proof.
  intros g fuel start first own tokens st Tab Pl Om Ty Go H. apply (C40_tree_partial g fuel start first tokens st Tab Om Ty Go H).
  apply (parse_plain g own first Pl fuel start tokens st Om H).
Qed.

(** The engine never puts a token into the tree twice or in another order, and never one that it was not given; nothing is
    shared: the number of leaves is the number of tokens. *)
Theorem C40_leaf_count_partial : forall g fuel start first tokens st,
  tables_ok g -> may_be_omitted g first = false -> (32768 <= start)%N -> good_tokens tokens ->
  parse g fuel start first tokens = Done st -> odd st = false -> length (filter is_leaf (nodes st)) = length tokens.
Proof.
  intros g fuel start first tokens st Tab Om Ty Go H Od. destruct (C40_tree_partial g fuel start first tokens st Tab Om Ty Go H Od) as (t & hi & -> & P & _ & L).
  rewrite <- (map_length span_of). change (length (spans (flatten true t)) = length tokens). rewrite (spans_flatten t P), L. apply map_length.
Qed.

(** A grammar with conflicts, left recursion, nodes that may be omitted and error recovery:
    file: stmt* '$'
    stmt: @error_recovery (target '=' expr | expr) ';'
    target: term | '(' target ')'
    expr: ? term ('+' term)*
    term: term '.' Name | Name | '(' expr ')' *)
(* Tokens: 1 $, 2 (, 3 ), 4 +, 5 ., 6 ;, 7 =, 8 Name.  Nodes: 32768 file, 32769 stmt, 32770 target, 32771 expr, 32772 term. *)
Definition small : tables :=
  mk_tables
    [mk_entry false false false (Some 32769%N)
      [(8%N, mk_plan [mk_push 32769 7 Own; mk_push 32769 3 (Alternative 0); mk_push 32770 11 Own; mk_push 32772 24 Own] 0 8 PlanLL); (2%N, mk_plan [mk_push 32769 7 Own; mk_push 32769 3 (Alternative 1); mk_push 32770 15 Own; mk_push 32770 11 (Alternative 2); mk_push 32772 25 Own] 0 2 PlanLL); (1%N, mk_plan [] 1 1 PlanLL)];
     mk_entry true false false None
      [];
     mk_entry false false false None
      [(8%N, mk_plan [mk_push 32769 3 (Alternative 0); mk_push 32770 11 Own; mk_push 32772 24 Own] 7 8 PlanLL); (2%N, mk_plan [mk_push 32769 3 (Alternative 1); mk_push 32770 15 Own; mk_push 32770 11 (Alternative 2); mk_push 32772 25 Own] 7 2 PlanLL)];
     mk_entry false false false None
      [(7%N, mk_plan [] 5 7 PlanLL)];
     mk_entry false false false None
      [(6%N, mk_plan [] 7 6 PlanLL)];
     mk_entry false false false None
      [(8%N, mk_plan [mk_push 32771 19 Own; mk_push 32772 24 Own] 6 8 PlanLL); (2%N, mk_plan [mk_push 32771 19 Own; mk_push 32772 25 Own] 6 2 PlanLL)];
     mk_entry false false false None
      [(6%N, mk_plan [] 7 6 PlanLL)];
     mk_entry true false false None
      [];
     mk_entry false false false None
      [(8%N, mk_plan [mk_push 32770 11 Own; mk_push 32772 24 Own] 3 8 PlanLL); (2%N, mk_plan [mk_push 32770 15 Own; mk_push 32770 11 (Alternative 2); mk_push 32772 25 Own] 3 2 PlanLL)];
     mk_entry false false false None
      [(8%N, mk_plan [mk_push 32771 19 Own; mk_push 32772 24 Own] 4 8 PlanLL); (2%N, mk_plan [mk_push 32771 19 Own; mk_push 32772 25 Own] 4 2 PlanLL)];
     mk_entry false false false None
      [(8%N, mk_plan [mk_push 32772 24 Own] 11 8 PlanLL); (2%N, mk_plan [mk_push 32770 11 (Alternative 2); mk_push 32772 25 Own] 15 2 PlanLL)];
     mk_entry true false false None
      [];
     mk_entry false false false None
      [(8%N, mk_plan [mk_push 32770 11 Own; mk_push 32772 24 Own] 13 8 PlanLL); (2%N, mk_plan [mk_push 32770 15 Own; mk_push 32770 11 (Alternative 2); mk_push 32772 25 Own] 13 2 PlanLL)];
     mk_entry false false false None
      [(3%N, mk_plan [] 14 3 PlanLL)];
     mk_entry true false false None
      [];
     mk_entry true false false None
      [];
     mk_entry false false false None
      [(8%N, mk_plan [mk_push 32772 24 Own] 11 8 PlanLL); (2%N, mk_plan [mk_push 32772 25 Own] 11 2 PlanLL)];
     mk_entry false false false None
      [(2%N, mk_plan [] 12 2 PlanLL)];
     mk_entry false true false None
      [(8%N, mk_plan [mk_push 32772 24 Own] 19 8 PlanLL); (2%N, mk_plan [mk_push 32772 25 Own] 19 2 PlanLL)];
     mk_entry true true false None
      [(4%N, mk_plan [] 20 4 PlanLL)];
     mk_entry false true false None
      [(8%N, mk_plan [mk_push 32772 24 Own] 21 8 PlanLL); (2%N, mk_plan [mk_push 32772 25 Own] 21 2 PlanLL)];
     mk_entry true true false None
      [(4%N, mk_plan [] 20 4 PlanLL)];
     mk_entry false false false None
      [(8%N, mk_plan [] 24 8 PlanLL); (2%N, mk_plan [] 25 2 PlanLL)];
     mk_entry false false false None
      [(5%N, mk_plan [] 26 5 PlanLL)];
     mk_entry true false false None
      [(5%N, mk_plan [] 26 5 PlanLeftRecursive)];
     mk_entry false false false None
      [(8%N, mk_plan [mk_push 32771 19 Own; mk_push 32772 24 Own] 28 8 PlanLL); (2%N, mk_plan [mk_push 32771 19 Own; mk_push 32772 25 Own] 28 2 PlanLL)];
     mk_entry false false false None
      [(8%N, mk_plan [] 27 8 PlanLL)];
     mk_entry true false false None
      [(5%N, mk_plan [] 26 5 PlanLeftRecursive)];
     mk_entry false false false None
      [(3%N, mk_plan [] 29 3 PlanLL)];
     mk_entry true false false None
      [(5%N, mk_plan [] 26 5 PlanLeftRecursive)];
     mk_entry true false false None
      [(5%N, mk_plan [] 26 5 PlanLeftRecursive)]]
    [mk_alternative (mk_plan [mk_push 32771 19 Own; mk_push 32772 24 Own] 4 8 PlanLL) (mk_plan [mk_push 32770 11 Own; mk_push 32772 24 Own] 3 8 PlanLL) (Some ([mk_push 32771 19 Own; mk_push 32772 30 Own], 0));
     mk_alternative (mk_plan [mk_push 32771 19 Own; mk_push 32772 25 Own] 4 2 PlanLL) (mk_plan [mk_push 32770 15 Own; mk_push 32770 11 (Alternative 2); mk_push 32772 25 Own] 3 2 PlanLL) None;
     mk_alternative (mk_plan [] 12 2 PlanLL) (mk_plan [mk_push 32772 25 Own] 11 2 PlanLL) None]
    [32769%N].
Definition plain_run := [mk_token 0 1 8; mk_token 2 1 5; mk_token 4 1 8; mk_token 6 1 4; mk_token 8 1 8; mk_token 10 1 5; mk_token 12 1 8; mk_token 14 1 6; mk_token 16 1 8; mk_token 18 1 5; mk_token 20 1 8; mk_token 22 1 7; mk_token 24 1 2; mk_token 26 1 8; mk_token 28 1 4; mk_token 30 1 8; mk_token 32 1 5; mk_token 34 1 8; mk_token 36 1 3; mk_token 38 1 6; mk_token 40 0 1].
Definition paren_run := [mk_token 0 1 2; mk_token 2 1 2; mk_token 4 1 8; mk_token 6 1 3; mk_token 8 1 3; mk_token 10 1 7; mk_token 12 1 8; mk_token 14 1 6; mk_token 16 1 2; mk_token 18 1 8; mk_token 20 1 4; mk_token 22 1 8; mk_token 24 1 3; mk_token 26 1 6; mk_token 28 0 1].
Definition error_run := [mk_token 0 1 4; mk_token 2 1 3; mk_token 4 1 6; mk_token 6 1 7; mk_token 8 1 8; mk_token 10 1 6; mk_token 12 1 8; mk_token 14 0 1].
Example small_ok : tables_ok (grammar_of small).
Proof. apply check_tables_ok. vm_compute. reflexivity. Qed.
(** The first statement is tried as a target and then the term is reused. *)
Example plain_run_ok : exists st, good_tokens plain_run /\ parse (grammar_of small) 100 32768 0 plain_run = Done st /\ odd st = false.
Proof.
  eexists. refine (conj (conj _ (conj _ _)) (conj _ _)); [discriminate|cbn; lia|repeat constructor|vm_compute; reflexivity|reflexivity].
Qed.
(** The second statement is tried as a target in two ways and then parsed again. *)
Example paren_run_ok : exists st, good_tokens paren_run /\ parse (grammar_of small) 100 32768 0 paren_run = Done st /\ odd st = false.
Proof.
  eexists. refine (conj (conj _ (conj _ _)) (conj _ _)); [discriminate|cbn; lia|repeat constructor|vm_compute; reflexivity|reflexivity].
Qed.
(** Errors: tokens that do not fit, and a statement without an end. *)
Example error_run_ok : exists st, good_tokens error_run /\ parse (grammar_of small) 100 32768 0 error_run = Done st /\ odd st = false.
Proof.
  eexists. refine (conj (conj _ (conj _ _)) (conj _ _)); [discriminate|cbn; lia|repeat constructor|vm_compute; reflexivity|reflexivity].
Qed.
(** A grammar without conflicts:
    file: stmt* '$'
    stmt: @error_recovery expr ';'
    expr: ? term ('+' term)*
    term: term '.' Name | Name | '(' expr ')' *)
(* Tokens: 1 $, 2 (, 3 ), 4 +, 5 ., 6 ;, 7 Name.  Nodes: 32768 file, 32769 stmt, 32770 expr, 32771 term. *)
Definition simple : tables :=
  mk_tables
    [mk_entry false false false (Some 32769%N)
      [(7%N, mk_plan [mk_push 32769 3 Own; mk_push 32770 6 Own; mk_push 32771 11 Own] 0 7 PlanLL); (2%N, mk_plan [mk_push 32769 3 Own; mk_push 32770 6 Own; mk_push 32771 12 Own] 0 2 PlanLL); (1%N, mk_plan [] 1 1 PlanLL)];
     mk_entry true false false None
      [];
     mk_entry false false false None
      [(7%N, mk_plan [mk_push 32770 6 Own; mk_push 32771 11 Own] 3 7 PlanLL); (2%N, mk_plan [mk_push 32770 6 Own; mk_push 32771 12 Own] 3 2 PlanLL)];
     mk_entry false false false None
      [(6%N, mk_plan [] 4 6 PlanLL)];
     mk_entry true false false None
      [];
     mk_entry false true false None
      [(7%N, mk_plan [mk_push 32771 11 Own] 6 7 PlanLL); (2%N, mk_plan [mk_push 32771 12 Own] 6 2 PlanLL)];
     mk_entry true true false None
      [(4%N, mk_plan [] 7 4 PlanLL)];
     mk_entry false true false None
      [(7%N, mk_plan [mk_push 32771 11 Own] 8 7 PlanLL); (2%N, mk_plan [mk_push 32771 12 Own] 8 2 PlanLL)];
     mk_entry true true false None
      [(4%N, mk_plan [] 7 4 PlanLL)];
     mk_entry false false false None
      [(7%N, mk_plan [] 11 7 PlanLL); (2%N, mk_plan [] 12 2 PlanLL)];
     mk_entry false false false None
      [(5%N, mk_plan [] 13 5 PlanLL)];
     mk_entry true false false None
      [(5%N, mk_plan [] 13 5 PlanLeftRecursive)];
     mk_entry false false false None
      [(7%N, mk_plan [mk_push 32770 6 Own; mk_push 32771 11 Own] 15 7 PlanLL); (2%N, mk_plan [mk_push 32770 6 Own; mk_push 32771 12 Own] 15 2 PlanLL)];
     mk_entry false false false None
      [(7%N, mk_plan [] 14 7 PlanLL)];
     mk_entry true false false None
      [(5%N, mk_plan [] 13 5 PlanLeftRecursive)];
     mk_entry false false false None
      [(3%N, mk_plan [] 16 3 PlanLL)];
     mk_entry true false false None
      [(5%N, mk_plan [] 13 5 PlanLeftRecursive)]]
    []
    [32769%N].
Definition simple_run := [mk_token 0 1 7; mk_token 2 1 4; mk_token 4 1 2; mk_token 6 1 7; mk_token 8 1 5; mk_token 10 1 7; mk_token 12 1 5; mk_token 14 1 7; mk_token 16 1 6; mk_token 18 1 3; mk_token 20 1 7; mk_token 22 1 6; mk_token 24 1 4; mk_token 26 0 1].
Definition simple_states (s : nat) : Prop := s < 2.
Example simple_ok : tables_ok (grammar_of simple) /\ plain_tables (grammar_of simple) 0 simple_states.
Proof.
  split; [apply check_tables_ok; vm_compute; reflexivity|].
  assert (Cp : forallb (fun e => forallb (fun p => forallb (fun q => is_own (p_mode q)) (pl_pushes (snd p))) (e_plans e) && negb (e_negative e)) (t_entries simple) = true) by (vm_compute; reflexivity).
  assert (Cn : forallb (fun s => forallb (fun p => (pl_next (snd p) <? 2) && match pl_mode (snd p) with PlanLeftRecursive => false | _ => true end) (e_plans (entry_of simple s)))
                 (seq 0 2) = true) by (vm_compute; reflexivity).
  rewrite forallb_forall in Cp, Cn.
  assert (Lk : forall s t p, lookup (grammar_of simple) s t = Some p -> In (entry_of simple s) (t_entries simple) /\ exists q, In q (e_plans (entry_of simple s)) /\ snd q = p).
  { intros s t p L. cbn [grammar_of lookup] in L. unfold plan_for in L. destruct (find _ _) as [q|] eqn:F; [|discriminate]. injection L as <-. apply find_some in F. destruct F as [F _].
    split; [|eauto]. destruct (entry_cases simple s) as [E|E]; [rewrite E in F; destruct F|exact E]. }
  constructor.
  - intros s t p L. destruct (Lk s t p L) as (I & q & Q & <-). specialize (Cp _ I). apply andb_true_iff in Cp. destruct Cp as [Cp _]. rewrite forallb_forall in Cp. apply (Cp q Q).
  - intros s. cbn [grammar_of negative]. destruct (entry_cases simple s) as [->|I]; [reflexivity|]. specialize (Cp _ I). apply andb_true_iff in Cp. destruct Cp as [_ Cp]. apply negb_true_iff in Cp. exact Cp.
  - unfold simple_states. lia.
  - intros s t p Ow L. destruct (Lk s t p L) as (_ & q & Q & <-). assert (I : In s (seq 0 2)) by (apply in_seq; unfold simple_states in Ow; lia).
    specialize (Cn s I). rewrite forallb_forall in Cn. specialize (Cn q Q). apply andb_true_iff in Cn. destruct Cn as [C1 C2]. apply Nat.ltb_lt in C1. split; [exact C1|]. intros E. rewrite E in C2. discriminate.
Qed.
Example simple_run_ok : exists st, good_tokens simple_run /\ parse (grammar_of simple) 100 32768 0 simple_run = Done st /\ length (nodes st) = 27.
Proof.
  eexists. refine (conj (conj _ (conj _ _)) (conj _ _)); [discriminate|cbn; lia|repeat constructor|vm_compute; reflexivity|reflexivity].
Qed.

(** A negative lookahead:
    file: stmt* '$'
    stmt: @error_recovery Name !':' '=' ';' *)
(* Tokens: 1 $, 2 :, 3 ;, 4 =, 5 Name.  Nodes: 32768 file, 32769 stmt. *)
Definition ahead_tables : tables :=
  mk_tables
    [mk_entry false false false (Some 32769%N)
      [(5%N, mk_plan [mk_push 32769 3 Own] 0 5 PlanLL); (1%N, mk_plan [] 1 1 PlanLL)];
     mk_entry true false false None
      [];
     mk_entry false false false None
      [(5%N, mk_plan [] 3 5 PlanLL)];
     mk_entry false false false None
      [(4%N, mk_plan [] 7 4 PlanLL); (2%N, mk_plan [] 9 2 PlanLL)];
     mk_entry false false false None
      [(2%N, mk_plan [] 5 2 PlanLL)];
     mk_entry true false false None
      [];
     mk_entry false false false None
      [(4%N, mk_plan [] 7 4 PlanLL)];
     mk_entry false false false None
      [(3%N, mk_plan [] 8 3 PlanLL)];
     mk_entry true false false None
      [];
     mk_entry false false true None
      []]
    []
    [32769%N].
Definition ahead_run := [mk_token 0 1 5; mk_token 2 1 2; mk_token 4 1 4; mk_token 6 1 3; mk_token 8 0 1].
(** A token that a negative lookahead forbids is in no leaf. *)
Theorem C40_ahead_refuted : exists st, tables_ok (grammar_of ahead_tables) /\ good_tokens ahead_run /\
  parse (grammar_of ahead_tables) 100 32768 0 ahead_run = Done st /\ ~ is_tree_of (nodes st) ahead_run.
Proof.
  eexists. refine (conj _ (conj (conj _ (conj _ _)) (conj _ _))); [apply check_tables_ok; vm_compute; reflexivity|discriminate|cbn; lia|repeat constructor|vm_compute; reflexivity|].
  intros (t & hi & E & P & _ & L). rewrite <- (spans_flatten t P true) in L. fold (array t) in L. rewrite <- E in L. vm_compute in L. discriminate.
Qed.
(** A node that may be omitted, with a conflict behind its first child:
    file: expr '$'
    expr: ? Name (a | b)
    a: ',' '1'
    b: ',' '2' *)
(* Tokens: 1 $, 2 ,, 3 1, 4 2, 5 Name.  Nodes: 32768 file, 32769 expr, 32770 a, 32771 b. *)
Definition omit_tables : tables :=
  mk_tables
    [mk_entry false false false None
      [(5%N, mk_plan [mk_push 32769 4 Own] 1 5 PlanLL)];
     mk_entry false false false None
      [(1%N, mk_plan [] 2 1 PlanLL)];
     mk_entry true false false None
      [];
     mk_entry false true false None
      [(5%N, mk_plan [] 4 5 PlanLL)];
     mk_entry false true false None
      [(2%N, mk_plan [mk_push 32769 5 (Alternative 0); mk_push 32770 11 Own] 7 2 PlanLL)];
     mk_entry true true false None
      [];
     mk_entry true true false None
      [];
     mk_entry true true false None
      [];
     mk_entry false true false None
      [];
     mk_entry false true false None
      [];
     mk_entry false false false None
      [(2%N, mk_plan [] 11 2 PlanLL)];
     mk_entry false false false None
      [(3%N, mk_plan [] 12 3 PlanLL)];
     mk_entry true false false None
      [];
     mk_entry false false false None
      [(2%N, mk_plan [] 14 2 PlanLL)];
     mk_entry false false false None
      [(4%N, mk_plan [] 15 4 PlanLL)];
     mk_entry true false false None
      []]
    [mk_alternative (mk_plan [mk_push 32771 14 Own] 6 2 PlanLL) (mk_plan [mk_push 32770 11 Own] 5 2 PlanLL) None]
    [].
Definition omit_run := [mk_token 0 1 5; mk_token 2 1 2; mk_token 4 1 4; mk_token 6 0 1].
(** A node that may be omitted is in the array twice after backtracking. *)
Theorem C40_omit_refuted : exists st, tables_ok (grammar_of omit_tables) /\ good_tokens omit_run /\
  parse (grammar_of omit_tables) 100 32768 0 omit_run = Done st /\ ~ is_tree_of (nodes st) omit_run.
Proof.
  eexists. refine (conj _ (conj (conj _ (conj _ _)) (conj _ _))); [apply check_tables_ok; vm_compute; reflexivity|discriminate|cbn; lia|repeat constructor|vm_compute; reflexivity|].
  intros (t & hi & E & P & _). refine (rebuild_none _ _ t P E). vm_compute. exact Logic.I.
Qed.
(** A conflict whose first node can be reused:
    file: stmt* '$'
    stmt: @error_recovery (x '=' ':' | y '=' Name) ';'
    x: term
    y: term
    term: Name *)
(* Tokens: 1 $, 2 :, 3 ;, 4 =, 5 Name.  Nodes: 32768 file, 32769 stmt, 32770 x, 32771 y, 32772 term. *)
Definition again_tables : tables :=
  mk_tables
    [mk_entry false false false (Some 32769%N)
      [(5%N, mk_plan [mk_push 32769 7 Own; mk_push 32769 3 (Alternative 0); mk_push 32770 13 Own; mk_push 32772 17 Own] 0 5 PlanLL); (1%N, mk_plan [] 1 1 PlanLL)];
     mk_entry true false false None
      [];
     mk_entry false false false None
      [(5%N, mk_plan [mk_push 32769 3 (Alternative 0); mk_push 32770 13 Own; mk_push 32772 17 Own] 7 5 PlanLL)];
     mk_entry false false false None
      [(4%N, mk_plan [] 5 4 PlanLL)];
     mk_entry false false false None
      [(4%N, mk_plan [] 8 4 PlanLL)];
     mk_entry false false false None
      [(2%N, mk_plan [] 6 2 PlanLL)];
     mk_entry false false false None
      [(3%N, mk_plan [] 7 3 PlanLL)];
     mk_entry true false false None
      [];
     mk_entry false false false None
      [(5%N, mk_plan [] 9 5 PlanLL)];
     mk_entry false false false None
      [(3%N, mk_plan [] 7 3 PlanLL)];
     mk_entry false false false None
      [(5%N, mk_plan [mk_push 32770 13 Own; mk_push 32772 17 Own] 3 5 PlanLL)];
     mk_entry false false false None
      [(5%N, mk_plan [mk_push 32771 15 Own; mk_push 32772 17 Own] 4 5 PlanLL)];
     mk_entry false false false None
      [(5%N, mk_plan [mk_push 32772 17 Own] 13 5 PlanLL)];
     mk_entry true false false None
      [];
     mk_entry false false false None
      [(5%N, mk_plan [mk_push 32772 17 Own] 15 5 PlanLL)];
     mk_entry true false false None
      [];
     mk_entry false false false None
      [(5%N, mk_plan [] 17 5 PlanLL)];
     mk_entry true false false None
      []]
    [mk_alternative (mk_plan [mk_push 32771 15 Own; mk_push 32772 17 Own] 4 5 PlanLL) (mk_plan [mk_push 32770 13 Own; mk_push 32772 17 Own] 3 5 PlanLL) (Some ([mk_push 32771 15 Own; mk_push 32772 17 Own], 1))]
    [32769%N].
Definition again_run := [mk_token 0 1 5; mk_token 2 1 4; mk_token 4 1 5; mk_token 6 1 3; mk_token 8 0 1].
(** After a node is reused, the children behind it are not linked. *)
Theorem C40_again_refuted : exists st, tables_ok (grammar_of again_tables) /\ good_tokens again_run /\
  parse (grammar_of again_tables) 100 32768 0 again_run = Done st /\ ~ is_tree_of (nodes st) again_run.
Proof.
  eexists. refine (conj _ (conj (conj _ (conj _ _)) (conj _ _))); [apply check_tables_ok; vm_compute; reflexivity|discriminate|cbn; lia|repeat constructor|vm_compute; reflexivity|].
  intros (t & hi & E & P & _). refine (rebuild_none _ _ t P E). vm_compute. exact Logic.I.
Qed.

Print Assumptions C40_tree_partial.
Print Assumptions C40_plain_tree.
Print Assumptions C40_leaf_count_partial.
Print Assumptions C40_ahead_refuted.
Print Assumptions C40_omit_refuted.
Print Assumptions C40_again_refuted.
