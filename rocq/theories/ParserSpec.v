(** What the parser makes of the tokens: a syntax tree (TreeSpec) whose leaves are the tokens.  And what the tables have to be like. *)
From Coq Require Import List Arith NArith Bool.
From Verif Require Import TreeModel TreeSpec ParserModel.
Import ListNotations.

(** The leaves of a tree from left to right: where they start and how long they are. *)
Fixpoint leaves (t : tree) : list (nat * nat) :=
  match t with
  | Leaf _ start len => [(start, len)]
  | Node _ _ _ cs => flat_map leaves cs
  end.

Definition token_span (t : token) : nat * nat := (t_start t, t_len t).

(** The tokens come one after the other. *)
Fixpoint in_order (from : nat) (tokens : list token) : Prop :=
  match tokens with
  | [] => True
  | t :: r => from <= t_start t /\ in_order (t_start t + t_len t) r
  end.

(** The pushes of a plan; [o]: the node below may be omitted.  The types of nodes are the upper half of the numbers; an
    alternative has the same rule as the node that it is put on. *)
Fixpoint pushes_ok (g : grammar) (o : bool) (ps : list push) : Prop :=
  match ps with
  | [] => True
  | p :: ps =>
      (32768 <= p_type p)%N /\
      match p_mode p with
      | Own => True
      | Alternative id => may_be_omitted g (p_next p) = o /\ may_be_omitted g (pl_next (fallback (alternatives g id))) = o
      end /\
      pushes_ok g (may_be_omitted g (p_next p)) ps
  end.

Definition plan_ok (g : grammar) (p : plan) : Prop :=
  (pl_type p < 32768)%N /\ pushes_ok g (may_be_omitted g (pl_next p)) (pl_pushes p).

(** The pushes that are done when a node is reused: the last one is the node; no alternatives for nodes that may be omitted. *)
Definition takes_node (g : grammar) (p : push) : bool := is_own (p_mode p) && negb (may_be_omitted g (p_next p)).
Definition reusable_ok (g : grammar) (o : bool) (pushes : list push) (needed : nat) : Prop :=
  exists init p, pushes = init ++ [p] /\ p_mode p = Own /\ needed = length (filter (takes_node g) init) /\
    pushes_ok g o pushes /\ Forall (fun q => is_own (p_mode q) = false -> may_be_omitted g (p_next q) = false) init.

Record tables_ok (g : grammar) : Prop := mk_tables_ok {
  (* A plan stays in the rule. *)
  plans_ok : forall s t p, lookup g s t = Some p -> plan_ok g p /\ may_be_omitted g (pl_next p) = may_be_omitted g s;
  alternatives_ok : forall id,
    let a := alternatives g id in
    plan_ok g (fallback a) /\ plan_ok g (replay a) /\
    may_be_omitted g (pl_next (replay a)) = may_be_omitted g (pl_next (fallback a)) /\
    pl_mode (fallback a) = PlanLL /\ pl_mode (replay a) = PlanLL /\
    negative g (pl_next (fallback a)) = false /\ negative g (pl_next (replay a)) = false /\
    forall pushes needed, reusable a = Some (pushes, needed) -> reusable_ok g (may_be_omitted g (pl_next (fallback a))) pushes needed;
  errors_ok : forall s e, towards_error g s = Some e -> (32768 <= e)%N /\ may_be_omitted g s = false;
  (* After a negative lookahead nothing is possible. *)
  negative_ok : forall s, negative g s = true -> is_final g s = false /\ towards_error g s = None /\ forall t, lookup g s t = None }.
