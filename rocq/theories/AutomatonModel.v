(** Model of the generation of automata from grammar rules (crates/parsa/src/automaton.rs).  Names are numbers.  Rules with
    lookaheads or cuts are not modelled. *)
From Coq Require Import List Arith NArith Bool.
Import ListNotations.

(** crates/parsa/src/automaton.rs:17-29 [enum Rule], without [Cut], [NegativeLookahead] and [PositiveLookahead]. *)
Inductive rule :=
| Identifier (name : N)
| KeywordRule (name : N)
| Or (rule1 rule2 : rule)
| Maybe (rule1 : rule)
| Multiple (rule1 : rule)
| Next (rule1 rule2 : rule)
| NodeMayBeOmitted (rule1 : rule)
| DoesErrorRecovery (rule1 : rule).

(** crates/parsa/src/automaton.rs:114-121 [enum TransitionType], without lookaheads. *)
Inductive symbol :=
| Terminal (type_ : N)
| Nonterminal (type_ : N)
| Keyword (name : N).
Definition symbol_eqb (a b : symbol) : bool :=
  match a, b with
  | Terminal x, Terminal y | Nonterminal x, Nonterminal y | Keyword x, Keyword y => N.eqb x y
  | _, _ => false
  end.

(** crates/parsa/src/automaton.rs:86-88 [struct NFAState], 124-127 [struct NFATransition]: the transitions of each state; [None] is an empty transition. *)
Notation nfa := (list (list (option symbol * nat))) (only parsing).

(** crates/parsa/src/automaton.rs:361-369 [new_nfa_states]. *)
Definition new_nfa_states (a : nfa) : nfa * nat * nat := (a ++ [[]; []], length a, S (length a)).

(** crates/parsa/src/automaton.rs:371-375 [add_transition]. *)
Fixpoint add_transition (a : nfa) (start to : nat) (type_ : option symbol) : nfa :=
  match a, start with
  | [], _ => []
  | ts :: a, 0 => (ts ++ [(type_, to)]) :: a
  | ts :: a, S start => ts :: add_transition a start to type_
  end.
(** crates/parsa/src/automaton.rs:377-379 [add_empty_transition]. *)
Definition add_empty_transition (a : nfa) (start to : nat) : nfa := add_transition a start to None.

Section Automaton.
(** The two maps: terminals and nonterminals by name. *)
Variables (terminal_map nonterminal_map : N -> option N).

(** crates/parsa/src/automaton.rs:259-351 [build]; [None]: it panics.  The flags and the collection of keywords are left out. *)
Fixpoint build (a : nfa) (r : rule) : option (nfa * nat * nat) :=
  match r with
  | Identifier name =>
      let '(a, start, end_) := new_nfa_states a in
      match terminal_map name with
      | Some t => Some (add_transition a start end_ (Some (Terminal t)), start, end_)
      | None =>
          match nonterminal_map name with
          | Some t => Some (add_transition a start end_ (Some (Nonterminal t)), start, end_)
          | None => None
          end
      end
  | KeywordRule name =>
      let '(a, start, end_) := new_nfa_states a in
      Some (add_transition a start end_ (Some (Keyword name)), start, end_)
  | Or rule1 rule2 =>
      let '(a, start, end_) := new_nfa_states a in
      match build a rule1 with
      | None => None
      | Some (a, x, y) =>
          let a := add_empty_transition (add_empty_transition a start x) y end_ in
          match build a rule2 with
          | None => None
          | Some (a, x, y) => Some (add_empty_transition (add_empty_transition a start x) y end_, start, end_)
          end
      end
  | Maybe rule1 =>
      match build a rule1 with
      | None => None
      | Some (a, start, end_) => Some (add_empty_transition a start end_, start, end_)
      end
  | Multiple rule1 =>
      match build a rule1 with
      | None => None
      | Some (a, start, end_) => Some (add_empty_transition a end_ start, start, end_)
      end
  | Next rule1 rule2 =>
      match build a rule1 with
      | None => None
      | Some (a, start1, end1) =>
          match build a rule2 with
          | None => None
          | Some (a, start2, end2) => Some (add_empty_transition a end1 start2, start1, end2)
          end
      end
  | NodeMayBeOmitted rule1 => build a rule1
  | DoesErrorRecovery rule1 => build a rule1
  end.
End Automaton.

(** Sets of states ([HashSet<NFAStateId>]): sorted lists. *)
Fixpoint insert (x : nat) (s : list nat) : list nat :=
  match s with
  | [] => [x]
  | y :: r => match Nat.compare x y with Lt => x :: s | Eq => s | Gt => y :: insert x r end
  end.
Definition extend (s t : list nat) : list nat := fold_right insert s t.
Definition mem (x : nat) (s : list nat) : bool := existsb (Nat.eqb x) s.
Fixpoint set_eqb (s t : list nat) : bool :=
  match s, t with
  | [], [] => true
  | x :: s, y :: t => Nat.eqb x y && set_eqb s t
  | _, _ => false
  end.

(** crates/parsa/src/automaton.rs:92-107 [struct DFAState]; the fields that are only for the parser, or for debugging, are left out. *)
Record dfa := mk_dfa { nfa_set : list nat; is_final : bool; is_calculated : bool; transitions : list (symbol * nat) }.

Section Powerset.
Variables (a : nfa) (end_ : nat).
(** The iteration orders of the hash sets and hash maps. *)
Variable order_states : list nat -> list nat.
Variable order_groups : list (symbol * list nat) -> list (symbol * list nat).

Definition transitions_of (x : nat) : list (option symbol * nat) := nth x a [].
Definition empty_targets (x : nat) : list nat := flat_map (fun t => match fst t with None => [snd t] | Some _ => [] end) (transitions_of x).

(** crates/parsa/src/automaton.rs:381-396 [group_nfas]; [None]: out of fuel. *)
Fixpoint group_nfas (fuel : nat) (nfa_state_ids : list nat) : option (list nat) :=
  match fuel with
  | 0 => None
  | S fuel =>
      fold_left (fun set to =>
        match set with
        | None => None
        | Some set =>
            let set := insert to set in
            if mem to nfa_state_ids then Some set
            else match group_nfas fuel (order_states set) with None => None | Some more => Some (extend set more) end
        end) (flat_map empty_targets nfa_state_ids) (Some (extend [] nfa_state_ids))
  end.

Fixpoint find_set (dfas : list dfa) (s : list nat) : option nat :=
  match dfas with
  | [] => None
  | d :: r => if set_eqb (nfa_set d) s then Some 0 else option_map S (find_set r s)
  end.

(** crates/parsa/src/automaton.rs:402-433 [nfa_to_dfa]. *)
Definition nfa_to_dfa (dfas : list dfa) (starts : list nat) : option (list dfa * nat) :=
  match group_nfas (S (length a)) starts with
  | None => None
  | Some grouped_nfas =>
      match find_set dfas grouped_nfas with
      | Some i => Some (dfas, i)
      | None => Some (dfas ++ [mk_dfa grouped_nfas (mem end_ grouped_nfas) false []], length dfas)
      end
  end.

Fixpoint add_group (groups : list (symbol * list nat)) (t : symbol) (to : nat) : list (symbol * list nat) :=
  match groups with
  | [] => [(t, [to])]
  | (u, v) :: r => if symbol_eqb u t then (u, v ++ [to]) :: r else (u, v) :: add_group r t to
  end.

Fixpoint all_to_dfas (dfas : list dfa) (groups : list (symbol * list nat)) : option (list dfa * list (symbol * nat)) :=
  match groups with
  | [] => Some (dfas, [])
  | (type_, grouped_starts) :: r =>
      match nfa_to_dfa dfas grouped_starts with
      | None => None
      | Some (dfas, new_dfa_id) =>
          match all_to_dfas dfas r with
          | None => None
          | Some (dfas, ts) => Some (dfas, (type_, new_dfa_id) :: ts)
          end
      end
  end.

Fixpoint set_transitions (dfas : list dfa) (d : nat) (ts : list (symbol * nat)) : list dfa :=
  match dfas, d with
  | [], _ => []
  | x :: r, 0 => mk_dfa (nfa_set x) (is_final x) true ts :: r
  | x :: r, S d => x :: set_transitions r d ts
  end.

Definition grouped_transitions (set : list nat) : list (symbol * list nat) :=
  fold_left (fun groups t => match fst t with Some s => add_group groups s (snd t) | None => groups end) (flat_map transitions_of set) [].

(** crates/parsa/src/automaton.rs:440-499 [construct_powerset_for_dfa]; [None]: out of fuel. *)
Fixpoint construct_powerset_for_dfa (fuel : nat) (dfas : list dfa) (d : nat) : option (list dfa) :=
  match fuel with
  | 0 => None
  | S fuel =>
      match nth_error dfas d with
      | None => None
      | Some state =>
          if is_calculated state then Some dfas
          else
            match all_to_dfas dfas (order_groups (grouped_transitions (nfa_set state))) with
            | None => None
            | Some (dfas, ts) =>
                fold_left (fun dfas t => match dfas with None => None | Some dfas => construct_powerset_for_dfa fuel dfas (snd t) end)
                  ts (Some (set_transitions dfas d ts))
            end
      end
  end.

(** crates/parsa/src/automaton.rs:435-438 [construct_powerset]. *)
Definition construct_powerset (fuel start : nat) : option (list dfa) :=
  match nfa_to_dfa [] [start] with
  | None => None
  | Some (dfas, d) => construct_powerset_for_dfa fuel dfas d
  end.
End Powerset.

(** crates/parsa/src/automaton.rs:702-824 [generate_automatons], the part for one rule. *)
Definition automaton (terminal_map nonterminal_map : N -> option N) (order_states : list nat -> list nat)
  (order_groups : list (symbol * list nat) -> list (symbol * list nat)) (fuel : nat) (r : rule) : option (list dfa) :=
  match build terminal_map nonterminal_map [] r with
  | None => None
  | Some (a, start, end_) => construct_powerset a end_ order_states order_groups fuel start
  end.
