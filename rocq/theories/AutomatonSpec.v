(** What a rule means, and what an automaton accepts. *)
From Coq Require Import List Arith NArith Bool.
From Verif Require Import AutomatonModel.
Import ListNotations.

Section Meaning.
Variables (terminal_map nonterminal_map : N -> option N).

(** The sequences of symbols that a rule derives. *)
Inductive derives : rule -> list symbol -> Prop :=
| der_terminal name t : terminal_map name = Some t -> derives (Identifier name) [Terminal t]
| der_nonterminal name t : terminal_map name = None -> nonterminal_map name = Some t -> derives (Identifier name) [Nonterminal t]
| der_keyword name : derives (KeywordRule name) [Keyword name]
| der_left r1 r2 w : derives r1 w -> derives (Or r1 r2) w
| der_right r1 r2 w : derives r2 w -> derives (Or r1 r2) w
| der_nothing r : derives (Maybe r) []
| der_something r w : derives r w -> derives (Maybe r) w
| der_once r w : derives r w -> derives (Multiple r) w
| der_again r u v : derives r u -> derives (Multiple r) v -> derives (Multiple r) (u ++ v)
| der_next r1 r2 u v : derives r1 u -> derives r2 v -> derives (Next r1 r2) (u ++ v)
| der_omitted r w : derives r w -> derives (NodeMayBeOmitted r) w
| der_recovery r w : derives r w -> derives (DoesErrorRecovery r) w.
End Meaning.

(** A deterministic automaton: there is at most one way to go, and it ends in a final state. *)
Inductive accepts (dfas : list dfa) : nat -> list symbol -> Prop :=
| acc_end i d : nth_error dfas i = Some d -> is_final d = true -> accepts dfas i []
| acc_step i d s j w : nth_error dfas i = Some d -> In (s, j) (transitions d) -> accepts dfas j w -> accepts dfas i (s :: w).

Definition deterministic (dfas : list dfa) : Prop := forall i d, nth_error dfas i = Some d -> NoDup (map fst (transitions d)) /\ Forall (fun t => snd t < length dfas) (transitions d).

(** Whether an empty transition leads to the first state, or starts at the last, of the states made for a rule. *)
Fixpoint entered (r : rule) : bool :=
  match r with
  | Identifier _ | KeywordRule _ | Or _ _ => false
  | Maybe r => entered r
  | Multiple _ => true
  | Next r _ => entered r
  | NodeMayBeOmitted r | DoesErrorRecovery r => entered r
  end.
Fixpoint left_again (r : rule) : bool :=
  match r with
  | Identifier _ | KeywordRule _ | Or _ _ => false
  | Maybe r => left_again r
  | Multiple _ => true
  | Next _ r => left_again r
  | NodeMayBeOmitted r | DoesErrorRecovery r => left_again r
  end.
(** Optional parts neither begin nor end with a repetition, or they are one (of something that does not). *)
Fixpoint safe (r : rule) : bool :=
  match r with
  | Identifier _ | KeywordRule _ => true
  | Or r1 r2 | Next r1 r2 => safe r1 && safe r2
  | Maybe r =>
      safe r && match r with
                | Multiple r => negb (entered r) && negb (left_again r)
                | _ => negb (entered r) && negb (left_again r)
                end
  | Multiple r | NodeMayBeOmitted r | DoesErrorRecovery r => safe r
  end.

(** All names of the rule are those of a terminal or a nonterminal. *)
Fixpoint known (terminal_map nonterminal_map : N -> option N) (r : rule) : Prop :=
  match r with
  | Identifier name => terminal_map name <> None \/ nonterminal_map name <> None
  | KeywordRule _ => True
  | Or r1 r2 | Next r1 r2 => known terminal_map nonterminal_map r1 /\ known terminal_map nonterminal_map r2
  | Maybe r | Multiple r | NodeMayBeOmitted r | DoesErrorRecovery r => known terminal_map nonterminal_map r
  end.
