(** Model of the parser engine: crates/parsa/src/grammar.rs:90-843.

    The tables that the automaton generation makes (crates/parsa/src/automaton.rs) are given by a record of functions.  Numbers
    are natural numbers (u32 and usize in the code); a panic, an underflow and a failing [debug_assert] are [Panic].

    Three fields are not in the code and do not have an influence on the others ([Ghost]): they remember that the parser did
    something that can leave the array of nodes in disorder. *)
From Coq Require Import List Arith NArith Bool.
From Verif Require Import TreeModel BacktrackModel.
Import ListNotations.

Inductive outcome (A : Type) := Done (a : A) | Panic | OutOfFuel.
Arguments Done {A}. Arguments Panic {A}. Arguments OutOfFuel {A}.
Definition bind {A B} (o : outcome A) (f : A -> outcome B) : outcome B :=
  match o with Done a => f a | Panic => Panic | OutOfFuel => OutOfFuel end.
Definition unwrap {A} (o : option A) : outcome A := match o with Some a => Done a | None => Panic end.
Definition assert (b : bool) : outcome unit := if b then Done tt else Panic.
Notation "x <- a ;; b" := (bind a (fun x => b)) (at level 61, a at next level, right associativity).

(** A token; its type is the one that [parse] computes (crates/parsa/src/grammar.rs:186-195), with keywords replaced. *)
Record token := mk_token { t_start : nat; t_len : nat; t_type : N }.

(** crates/parsa/src/automaton.rs:136-145 [StackMode]; the payload of an alternative is given by a number. *)
Inductive stack_mode := Own | Alternative (id : nat).
(** crates/parsa/src/automaton.rs:160-164 [struct Push]; states are numbers. *)
Record push := mk_push { p_type : N; p_next : nat; p_mode : stack_mode }.
(** crates/parsa/src/automaton.rs:181-185 [PlanMode]. *)
Inductive plan_mode := PlanLL | PlanLeftRecursive | PlanPositivePeek.
(** crates/parsa/src/automaton.rs:188-194 [struct Plan]. *)
Record plan := mk_plan { pl_pushes : list push; pl_next : nat; pl_type : N; pl_mode : plan_mode }.
(** crates/parsa/src/automaton.rs:1130-1135 [struct ReusableFirstNonterminal]: the pushes and the number of nodes that they need. *)
Record alternative := mk_alternative { fallback : plan; replay : plan; reusable : option (list push * nat) }.

(** The tables.  [towards_error]: [transition_towards_error_recovery_node]; [negative]: [is_negative_lookahead]. *)
Record grammar := mk_grammar {
  lookup : nat -> N -> option plan;
  is_final : nat -> bool;
  may_be_omitted : nat -> bool;
  negative : nat -> bool;
  towards_error : nat -> option N;
  alternatives : nat -> alternative;
  does_error_recovery : N -> bool }.

(** crates/parsa/src/automaton.rs:51-53 [set_error_recovery_bit]; [ERROR_RECOVERY_BIT] is [1 << 14]. *)
Definition set_error_bit (ty : N) : N := N.lor ty 16384.

(** crates/parsa/src/grammar.rs:111-116 [struct BacktrackingPoint]; the replay plan is found by the number of the alternative. *)
Record point := mk_point { b_nodes : nat; b_token : nat; b_children : nat }.
(** crates/parsa/src/grammar.rs:96-108 [enum ModeData]. *)
Inductive mode_data :=
| LL
| Alt (backtracking : point) (id : nat)
| LastAlt (backtracking : point) (id : nat) (first_plan_start_index : nat) (first_plan_had_valid_stack : bool).

(** crates/parsa/src/grammar.rs:118-127 [struct StackNode].  Ghost [s_stale]: an alternative was put on the node, or the node was reused. *)
Record stack_node := mk_stack_node {
  s_type : N; s_index : nat; s_latest : nat; s_state : nat; s_count : nat; s_mode : mode_data; s_recording : bool;
  s_stale : bool }.

(** crates/parsa/src/grammar.rs:150-153 [struct Stack], the top first, and the tokenizer.  Ghost: [lost]: the parser is behind a token that is not in the
    array; [odd]: one of the events happened. *)
Record state := mk_state {
  stack : list stack_node; nodes : list node; tk : tokenizer token; lost : bool; odd : bool }.

Definition set_state (s : nat) (n : stack_node) : stack_node :=
  mk_stack_node (s_type n) (s_index n) (s_latest n) s (s_count n) (s_mode n) (s_recording n) (s_stale n).
Definition set_latest (l : nat) (n : stack_node) : stack_node :=
  mk_stack_node (s_type n) (s_index n) l (s_state n) (s_count n) (s_mode n) (s_recording n) (s_stale n).
Definition set_count (c : nat) (n : stack_node) : stack_node :=
  mk_stack_node (s_type n) (s_index n) (s_latest n) (s_state n) c (s_mode n) (s_recording n) (s_stale n).
Definition set_mode (m : mode_data) (n : stack_node) : stack_node :=
  mk_stack_node (s_type n) (s_index n) (s_latest n) (s_state n) (s_count n) m (s_recording n) (s_stale n).
Definition set_stale (b : bool) (n : stack_node) : stack_node :=
  mk_stack_node (s_type n) (s_index n) (s_latest n) (s_state n) (s_count n) (s_mode n) (s_recording n) b.

(** Writing to an element of a vector. *)
Definition update {A} (l : list A) (i : nat) (f : A -> A) : outcome (list A) :=
  match nth_error l i with
  | Some a => Done (firstn i l ++ f a :: skipn (S i) l)
  | None => Panic
  end.
(** [Vec::insert]. *)
Definition insert {A} (l : list A) (i : nat) (a : A) : list A := firstn i l ++ a :: skipn i l.

Definition set_offset (o : nat) (n : node) : node := mk_node o (type_ n) (start_index n) (length_ n).
Definition set_length (l : nat) (n : node) : node := mk_node (next_node_offset n) (type_ n) (start_index n) l.
Definition set_type (ty : N) (n : node) : node := mk_node (next_node_offset n) ty (start_index n) (length_ n).

(** crates/parsa/src/grammar.rs:839-843 [update_tree_node_position]. *)
Definition update_tree_node_position (ns : list node) (s : stack_node) : outcome (list node) :=
  match ns with
  | [] => Panic
  | _ =>
      let end_index := end_ (last ns (mk_node 0 0 0 0)) in
      n <- unwrap (nth_error ns (s_index s)) ;;
      _ <- assert (start_index n <=? end_index) ;;
      update ns (s_index s) (set_length (end_index - start_index n))
  end.

(** crates/parsa/src/grammar.rs:701-714 [calculate_previous_next_node]: the new nodes and the new [latest_child_node_index]. *)
Definition calculate_previous_next_node (ns : list node) (index : nat) : list node * nat :=
  let next := length ns in
  (if negb (index =? 0) && (index <? next)
   then firstn index ns ++ match skipn index ns with n :: r => set_offset (next - index) n :: r | [] => [] end
   else ns,
   next).

(** crates/parsa/src/grammar.rs:820-836 [find_matching_node]. *)
Fixpoint find_from (ns : list node) (ty : N) (start i : nat) : option nat :=
  match ns with
  | [] => None
  | n :: r =>
      if negb (start_index n =? start) then None
      else if N.eqb (type_ n) ty then Some i
      else find_from r ty start (S i)
  end.
Definition find_matching_node (ns : list node) (ty : N) : outcome (option nat) :=
  match ns with
  | [] => Panic
  | n :: _ => Done (find_from ns ty (start_index n) 0)
  end.

(** crates/parsa/src/grammar.rs:796-817 [last_leaf_if_proper_nonterminal]: the loop, which moves forward in every round. *)
Fixpoint last_leaf_from (fuel : nat) (ns : list node) (check : nat) : outcome nat :=
  match fuel with
  | 0 => OutOfFuel
  | S fuel =>
      n <- unwrap (nth_error ns check) ;;
      if 0 <? next_node_offset n then last_leaf_from fuel ns (check + next_node_offset n)
      else if is_leaf n then Done check
      else last_leaf_from fuel ns (S check)
  end.
Definition last_leaf_if_proper_nonterminal (ns : list node) (nth : nat) : outcome (option nat) :=
  n <- unwrap (nth_error ns nth) ;;
  if length_ n =? 0 then Done None
  else i <- last_leaf_from (S (length ns)) ns (S nth) ;; Done (Some i).

Section Engine.
  Variable g : grammar.

  Definition is_ll (m : mode_data) : bool := match m with LL => true | _ => false end.
  Definition is_own (m : stack_mode) : bool := match m with Own => true | _ => false end.
  Definition point_of (m : mode_data) : option point :=
    match m with LL => None | Alt b _ => Some b | LastAlt b _ _ _ => Some b end.
  (** The alternatives that are pushed when a node is reused have the index of their first child, not the one of their node. *)
  Definition misplaced (n : stack_node) : bool :=
    match point_of (s_mode n) with
    | Some b => (s_index n =? b_nodes b) && negb (may_be_omitted g (s_state n))
    | None => false
    end.

  (** crates/parsa/src/grammar.rs:509-625 [apply_plan], the loop over the pushes.  The nodes of the stack are given as its top and the rest. *)
  Fixpoint apply_pushes (ps : list push) (tos : stack_node) (rest : list stack_node) (ns : list node) (t : tokenizer token)
      (recording : bool) (tok : token) : stack_node * list stack_node * list node * tokenizer token :=
    match ps with
    | [] => (tos, rest, ns, t)
    | p :: ps =>
        let tos := set_count (S (s_count tos)) tos in
        match p_mode p with
        | Own =>
            let ns' := if may_be_omitted g (p_next p) then ns else ns ++ [mk_node 0 (p_type p) (t_start tok) 0] in
            let n := mk_stack_node (p_type p) (length ns) (length ns') (p_next p) 0 LL recording false in
            apply_pushes ps n (tos :: rest) ns' t recording tok
        | Alternative id =>
            let children_count := s_count tos - 1 in
            let (t, token_index) := BacktrackModel.start token t tok in
            let n := mk_stack_node (p_type p) (s_index tos) (length ns) (p_next p) children_count
                       (Alt (mk_point (length ns) token_index children_count) id) true false in
            apply_pushes ps n (set_stale true tos :: rest) ns t true tok
        end
    end.

  (** crates/parsa/src/grammar.rs:509-625 [apply_plan].  Ghost: a child is added to a node whose [latest_child_node_index] and [children_count] may be
      old; an omitted node is put into the array a second time; left recursion of the root, inside of two alternatives, or of a
      misplaced one; an alternative on a misplaced one. *)
  Definition apply_plan (st : state) (p : plan) (tok : token) : outcome state :=
    match stack st with
    | [] => Panic
    | tos :: rest =>
        let tos := set_state (pl_next p) tos in
        if negative g (pl_next p) then Done (mk_state (tos :: rest) (nodes st) (tk st) true (odd st))
        else
          let recursive := match pl_mode p with PlanLeftRecursive => true | _ => false end in
          r <- (if recursive
                then
                  let is_odd :=
                    (s_index tos =? 0) ||
                    negb (is_ll (s_mode tos)) &&
                    (misplaced tos || match rest with n :: _ => negb (is_ll (s_mode n)) | [] => true end) in
                  ns <- update_tree_node_position (nodes st) tos ;;
                  n <- unwrap (nth_error ns (s_index tos)) ;;
                  Done (set_stale false (set_mode LL (set_latest (S (s_index tos)) (set_count 1 tos))),
                        insert ns (s_index tos) (mk_node 0 (s_type tos) (start_index n) 0),
                        is_odd)
                else if may_be_omitted g (pl_next p) && (s_count tos =? 1)
                then
                  let is_odd := match point_of (s_mode tos) with Some b => negb (b_children b =? 0) | None => false end in
                  n <- unwrap (nth_error (nodes st) (s_index tos)) ;;
                  Done (set_latest (S (s_index tos)) tos,
                        insert (nodes st) (s_index tos) (mk_node 0 (s_type tos) (start_index n) 0),
                        is_odd || s_stale tos)
                else Done (tos, nodes st, s_stale tos)) ;;
          let is_odd' := misplaced tos && match pl_pushes p with q :: _ => negb (is_own (p_mode q)) | [] => false end in
          let '(tos, ns, is_odd) := r in
          let (ns, latest) := calculate_previous_next_node ns (s_latest tos) in
          let '(tos, rest, ns, t) :=
            apply_pushes (pl_pushes p) (set_latest latest tos) rest ns (tk st) (s_recording tos) tok in
          Done (mk_state (set_count (S (s_count tos)) tos :: rest)
                         (ns ++ [mk_node 0 (pl_type p) (t_start tok) (t_len tok)]) t (lost st) (odd st || is_odd || is_odd'))
    end.

  (** crates/parsa/src/grammar.rs:253-274 [end_of_node] with [pop_normal]. *)
  Definition end_of_node (st : state) : outcome state :=
    match stack st with
    | [] => Panic
    | tos :: rest =>
        match s_mode tos with
        | LL =>
            _ <- assert (1 <=? s_count tos) ;;
            ns <- update_tree_node_position (nodes st) tos ;;
            Done (mk_state rest ns (tk st) (lost st) (odd st))
        | _ =>
            match rest with
            | [] => Panic
            | n :: rest =>
                let n := set_latest (s_latest tos) (set_count (s_count tos) n) in
                _ <- assert (is_final g (s_state n)) ;;
                Done (mk_state (n :: rest) (nodes st)
                               (if s_recording n then tk st else BacktrackModel.stop token (tk st)) (lost st) (odd st))
            end
        end
    end.

  (** The closure [reset] in [error_recovery]; [st] has the stack cut to the node. *)
  Definition reset (st : state) (b : point) : outcome (state * token) :=
    match stack st with
    | [] => Panic
    | tos :: rest =>
        match BacktrackModel.next token (BacktrackModel.reset token (tk st) (b_token b)) with
        | (Some tok, t) => Done (mk_state (set_count (b_children b) tos :: rest) (firstn (b_nodes b) (nodes st)) t false (odd st), tok)
        | (None, _) => Panic
        end
    end.

  (** The loop over the pushes when a node is reused. *)
  Fixpoint reuse_pushes (ps : list push) (rest : list stack_node) (ns : list node) (index token_index start : nat)
      : outcome (list stack_node * list node) :=
    match ps with
    | [] => Done (rest, ns)
    | p :: ps =>
        match p_mode p with
        | Own =>
            r <- (if may_be_omitted g (p_next p) then Done (ns, index)
                  else ns <- update ns index (fun _ => mk_node 0 (p_type p) start 0) ;; Done (ns, S index)) ;;
            let (ns, index') := (r : list node * nat) in
            let n := mk_stack_node (p_type p) index index' (p_next p) 1 LL true (match ps with [] => true | _ => false end) in
            reuse_pushes ps (n :: rest) ns index' token_index start
        | Alternative id =>
            let n := mk_stack_node (p_type p) index index (p_next p) 1 (Alt (mk_point index token_index 1) id) true
                       (match ps with [] => true | _ => false end) in
            reuse_pushes ps (n :: match rest with r :: rest => set_stale true r :: rest | [] => [] end) ns index token_index start
        end
    end.

  (** crates/parsa/src/grammar.rs:276-506 [error_recovery], the node is reused.  [st] has the stack cut to the node; [nth], [last_leaf_index]: what was
      found.  Ghost: the node has got more than one child since, or the found node is not the first thing in the children, or
      an omitted one has a sibling. *)
  Definition reuse (st : state) (b : point) (id : nat) (mode : mode_data) (pushes : list push) (needed nth last_leaf_index : nat)
      : outcome state :=
    match stack st with
    | [] => Panic
    | tos :: rest =>
        let c := b_nodes b in
        n <- unwrap (nth_error (nodes st) (c + nth)) ;;
        leaf <- unwrap (nth_error (nodes st) last_leaf_index) ;;
        _ <- assert (tk_recording token (tk st)) ;;
        _ <- assert (negb (length_ leaf =? 0)) ;;
        t <- unwrap (reset_to_last_leaf token t_start t_len (tk st) (start_index leaf) (length_ leaf)) ;;
        let next_state := pl_next (fallback (alternatives g id)) in
        let is_odd :=
          negb (s_latest tos =? c) || may_be_omitted g next_state && negb (s_count tos =? S (b_children b)) ||
          existsb is_leaf (firstn nth (skipn c (nodes st))) ||
          match last pushes (mk_push 0 0 Own) with
          | mk_push _ s _ => may_be_omitted g s && negb (next_node_offset n =? 0)
          end in
        let tos := set_stale false (set_state next_state (set_mode mode tos)) in
        let ns := firstn (S last_leaf_index) (nodes st) in
        let ns := firstn c ns ++ repeat (mk_node 0 0 (start_index n) 0) (needed - nth) ++ skipn (c + (nth - needed)) ns in
        r <- reuse_pushes pushes (tos :: rest) ns c (b_token b) (start_index n) ;;
        Done (mk_state (fst r) (snd r) t false (odd st || is_odd))
    end.

  (** crates/parsa/src/grammar.rs:276-506 [error_recovery], (3): one node is popped and marked.  Ghost: the length of a wrong node changes. *)
  Definition pop_failed (ns : list node) (s : stack_node) : outcome (list node * bool) :=
    n <- unwrap (nth_error ns (s_index s)) ;;
    let is_odd := misplaced s && negb (start_index n + length_ n =? end_ (last ns n)) in
    ns <- update_tree_node_position ns s ;;
    ns <- update ns (s_index s) (fun n => set_type (set_error_bit (type_ n)) n) ;;
    Done (ns, is_odd).
  Fixpoint pop_all_failed (popped : list stack_node) (ns : list node) : outcome (list node * bool) :=
    match popped with
    | [] => Done (ns, false)
    | s :: popped =>
        r <- pop_failed ns s ;;
        r' <- pop_all_failed popped (fst r) ;;
        Done (fst r', snd r || snd r')
    end.

  (** crates/parsa/src/grammar.rs:276-506 [error_recovery], the loop over the stack from the top.  [above]: the nodes above [suffix], the top first.
      [!stack.stack_nodes.len() != i + 1] inverts the bits of the length, so it is always true. *)
  Fixpoint recover (st : state) (above suffix : list stack_node) (again : state -> outcome state) : outcome state :=
    match suffix with
    | [] => Panic
    | node :: rest =>
        let continue :=
          if does_error_recovery g (s_type node)
          then
            r <- pop_all_failed (above ++ [node]) (nodes st) ;;
            again (mk_state rest (fst r) (tk st) (lost st) (odd st || snd r || lost st))
          else recover st (above ++ [node]) rest again in
        match s_mode node with
        | LL => continue
        | Alt b id =>
            start <- match nodes st with [] => Panic | n :: _ => Done (start_index (last (nodes st) n)) end ;;
            let mode := LastAlt b id start (match above with [] => true | _ => false end) in
            let cut := mk_state suffix (nodes st) (tk st) (lost st) (odd st) in
            let use_fallback :=
              r <- reset cut b ;;
              let (st, tok) := (r : state * token) in
              match stack st with
              | [] => Panic
              | tos :: rest =>
                  apply_plan (mk_state (set_stale false (set_mode mode tos) :: rest) (nodes st) (tk st) (lost st) (odd st))
                    (fallback (alternatives g id)) tok
              end in
            match reusable (alternatives g id) with
            | None => use_fallback
            | Some (pushes, needed) =>
                _ <- assert (b_nodes b <=? length (nodes st)) ;;
                found <- find_matching_node (skipn (b_nodes b) (nodes st)) (p_type (last pushes (mk_push 0 0 Own))) ;;
                match found with
                | None => use_fallback
                | Some nth =>
                    leaf <- last_leaf_if_proper_nonterminal (nodes st) (b_nodes b + nth) ;;
                    match leaf with
                    (* This [continue] goes to the next node of the stack, past (3). *)
                    | None => recover st (above ++ [node]) rest again
                    | Some leaf => reuse cut b id mode pushes needed nth leaf
                    end
                end
            end
        | LastAlt b id first valid =>
            start <- match nodes st with [] => Panic | n :: _ => Done (start_index (last (nodes st) n)) end ;;
            if (start <? first) || (first =? start) && valid
            then
              r <- reset (mk_state suffix (nodes st) (tk st) (lost st) (odd st)) b ;;
              let (st, tok) := (r : state * token) in
              match stack st with
              | _ :: n :: rest =>
                  let p := replay (alternatives g id) in
                  let is_odd := may_be_omitted g (pl_next p) && negb (b_children b =? 0) in
                  st <- apply_plan (mk_state (set_stale false (set_count 0 n) :: rest) (nodes st) (tk st) (lost st)
                                             (odd st || is_odd)) p tok ;;
                  match stack st with
                  | tos :: _ =>
                      Done (if s_recording tos then st
                            else mk_state (stack st) (nodes st) (BacktrackModel.stop token (tk st)) (lost st) (odd st))
                  | [] => Panic
                  end
              | _ => Panic
              end
            else continue
        end
    end.

  (** crates/parsa/src/grammar.rs:276-506 [error_recovery].  Ghost: the top may be old. *)
  Definition error_recovery (st : state) (tok : option token) (again : state -> outcome state) : outcome state :=
    match stack st with
    | [] => Panic
    | tos :: rest =>
        match towards_error g (s_state tos), tok with
        | Some nonterminal, Some tok =>
            let (ns, latest) := calculate_previous_next_node (nodes st) (s_latest tos) in
            Done (mk_state (set_latest latest tos :: rest)
                    (ns ++ [mk_node 0 (set_error_bit nonterminal) (t_start tok) (t_len tok);
                            mk_node 0 (set_error_bit (t_type tok)) (t_start tok) (t_len tok)])
                    (tk st) (lost st) (odd st || s_stale tos))
        | _, _ => recover (mk_state (stack st) (nodes st) (tk st) (lost st) (odd st || s_stale tos)) [] (stack st) again
        end
    end.

  (** crates/parsa/src/grammar.rs:211-250 [apply_transition]. *)
  Fixpoint apply_transition (fuel : nat) (st : state) (tok : token) : outcome state :=
    match fuel with
    | 0 => OutOfFuel
    | S fuel =>
        match stack st with
        | [] => Panic
        | tos :: rest =>
            match lookup g (s_state tos) (t_type tok) with
            | None =>
                if is_final g (s_state tos)
                then st <- end_of_node st ;; apply_transition fuel st tok
                else error_recovery st (Some tok) (fun st => apply_transition fuel st tok)
            | Some p =>
                match pl_mode p with
                | PlanPositivePeek =>
                    apply_transition fuel (mk_state (set_state (pl_next p) tos :: rest) (nodes st) (tk st) (lost st) (odd st)) tok
                | _ => apply_plan st p tok
                end
            end
        end
    end.

  (** crates/parsa/src/grammar.rs:176-208 [parse], the loops: whenever there are no tokens left, a node is ended, and tokens are read again. *)
  Fixpoint parse_loop (fuel : nat) (st : state) : outcome state :=
    match fuel with
    | 0 => OutOfFuel
    | S fuel =>
        match BacktrackModel.next token (tk st) with
        | (Some tok, t) =>
            st <- apply_transition fuel (mk_state (stack st) (nodes st) t (lost st) (odd st)) tok ;;
            parse_loop fuel st
        | (None, t) =>
            let st := mk_state (stack st) (nodes st) t (lost st) (odd st) in
            match stack st with
            | [] => Panic
            | tos :: _ =>
                st <- (if is_final g (s_state tos) then end_of_node st
                       else error_recovery st None (fun st => Done st)) ;;
                match stack st with [] => Done st | _ => parse_loop fuel st end
            end
        end
    end.

  (** crates/parsa/src/grammar.rs:629-640 [Stack::new]. *)
  Definition initial (start : N) (first : nat) (tokens : list token) : state :=
    mk_state [mk_stack_node start 0 0 first 0 LL false false]
             (if may_be_omitted g first then [] else [mk_node 0 start 0 0]) (BacktrackModel.new token tokens) false false.

  (** crates/parsa/src/grammar.rs:176-208 [parse]; [start], [first]: the nonterminal and its first state. *)
  Definition parse (fuel : nat) (start : N) (first : nat) (tokens : list token) : outcome state :=
    parse_loop fuel (initial start first tokens).
End Engine.
