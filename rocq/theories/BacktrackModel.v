(** Model of crates/parsa/src/backtracking.rs: the tokenizer of the parser that can go back. *)
From Coq Require Import List Arith Bool.
Import ListNotations.

Section Tokenizer.
  Variable T : Type.
  (** [Token::start_index] and [Token::length]. *)
  Variable start_index length_ : T -> nat.

  (** backtracking.rs:4-9 [struct BacktrackingTokenizer]; the wrapped iterator is the list of its remaining tokens. *)
  Record tokenizer := mk_tokenizer { tk_rest : list T; tk_tokens : list T; tk_next : nat; tk_recording : bool }.

  (** backtracking.rs:12-19 [new]. *)
  Definition new (tokens : list T) : tokenizer := mk_tokenizer tokens [] 0 false.

  (** backtracking.rs:22-31 [start]. *)
  Definition start (s : tokenizer) (token : T) : tokenizer * nat :=
    match tk_tokens s with
    | [] => (mk_tokenizer (tk_rest s) [token] 1 true, 0)
    | _ => (mk_tokenizer (tk_rest s) (tk_tokens s) (tk_next s) true, tk_next s - 1)
    end.

  (** backtracking.rs:34-36 [reset]. *)
  Definition reset (s : tokenizer) (index : nat) : tokenizer :=
    mk_tokenizer (tk_rest s) (tk_tokens s) index (tk_recording s).

  (** backtracking.rs:39-41 [stop]. *)
  Definition stop (s : tokenizer) : tokenizer := mk_tokenizer (tk_rest s) (tk_tokens s) (tk_next s) false.

  (** The loop of [reset_to_last_leaf]: the last index with the given position. *)
  Fixpoint last_match (tokens : list T) (i : nat) (at_ len : nat) : option nat :=
    match tokens with
    | [] => None
    | t :: r =>
        match last_match r (S i) at_ len with
        | Some j => Some j
        | None => if (start_index t =? at_) && (length_ t =? len) then Some i else None
        end
    end.

  (** backtracking.rs:43-53 [reset_to_last_leaf]; [None] is the panic. *)
  Definition reset_to_last_leaf (s : tokenizer) (at_ len : nat) : option tokenizer :=
    match last_match (tk_tokens s) 0 at_ len with
    | Some i => Some (reset s (S i))
    | None => None
    end.

  (** backtracking.rs:56-84 [next]. *)
  Definition next (s : tokenizer) : option T * tokenizer :=
    match tk_tokens s with
    | [] => match tk_rest s with
            | [] => (None, s)
            | t :: r => (Some t, mk_tokenizer r [] (tk_next s) (tk_recording s))
            end
    | _ =>
        match nth_error (tk_tokens s) (tk_next s) with
        | Some t => (Some t, mk_tokenizer (tk_rest s) (tk_tokens s) (S (tk_next s)) (tk_recording s))
        | None =>
            let (token, rest) := match tk_rest s with [] => (None, []) | t :: r => (Some t, r) end in
            (token,
             if tk_recording s
             then mk_tokenizer rest (tk_tokens s ++ match token with Some t => [t] | None => [] end) (S (tk_next s)) true
             else mk_tokenizer rest [] 0 false)
        end
    end.

  (** What the parser does: it reads, and it starts a recording for the token that it read last, remembering the returned
      index; it goes back to a remembered index or behind the last leaf of a node; it stops the recording. *)
  Inductive op := Next | Start | Reset (k : nat) | ResetLeaf (at_ len : nat) | Stop.

  (** [c_last]: the last token that was read, unless the parser went back since; [c_marks]: the remembered indexes. *)
  Record client := mk_client { c_state : tokenizer; c_last : option T; c_marks : list nat }.

  (** One operation; the token that was read.  [None]: the parser does not do that, or a panic. *)
  Definition step (c : client) (o : op) : option (client * option (option T)) :=
    match o with
    | Next => let (t, s) := next (c_state c) in Some (mk_client s t (c_marks c), Some t)
    | Start =>
        match c_last c with
        | Some t => let (s, i) := start (c_state c) t in Some (mk_client s (Some t) (c_marks c ++ [i]), None)
        | None => None
        end
    | Reset k =>
        match nth_error (c_marks c) k with
        | Some i => Some (mk_client (reset (c_state c) i) None (c_marks c), None)
        | None => None
        end
    | ResetLeaf a l =>
        (* The assertion of [reset_to_last_leaf]. *)
        if tk_recording (c_state c)
        then match reset_to_last_leaf (c_state c) a l with
             | Some s => Some (mk_client s None (c_marks c), None)
             | None => None
             end
        else None
    | Stop => Some (mk_client (stop (c_state c)) (c_last c) [], None)
    end.

  Fixpoint run (c : client) (ops : list op) : option (client * list (option T)) :=
    match ops with
    | [] => Some (c, [])
    | o :: r =>
        match step c o with
        | None => None
        | Some (c, out) =>
            match run c r with
            | None => None
            | Some (c, outs) => Some (c, (match out with Some t => [t] | None => [] end ++ outs))
            end
        end
    end.

  Definition begin (tokens : list T) : client := mk_client (new tokens) None [].
End Tokenizer.
