(** Model of the message loop of the language server (crates/zubanls/src/server.rs).
    Project state, JSON parameters and results are abstract; handlers are arbitrary functions that may
    fail or panic, also after changing the state. *)
From Coq Require Import ZArith List Bool.
Import ListNotations.

(** Outcome of a request handler with its result (anyhow::Result, plus unwinding).
    [H_lsp] is an error that downcasts to [LspError], [H_cancel] one that downcasts to [u8]. *)
Inductive outcome (R : Type) :=
| H_ok (r : R)
| H_lsp (code : Z) (msg : nat)
| H_cancel
| H_err (msg : nat)
| H_panic.
Arguments H_ok {R}. Arguments H_lsp {R}. Arguments H_cancel {R}. Arguments H_err {R}.
Arguments H_panic {R}.

(** Codes of the JSON-RPC/LSP error responses used (lsp_server::ErrorCode). *)
Definition InvalidRequest : Z := (-32600)%Z.
Definition MethodNotFound : Z := (-32601)%Z.
Definition InvalidParams : Z := (-32602)%Z.
Definition InternalError : Z := (-32603)%Z.

Section Server.
  Variables S P R : Type.   (* project state; JSON parameters; JSON result *)

  (** lsp_server::Message, with the method as a number. *)
  Inductive message :=
  | Request (id : nat) (meth : nat) (params : P)
  | Notification (meth : nat) (params : P)
  | Response (id : nat).

  (** What the server sends: responses, and the [ShowMessage] notification of the panic hook. *)
  Inductive output :=
  | Resp_ok (id : nat) (r : R)
  | Resp_err (id : nat) (code : Z)
  | Show_panic.

  (** A registered request: method, deserializer (None is a JSON error) and handler.  The
      deserialized parameters stay of type P. *)
  Record handler := mk_handler {
    h_method : nat;
    h_parse : P -> option P;
    h_run : S -> P -> S * outcome R;
    h_is_shutdown : bool  (* the handler is [handle_shutdown] *)
  }.

  (** A registered notification; its handler reports failure or success (both without output) or
      panics. *)
  Record nhandler := mk_nhandler {
    n_method : nat;
    n_parse : P -> option P;
    n_run : S -> P -> S * bool  (* true: panicked *)
  }.

  (** crates/zubanls/src/server.rs:223-237 [struct GlobalState]: only the parts the message loop touches. [hook] tells
      whether the thread-local cell of panic_hooks.rs still holds the hook. *)
  Record state := mk_state {
    proj : S;
    shutdown_requested : bool;
    hook : bool
  }.

  Variable handlers : list handler.
  Variable nhandlers : list nhandler.
  Variable exit_method : nat.
  Variable recover : S -> S.             (* recover_from_panic *)
  Variable after : S -> S * bool.        (* rest of the loop body: publishing, reindexing; true: panicked *)

  (** Result of code that can unwind: the state as left behind, the outputs so far. *)
  Inductive ctl := Fine | Unwound.

  (** crates/zubanls/src/panic_hooks.rs:17-30 [enter]: a panic runs the hook stored in the cell, which [take] removes;
      the hook installed by server.rs:143-183 sends a ShowMessage notification. *)
  Definition run_panic_hook (s : state) : state * list output :=
    if hook s then (mk_state (proj s) (shutdown_requested s) false, [Show_panic]) else (s, []).

  (** crates/zubanls/src/server.rs:836-860 [result_to_response]; None: [todo!()] panics. *)
  Definition result_to_response (id : nat) (o : outcome R) : option output :=
    match o with
    | H_ok r => Some (Resp_ok id r)
    | H_lsp code _ => Some (Resp_err id code)
    | H_cancel => None
    | H_err _ => Some (Resp_err id InternalError)
    | H_panic => None
    end.

  (** crates/zubanls/src/request_handlers.rs:812-815 [handle_shutdown]; the other handlers do not
      touch [shutdown_requested]. *)
  Definition run_handler (h : handler) (s : state) (p : P) : state * outcome R :=
    let (x, o) := h_run h (proj s) p in
    (mk_state x (shutdown_requested s || h_is_shutdown h) (hook s), o).

  (** crates/zubanls/src/server.rs:768-790 [on_sync_mut] of [RequestDispatcher] with [parse] (792-811) inlined: [req] is the
      request not yet taken. *)
  Definition on_sync_mut (h : handler) (s : state) (req : option (nat * nat * P))
    : state * option (nat * nat * P) * list output * ctl :=
    match req with
    | Some (id, m, p) =>
        if Nat.eqb m (h_method h) then
          match h_parse h p with
          | None => (s, None, [Resp_err id InvalidParams], Fine)
          | Some p' =>
              let (s', o) := run_handler h s p' in
              match result_to_response id o with
              | Some r => (s', None, [r], Fine)
              | None => (s', None, [], Unwound)
              end
          end
        else (s, req, [], Fine)
    | None => (s, None, [], Fine)
    end.

  (** The chain of [on_sync_mut] calls of [on_request] and the final [finish]
      (crates/zubanls/src/server.rs:462-493, 813-824). *)
  Fixpoint dispatch (hs : list handler) (s : state) (req : option (nat * nat * P))
    : state * list output * ctl :=
    match hs with
    | [] => match req with
            | Some (id, _, _) => (s, [Resp_err id MethodNotFound], Fine)
            | None => (s, [], Fine)
            end
    | h :: hs =>
        match on_sync_mut h s req with
        | (s', _, o, Unwound) => (s', o, Unwound)
        | (s', req', o, Fine) =>
            let '(s'', o', c) := dispatch hs s' req' in (s'', o ++ o', c)
        end
    end.

  (** crates/zubanls/src/server.rs:452-494 [on_request]. *)
  Definition on_request (s : state) (id m : nat) (p : P) : state * list output * ctl :=
    if shutdown_requested s then (s, [Resp_err id InvalidRequest], Fine)
    else dispatch handlers s (Some (id, m, p)).

  (** crates/zubanls/src/server.rs:431-450 [on_notification] with [NotificationDispatcher] (701-760): invalid parameters
      panic, errors are only logged, an unknown notification is ignored. *)
  Fixpoint ndispatch (hs : list nhandler) (s : state) (m : nat) (p : P) : state * ctl :=
    match hs with
    | [] => (s, Fine)
    | h :: hs =>
        if Nat.eqb m (n_method h) then
          match n_parse h p with
          | None => (s, Unwound)
          | Some p' =>
              let (x, panicked) := n_run h (proj s) p' in
              (mk_state x (shutdown_requested s) (hook s), if panicked then Unwound else Fine)
          end
        else ndispatch hs s m p
    end.

  (** crates/zubanls/src/server.rs:496-535 [on_lsp_message_and_return_on_shutdown]; the boolean is its result. *)
  Definition on_lsp_message (s : state) (msg : message) : state * list output * bool :=
    let '(was_message, (s1, o1, c1), ex) :=
      match msg with
      | Request id m p => (Some id, on_request s id m p, false)
      | Notification m p =>
          if Nat.eqb m exit_method then (None, (s, [], Fine), true)
          else let (s1, c1) := ndispatch nhandlers s m p in (None, (s1, [], c1), false)
      | Response id => (None, (s, [], Fine), false)
      end in
    match c1 with
    | Fine => (s1, o1, ex)
    | Unwound =>
        let (s2, o2) := run_panic_hook s1 in
        let o3 := match was_message with
                  | Some id => [Resp_err id InternalError]
                  | None => []
                  end in
        (mk_state (recover (proj s2)) (shutdown_requested s2) (hook s2), o1 ++ o2 ++ o3, false)
    end.

  (** crates/zubanls/src/server.rs:264-287 [event_loop], one client message per turn (watcher events are part of [after]).
      Returns the messages taken from the channel, everything sent, and the final state. A panic of [after] ends the
      process. *)
  Fixpoint event_loop (s : state) (msgs : list message) : list message * list output * state :=
    match msgs with
    | [] => ([], [], s)
    | msg :: rest =>
        let '(s1, o1, ex) := on_lsp_message s msg in
        if ex then ([msg], o1, s1)
        else
          let (x, dead) := after (proj s1) in
          let s2 := mk_state x (shutdown_requested s1) (hook s1) in
          if dead then ([msg], o1 ++ snd (run_panic_hook s2), fst (run_panic_hook s2))
          else
            let '(taken, o2, s3) := event_loop s2 rest in
            (msg :: taken, o1 ++ o2, s3)
    end.
End Server.
Arguments Request {P}. Arguments Notification {P}. Arguments Response {P}.
Arguments Resp_ok {R}. Arguments Resp_err {R}. Arguments Show_panic {R}.
Arguments mk_handler {S P R}. Arguments mk_nhandler {S P}. Arguments mk_state {S}.
