(** What the language server protocol asks of the message loop. *)
From Coq Require Import ZArith List Bool.
From Verif Require Import ServerModel.
Import ListNotations.

(** Ids of the requests in a sequence of messages. *)
Fixpoint requests {P} (ms : list (message P)) : list nat :=
  match ms with
  | [] => []
  | Request id _ _ :: ms => id :: requests ms
  | _ :: ms => requests ms
  end.

(** Ids of the responses in the server's output. *)
Fixpoint answered {R} (os : list (output R)) : list nat :=
  match os with
  | [] => []
  | Resp_ok id _ :: os => id :: answered os
  | Resp_err id _ :: os => id :: answered os
  | Show_panic :: os => answered os
  end.

(** Only the responses of the output. *)
Fixpoint responses {R} (os : list (output R)) : list (output R) :=
  match os with
  | [] => []
  | Show_panic :: os => responses os
  | r :: os => r :: responses os
  end.

Fixpoint count (i : nat) (l : list nat) : nat :=
  match l with
  | [] => 0
  | x :: l => (if Nat.eqb x i then 1 else 0) + count i l
  end.

Fixpoint panic_reports {R} (os : list (output R)) : nat :=
  match os with
  | [] => 0
  | Show_panic :: os => Datatypes.S (panic_reports os)
  | _ :: os => panic_reports os
  end.

(** The response the protocol prescribes for a request, given whether shutdown was requested, what is registered for
    the method, and what the handler did. *)
Inductive prescribed {S P R} (hs : list (handler S P R)) (shut : bool) (x : S) (id m : nat) (p : P) : output R -> Prop :=
| Pre_shutdown : shut = true -> prescribed hs shut x id m p (Resp_err id InvalidRequest)
| Pre_unknown : shut = false -> (forall h, In h hs -> h_method _ _ _ h <> m) ->
    prescribed hs shut x id m p (Resp_err id MethodNotFound)
| Pre_params hs1 h hs2 : shut = false -> hs = hs1 ++ h :: hs2 -> (forall h, In h hs1 -> h_method _ _ _ h <> m) ->
    h_method _ _ _ h = m -> h_parse _ _ _ h p = None ->
    prescribed hs shut x id m p (Resp_err id InvalidParams)
| Pre_run hs1 h hs2 p' r : shut = false -> hs = hs1 ++ h :: hs2 -> (forall h, In h hs1 -> h_method _ _ _ h <> m) ->
    h_method _ _ _ h = m -> h_parse _ _ _ h p = Some p' ->
    (match snd (h_run _ _ _ h x p') with
     | H_ok v => r = Resp_ok id v
     | H_lsp code _ => r = Resp_err id code
     | H_err _ | H_cancel | H_panic => r = Resp_err id InternalError
     end) ->
    prescribed hs shut x id m p r.
