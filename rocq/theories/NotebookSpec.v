(** What a client does with a notebook (it only synchronises Python cells, as the server asks for), and what the server
    should know afterwards. *)
From Coq Require Import List Permutation Arith.
From Verif Require Import NotebookModel.
Import ListNotations.

(** The cells: their URIs and texts.  [None]: not open. *)
Notation notebook := (option (list (nat * nat))) (only parsing).

Definition code_cells (l : list (nat * nat)) : list (kind * nat) := map (fun x => (Code, fst x)) l.

(** The text of one cell is replaced. *)
Definition set_text (u c : nat) (l : list (nat * nat)) : list (nat * nat) :=
  map (fun x => if fst x =? u then (u, c) else x) l.

Inductive edits : list (nat * nat) -> list (nat * nat) -> list (nat * nat) -> Prop :=
| edits_none nb : edits nb [] nb
| edits_one nb u c r nb' : In u (map fst nb) -> edits (set_text u c nb) r nb' -> edits nb ((u, c) :: r) nb'.

(** The cells [old] between [before] and [after] are replaced by [new]. *)
Inductive restructures : list (nat * nat) -> option structure -> list (nat * nat) -> Prop :=
| restructures_not nb : restructures nb None nb
| restructures_splice before old after new st :
    NoDup (map fst (before ++ new ++ after)) ->
    (forall u, In u (map fst new) -> ~ In u (map fst old)) ->
    st_start st = length before -> st_delete st = length old ->
    (st_cells st = Some (code_cells new) /\ (exists d, st_open st = Some d /\ Permutation d new) \/ st_cells st = None /\ new = []) ->
    ((exists us, st_close st = Some us /\ Permutation us (map fst old)) \/ st_close st = None /\ old = []) ->
    restructures (before ++ old ++ after) (Some st) (before ++ new ++ after).

Inductive sends : notebook -> notification -> notebook -> Prop :=
| sends_open nb d : NoDup (map fst nb) -> Permutation d nb -> sends None (Open (code_cells nb) d) (Some nb)
| sends_change nb st nb1 texts nb2 : restructures nb st nb1 -> edits nb1 texts nb2 -> sends (Some nb) (Change st texts) (Some nb2)
| sends_close nb us : Permutation us (map fst nb) -> sends (Some nb) (Close us) None.

(** Sessions in which all the notifications have the property [P]. *)
Inductive session (P : notebook -> notification -> Prop) : notebook -> list notification -> notebook -> Prop :=
| session_nil nb : session P nb [] nb
| session_cons nb n nb1 r nb2 : P nb n -> sends nb n nb1 -> session P nb1 r nb2 -> session P nb (n :: r) nb2.

(** The server knows the order of the cells and their texts, and no other documents. *)
Definition knows (s : state) (nb : notebook) : Prop :=
  match nb with
  | Some l => cells s = Some (map fst l) /\
              (forall u c, In (u, c) l -> exists d, docs s u = Some d /\ d_code d = c) /\
              (forall u, ~ In u (map fst l) -> docs s u = None)
  | None => cells s = None /\ forall u, docs s u = None
  end.

(** Names are looked up in the cells before: every cell is linked to the one before it. *)
Definition chained (s : state) (l : list nat) : Prop :=
  forall k u, nth_error l k = Some u ->
    exists d, docs s u = Some d /\ d_parent d = match k with 0 => None | S p => nth_error l p end.

(** Only the last cells are replaced. *)
Definition at_the_end (nb : notebook) (n : notification) : Prop :=
  match nb, n with
  | Some l, Change (Some st) _ => st_start st + st_delete st = length l
  | _, _ => True
  end.
