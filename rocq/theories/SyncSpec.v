(** Specification of document synchronisation, following the LSP text: the
    changes are applied one after the other, each to the result of the previous
    one, a ranged change replaces the text between its two positions. *)
From Coq Require Import List NArith Arith Bool.
From Verif Require Import TextModel LinesSpec SyncModel.
Import ListNotations.

(** [denotes enc t p pre]: position [p] lies in [t] right after the text [pre]. *)
Definition denotes (enc : encoding) (t : text) (p : lsp_position) (pre : text) : Prop :=
  exists ls s e a b,
    lines_of t ls /\ nth_error ls (p_line p) = Some (s, e) /\ s = a ++ b /\
    p_character p = width enc a /\ pre = joined (firstn (p_line p) ls) ++ a.

(** [sync enc P t cs t']: applying [cs] to [t] gives [t'], where every position
    of a ranged change satisfies [P] in the text it refers to. *)
Inductive sync (enc : encoding) (P : text -> lsp_position -> Prop)
  : text -> list change -> text -> Prop :=
| sync_nil t : sync enc P t [] t
| sync_full t s cs t' :
    sync enc P s cs t' -> sync enc P t (mk_change None s :: cs) t'
| sync_range t a b s cs t' pre mid suf :
    P t a -> P t b -> t = pre ++ mid ++ suf ->
    denotes enc t a pre -> denotes enc t b (pre ++ mid) ->
    sync enc P (pre ++ s ++ suf) cs t' ->
    sync enc P t (mk_change (Some (a, b)) s :: cs) t'.

(** No restriction on positions. *)
Definition any_position (t : text) (p : lsp_position) : Prop := True.

(** Not the end of a line that contains characters outside the basic
    multilingual plane (only relevant for UTF-16, see C03). *)
Definition not_astral_eol (enc : encoding) (t : text) (p : lsp_position) : Prop :=
  enc = U16 -> forall ls s e,
    lines_of t ls -> nth_error ls (p_line p) = Some (s, e) ->
    p_character p = width U16 s -> bmp s.

(** The notification does not use a range after a full replacement. *)
Definition no_range_after_full (cs : list change) : Prop :=
  (forall c, In c cs -> ch_range c <> None) \/
  exists cs0 s, cs = cs0 ++ [mk_change None s].
