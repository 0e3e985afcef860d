(** Specification of the cache entries: what a cache entry stores, as a plain record, and what
    storing / updating means.  Independent of the bit layout. *)
From Coq Require Import NArith List Bool.
From Verif Require Import PointModel.
Import ListNotations.
Open Scope N_scope.

(** What an entry is about. *)
Inductive payload :=
| P_redirect (file : N)
| P_file (file : N)
| P_complex (index : N)
| P_specific (s : specific).

Record entry := mk_entry {
  e_payload : payload;
  e_locality : locality;
  e_node : N;
  e_flow : bool;          (* needs flow analysis *)
  e_global : bool;        (* in global scope *)
  e_checked : bool;       (* function bodies only *)
  e_partial : partial_flags (* partial types only *)
}.

Definition payload_kind (p : payload) : kind :=
  match p with
  | P_redirect _ => K_Redirect | P_file _ => K_FileReference
  | P_complex _ => K_Complex | P_specific _ => K_Specific
  end.

(** The ways to create an entry. *)
Inductive make :=
| M_redirect (file node : N) (l : locality)
| M_first_name (node : N) (g : bool) (l : locality)
| M_name (node : N) (g : bool) (l : locality)
| M_parent (node : N) (l : locality)
| M_complex (index : N) (l : locality)
| M_specific (s : specific) (l : locality)
| M_file (file : N) (l : locality)
| M_analyzed (l : locality) (node : N).

(** Documented ranges: 23 bits for the details. *)
Definition in_range (m : make) : Prop :=
  match m with
  | M_redirect f _ _ | M_file f _ => f < 2 ^ 23
  | M_complex i _ => i < 2 ^ 23
  | _ => True
  end.

Definition no_partial : partial_flags := mk_pf false false false.

Definition made (m : make) : entry :=
  match m with
  | M_redirect f n l => mk_entry (P_redirect f) l n false false false no_partial
  | M_first_name n g l => mk_entry (P_specific S_FirstNameOfNameDef) l n false g false no_partial
  | M_name n g l => mk_entry (P_specific S_NameOfNameDef) l n false g false no_partial
  | M_parent n l => mk_entry (P_specific S_Parent) l n false false false no_partial
  | M_complex i l => mk_entry (P_complex i) l 0 false false false no_partial
  | M_specific s l => mk_entry (P_specific s) l 0 false false false no_partial
  | M_file f l => mk_entry (P_file f) l 0 false false false no_partial
  | M_analyzed l n => mk_entry (P_specific S_Analyzed) l n false false false no_partial
  end.

(** The ways to update an entry; each replaces one field. *)
Inductive update :=
| U_flow (b : bool)
| U_node (n : N)
| U_global (b : bool)
| U_checked
| U_partial (f : partial_flags).

Definition updated (e : entry) (u : update) : entry :=
  match e with
  | mk_entry p l n fl g c pf =>
      match u with
      | U_flow b => mk_entry p l n b g c pf
      | U_node n' => mk_entry p l n' fl g c pf
      | U_global b => mk_entry p l n fl b c pf
      | U_checked => mk_entry p l n fl g true pf
      | U_partial f => mk_entry p l n fl g c f
      end
  end.

(** The updates that make sense for an entry (the [debug_assert!]s of the code). *)
Definition applicable (e : entry) (u : update) : Prop :=
  match u with
  | U_flow _ | U_global _ => True
  | U_node _ =>
      match e_payload e with
      | P_redirect _ => True
      | P_specific (S_NameOfNameDef | S_FirstNameOfNameDef | S_Parent | S_Analyzed) => True
      | _ => False
      end
  | U_checked => exists s, e_payload e = P_specific s /\ is_function_state s = true
  | U_partial _ => exists s, e_payload e = P_specific s /\ is_partial s = true
  end.

(** No update takes back the flow, global or finished flag. *)
Definition keeps_flags (e : entry) (u : update) : Prop :=
  match u with
  | U_flow b => e_flow e = true -> b = true
  | U_global b => e_global e = true -> b = true
  | U_partial f => finished (e_partial e) = true -> finished f = true
  | _ => True
  end.

(** [history R m us e]: creating with [m] and applying the updates [us] in order stores [e];
    [R] restricts the single updates. *)
Inductive history (R : entry -> update -> Prop) (m : make) : list update -> entry -> Prop :=
| history_made : history R m [] (made m)
| history_update us e u :
    history R m us e -> applicable e u -> R e u -> history R m (us ++ [u]) (updated e u).
