(** What flow analysis is about: how statements run in Python.

    A store gives the value of every name, attribute and subscript that is bound.  Two different keys never are the same place here, and an
    assignment to a key changes what is reached through it arbitrarily.  Types are sets of values. *)
From Coq Require Import List NArith ZArith Bool.
From Verif Require Import FlowModel.
Import ListNotations.

(** [k'] is an attribute or a subscript of [k], or of such a one *)
Inductive below : key -> key -> Prop :=
| below_member k n : below (Member k n) k
| below_index k i : below (Index k i) k
| below_in_member k' k n : below k' k -> below (Member k' n) k
| below_in_index k' k i : below k' k -> below (Index k' i) k.

Inductive outcome := Normal | Break | Continue | Return | Raise.

Section Python.
Variables (type test value : Type) (truthiness : test) (declared : key -> type).
Variables (has : type -> value -> Prop) (passes : test -> value -> bool).

Definition store := key -> option value.

(** The values are as declared: what is assigned elsewhere has been checked *)
Definition well_typed (s : store) : Prop := forall k v, s k = Some v -> has (declared k) v.

(** [k] is bound to another value, or unbound *)
Definition updated (s : store) (k : key) (v : option value) (s' : store) : Prop :=
  s' k = v /\ (forall k', k' <> k -> ~ below k' k -> s' k' = s k') /\ well_typed s'.

Inductive assigned : list (key * type) -> store -> store -> Prop :=
| assigned_nil s : assigned [] s s
| assigned_cons k t v ws s s1 s2 :
    has t v -> updated s k (Some v) s1 -> assigned ws s1 s2 -> assigned ((k, t) :: ws) s s2.

(** A condition holds or not, or an exception is raised while it is computed *)
Inductive holds : cond type test -> store -> option bool -> store -> Prop :=
| h_raise c s : holds c s None s
| h_test g k v s : s k = Some v -> holds (CTest _ _ g k) s (Some (passes g v)) s
| h_call ws t v s s' : assigned ws s s' -> has t v -> holds (CCall _ _ ws t) s (Some (passes truthiness v)) s'
| h_call_raise ws ws' t s s' : assigned ws s s' -> holds (CCall _ _ (ws ++ ws') t) s None s'
| h_walrus k t v s s' : has t v -> updated s k (Some v) s' -> holds (CWalrus _ _ k t) s (Some (passes truthiness v)) s'
| h_walrus_raise k t v s s' : has t v -> updated s k (Some v) s' -> holds (CWalrus _ _ k t) s None s'
| h_not c s r s' : holds c s r s' -> holds (CNot _ _ c) s (option_map negb r) s'
| h_and_left a b s r s' : r <> Some true -> holds a s r s' -> holds (CAnd _ _ a b) s r s'
| h_and_right a b s s1 r s2 : holds a s (Some true) s1 -> holds b s1 r s2 -> holds (CAnd _ _ a b) s r s2
| h_or_left a b s r s' : r <> Some false -> holds a s r s' -> holds (COr _ _ a b) s r s'
| h_or_right a b s s1 r s2 : holds a s (Some false) s1 -> holds b s1 r s2 -> holds (COr _ _ a b) s r s2.

Inductive evaluates : source type -> store -> value -> Prop :=
| ev_value t s v : has t v -> evaluates (Value _ t) s v
| ev_read k s v : s k = Some v -> evaluates (Read _ k) s v.

(** What a [finally] block makes of what came before *)
Definition after_finally (o : outcome) (f : outcome) : outcome := match f with Normal => o | _ => f end.

(** A statement runs from a store to another one.  The list has the values seen at the places of interest.  Anything may raise an exception. *)
Inductive runs : stmt type test -> store -> list (N * value) -> outcome -> store -> Prop :=
| r_raise s st : runs s st [] Raise st
| r_skip st : runs (SSkip _ _) st [] Normal st
| r_reveal l k v st : st k = Some v -> runs (SReveal _ _ l k) st [(l, v)] Normal st
| r_assign k e v st st' : evaluates e st v -> updated st k (Some v) st' -> runs (SAssign _ _ k e) st [] Normal st'
| r_del k st st' : st k <> None -> updated st k None st' -> runs (SDel _ _ k) st [] Normal st'
| r_seq a b st e1 st1 e2 o st2 : runs a st e1 Normal st1 -> runs b st1 e2 o st2 -> runs (SSeq _ _ a b) st (e1 ++ e2) o st2
| r_seq_out a b st e o st1 : o <> Normal -> runs a st e o st1 -> runs (SSeq _ _ a b) st e o st1
| r_if c a elif b st (r : bool) st1 e o st2 :
    holds c st (Some r) st1 -> runs (if r then a else b) st1 e o st2 -> runs (SIf _ _ c a elif b) st e o st2
| r_if_raise c a elif b st st1 : holds c st None st1 -> runs (SIf _ _ c a elif b) st [] Raise st1
| r_while_raise c body orelse st st1 : holds c st None st1 -> runs (SWhile _ _ c body orelse) st [] Raise st1
| r_while_end c body orelse st st1 e o st2 :
    holds c st (Some false) st1 -> runs orelse st1 e o st2 -> runs (SWhile _ _ c body orelse) st e o st2
| r_while_again c body orelse st st1 e1 o1 st2 e2 o2 st3 :
    holds c st (Some true) st1 -> runs body st1 e1 o1 st2 -> o1 = Normal \/ o1 = Continue ->
    runs (SWhile _ _ c body orelse) st2 e2 o2 st3 -> runs (SWhile _ _ c body orelse) st (e1 ++ e2) o2 st3
| r_while_break c body orelse st st1 e st2 :
    holds c st (Some true) st1 -> runs body st1 e Break st2 -> runs (SWhile _ _ c body orelse) st e Normal st2
| r_while_out c body orelse st st1 e o st2 :
    holds c st (Some true) st1 -> runs body st1 e o st2 -> o = Return \/ o = Raise -> runs (SWhile _ _ c body orelse) st e o st2
| r_for_end k t body orelse st e o st2 : runs orelse st e o st2 -> runs (SFor _ _ k t body orelse) st e o st2
| r_for_again k t body orelse st v st1 e1 o1 st2 e2 o2 st3 :
    has t v -> updated st k (Some v) st1 -> runs body st1 e1 o1 st2 -> o1 = Normal \/ o1 = Continue ->
    runs (SFor _ _ k t body orelse) st2 e2 o2 st3 -> runs (SFor _ _ k t body orelse) st (e1 ++ e2) o2 st3
| r_for_break k t body orelse st v st1 e st2 :
    has t v -> updated st k (Some v) st1 -> runs body st1 e Break st2 -> runs (SFor _ _ k t body orelse) st e Normal st2
| r_for_out k t body orelse st v st1 e o st2 :
    has t v -> updated st k (Some v) st1 -> runs body st1 e o st2 -> o = Return \/ o = Raise ->
    runs (SFor _ _ k t body orelse) st e o st2
| r_break st : runs (SBreak _ _) st [] Break st
| r_continue st : runs (SContinue _ _) st [] Continue st
| r_return st : runs (SReturn _ _) st [] Return st
| r_assert c st (r : option bool) st1 : holds c st r st1 ->
    runs (SAssert _ _ c) st [] (match r with Some true => Normal | _ => Raise end) st1
| r_try body hs orelse finally st e1 o1 st1 e2 o2 st2 :
    tries_to body hs orelse st e1 o1 st1 -> runs finally st1 e2 o2 st2 ->
    runs (STry _ _ body hs orelse finally) st (e1 ++ e2) (after_finally o1 o2) st2
| r_with body st e o st1 : runs body st e o st1 -> runs (SWith _ _ body) st e o st1
| r_with_suppressed body st e st1 : runs body st e Raise st1 -> runs (SWith _ _ body) st e Normal st1
(** The part of a [try] statement before [finally] *)
with tries_to : stmt type test -> list (stmt type test) -> option (stmt type test) -> store -> list (N * value) -> outcome -> store -> Prop :=
| t_ok body hs st e st1 : runs body st e Normal st1 -> tries_to body hs None st e Normal st1
| t_else body hs s st e1 st1 e2 o st2 : runs body st e1 Normal st1 -> runs s st1 e2 o st2 -> tries_to body hs (Some s) st (e1 ++ e2) o st2
| t_out body hs orelse st e o st1 : o <> Normal -> runs body st e o st1 -> tries_to body hs orelse st e o st1
| t_caught body hs h orelse st e1 st1 e2 o st2 :
    runs body st e1 Raise st1 -> In h hs -> runs h st1 e2 o st2 -> tries_to body hs orelse st (e1 ++ e2) o st2.

(** What the user was shown is right: a place that is run through has been looked at, and the value found there is of the type shown *)
Definition right (reports : list (N * report type)) (seen : list (N * value)) : Prop :=
  forall l v, In (l, v) seen -> exists t, In (l, Revealed _ t) reports /\ has t v.
End Python.
