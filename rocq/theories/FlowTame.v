(** The programs for which flow analysis is shown to be right.  The conditions are about what the analysis knows when it comes to a statement;
    what goes wrong without them is shown in FlowProps.v. *)
From Coq Require Import List NArith ZArith Bool.
From Verif Require Import FlowModel FlowSpec.
Import ListNotations.

Section Tame.
Variables (type test value : Type).
Variables (error never : type) (is_never is_any any_in none_in could_be_a_literal : type -> bool).
Variables (remove_none avoid_implicit_literal : type -> type) (union simplified_union : type -> type -> type)
          (common_sub_type : type -> type -> option type).
Variables (split : test -> type -> option (type * type)) (truthiness : test).
Variables (declared : key -> type) (explicit_any : key -> bool).
Variables (has : type -> value -> Prop).
(** The keys that are narrowed or assigned somewhere, and the parameters of the function *)
Variables (tracked : key -> Prop) (params : list N).

Notation entry := (entry type).
Notation frame := (frame type).
Notation state := (state type).
Notation cond := (cond type test).
Notation stmt := (stmt type test).
Notation assign := (assign type is_any any_in none_in could_be_a_literal remove_none avoid_implicit_literal union simplified_union declared explicit_any).
Notation guards := (guards type test error never is_never is_any any_in none_in could_be_a_literal remove_none avoid_implicit_literal union
                      simplified_union common_sub_type split truthiness declared explicit_any).
Notation analyse := (analyse type test error never is_never is_any any_in none_in could_be_a_literal remove_none avoid_implicit_literal union
                       simplified_union common_sub_type split truthiness declared explicit_any).

(** A value, if any, of a type *)
Definition within (t : type) (v : option value) : Prop := forall w, v = Some w -> has t w.

(** What an entry says about the value of its key *)
Definition fits (e : entry) (v : option value) : Prop :=
  if e_deleted _ e then v = None else within (match e_kind _ e with Of _ t => t | Declaration _ => declared (e_key _ e) end) v.

(** No tracked key is part of the other *)
Definition isolated (k : key) : Prop := forall k', tracked k' -> ~ below k' k /\ ~ below k k'.

(** What the frames say about the value of a key; an entry comes on top of what was known before,
    unless it is for an assignment *)
Fixpoint allows (fs : list frame) (k : key) (v : option value) : Prop :=
  match fs with
  | [] => within (declared k) v
  | f :: fs =>
      match find_entry _ k (f_entries _ f) with
      | Some e => fits e v /\ ((e_modifies _ e = true /\ isolated k) \/ allows fs k v)
      | None => allows fs k v
      end
  end.

(** Outside of all branches, loops and [try] statements *)
Definition outermost (st : state) : Prop := length (frames _ st) = 1 /\ tries _ st = [].

(** Assigning a value of this type removes what is known about the key: it is declared as [Any], or something of type [Any] is assigned *)
Definition removing (k : key) (t : type) : bool :=
  explicit_any k ||
  (let t := if could_be_a_literal (declared k) then t else avoid_implicit_literal t in
   is_any t && negb (any_in (declared k)) && negb (none_in (declared k))).

(** In branches only keys are assigned that have nothing to do with others, and nothing of type [Any] *)
Definition tame_assign (k : key) (t : type) (st : state) : Prop :=
  tracked k /\ (isolated k \/ outermost st) /\
  (removing k t = true -> outermost st /\ isolated k /\ ~ (exists n, In n params /\ k = Name n) /\ lookup _ (frames _ (assign k t st)) k = None).

Fixpoint tame_walruses (ws : list (key * type)) (st : state) : Prop :=
  match ws with [] => True | (k, t) :: ws => tame_assign k t st /\ tame_walruses ws (assign k t st) end.

(** No assignment in a condition *)
Fixpoint plain (c : cond) : Prop :=
  match c with
  | CTest _ _ _ _ => True
  | CCall _ _ ws _ => ws = []
  | CWalrus _ _ _ _ => False
  | CNot _ _ c => plain c
  | CAnd _ _ a b | COr _ _ a b => plain a /\ plain b
  end.

(** There are assignments only where it is certain that they are made; the value of [k := e] is either not narrowed when it is tested or it is a
    value that is possible for [k] already.  [calls] is whether assignments in the arguments of a call are possible. *)
Fixpoint tame_cond (calls : bool) (c : cond) (st : state) : Prop :=
  match c with
  | CTest _ _ _ k => tracked k
  | CCall _ _ ws _ => (calls = true \/ ws = []) /\ tame_walruses ws st
  | CWalrus _ _ k t =>
      tracked k /\ isolated k /\ removing k t = false /\
      (split truthiness t = None \/ forall v, has t v -> has (declared k) v -> allows (frames _ st) k (Some v))
  | CNot _ _ c => tame_cond calls c st
  | CAnd _ _ a b =>
      plain a /\ tame_cond false a st /\
      (let '(lt, _, st) := guards a st in f_unreachable _ lt = false -> tame_cond false b (push _ lt st))
  | COr _ _ a b =>
      plain a /\ tame_cond false a st /\
      (let '(_, lf, st) := guards a st in f_unreachable _ lf = false -> tame_cond false b (push _ lf st))
  end.

(** What is assigned according to the frame was possible before *)
Definition stable (fs : list frame) (f : frame) : Prop :=
  forall e, In e (f_entries _ f) -> e_modifies _ e = true ->
  forall v, within (declared (e_key _ e)) v -> fits e v -> allows fs (e_key _ e) v.

(** What was possible before is possible according to the entries *)
Definition covers (fs : list frame) (es : list entry) : Prop :=
  forall e, In e es -> forall v, within (declared (e_key _ e)) v -> allows fs (e_key _ e) v -> fits e v.

(** No key is narrowed after it was assigned in these frames *)
Definition flat (fs : list frame) : Prop :=
  forall k e, lookup _ fs k = Some e -> e_modifies _ e = false ->
  forall f e', In f fs -> In e' (f_entries _ f) -> e_key _ e' = k -> e_modifies _ e' = false.

Definition tame_jump (st : state) : Prop :=
  match loop _ st with None => False | Some l => flat (firstn (length (frames _ st) - l_index _ l) (frames _ st)) end.

(** Code that cannot be reached is not looked at *)
Definition tame_block (tame : state -> Prop) (st : state) : Prop := is_unreachable _ st = false -> tame st.

Definition reachable_stable (fs : list frame) (f : frame) : Prop := f_unreachable _ f = false -> stable fs f.

(** - The body of a loop does not assign anything that was not possible before the loop.
    - At [break] and [continue], nothing is narrowed that was assigned in the loop.
    - In a [try] block, keys that are narrowed are not assigned (in a way that makes what is possible smaller); with [else], like a loop.
    - In [finally], nothing is looked at or assigned.
    - Only parameters are deleted. *)
Fixpoint tame (s : stmt) (st : state) : Prop :=
  match s with
  | SSkip _ _ | SReveal _ _ _ _ | SReturn _ _ | SRaise _ _ => True
  | SAssign _ _ k s => tame_assign k (source_type type error declared s st) st
  | SDel _ _ k => (exists n, In n params /\ k = Name n) /\ tracked k /\ (isolated k \/ outermost st)
  | SSeq _ _ a b => tame_block (tame a) st /\ tame_block (tame b) (block _ (analyse a) st)
  | SIf _ _ c a elif b =>
      tame_cond true c st /\
      let '(t, f, st) := guards c st in
      tame_block (tame a) (push _ t st) /\
      let st := snd (pop _ (block _ (analyse a) (push _ t st))) in
      (if elif then tame b else tame_block (tame b)) (push _ f st)
  | SWhile _ _ c body orelse =>
      tame_cond false c st /\
      let '(t, f, st) := guards c st in
      tame_block (tame body) (enter_loop _ t st) /\
      let '(after, l, st) := leave_loop _ (loop _ st) (block _ (analyse body) (enter_loop _ t st)) in
      reachable_stable (frames _ st) after /\ Forall (stable (frames _ st)) (l_continues _ l) /\
      tame_block (tame orelse) (push _ (loop_exit type never simplified_union common_sub_type true f after l st) st)
  | SFor _ _ k t body orelse =>
      tracked k /\ isolated k /\ removing k t = false /\
      tame_block (tame body) (assign k t (enter_loop _ (new_conditional _) st)) /\
      let '(after, l, st) := leave_loop _ (loop _ st) (block _ (analyse body) (assign k t (enter_loop _ (new_conditional _) st))) in
      reachable_stable (frames _ st) after /\ Forall (stable (frames _ st)) (l_continues _ l) /\
      tame_block (tame orelse) (push _ (loop_exit type never simplified_union common_sub_type false (new_conditional _) after l st) st)
  | SBreak _ _ | SContinue _ _ => tame_jump st
  | SAssert _ _ c => tame_cond true c st
  | STry _ _ body handlers orelse finally =>
      finally = SSkip _ _ /\
      tame_block (tame body) (push _ (new_conditional _) (enter_try _ st)) /\
      let '(try_frame, st) := pop _ (block _ (analyse body) (push _ (new_conditional _) (enter_try _ st))) in
      let '(caught, st) := leave_try _ st in
      covers (frames _ st) caught /\
      let '(tame_handlers, st) :=
        fold_left
          (fun acc h =>
             let '(p, st) := acc in
             (p /\ tame_block (tame h) (push _ (Frame _ caught false) st),
              snd (pop _ (block _ (analyse h) (push _ (Frame _ caught false) st)))))
          handlers (True, st) in
      tame_handlers /\
      match orelse with
      | None => True
      | Some orelse =>
          reachable_stable (frames _ st) try_frame /\
          tame_block (tame orelse)
            (push _ (if f_unreachable _ try_frame then new_unreachable _ else new_conditional _) (push _ try_frame st))
      end
  | SWith _ _ body =>
      tame_block (tame body) (push _ (new_conditional _) (enter_try _ st)) /\
      let '(_, st) := pop _ (block _ (analyse body) (push _ (new_conditional _) (enter_try _ st))) in
      let '(caught, st) := leave_try _ st in
      covers (frames _ st) caught
  end.
End Tame.
