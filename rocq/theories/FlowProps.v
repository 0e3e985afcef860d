(** C56: what the user is told about the type of a name, attribute or subscript at a place is right for every execution that comes there. *)
From Coq Require Import List NArith ZArith Bool Lia.
From Verif Require Import FlowModel FlowSpec FlowTame FlowProofs FlowCheck FlowWorld.
Import ListNotations.

Section Laws.
Variables (type test value : Type).
Variables (error never : type) (is_never is_any any_in none_in could_be_a_literal : type -> bool).
Variables (remove_none avoid_implicit_literal : type -> type) (union simplified_union : type -> type -> type)
          (common_sub_type : type -> type -> option type).
Variables (split : test -> type -> option (type * type)) (truthiness : test).
Variables (declared : key -> type) (explicit_any : key -> bool).
Variables (has : type -> value -> Prop) (passes : test -> value -> bool).

(** What is asked of types and tests: unions have the values of both types, what two types have in common is in the common subtype and there is
    none only if there is nothing, no value is of type [Never], a test splits the values of a type, and [Any] in a union stands for everything *)
Record laws : Prop := {
  law_union : forall t1 t2 v, has t1 v \/ has t2 v -> has (simplified_union t1 t2) v;
  law_common : forall t1 t2 t v, common_sub_type t1 t2 = Some t -> has t1 v -> has t2 v -> has t v;
  law_disjoint : forall t1 t2 v, common_sub_type t1 t2 = None -> has t1 v -> ~ has t2 v;
  law_never : forall t v, is_never t = true -> ~ has t v;
  law_split : forall g t a b v, split g t = Some (a, b) -> has t v -> has (if passes g v then a else b) v;
  law_widened : forall t v, has t v -> has (avoid_implicit_literal t) v;
  law_any : forall t t' v, is_any t = true -> has (union t' t) v
}.

(** The whole analysis, for the functions whose loops, [try] blocks and assignments are as in FlowTame.v *)
Theorem C56_sound_partial : laws -> forall (tracked : key -> Prop) params body s ev o s',
  NoDup params -> (forall n, In n params -> tracked (Name n)) ->
  tame type test value error never is_never is_any any_in none_in could_be_a_literal remove_none avoid_implicit_literal union simplified_union
    common_sub_type split truthiness declared explicit_any has tracked params body (start type params) ->
  well_typed type value declared has s -> runs type test value truthiness declared has passes body s ev o s' ->
  right type value has
    (function type test error never is_never is_any any_in none_in could_be_a_literal remove_none avoid_implicit_literal union simplified_union
       common_sub_type split truthiness declared explicit_any params body) ev.
Proof.
  intros [L1 L2 L3 L4 L5 L6 L7] tracked params body s ev o s' Hn Ht T Hw Hr.
  exact (function_right type value never simplified_union common_sub_type declared has L1 L2 L3 tracked params test error is_never is_any any_in none_in
           could_be_a_literal remove_none avoid_implicit_literal union split truthiness explicit_any passes L4 L5 L6 L7 body s ev o s' Hn Ht T Hw Hr).
Qed.

(** The same with the conditions as a test, for functions in which only names are assigned and narrowed *)
Theorem C56_checked_partial : laws -> forall (subtype : type -> type -> bool) params body s ev o s',
  (forall a b v, subtype a b = true -> has a v -> has b v) -> NoDup params ->
  check type test error never is_never is_any any_in none_in could_be_a_literal remove_none avoid_implicit_literal union simplified_union
    common_sub_type split truthiness declared explicit_any params subtype body (start type params) = true ->
  well_typed type value declared has s -> runs type test value truthiness declared has passes body s ev o s' ->
  right type value has
    (function type test error never is_never is_any any_in none_in could_be_a_literal remove_none avoid_implicit_literal union simplified_union
       common_sub_type split truthiness declared explicit_any params body) ev.
Proof.
  intros L subtype params body s ev o s' Hs Hn C Hw Hr. eapply (C56_sound_partial L name params body s ev o s' Hn); [|apply check_tame with subtype; [exact Hs|exact C]|exact Hw|exact Hr].
  intros n _. now exists n.
Qed.

(** ** Without loops and [try], as a condition on the code alone *)
(** Something of type [Any] is not assigned, except to names where that is kept *)
Definition keeps (k : key) (t : type) : Prop :=
  removing type is_any any_in none_in could_be_a_literal avoid_implicit_literal declared explicit_any k t = false.

Fixpoint names_only (c : cond type test) : Prop :=
  match c with
  | CTest _ _ _ k => name k
  | CCall _ _ ws _ => ws = []
  | CWalrus _ _ k t => False
  | CNot _ _ c => names_only c
  | CAnd _ _ a b | COr _ _ a b => names_only a /\ names_only b
  end.

Fixpoint branching (params : list N) (s : stmt type test) : Prop :=
  match s with
  | SSkip _ _ | SReveal _ _ _ _ | SReturn _ _ | SRaise _ _ => True
  | SAssign _ _ k (Value _ t) => name k /\ keeps k t
  | SAssign _ _ k (Read _ _) => name k /\ forall t, keeps k t
  | SDel _ _ k => exists n, In n params /\ k = Name n
  | SSeq _ _ a b => branching params a /\ branching params b
  | SIf _ _ c a _ b => names_only c /\ branching params a /\ branching params b
  | SAssert _ _ c => names_only c
  | SWhile _ _ _ _ _ | SFor _ _ _ _ _ _ | SBreak _ _ | SContinue _ _ | STry _ _ _ _ _ _ | SWith _ _ _ => False
  end.

Lemma names_only_plain : forall c, names_only c -> plain type test c.
Proof.
  induction c as [g k|ws t|k t|c IH|a IHa b IHb|a IHa b IHb]; intros H; cbn [names_only plain] in *; try exact Logic.I; try assumption.
  - now apply IH.
  - destruct H. split; [now apply IHa|now apply IHb].
  - destruct H. split; [now apply IHa|now apply IHb].
Qed.

Lemma names_only_tame : forall params c calls st, names_only c ->
  tame_cond type test value error never is_never is_any any_in none_in could_be_a_literal remove_none avoid_implicit_literal union simplified_union
    common_sub_type split truthiness declared explicit_any has name params calls c st.
Proof.
  intros params. induction c as [g k|ws t|k t|c IH|a IHa b IHb|a IHa b IHb]; intros calls st H; cbn [names_only tame_cond] in *; try assumption; try contradiction.
  - subst ws. split; [now right|exact Logic.I].
  - now apply IH.
  - destruct H as [Ha Hb]. split; [now apply names_only_plain|]. split; [now apply IHa|].
    destruct (guards _ _ _ _ _ _ _ _ _ _ _ _ _ _ _ _ _ _ a st) as [[lt lf] st1]. intros _. now apply IHb.
  - destruct H as [Ha Hb]. split; [now apply names_only_plain|]. split; [now apply IHa|].
    destruct (guards _ _ _ _ _ _ _ _ _ _ _ _ _ _ _ _ _ _ a st) as [[lt lf] st1]. intros _. now apply IHb.
Qed.

Lemma branching_tame : forall params s st, branching params s ->
  tame type test value error never is_never is_any any_in none_in could_be_a_literal remove_none avoid_implicit_literal union simplified_union
    common_sub_type split truthiness declared explicit_any has name params s st.
Proof.
  intros params. apply (stmt_induction type test (fun s => forall st, branching params s -> tame type test value error never is_never is_any any_in
    none_in could_be_a_literal remove_none avoid_implicit_literal union simplified_union common_sub_type split truthiness declared explicit_any has
    name params s st)); try (intros; exact Logic.I); try (intros; contradiction).
  - intros k e st H. cbn [branching tame] in *. unfold tame_assign.
    assert (K : name k /\ keeps k (source_type type error declared e st)). { destruct e; cbn [source_type]; destruct H as [H1 H2]; split; (exact H1 || apply H2). }
    destruct K as [K1 K2]. split; [exact K1|]. split; [left; now apply name_isolated|]. unfold keeps in K2. intros R. congruence.
  - intros k st H. cbn [branching tame] in *. split; [exact H|]. destruct H as [n [_ ->]]. split; [now exists n|left; apply name_isolated; now exists n].
  - intros a b Ha Hb st [H1 H2]. split; intros _; [now apply Ha|now apply Hb].
  - intros c a elif b Ha Hb st [H1 [H2 H3]]. cbn [tame]. split; [now apply names_only_tame|].
    destruct (guards _ _ _ _ _ _ _ _ _ _ _ _ _ _ _ _ _ _ c st) as [[t f] st1]. split; [intros _; now apply Ha|]. destruct elif; [now apply Hb|intros _; now apply Hb].
  - intros c st H. cbn [branching tame] in *. now apply names_only_tame.
Qed.

Theorem C56_branches : laws -> forall params body s ev o s', NoDup params -> branching params body ->
  well_typed type value declared has s -> runs type test value truthiness declared has passes body s ev o s' ->
  right type value has
    (function type test error never is_never is_any any_in none_in could_be_a_literal remove_none avoid_implicit_literal union simplified_union
       common_sub_type split truthiness declared explicit_any params body) ev.
Proof.
  intros L params body s ev o s' Hn B Hw Hr. eapply (C56_sound_partial L name params body s ev o s' Hn); [|now apply branching_tame|exact Hw|exact Hr].
  intros n _. now exists n.
Qed.
End Laws.

Theorem C56_world : laws ty tst val is_never is_any (fun x => x) join join meet split_type has passes.
Proof.
  split.
  - exact join_has.
  - exact meet_has.
  - exact meet_none.
  - exact never_has.
  - exact split_has.
  - intros t' v H. exact H.
  - exact any_has.
Qed.

(** ** Where it goes wrong *)
Definition x := Name 0.
Definition y := Name 1.
Notation "a ;; b" := (SSeq ty tst a b) (at level 60, right associativity).
Notation "k <- t" := (SAssign ty tst k (Value ty t)) (at level 58).
Notation reveal n k := (SReveal ty tst n k).
Notation skip := (SSkip ty tst).
(** A call about whose result nothing is known *)
Notation call := (CCall ty tst [] int_or_str).
Notation iff c a := (SIf ty tst c a false skip).
Notation is_none k := (CTest ty tst IsNone k).

Lemma misleading_run : forall t params body s ev o s', simple t s -> execution t body s ev o s' ->
  forallb (shown (analysis t params body)) ev = false -> misleading t params body.
Proof.
  intros t params body s ev o s' Hs Hr Hf. exists s, ev, o, s'. split; [now apply simple_typed|]. split; [exact Hr|].
  intros H. apply right_shown in H. congruence.
Qed.

Notation evaluated t := (holds ty tst val Truthy (fun _ => t) has passes).

Lemma call_is : forall t s b, evaluated t call s (Some b) s.
Proof. intros t s b. exact (h_call ty tst val Truthy (fun _ => t) has passes [] int_or_str (VInt b) s s (assigned_nil _ _ _ _ s) eq_refl). Qed.

Lemma test_is : forall t g k s v b, s k = Some v -> passes g v = b -> evaluated t (CTest ty tst g k) s (Some b) s.
Proof. intros t g k s v b E <-. now constructor. Qed.

Lemma not_is : forall t c s s' b, evaluated t c s (Some b) s' -> evaluated t (CNot ty tst c) s (Some (negb b)) s'.
Proof. intros t c s s' b H. exact (h_not ty tst val Truthy _ has passes c s (Some b) s' H). Qed.

Lemma walrus_is : forall t k u v s, simple t s -> hasb u v = true -> hasb t v = true ->
  evaluated t (CWalrus ty tst k u) s (Some (truth v)) (set s k (Some v)).
Proof. intros t k u v s Hs H1 H2. apply (h_walrus ty tst val Truthy (fun _ => t) has passes k u v s); [exact H1|now apply updated_set]. Qed.

Lemma do_assign : forall t k u v s, simple t s -> hasb u v = true -> hasb t v = true -> execution t (k <- u) s [] Normal (set s k (Some v)).
Proof.
  intros t k u v s Hs H1 H2. apply r_assign with v; [now constructor|]. now apply updated_set.
Qed.

Lemma do_seq : forall t a b s e1 s1 e2 o s2, execution t a s e1 Normal s1 -> execution t b s1 e2 o s2 -> execution t (a ;; b) s (e1 ++ e2) o s2.
Proof. intros t a b s e1 s1 e2 o s2 H1 H2. now apply r_seq with s1. Qed.

Lemma do_reveal : forall t l k v s, s k = Some v -> execution t (reveal l k) s [(l, v)] Normal s.
Proof. intros t l k v s E. now constructor. Qed.

Lemma do_stop : forall t a s, execution t a s [] Raise s.
Proof. intros t a s. constructor. Qed.

Lemma do_skip : forall t s, execution t skip s [] Normal s.
Proof. intros t s. constructor. Qed.

Lemma do_if : forall t c a elif b s (r : bool) s1 e o s2, evaluated t c s (Some r) s1 -> execution t (if r then a else b) s1 e o s2 ->
  execution t (SIf ty tst c a elif b) s e o s2.
Proof. intros t c a elif b s r s1 e o s2 H1 H2. now apply r_if with r s1. Qed.

Lemma do_try : forall t body hs orelse s e o s1, tries_to ty tst val Truthy (fun _ => t) has passes body hs orelse s e o s1 ->
  execution t (STry ty tst body hs orelse skip) s (e ++ []) o s1.
Proof. intros t body hs orelse s e o s1 H. exact (r_try ty tst val Truthy _ has passes body hs orelse skip s e o s1 [] Normal s1 H (do_skip t s1)). Qed.

Ltac simple_store := repeat (apply simple_set; [reflexivity|]); apply simple_all; reflexivity.
Ltac assigns v := eapply (do_assign _ _ _ v); [simple_store|reflexivity|reflexivity].
Ltac look := cbv [set all equals x y N.eqb Pos.eqb andb]; reflexivity.
Ltac found := eapply do_reveal; look.
Ltac tested := eapply test_is; [look|reflexivity].

(** (1) The body of a loop is looked at once, with what is known before the first time.
<<
    x = 1
    while f():
        reveal_type(x)   # shown: int
        x = None
>> *)
Theorem C56_loop_body_refuted : misleading int_or_none [] (x <- int ;; SWhile _ _ call (reveal 1 x ;; x <- none) skip).
Proof.
  eapply misleading_run with (s := all (VInt true)); [simple_store| |].
  - eapply do_seq; [assigns (VInt true)|]. eapply r_while_again with (o1 := Normal); [apply (call_is _ _ true)| |now left|].
    + eapply do_seq; [found|assigns VNone].
    + eapply r_while_out with (o := Raise); [apply (call_is _ _ true)| |now right]. eapply do_seq; [found|apply do_stop].
  - vm_compute. reflexivity.
Qed.

(** (2) So code after a loop may be taken for unreachable, and is then not looked at.
<<
    x = 1
    while x is not None:
        x = None
    reveal_type(x)       # shown: nothing
>> *)
Definition ending_loop := x <- int ;; SWhile _ _ (CNot _ _ (is_none x)) (x <- none) skip ;; reveal 1 x.

Theorem C56_after_loop_refuted : misleading int_or_none [] ending_loop /\ analysis int_or_none [] ending_loop = [].
Proof.
  split; [|reflexivity].
  eapply misleading_run with (s := all (VInt true)); [simple_store| |].
  - eapply do_seq; [assigns (VInt true)|]. eapply do_seq. { eapply r_while_again with (o1 := Normal).
    + apply (not_is _ _ _ _ false). tested.
    + assigns VNone.
    + now left.
    + eapply r_while_end; [|apply do_skip]. apply (not_is _ _ _ _ true). tested. } found.
  - vm_compute. reflexivity.
Qed.

(** (3) At [break], what is narrowed counts as not assigned in the loop.
<<
    x = 1
    if f():
        while True:
            x = g()      # int | None
            if x is None:
                break
    reveal_type(x)       # shown: int
>> *)
Theorem C56_break_refuted :
  misleading int_or_none []
    (x <- int ;; iff call (SWhile _ _ (CCall _ _ [] obj) (x <- int_or_none ;; iff (is_none x) (SBreak _ _)) skip) ;; reveal 1 x).
Proof.
  eapply misleading_run with (s := all (VInt true)); [simple_store| |].
  - eapply do_seq; [assigns (VInt true)|]. eapply do_seq. { eapply (do_if _ _ _ _ _ _ true); [apply call_is|].
    eapply r_while_break.
    + apply (h_call ty tst val Truthy _ has passes [] obj VObj); [constructor|reflexivity].
    + eapply do_seq; [assigns VNone|]. eapply (do_if _ _ _ _ _ _ true); [tested|]. apply r_break. } found.
  - vm_compute. reflexivity.
Qed.

(** (4) An exception may come before an assignment in a [try] block where more is known about the name than at the start of the block.
<<
    def f(x: int | str | None):
        try:
            if x is None:
                x = 1
                raise ValueError
            g()
        except Exception:
            reveal_type(x)   # shown: int | None
>> *)
Theorem C56_try_refuted :
  misleading int_str_none [0%N] (STry _ _ (iff (is_none x) (x <- int ;; SRaise _ _) ;; skip) [reveal 1 x] None skip).
Proof.
  eapply misleading_run with (s := all (VStr true)); [simple_store| |].
  - eapply do_try. eapply t_caught; [apply do_stop|left; reflexivity|found].
  - vm_compute. reflexivity.
Qed.

(** (5) What is assigned in a [try] block is forgotten after [else].
<<
    x = 1
    try:
        x = ""
    except Exception:
        return
    else:
        pass
    reveal_type(x)       # shown: int
>> *)
Theorem C56_try_else_refuted :
  misleading int_or_str [] (x <- int ;; STry _ _ (x <- str) [SReturn _ _] (Some skip) skip ;; reveal 1 x).
Proof.
  eapply misleading_run with (s := all (VInt true)); [simple_store| |].
  - eapply do_seq; [assigns (VInt true)|]. eapply do_seq. { eapply do_try.
    eapply t_else; [assigns (VStr true)|apply do_skip]. } found.
  - vm_compute. reflexivity.
Qed.

(** (6) A [finally] block is looked at as if the [try] block had come to its end.
<<
    try:
        x = ""
        g()
        x = 1
    finally:
        reveal_type(x)   # shown: int
>> *)
Theorem C56_finally_refuted : misleading int_or_str [] (STry _ _ (x <- str ;; skip ;; x <- int) [] None (reveal 1 x)).
Proof.
  eapply misleading_run with (s := all (VInt true)); [simple_store| |].
  - eapply r_try. { eapply t_out with (o := Raise); [discriminate|]. eapply do_seq; [assigns (VStr true)|]. apply do_stop. } found.
  - vm_compute. reflexivity.
Qed.

(** (7) An assignment in the left operand of [and] is forgotten where the condition does not hold.
<<
    x = C()
    if (x := g()) and f():   # C | None
        pass
    else:
        reveal_type(x)       # shown: C
>> *)
Theorem C56_walrus_and_refuted :
  misleading obj_or_none [] (x <- obj ;; SIf _ _ (CAnd _ _ (CWalrus _ _ x obj_or_none) call) skip false (reveal 1 x)).
Proof.
  eapply misleading_run with (s := all VObj); [simple_store| |].
  - eapply do_seq; [assigns VObj|]. eapply (do_if _ _ _ _ _ _ false). {
    apply h_and_left; [discriminate|]. apply (walrus_is _ x obj_or_none VNone); [simple_store|reflexivity|reflexivity]. } found.
  - vm_compute. reflexivity.
Qed.

(** (8) The value assigned in a condition that does not hold does not count as assigned.
<<
    x = C()
    if f():
        if x := g():         # C | None
            return
    reveal_type(x)           # shown: C
>> *)
Theorem C56_walrus_falsy_refuted :
  misleading obj_or_none [] (x <- obj ;; iff call (iff (CWalrus _ _ x obj_or_none) (SReturn _ _)) ;; reveal 1 x).
Proof.
  eapply misleading_run with (s := all VObj); [simple_store| |].
  - eapply do_seq; [assigns VObj|]. eapply do_seq. { eapply (do_if _ _ _ _ _ _ true); [apply call_is|].
    eapply (do_if _ _ _ _ _ _ false); [|apply do_skip]. apply (walrus_is _ x obj_or_none VNone); [simple_store|reflexivity|reflexivity]. } found.
  - vm_compute. reflexivity.
Qed.

(** (9) An assignment in an argument in the right operand of [or] is forgotten.
<<
    x = 1
    if f() or g(x := None):
        reveal_type(x)       # shown: int
>> *)
Theorem C56_walrus_or_refuted :
  misleading int_or_none [] (x <- int ;; iff (COr _ _ call (CCall _ _ [(x, none)] int_or_str)) (reveal 1 x)).
Proof.
  eapply misleading_run with (s := all (VInt true)); [simple_store| |].
  - eapply do_seq; [assigns (VInt true)|]. eapply (do_if _ _ _ _ _ _ true). {
    eapply h_or_right; [apply (call_is _ _ false)|].
    apply (h_call ty tst val Truthy _ has passes [(x, none)] int_or_str (VInt true)); [|reflexivity].
    eapply assigned_cons with (v := VNone); [reflexivity| |constructor]. apply updated_set; [simple_store|reflexivity]. } found.
  - vm_compute. reflexivity.
Qed.

(** (10) Assigning something of type [Any] in a branch is forgotten after it.
<<
    def f(x: int | str, a: Any):
        x = 1
        if g():
            x = a
        reveal_type(x)       # shown: int
>> *)
Theorem C56_any_refuted : misleading int_or_str [0%N] (x <- int ;; iff call (x <- TAny) ;; reveal 1 x).
Proof.
  eapply misleading_run with (s := all (VInt true)); [simple_store| |].
  - eapply do_seq; [assigns (VInt true)|]. eapply do_seq. { eapply (do_if _ _ _ _ _ _ true); [apply call_is|]. assigns (VStr true). } found.
  - vm_compute. reflexivity.
Qed.

(** (11) In a branch, assigning a name does not take back what was known of its attributes before.
<<
    x.a = 1
    if f():
        x = g()
        reveal_type(x.a)     # shown: int
>> *)
Theorem C56_attribute_refuted :
  misleading int_or_str [0%N] (Member x 0 <- int ;; iff call (x <- str ;; reveal 1 (Member x 0))).
Proof.
  eapply misleading_run with (s := all (VInt true)); [simple_store| |].
  - eapply do_seq; [assigns (VInt true)|]. eapply (do_if _ _ _ _ _ _ true); [apply call_is|].
    eapply do_seq.
    + apply r_assign with (v := VStr true)
        (st' := set (set (set (all (VInt true)) (Member x 0) (Some (VInt true))) (Member x 0) (Some (VStr true))) x (Some (VStr true))).
      * now constructor.
      * split; [reflexivity|]. split.
        -- intros k Hk Hb. unfold set. destruct (equals k x) eqn:E1; [apply equals_true in E1; contradiction|].
           destruct (equals k (Member x 0)) eqn:E2; [|reflexivity]. apply equals_true in E2. subst k. exfalso. apply Hb. constructor.
        -- apply simple_typed. simple_store.
    + found.
  - vm_compute. reflexivity.
Qed.

(** (12) Nor does assigning something of type [Any] anywhere.
<<
    def f(x: ..., a: Any):
        x.a = 1
        x = a
        reveal_type(x.a)     # shown: int
>> *)
Theorem C56_any_attribute_refuted : misleading int_or_str [0%N] (Member x 0 <- int ;; x <- TAny ;; reveal 1 (Member x 0)).
Proof.
  eapply misleading_run with (s := all (VInt true)); [simple_store| |].
  - eapply do_seq; [assigns (VInt true)|].
    eapply do_seq.
    + apply r_assign with (v := VStr true)
        (st' := set (set (set (all (VInt true)) (Member x 0) (Some (VInt true))) (Member x 0) (Some (VStr true))) x (Some (VStr true))).
      * now constructor.
      * split; [reflexivity|]. split.
        -- intros k Hk Hb. unfold set. destruct (equals k x) eqn:E1; [apply equals_true in E1; contradiction|].
           destruct (equals k (Member x 0)) eqn:E2; [|reflexivity]. apply equals_true in E2. subst k. exfalso. apply Hb. constructor.
        -- apply simple_typed. simple_store.
    + found.
  - vm_compute. reflexivity.
Qed.

(** (13) Deleting a name that was not assigned in the function, e.g. a global one, is taken for an assignment of nothing.
<<
    global x                 # int | str
    if f():
        del x
    if f():
        x = 1
    reveal_type(x)           # shown: int
>> *)
Theorem C56_del_refuted : misleading int_or_str [] (iff call (SDel _ _ x) ;; iff call (x <- int) ;; reveal 1 x).
Proof.
  eapply misleading_run with (s := all (VStr true)); [simple_store| |].
  - eapply do_seq; [eapply (do_if _ _ _ _ _ _ false); [apply call_is|apply do_skip]|].
    eapply do_seq; [eapply (do_if _ _ _ _ _ _ false); [apply call_is|apply do_skip]|]. found.
  - vm_compute. reflexivity.
Qed.

(** ** Functions for which it is right *)
Definition subtype (a b : ty) : bool :=
  match a, b with _, TAny => true | TAny, _ => false | TUnion l, TUnion m => forallb (fun x => mem x m) l end.

Lemma subtype_has : forall a b v, subtype a b = true -> has a v -> has b v.
Proof.
  intros [|l] [|m] v H1 H2; try reflexivity; try discriminate. unfold has in *. cbn [subtype hasb] in *. rewrite forallb_forall in H1.
  apply H1. unfold mem in H2. apply existsb_exists in H2 as [b [H2 E]]. now apply base_eqb_eq in E as ->.
Qed.

Definition accepted (t : ty) (params : list N) (body : stmt ty tst) : bool :=
  check ty tst TAny (TUnion []) is_never is_any is_any none_in (fun _ => true) no_none (fun t => t) join join meet split_type Truthy
    (fun _ => t) (fun _ => false) params subtype body (start ty params).

Lemma accepted_right : forall t params body, NoDup params -> accepted t params body = true -> ~ misleading t params body.
Proof.
  intros t params body Hn C [s [ev [o [s' [Hw [Hr H]]]]]]. apply H.
  exact (C56_checked_partial ty tst val TAny (TUnion []) is_never is_any is_any none_in (fun _ => true) no_none (fun t => t) join join meet split_type
    Truthy (fun _ => t) (fun _ => false) has passes C56_world subtype params body s ev o s' subtype_has Hn C Hw Hr).
Qed.

(**
<<
    def f(x: int | None):
        if x is None:
            x = 1
        reveal_type(x)           # int
        while g():
            x = 2
            if h():
                break
        reveal_type(x)           # int
        try:
            x = None
        except Exception:
            reveal_type(x)       # int | None
        if x is None or g():
            reveal_type(x)       # int | None
        else:
            reveal_type(x)       # int
            del x
            return
        reveal_type(x)           # int | None
>> *)
Definition good :=
  iff (is_none x) (x <- int) ;; reveal 1 x ;; SWhile _ _ call (x <- int ;; iff call (SBreak _ _)) skip ;; reveal 2 x ;;
  STry _ _ (x <- none) [reveal 3 x] None skip ;;
  SIf _ _ (COr _ _ (is_none x) call) (reveal 4 x) false (reveal 5 x ;; SDel _ _ x ;; SReturn _ _) ;; reveal 6 x.

Example good_right : ~ misleading int_or_none [0%N] good.
Proof. apply accepted_right; [repeat constructor; intros []|vm_compute; reflexivity]. Qed.

Example good_shown : analysis int_or_none [0%N] good =
  [(1%N, Revealed _ int); (2%N, Revealed _ int); (3%N, Revealed _ int_or_none); (4%N, Revealed _ (TUnion [BNone; BInt])); (5%N, Revealed _ int);
   (6%N, Revealed _ (TUnion [BNone; BInt]))].
Proof. vm_compute. reflexivity. Qed.

(** An execution of it: the loop is left at once, the assignment in the [try] block fails *)
Example good_runs : exists s', execution int_or_none good (all VNone) [(1%N, VInt true); (2%N, VInt true); (3%N, VInt true); (5%N, VInt true)] Return s'.
Proof.
  eexists. unfold good.
  eapply (do_seq _ _ _ _ []). { eapply (do_if _ _ _ _ _ _ true); [tested|assigns (VInt true)]. }
  eapply (do_seq _ _ _ _ [(1%N, VInt true)]); [found|].
  eapply (do_seq _ _ _ _ []). { eapply r_while_end; [apply (call_is _ _ false)|apply do_skip]. }
  eapply (do_seq _ _ _ _ [(2%N, VInt true)]); [found|].
  eapply (do_seq _ _ _ _ [(3%N, VInt true)]). { eapply (do_try _ _ _ _ _ [(3%N, VInt true)]).
    eapply (t_caught _ _ _ _ _ _ _ _ _ _ _ _ []); [apply do_stop|left; reflexivity|found]. }
  eapply (r_seq_out _ _ _ _ _ _ _ _ _ _ [(5%N, VInt true)]); [discriminate|].
  eapply (do_if _ _ _ _ _ _ false). { eapply h_or_right; [tested|apply call_is]. }
  eapply (do_seq _ _ _ _ [(5%N, VInt true)]); [found|]. eapply (do_seq _ _ _ _ []); [|apply r_return].
  eapply r_del; [discriminate|]. apply updated_set; [simple_store|reflexivity].
Qed.

(** Code without loops and [try]:
<<
    def f(x: int | None, y: int | None):
        if x is not None and y is not None:
            x = y
        elif y is None:
            return
        assert x is not None
        reveal_type(x)           # int
>> *)
Definition branches :=
  SIf _ _ (CAnd _ _ (CNot _ _ (is_none x)) (CNot _ _ (is_none y))) (SAssign _ _ x (Read _ y)) true (iff (is_none y) (SReturn _ _)) ;;
  SAssert _ _ (CNot _ _ (is_none x)) ;; reveal 1 x.

Example branches_right : analysis int_or_none [0%N; 1%N] branches = [(1%N, Revealed _ int)] /\ ~ misleading int_or_none [0%N; 1%N] branches.
Proof.
  split; [vm_compute; reflexivity|]. intros [s [ev [o [s' [Hw [Hr H]]]]]]. apply H.
  apply (C56_branches ty tst val TAny (TUnion []) is_never is_any is_any none_in (fun _ => true) no_none (fun t => t) join join meet split_type
    Truthy (fun _ => int_or_none) (fun _ => false) has passes C56_world [0%N; 1%N] branches s ev o s'); [| |exact Hw|exact Hr].
  - repeat constructor; cbn [In]; intuition discriminate.
  - unfold branches. cbn [branching names_only]. unfold name, keeps, removing. cbn [none_in int_or_none mem existsb base_eqb negb orb].
    repeat (split || (intros; rewrite andb_false_r; reflexivity) || (now exists 0%N) || (now exists 1%N) || exact Logic.I).
Qed.

(** Attributes, where nothing is assigned in branches:
<<
    def f(x):
        x.a = 1
        x = g()
        reveal_type(x.a)         # int | None, as declared
>> *)
Definition attributes := Member x 0 <- int ;; reveal 1 (Member x 0) ;; x <- none ;; reveal 2 (Member x 0).

Example attributes_right : analysis int_or_none [0%N] attributes = [(1%N, Revealed _ int); (2%N, Revealed _ int_or_none)] /\
  ~ misleading int_or_none [0%N] attributes.
Proof.
  split; [vm_compute; reflexivity|]. intros [s [ev [o [s' [Hw [Hr H]]]]]]. apply H.
  apply (C56_sound_partial ty tst val TAny (TUnion []) is_never is_any is_any none_in (fun _ => true) no_none (fun t => t) join join meet split_type
    Truthy (fun _ => int_or_none) (fun _ => false) has passes C56_world (fun _ => True) [0%N] attributes s ev o s'); [| | |exact Hw|exact Hr].
  - repeat constructor. intros [].
  - intros n _. exact Logic.I.
  - unfold attributes. cbn [tame]. unfold tame_block, tame_assign.
    assert (F : forall k t, removing ty is_any is_any none_in (fun _ => true) (fun t => t) (fun _ => int_or_none) (fun _ => false) k t = false).
    { intros k t. unfold removing. cbn [orb none_in int_or_none mem existsb base_eqb negb]. apply andb_false_r. }
    split; [intros _; split; [exact Logic.I|]; split; [right; split; reflexivity|rewrite F; discriminate]|]. intros _.
    split; [intros _; exact Logic.I|]. intros _.
    split; [intros _; split; [exact Logic.I|]; split; [right; vm_compute; split; reflexivity|rewrite F; discriminate]|]. intros _. exact Logic.I.
Qed.

Print Assumptions C56_sound_partial.
Print Assumptions C56_checked_partial.
Print Assumptions C56_branches.
Print Assumptions C56_world.
Print Assumptions C56_loop_body_refuted.
Print Assumptions C56_after_loop_refuted.
Print Assumptions C56_break_refuted.
Print Assumptions C56_try_refuted.
Print Assumptions C56_try_else_refuted.
Print Assumptions C56_finally_refuted.
Print Assumptions C56_walrus_and_refuted.
Print Assumptions C56_walrus_falsy_refuted.
Print Assumptions C56_walrus_or_refuted.
Print Assumptions C56_any_refuted.
Print Assumptions C56_attribute_refuted.
Print Assumptions C56_any_attribute_refuted.
Print Assumptions C56_del_refuted.
