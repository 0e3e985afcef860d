(** The conditions of FlowTame.v as a test, for functions in which only names are tracked. *)
From Coq Require Import List NArith ZArith Bool Arith.
From Verif Require Import FlowModel FlowSpec FlowTame FlowProofs.
Import ListNotations.

Section Check.
Variables (type test value : Type).
Variables (error never : type) (is_never is_any any_in none_in could_be_a_literal : type -> bool).
Variables (remove_none avoid_implicit_literal : type -> type) (union simplified_union : type -> type -> type)
          (common_sub_type : type -> type -> option type).
Variables (split : test -> type -> option (type * type)) (truthiness : test).
Variables (declared : key -> type) (explicit_any : key -> bool).
Variables (has : type -> value -> Prop) (params : list N).
(** A test that is enough for a type to have all the values of the other one *)
Variable (subtype : type -> type -> bool).
Hypothesis subtype_has : forall a b v, subtype a b = true -> has a v -> has b v.

Definition name (k : key) : Prop := exists n, k = Name n.

Notation entry := (entry type).
Notation frame := (frame type).
Notation state := (state type).
Notation stmt := (stmt type test).
Notation cond := (cond type test).
Notation allows := (allows type value declared has name).
Notation fits := (fits type value declared has).
Notation within := (within type value has).
Notation removing := (removing type is_any any_in none_in could_be_a_literal avoid_implicit_literal declared explicit_any).
Notation assign := (assign type is_any any_in none_in could_be_a_literal remove_none avoid_implicit_literal union simplified_union declared explicit_any).
Notation guards := (guards type test error never is_never is_any any_in none_in could_be_a_literal remove_none avoid_implicit_literal union
                      simplified_union common_sub_type split truthiness declared explicit_any).
Notation analyse := (analyse type test error never is_never is_any any_in none_in could_be_a_literal remove_none avoid_implicit_literal union
                       simplified_union common_sub_type split truthiness declared explicit_any).
Notation tame := (tame type test value error never is_never is_any any_in none_in could_be_a_literal remove_none avoid_implicit_literal union
                    simplified_union common_sub_type split truthiness declared explicit_any has name params).
Notation tame_cond := (tame_cond type test value error never is_never is_any any_in none_in could_be_a_literal remove_none avoid_implicit_literal union
                    simplified_union common_sub_type split truthiness declared explicit_any has name params).
Notation tame_assign := (tame_assign type is_any any_in none_in could_be_a_literal remove_none avoid_implicit_literal union simplified_union declared
                    explicit_any name params).
Notation tame_walruses := (tame_walruses type is_any any_in none_in could_be_a_literal remove_none avoid_implicit_literal union simplified_union declared
                    explicit_any name params).

Definition is_name (k : key) : bool := match k with Name _ => true | _ => false end.

Definition type_in (e : entry) : type := match e_kind _ e with Of _ t => t | Declaration _ => declared (e_key _ e) end.

(** All values of the type are possible for the key *)
Fixpoint allowing (fs : list frame) (k : key) (t : type) : bool :=
  match fs with
  | [] => true
  | f :: fs =>
      match find_entry _ k (f_entries _ f) with
      | None => allowing fs k t
      | Some e => negb (e_deleted _ e) && match e_kind _ e with Declaration _ => true | Of _ t' => subtype t t' end && (e_modifies _ e || allowing fs k t)
      end
  end.

Definition check_stable (fs : list frame) (f : frame) : bool :=
  forallb (fun e => negb (e_modifies _ e) || (is_name (e_key _ e) && (e_deleted _ e || allowing fs (e_key _ e) (type_in e)))) (f_entries _ f).

Definition check_covers (fs : list frame) (es : list entry) : bool :=
  forallb
    (fun e =>
       match lookup _ fs (e_key _ e) with
       | Some e' => e_deleted _ e' || (negb (e_deleted _ e) && match e_kind _ e with Declaration _ => true | Of _ t => subtype (type_in e') t end)
       | None => negb (e_deleted _ e) && match e_kind _ e with Declaration _ => true | Of _ t => subtype (declared (e_key _ e)) t end
       end) es.

Definition check_flat (fs : list frame) : bool :=
  forallb
    (fun f =>
       forallb
         (fun e => negb (e_modifies _ e) || match lookup _ fs (e_key _ e) with Some e' => e_modifies _ e' | None => true end)
         (f_entries _ f)) fs.

Definition check_jump (st : state) : bool :=
  match loop _ st with None => false | Some l => check_flat (firstn (length (frames _ st) - l_index _ l) (frames _ st)) end.

Definition check_outermost (st : state) : bool := Nat.eqb (length (frames _ st)) 1 && match tries _ st with [] => true | _ => false end.

Definition is_param (k : key) : bool := match k with Name n => existsb (N.eqb n) params | _ => false end.

Definition check_assign (k : key) (t : type) (st : state) : bool :=
  is_name k &&
  (negb (removing k t) ||
   (check_outermost st && negb (is_param k) && match lookup _ (frames _ (assign k t st)) k with None => true | Some _ => false end)).

Fixpoint check_walruses (ws : list (key * type)) (st : state) : bool :=
  match ws with [] => true | (k, t) :: ws => check_assign k t st && check_walruses ws (assign k t st) end.

Fixpoint check_plain (c : cond) : bool :=
  match c with
  | CTest _ _ _ _ => true
  | CCall _ _ ws _ => match ws with [] => true | _ => false end
  | CWalrus _ _ _ _ => false
  | CNot _ _ c => check_plain c
  | CAnd _ _ a b | COr _ _ a b => check_plain a && check_plain b
  end.

Fixpoint check_cond (calls : bool) (c : cond) (st : state) : bool :=
  match c with
  | CTest _ _ _ k => is_name k
  | CCall _ _ ws _ => (calls || match ws with [] => true | _ => false end) && check_walruses ws st
  | CWalrus _ _ k t =>
      is_name k && negb (removing k t) && (match split truthiness t with None => true | Some _ => false end || allowing (frames _ st) k t)
  | CNot _ _ c => check_cond calls c st
  | CAnd _ _ a b =>
      check_plain a && check_cond false a st && (let '(lt, _, st) := guards a st in f_unreachable _ lt || check_cond false b (push _ lt st))
  | COr _ _ a b =>
      check_plain a && check_cond false a st && (let '(_, lf, st) := guards a st in f_unreachable _ lf || check_cond false b (push _ lf st))
  end.

Definition check_block (check : state -> bool) (st : state) : bool := is_unreachable _ st || check st.
Definition check_end (fs : list frame) (f : frame) : bool := f_unreachable _ f || check_stable fs f.

Definition is_skip (s : stmt) : bool := match s with SSkip _ _ => true | _ => false end.

Fixpoint check (s : stmt) (st : state) : bool :=
  match s with
  | SSkip _ _ | SReveal _ _ _ _ | SReturn _ _ | SRaise _ _ => true
  | SAssign _ _ k s => check_assign k (source_type type error declared s st) st
  | SDel _ _ k => is_param k
  | SSeq _ _ a b => check_block (check a) st && check_block (check b) (block _ (analyse a) st)
  | SIf _ _ c a elif b =>
      check_cond true c st &&
      let '(t, f, st) := guards c st in
      check_block (check a) (push _ t st) &&
      let st := snd (pop _ (block _ (analyse a) (push _ t st))) in
      (if elif then check b else check_block (check b)) (push _ f st)
  | SWhile _ _ c body orelse =>
      check_cond false c st &&
      let '(t, f, st) := guards c st in
      check_block (check body) (enter_loop _ t st) &&
      let '(after, l, st) := leave_loop _ (loop _ st) (block _ (analyse body) (enter_loop _ t st)) in
      check_end (frames _ st) after && forallb (check_stable (frames _ st)) (l_continues _ l) &&
      check_block (check orelse) (push _ (loop_exit type never simplified_union common_sub_type true f after l st) st)
  | SFor _ _ k t body orelse =>
      is_name k && negb (removing k t) &&
      check_block (check body) (assign k t (enter_loop _ (new_conditional _) st)) &&
      let '(after, l, st) := leave_loop _ (loop _ st) (block _ (analyse body) (assign k t (enter_loop _ (new_conditional _) st))) in
      check_end (frames _ st) after && forallb (check_stable (frames _ st)) (l_continues _ l) &&
      check_block (check orelse) (push _ (loop_exit type never simplified_union common_sub_type false (new_conditional _) after l st) st)
  | SBreak _ _ | SContinue _ _ => check_jump st
  | SAssert _ _ c => check_cond true c st
  | STry _ _ body handlers orelse finally =>
      is_skip finally &&
      check_block (check body) (push _ (new_conditional _) (enter_try _ st)) &&
      let '(try_frame, st) := pop _ (block _ (analyse body) (push _ (new_conditional _) (enter_try _ st))) in
      let '(caught, st) := leave_try _ st in
      check_covers (frames _ st) caught &&
      let '(handled, st) :=
        fold_left
          (fun acc h =>
             let '(p, st) := acc in
             (p && check_block (check h) (push _ (Frame _ caught false) st),
              snd (pop _ (block _ (analyse h) (push _ (Frame _ caught false) st)))))
          handlers (true, st) in
      handled &&
      match orelse with
      | None => true
      | Some orelse =>
          check_end (frames _ st) try_frame &&
          check_block (check orelse) (push _ (if f_unreachable _ try_frame then new_unreachable _ else new_conditional _) (push _ try_frame st))
      end
  | SWith _ _ body =>
      check_block (check body) (push _ (new_conditional _) (enter_try _ st)) &&
      let '(_, st) := pop _ (block _ (analyse body) (push _ (new_conditional _) (enter_try _ st))) in
      let '(caught, st) := leave_try _ st in
      check_covers (frames _ st) caught
  end.

(** * What passes the test is as asked for *)
Lemma is_name_name : forall k, is_name k = true -> name k.
Proof. intros [n|k n|k i] H; try discriminate. now exists n. Qed.

Lemma name_isolated : forall k, name k -> isolated name k.
Proof. intros k [n ->] k' [m ->]. split; intros H; inversion H. Qed.

Lemma check_isolated : forall k, is_name k = true -> isolated name k.
Proof. intros k H. now apply name_isolated, is_name_name. Qed.

Lemma fits_none : forall e, fits e None.
Proof. intros e. unfold FlowTame.fits. destruct (e_deleted _ e); [reflexivity|]. intros w E. discriminate. Qed.

Lemma allows_none : forall fs k, allows fs k None.
Proof.
  induction fs as [|f fs IH]; intros k; cbn [FlowTame.allows]; [intros w E; discriminate|].
  destruct (find_entry _ k (f_entries _ f)) as [e|]; [|apply IH]. split; [apply fits_none|right; apply IH].
Qed.

Lemma find_entry_key : forall k es e, find_entry type k es = Some e -> e_key _ e = k.
Proof. intros k es e H. unfold find_entry in H. apply find_some in H as [_ H]. now apply equals_eq. Qed.

Lemma allowing_allows : forall fs k t v, is_name k = true -> within (declared k) (Some v) -> has t v -> allowing fs k t = true -> allows fs k (Some v).
Proof.
  induction fs as [|f fs IH]; intros k t v N W H A; cbn [allowing FlowTame.allows] in *; [exact W|].
  destruct (find_entry _ k (f_entries _ f)) as [e|] eqn:F; [|now apply (IH k t)].
  apply andb_prop in A as [A A3]. apply andb_prop in A as [A1 A2]. apply negb_true_iff in A1. split.
  - unfold FlowTame.fits. rewrite A1. destruct (e_kind _ e) as [t'|].
    + intros w E. injection E as <-. now apply (subtype_has t).
    + rewrite (find_entry_key _ _ _ F). exact W.
  - apply orb_prop in A3 as [A3|A3]; [left|right; now apply (IH k t)]. split; [exact A3|now apply check_isolated].
Qed.

Lemma check_stable_ok : forall fs f, check_stable fs f = true -> stable _ _ declared has name fs f.
Proof.
  intros fs f H e Hi M v W Hf. unfold check_stable in H. rewrite forallb_forall in H. specialize (H e Hi). rewrite M in H. cbn [negb orb] in H.
  apply andb_prop in H as [N H]. destruct v as [v|]; [|apply allows_none].
  unfold FlowTame.fits in Hf. destruct (e_deleted _ e); [discriminate|]. cbn [orb] in H.
  apply (allowing_allows fs _ (type_in e)); [exact N|exact W|now apply Hf|exact H].
Qed.

Lemma check_covers_ok : forall fs es, check_covers fs es = true -> covers _ _ declared has name fs es.
Proof.
  intros fs es H e Hi v W A. unfold check_covers in H. rewrite forallb_forall in H. specialize (H e Hi).
  destruct v as [v|]; [|apply fits_none].
  destruct (lookup _ fs (e_key _ e)) as [e'|] eqn:L.
  - destruct (allows_lookup _ _ declared has name _ _ _ _ A L) as [Af _]. clear A. rename Af into A. unfold FlowTame.fits in *. destruct (e_deleted _ e'); [discriminate|]. cbn [orb] in H. apply andb_prop in H as [H1 H2].
    apply negb_true_iff in H1. rewrite H1. destruct (e_kind _ e) as [t|]; [|exact W]. intros w E. injection E as <-.
    apply (subtype_has (type_in e')); [exact H2|now apply A].
  - apply andb_prop in H as [H1 H2]. apply negb_true_iff in H1. unfold FlowTame.fits. rewrite H1. destruct (e_kind _ e) as [t|]; [|exact W].
    intros w E. injection E as <-. apply (subtype_has (declared (e_key _ e))); [exact H2|now apply W].
Qed.

Lemma check_flat_ok : forall fs, check_flat fs = true -> flat _ fs.
Proof.
  intros fs H k e L M f e' Hf He Hk. unfold check_flat in H. rewrite forallb_forall in H. specialize (H f Hf). rewrite forallb_forall in H.
  specialize (H e' He). rewrite Hk, L, M in H. destruct (e_modifies _ e'); [discriminate|reflexivity].
Qed.

Lemma check_outermost_ok : forall st, check_outermost st = true -> outermost _ st.
Proof.
  intros st H. apply andb_prop in H as [H1 H2]. apply Nat.eqb_eq in H1. split; [exact H1|]. destruct (tries _ st); [reflexivity|discriminate].
Qed.

Lemma is_param_ok : forall k, is_param k = true -> exists n, In n params /\ k = Name n.
Proof.
  intros [n|k n|k i] H; try discriminate. cbn [is_param] in H. apply existsb_exists in H as [m [H1 H2]]. apply N.eqb_eq in H2 as ->. now exists m.
Qed.

Lemma is_param_no : forall k, is_param k = false -> ~ exists n, In n params /\ k = Name n.
Proof.
  intros k H [n [H1 ->]]. cbn [is_param] in H. assert (E : existsb (N.eqb n) params = true) by (apply existsb_exists; exists n; split; [exact H1|apply N.eqb_refl]).
  congruence.
Qed.

Lemma check_assign_ok : forall k t st, check_assign k t st = true -> tame_assign k t st.
Proof.
  intros k t st H. apply andb_prop in H as [H1 H2]. split; [now apply is_name_name|]. split; [left; now apply check_isolated|].
  intros R. rewrite R in H2. cbn [negb orb] in H2. apply andb_prop in H2 as [H2 H4]. apply andb_prop in H2 as [H2 H3].
  split; [now apply check_outermost_ok|]. split; [now apply check_isolated|]. split; [apply is_param_no; now apply negb_true_iff in H3|].
  destruct (lookup _ _ k); [discriminate|reflexivity].
Qed.

Lemma check_walruses_ok : forall ws st, check_walruses ws st = true -> tame_walruses ws st.
Proof.
  induction ws as [|[k t] ws IH]; intros st H; cbn [check_walruses FlowTame.tame_walruses] in *; [exact Logic.I|].
  apply andb_prop in H as [H1 H2]. split; [now apply check_assign_ok|now apply IH].
Qed.

Lemma check_plain_ok : forall c, check_plain c = true -> plain type test c.
Proof.
  induction c as [g k|ws t|k t|c IH|a IHa b IHb|a IHa b IHb]; intros H; cbn [check_plain plain] in *.
  - exact Logic.I.
  - destruct ws; [reflexivity|discriminate].
  - discriminate.
  - now apply IH.
  - apply andb_prop in H as [H1 H2]. split; [now apply IHa|now apply IHb].
  - apply andb_prop in H as [H1 H2]. split; [now apply IHa|now apply IHb].
Qed.

Lemma check_cond_ok : forall c calls st, check_cond calls c st = true -> tame_cond calls c st.
Proof.
  induction c as [g k|ws t|k t|c IH|a IHa b IHb|a IHa b IHb]; intros calls st H; cbn [check_cond FlowTame.tame_cond] in *.
  - now apply is_name_name.
  - apply andb_prop in H as [H1 H2]. split; [|now apply check_walruses_ok]. apply orb_prop in H1 as [H1|H1]; [now left|right]. destruct ws; [reflexivity|discriminate].
  - apply andb_prop in H as [H H3]. apply andb_prop in H as [H1 H2]. split; [now apply is_name_name|]. split; [now apply check_isolated|].
    split; [now apply negb_true_iff in H2|]. apply orb_prop in H3 as [H3|H3].
    + left. destruct (split truthiness t); [discriminate|reflexivity].
    + right. intros v Hv Hd. apply (allowing_allows _ k t); [exact H1| |exact Hv|exact H3]. intros w E. now injection E as <-.
  - now apply IH.
  - apply andb_prop in H as [H H3]. apply andb_prop in H as [H1 H2]. split; [now apply check_plain_ok|]. split; [now apply IHa|].
    destruct (guards a st) as [[lt lf] st1]. intros U. rewrite U in H3. now apply IHb.
  - apply andb_prop in H as [H H3]. apply andb_prop in H as [H1 H2]. split; [now apply check_plain_ok|]. split; [now apply IHa|].
    destruct (guards a st) as [[lt lf] st1]. intros U. rewrite U in H3. now apply IHb.
Qed.

Definition checked (s : stmt) : Prop := forall st, check s st = true -> tame s st.

Lemma check_block_ok : forall s st, checked s -> check_block (check s) st = true -> tame_block _ (tame s) st.
Proof. intros s st C H U. unfold check_block in H. rewrite U in H. now apply C. Qed.

Lemma check_end_ok : forall fs f, check_end fs f = true -> reachable_stable _ _ declared has name fs f.
Proof. intros fs f H U. unfold check_end in H. rewrite U in H. now apply check_stable_ok. Qed.

Lemma check_continues_ok : forall fs l, forallb (check_stable fs) l = true -> Forall (stable _ _ declared has name fs) l.
Proof. intros fs l H. rewrite forallb_forall in H. rewrite Forall_forall. intros f Hf. now apply check_stable_ok, H. Qed.

Lemma check_handlers_ok : forall caught hs, Forall checked hs -> forall b (p : Prop) st, (b = true -> p) ->
  let '(handled, st1) := fold_left (fun acc h => let '(p, st) := acc in
     (p && check_block (check h) (push _ (Frame _ caught false) st), snd (pop _ (block _ (analyse h) (push _ (Frame _ caught false) st))))) hs (b, st) in
  let '(q, st2) := fold_left (fun acc h => let '(p, st) := acc in
     (p /\ tame_block _ (tame h) (push _ (Frame _ caught false) st), snd (pop _ (block _ (analyse h) (push _ (Frame _ caught false) st))))) hs (p, st) in
  st1 = st2 /\ (handled = true -> q).
Proof.
  intros caught hs F. induction F as [|h hs C F IH]; intros b p st H; cbn [fold_left].
  - now split.
  - apply IH. intros E. apply andb_prop in E as [E1 E2]. split; [now apply H|now apply check_block_ok].
Qed.

Theorem check_tame : forall s, checked s.
Proof.
  apply stmt_induction.
  - intros st H. exact Logic.I.
  - intros l k st H. exact Logic.I.
  - intros k e st H. now apply check_assign_ok.
  - intros k st H. cbn [check FlowTame.tame] in *. pose proof (is_param_ok k H) as P. split; [exact P|].
    destruct P as [n [_ ->]]. split; [now exists n|left; now apply check_isolated].
  - intros a b Ca Cb st H. cbn [check FlowTame.tame] in *. apply andb_prop in H as [H1 H2]. split; now apply check_block_ok.
  - intros c a elif b Ca Cb st H. cbn [check FlowTame.tame] in *. apply andb_prop in H as [H1 H2]. split; [now apply check_cond_ok|].
    destruct (guards c st) as [[t f] st1]. apply andb_prop in H2 as [H2 H3]. split; [now apply check_block_ok|]. cbv zeta in *.
    destruct elif; [now apply Cb|now apply check_block_ok].
  - intros c body orelse Cb Co st H. cbn [check FlowTame.tame] in *. apply andb_prop in H as [H1 H2]. split; [now apply check_cond_ok|].
    destruct (guards c st) as [[t f] st1]. apply andb_prop in H2 as [H2 H3]. split; [now apply check_block_ok|].
    destruct (leave_loop _ _ _) as [[a l] st3]. apply andb_prop in H3 as [H3 H5]. apply andb_prop in H3 as [H3 H4].
    split; [now apply check_end_ok|]. split; [now apply check_continues_ok|now apply check_block_ok].
  - intros k t body orelse Cb Co st H. cbn [check FlowTame.tame] in *. apply andb_prop in H as [H H3]. apply andb_prop in H as [H H2]. apply andb_prop in H as [H0 H1].
    split; [now apply is_name_name|]. split; [now apply check_isolated|]. split; [now apply negb_true_iff in H1|]. split; [now apply check_block_ok|].
    destruct (leave_loop _ _ _) as [[a l] st3]. apply andb_prop in H3 as [H3 H5]. apply andb_prop in H3 as [H3 H4].
    split; [now apply check_end_ok|]. split; [now apply check_continues_ok|now apply check_block_ok].
  - intros st H. cbn [check FlowTame.tame] in *. unfold check_jump in H. unfold tame_jump. destruct (loop _ st); [now apply check_flat_ok|discriminate].
  - intros st H. cbn [check FlowTame.tame] in *. unfold check_jump in H. unfold tame_jump. destruct (loop _ st); [now apply check_flat_ok|discriminate].
  - intros st H. exact Logic.I.
  - intros st H. exact Logic.I.
  - intros c st H. now apply check_cond_ok.
  - intros body hs orelse finally Cb Ch Co _ st H. cbn [check FlowTame.tame] in *. apply andb_prop in H as [H H2]. apply andb_prop in H as [H0 H1].
    split; [destruct finally; (reflexivity || discriminate)|]. split; [now apply check_block_ok|].
    destruct (pop _ _) as [tf st1]. destruct (leave_try _ st1) as [caught st2]. apply andb_prop in H2 as [H2 H3]. split; [now apply check_covers_ok|].
    pose proof (check_handlers_ok caught hs Ch true True st2 (fun _ => Logic.I)) as Hh.
    match type of Hh with context [fold_left ?f hs (true, st2)] => destruct (fold_left f hs (true, st2)) as [handled st3] eqn:Ef end.
    match type of Hh with context [fold_left ?f hs (True, st2)] => destruct (fold_left f hs (True, st2)) as [q st4] end.
    destruct Hh as [<- Hq]. apply andb_prop in H3 as [H3 H4]. split; [now apply Hq|].
    destruct orelse as [b|]; [|exact Logic.I]. apply andb_prop in H4 as [H4 H5]. split; [now apply check_end_ok|now apply check_block_ok].
  - intros body Cb st H. cbn [check FlowTame.tame] in *. apply andb_prop in H as [H1 H2]. split; [now apply check_block_ok|].
    destruct (pop _ _) as [tf st1]. destruct (leave_try _ st1) as [caught st2]. now apply check_covers_ok.
Qed.
End Check.
