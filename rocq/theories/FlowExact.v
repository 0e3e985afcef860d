(** Flow analysis is not only right: in functions with branches where conditions are about one name, every value of the type shown for that name
    is found there by some execution. *)
From Coq Require Import List NArith ZArith Bool Lia FinFun.
From Verif Require Import FlowModel FlowSpec FlowTame FlowProofs FlowCheck.
Import ListNotations.

Section Exact.
Variables (type test value : Type).
Variables (error never : type) (is_never is_any any_in none_in could_be_a_literal : type -> bool).
Variables (remove_none avoid_implicit_literal : type -> type) (union simplified_union : type -> type -> type)
          (common_sub_type : type -> type -> option type).
Variables (split : test -> type -> option (type * type)) (truthiness : test).
Variables (declared : key -> type) (explicit_any : key -> bool).
Variables (has : type -> value -> Prop) (passes : test -> value -> bool).
(** The name that is looked at *)
Variable (n : N).
Notation x := (Name n).

(** Operations on types lose nothing and add nothing *)
Hypothesis union_exact : forall a b v, has (simplified_union a b) v <-> has a v \/ has b v.
Hypothesis common_exact : forall a b t v, common_sub_type a b = Some t -> (has t v <-> has a v /\ has b v).
Hypothesis common_none : forall a b v, common_sub_type a b = None -> has a v -> ~ has b v.
Hypothesis never_has : forall t v, is_never t = true -> ~ has t v.
Hypothesis has_some : forall t, is_never t = false -> exists v, has t v.
(** Types that tests divide; [Any] is not among them *)
Variable (regular : type -> Prop).
Hypothesis regular_union : forall a b, regular a -> regular b -> regular (simplified_union a b).
Hypothesis regular_common : forall a b t, regular a -> regular b -> common_sub_type a b = Some t -> regular t.

(** A test that divides the values of each such type *)
Definition sharp (g : test) : Prop :=
  forall t, regular t -> exists a b, split g t = Some (a, b) /\ regular a /\ regular b /\
    forall v, (has a v <-> has t v /\ passes g v = true) /\ (has b v <-> has t v /\ passes g v = false).

(** A call whose result may be true or false *)
Definition open (t : type) : Prop := split truthiness t = None /\ forall b, exists v, has t v /\ passes truthiness v = b.

(** Conditions about the name, and such that nothing is known about *)
Fixpoint about (c : cond type test) : Prop :=
  match c with
  | CTest _ _ g k => k = x /\ sharp g
  | CCall _ _ ws t => ws = [] /\ open t
  | CWalrus _ _ _ _ => False
  | CNot _ _ c => about c
  | CAnd _ _ a b | COr _ _ a b => about a /\ about b
  end.

(** What is saved when something of a type is assigned has values, only of that type, and they fit the declaration *)
Definition saved_type (k : key) (t : type) : type := if could_be_a_literal (declared k) then t else avoid_implicit_literal t.
Definition assignable (k : key) (t : type) : Prop :=
  name k /\ explicit_any k = false /\ is_any (saved_type k t) = false /\ regular (saved_type k t) /\
  (forall v, has (saved_type k t) v -> has t v /\ has (declared k) v) /\ exists v, has (saved_type k t) v.

(** Statements that come to their end whatever the conditions are *)
Fixpoint ending (s : stmt type test) : Prop :=
  match s with
  | SSkip _ _ => True
  | SReveal _ _ _ k => k = x
  | SAssign _ _ k (Value _ t) => assignable k t
  | SSeq _ _ a b => ending a /\ ending b
  | SIf _ _ c a _ b => about c /\ ending a /\ ending b
  | _ => False
  end.

(** Statements that end in [return] or [raise] *)
Fixpoint leaving (s : stmt type test) : Prop :=
  match s with
  | SReturn _ _ | SRaise _ _ => True
  | SSeq _ _ a b => ending a /\ leaving b
  | _ => False
  end.

(** Outside of branches, a branch may leave the function, and there may be assertions *)
Fixpoint guarded (s : stmt type test) : Prop :=
  match s with
  | SSkip _ _ | SReturn _ _ | SRaise _ _ => True
  | SReveal _ _ _ k => k = x
  | SAssign _ _ k (Value _ t) => assignable k t
  | SSeq _ _ a b => guarded a /\ guarded b
  | SIf _ _ c a _ b => about c /\ (ending a \/ leaving a) /\ (ending b \/ leaving b)
  | SAssert _ _ c => about c
  | _ => False
  end.

Notation entry := (entry type).
Notation frame := (frame type).
Notation state := (state type).
Notation stmt := (stmt type test).
Notation cond := (cond type test).
Notation lookup := (lookup type).
Notation find_entry := (find_entry type).
Notation union_of_refs := (union_of_refs type simplified_union).
Notation merge_with_ancestor := (merge_with_ancestor type simplified_union).
Notation overwrite_entry := (overwrite_entry type simplified_union).
Notation merge_assignments := (merge_assignments type simplified_union).
Notation merge_conditional := (merge_conditional type simplified_union).
Notation merge_or := (merge_or type simplified_union).
Notation merge_and := (merge_and type never common_sub_type).
Notation is_unreachable := (is_unreachable type).
Notation unreachable := (f_unreachable type).
Notation new_conditional := (new_conditional type).
Notation joined := (joined type simplified_union).
Notation assign := (assign type is_any any_in none_in could_be_a_literal remove_none avoid_implicit_literal union simplified_union declared explicit_any).
Notation guards := (guards type test error never is_never is_any any_in none_in could_be_a_literal remove_none avoid_implicit_literal union
                      simplified_union common_sub_type split truthiness declared explicit_any).
Notation analyse := (analyse type test error never is_never is_any any_in none_in could_be_a_literal remove_none avoid_implicit_literal union
                       simplified_union common_sub_type split truthiness declared explicit_any).
Notation entry_ok := (entry_ok type name []).
Notation entries_ok := (entries_ok type name []).
Notation stack_ok := (stack_ok type name []).
Notation sound_state := (sound_state type name []).
Notation runs := (runs type test value truthiness declared has passes).
Notation holds := (holds type test value truthiness declared has passes).
Notation store := (store value).
Notation well_typed := (well_typed type value declared has).
Notation updated := (updated type value declared has).

Lemma union_has : forall a b v, has a v \/ has b v -> has (simplified_union a b) v.
Proof. intros a b v H. now apply union_exact. Qed.

(** * What is known about the name *)
Definition kind_of (e : entry) : type := match e_kind _ e with Of _ t => t | Declaration _ => declared x end.
Definition seen (fs : list frame) : type := match lookup fs x with Some e => kind_of e | None => declared x end.
Definition sees (fs : list frame) (v : value) : Prop := has (declared x) v /\ has (seen fs) v.
Definition at_name (f : frame) : option entry := find_entry x (f_entries _ f).
Definition changes (f : frame) : bool := match at_name f with Some e => e_modifies _ e | None => false end.

Lemma not_deleted : forall e, entry_ok e -> e_deleted _ e = false.
Proof. intros e [_ H]. destruct (e_deleted _ e); [|reflexivity]. destruct (H eq_refl) as [m [[] _]]. Qed.

Lemma found_ok : forall es e, entries_ok es -> find_entry x es = Some e -> entry_ok e /\ e_key _ e = x.
Proof.
  intros es e [_ H] F. destruct (find_key type x es e F) as [F1 F2]. rewrite Forall_forall in H. split; [now apply H|exact F2].
Qed.

Lemma lookup_ok : forall fs e, stack_ok fs -> lookup fs x = Some e -> entry_ok e /\ e_key _ e = x.
Proof.
  induction fs as [|f fs IH]; intros e H L; [discriminate|]. cbn [FlowModel.lookup] in L.
  destruct (find_entry x (f_entries _ f)) as [e'|] eqn:F.
  - injection L as ->. apply (found_ok (f_entries _ f)); [now apply stack_entries in H|exact F].
  - destruct fs as [|f' fs]; [discriminate|]. apply IH; [apply H|exact L].
Qed.

Lemma union_kind : forall e o v, entry_ok e -> entry_ok o -> has (declared x) v ->
  (has (kind_of (union_of_refs e o)) v <-> has (kind_of e) v \/ has (kind_of o) v).
Proof.
  intros e o v He Ho Hd. apply not_deleted in He, Ho. unfold kind_of, FlowModel.union_of_refs. cbn [e_kind]. rewrite He, Ho. unfold simplified.
  destruct (e_kind _ e) as [a|], (e_kind _ o) as [b|]; try apply union_exact; tauto.
Qed.

Lemma joined_kind : forall e o v, entry_ok e -> entry_ok o -> has (declared x) v ->
  (has (kind_of (joined e o)) v <-> has (kind_of e) v \/ has (kind_of o) v).
Proof.
  intros e o v He Ho Hd. unfold FlowProofs.joined. destruct (e_modifies _ o); [now apply union_kind|]. rewrite union_kind by assumption. tauto.
Qed.

Lemma ancestor_kind : forall fs e v, stack_ok fs -> entry_ok e -> e_key _ e = x -> has (declared x) v ->
  (has (kind_of (merge_with_ancestor fs e)) v <-> sees fs v \/ has (kind_of e) v).
Proof.
  intros fs e v Hs He K Hd. unfold FlowModel.merge_with_ancestor, sees, seen. rewrite K. destruct (lookup fs x) as [a|] eqn:L.
  - rewrite union_kind; [|now apply (lookup_ok fs)|exact He|exact Hd]. tauto.
  - unfold kind_of. cbn [with_declaration e_kind]. tauto.
Qed.

Lemma sees_frame : forall f fs v, sees (f :: fs) v <-> match at_name f with Some e => has (declared x) v /\ has (kind_of e) v | None => sees fs v end.
Proof. intros f fs v. unfold sees at 1, seen. cbn [FlowModel.lookup]. unfold at_name. destruct (find_entry x (f_entries _ f)); reflexivity. Qed.

Lemma no_child : forall k, is_child_of x k = false.
Proof. reflexivity. Qed.

(** * Joining branches *)
Lemma overwrite_at : forall new st g fs, frames _ st = g :: fs -> stack_ok (g :: fs) -> entry_ok new ->
  exists g', frames _ (overwrite_entry new st) = g' :: fs /\ unreachable g' = unreachable g /\ stack_ok (g' :: fs) /\
    at_name g' = if equals (e_key _ new) x then Some new else at_name g.
Proof.
  intros new st g fs E Hs Hn. destruct (overwrite_frames type simplified_union name [] new st g fs E Hs Hn) as [es [F1 [F2 F3]]].
  eexists. split; [exact F1|]. split; [reflexivity|]. split; [exact F2|]. unfold at_name. cbn [f_entries]. rewrite F3. now rewrite no_child.
Qed.

Lemma ancestor_same : forall g g' fs e, at_name g' = at_name g -> e_key _ e = x -> merge_with_ancestor (g' :: fs) e = merge_with_ancestor (g :: fs) e.
Proof. intros g g' fs e H K. unfold FlowModel.merge_with_ancestor. rewrite K. cbn [FlowModel.lookup]. unfold at_name in H. now rewrite H. Qed.

Lemma merge_assignments_at : forall first other st g fs, frames _ st = g :: fs -> sound_state st -> entries_ok first -> entries_ok other ->
  exists g', frames _ (snd (merge_assignments first other st)) = g' :: fs /\ unreachable g' = unreachable g /\
    at_name g' =
    match find_entry x first with
    | Some e =>
        if e_modifies _ e
        then Some (match find_entry x other with Some o => joined e o | None => merge_with_ancestor (g :: fs) e end)
        else at_name g
    | None => at_name g
    end.
Proof.
  induction first as [|e first IH]; intros other st g fs E Hs [Hn Hf] Ho.
  - exists g. split; [exact E|]. split; reflexivity.
  - rewrite merge_assignments_cons. cbn [keys map] in Hn. inversion Hn as [|y l Hn1 Hn2 E0]; subst.
    pose proof (Forall_inv Hf) as He. pose proof (Forall_inv_tail Hf) as Hf'.
    destruct (step_evolved type value simplified_union declared has union_has name [] e other st Hs He Ho) as [V1 V2].
    pose proof (evolved_sound type value declared has name [] _ _ V1) as Hs1.
    assert (Hst : stack_ok (g :: fs)) by (rewrite <- E; apply Hs).
    assert (A : exists g1, frames _ (snd (merge_step type simplified_union e other st)) = g1 :: fs /\ unreachable g1 = unreachable g /\
      at_name g1 = if e_modifies _ e && equals (e_key _ e) x
                   then Some (match find_entry x other with Some o => joined e o | None => merge_with_ancestor (g :: fs) e end) else at_name g).
    { unfold merge_step. destruct (e_modifies _ e) eqn:M; [|exists g; split; [exact E|split; reflexivity]]. cbn [andb].
      pose proof (take_spec type name [] (e_key _ e) other) as T. destruct (take type (e_key _ e) other) as [[o other']|]; cbn [snd].
      - destruct T as [T1 _]. destruct (find_key type _ _ _ T1) as [T2 T3]. assert (Ok : entry_ok o) by (apply (entry_in type name [] other); assumption).
        destruct (overwrite_at (joined e o) st g fs E Hst) as [g1 [G1 [G2 [_ G3]]]]; [now apply joined_ok|].
        exists g1. split; [exact G1|]. split; [exact G2|]. rewrite G3, joined_key by congruence. destruct (equals (e_key _ e) x) eqn:K; [|reflexivity].
        apply equals_eq in K. rewrite K in T1. now rewrite T1.
      - destruct (overwrite_at (merge_with_ancestor (frames _ st) e) st g fs E Hst) as [g1 [G1 [G2 [_ G3]]]]; [now apply merge_ok|].
        exists g1. split; [exact G1|]. split; [exact G2|]. rewrite G3, merge_key, E. destruct (equals (e_key _ e) x) eqn:K; [|reflexivity].
        apply equals_eq in K. rewrite K in T. now rewrite T. }
    destruct A as [g1 [G1 [G2 G3]]].
    destruct (IH (fst (merge_step type simplified_union e other st)) _ g1 fs G1 Hs1) as [g' [W1 [W2 W3]]]; [now split|exact V2|].
    exists g'. split; [exact W1|]. split; [congruence|]. rewrite W3. rewrite (step_other type simplified_union name [] e other st x).
    change (find_entry x (e :: first)) with (if equals (e_key _ e) x then Some e else find_entry x first).
    destruct (equals (e_key _ e) x) eqn:K.
    + rewrite andb_true_r in *. apply equals_eq in K. destruct (find_entry x first) as [y|] eqn:F.
      * exfalso. apply Hn1. apply find_in_keys. rewrite K. congruence.
      * rewrite G3. reflexivity.
    + rewrite andb_false_r in *. destruct (find_entry x first) as [y|] eqn:F; [|exact G3].
      destruct (e_modifies _ y); [|exact G3]. f_equal. destruct (find_entry x other) as [o|]; [reflexivity|].
      apply ancestor_same; [exact G3|]. now apply (found_ok first y).
Qed.

(** The entry after two branches *)
Definition merged (T F G : option entry) (ancestor : entry -> entry) : option entry :=
  match T, F with
  | Some e, Some o => if e_modifies _ e then Some (joined e o) else if e_modifies _ o then Some (union_of_refs e o) else G
  | Some e, None | None, Some e => if e_modifies _ e then Some (ancestor e) else G
  | None, None => G
  end.

Lemma overwrite_entries_at : forall new possibly st g fs, frames _ st = g :: fs -> stack_ok (g :: fs) -> entries_ok new ->
  exists g', frames _ (overwrite_entries type new possibly st) = g' :: fs /\ unreachable g' = unreachable g /\
    at_name g' = match find_entry x new with Some e => Some (put_on type possibly e (at_name g)) | None => at_name g end.
Proof.
  intros new possibly st g fs E Hs Hn. rewrite (overwrite_entries_frames type new possibly st g fs E). eexists. split; [reflexivity|]. split; [reflexivity|].
  unfold at_name. cbn [f_entries]. rewrite find_all_put by apply Hn. rewrite (find_invalidated type name []) by (now apply stack_entries in Hs).
  replace (existsb (fun e => is_child_of x (e_key type e)) new) with false; [reflexivity|]. clear. induction new as [|e new IH]; [reflexivity|exact IH].
Qed.

Lemma merge_conditional_at : forall t f st g fs, frames _ st = g :: fs -> sound_state st -> entries_ok (f_entries _ t) -> entries_ok (f_entries _ f) ->
  exists g', frames _ (merge_conditional t f st) = g' :: fs /\
    (unreachable t = true -> unreachable f = true -> unreachable g' = true) /\
    (unreachable t = true -> unreachable f = false -> unreachable g' = unreachable g /\
       at_name g' = match at_name f with Some e => Some (put_on type (has_entries type t) e (at_name g)) | None => at_name g end) /\
    (unreachable t = false -> unreachable f = true -> unreachable g' = unreachable g /\
       at_name g' = match at_name t with Some e => Some (put_on type (has_entries type f) e (at_name g)) | None => at_name g end) /\
    (unreachable t = false -> unreachable f = false -> unreachable g' = unreachable g /\
       at_name g' = merged (at_name t) (at_name f) (at_name g) (merge_with_ancestor (g :: fs))).
Proof.
  intros t f st g fs E Hs Ht Hf. assert (Hst : stack_ok (g :: fs)) by (rewrite <- E; apply Hs). unfold FlowModel.merge_conditional.
  destruct (unreachable t) eqn:Ut, (unreachable f) eqn:Uf; cbn [orb negb].
  - unfold mark_unreachable. rewrite E. cbn [set_frames frames]. eexists. split; [reflexivity|]. split; [reflexivity|].
    split; [discriminate|]. split; discriminate.
  - destruct (overwrite_entries_at (f_entries _ f) (has_entries type t) st g fs E Hst Hf) as [g' [G1 [G2 G3]]]. exists g'. split; [exact G1|].
    split; [discriminate|]. split; [intros _ _; now split|]. split; discriminate.
  - destruct (overwrite_entries_at (f_entries _ t) (has_entries type f) st g fs E Hst Ht) as [g' [G1 [G2 G3]]]. exists g'. split; [exact G1|].
    split; [discriminate|]. split; [discriminate|]. split; [intros _ _; now split|discriminate].
  - destruct (merge_assignments_at (f_entries _ t) (f_entries _ f) st g fs E Hs Ht Hf) as [g1 [G1 [G2 G3]]].
    destruct (merge_assignments_evolved type value simplified_union declared has union_has name [] (f_entries _ t) (f_entries _ f) st Hs (proj2 Ht) Hf) as [V1 V2].
    pose proof (merge_assignments_other type simplified_union name [] (f_entries _ t) (f_entries _ f) st x (proj1 Ht)) as O.
    destruct (merge_assignments (f_entries _ t) (f_entries _ f) st) as [falses st1]. cbn [fst snd] in *.
    pose proof (evolved_sound type value declared has name [] _ _ V1) as Hs1.
    destruct (merge_assignments_at falses (f_entries _ t) st1 g1 fs G1 Hs1 V2 Ht) as [g2 [W1 [W2 W3]]].
    exists g2. split; [exact W1|]. split; [discriminate|]. split; [discriminate|]. split; [discriminate|]. intros _ _. split; [congruence|].
    rewrite W3, O. fold (at_name t) (at_name f) in *. unfold merged.
    destruct (at_name t) as [e|] eqn:At, (at_name f) as [o|] eqn:Af; try exact G3.
    + destruct (e_modifies _ e) eqn:M; cbn [option_map handled e_modifies]; [exact G3|]. destruct (e_modifies _ o); [|exact G3].
      unfold FlowProofs.joined. now rewrite M.
    + destruct (e_modifies _ e) eqn:M; cbn [option_map]; exact G3.
    + destruct (e_modifies _ o); [|exact G3]. f_equal. apply ancestor_same; [exact G3|]. now apply (found_ok (f_entries _ f) o Hf).
Qed.

Lemma put_on_kind : forall p e o, kind_of (put_on type p e o) = kind_of e.
Proof. intros p e [o|]; reflexivity. Qed.

Lemma put_on_modifies : forall p e o, e_modifies _ (put_on type p e o) = false ->
  e_modifies _ e = false /\ match o with Some o => e_modifies _ o = false | None => True end.
Proof.
  intros p e [o|] H; cbn [put_on e_modifies] in H; [|now split]. apply orb_false_iff in H as [H1 H2]. apply orb_false_iff in H2 as [H2 _]. now split.
Qed.

Lemma sees_some : forall f fs v e, at_name f = Some e -> sees (f :: fs) v -> has (kind_of e) v.
Proof. intros f fs v e A H. apply sees_frame in H. rewrite A in H. apply H. Qed.

Lemma sees_none : forall f fs v, at_name f = None -> sees (f :: fs) v -> sees fs v.
Proof. intros f fs v A H. apply sees_frame in H. now rewrite A in H. Qed.

Local Ltac got H := solve [exact H | apply sees_frame; exact H | rewrite sees_frame in H; exact H].

(** What is known is as declared *)
Definition fit (t : type) : Prop := regular t /\ forall v, has t v -> has (declared x) v.
Definition within (fs : list frame) : Prop := fit (seen fs).
Hypothesis regular_declared : regular (declared x).

Lemma seen_frame : forall f fs, seen (f :: fs) = match at_name f with Some e => kind_of e | None => seen fs end.
Proof. intros f fs. unfold seen at 1. cbn [FlowModel.lookup]. unfold at_name. destruct (find_entry x (f_entries _ f)); reflexivity. Qed.

Lemma fit_declared : fit (declared x).
Proof. split; [exact regular_declared|]. intros v H. exact H. Qed.

Lemma fit_union : forall a b, fit a -> fit b -> fit (simplified_union a b).
Proof. intros a b [A1 A2] [B1 B2]. split; [now apply regular_union|]. intros v H. apply union_exact in H. destruct H; auto. Qed.

Lemma fit_common : forall a b t, fit a -> fit b -> common_sub_type a b = Some t -> fit t.
Proof. intros a b t [A1 A2] [B1 B2] E. split; [now apply (regular_common a b)|]. intros v H. apply (common_exact a b t v E) in H. now apply A2. Qed.

Lemma union_fit : forall e o, entry_ok e -> entry_ok o -> fit (kind_of e) -> fit (kind_of o) -> fit (kind_of (union_of_refs e o)).
Proof.
  intros e o He Ho Fe Fo. apply not_deleted in He, Ho. unfold kind_of, FlowModel.union_of_refs. cbn [e_kind]. rewrite He, Ho.
  unfold simplified, kind_of in *. destruct (e_kind _ e) as [a|], (e_kind _ o) as [b|]; try apply fit_declared. now apply fit_union.
Qed.

Lemma ancestor_fit : forall fs e, stack_ok fs -> entry_ok e -> e_key _ e = x -> within fs -> fit (kind_of e) -> fit (kind_of (merge_with_ancestor fs e)).
Proof.
  intros fs e Hs He K W F. unfold FlowModel.merge_with_ancestor, within, seen in *. rewrite K. destruct (lookup fs x) as [a|] eqn:L.
  - apply union_fit; [now apply (lookup_ok fs)|exact He|exact W|exact F].
  - apply fit_declared.
Qed.

Section Merge.
Variables (t f : frame) (st : state) (g : frame) (fs : list frame).
Hypotheses (E : frames _ st = g :: fs) (Hs : sound_state st) (Ht : entries_ok (f_entries _ t)) (Hf : entries_ok (f_entries _ f)).
Notation F := (g :: fs).

Let Hst : stack_ok F.
Proof. rewrite <- E. apply Hs. Qed.

(** Nothing is made up *)
Lemma merge_from : forall g' v, frames _ (merge_conditional t f st) = g' :: fs -> unreachable g' = false -> sees (g' :: fs) v ->
  (unreachable t = false /\ sees (t :: F) v) \/ (unreachable f = false /\ sees (f :: F) v) \/
  (unreachable t = false /\ unreachable f = false /\ changes t = false /\ changes f = false /\ sees F v).
Proof.
  intros g' v G U H. destruct (merge_conditional_at t f st g fs E Hs Ht Hf) as [g1 [G1 [C1 [C2 [C3 C4]]]]]. rewrite G in G1. injection G1 as <-.
  rewrite sees_frame in H. rewrite (sees_frame t), (sees_frame f), (sees_frame g). unfold changes.
  destruct (unreachable t) eqn:Ut, (unreachable f) eqn:Uf.
  - rewrite C1 in U by reflexivity. discriminate.
  - destruct (C2 eq_refl eq_refl) as [_ C]. rewrite C in H. right. left. split; [reflexivity|]. destruct (at_name f) as [e|]; [|got H].
    now rewrite put_on_kind in H.
  - destruct (C3 eq_refl eq_refl) as [_ C]. rewrite C in H. left. split; [reflexivity|]. destruct (at_name t) as [e|]; [|got H].
    now rewrite put_on_kind in H.
  - destruct (C4 eq_refl eq_refl) as [_ C]. rewrite C in H. unfold merged in H.
    destruct (at_name t) as [e|] eqn:At, (at_name f) as [o|] eqn:Af.
    + destruct (found_ok _ _ Ht At) as [He Ke]. destruct (found_ok _ _ Hf Af) as [Ho Ko].
      destruct (e_modifies _ e) eqn:M1; [|destruct (e_modifies _ o) eqn:M2].
      * destruct H as [H1 H2]. apply joined_kind in H2; [|exact He|exact Ho|exact H1]. destruct H2 as [H2|H2]; [left|right; left]; repeat split; assumption.
      * destruct H as [H1 H2]. apply union_kind in H2; [|exact He|exact Ho|exact H1]. destruct H2 as [H2|H2]; [left|right; left]; repeat split; assumption.
      * right. right. repeat split; (reflexivity || got H).
    + destruct (found_ok _ _ Ht At) as [He Ke]. destruct (e_modifies _ e) eqn:M1.
      * destruct H as [H1 H2]. apply ancestor_kind in H2; [|exact Hst|exact He|exact Ke|exact H1].
        destruct H2 as [H2|H2]; [right; left|left]; (split; [reflexivity|]); [rewrite sees_frame in H2; got H2|now split].
      * right. right. repeat split; (reflexivity || got H).
    + destruct (found_ok _ _ Hf Af) as [Ho Ko]. destruct (e_modifies _ o) eqn:M1.
      * destruct H as [H1 H2]. apply ancestor_kind in H2; [|exact Hst|exact Ho|exact Ko|exact H1].
        destruct H2 as [H2|H2]; [left|right; left]; (split; [reflexivity|]); [rewrite sees_frame in H2; got H2|now split].
      * right. right. repeat split; (reflexivity || got H).
    + left. split; [reflexivity|got H].
Qed.

(** Nothing is lost, if what is only narrowed was possible before *)
Lemma merge_to : forall g' v, frames _ (merge_conditional t f st) = g' :: fs ->
  (unreachable t = false -> changes t = false -> forall w, sees (t :: F) w -> sees F w) ->
  (unreachable f = false -> changes f = false -> forall w, sees (f :: F) w -> sees F w) ->
  (unreachable t = false /\ sees (t :: F) v) \/ (unreachable f = false /\ sees (f :: F) v) ->
  unreachable g' = unreachable g /\ sees (g' :: fs) v.
Proof.
  intros g' v G Nt Nf H. destruct (merge_conditional_at t f st g fs E Hs Ht Hf) as [g1 [G1 [C1 [C2 [C3 C4]]]]]. rewrite G in G1. injection G1 as <-.
  unfold changes in Nt, Nf.
  destruct (unreachable t) eqn:Ut, (unreachable f) eqn:Uf.
  - destruct H as [[H _]|[H _]]; discriminate.
  - destruct (C2 eq_refl eq_refl) as [U C]. split; [exact U|]. destruct H as [[H _]|[_ H]]; [discriminate|]. rewrite sees_frame in H. rewrite sees_frame, C.
    destruct (at_name f) as [e|]; [now rewrite put_on_kind|got H].
  - destruct (C3 eq_refl eq_refl) as [U C]. split; [exact U|]. destruct H as [[_ H]|[H _]]; [|discriminate]. rewrite sees_frame in H. rewrite sees_frame, C.
    destruct (at_name t) as [e|]; [now rewrite put_on_kind|got H].
  - destruct (C4 eq_refl eq_refl) as [U C]. split; [exact U|]. rewrite sees_frame, C. unfold merged.
    specialize (Nt eq_refl). specialize (Nf eq_refl).
    assert (H' : sees (t :: F) v \/ sees (f :: F) v) by (destruct H as [[_ H]|[_ H]]; [now left|now right]). clear H.
    destruct (at_name t) as [e|] eqn:At, (at_name f) as [o|] eqn:Af.
    + destruct (found_ok _ _ Ht At) as [He Ke]. destruct (found_ok _ _ Hf Af) as [Ho Ko].
      assert (D : has (declared x) v) by (destruct H' as [[H _]|[H _]]; got H).
      destruct (e_modifies _ e) eqn:M1; [|destruct (e_modifies _ o) eqn:M2].
      * split; [exact D|]. apply joined_kind; [exact He|exact Ho|exact D|]. destruct H' as [H|H]; [apply (sees_some _ _ _ _ At) in H|apply (sees_some _ _ _ _ Af) in H]; tauto.
      * split; [exact D|]. apply union_kind; [exact He|exact Ho|exact D|]. destruct H' as [H|H]; [apply (sees_some _ _ _ _ At) in H|apply (sees_some _ _ _ _ Af) in H]; tauto.
      * rewrite <- sees_frame. destruct H' as [H|H]; [now apply Nt|now apply Nf].
    + destruct (found_ok _ _ Ht At) as [He Ke]. assert (D : has (declared x) v) by (destruct H' as [[H _]|[H _]]; got H).
      destruct (e_modifies _ e) eqn:M1.
      * split; [exact D|]. apply ancestor_kind; [exact Hst|exact He|exact Ke|exact D|]. destruct H' as [H|H]; [apply (sees_some _ _ _ _ At) in H|apply (sees_none _ _ _ Af) in H]; tauto.
      * rewrite <- sees_frame. destruct H' as [H|H]; [now apply Nt|now apply Nf].
    + destruct (found_ok _ _ Hf Af) as [Ho Ko]. assert (D : has (declared x) v) by (destruct H' as [[H _]|[H _]]; got H).
      destruct (e_modifies _ o) eqn:M1.
      * split; [exact D|]. apply ancestor_kind; [exact Hst|exact Ho|exact Ko|exact D|]. destruct H' as [H|H]; [apply (sees_none _ _ _ At) in H|apply (sees_some _ _ _ _ Af) in H]; tauto.
      * rewrite <- sees_frame. destruct H' as [H|H]; [now apply Nt|now apply Nf].
    + rewrite <- sees_frame. destruct H' as [H|H]; [now apply Nt|now apply Nf].
Qed.

(** The name is not assigned in what the branches end in, if it does not count as assigned after them *)
Lemma merge_unchanged : forall g', frames _ (merge_conditional t f st) = g' :: fs -> unreachable g' = false -> changes g' = false ->
  (unreachable t = false -> changes t = false) /\ (unreachable f = false -> changes f = false) /\ changes g = false /\
  (unreachable t = false -> unreachable f = false -> forall v, sees (g' :: fs) v <-> sees F v).
Proof.
  intros g' G U H. destruct (merge_conditional_at t f st g fs E Hs Ht Hf) as [g1 [G1 [C1 [C2 [C3 C4]]]]]. rewrite G in G1. injection G1 as <-.
  unfold changes in *. destruct (unreachable t) eqn:Ut, (unreachable f) eqn:Uf.
  - rewrite C1 in U by reflexivity. discriminate.
  - destruct (C2 eq_refl eq_refl) as [_ C]. rewrite C in H. split; [discriminate|]. destruct (at_name f) as [e|].
    + apply put_on_modifies in H as [H1 H2]. split; [intros _; exact H1|]. split; [destruct (at_name g); [got H2|reflexivity]|discriminate].
    + split; [reflexivity|]. split; [got H|discriminate].
  - destruct (C3 eq_refl eq_refl) as [_ C]. rewrite C in H. destruct (at_name t) as [e|].
    + apply put_on_modifies in H as [H1 H2]. split; [intros _; exact H1|]. split; [discriminate|]. split; [destruct (at_name g); [got H2|reflexivity]|discriminate].
    + split; [reflexivity|]. split; [discriminate|]. split; [got H|discriminate].
  - destruct (C4 eq_refl eq_refl) as [_ C].
    assert (K : at_name g' = at_name g -> forall v, sees (g' :: fs) v <-> sees F v) by (intros K v; now rewrite !sees_frame, K).
    rewrite C in H. unfold merged in C, H. destruct (at_name t) as [e|] eqn:At, (at_name f) as [o|] eqn:Af.
    + destruct (e_modifies _ e) eqn:M1; [now rewrite joined_modifies in H|]. destruct (e_modifies _ o) eqn:M2.
      * cbn [FlowModel.union_of_refs e_modifies] in H. rewrite M1, M2 in H. discriminate.
      * split; [reflexivity|]. split; [reflexivity|]. split; [got H|]. intros _ _. now apply K.
    + destruct (e_modifies _ e) eqn:M1; [now rewrite merge_modifies in H|]. split; [reflexivity|]. split; [reflexivity|]. split; [got H|]. intros _ _. now apply K.
    + destruct (e_modifies _ o) eqn:M1; [now rewrite merge_modifies in H|]. split; [reflexivity|]. split; [reflexivity|]. split; [got H|]. intros _ _. now apply K.
    + split; [reflexivity|]. split; [reflexivity|]. split; [got H|]. intros _ _. now apply K.
Qed.

Lemma merge_stays : forall g', frames _ (merge_conditional t f st) = g' :: fs -> unreachable g' = false ->
  within F -> (unreachable t = false -> within (t :: F)) -> (unreachable f = false -> within (f :: F)) -> within (g' :: fs).
Proof.
  intros g' G U Wg Wt Wf. destruct (merge_conditional_at t f st g fs E Hs Ht Hf) as [g1 [G1 [C1 [C2 [C3 C4]]]]]. rewrite G in G1. injection G1 as <-.
  unfold within in *. rewrite seen_frame in Wt, Wf. rewrite seen_frame.
  assert (Kg : at_name g' = at_name g -> fit (match at_name g' with Some e => kind_of e | None => seen fs end)) by (intros ->; now rewrite <- seen_frame).
  destruct (unreachable t) eqn:Ut, (unreachable f) eqn:Uf.
  - rewrite C1 in U by reflexivity. discriminate.
  - destruct (C2 eq_refl eq_refl) as [_ C]. destruct (at_name f) as [e|] eqn:Af; [|now apply Kg]. rewrite C, put_on_kind. now apply Wf.
  - destruct (C3 eq_refl eq_refl) as [_ C]. destruct (at_name t) as [e|] eqn:At; [|now apply Kg]. rewrite C, put_on_kind. now apply Wt.
  - destruct (C4 eq_refl eq_refl) as [_ C]. specialize (Wt eq_refl). specialize (Wf eq_refl). unfold merged in C.
    destruct (at_name t) as [e|] eqn:At, (at_name f) as [o|] eqn:Af; [| | |now apply Kg].
    + destruct (found_ok _ _ Ht At) as [He Ke]. destruct (found_ok _ _ Hf Af) as [Ho Ko]. destruct (e_modifies _ e) eqn:M1; [|destruct (e_modifies _ o) eqn:M2; [|now apply Kg]].
      * rewrite C. unfold FlowProofs.joined. destruct (e_modifies _ o); now apply union_fit.
      * rewrite C. now apply union_fit.
    + destruct (found_ok _ _ Ht At) as [He Ke]. destruct (e_modifies _ e) eqn:M1; [|now apply Kg]. rewrite C. now apply ancestor_fit.
    + destruct (found_ok _ _ Hf Af) as [He Ke]. destruct (e_modifies _ o) eqn:M1; [|now apply Kg]. rewrite C. now apply ancestor_fit.
Qed.
End Merge.

(** * Conditions *)
Local Ltac taut := pose proof (eq_refl false); pose proof diff_true_false; tauto.

Definition live (f : frame) (fs : list frame) (v : value) : Prop := unreachable f = false /\ sees (f :: fs) v.
Definition some (fs : list frame) : Prop := exists v, sees fs v.

(** What a condition may be, for a value of the name *)
Fixpoint can (c : cond) (v : value) (r : bool) : Prop :=
  match c with
  | CTest _ _ g _ => passes g v = r
  | CCall _ _ _ _ | CWalrus _ _ _ _ => True
  | CNot _ _ c => can c v (negb r)
  | CAnd _ _ a b => if r then can a v true /\ can b v true else can a v false \/ can a v true /\ can b v false
  | COr _ _ a b => if r then can a v true \/ can a v false /\ can b v true else can a v false /\ can b v false
  end.

Lemma can_some : forall c v, can c v true \/ can c v false.
Proof.
  induction c as [g k|ws t|k t|c IH|a IHa b IHb|a IHa b IHb]; intros v; cbn [can negb]; try taut.
  - destruct (passes g v); taut.
  - destruct (IH v); taut.
  - destruct (IHa v), (IHb v); taut.
  - destruct (IHa v), (IHb v); taut.
Qed.

Lemma can_holds : forall c v r s, about c -> s x = Some v -> can c v r -> holds c s (Some r) s.
Proof.
  induction c as [g k|ws t|k t|c IH|a IHa b IHb|a IHa b IHb]; intros v r s A E C; cbn [about can] in *.
  - destruct A as [-> _]. rewrite <- C. now constructor.
  - destruct A as [-> [_ A]]. destruct (A r) as [w [W1 W2]]. rewrite <- W2. econstructor; [constructor|exact W1].
  - contradiction.
  - replace (Some r) with (option_map negb (Some (negb r))) by (cbn; now rewrite negb_involutive). constructor. now apply (IH v).
  - destruct A as [Aa Ab]. destruct r.
    + destruct C as [C1 C2]. eapply h_and_right; [now apply (IHa v)|now apply (IHb v)].
    + destruct C as [C|[C1 C2]]; [apply h_and_left; [discriminate|now apply (IHa v)]|eapply h_and_right; [now apply (IHa v)|now apply (IHb v)]].
  - destruct A as [Aa Ab]. destruct r.
    + destruct C as [C|[C1 C2]]; [apply h_or_left; [discriminate|now apply (IHa v)]|eapply h_or_right; [now apply (IHa v)|now apply (IHb v)]].
    + destruct C as [C1 C2]. eapply h_or_right; [now apply (IHa v)|now apply (IHb v)].
Qed.

(** The frames for a condition know at most the name *)
Definition tiny (f : frame) : Prop := f_entries _ f = [] \/ exists t, f_entries _ f = [new_entry type x t].

Lemma name_here : name x.
Proof. now exists n. Qed.

Lemma tiny_ok : forall f, tiny f -> entries_ok (f_entries _ f).
Proof.
  intros f [->|[t ->]]; split; cbn; [constructor|constructor|repeat constructor; intros []|].
  constructor; [|constructor]. split; [apply name_here|discriminate].
Qed.

Lemma tiny_same : forall f, tiny f -> changes f = false.
Proof. intros f [H|[t H]]; unfold changes, at_name; rewrite H; cbn; [reflexivity|]. now rewrite N.eqb_refl. Qed.

Lemma tiny_stack : forall f fs, tiny f -> stack_ok fs -> stack_ok (f :: fs).
Proof. intros f fs Hf Hs. split; [now apply tiny_ok|]. destruct fs; [destruct Hs|exact Hs]. Qed.

Definition knows (f : frame) : option type := match f_entries _ f with [e] => match e_kind _ e with Of _ t => Some t | _ => None end | _ => None end.

Lemma tiny_at : forall f, tiny f -> match knows f with Some t => f_entries _ f = [new_entry type x t] /\ at_name f = Some (new_entry type x t)
                                    | None => f_entries _ f = [] /\ at_name f = None end.
Proof.
  intros f [H|[t H]]; unfold knows, at_name; rewrite H; cbn; [now split|]. rewrite N.eqb_refl. now split.
Qed.

Lemma tiny_sees : forall f fs v, tiny f -> (sees (f :: fs) v <-> match knows f with Some t => has (declared x) v /\ has t v | None => sees fs v end).
Proof. intros f fs v T. rewrite sees_frame. pose proof (tiny_at f T) as A. destruct (knows f) as [t|]; destruct A as [_ ->]; reflexivity. Qed.

(** How a frame is exact for some of the values *)
Definition divides (f : frame) (fs : list frame) (p : value -> Prop) : Prop :=
  tiny f /\ (forall v, live f fs v <-> sees fs v /\ p v) /\ (unreachable f = false -> some (f :: fs) /\ within (f :: fs)).

Lemma merge_and_tiny : forall a b, tiny a -> tiny b -> unreachable a = false -> unreachable b = false ->
  merge_and a b =
  match knows a, knows b with
  | Some t, Some u =>
      match common_sub_type t u with Some w => Frame _ [new_entry type x w] false | None => Frame _ [new_entry type x never] true end
  | Some _, None => Frame _ (f_entries _ a) false
  | None, _ => Frame _ (f_entries _ b) false
  end.
Proof.
  intros a b Ta Tb Ua Ub. unfold FlowModel.merge_and. rewrite Ua, Ub. pose proof (tiny_at a Ta) as Aa. pose proof (tiny_at b Tb) as Ab.
  destruct (knows a) as [t|], (knows b) as [u|]; destruct Aa as [-> _]; destruct Ab as [-> _]; cbn; rewrite ?N.eqb_refl; try reflexivity.
  destruct (common_sub_type t u) as [w|]; reflexivity.
Qed.

Lemma merge_or_tiny : forall fs a b, tiny a -> tiny b ->
  merge_or fs a b true =
  if unreachable a then b else if unreachable b then a else
  match knows a, knows b with Some t, Some u => Frame _ [new_entry type x (simplified_union t u)] false | _, _ => new_conditional end.
Proof.
  intros fs a b Ta Tb. unfold FlowModel.merge_or. destruct (unreachable a); [reflexivity|]. destruct (unreachable b); [reflexivity|].
  pose proof (tiny_at a Ta) as Aa. pose proof (tiny_at b Tb) as Ab.
  destruct (knows a) as [t|], (knows b) as [u|]; destruct Aa as [-> _]; destruct Ab as [-> _]; cbn; rewrite ?N.eqb_refl; reflexivity.
Qed.

Lemma tiny_nothing : forall u, tiny (Frame _ [] u).
Proof. now left. Qed.

Lemma tiny_one : forall t u, tiny (Frame _ [new_entry type x t] u).
Proof. right. now exists t. Qed.

Lemma tiny_within : forall f fs, tiny f -> (within (f :: fs) <-> match knows f with Some t => fit t | None => within fs end).
Proof.
  intros f fs T. unfold within. rewrite seen_frame. pose proof (tiny_at f T) as A. destruct (knows f) as [t|]; destruct A as [_ ->]; reflexivity.
Qed.

(** The second part of a conjunction is computed knowing the first one *)
Lemma conjunction : forall fs lt lf rt rf (pa na pb nb : value -> Prop), within fs -> some fs ->
  (forall v, pa v \/ na v) -> (forall v, pb v \/ nb v) ->
  divides lt fs pa -> divides lf fs na -> unreachable lt = false -> divides rt (lt :: fs) pb -> divides rf (lt :: fs) nb ->
  divides (merge_and lt rt) fs (fun v => pa v /\ pb v) /\ divides (merge_or fs lf rf true) fs (fun v => na v \/ pa v /\ nb v).
Proof.
  intros fs lt lf rt rf pa na pb nb W S0 Da Db [T1 [D1 R1]] [T2 [D2 R2]] U1 [T3 [D3 R3]] [T4 [D4 R4]].
  destruct (R1 U1) as [S1 W1]. unfold live in D1, D2, D3, D4. rewrite U1 in D1.
  assert (X1 : forall v, sees (lt :: fs) v <-> sees fs v /\ pa v) by (intros v; rewrite <- D1; taut).
  split.
  - destruct (unreachable rt) eqn:U3.
    { assert (M : merge_and lt rt = rt) by (unfold FlowModel.merge_and; now rewrite U1, U3). rewrite M. split; [exact T3|].
      split; [|congruence]. intros v. unfold live. rewrite U3. specialize (D3 v). rewrite X1 in D3. split; [intros [H _]; discriminate|]. taut. }
    destruct (R3 eq_refl) as [S3 W3]. assert (M := merge_and_tiny lt rt T1 T3 U1 U3).
    assert (X3 : forall v, sees (rt :: lt :: fs) v <-> sees (lt :: fs) v /\ pb v) by (intros v; rewrite <- D3; taut).
    assert (Y : tiny (merge_and lt rt) /\ unreachable (merge_and lt rt) = false /\ forall v, sees (merge_and lt rt :: fs) v <-> sees (rt :: lt :: fs) v).
    { rewrite M. destruct (knows lt) as [t|] eqn:K1, (knows rt) as [u|] eqn:K3.
      - destruct (common_sub_type t u) as [w|] eqn:C.
        + split; [apply tiny_one|]. split; [reflexivity|]. intros v. rewrite (tiny_sees rt) by exact T3. rewrite K3.
          rewrite tiny_sees by apply tiny_one. cbn. rewrite (common_exact _ _ _ v C).
          split; [taut|]. intros [H1 H2]. split; [exact H1|]. split; [|exact H2].
          assert (H3 : sees (rt :: lt :: fs) v) by (apply tiny_sees; [exact T3|]; rewrite K3; now split).
          apply X3 in H3. destruct H3 as [H3 _]. apply tiny_sees in H3; [|exact T1]. rewrite K1 in H3. apply H3.
        + exfalso. destruct S3 as [v S3]. assert (H3 := S3). apply X3 in H3. destruct H3 as [H3 _]. apply tiny_sees in H3; [|exact T1]. rewrite K1 in H3.
          apply tiny_sees in S3; [|exact T3]. rewrite K3 in S3. apply (common_none t u v C); taut.
      - pose proof (tiny_at lt T1) as A1. rewrite K1 in A1. destruct A1 as [A1 _]. rewrite A1. split; [apply tiny_one|]. split; [reflexivity|].
        intros v. rewrite tiny_sees by apply tiny_one. rewrite (tiny_sees rt) by exact T3. rewrite K3, (tiny_sees lt) by exact T1. rewrite K1. reflexivity.
      - pose proof (tiny_at rt T3) as A3. rewrite K3 in A3. destruct A3 as [A3 _]. rewrite A3. split; [apply tiny_one|]. split; [reflexivity|].
        intros v. rewrite tiny_sees by apply tiny_one. rewrite (tiny_sees rt) by exact T3. rewrite K3. reflexivity.
      - pose proof (tiny_at rt T3) as A3. rewrite K3 in A3. destruct A3 as [A3 _]. rewrite A3. split; [apply tiny_nothing|]. split; [reflexivity|].
        intros v. rewrite tiny_sees by apply tiny_nothing. rewrite (tiny_sees rt) by exact T3. rewrite K3, (tiny_sees lt) by exact T1. rewrite K1. reflexivity. }
    destruct Y as [Y1 [Y2 Y3]]. split; [exact Y1|]. split.
    + intros v. unfold live. rewrite Y2, Y3, X3, X1. taut.
    + intros _. split; [destruct S3 as [v S3]; exists v; now apply Y3|].
      apply tiny_within in W1; [|exact T1]. apply tiny_within in W3; [|exact T3].
      rewrite M. rewrite M in Y1, Y2. destruct (knows lt) as [t|] eqn:K1, (knows rt) as [u|] eqn:K3.
      * destruct (common_sub_type t u) as [w|] eqn:C; [|discriminate]. apply tiny_within; [exact Y1|]. now apply (fit_common t u).
      * pose proof (tiny_at lt T1) as A1. rewrite K1 in A1. destruct A1 as [A1 _]. rewrite A1. apply tiny_within; [apply tiny_one|exact W1].
      * pose proof (tiny_at rt T3) as A3. rewrite K3 in A3. destruct A3 as [A3 _]. rewrite A3. apply tiny_within; [apply tiny_one|exact W3].
      * pose proof (tiny_at rt T3) as A3. rewrite K3 in A3. destruct A3 as [A3 _]. rewrite A3. apply tiny_within; [apply tiny_nothing|exact W].
  - rewrite merge_or_tiny by assumption. destruct (unreachable lf) eqn:U2; [|destruct (unreachable rf) eqn:U4].
    + assert (X2 : forall v, sees fs v -> ~ na v) by (intros v H1 H2; destruct (proj2 (D2 v) (conj H1 H2)); discriminate).
      assert (Y : forall v, sees fs v <-> sees (lt :: fs) v) by (intros v; rewrite X1; specialize (X2 v); specialize (Da v); taut).
      assert (Z : forall v, sees (rf :: fs) v <-> sees (rf :: lt :: fs) v) by (intros v; rewrite !tiny_sees by exact T4; destruct (knows rf); [reflexivity|apply Y]).
      split; [exact T4|]. split.
      * intros v. unfold live. rewrite Z, D4, X1. specialize (X2 v). taut.
      * intros U4. destruct (R4 U4) as [S4 W4]. split; [destruct S4 as [v S4]; exists v; now apply Z|].
        apply tiny_within; [exact T4|]. apply tiny_within in W4; [|exact T4]. destruct (knows rf) as [t|]; [exact W4|exact W].
    + assert (X4 : forall v, sees fs v -> pa v -> ~ nb v) by (intros v H1 H2 H3; destruct (proj2 (D4 v) (conj (proj2 (X1 v) (conj H1 H2)) H3)); discriminate).
      split; [exact T2|]. split; [|intros _; exact (R2 eq_refl)]. intros v. unfold live. rewrite U2. rewrite D2. specialize (X4 v). taut.
    + destruct (R2 eq_refl) as [S2 W2]. destruct (R4 eq_refl) as [S4 W4].
      assert (X2 : forall v, sees (lf :: fs) v <-> sees fs v /\ na v) by (intros v; rewrite <- D2; taut).
      assert (X4 : forall v, sees (rf :: lt :: fs) v <-> (sees fs v /\ pa v) /\ nb v) by (intros v; rewrite <- X1, <- D4; taut).
      pose proof (fun v => tiny_sees lf fs v T2) as Z2. pose proof (fun v => tiny_sees rf (lt :: fs) v T4) as Z4.
      destruct (knows lf) as [t|] eqn:K2; [destruct (knows rf) as [u|] eqn:K4|].
      * split; [apply tiny_one|].
        assert (Y : forall v, sees (Frame type [new_entry type x (simplified_union t u)] false :: fs) v <-> sees fs v /\ (na v \/ pa v /\ nb v)).
        { intros v. rewrite tiny_sees by apply tiny_one. cbn. rewrite union_exact. specialize (X2 v). specialize (X4 v). rewrite Z2 in X2. rewrite Z4 in X4. taut. }
        split; [intros v; unfold live; rewrite Y; cbn; taut|]. intros _. split; [destruct S2 as [v S2]; exists v; apply Y; apply X2 in S2; taut|].
        apply tiny_within; [apply tiny_one|]. apply tiny_within in W2; [|exact T2]. apply tiny_within in W4; [|exact T4]. rewrite K2 in W2. rewrite K4 in W4.
        now apply fit_union.
      * split; [apply tiny_nothing|]. assert (Y : forall v, sees (new_conditional :: fs) v <-> sees fs v) by (intros v; apply tiny_sees, tiny_nothing).
        split; [|intros _; split; [destruct S0 as [v S0]; exists v; now apply Y|apply tiny_within; [apply tiny_nothing|exact W]]].
        intros v. unfold live. rewrite Y. cbn. specialize (X4 v). rewrite Z4, X1 in X4. specialize (Da v). taut.
      * split; [apply tiny_nothing|]. assert (Y : forall v, sees (new_conditional :: fs) v <-> sees fs v) by (intros v; apply tiny_sees, tiny_nothing).
        split; [|intros _; split; [destruct S0 as [v S0]; exists v; now apply Y|apply tiny_within; [apply tiny_nothing|exact W]]].
        intros v. unfold live. rewrite Y. cbn. specialize (X2 v). rewrite Z2 in X2. taut.
Qed.

(** It is not computed if the first one does not hold *)
Lemma conjunction_left : forall fs lt lf (pa na pb nb : value -> Prop), within fs -> some fs ->
  (forall v, pa v \/ na v) -> divides lt fs pa -> divides lf fs na -> unreachable lt = true ->
  divides (merge_and lt new_conditional) fs (fun v => pa v /\ pb v) /\ divides (merge_or fs lf new_conditional true) fs (fun v => na v \/ pa v /\ nb v).
Proof.
  intros fs lt lf pa na pb nb W S0 Da [T1 [D1 R1]] [T2 [D2 R2]] U1. unfold live in D1, D2. rewrite U1 in D1.
  assert (X1 : forall v, sees fs v -> ~ pa v) by (intros v H1 H2; destruct (proj2 (D1 v) (conj H1 H2)); discriminate).
  assert (X2 : forall v, sees fs v -> na v) by (intros v H; destruct (Da v); [destruct (X1 v); assumption|assumption]).
  split.
  - assert (M : merge_and lt new_conditional = lt) by (unfold FlowModel.merge_and; now rewrite U1). rewrite M. split; [exact T1|].
    split; [|congruence]. intros v. unfold live. rewrite U1. specialize (X1 v). split; [intros [H _]; discriminate|taut].
  - destruct S0 as [v0 S0]. destruct (proj2 (D2 v0) (conj S0 (X2 v0 S0))) as [U2 _].
    rewrite merge_or_tiny; [|exact T2|apply tiny_nothing]. rewrite U2. cbn.
    assert (Y : forall v, sees (new_conditional :: fs) v <-> sees fs v) by (intros v; apply tiny_sees, tiny_nothing).
    destruct (knows lf) as [t|]; (split; [apply tiny_nothing|]; split;
      [|intros _; split; [exists v0; now apply Y|apply tiny_within; [apply tiny_nothing|exact W]]]);
      intros v; unfold live; rewrite Y; cbn; specialize (X2 v); taut.
Qed.

Lemma not_never : forall fs k t (p : value -> Prop), k = x -> within fs -> regular t -> (forall v, has t v <-> has (seen fs) v /\ p v) -> divides (from_type type is_never k t) fs p.
Proof.
  intros fs k t p -> W R H. unfold from_type. destruct (is_never t) eqn:E.
  - split; [apply tiny_nothing|]. split; [|discriminate]. intros v. unfold live, sees. cbn. split; [intros [A _]; discriminate|].
    intros [[_ A] B]. destruct (never_has t v E). now apply H.
  - assert (Y : forall v, sees (Frame type [new_entry type x t] false :: fs) v <-> sees fs v /\ p v).
    { intros v. rewrite tiny_sees by apply tiny_one. cbn. rewrite H. unfold sees. taut. }
    split; [apply tiny_one|]. split; [intros v; unfold live; rewrite Y; cbn; taut|]. intros _. split.
    + destruct (has_some t E) as [v A]. exists v. apply Y. assert (B := proj1 (H v) A). split; [|apply B]. split; [apply W; apply B|apply B].
    + apply tiny_within; [apply tiny_one|]. split; [exact R|]. intros v A. apply W. now apply H.
Qed.

Lemma type_seen : forall st, stack_ok (frames _ st) -> type_of type error declared st x = seen (frames _ st).
Proof.
  intros st H. unfold type_of, look_at, seen, kind_of. destruct (lookup (frames _ st) x) as [e|] eqn:L; [|reflexivity].
  destruct (lookup_ok _ _ H L) as [H1 _]. rewrite (not_deleted e H1). destruct (e_kind _ e); reflexivity.
Qed.

Lemma set_same : forall (st : state), set_frames type (frames _ st) st = st.
Proof. now intros []. Qed.

Lemma push_pop : forall f (st : state), pop type (push type f st) = (f, st).
Proof. intros f []. reflexivity. Qed.

Lemma guards_divide : forall c st, about c -> stack_ok (frames _ st) -> within (frames _ st) -> some (frames _ st) ->
  exists t f, guards c st = (t, f, st) /\ divides t (frames _ st) (fun v => can c v true) /\ divides f (frames _ st) (fun v => can c v false).
Proof.
  induction c as [g k|ws t|k t|c IH|a IHa b IHb|a IHa b IHb]; intros st A Hs W S0; cbn [about can FlowModel.guards] in *.
  - destruct A as [-> A]. rewrite (type_seen st Hs). destruct (A (seen (frames _ st)) (proj1 W)) as [a [b [-> [Ra [Rb H]]]]].
    eexists _, _. split; [reflexivity|]. split; apply not_never; try reflexivity; try assumption; intros v; apply H.
  - destruct A as [-> [A _]]. cbn [fold_left]. rewrite A. eexists _, _. split; [reflexivity|].
    assert (Y : forall v, sees (new_conditional :: frames _ st) v <-> sees (frames _ st) v) by (intros v; apply tiny_sees, tiny_nothing).
    assert (D : divides new_conditional (frames _ st) (fun _ => True)).
    { split; [apply tiny_nothing|]. split; [intros v; unfold live; rewrite Y; cbn; taut|]. intros _.
      split; [destruct S0 as [v S0]; exists v; now apply Y|apply tiny_within; [apply tiny_nothing|exact W]]. }
    split; exact D.
  - contradiction.
  - destruct (IH st A Hs W S0) as [t [f [-> [D1 D2]]]]. eexists _, _. split; [reflexivity|]. split; assumption.
  - destruct A as [Aa Ab]. destruct (IHa st Aa Hs W S0) as [lt [lf [-> [D1 D2]]]]. destruct (unreachable lt) eqn:U.
    + eexists _, _. split; [reflexivity|]. apply conjunction_left; try assumption. apply can_some.
    + pose proof D1 as [T1 [_ R1]]. destruct (R1 U) as [S1 W1].
      destruct (IHb (push type lt st) Ab (tiny_stack _ _ T1 Hs) W1 S1) as [rt [rf [-> [D3 D4]]]]. rewrite push_pop.
      eexists _, _. split; [reflexivity|]. cbn [frames push set_frames] in *.
      apply conjunction; try assumption; apply can_some.
  - destruct A as [Aa Ab]. destruct (IHa st Aa Hs W S0) as [lt [lf [-> [D1 D2]]]].
    assert (C : forall v, can a v false \/ can a v true) by (intros v; destruct (can_some a v); taut). destruct (unreachable lf) eqn:U.
    + eexists _, _. split; [reflexivity|]. apply and_comm. apply conjunction_left; assumption.
    + pose proof D2 as [T1 [_ R1]]. destruct (R1 U) as [S1 W1].
      destruct (IHb (push type lf st) Ab (tiny_stack _ _ T1 Hs) W1 S1) as [rt [rf [-> [D3 D4]]]]. rewrite push_pop.
      eexists _, _. split; [reflexivity|]. cbn [frames push set_frames] in *.
      apply and_comm. apply conjunction; try assumption. intros v. destruct (can_some b v); taut.
Qed.

(** * Statements *)
(** Every well-typed start with a value of the name has an execution that comes to the end, with another one *)
Definition comes (s : stmt) (v0 v : value) : Prop :=
  forall a, well_typed a -> a x = Some v0 -> exists ev b, runs s a ev Normal b /\ b x = Some v /\ well_typed b.
(** ... and one that finds a value at a place *)
Definition shows (s : stmt) (v0 : value) (l : N) (v : value) : Prop :=
  forall a, well_typed a -> a x = Some v0 -> exists ev o b, runs s a ev o b /\ In (l, v) ev.

(** The second part of an [if] is [elif] only if the condition may fail: the code looks at the next condition anyway *)
Fixpoint elifs (s : stmt) (st : state) : Prop :=
  match s with
  | SSeq _ _ a b => elifs a st /\ elifs b (block type (analyse a) st)
  | SIf _ _ c a elif b =>
      let '(t, f, st) := guards c st in
      (elif = true -> unreachable f = false) /\ (unreachable t = false -> elifs a (push type t st)) /\
      (unreachable f = false -> elifs b (push type f (snd (pop type (block type (analyse a) (push type t st))))))
  | _ => True
  end.

Definition shown (s : stmt) (fs : list frame) (rs : list (N * report type)) : Prop :=
  forall l r, In (l, r) rs -> exists t, r = Revealed _ t /\ forall v, has t v -> exists v0, sees fs v0 /\ shows s v0 l v.

(** What is known after a statement comes from an execution, and what is reported in it too *)
Record exact (s : stmt) (st st' : state) (g g' : frame) (fs : list frame) : Prop := Exact_statement {
  x_frames : frames _ st' = g' :: fs;
  x_sound : sound_state st';
  x_some : unreachable g' = false -> some (g' :: fs) /\ within (g' :: fs);
  x_comes : unreachable g' = false -> forall v, sees (g' :: fs) v -> exists v0, sees (g :: fs) v0 /\ comes s v0 v;
  x_reports : exists rs, reports _ st' = reports _ st ++ rs /\ shown s (g :: fs) rs
}.

(** The end is reached, and what was known stays if the name is not assigned *)
Definition kept (g g' : frame) (fs : list frame) : Prop :=
  unreachable g' = false /\ (changes g' = false -> changes g = false /\ forall v, sees (g' :: fs) v <-> sees (g :: fs) v).

Definition begins (st : state) (g : frame) (fs : list frame) : Prop :=
  frames _ st = g :: fs /\ sound_state st /\ unreachable g = false /\ some (g :: fs) /\ within (g :: fs).

Lemma skip_exact : forall st g fs, begins st g fs -> exact (SSkip _ _) st st g g fs.
Proof.
  intros st g fs [E [Hs [U [S0 W]]]]. constructor; [exact E|exact Hs|intros _; now split| |].
  - intros _ v H. exists v. split; [exact H|]. intros a Ha Hx. exists [], a. split; [constructor|]. now split.
  - exists []. split; [now rewrite app_nil_r|]. intros l r [].
Qed.

Lemma reveal_exact : forall l st g fs, begins st g fs -> exact (SReveal _ _ l x) st (analyse (SReveal _ _ l x) st) g g fs.
Proof.
  intros l st g fs [E [Hs [U [S0 W]]]]. constructor; [exact E|exact Hs|intros _; now split| |].
  - intros _ v H. exists v. split; [exact H|]. intros a Ha Hx. exists [(l, v)], a. split; [now constructor|]. now split.
  - cbn [FlowModel.analyse reports]. eexists. split; [reflexivity|]. intros l' r [H|[]]. injection H as <- <-.
    pose proof (type_seen st (proj1 Hs)) as T. unfold type_of in T. unfold look_at in *. destruct (lookup (frames _ st) x) as [e|] eqn:L.
    + destruct (lookup_ok _ _ (proj1 Hs) L) as [H1 _]. rewrite (not_deleted e H1) in *.
      assert (T' : exists t, match e_kind _ e with Of _ t => Revealed _ t | Declaration _ => Revealed _ (declared x) end = Revealed _ t /\ t = seen (frames _ st))
        by (destruct (e_kind _ e); eexists; (split; [reflexivity|exact T])).
      destruct T' as [t [-> ->]]. exists (seen (frames _ st)). split; [reflexivity|]. rewrite E. intros v H. exists v. split; [split; [now apply W|exact H]|].
      intros a Ha Hx. exists [(l, v)], Normal, a. split; [now constructor|now left].
    + exists (declared x). split; [reflexivity|]. rewrite T, E. intros v H. exists v. split; [split; [now apply W|exact H]|].
      intros a Ha Hx. exists [(l, v)], Normal, a. split; [now constructor|now left].
Qed.

(** A store with another value *)
Definition put_value (a : store) (k : key) (v : value) : store := fun k' => if equals k' k then Some v else a k'.

Lemma put_updated : forall a k v, well_typed a -> has (declared k) v -> updated a k (Some v) (put_value a k v).
Proof.
  intros a k v Ha Hv. unfold put_value. split; [now rewrite equals_refl|]. split.
  - intros k' H _. destruct (equals k' k) eqn:Q; [apply equals_eq in Q; contradiction|reflexivity].
  - intros k' w H. destruct (equals k' k) eqn:Q; [apply equals_eq in Q as ->; now injection H as <-|now apply Ha].
Qed.

Lemma assign_exact : forall k t st g fs, assignable k t -> begins st g fs ->
  exists g', exact (SAssign _ _ k (Value _ t)) st (analyse (SAssign _ _ k (Value _ t)) st) g g' fs /\ kept g g' fs.
Proof.
  intros k t st g fs [Hk [Hx [Ha [Hg [Hv [w Hw]]]]]] [E [Hs [U [S0 W]]]].
  cbn [FlowModel.analyse source_type]. unfold FlowModel.assign, narrow_or_widen_internal. fold (saved_type k t). rewrite Hx, Ha. cbn [andb].
  unfold save_narrowed. set (new := Entry type k (Of type (saved_type k t)) true false).
  assert (Hn : entry_ok new) by (split; [exact Hk|discriminate]).
  assert (Hst : stack_ok (g :: fs)) by (rewrite <- E; apply Hs).
  destruct (overwrite_at new st g fs E Hst Hn) as [g' [G1 [G2 [G3 G4]]]]. cbn [e_key new] in G4.
  pose proof (overwrite_evolved type value simplified_union declared has union_has name [] new st Hs Hn eq_refl) as V.
  exists g'. destruct (equals k x) eqn:Q.
  - apply equals_eq in Q. subst k.
    assert (Y : forall v, sees (g' :: fs) v <-> has (saved_type x t) v).
    { intros v. rewrite sees_frame, G4. unfold kind_of, new. cbn [e_kind]. split; [tauto|]. intros H. split; [now apply Hv|exact H]. }
    split; [constructor|].
    + exact G1.
    + now apply evolved_sound in V.
    + intros _. split; [exists w; now apply Y|]. unfold within. rewrite seen_frame, G4. split; [exact Hg|]. intros v H. now apply Hv.
    + intros _ v H. apply Y in H. destruct S0 as [v0 S0]. exists v0. split; [exact S0|]. intros a Wa Xa. exists [], (put_value a x v).
      destruct (Hv v H) as [H1 H2]. pose proof (put_updated a x v Wa H2) as P. split; [eapply r_assign; [apply ev_value; eassumption|exact P]|]. split; [apply P|apply P].
    + exists []. split; [now rewrite app_nil_r|]. intros l r [].
    + split; [congruence|]. unfold changes. rewrite G4. discriminate.
  - assert (Y : forall v, sees (g' :: fs) v <-> sees (g :: fs) v) by (intros v; now rewrite !sees_frame, G4).
    split; [constructor|].
    + exact G1.
    + now apply evolved_sound in V.
    + intros _. split; [destruct S0 as [v0 S0]; exists v0; now apply Y|]. unfold within. rewrite seen_frame, G4, <- seen_frame. exact W.
    + intros _ v H. apply Y in H. exists v. split; [exact H|]. intros a Wa Xa. exists [], (put_value a k w).
      destruct (Hv w Hw) as [H1 H2]. pose proof (put_updated a k w Wa H2) as P. split; [eapply r_assign; [apply ev_value; eassumption|exact P]|]. split; [|apply P].
      unfold put_value. replace (equals x k) with false; [exact Xa|]. symmetry. destruct (equals x k) eqn:Q'; [|reflexivity].
      apply equals_eq in Q'. subst k. rewrite equals_refl in Q. discriminate.
    + exists []. split; [now rewrite app_nil_r|]. intros l r [].
    + split; [congruence|]. unfold changes. rewrite G4. intros H. split; [exact H|exact Y].
Qed.

Lemma leave_exact : forall s st g fs, s = SReturn _ _ \/ s = SRaise _ _ -> begins st g fs ->
  exists g', exact s st (analyse s st) g g' fs /\ unreachable g' = true.
Proof.
  intros s st g fs H [E [Hs [U [S0 W]]]]. assert (A : analyse s st = mark_unreachable type st) by (destruct H as [->| ->]; reflexivity). rewrite A.
  unfold mark_unreachable. rewrite E. exists (Frame type (f_entries _ g) true). split; [constructor|reflexivity]; cbn [set_frames frames f_unreachable reports]; try discriminate.
  - reflexivity.
  - destruct Hs as [H1 H2]. rewrite E in H1. split; [exact H1|exact H2].
  - exists []. split; [now rewrite app_nil_r|]. intros l r [].
Qed.

Lemma shown_first : forall a b fs rs, shown a fs rs -> shown (SSeq _ _ a b) fs rs.
Proof.
  intros a b fs rs H l r I0. destruct (H l r I0) as [t [-> K]]. exists t. split; [reflexivity|]. intros v Hv. destruct (K v Hv) as [v0 [K1 K2]].
  exists v0. split; [exact K1|]. intros s Hs Hx. destruct (K2 s Hs Hx) as [ev [o [s' [R I1]]]].
  destruct o; [exists (ev ++ []), Raise, s'; split; [eapply r_seq; [exact R|constructor]|now rewrite app_nil_r]|..];
    exists ev; eexists; exists s'; (split; [apply r_seq_out; [|exact R]; discriminate|exact I1]).
Qed.

Lemma seq_exact : forall a b st st1 st2 g g1 g2 fs, exact a st st1 g g1 fs -> unreachable g1 = false -> exact b st1 st2 g1 g2 fs ->
  exact (SSeq _ _ a b) st st2 g g2 fs.
Proof.
  intros a b st st1 st2 g g1 g2 fs [A1 A2 A3 A4 A5] U1 [B1 B2 B3 B4 B5]. constructor; [exact B1|exact B2|exact B3| |].
  - intros U2 v H. destruct (B4 U2 v H) as [v1 [H1 C1]]. destruct (A4 U1 v1 H1) as [v0 [H0 C0]]. exists v0. split; [exact H0|].
    intros s Hs Hx. destruct (C0 s Hs Hx) as [ev [s1 [R1 [X1 W1]]]]. destruct (C1 s1 W1 X1) as [ev' [s2 [R2 [X2 W2]]]].
    exists (ev ++ ev'), s2. split; [now apply (r_seq _ _ _ _ _ _ _ a b s ev s1)|]. now split.
  - destruct A5 as [ra [EA SA]]. destruct B5 as [rb [EB SB]]. exists (ra ++ rb). split; [now rewrite EB, EA, app_assoc|].
    intros l r I0. apply in_app_or in I0. destruct I0 as [I0|I0]; [now apply (shown_first a b (g :: fs) ra SA)|].
    destruct (SB l r I0) as [t [-> K]]. exists t. split; [reflexivity|]. intros v Hv. destruct (K v Hv) as [v1 [K1 K2]].
    destruct (A4 U1 v1 K1) as [v0 [H0 C0]]. exists v0. split; [exact H0|].
    intros s Hs Hx. destruct (C0 s Hs Hx) as [ev [s1 [R1 [X1 W1]]]]. destruct (K2 s1 W1 X1) as [ev' [o [s2 [R2 I2]]]].
    exists (ev ++ ev'), o, s2. split; [now apply (r_seq _ _ _ _ _ _ _ a b s ev s1)|]. apply in_or_app. now right.
Qed.

Lemma seq_out_exact : forall a b st st1 g g1 fs, exact a st st1 g g1 fs -> unreachable g1 = true -> exact (SSeq _ _ a b) st st1 g g1 fs.
Proof.
  intros a b st st1 g g1 fs [A1 A2 A3 A4 A5] U1. constructor; [exact A1|exact A2|exact A3| |].
  - intros U. congruence.
  - destruct A5 as [ra [EA SA]]. exists ra. split; [exact EA|]. now apply shown_first.
Qed.

Lemma block_reachable : forall (f : state -> state) st g fs, frames _ st = g :: fs -> unreachable g = false -> block type f st = f st.
Proof. intros f st g fs E U. unfold block, FlowModel.is_unreachable. now rewrite E, U. Qed.

Lemma block_unreachable : forall (f : state -> state) st g fs, frames _ st = g :: fs -> unreachable g = true -> block type f st = st.
Proof. intros f st g fs E U. unfold block, FlowModel.is_unreachable. now rewrite E, U. Qed.

(** What a branch comes to, in the frame for its condition *)
Definition branch (s : stmt) (st st' : state) (g g' : frame) (fs : list frame) : Prop :=
  (unreachable g = true /\ g' = g /\ st' = st /\ frames _ st = g :: fs /\ sound_state st) \/
  (unreachable g = false /\ exact s st st' g g' fs /\ (unreachable g' = true \/ kept g g' fs)).

Lemma branch_frames : forall s st st' g g' fs, branch s st st' g g' fs -> frames _ st' = g' :: fs /\ sound_state st' /\ (unreachable g' = false -> unreachable g = false).
Proof.
  intros s st st' g g' fs [[H1 [-> [-> [H2 H3]]]]|[H1 [H2 H3]]]; [split; [exact H2|split; [exact H3|congruence]]|].
  split; [apply H2|]. split; [apply H2|]. intros _. exact H1.
Qed.

Lemma run_if : forall c a elif b v0 (r : bool) s, about c -> s x = Some v0 -> can c v0 r -> forall ev o s', runs (if r then a else b) s ev o s' ->
  runs (SIf _ _ c a elif b) s ev o s'.
Proof. intros c a elif b v0 r s A X C ev o s' R. econstructor; [now apply (can_holds c v0 r)|exact R]. Qed.

Lemma if_exact : forall c a elif b st g fs T F sa sb t f, about c -> begins st g fs ->
  divides T (g :: fs) (fun v => can c v true) -> divides F (g :: fs) (fun v => can c v false) ->
  branch a (push type T st) sa T t (g :: fs) -> branch b (push type F (snd (pop type sa))) sb F f (g :: fs) ->
  let st' := merge_conditional t f (snd (pop type sb)) in
  exists g', exact (SIf _ _ c a elif b) st st' g g' fs /\
    ((unreachable T = false -> unreachable t = false) -> (unreachable F = false -> unreachable f = false) -> kept g g' fs).
Proof.
  intros c a elif b st g fs T F sa sb t f A [E [Hs [U [S0 W]]]] [T1 [D1 R1]] [T2 [D2 R2]] Ba Bb st'.
  destruct (branch_frames _ _ _ _ _ _ Ba) as [Ea [Ha Va]]. destruct (branch_frames _ _ _ _ _ _ Bb) as [Eb [Hb Vb]].
  assert (P1 : frames _ (snd (pop type sb)) = g :: fs) by (unfold pop; rewrite Eb; reflexivity).
  assert (P2 : sound_state (snd (pop type sb))).
  { destruct Hb as [Hb1 Hb2]. split; [rewrite P1; rewrite Eb in Hb1; apply Hb1|]. unfold pop. rewrite Eb. exact Hb2. }
  assert (Et : entries_ok (f_entries _ t)) by (destruct Ha as [Ha1 _]; rewrite Ea in Ha1; now apply stack_entries in Ha1).
  assert (Ef : entries_ok (f_entries _ f)) by (destruct Hb as [Hb1 _]; rewrite Eb in Hb1; now apply stack_entries in Hb1).
  destruct (merge_conditional_at t f (snd (pop type sb)) g fs P1 P2 Et Ef) as [g' [G _]]. fold st' in G.
  pose proof (merge_conditional_changed type value simplified_union declared has union_has name [] t f (snd (pop type sb)) P2 Et Ef) as Ch. fold st' in Ch.
  assert (Za : reports _ (snd (pop type sa)) = reports _ sa) by (unfold pop; rewrite Ea; reflexivity).
  assert (Zb : reports _ (snd (pop type sb)) = reports _ sb) by (unfold pop; rewrite Eb; reflexivity).
  pose proof (merge_from t f (snd (pop type sb)) g fs P1 P2 Et Ef g') as From. fold st' in From.
  pose proof (merge_to t f (snd (pop type sb)) g fs P1 P2 Et Ef g') as To. fold st' in To.
  pose proof (merge_unchanged t f (snd (pop type sb)) g fs P1 P2 Et Ef g') as Same. fold st' in Same.
  pose proof (merge_stays t f (snd (pop type sb)) g fs P1 P2 Et Ef g') as Stays. fold st' in Stays.
  (* what the branches come to *)
  assert (Ka : unreachable t = false -> unreachable T = false /\ exact a (push type T st) sa T t (g :: fs) /\ kept T t (g :: fs)).
  { intros H. destruct Ba as [[B1 [B2 _]]|[B1 [B2 [B3|B3]]]]; [congruence|congruence|]. split; [exact B1|]. now split. }
  assert (Kb : unreachable f = false -> unreachable F = false /\ exact b (push type F (snd (pop type sa))) sb F f (g :: fs) /\ kept F f (g :: fs)).
  { intros H. destruct Bb as [[B1 [B2 _]]|[B1 [B2 [B3|B3]]]]; [congruence|congruence|]. split; [exact B1|]. now split. }
  assert (LT : unreachable T = false -> forall v, sees (T :: g :: fs) v <-> sees (g :: fs) v /\ can c v true) by (intros H v; rewrite <- D1; unfold live; tauto).
  assert (LF : unreachable F = false -> forall v, sees (F :: g :: fs) v <-> sees (g :: fs) v /\ can c v false) by (intros H v; rewrite <- D2; unfold live; tauto).
  assert (Nt : unreachable t = false -> changes t = false -> forall w, sees (t :: g :: fs) w -> sees (g :: fs) w).
  { intros H C w Hw. destruct (Ka H) as [UT [_ [_ K]]]. apply (proj2 (K C)) in Hw. now apply (LT UT) in Hw. }
  assert (Nf : unreachable f = false -> changes f = false -> forall w, sees (f :: g :: fs) w -> sees (g :: fs) w).
  { intros H C w Hw. destruct (Kb H) as [UT [_ [_ K]]]. apply (proj2 (K C)) in Hw. now apply (LF UT) in Hw. }
  assert (Ct : unreachable t = false -> forall v, sees (t :: g :: fs) v -> exists v0, sees (g :: fs) v0 /\ comes (SIf _ _ c a elif b) v0 v).
  { intros H v Hv. destruct (Ka H) as [UT [X _]]. destruct (x_comes _ _ _ _ _ _ X H v Hv) as [v0 [H0 C0]]. apply (LT UT) in H0. exists v0. split; [apply H0|].
    intros s Ws Xs. destruct (C0 s Ws Xs) as [ev [s' [R K]]]. exists ev, s'. split; [|exact K]. now apply (run_if c a elif b v0 true s A Xs (proj2 H0)). }
  assert (Cf : unreachable f = false -> forall v, sees (f :: g :: fs) v -> exists v0, sees (g :: fs) v0 /\ comes (SIf _ _ c a elif b) v0 v).
  { intros H v Hv. destruct (Kb H) as [UT [X _]]. destruct (x_comes _ _ _ _ _ _ X H v Hv) as [v0 [H0 C0]]. apply (LF UT) in H0. exists v0. split; [apply H0|].
    intros s Ws Xs. destruct (C0 s Ws Xs) as [ev [s' [R K]]]. exists ev, s'. split; [|exact K]. now apply (run_if c a elif b v0 false s A Xs (proj2 H0)). }
  assert (Some_t : unreachable t = false -> exists v, sees (t :: g :: fs) v) by (intros H; destruct (Ka H) as [_ [X _]]; apply (x_some _ _ _ _ _ _ X H)).
  assert (Some_f : unreachable f = false -> exists v, sees (f :: g :: fs) v) by (intros H; destruct (Kb H) as [_ [X _]]; apply (x_some _ _ _ _ _ _ X H)).
  exists g'. split.
  - constructor.
    + exact G.
    + destruct Ch as [_ [H1 [H2 _]]]. now split.
    + intros Ug. split.
      * destruct (unreachable t) eqn:Ut; [destruct (unreachable f) eqn:Uf|].
        -- exfalso. destruct (merge_conditional_at t f (snd (pop type sb)) g fs P1 P2 Et Ef) as [g1 [G1 [C1 _]]]. fold st' in G1. rewrite G in G1. injection G1 as <-.
           rewrite C1 in Ug by assumption. discriminate.
        -- destruct (Some_f eq_refl) as [v H]. exists v. apply (To v G Nt Nf). right. now split.
        -- destruct (Some_t eq_refl) as [v H]. exists v. apply (To v G Nt Nf). left. now split.
      * apply (Stays G Ug W).
        -- intros H. destruct (Ka H) as [_ [X _]]. apply (x_some _ _ _ _ _ _ X H).
        -- intros H. destruct (Kb H) as [_ [X _]]. apply (x_some _ _ _ _ _ _ X H).
    + intros Ug v Hv. destruct (From v G Ug Hv) as [[H1 H2]|[[H1 H2]|[H1 [H2 [H3 [H4 H5]]]]]]; [now apply Ct|now apply Cf|].
      destruct (Ka H1) as [UT [_ [_ KT]]]. destruct (Kb H2) as [UF [_ [_ KF]]]. destruct (can_some c v) as [C|C].
      * apply Ct; [exact H1|]. apply (proj2 (KT H3)). now apply (LT UT).
      * apply Cf; [exact H2|]. apply (proj2 (KF H4)). now apply (LF UF).
    + assert (Ra : exists rs, reports _ sa = reports _ st ++ rs /\ shown (SIf _ _ c a elif b) (g :: fs) rs).
      { destruct Ba as [[_ [_ [-> _]]]|[B1 [B2 _]]]; [exists []; split; [now rewrite app_nil_r|intros l r []]|].
        destruct (x_reports _ _ _ _ _ _ B2) as [rs [R Sh]]. exists rs. split; [exact R|]. intros l r I0. destruct (Sh l r I0) as [ty [-> K]].
        exists ty. split; [reflexivity|]. intros v Hv. destruct (K v Hv) as [v0 [K1 K2]]. apply (LT B1) in K1. exists v0. split; [apply K1|].
        intros s Ws Xs. destruct (K2 s Ws Xs) as [ev [o [s' [Rn I1]]]]. exists ev, o, s'. split; [|exact I1]. now apply (run_if c a elif b v0 true s A Xs (proj2 K1)). }
      assert (Rb : exists rs, reports _ sb = reports _ (snd (pop type sa)) ++ rs /\ shown (SIf _ _ c a elif b) (g :: fs) rs).
      { destruct Bb as [[_ [_ [-> _]]]|[B1 [B2 _]]]; [exists []; split; [now rewrite app_nil_r|intros l r []]|].
        destruct (x_reports _ _ _ _ _ _ B2) as [rs [R Sh]]. exists rs. split; [exact R|]. intros l r I0. destruct (Sh l r I0) as [ty [-> K]].
        exists ty. split; [reflexivity|]. intros v Hv. destruct (K v Hv) as [v0 [K1 K2]]. apply (LF B1) in K1. exists v0. split; [apply K1|].
        intros s Ws Xs. destruct (K2 s Ws Xs) as [ev [o [s' [Rn I1]]]]. exists ev, o, s'. split; [|exact I1]. now apply (run_if c a elif b v0 false s A Xs (proj2 K1)). }
      destruct Ra as [ra [Ra1 Ra2]]. destruct Rb as [rb [Rb1 Rb2]]. exists (ra ++ rb). split.
      * destruct Ch as [_ [_ [_ [_ [_ ->]]]]]. now rewrite Zb, Rb1, Za, Ra1, app_assoc.
      * intros l r I0. apply in_app_or in I0. destruct I0 as [I0|I0]; [now apply (Ra2 l r)|now apply (Rb2 l r)].
  - intros HT HF.
    assert (Ug : unreachable g' = false).
    { destruct S0 as [v S0]. destruct (can_some c v) as [C|C].
      - destruct (proj2 (D1 v) (conj S0 C)) as [UT _]. destruct (Some_t (HT UT)) as [w Hw]. rewrite <- U. apply (To w G Nt Nf). left. split; [now apply HT|exact Hw].
      - destruct (proj2 (D2 v) (conj S0 C)) as [UF _]. destruct (Some_f (HF UF)) as [w Hw]. rewrite <- U. apply (To w G Nt Nf). right. split; [now apply HF|exact Hw]. }
    split; [exact Ug|]. intros C. destruct (Same G Ug C) as [M1 [M2 [M3 M4]]]. split; [exact M3|].
    destruct (unreachable t) eqn:Ut, (unreachable f) eqn:Uf.
    + exfalso. destruct (merge_conditional_at t f (snd (pop type sb)) g fs P1 P2 Et Ef) as [g1 [G1 [C1 _]]]. fold st' in G1. rewrite G in G1. injection G1 as <-.
      rewrite C1 in Ug by assumption. discriminate.
    + assert (UT : unreachable T = true) by (destruct (unreachable T); [reflexivity|discriminate (HT eq_refl)]).
      destruct (Kb eq_refl) as [UF [_ [_ KF]]]. specialize (KF (M2 eq_refl)). destruct KF as [_ KF].
      assert (Y : forall v, sees (g :: fs) v <-> sees (f :: g :: fs) v).
      { intros v. rewrite KF, (LF UF). specialize (D1 v). unfold live in D1. rewrite UT in D1. pose proof (can_some c v). pose proof diff_true_false. tauto. }
      intros v. split.
      * intros Hv. destruct (From v G Ug Hv) as [[H1 H2]|[[H1 H2]|[H1 _]]]; [discriminate|now apply Y|discriminate].
      * intros Hv. apply (To v G Nt Nf). right. split; [reflexivity|]. now apply Y.
    + assert (UF : unreachable F = true) by (destruct (unreachable F); [reflexivity|discriminate (HF eq_refl)]).
      destruct (Ka eq_refl) as [UT [_ [_ KT]]]. specialize (KT (M1 eq_refl)). destruct KT as [_ KT].
      assert (Y : forall v, sees (g :: fs) v <-> sees (t :: g :: fs) v).
      { intros v. rewrite KT, (LT UT). specialize (D2 v). unfold live in D2. rewrite UF in D2. pose proof (can_some c v). pose proof diff_true_false. tauto. }
      intros v. split.
      * intros Hv. destruct (From v G Ug Hv) as [[H1 H2]|[[H1 H2]|[_ [H1 _]]]]; [now apply Y|discriminate|discriminate].
      * intros Hv. apply (To v G Nt Nf). left. split; [reflexivity|]. now apply Y.
    + exact (M4 eq_refl eq_refl).
Qed.

Lemma pop_state : forall s st st' g g' fs, branch s st st' g g' fs -> pop type st' = (g', snd (pop type st')).
Proof. intros s st st' g g' fs B. destruct (branch_frames _ _ _ _ _ _ B) as [E _]. unfold pop. now rewrite E. Qed.

(** A frame on top of where a branch begins *)
Lemma push_begins : forall f st p, sound_state st -> divides f (frames _ st) p -> unreachable f = false -> begins (push type f st) f (frames _ st).
Proof.
  intros f st p [H1 H2] [T [_ R]] U. split; [reflexivity|]. split; [split; [now apply tiny_stack|exact H2]|]. split; [exact U|exact (R U)].
Qed.

Lemma push_dead : forall f st p, sound_state st -> divides f (frames _ st) p -> sound_state (push type f st).
Proof. intros f st p [H1 H2] [T _]. split; [now apply tiny_stack|exact H2]. Qed.

Definition goes (s : stmt) : Prop :=
  forall st g fs, elifs s st -> begins st g fs -> exists g', exact s st (analyse s st) g g' fs /\ (unreachable g' = true \/ kept g g' fs).

(** What is done for a branch, given what the statements in it do *)
Lemma if_analysed : forall c a elif b st g fs, goes a -> goes b -> about c -> elifs (SIf _ _ c a elif b) st -> begins st g fs ->
  exists T F t f g', exact (SIf _ _ c a elif b) st (analyse (SIf _ _ c a elif b) st) g g' fs /\
    (unreachable T = false -> begins (push type T st) T (g :: fs) /\ elifs a (push type T st) /\ exact a (push type T st) (analyse a (push type T st)) T t (g :: fs)) /\
    (unreachable F = false -> exists st1, begins st1 F (g :: fs) /\ elifs b st1 /\ exact b st1 (analyse b st1) F f (g :: fs)) /\
    ((unreachable T = false -> unreachable t = false) -> (unreachable F = false -> unreachable f = false) -> kept g g' fs).
Proof.
  intros c a elif b st g fs Ga Gb A L B. pose proof B as [E [Hs [U [S0 W]]]].
  destruct (guards_divide c st A (proj1 Hs)) as [T [F [Gd [D1 D2]]]]; [now rewrite E|now rewrite E|].
  cbn [elifs] in L. rewrite Gd in L. destruct L as [L1 [L2 L3]].
  cbn [FlowModel.analyse]. rewrite Gd.
  (* the first branch *)
  assert (Xa : exists t, branch a (push type T st) (block type (analyse a) (push type T st)) T t (frames _ st)).
  { destruct (unreachable T) eqn:UT.
    - exists T. left. split; [exact UT|]. split; [reflexivity|]. split; [now apply (block_unreachable _ _ T (frames _ st))|]. split; [reflexivity|]. now apply (push_dead _ _ _ Hs D1).
    - pose proof (push_begins T st _ Hs D1 UT) as BT. destruct (Ga _ _ _ (L2 eq_refl) BT) as [t [X K]]. exists t. right. split; [exact UT|].
      rewrite (block_reachable _ _ T (frames _ st)) by (reflexivity || exact UT). now split. }
  destruct Xa as [t Ba]. pose proof (pop_state _ _ _ _ _ _ Ba) as Pa. set (sa := block type (analyse a) (push type T st)) in *. rewrite Pa.
  destruct (branch_frames _ _ _ _ _ _ Ba) as [Ea [Ha _]].
  assert (Fa : frames _ (snd (pop type sa)) = frames _ st) by (unfold pop; now rewrite Ea).
  assert (Hsa : sound_state (snd (pop type sa))).
  { destruct Ha as [Ha1 Ha2]. split; [rewrite Fa; apply Hs|]. unfold pop. rewrite Ea. exact Ha2. }
  assert (D2' : divides F (frames _ (snd (pop type sa))) (fun v => can c v false)) by now rewrite Fa.
  (* the second one *)
  assert (Xb : exists f, branch b (push type F (snd (pop type sa))) ((if elif then analyse b else block type (analyse b)) (push type F (snd (pop type sa)))) F f (frames _ st)).
  { destruct (unreachable F) eqn:UF.
    - assert (elif = false) as -> by (destruct elif; [now specialize (L1 eq_refl)|reflexivity]).
      exists F. left. split; [exact UF|]. split; [reflexivity|]. split; [now apply (block_unreachable _ _ F (frames _ (snd (pop type sa))))|].
      split; [cbn; now rewrite Fa|]. now apply (push_dead _ _ _ Hsa D2').
    - pose proof (push_begins F _ _ Hsa D2' UF) as BF. destruct (Gb _ _ _ (L3 eq_refl) BF) as [f [X K]]. rewrite Fa in X, K. exists f. right. split; [exact UF|].
      destruct elif; [now split|]. rewrite (block_reachable _ _ F (frames _ (snd (pop type sa)))) by (reflexivity || exact UF). now split. }
  destruct Xb as [f Bb]. pose proof (pop_state _ _ _ _ _ _ Bb) as Pb.
  set (sb := (if elif then analyse b else block type (analyse b)) (push type F (snd (pop type sa)))) in *. rewrite Pb.
  rewrite E in *. destruct (if_exact c a elif b st g fs T F sa sb t f A B D1 D2 Ba Bb) as [g' [X K]].
  exists T, F, t, f, g'. split; [exact X|]. split; [|split; [|exact K]].
  - intros UT. pose proof (push_begins T st (fun v => can c v true) Hs) as BT. rewrite E in BT. split; [now apply BT|]. split; [now apply L2|].
    destruct Ba as [[B1 _]|[_ [B1 _]]]; [congruence|]. unfold sa in B1. now rewrite (block_reachable _ _ T (frames _ st)) in B1 by (reflexivity || exact UT).
  - intros UF. exists (push type F (snd (pop type sa))). pose proof (push_begins F _ _ Hsa D2' UF) as BF. rewrite Fa in BF. split; [exact BF|]. split; [now apply L3|].
    destruct Bb as [[B1 _]|[_ [B1 _]]]; [congruence|]. unfold sb in B1. destruct elif; [exact B1|].
    now rewrite (block_reachable _ _ F (frames _ (snd (pop type sa)))) in B1 by (reflexivity || exact UF).
Qed.

Lemma exact_begins : forall s st st' g g' fs, exact s st st' g g' fs -> unreachable g' = false -> begins st' g' fs.
Proof. intros s st st' g g' fs X U. split; [apply X|]. split; [apply X|]. split; [exact U|]. exact (x_some _ _ _ _ _ _ X U). Qed.

Lemma exact_same : forall s st st' g g1 g2 fs, exact s st st' g g1 fs -> exact s st st' g g2 fs -> g1 = g2.
Proof. intros s st st' g g1 g2 fs [A _ _ _ _] [B _ _ _ _]. congruence. Qed.

Lemma kept_trans : forall g g1 g2 fs, kept g g1 fs -> kept g1 g2 fs -> kept g g2 fs.
Proof.
  intros g g1 g2 fs [A1 A2] [B1 B2]. split; [exact B1|]. intros C. destruct (B2 C) as [B3 B4]. destruct (A2 B3) as [A3 A4]. split; [exact A3|].
  intros v. rewrite B4. apply A4.
Qed.

Theorem ending_exact : forall s, ending s -> forall st g fs, elifs s st -> begins st g fs ->
  exists g', exact s st (analyse s st) g g' fs /\ kept g g' fs.
Proof.
  induction s as [|l k|k e|k|a IHa b IHb|c a IHa elif b IHb|c body IHbody orelse IHorelse|k t body IHbody orelse IHorelse| | | | |c
                 |body IHbody hs orelse finally IHfinally|body IHbody]; intros En st g fs L B; cbn [ending] in En; try contradiction.
  - exists g. split; [now apply skip_exact|]. split; [apply B|]. intros H. split; [exact H|reflexivity].
  - subst k. exists g. split; [now apply reveal_exact|]. split; [apply B|]. intros H. split; [exact H|reflexivity].
  - destruct e as [t|k']; [|contradiction]. now apply assign_exact.
  - destruct En as [Ea Eb]. cbn [elifs] in L. destruct L as [La Lb]. destruct (IHa Ea st g fs La B) as [g1 [X1 K1]].
    pose proof (exact_begins _ _ _ _ _ _ X1 (proj1 K1)) as B1. rewrite (block_reachable _ st g fs) in Lb by apply B.
    destruct (IHb Eb _ _ _ Lb B1) as [g2 [X2 K2]]. exists g2. cbn [FlowModel.analyse].
    rewrite (block_reachable _ st g fs) by apply B. rewrite (block_reachable _ _ g1 fs) by apply B1.
    split; [apply (seq_exact a b st (analyse a st) _ g g1); [exact X1|apply K1|exact X2]|]. now apply (kept_trans g g1).
  - destruct En as [A [Ea Eb]].
    assert (Ga : goes a) by (intros st0 g0 fs0 L0 B0; destruct (IHa Ea st0 g0 fs0 L0 B0) as [g' [X K]]; exists g'; split; [exact X|now right]).
    assert (Gb : goes b) by (intros st0 g0 fs0 L0 B0; destruct (IHb Eb st0 g0 fs0 L0 B0) as [g' [X K]]; exists g'; split; [exact X|now right]).
    destruct (if_analysed c a elif b st g fs Ga Gb A L B) as [T [F [t [f [g' [X [XT [XF K]]]]]]]]. exists g'. split; [exact X|]. apply K.
    + intros UT. destruct (XT UT) as [B1 [L1 X1]]. destruct (IHa Ea _ _ _ L1 B1) as [t' [X2 K2]]. rewrite (exact_same _ _ _ _ _ _ _ X1 X2). apply K2.
    + intros UF. destruct (XF UF) as [st1 [B1 [L1 X1]]]. destruct (IHb Eb _ _ _ L1 B1) as [t' [X2 K2]]. rewrite (exact_same _ _ _ _ _ _ _ X1 X2). apply K2.
Qed.

Lemma leaving_exact : forall s, leaving s -> forall st g fs, elifs s st -> begins st g fs ->
  exists g', exact s st (analyse s st) g g' fs /\ unreachable g' = true.
Proof.
  induction s as [|l k|k e|k|a IHa b IHb|c a IHa elif b IHb|c body IHbody orelse IHorelse|k t body IHbody orelse IHorelse| | | | |c
                 |body IHbody hs orelse finally IHfinally|body IHbody]; intros Le st g fs L B; cbn [leaving] in Le; try contradiction.
  - destruct Le as [Ea Eb]. cbn [elifs] in L. destruct L as [La Lb]. destruct (ending_exact a Ea st g fs La B) as [g1 [X1 K1]].
    pose proof (exact_begins _ _ _ _ _ _ X1 (proj1 K1)) as B1. rewrite (block_reachable _ st g fs) in Lb by apply B.
    destruct (IHb Eb _ _ _ Lb B1) as [g2 [X2 K2]]. exists g2. cbn [FlowModel.analyse].
    rewrite (block_reachable _ st g fs) by apply B. rewrite (block_reachable _ _ g1 fs) by apply B1.
    split; [|exact K2]. apply (seq_exact a b st (analyse a st) _ g g1); [exact X1|apply K1|exact X2].
  - apply leave_exact; [now left|exact B].
  - apply leave_exact; [now right|exact B].
Qed.

Lemma assert_exact : forall c st g fs, about c -> begins st g fs -> exists g', exact (SAssert _ _ c) st (analyse (SAssert _ _ c) st) g g' fs.
Proof.
  intros c st g fs A [E [Hs [U [S0 W]]]].
  destruct (guards_divide c st A (proj1 Hs)) as [T [F [Gd [[T1 [D1 R1]] _]]]]; [now rewrite E|now rewrite E|].
  cbn [FlowModel.analyse]. rewrite Gd. rewrite E in D1, R1. assert (Hst : stack_ok (g :: fs)) by (rewrite <- E; apply Hs).
  destruct (overwrite_entries_at (f_entries _ T) false st g fs E Hst (tiny_ok T T1)) as [g1 [G1 [G2 G3]]].
  pose proof (overwrite_entries_evolved type value declared has name [] (f_entries _ T) false st Hs (tiny_ok T T1)) as V.
  pose proof (evolved_sound type value declared has name [] _ _ V) as Hs1.
  assert (Rp : reports _ (overwrite_entries type (f_entries _ T) false st) = reports _ st) by apply V.
  unfold overwrite_frame. cbv zeta. destruct (unreachable T) eqn:UT.
  - exists (Frame type (f_entries _ g1) true). unfold mark_unreachable. rewrite G1. constructor; cbn [set_frames frames f_unreachable reports]; try discriminate.
    + reflexivity.
    + destruct Hs1 as [H1 H2]. rewrite G1 in H1. split; [exact H1|exact H2].
    + exists []. split; [now rewrite app_nil_r|]. intros l r [].
  - assert (Y : forall v, sees (g1 :: fs) v <-> sees (T :: g :: fs) v).
    { intros v. rewrite !sees_frame, G3. fold (at_name T). destruct (at_name T) as [e|]; [now rewrite put_on_kind|]. now rewrite <- sees_frame. }
    exists g1. constructor.
    + exact G1.
    + exact Hs1.
    + intros _. destruct (R1 eq_refl) as [S1 W1]. split; [destruct S1 as [v S1]; exists v; now apply Y|].
      unfold within in *. rewrite seen_frame, G3. rewrite seen_frame in W1. fold (at_name T). destruct (at_name T) as [e|]; [now rewrite put_on_kind|].
      now rewrite <- seen_frame.
    + intros _ v H. apply Y in H. assert (Lv : live T (g :: fs) v) by now split. apply D1 in Lv. exists v. split; [apply Lv|].
      intros s Ws Xs. exists [], s. split; [|now split]. apply (r_assert _ _ _ _ _ _ _ c s (Some true) s). now apply (can_holds c v true).
    + exists []. split; [now rewrite app_nil_r|]. intros l r [].
Qed.

Theorem guarded_exact : forall s, guarded s -> forall st g fs, elifs s st -> begins st g fs ->
  exists g', exact s st (analyse s st) g g' fs.
Proof.
  induction s as [|l k|k e|k|a IHa b IHb|c a IHa elif b IHb|c body IHbody orelse IHorelse|k t body IHbody orelse IHorelse| | | | |c
                 |body IHbody hs orelse finally IHfinally|body IHbody]; intros Gu st g fs L B; cbn [guarded] in Gu; try contradiction.
  - exists g. now apply skip_exact.
  - subst k. exists g. now apply reveal_exact.
  - destruct e as [t|k']; [|contradiction]. destruct (assign_exact k t st g fs Gu B) as [g' [X _]]. now exists g'.
  - destruct Gu as [Ea Eb]. cbn [elifs] in L. destruct L as [La Lb]. destruct (IHa Ea st g fs La B) as [g1 X1].
    rewrite (block_reachable _ st g fs) in Lb by apply B. cbn [FlowModel.analyse]. rewrite (block_reachable _ st g fs) by apply B.
    destruct (unreachable g1) eqn:U1.
    + exists g1. rewrite (block_unreachable _ _ g1 fs) by (apply X1 || exact U1). now apply seq_out_exact.
    + pose proof (exact_begins _ _ _ _ _ _ X1 U1) as B1. destruct (IHb Eb _ _ _ Lb B1) as [g2 X2]. exists g2.
      rewrite (block_reachable _ _ g1 fs) by apply B1. apply (seq_exact a b st (analyse a st) _ g g1); [exact X1|exact U1|exact X2].
  - destruct Gu as [A [Ea Eb]].
    assert (Go : forall s, ending s \/ leaving s -> goes s).
    { intros s [H|H] st0 g0 fs0 L0 B0; [destruct (ending_exact s H st0 g0 fs0 L0 B0) as [g' [X K]]|destruct (leaving_exact s H st0 g0 fs0 L0 B0) as [g' [X K]]];
        exists g'; (split; [exact X|]); [now right|now left]. }
    destruct (if_analysed c a elif b st g fs (Go a Ea) (Go b Eb) A L B) as [T [F [t [f [g' [X _]]]]]]. now exists g'.
  - destruct (leave_exact (SReturn _ _) st g fs) as [g' [X _]]; [now left|exact B|now exists g'].
  - destruct (leave_exact (SRaise _ _) st g fs) as [g' [X _]]; [now right|exact B|now exists g'].
  - now apply assert_exact.
Qed.

(** At the beginning nothing is known but the declaration *)
Lemma start_begins : forall params, NoDup params -> (exists v, has (declared x) v) ->
  exists g, begins (start type params) g [] /\ forall v, sees [g] v <-> has (declared x) v.
Proof.
  intros params Hn [v Hv]. unfold start. set (es := map (fun m => Entry type (Name m) (Declaration _) true false) params). exists (Frame type es false).
  assert (A : match find_entry x es with Some e => e_kind _ e = Declaration _ | None => True end).
  { unfold es. clear. induction params as [|m params IH]; [exact Logic.I|]. cbn [map]. unfold FlowModel.find_entry in *. cbn [find e_key].
    destruct (equals (Name m) x); [reflexivity|exact IH]. }
  assert (Sn : forall w, has (seen [Frame type es false]) w <-> has (declared x) w).
  { intros w. unfold seen. cbn [FlowModel.lookup f_entries]. destruct (find_entry x es) as [e|]; [|reflexivity]. unfold kind_of. now rewrite A. }
  assert (Se : forall w, sees [Frame type es false] w <-> has (declared x) w) by (intros w; unfold sees; rewrite Sn; tauto).
  split; [|exact Se]. split; [reflexivity|]. split.
  - split; [|constructor]. split; [|intros k [m [[] _]]]. cbn [f_entries]. split.
    + unfold keys, es. rewrite map_map. cbn [e_key]. apply FinFun.Injective_map_NoDup; [|exact Hn]. intros p q H. now injection H.
    + apply Forall_forall. intros e I0. unfold es in I0. apply in_map_iff in I0 as [m [<- _]]. split; [now exists m|discriminate].
  - split; [reflexivity|]. split; [exists v; now apply Se|]. split; [|intros w H; now apply Sn].
    unfold seen. cbn [FlowModel.lookup f_entries]. destruct (find_entry x es) as [e|]; [|exact regular_declared]. unfold kind_of. now rewrite A.
Qed.

(** Every value of the type shown at a place is found there *)
Definition attained (body : stmt) (l : N) (v : value) : Prop :=
  exists v0, has (declared x) v0 /\
  forall a, well_typed a -> a x = Some v0 -> exists ev o b, runs body a ev o b /\ In (l, v) ev.

Theorem function_exact : forall params body, NoDup params -> (exists v, has (declared x) v) -> guarded body -> elifs body (start type params) ->
  forall l r, In (l, r) (reports _ (block type (analyse body) (start type params))) ->
  exists t, r = Revealed _ t /\ forall v, has t v -> attained body l v.
Proof.
  intros params body Hn Hv Gu L l r I0. destruct (start_begins params Hn Hv) as [g [B Se]].
  rewrite (block_reachable _ _ g []) in I0 by apply B. destruct (guarded_exact body Gu _ _ _ L B) as [g' X].
  destruct (x_reports _ _ _ _ _ _ X) as [rs [R Sh]]. rewrite R in I0. cbn [app start reports] in I0. destruct (Sh l r I0) as [t [-> K]].
  exists t. split; [reflexivity|]. intros v Hw. destruct (K v Hw) as [v0 [K1 K2]]. exists v0. split; [exact (proj1 (Se v0) K1)|exact K2].
Qed.

End Exact.
