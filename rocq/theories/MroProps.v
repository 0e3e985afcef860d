(** C14: class linearisation and Python's C3 algorithm.  C15: each ancestor exactly once. *)
From Coq Require Import List Bool Arith Lia.
From Verif Require Import MroModel MroSpec MroProofs.
Import ListNotations.

(** ** C14 *)

(** If Python accepts a program, no class is reported and all computed orders are those of Python, provided that every
    class has at most two bases, or that the computed order keeps the order of its bases. *)
Theorem C14_like_python_partial : forall defs table,
  python_accepts defs table ->
  (forall k bases, nth_error defs k = Some bases ->
     length bases <= 2 \/ subsequence bases (stored_in (class_table defs) (S k) ++ [0])) ->
  forall c, c <= length defs -> exists mro,
    nth_error (class_table defs) c = Some (mro, true) /\ nth c table [] = whole c mro.
Proof.
  intros defs table H Ho c Hc. destruct (program_python defs table H Ho) as (Hw & Hacc & Hl & Ha).
  destruct (nth_error (class_table defs) c) as [[m b]|] eqn:E.
  - exists m. pose proof (Hacc _ (nth_error_In _ _ E)) as Hb. cbn in Hb. subst b. split; [reflexivity|].
    rewrite (Ha c Hc). unfold stored_in. now rewrite (nth_error_nth _ _ _ E).
  - exfalso. apply nth_error_None in E. rewrite class_table_length in E. lia.
Qed.

(** If Python rejects a program (there is no table), some class is reported, under the same proviso. *)
Theorem C14_rejected_is_reported_partial : forall defs, well_scoped defs ->
  (forall k bases, nth_error defs k = Some bases ->
     length bases <= 2 \/ subsequence bases (stored_in (class_table defs) (S k) ++ [0])) ->
  (forall table, ~ python_accepts defs table) ->
  exists c mro, nth_error (class_table defs) c = Some (mro, false).
Proof.
  intros defs Hw Ho Hno.
  destruct (forallb snd (class_table defs)) eqn:E.
  - exfalso. rewrite forallb_forall in E. destruct (program_accepted defs Hw E Ho) as (t & Ht & _). exact (Hno t Ht).
  - assert (W : exists e, In e (class_table defs) /\ snd e = false).
    { clear -E. induction (class_table defs) as [|e l IH]; [discriminate|]. cbn in E. destruct (snd e) eqn:Es.
      - destruct (IH E) as (e' & He & Hs). exists e'. split; [now right|exact Hs].
      - exists e. split; [now left|exact Es]. }
    destruct W as ([m b] & He & Hb). cbn in Hb. subst b. apply In_nth_error in He. destruct He as [c Hc]. eauto.
Qed.

(** Any number of bases: a class definition that Python accepts is never reported, if the orders of its bases are the
    ones of Python. *)
Theorem C14_valid_class_not_reported : forall defs table bases r,
  length table = S (length defs) ->
  (forall k, k <= length defs -> nth k table [] = whole k (stored_in (class_table defs) k)) ->
  (forall b, In b bases -> b < length table) ->
  python_mro (fun b => nth b table []) (match bases with [] => [0] | _ => bases end) r ->
  exists mro, nth_error (class_table (defs ++ [bases])) (S (length defs)) = Some (mro, true).
Proof.
  intros defs table bases r Hl Ha Hb Hr.
  change (match bases with [] => [0] | _ :: _ => bases end) with (effective bases) in Hr.
  assert (Hag : agree defs table) by (split; auto).
  assert (Hr' : python_mro (full_of (stored_in (class_table defs))) (effective bases) r).
  { eapply c3_ext; [|exact Hr]. intros b Hbe. apply agree_full; [exact Hag|]. eapply effective_in; [|exact Hb|exact Hbe]. lia. }
  pose proof (effective_nodup _ (python_nodup _ _ _ Hr)) as Hnd.
  destruct (valid_accepted _ (stored_no_object defs) (stored_in_object defs) _ _ Hr') as [m Hm].
  destruct (define_class_entry (class_table defs) bases _ _ (distinct_true _ Hnd)) as (m' & lin & El & Et).
  rewrite Hm in El. injection El as <- <-. exists m.
  rewrite class_table_app, Et, <- class_table_length, nth_error_app2, Nat.sub_diag by lia. reflexivity.
Qed.

(** Concrete programs.  1: A, 2: B(A), 3: C(A), 4: D(B, C), 5: E(D, object). *)
Definition diamond : list (list nat) := [[]; [1]; [1]; [2; 3]; [4; 0]].

Example diamond_table : map fst (class_table diamond) = [[]; []; [1]; [1]; [2; 3; 1]; [4; 2; 3; 1]] /\
  forallb snd (class_table diamond) = true.
Proof. split; reflexivity. Qed.

Example diamond_orderly : forall k bases, nth_error diamond k = Some bases ->
  length bases <= 2 \/ subsequence bases (stored_in (class_table diamond) (S k) ++ [0]).
Proof.
  intros k bases H. left. do 5 (destruct k as [|k]; [injection H as <-; cbn; lia|]). destruct k; discriminate.
Qed.

Example diamond_scoped : well_scoped diamond.
Proof.
  intros k bases b H Hb. do 5 (destruct k as [|k]; [injection H as <-; cbn in Hb; lia|]). destruct k; discriminate.
Qed.

Example diamond_python : exists table, python_accepts diamond table /\ nth 5 table [] = [5; 4; 2; 3; 1; 0].
Proof.
  destruct (program_accepted diamond diamond_scoped) as (t & Ht & Hag).
  - intros e He. cbn in He. repeat (destruct He as [<-|He]; [reflexivity|]). contradiction.
  - exact diamond_orderly.
  - exists t. split; [exact Ht|]. destruct Hag as [_ Ha]. rewrite (Ha 5) by (cbn; lia). reflexivity.
Qed.

(** With three bases the order can differ from Python's.
<<
class C: ...          # 1
class A(C): ...       # 2
class B: ...          # 3
class X(A, B, C): ... # 4
>>
    Python: A, B, C.  Computed: A, C, B, without an error. *)
Definition three : list (list nat) := [[]; [1]; []; [2; 3; 1]].

Lemma c3_step_eq : forall lists before h after r tails,
  heads lists = before ++ h :: after -> concat (map (@tl nat) lists) = tails ->
  ~ In h tails -> (forall h', In h' before -> In h' tails) ->
  c3_merge (map (drop_head h) lists) r -> c3_merge lists (h :: r).
Proof.
  intros lists before h after r tails E Et N Hb Hr.
  assert (W : forall x, In x tails <-> in_tails x lists).
  { intros x. rewrite <- Et, in_concat. split.
    - intros (t & Ht & Hx). apply in_map_iff in Ht. destruct Ht as (l & <- & Hl). exists l. auto.
    - intros (l & Hl & Hx). exists (tl l). split; [now apply in_map|exact Hx]. }
  eapply c3_step; [exact E|rewrite <- W; exact N| |exact Hr]. intros h' Hh. apply W. auto.
Qed.

Ltac c3_take before after :=
  eapply (c3_step_eq _ before _ after); [reflexivity|cbn; reflexivity|cbn; lia|cbn; try lia; try tauto|cbn].
Ltac c3_end := apply c3_done; cbn; intuition congruence.

Theorem C14_three_bases_refuted :
  (exists table, python_accepts three table /\ nth 4 table [] = [4; 2; 3; 1; 0]) /\
  nth_error (class_table three) 4 = Some ([2; 1; 3], true).
Proof.
  split; [|reflexivity]. exists [[0]; [1; 0]; [2; 1; 0]; [3; 0]; [4; 2; 3; 1; 0]]. split; [|reflexivity].
  change three with (((([] ++ [[]]) ++ [[1]]) ++ [[]]) ++ [[2; 3; 1]]).
  change [[0]; [1; 0]; [2; 1; 0]; [3; 0]; [4; 2; 3; 1; 0]] with
    ((((([[0]] ++ [length [[0]] :: [0]]) ++ [length [[0]; [1; 0]] :: [1; 0]])
      ++ [length [[0]; [1; 0]; [2; 1; 0]] :: [0]]) ++ [length [[0]; [1; 0]; [2; 1; 0]; [3; 0]] :: [2; 3; 1; 0]])).
  apply (pa_class _ [[0]; [1; 0]; [2; 1; 0]; [3; 0]]).
  - apply (pa_class _ [[0]; [1; 0]; [2; 1; 0]]).
    + apply (pa_class _ [[0]; [1; 0]]).
      * apply (pa_class _ [[0]]); [apply pa_nil|intros b []|]. unfold python_mro. cbn.
        c3_take (@nil nat) [0]. c3_end.
      * cbn; lia.
      * unfold python_mro. cbn. c3_take (@nil nat) [1]. c3_take (@nil nat) (@nil nat). c3_end.
    + intros b [].
    + unfold python_mro. cbn. c3_take (@nil nat) [0]. c3_end.
  - cbn; lia.
  - unfold python_mro. cbn. c3_take (@nil nat) [3; 1; 2]. c3_take [1] [1; 3]. c3_take (@nil nat) [0; 1; 1].
    c3_take (@nil nat) [0; 0]. c3_end.
Qed.

(** A class that Python rejects and that is not reported.
<<
class A: ...          # 1
class B: ...          # 2
class D(B): ...       # 3
class X(A, B, D): ... # 4
>> *)
Definition hidden : list (list nat) := [[]; []; [2]; [1; 2; 3]].

Theorem C14_rejected_not_reported_refuted :
  (forall table, ~ python_accepts hidden table) /\ forallb snd (class_table hidden) = true.
Proof.
  split; [|reflexivity]. intros table H. inversion H as [|defs t bases r H1 Hb Hr Ed]; subst.
  change hidden with ([[]; []; [2]] ++ [[1; 2; 3]]) in Ed. apply app_inj_tail in Ed. destruct Ed as [-> ->].
  assert (Ho : orderly [[]; []; [2]]).
  { intros k bases Hk. left. do 3 (destruct k as [|k]; [injection Hk as <-; cbn; lia|]). destruct k; discriminate. }
  destruct (program_python _ _ H1 Ho) as (_ & _ & Hl & Ha).
  pose proof (Ha 1 ltac:(cbn; lia)) as E1. pose proof (Ha 2 ltac:(cbn; lia)) as E2. pose proof (Ha 3 ltac:(cbn; lia)) as E3.
  unfold python_mro in Hr. cbn [map app] in Hr. rewrite E1, E2, E3 in Hr. cbn in Hr.
  assert (S1 : subsequence [2; 3] r).
  { eapply subsequence_trans; [apply (c3_subsequence _ _ Hr [1; 2; 3]); cbn; tauto|]. apply sub_skip, sub_take, sub_take, sub_nil. }
  assert (S2 : subsequence [3; 2] r).
  { eapply subsequence_trans; [apply (c3_subsequence _ _ Hr [3; 2; 0]); cbn; tauto|].
    apply sub_take, sub_take, sub_skip, sub_nil. }
  eapply sub_pair_absurd; [exact (c3_nodup _ _ Hr)|exact S1|exact S2].
Qed.

(** A rejected program to which [C14_rejected_is_reported_partial] applies: [class A], [class B(A)], [class X(A, B)]. *)
Definition inconsistent : list (list nat) := [[]; [1]; [1; 2]].

Example inconsistent_reported : nth_error (class_table inconsistent) 3 = Some ([], false).
Proof. reflexivity. Qed.

(** ** C15 *)

(** If no class is reported among a class and its ancestors, its order has every ancestor except object, once. *)
Theorem C15_each_ancestor_once_partial : forall defs c mro, well_scoped defs ->
  nth_error (class_table defs) c = Some (mro, true) ->
  (forall a, ancestor defs c a -> exists m, nth_error (class_table defs) a = Some (m, true)) ->
  NoDup mro /\ forall a, In a mro <-> a <> 0 /\ ancestor defs c a.
Proof. intros defs c mro Hw Hc Hf. exact (ancestors_once defs Hw c mro Hc Hf). Qed.

(** Reported or not, no ancestor occurs twice and nothing else occurs. *)
Theorem C15_at_most_once : forall defs c mro accepted, well_scoped defs ->
  nth_error (class_table defs) c = Some (mro, accepted) ->
  NoDup mro /\ forall a, In a mro -> a <> 0 /\ ancestor defs c a.
Proof. intros defs c mro f Hw Hc. exact (program_sound defs Hw c mro f Hc). Qed.

(** Every class gets an order: neither [unreachable!()] nor an endless loop. *)
Theorem C15_always_an_order : forall stored bases, exists mro linearizable,
  linearize_mro stored bases = Some (mro, linearizable).
Proof.
  intros stored bases. unfold linearize_mro.
  destruct (outer _ _ _ _ _) as [[m b]|] eqn:E; [eauto|]. exfalso. revert E. apply outer_total. lia.
Qed.

Example diamond_ancestors : ancestor diamond 5 1 /\ ~ ancestor diamond 3 2 /\
  nth_error (class_table diamond) 5 = Some ([4; 2; 3; 1], true).
Proof.
  split; [|split; [|reflexivity]].
  - apply anc_more with 4; [eapply (anc_base _ 4); [reflexivity|now left]|].
    apply anc_more with 3; [eapply (anc_base _ 3); [reflexivity|right; now left]|]. eapply (anc_base _ 2); [reflexivity|now left].
  - intros H.
    assert (W : In 2 [1]).
    { apply (proj2 (ancestors_once diamond diamond_scoped 3 [1] eq_refl
        ltac:(intros a Ha; destruct (ancestor_first _ _ _ Ha) as (k & bs & b & Ek & Hk & Hb & Hab);
            injection Ek as <-; injection Hk as <-; destruct Hb as [<-|[]];
            destruct Hab as [->|Hab]; [eexists; reflexivity|];
            destruct (ancestor_first _ _ _ Hab) as (k2 & bs2 & b2 & Ek2 & Hk2 & Hb2 & _);
            injection Ek2 as <-; injection Hk2 as <-; destruct Hb2)) 2). split; [lia|exact H]. }
    cbn in W. lia.
Qed.

(** The order of an inconsistent class can miss ancestors: [class X(A, B)] with [class B(A)] has neither. *)
Theorem C15_inconsistent_class_refuted :
  nth_error (class_table inconsistent) 3 = Some ([], false) /\ ancestor inconsistent 3 1 /\ ancestor inconsistent 3 2.
Proof.
  split; [reflexivity|]. split; eapply (anc_base _ 2); try reflexivity; cbn; auto.
Qed.

Print Assumptions C14_like_python_partial.
Print Assumptions C14_rejected_is_reported_partial.
Print Assumptions C14_valid_class_not_reported.
Print Assumptions C14_three_bases_refuted.
Print Assumptions C14_rejected_not_reported_refuted.
Print Assumptions C15_each_ancestor_once_partial.
Print Assumptions C15_at_most_once.
Print Assumptions C15_always_an_order.
Print Assumptions C15_inconsistent_class_refuted.
