(* C68: the type and the verdict of a binary operation are those of Python. *)
From Coq Require Import String List Bool Arith PeanoNat Lia.
From Verif Require Import OperatorModel OperatorSpec Operator OperatorChecks OperatorInstance.
Import ListNotations.
Local Open Scope string_scope.
Local Open Scope list_scope.

(* The tables name the methods that Python calls, and the tables for augmented
   assignments and for the checks agree with those for the operators. *)
Theorem C68_tables :
  (forall op o, as_operation op = Some o ->
     operand o = op /\ shortcut o = true
     /\ python_operator Arithmetic op (magic o) (reverse o))
  /\ (forall op o, as_ordering op = Some o ->
     operand o = op /\ shortcut o = false
     /\ python_operator Ordering op (magic o) (reverse o))
  /\ (forall op n, In (op, n) arithmetic_names ->
     exists o, as_operation op = Some o
       /\ magic_methods (op ++ "=")%string = Some (dunder ("i" ++ n), o)
       /\ get reverse_to_normal ("r" ++ n) = Some (dunder n)
       /\ get inplace_to_normal ("i" ++ n) = Some (dunder n))
  /\ (forall op n r, In (op, (n, r)) ordering_names ->
     (exists o, as_ordering op = Some o) /\ get reverse_to_normal r = Some (dunder n)).
Proof.
  split; [| split; [| split]].
  - intros op o H. unfold as_operation in H.
    repeat match type of H with
    | (if (op =? ?s)%string then _ else _) = _ =>
        destruct (String.eqb_spec op s) as [-> | _];
        [ injection H as <-; cbn [operand shortcut magic reverse];
          split; [reflexivity | split; [reflexivity |]];
          match goal with |- python_operator _ ?op' ?m _ =>
            match eval vm_compute in (find (fun e => (fst e =? op')%string) arithmetic_names) with
            | Some (_, ?n) => apply (python_arithmetic op' n)
            end
          end; cbn [In arithmetic_names]; repeat (left; reflexivity) || tauto
        | ]
    end.
    discriminate.
  - intros op o H. unfold as_ordering in H.
    repeat match type of H with
    | (if (op =? ?s)%string then _ else _) = _ =>
        destruct (String.eqb_spec op s) as [-> | _];
        [ injection H as <-; cbn [operand shortcut magic reverse];
          split; [reflexivity | split; [reflexivity |]];
          match goal with |- python_operator _ ?op' ?m _ =>
            match eval vm_compute in (find (fun e => (fst e =? op')%string) ordering_names) with
            | Some (_, (?n, ?r)) => apply (python_ordering op' n r)
            end
          end; cbn [In ordering_names]; tauto
        | ]
    end.
    discriminate.
  - intros op n H. cbn [In arithmetic_names] in H.
    repeat (destruct H as [[= <- <-] | H];
      [eexists; split; [vm_compute; reflexivity |]; vm_compute; repeat split |]).
    contradiction.
  - intros op n r H. cbn [In ordering_names] in H.
    repeat (destruct H as [[= <- <- <-] | H];
      [split; [eexists; vm_compute; reflexivity | reflexivity] |]).
    contradiction.
Qed.

(* Python always has exactly one answer. *)
Theorem C68_python : forall w value cls call k name rev x y,
  exists r, evaluates w value cls call k name rev x y r
    /\ forall r', evaluates w value cls call k name rev x y r' -> r' = r.
Proof.
  intros w value cls call k name rev x y. eexists. split; [apply evaluates_iff; reflexivity |].
  intros r' H. apply evaluates_iff in H. exact H.
Qed.

Section Exact.

Variables (w : world) (value : Type) (cls : value -> nat).
Variable call : method -> value -> value -> option value.
Hypothesis Hw : linear w.
Hypothesis keeps : honest w value cls call.
Hypothesis polite : declines w value cls call.

Variables (k : kind) (op name rev : string) (o : op_infos).
Hypothesis python : python_operator k op name rev.
Hypothesis known : operation k op = Some o.

(* Direct instances of the classes of the operands: if nothing is reported then
   no TypeError is raised; if something is reported then some operands of these
   classes raise it. *)
Theorem C68_accepted : forall left right t x y,
  binary w o left (sort_for_priority right) = (t, []) ->
  In (Inst (cls x)) left -> In (Inst (cls y)) right ->
  exists v, evaluates w value cls call k name rev x y (Some v).
Proof.
  intros left right t x y H Hl Hr.
  destruct (operation_names _ _ _ _ _ python known) as (Hm & Hrv & Hk).
  pose proof (operate_verdict w value cls call keeps polite o x y Hw) as Hv.
  destruct (operate_right_sorted w o (Inst (cls x)) right (cls y) Hr) as [_ H1].
  destruct (binary_member w o left (sort_for_priority right) _ Hl) as [_ H2].
  rewrite H in H2. cbn [snd] in H2.
  destruct (snd (operate w o (Inst (cls x)) (Inst (cls y)))) as [| i is].
  - destruct Hv as (v & Hv). exists v. apply evaluates_iff. rewrite <- Hm, <- Hrv, <- Hk.
    symmetry. exact Hv.
  - exfalso. destruct (H2 i). apply H1. left. reflexivity.
Qed.

Theorem C68_rejected : forall left right i,
  In i (snd (binary w o left right)) ->
  exists l r, In (Inst l) left /\ In (Inst r) right
    /\ (forall x y, cls x = l -> cls y = r -> evaluates w value cls call k name rev x y None)
    /\ (i = UnsupportedLeft (Inst l) /\ lacks w l name
          /\ (lacks w r rev \/ k = Arithmetic /\ l = r)
        \/ i = Unsupported (Inst l) (Inst r)
          /\ (~ lacks w l name \/ ~ lacks w r rev /\ (k = Ordering \/ l <> r))).
Proof.
  intros left right i Hi.
  destruct (operation_names _ _ _ _ _ python known) as (Hm & Hrv & Hk).
  pose proof (operation_shortcut _ _ _ _ _ python known) as Hsh.
  assert (Hex : exists l r, In (Inst l) left /\ In (Inst r) right
                            /\ In i (snd (operate w o (Inst l) (Inst r)))).
  { clear - Hi. induction left as [| l left IH]; cbn [binary] in Hi; [destruct Hi |].
    destruct (operate_right w o l right) as [t is] eqn:Ho.
    destruct (binary w o left right) as [t' is'] eqn:Hb. cbn [snd] in Hi, IH.
    apply in_app_or in Hi. destruct Hi as [Hi | Hi].
    - clear IH Hb t' is'.
      assert (Hr : exists r, In (Inst r) right /\ In i (snd (operate w o l (Inst r)))).
      { revert t is Ho Hi. induction right as [| [| c] right IH]; intros t is Ho Hi;
          cbn [operate_right] in Ho.
        - injection Ho as <- <-. destruct Hi.
        - injection Ho as <- <-. destruct Hi.
        - destruct (operate w o l (Inst c)) as [t1 is1] eqn:H1.
          destruct (operate_right w o l right) as [t2 is2] eqn:H2.
          injection Ho as <- <-. apply in_app_or in Hi. destruct Hi as [Hi | Hi].
          + exists c. rewrite H1. split; [left; reflexivity | exact Hi].
          + destruct (IH t2 is2 eq_refl Hi) as (r & Hr & Hir).
            exists r. split; [right; exact Hr | exact Hir]. }
      destruct Hr as (r & Hr & Hir). destruct l as [| l].
      + rewrite operate_any_left in Hir. destruct Hir.
      + exists l, r. split; [left; reflexivity | split; assumption].
    - destruct (IH Hi) as (l' & r & Hl & Hr & Hir). exists l', r.
      split; [right; exact Hl | split; assumption]. }
  destruct Hex as (l & r & Hl & Hr & Hir). exists l, r.
  split; [exact Hl |]. split; [exact Hr |]. split.
  - intros x y <- <-. apply evaluates_iff. symmetry. rewrite <- Hm, <- Hrv, <- Hk.
    pose proof (operate_verdict w value cls call keeps polite o x y Hw) as Hv.
    destruct (snd (operate w o (Inst (cls x)) (Inst (cls y)))) as [| i' is'];
      [destruct Hir | exact Hv].
  - pose proof (operate_issue w o _ _ i Hir) as Hcase. cbn [look same_class] in Hcase.
    rewrite Hm, Hrv, Hsh, Nat.eqb_eq, Nat.eqb_neq in Hcase.
    destruct (provides_or_lacks w l name) as [(dl & ml & Hpl) | Hll];
      [rewrite (proj1 (provides_iff _ _ _ _ _) Hpl) in Hcase
      |rewrite (proj1 (lacks_iff _ _ _) Hll) in Hcase];
    (destruct (provides_or_lacks w r rev) as [(dr & mr & Hpr) | Hlr];
      [rewrite (proj1 (provides_iff _ _ _ _ _) Hpr) in Hcase
      |rewrite (proj1 (lacks_iff _ _ _) Hlr) in Hcase]);
    assert (Hkk : (match k with Arithmetic => true | Ordering => false end = true <-> k = Arithmetic)
      /\ (match k with Arithmetic => true | Ordering => false end = false <-> k = Ordering))
      by (destruct k; split; split; congruence);
    rewrite (proj1 Hkk), (proj2 Hkk) in Hcase;
    destruct Hcase as [(-> & H1 & H2) | (-> & H2)]; try discriminate.
    + right. split; [reflexivity |]. left. rewrite lacks_iff.
      rewrite (proj1 (provides_iff _ _ _ _ _) Hpl). discriminate.
    + right. split; [reflexivity |]. left. rewrite lacks_iff.
      rewrite (proj1 (provides_iff _ _ _ _ _) Hpl). discriminate.
    + left. split; [reflexivity |]. split; [exact Hll |].
      destruct H2 as [H2 | H2]; [discriminate | right; exact H2].
    + right. split; [reflexivity |].
      destruct H2 as [H2 | (_ & H2)]; [congruence |]. right. split; [| exact H2].
      rewrite lacks_iff. rewrite (proj1 (provides_iff _ _ _ _ _) Hpr). discriminate.
    + left. split; [reflexivity |]. split; [exact Hll | left; exact Hlr].
    + exfalso. destruct H2 as [H2 | (H2 & _)]; congruence.
Qed.

(* The type of the result.  For arithmetic the right class must not share with
   the left class a reverse method that comes from another class than the method
   of the left class. *)
Theorem C68_arithmetic : forall left right x y v,
  k = Arithmetic ->
  In (Inst (cls x)) left -> In (Inst (cls y)) right ->
  (below w (cls y) (cls x) -> forall d m,
     provides w (cls x) rev d m -> provides w (cls y) rev d m ->
     forall dl ml, provides w (cls x) name dl ml -> dl = d) ->
  evaluates w value cls call k name rev x y (Some v) ->
  belongs w (cls v) (fst (binary w o left (sort_for_priority right))).
Proof.
  intros left right x y v Hka Hl Hr Hpair Hev.
  destruct (operation_names _ _ _ _ _ python known) as (Hm & Hrv & Hk).
  pose proof (operation_shortcut _ _ _ _ _ python known) as Hsh. rewrite Hka in Hsh.
  apply evaluates_iff in Hev. rewrite <- Hm, <- Hrv, <- Hk in Hev.
  destruct (operate_right_sorted w o (Inst (cls x)) right (cls y) Hr) as [H1 _].
  destruct (binary_member w o left (sort_for_priority right) _ Hl) as [H2 _].
  apply (belongs_incl w _ _ _ (incl_tran H1 H2)).
  apply (operate_result w value cls call keeps polite o x y v); [| symmetry; exact Hev].
  destruct (Nat.eq_dec (cls x) (cls y)) as [He | Hne].
  - left. split; assumption.
  - right. apply agree_arithmetic; try assumption. rewrite Hm, Hrv. exact Hpair.
Qed.

(* For orderings the method and the reverse method must come from one class if
   the operands are of one class, and from two if the right one is a subclass. *)
Theorem C68_ordering : forall left right x y v,
  k = Ordering ->
  In (Inst (cls x)) left -> In (Inst (cls y)) right ->
  (below w (cls y) (cls x) -> forall dl ml dr mr,
     provides w (cls x) name dl ml -> provides w (cls y) rev dr mr ->
     (dl = dr <-> cls x = cls y)) ->
  evaluates w value cls call k name rev x y (Some v) ->
  belongs w (cls v) (fst (binary w o left (sort_for_priority right))).
Proof.
  intros left right x y v Hka Hl Hr Hpair Hev.
  destruct (operation_names _ _ _ _ _ python known) as (Hm & Hrv & Hk).
  pose proof (operation_shortcut _ _ _ _ _ python known) as Hsh. rewrite Hka in Hsh.
  apply evaluates_iff in Hev. rewrite <- Hm, <- Hrv, <- Hk in Hev.
  destruct (operate_right_sorted w o (Inst (cls x)) right (cls y) Hr) as [H1 _].
  destruct (binary_member w o left (sort_for_priority right) _ Hl) as [H2 _].
  apply (belongs_incl w _ _ _ (incl_tran H1 H2)).
  apply (operate_result w value cls call keeps polite o x y v); [| symmetry; exact Hev].
  right. apply agree_ordering; [exact Hsh |]. rewrite Hm, Hrv. exact Hpair.
Qed.

End Exact.

(* An operand that may be anything makes a result that may be anything. *)
Theorem C68_any : forall w o left right,
  In Any left /\ right <> [] \/ left <> [] /\ In Any right ->
  In Any (fst (binary w o left (sort_for_priority right))).
Proof.
  intros w o left right H.
  assert (Hex : exists l, In l left /\ In Any (fst (operate_right w o l (sort_for_priority right)))).
  { destruct H as [(Hl & Hne) | (Hne & Hr)].
    - exists Any. split; [exact Hl |].
      assert (Hs : exists m rest, sort_for_priority right = m :: rest).
      { destruct right as [| m right]; [congruence |].
        destruct (sort_for_priority (m :: right)) as [| m' rest] eqn:Hs; [| eauto].
        exfalso. assert (Hin : In m (sort_for_priority (m :: right))).
        { apply sort_in. left. reflexivity. }
        rewrite Hs in Hin. destruct Hin. }
      destruct Hs as (m & rest & ->). destruct m as [| c]; cbn [operate_right].
      + left. reflexivity.
      + rewrite operate_any_left. destruct (operate_right w o Any rest). left. reflexivity.
    - destruct left as [| l left]; [congruence |]. exists l. split; [left; reflexivity |].
      apply (proj2 (sort_in right Any)) in Hr.
      induction (sort_for_priority right) as [| [| c] rest IH]; [destruct Hr | |].
      + left. reflexivity.
      + cbn [operate_right]. destruct (operate w o l (Inst c)) as [t is].
        destruct (operate_right w o l rest) as [t' is']. cbn [fst] in *.
        destruct Hr as [Hr | Hr]; [discriminate |].
        apply in_or_app. right. apply IH. exact Hr. }
  destruct Hex as (l & Hl & Hin).
  apply (proj1 (binary_member w o left (sort_for_priority right) l Hl)). exact Hin.
Qed.

(* Instances of subclasses, if the checker takes the method of the left operand
   and no check at a definition complains. *)
Theorem C68_subclass : forall w value cls call op n o l r x y dl ml,
  linear w -> single w -> honest w value cls call -> declines w value cls call ->
  In (op, n) arithmetic_names -> as_operation op = Some o ->
  overrides_fit w (dunder n) ->
  (forall d m, own w d (dunder ("r" ++ n)) = Some m ->
     check_overlapping w d ("r" ++ n) m = []
     /\ ~ In Any (m_param m) /\ ~ In Any (m_return m)
     /\ forall p, In (Inst p) (m_param m) -> below w (cls x) p -> below w p l) ->
  provides w l (dunder n) dl ml -> belongs w r (m_param ml) ->
  l = r \/ ~ below w r l ->
  below w (cls x) l -> below w (cls y) r ->
  binary w o [Inst l] [Inst r] = (m_return ml, [])
  /\ exists v, evaluates w value cls call Arithmetic (dunder n) (dunder ("r" ++ n)) x y (Some v)
       /\ belongs w (cls v) (m_return ml).
Proof.
  intros w value cls call op n o l r x y dl ml Hw Hs Hh Hd Hin Ho Hf Hc Hp Ht Hrel Hx Hy.
  pose proof (python_arithmetic op n Hin) as Hpy.
  destruct (operation_names Arithmetic op _ _ o Hpy Ho) as (Hm & Hr & _).
  pose proof (operation_shortcut Arithmetic op _ _ o Hpy Ho) as Hsh.
  split.
  - cbn [binary operate_right]. rewrite (operate_left w o l r dl ml).
    + rewrite !app_nil_r. reflexivity.
    + rewrite Hm. exact Hp.
    + exact Ht.
    + destruct Hrel as [-> | Hrel]; [left; split; [exact Hsh | reflexivity] | right; exact Hrel].
  - destruct C68_tables as (_ & _ & Htab & _).
    destruct (Htab op n Hin) as (_ & _ & _ & Hg & _).
    apply (subclass_evaluates w value cls call Hw Hh Hd n Hg Hf Hs l r x y Hc dl ml);
      assumption.
Qed.

(* Instances of subclasses, if the checker takes the method of the right operand:
   the method of the left operand, which takes part of the instances of [r], may
   answer, and the check of the reverse method makes sure that its answer fits. *)
Theorem C68_reverse : forall w value cls call op n o l r x y dl ml mr,
  linear w -> single w -> honest w value cls call -> declines w value cls call ->
  In (op, n) arithmetic_names -> as_operation op = Some o ->
  overrides_fit w (dunder n) -> overrides_fit w (dunder ("r" ++ n)) ->
  provides w l (dunder n) dl ml -> own w r (dunder ("r" ++ n)) = Some mr ->
  ~ belongs w r (m_param ml) -> covers w [Inst r] (m_param ml) -> ~ In Any (m_return ml) ->
  In (Inst l) (m_param mr) -> check_overlapping w r ("r" ++ n) mr = [] ->
  ~ below w r l -> ~ below w l r ->
  below w (cls x) l -> below w (cls y) r ->
  binary w o [Inst l] [Inst r] = (m_return mr, [])
  /\ exists v, evaluates w value cls call Arithmetic (dunder n) (dunder ("r" ++ n)) x y (Some v)
       /\ belongs w (cls v) (m_return mr).
Proof.
  intros w value cls call op n o l r x y dl ml mr Hw Hs Hh Hd Hin Ho Hf Hrf Hp Hr Hnot Hwi Hty
    Hta Hc Hrl Hlr Hx Hy.
  pose proof (python_arithmetic op n Hin) as Hpy.
  destruct (operation_names Arithmetic op _ _ o Hpy Ho) as (Hm & Hrev & _).
  split.
  - cbn [binary operate_right]. rewrite (operate_reverse w o l r dl ml mr).
    + rewrite !app_nil_r. reflexivity.
    + exact Hw.
    + rewrite Hm. exact Hp.
    + exact Hnot.
    + rewrite Hrev. exact Hr.
    + exact Hta.
    + exact Hrl.
  - destruct C68_tables as (_ & _ & Htab & _).
    destruct (Htab op n Hin) as (_ & _ & _ & Hg & _).
    apply (reverse_evaluates w value cls call Hw Hh Hd n Hg Hf Hrf Hs l r x y dl ml mr);
      assumption.
Qed.

Section Augmented.

Variables (w : world) (value : Type) (cls : value -> nat).
Variable call : method -> value -> value -> option value.
Hypothesis Hw : linear w.
Hypothesis keeps : honest w value cls call.
Hypothesis polite : declines w value cls call.

Variables (op n iname : string) (o : op_infos).
Hypothesis python : In (op, n) arithmetic_names.
Hypothesis known : magic_methods (op ++ "=")%string = Some (iname, o).

Notation name := (dunder n).
Notation rev := (dunder ("r" ++ n)).
Notation assigns := (assigns w value cls call (dunder ("i" ++ n)) name rev).

Lemma names : iname = dunder ("i" ++ n) /\ as_operation op = Some o.
Proof.
  destruct C68_tables as (_ & _ & Htab & _). destruct (Htab op n python) as (o' & Ho & Hm & _).
  rewrite known in Hm. injection Hm as -> ->. split; [reflexivity | exact Ho].
Qed.

Lemma in_place_value : forall left right x y d m,
  provides w (cls x) iname d m ->
  In (Inst (cls x)) left -> In (Inst (cls y)) right ->
  snd (fst (in_place w iname left (sort_for_priority right))) = [] ->
  exists v, assigns x y (Some v) /\ belongs w (cls v) (m_return m).
Proof.
  intros left right x y d m Hp Hl Hr Hs. destruct names as [-> _].
  assert (Hlook : look w (Inst (cls x)) (dunder ("i" ++ n)) = Some (Some d, m)).
  { cbn [look]. rewrite (proj1 (provides_iff _ _ _ _ _) Hp). reflexivity. }
  destruct (in_place_member w _ left (sort_for_priority right) _ _ _ Hl Hlook) as [_ H].
  specialize (H Hs). unfold ty_sub in H. rewrite forallb_forall in H.
  specialize (H (Inst (cls y)) (proj2 (sort_in right _) Hr)). apply in_type_belongs in H.
  destruct (keeps d _ m x y (provides_own _ _ _ _ _ Hp) H) as (v & Hc & Hv).
  exists v. split; [| exact Hv]. apply in_place_answers. rewrite <- Hc.
  apply (asks_method w value cls call x _ y d m Hp).
Qed.

(* Augmented assignments that report nothing: no TypeError is raised, and the
   type covers the value if all operands have the in-place method or this one
   does not. *)
Theorem C68_augmented : forall left right t x y,
  augmented w iname o left (sort_for_priority right) = (t, []) ->
  In (Inst (cls x)) left -> In (Inst (cls y)) right ->
  exists v, assigns x y (Some v)
    /\ ((forall l, In l left -> look w l iname <> None)
        \/ lacks w (cls x) iname
           /\ (below w (cls y) (cls x) -> forall d m,
                 provides w (cls x) rev d m -> provides w (cls y) rev d m ->
                 forall dl ml, provides w (cls x) name dl ml -> dl = d) ->
        belongs w (cls v) t).
Proof.
  intros left right t x y Ha Hl Hr.
  destruct (augmented_silent _ _ _ _ _ _ Ha) as [Hs Hrest].
  pose proof names as [Hi Ho]. pose proof (python_arithmetic op n python) as Hpy.
  destruct (provides_or_lacks w (cls x) iname) as [(d & m & Hp) | Hlack].
  - destruct (in_place_value left right x y d m Hp Hl Hr Hs) as (v & Hv & Hb).
    exists v. split; [exact Hv |]. intros [Hall | (Hlack & _)].
    + destruct (snd (in_place w iname left (sort_for_priority right))) eqn:He.
      * exfalso. apply in_place_error in He. destruct He as (l & Hin & Hn).
        apply (Hall l Hin Hn).
      * subst t. refine (belongs_incl w _ _ _ _ Hb).
        apply (proj1 (in_place_member w iname left (sort_for_priority right)
                        (Inst (cls x)) (Some d) m Hl
                        ltac:(cbn [look]; rewrite (proj1 (provides_iff _ _ _ _ _) Hp);
                              reflexivity))).
    + exfalso. apply lacks_iff in Hlack. apply provides_iff in Hp. congruence.
  - assert (He : snd (in_place w iname left (sort_for_priority right)) = true).
    { apply in_place_error. exists (Inst (cls x)). split; [exact Hl |].
      cbn [look]. rewrite (proj1 (lacks_iff _ _ _) Hlack). reflexivity. }
    rewrite He in Hrest.
    destruct (C68_accepted w value cls call Hw keeps polite Arithmetic op _ _ o Hpy Ho
                left right t x y Hrest Hl Hr) as (v & Hv).
    exists v. split.
    + apply in_place_declines; [| exact Hv]. apply asks_lacking. rewrite <- Hi. exact Hlack.
    + intros [Hall | (_ & Hpair)].
      * exfalso. apply (Hall _ Hl). cbn [look].
        rewrite (proj1 (lacks_iff _ _ _) Hlack). reflexivity.
      * replace t with (fst (binary w o left (sort_for_priority right)))
          by (rewrite Hrest; reflexivity).
        apply (C68_arithmetic w value cls call Hw keeps polite Arithmetic op _ _ o Hpy Ho
                 left right x y v eq_refl Hl Hr Hpair Hv).
Qed.

(* If only some operands have the in-place method then the type is that of the
   operator; the check of the in-place method makes it right for a class that
   defines the method itself. *)
Theorem C68_augmented_mixed : forall left right t x y m dl ml,
  augmented w iname o left (sort_for_priority right) = (t, []) ->
  In (Inst (cls x)) left -> In (Inst (cls y)) right ->
  own w (cls x) iname = Some m ->
  check_inplace w (cls x) ("i" ++ n) m = false -> ~ In Any (m_return m) ->
  provides w (cls x) name dl ml -> belongs w (cls y) (m_param ml) ->
  cls x = cls y \/ ~ below w (cls y) (cls x) ->
  exists v, assigns x y (Some v) /\ belongs w (cls v) t.
Proof.
  intros left right t x y m dl ml Ha Hl Hr Ho Hcheck Hany Hp Ht Hrel.
  destruct (augmented_silent _ _ _ _ _ _ Ha) as [Hs Hrest].
  pose proof names as [Hi Hop]. pose proof (python_arithmetic op n python) as Hpy.
  assert (Hown : provides w (cls x) iname (cls x) m).
  { destruct (linear_first w Hw (cls x)) as (rest & Heq). exists [], rest.
    split; [exact Heq |]. split; [exact Ho |]. intros e []. }
  destruct (in_place_value left right x y (cls x) m Hown Hl Hr Hs) as (v & Hv & Hb).
  exists v. split; [exact Hv |].
  destruct (snd (in_place w iname left (sort_for_priority right))) eqn:He.
  - assert (Hret : covers w (m_return ml) (m_return m)).
    { unfold check_inplace in Hcheck. destruct C68_tables as (_ & _ & Htab & _).
      destruct (Htab op n python) as (_ & _ & _ & _ & Hg). rewrite Hg in Hcheck.
      cbn [look] in Hcheck. rewrite (proj1 (provides_iff _ _ _ _ _) Hp) in Hcheck.
      apply negb_false_iff, andb_true_iff in Hcheck. destruct Hcheck as [_ Hc].
      apply (ty_sub_covers w _ _ Hw Hany Hc). }
    destruct (operation_names Arithmetic op _ _ o Hpy Hop) as (Hm & _ & _).
    pose proof (operation_shortcut Arithmetic op _ _ o Hpy Hop) as Hsh.
    destruct (operate_right_sorted w o (Inst (cls x)) right (cls y) Hr) as [H1 _].
    destruct (binary_member w o left (sort_for_priority right) _ Hl) as [H2 _].
    rewrite Hrest in H2. cbn [fst] in H2.
    apply (belongs_incl w _ _ _ (incl_tran H1 H2)).
    rewrite (operate_left w o (cls x) (cls y) dl ml).
    + cbn [fst]. apply Hret. exact Hb.
    + rewrite Hm. exact Hp.
    + exact Ht.
    + destruct Hrel as [Hrel | Hrel]; [left; split; [exact Hsh | exact Hrel] | right; exact Hrel].
  - subst t. refine (belongs_incl w _ _ _ _ Hb).
    apply (proj1 (in_place_member w iname left (sort_for_priority right)
                    (Inst (cls x)) (Some (cls x)) m Hl
                    ltac:(cbn [look]; rewrite (proj1 (provides_iff _ _ _ _ _) Hown);
                          reflexivity))).
Qed.

End Augmented.

(* `in`: some element may be asked of some container; each container has
   `__contains__` or can be iterated over. *)
Definition askable (w : world) (l r : nat) : Prop :=
  (exists d m, provides w r "__contains__" d m /\ belongs w l (m_param m))
  \/ lacks w r "__contains__"
     /\ exists d m, provides w r "__iter__" d m
        /\ (In Any (m_return m)
            \/ exists i e f, In (Inst i) (m_return m) /\ provides w i "__next__" e f
                 /\ belongs w l (m_return f)).

Theorem C68_in : forall w left right,
  ~ In Any left -> ~ In Any right -> right <> [] ->
  in_operator w left right = [] ->
  (exists l r, In (Inst l) left /\ In (Inst r) right /\ askable w l r)
  /\ forall r, In (Inst r) right ->
       (exists d m, provides w r "__contains__" d m)
       \/ exists d m, provides w r "__iter__" d m
            /\ forall i, In (Inst i) (m_return m) -> exists e f, provides w i "__next__" e f.
Proof.
  intros w left right Hal Har Hne H.
  destruct (in_operator_nil w left right H) as [Hall Hsome].
  destruct (Hsome Hne) as (l & r & Hl & Hr & Hpass).
  destruct l as [| l]; [contradiction |]. destruct r as [| r]; [contradiction |].
  split.
  - exists l, r. split; [exact Hl |]. split; [exact Hr |]. pose proof (Hall _ _ Hl Hr) as Hs.
    unfold contains in Hpass, Hs. cbn [look] in Hpass, Hs.
    destruct (provides_or_lacks w r "__contains__") as [(d & m & Hp) | Hlack].
    + rewrite (proj1 (provides_iff _ _ _ _ _) Hp) in Hpass. cbn [fst] in Hpass.
      left. exists d, m. split; [exact Hp |]. apply in_type_belongs. exact Hpass.
    + right. split; [exact Hlack |]. rewrite (proj1 (lacks_iff _ _ _) Hlack) in Hpass, Hs.
      destruct (provides_or_lacks w r "__iter__") as [(d & m & Hp) | Hlack2].
      * rewrite (proj1 (provides_iff _ _ _ _ _) Hp) in Hpass, Hs. exists d, m.
        split; [exact Hp |].
        destruct (next_of w (m_return m)) as [t e] eqn:Hnext. cbn [fst snd] in Hpass, Hs.
        destruct e; [discriminate |].
        apply in_type_belongs in Hpass.
        assert (He : snd (next_of w (m_return m)) = false) by (rewrite Hnext; reflexivity).
        assert (Hin : forall q, In q t <-> exists i d f, In i (m_return m)
                        /\ look w i "__next__" = Some (d, f) /\ In q (m_return f)).
        { intro q. rewrite <- (next_of_in w (m_return m) q He), Hnext. reflexivity. }
        assert (Hgoal : exists i dd f, In i (m_return m) /\ look w i "__next__" = Some (dd, f)
                          /\ belongs w l (m_return f)).
        { destruct Hpass as [Ha | (q & Hq & Hb)].
          - apply Hin in Ha. destruct Ha as (i & dd & f & H1 & H2 & H3).
            exists i, dd, f. split; [exact H1 | split; [exact H2 | left; exact H3]].
          - apply Hin in Hq. destruct Hq as (i & dd & f & H1 & H2 & H3).
            exists i, dd, f. split; [exact H1 | split; [exact H2 |]].
            right. exists q. split; assumption. }
        destruct Hgoal as ([| i] & dd & f & H1 & H2 & H3); [left; exact H1 |].
        right. cbn [look] in H2.
        destruct (first_defined w (mro w i) "__next__") as [[e' f'] |] eqn:Hf; [| discriminate].
        injection H2 as <- <-. exists i, e', f'.
        split; [exact H1 | split; [apply provides_iff; exact Hf | exact H3]].
      * rewrite (proj1 (lacks_iff _ _ _) Hlack2) in Hs. discriminate.
  - intros r' Hr'. pose proof (Hall _ _ Hl Hr') as Hs. unfold contains in Hs. cbn [look] in Hs.
    destruct (provides_or_lacks w r' "__contains__") as [(d & m & Hp) | Hlack];
      [left; exists d, m; exact Hp |].
    right. rewrite (proj1 (lacks_iff _ _ _) Hlack) in Hs.
    destruct (provides_or_lacks w r' "__iter__") as [(d & m & Hp) | Hlack2];
      [| rewrite (proj1 (lacks_iff _ _ _) Hlack2) in Hs; discriminate].
    exists d, m. split; [exact Hp |]. rewrite (proj1 (provides_iff _ _ _ _ _) Hp) in Hs.
    destruct (next_of w (m_return m)) as [t e] eqn:Hnext. cbn [snd] in Hs.
    destruct e; [discriminate |].
    assert (He : snd (next_of w (m_return m)) = false) by (rewrite Hnext; reflexivity).
    rewrite next_of_ok in He. intros i Hi. specialize (He _ Hi). cbn [look] in He.
    destruct (first_defined w (mro w i) "__next__") as [[e' f'] |] eqn:Hf; [| congruence].
    exists e', f'. apply provides_iff. exact Hf.
Qed.

(* Any issue of an `in` is about one of the containers: code that is never
   reached, whose container is Never, gets none. *)
Theorem C68_in_never : forall w left right i,
  In i (in_operator w left right) -> exists r, In r right.
Proof.
  intros w left right i H. destruct right as [| r right].
  - destruct H.
  - exists r. left. reflexivity.
Qed.

(* An `in` that is rejected cannot be asked of any of the containers. *)
Theorem C68_in_rejected : forall w left right l r,
  In UnsupportedOperandIn (in_operator w left right) ->
  In (Inst l) left -> In (Inst r) right -> ~ askable w l r.
Proof.
  intros w left right l r H Hl Hr Hask. unfold in_operator in H. cbv zeta in H.
  assert (Hin : In (contains w (Inst l) (Inst r))
    (flat_map (fun r => map (fun l => contains w l r) left) right)).
  { apply in_flat_map. exists (Inst r). split; [exact Hr |].
    apply in_map_iff. exists (Inst l). split; [reflexivity | exact Hl]. }
  assert (Hno : forall q, In q (flat_map (fun r => map (fun l => contains w l r) left) right) ->
                          ~ In UnsupportedOperandIn (snd q)).
  { intros q Hq. apply in_flat_map in Hq. destruct Hq as (r' & _ & Hq).
    apply in_map_iff in Hq. destruct Hq as (l' & <- & _). unfold contains.
    destruct (look w r' "__contains__") as [[d m] |]; [intros [] |].
    destruct (look w r' "__iter__") as [[d m] |]; cbn [snd].
    - destruct (next_of w (m_return m)) as [t e]. destruct e; cbn [snd].
      + intros [E | []]. discriminate.
      + intros [].
    - intros [E | []]. discriminate. }
  apply in_app_or in H. destruct H as [H | H].
  - apply in_flat_map in H. destruct H as (q & Hq & H). apply (Hno q Hq H).
  - destruct (existsb fst (flat_map (fun r => map (fun l => contains w l r) left) right)) eqn:He;
      [cbn [negb andb] in H; destruct H |].
    assert (Hf : fst (contains w (Inst l) (Inst r)) = true).
    { clear - Hask. unfold contains. cbn [look].
      destruct Hask as [(d & m & Hp & Hb) | (Hlack & d & m & Hp & Hit)].
      - rewrite (proj1 (provides_iff _ _ _ _ _) Hp). cbn [fst].
        apply in_type_belongs. exact Hb.
      - rewrite (proj1 (lacks_iff _ _ _) Hlack), (proj1 (provides_iff _ _ _ _ _) Hp).
        destruct (next_of w (m_return m)) as [t e] eqn:Hn. cbn [fst].
        apply in_type_belongs. clear Hp.
        assert (Hsup : forall i e' f, In i (m_return m) -> look w i "__next__" = Some (e', f) ->
                         incl (m_return f) t).
        { clear Hit Hlack. revert t e Hn. induction (m_return m) as [| j its IH];
            intros t e Hn i e' f Hi Hlk; [destruct Hi |].
          cbn [next_of] in Hn. destruct (next_of w its) as [t1 e1].
          destruct (look w j "__next__") as [[dj fj] |] eqn:Hj; injection Hn as <- <-.
          - destruct Hi as [-> | Hi].
            + rewrite Hj in Hlk. injection Hlk as <- <-. apply incl_appl, incl_refl.
            + apply incl_appr. apply (IH t1 e1 eq_refl i e' f Hi Hlk).
          - destruct Hi as [-> | Hi]; [congruence |].
            apply incl_tl. apply (IH t1 e1 eq_refl i e' f Hi Hlk). }
        destruct Hit as [Ha | (i & e' & f & Hi & Hp & Hb)].
        + left. apply (Hsup Any None any_method Ha eq_refl). left. reflexivity.
        + apply (belongs_incl w l (m_return f) t); [| exact Hb].
          apply (Hsup (Inst i) (Some e') f Hi). cbn [look].
          rewrite (proj1 (provides_iff _ _ _ _ _) Hp). reflexivity. }
    assert (Ht : existsb fst (flat_map (fun r => map (fun l => contains w l r) left) right) = true).
    { apply existsb_exists. exists (contains w (Inst l) (Inst r)). split; assumption. }
    congruence.
Qed.

(* Programs: class 0 is object, 1 int and 2 str. *)

Definition plus := OpInfos "+" "__add__" "__radd__" true.
Definition less := OpInfos "<" "__lt__" "__gt__" false.

Definition methods_of (l : list (nat * string * (list nat * nat))) : list (nat * string * method) :=
  map (fun e => (fst (fst e), snd (fst e),
                 Method (map Inst (fst (snd e))) [Inst (snd (snd e))])) l.

Definition program (mros : list (list nat)) (l : list (nat * string * (list nat * nat))) : world :=
  table_world ([[0]; [1; 0]; [2; 0]] ++ mros) (methods_of l).

Notation python w := (evaluates w nat (fun c => c) (first_call w)).

Ltac evaluate := apply evaluates_iff; vm_compute; reflexivity.
Ltac outside := rewrite <- in_type_belongs; vm_compute; discriminate.

(* What the refutations ask of a program: a linear order, honest and polite
   methods, overrides that fit, and definitions without complaints. *)
Definition fine (mros : list (list nat)) (l : list (nat * string * (list nat * nat))) : Prop :=
  linear (program mros l)
  /\ honest (program mros l) nat (fun c => c) (first_call (program mros l))
  /\ declines (program mros l) nat (fun c => c) (first_call (program mros l))
  /\ (forall name, In name (map (fun e => snd (fst e)) l) -> overrides_fit (program mros l) name)
  /\ forall c name m, In (c, name, m) (methods_of l) ->
       forall n, name = dunder n ->
       check_overlapping (program mros l) c n m = []
       /\ check_inplace (program mros l) c n m = false.

Definition undunder (s : string) : string := substring 2 (String.length s - 4) s.

Lemma append_length : forall a b, String.length (a ++ b)%string = String.length a + String.length b.
Proof. induction a as [| c a IH]; intro b; [reflexivity |]. cbn. rewrite IH. reflexivity. Qed.

Lemma prefix_of_append : forall a b, substring 0 (String.length a) (a ++ b)%string = a.
Proof.
  induction a as [| c a IH]; intro b.
  - destruct b; reflexivity.
  - cbn. rewrite IH. reflexivity.
Qed.

Lemma undunder_dunder : forall s, undunder (dunder s) = s.
Proof.
  intro s. unfold undunder, dunder. rewrite !append_length.
  replace (String.length "__" + (String.length s + String.length "__") - 4) with (String.length s)
    by (cbn [String.length]; lia).
  cbn [append substring]. apply prefix_of_append.
Qed.

Definition fine_table (mros : list (list nat)) (l : list (nat * string * (list nat * nat))) : bool :=
  let table := [[0]; [1; 0]; [2; 0]] ++ mros in
  linear_table table && returns (methods_of l)
  && forallb (fun e => overrides_table (program mros l) (List.length table) (snd (fst e))) l
  && forallb (fun e =>
       match check_overlapping (program mros l) (fst (fst e)) (undunder (snd (fst e))) (snd e) with
       | [] => negb (check_inplace (program mros l) (fst (fst e)) (undunder (snd (fst e))) (snd e))
       | _ => false
       end) (methods_of l).

Lemma fine_table_sound : forall mros l, fine_table mros l = true -> fine mros l.
Proof.
  intros mros l H. unfold fine_table in H. cbv zeta in H.
  apply andb_true_iff in H. destruct H as [H H4]. apply andb_true_iff in H.
  destruct H as [H H3]. apply andb_true_iff in H. destruct H as [H1 H2].
  rewrite forallb_forall in H3, H4.
  pose proof (linear_table_sound _ (methods_of l) H1) as Hw.
  split; [exact Hw |]. split; [apply first_call_honest; assumption |].
  split; [apply first_call_declines |]. split.
  - intros name Hin. apply in_map_iff in Hin. destruct Hin as (e & <- & He).
    apply (overrides_table_sound _ _ _ Hw). apply (H3 e He).
  - intros c name m Hin n ->. specialize (H4 _ Hin). cbn [fst snd] in H4.
    rewrite undunder_dunder in H4.
    destruct (check_overlapping (program mros l) c n m); [| discriminate].
    split; [reflexivity |]. apply negb_true_iff in H4. exact H4.
Qed.

(* class A: def __radd__(self, o: A) -> str
   class B(A): def __add__(self, o: B) -> int
   class C(B): ...
   B() + C() is an int, as C shares the reverse method with B; the checker takes
   the reverse method first, as it is defined in another class than `__add__`. *)
Definition shared_mros := [[3; 0]; [4; 3; 0]; [5; 4; 3; 0]].
Definition shared := [(3, "__radd__", ([3], 2)); (4, "__add__", ([4], 1))].

Theorem C68_arithmetic_refuted : exists mros l x y v,
  fine mros l
  /\ python (program mros l) Arithmetic "__add__" "__radd__" x y (Some v)
  /\ snd (binary (program mros l) plus [Inst x] [Inst y]) = []
  /\ ~ belongs (program mros l) v (fst (binary (program mros l) plus [Inst x] [Inst y])).
Proof.
  exists shared_mros, shared, 4, 5, 1.
  split; [apply fine_table_sound; reflexivity |]. split; [evaluate |].
  split; [reflexivity | outside].
Qed.

(* class A: def __lt__(self, o: A) -> int
   class B(A): def __gt__(self, o: B) -> str
   B() < B() is an int: the left operand is asked first if the classes are the
   same; the checker takes `__gt__` first. *)
Theorem C68_ordering_same_refuted : exists mros l x v,
  fine mros l
  /\ python (program mros l) Ordering "__lt__" "__gt__" x x (Some v)
  /\ snd (binary (program mros l) less [Inst x] [Inst x]) = []
  /\ ~ belongs (program mros l) v (fst (binary (program mros l) less [Inst x] [Inst x])).
Proof.
  exists [[3; 0]; [4; 3; 0]], [(3, "__lt__", ([3], 1)); (4, "__gt__", ([4], 2))], 4, 1.
  split; [apply fine_table_sound; reflexivity |]. split; [evaluate |].
  split; [reflexivity | outside].
Qed.

(* class A: def __lt__(self, o: A) -> int; def __gt__(self, o: A) -> str
   class B(A): ...
   A() < B() is a str: an ordering asks the right operand first if its class is a
   subclass, whether or not it overrides the method; the checker takes `__lt__`. *)
Theorem C68_ordering_refuted : exists mros l x y v,
  fine mros l
  /\ python (program mros l) Ordering "__lt__" "__gt__" x y (Some v)
  /\ snd (binary (program mros l) less [Inst x] [Inst y]) = []
  /\ ~ belongs (program mros l) v (fst (binary (program mros l) less [Inst x] [Inst y])).
Proof.
  exists [[3; 0]; [4; 3; 0]], [(3, "__lt__", ([3], 1)); (3, "__gt__", ([3], 2))], 3, 4, 2.
  split; [apply fine_table_sound; reflexivity |]. split; [evaluate |].
  split; [reflexivity | outside].
Qed.

(* class A: ...
   class B(A): def __radd__(self, o: A) -> int
   def f(a: A, b: B): return a + b
   f(B(), B()) raises a TypeError: reverse methods are not tried for operands of
   one class. *)
Theorem C68_subclass_refuted : exists mros l c d x y,
  fine mros l /\ single (program mros l)
  /\ below (program mros l) x c /\ below (program mros l) y d
  /\ snd (binary (program mros l) plus [Inst c] [Inst d]) = []
  /\ python (program mros l) Arithmetic "__add__" "__radd__" x y None.
Proof.
  exists [[3; 0]; [4; 3; 0]], [(4, "__radd__", ([3], 1))], 3, 4, 4, 4.
  split; [apply fine_table_sound; reflexivity |].
  split; [apply single_table_sound; reflexivity |].
  split; [right; left; reflexivity |]. split; [left; reflexivity |].
  split; [reflexivity | evaluate].
Qed.

(* class A: def __add__(self, o: A) -> object
   class B(A): def __add__(self, o: A) -> int
   class C(B): def __radd__(self, o: A) -> str
   def f(b: B, c: B): return b + c
   f(B(), C()) is a str: the check of C.__radd__ compares with A.__add__. *)
Theorem C68_overlap_refuted : exists mros l c x y v,
  fine mros l /\ single (program mros l)
  /\ below (program mros l) x c /\ below (program mros l) y c
  /\ snd (binary (program mros l) plus [Inst c] [Inst c]) = []
  /\ python (program mros l) Arithmetic "__add__" "__radd__" x y (Some v)
  /\ ~ belongs (program mros l) v (fst (binary (program mros l) plus [Inst c] [Inst c])).
Proof.
  exists [[3; 0]; [4; 3; 0]; [5; 4; 3; 0]],
    [(3, "__add__", ([3], 0)); (4, "__add__", ([3], 1)); (5, "__radd__", ([3], 2))], 4, 4, 5, 2.
  split; [apply fine_table_sound; reflexivity |].
  split; [apply single_table_sound; reflexivity |].
  split; [left; reflexivity |]. split; [right; left; reflexivity |].
  split; [reflexivity |]. split; [evaluate | outside].
Qed.

(* class M: ...
   class A: def __add__(self, o: M) -> int
   class D(A): def __radd__(self, o: A) -> str
   class Y(D, M): ...
   def f(a: A, m: M): return a + m
   f(A(), Y()) is a str: D and M are unrelated, so that D.__radd__ is not checked. *)
Theorem C68_multiple_refuted : exists mros l c d x y v,
  fine mros l
  /\ below (program mros l) x c /\ below (program mros l) y d
  /\ snd (binary (program mros l) plus [Inst c] [Inst d]) = []
  /\ python (program mros l) Arithmetic "__add__" "__radd__" x y (Some v)
  /\ ~ belongs (program mros l) v (fst (binary (program mros l) plus [Inst c] [Inst d])).
Proof.
  exists [[3; 0]; [4; 0]; [5; 3; 0]; [6; 5; 3; 4; 0]],
    [(3, "__add__", ([4], 1)); (5, "__radd__", ([3], 2))], 3, 4, 3, 6, 2.
  split; [apply fine_table_sound; reflexivity |].
  split; [left; reflexivity |]. split; [right; right; right; left; reflexivity |].
  split; [reflexivity |]. split; [evaluate | outside].
Qed.

Notation python_assign w := (assigns w nat (fun c => c) (first_call w)).

(* class A: def __add__(self, o: A) -> object; def __iadd__(self, o: A) -> str
   class B(A): def __add__(self, o: A) -> int
   class K: def __add__(self, o: A) -> int
   def f(x: B | K): x += A()
   f(B()) makes x a str: K has no in-place method, so that the methods for `+`
   give the type. *)
Theorem C68_augmented_refuted : exists mros l left y x v,
  fine mros l /\ In (Inst x) left
  /\ snd (augmented (program mros l) "__iadd__" plus left [Inst y]) = []
  /\ python_assign (program mros l) "__iadd__" "__add__" "__radd__" x y (Some v)
  /\ ~ belongs (program mros l) v
         (fst (augmented (program mros l) "__iadd__" plus left [Inst y])).
Proof.
  exists [[3; 0]; [4; 3; 0]; [5; 0]],
    [(3, "__add__", ([3], 0)); (3, "__iadd__", ([3], 2)); (4, "__add__", ([3], 1));
     (5, "__add__", ([3], 1))], [Inst 4; Inst 5], 3, 4, 2.
  split; [apply fine_table_sound; reflexivity |]. split; [left; reflexivity |].
  split; [reflexivity |]. split; [| outside].
  apply in_place_answers. apply asks_iff. vm_compute. reflexivity.
Qed.

(* class A: def __add__(self, o: A) -> A; def __iadd__(self, o: object) -> A
   class K: def __add__(self, o: str) -> K
   def f(x: A | K): x += ""
   raises nothing and is rejected. *)
Theorem C68_augmented_reject_refuted : exists mros l left y,
  fine mros l
  /\ snd (augmented (program mros l) "__iadd__" plus left [Inst y]) <> []
  /\ forall x, In (Inst x) left -> exists v,
       python_assign (program mros l) "__iadd__" "__add__" "__radd__" x y (Some v).
Proof.
  exists [[3; 0]; [4; 0]],
    [(3, "__add__", ([3], 3)); (3, "__iadd__", ([0], 3)); (4, "__add__", ([2], 4))],
    [Inst 3; Inst 4], 2.
  split; [apply fine_table_sound; reflexivity |]. split; [discriminate |].
  intros x [[= <-] | [[= <-] | []]].
  - exists 3. apply in_place_answers. apply asks_iff. vm_compute. reflexivity.
  - exists 4. apply in_place_declines; [apply asks_iff; vm_compute; reflexivity | evaluate].
Qed.

(* def f(x: str | Box): 1 in x
   is accepted, as Box takes an int, and raises a TypeError for a str. *)
Theorem C68_in_refuted : exists mros l left right c d,
  fine mros l /\ in_operator (program mros l) left right = []
  /\ In (Inst c) left /\ In (Inst d) right /\ ~ askable (program mros l) c d.
Proof.
  exists [[3; 0]], [(2, "__contains__", ([2], 1)); (3, "__contains__", ([0], 1))],
    [Inst 1], [Inst 2; Inst 3], 1, 2.
  split; [apply fine_table_sound; reflexivity |]. split; [reflexivity |].
  split; [left; reflexivity |]. split; [left; reflexivity |].
  intros [(d & m & Hp & Hb) | (Hl & _)].
  - apply provides_iff in Hp. vm_compute in Hp. injection Hp as <- <-.
    revert Hb. outside.
  - apply lacks_iff in Hl. vm_compute in Hl. discriminate.
Qed.

(* class A: def __add__(self, o: A) -> A
   class B(A): def __radd__(self, o: A) -> B *)
Definition sums_mros := [[3; 0]; [4; 3; 0]].
Definition sums :=
  [(3, "__add__", ([3], 3)); (4, "__radd__", ([3], 4)); (3, "__iadd__", ([3], 4));
   (3, "__lt__", ([3], 1)); (4, "__gt__", ([3], 1))].
Definition Sums := program sums_mros sums.

Example C68_sums :
  fine sums_mros sums /\ single Sums
  /\ binary Sums plus [Inst 3] [Inst 3; Inst 4] = ([Inst 3; Inst 4], [])
  /\ binary Sums plus [Inst 3; Inst 1] [Inst 3; Any]
     = ([Inst 3; Any; Any; Any], [UnsupportedLeft (Inst 1)])
  /\ binary Sums plus [Inst 3] [Inst 1] = ([Any], [Unsupported (Inst 3) (Inst 1)])
  /\ binary Sums less [Inst 3] [Inst 4] = ([Inst 1], [])
  /\ augmented Sums "__iadd__" plus [Inst 3] [Inst 4] = ([Inst 4], [])
  /\ augmented Sums "__iadd__" plus [Inst 1] [Inst 4]
     = ([Any], [Operation (Unsupported (Inst 1) (Inst 4))])
  /\ python Sums Arithmetic "__add__" "__radd__" 3 4 (Some 4)
  /\ python Sums Ordering "__lt__" "__gt__" 3 4 (Some 1)
  /\ python Sums Arithmetic "__add__" "__radd__" 4 4 (Some 3).
Proof.
  split; [apply fine_table_sound; reflexivity |].
  split; [apply single_table_sound; reflexivity |].
  do 6 (split; [reflexivity |]). split; [evaluate |]. split; evaluate.
Qed.

(* The hypotheses of C68_subclass hold for this program. *)
Example C68_subclass_case :
  exists v, python Sums Arithmetic "__add__" "__radd__" 3 4 (Some v)
    /\ belongs Sums v [Inst 3].
Proof.
  pose proof C68_sums as (Hfine & Hs & _). destruct Hfine as (Hw & Hh & Hd & Ho & Hc).
  apply (C68_subclass Sums nat (fun c => c) (first_call Sums) "+" "add" plus 3 3 3 4 3
           (Method [Inst 3] [Inst 3])); try assumption.
  - left. reflexivity.
  - reflexivity.
  - apply Ho. left. reflexivity.
  - intros d m Hown.
    assert (Hm : d = 4 /\ m = Method [Inst 3] [Inst 4]).
    { cbn in Hown. destruct d as [| [| [| [| [| d]]]]]; cbn in Hown; try discriminate.
      injection Hown as <-. split; reflexivity. }
    destruct Hm as [-> ->]. split; [reflexivity |]. split; [intros [H | []]; discriminate |].
    split; [intros [H | []]; discriminate |].
    intros p [[= <-] | []] _. left. reflexivity.
  - apply provides_iff. reflexivity.
  - apply in_type_belongs. reflexivity.
  - left. reflexivity.
  - left. reflexivity.
  - right. left. reflexivity.
Qed.

(* class A: def __add__(self, o: C) -> int
   class B: def __radd__(self, o: A) -> object
   class C(B): ...
   The checker takes B.__radd__ for A() + b; if b is a C, then A.__add__ answers. *)
Definition part_mros := [[3; 0]; [4; 0]; [5; 4; 0]].
Definition part := [(3, "__add__", ([5], 1)); (4, "__radd__", ([3], 0))].
Definition Part := program part_mros part.

Example C68_part :
  fine part_mros part /\ single Part
  /\ binary Part plus [Inst 3] [Inst 4] = ([Inst 0], [])
  /\ python Part Arithmetic "__add__" "__radd__" 3 4 (Some 0)
  /\ python Part Arithmetic "__add__" "__radd__" 3 5 (Some 1)
  (* With int and str as the answers the check complains. *)
  /\ check_overlapping Part 4 "radd" (Method [Inst 3] [Inst 2]) = [3].
Proof.
  split; [apply fine_table_sound; reflexivity |].
  split; [apply single_table_sound; reflexivity |].
  split; [reflexivity |]. split; [evaluate |]. split; [evaluate | reflexivity].
Qed.

(* The hypotheses of C68_reverse hold for this program. *)
Example C68_reverse_case :
  exists v, python Part Arithmetic "__add__" "__radd__" 3 5 (Some v)
    /\ belongs Part v [Inst 0].
Proof.
  pose proof C68_part as (Hfine & Hs & _). destruct Hfine as (Hw & Hh & Hd & Ho & Hc).
  apply (C68_reverse Part nat (fun c => c) (first_call Part) "+" "add" plus 3 4 3 5 3
           (Method [Inst 5] [Inst 1]) (Method [Inst 3] [Inst 0])); try assumption.
  - left. reflexivity.
  - reflexivity.
  - apply Ho. left. reflexivity.
  - apply Ho. right. left. reflexivity.
  - apply provides_iff. reflexivity.
  - reflexivity.
  - rewrite <- in_type_belongs. discriminate.
  - intros c [[H | []] | (d & [[= <-] | []] & Hb)]; [discriminate |].
    right. exists 4. split; [left; reflexivity |].
    apply (below_trans Part c 5 4 Hw Hb). right. left. reflexivity.
  - intros [H | []]. discriminate.
  - left. reflexivity.
  - reflexivity.
  - intros [H | [H | []]]; discriminate.
  - intros [H | [H | []]]; discriminate.
  - left. reflexivity.
  - right. left. reflexivity.
Qed.

Print Assumptions C68_tables.
Print Assumptions C68_python.
Print Assumptions C68_accepted.
Print Assumptions C68_rejected.
Print Assumptions C68_arithmetic.
Print Assumptions C68_ordering.
Print Assumptions C68_any.
Print Assumptions C68_subclass.
Print Assumptions C68_reverse.
Print Assumptions C68_augmented.
Print Assumptions C68_augmented_mixed.
Print Assumptions C68_in.
Print Assumptions C68_in_never.
Print Assumptions C68_in_rejected.
Print Assumptions C68_arithmetic_refuted.
Print Assumptions C68_ordering_same_refuted.
Print Assumptions C68_ordering_refuted.
Print Assumptions C68_subclass_refuted.
Print Assumptions C68_overlap_refuted.
Print Assumptions C68_multiple_refuted.
Print Assumptions C68_augmented_refuted.
Print Assumptions C68_augmented_reject_refuted.
Print Assumptions C68_in_refuted.
