(* The proofs about subclasses, augmented assignments and `in`. *)
From Coq Require Import String List Bool Arith PeanoNat.
From Verif Require Import OperatorModel OperatorSpec Operator.
Import ListNotations.

Lemma belongs_below : forall w c d t, linear w -> below w c d -> belongs w d t -> belongs w c t.
Proof.
  intros w c d t Hw Hcd [Ha | (e & Hin & Hde)].
  - left. exact Ha.
  - right. exists e. split; [exact Hin |]. apply (below_trans w c d e Hw Hcd Hde).
Qed.

Lemma ty_sub_covers : forall w t u,
  linear w -> ~ In Any t -> ty_sub w t u = true -> covers w u t.
Proof.
  intros w t u Hw Hany Hsub c [Ha | (d & Hin & Hcd)]; [contradiction |].
  unfold ty_sub in Hsub. rewrite forallb_forall in Hsub. specialize (Hsub _ Hin).
  apply in_type_belongs in Hsub. apply (belongs_below w c d u Hw Hcd Hsub).
Qed.

(* Operators *)

Definition operation (k : kind) (op : string) : option op_infos :=
  match k with Arithmetic => as_operation op | Ordering => as_ordering op end.

Lemma operation_names : forall k op name rev o,
  python_operator k op name rev -> operation k op = Some o ->
  magic o = name /\ reverse o = rev /\ kind_of o = k.
Proof.
  intros k op name rev o H Hop. destruct H as [op n Hin | op n r Hin];
    cbn [operation] in Hop; cbn [In arithmetic_names ordering_names] in Hin.
  - repeat (destruct Hin as [[= <- <-] | Hin];
      [vm_compute in Hop; injection Hop as <-; vm_compute; repeat split |]).
    contradiction.
  - repeat (destruct Hin as [[= <- <- <-] | Hin];
      [vm_compute in Hop; injection Hop as <-; vm_compute; repeat split |]).
    contradiction.
Qed.

Lemma operation_shortcut : forall k op name rev o,
  python_operator k op name rev -> operation k op = Some o ->
  shortcut o = match k with Arithmetic => true | Ordering => false end.
Proof.
  intros k op name rev o H Hop.
  destruct (operation_names _ _ _ _ _ H Hop) as (_ & _ & Hk).
  unfold kind_of in Hk. destruct (shortcut o); rewrite <- Hk; reflexivity.
Qed.

(* Subclasses *)

Section Subclass.

Variable w : world.
Variable value : Type.
Variable cls : value -> nat.
Variable call : method -> value -> value -> option value.
Hypothesis Hw : linear w.
Hypothesis keeps : honest w value cls call.
Hypothesis polite : declines w value cls call.

Variables n : string.
Notation name := (dunder n).
Notation rev := (dunder ("r" ++ n)).

Hypothesis known : get reverse_to_normal ("r" ++ n) = Some name.
Hypothesis fits : overrides_fit w name.
Hypothesis one : single w.

Variables l r : nat.
Variables x y : value.

(* The reverse methods are checked, typed, and those that take the left operand
   are declared for subclasses of [l]. *)
Hypothesis checked : forall d m,
  own w d rev = Some m ->
  check_overlapping w d ("r" ++ n) m = [] /\ ~ In Any (m_param m) /\ ~ In Any (m_return m)
  /\ forall p, In (Inst p) (m_param m) -> below w (cls x) p -> below w p l.

Variables (dl : nat) (ml : method).
Hypothesis has : provides w l name dl ml.
Hypothesis takes : belongs w r (m_param ml).
Hypothesis left_of : below w (cls x) l.
Hypothesis right_of : below w (cls y) r.
Hypothesis apart : l = r \/ ~ below w r l.

Lemma left_answer : exists v,
  answer w value cls call x name y = Some v /\ belongs w (cls v) (m_return ml).
Proof.
  destruct (fits (cls x) l dl ml left_of has) as (e & m & Hp & Hparam & Hret).
  pose proof (proj1 (provides_iff _ _ _ _ _) Hp) as Hf.
  destruct (keeps e name m x y (provides_own _ _ _ _ _ Hp)) as (v & Hc & Hv).
  - apply Hparam. apply (belongs_below w (cls y) r); assumption.
  - exists v. unfold answer. rewrite Hf. split; [exact Hc |]. apply Hret. exact Hv.
Qed.

Lemma right_answer : forall v,
  goes_first w Arithmetic rev (cls x) (cls y) = true ->
  answer w value cls call y rev x = Some v -> belongs w (cls v) (m_return ml).
Proof.
  intros v Hfirst Hans.
  apply (proj2 (goes_first_iff w value cls Arithmetic rev x y)) in Hfirst.
  destruct Hfirst as (_ & Hyx & d & m & Hy & Hx).
  unfold answer in Hans. rewrite (proj1 (provides_iff _ _ _ _ _) Hy) in Hans.
  pose proof (provides_own _ _ _ _ _ Hy) as Ho.
  destruct (checked d m Ho) as (Hcheck & Hnp & Hnr & Hwithin).
  destruct (in_type w (Inst (cls x)) (m_param m)) eqn:Hin.
  2: { rewrite (polite d rev m y x Ho) in Hans; [discriminate |].
       rewrite <- in_type_belongs, Hin. discriminate. }
  apply in_type_belongs in Hin.
  destruct (keeps d rev m y x Ho Hin) as (v' & Hc & Hv). rewrite Hans in Hc.
  injection Hc as <-.
  destruct Hin as [Ha | (p & Hinp & Hxp)]; [contradiction |].
  pose proof (Hwithin p Hinp Hxp) as Hpl.
  destruct (fits p l dl ml Hpl has) as (e & mp & Hp & Hparam & Hret).
  unfold check_overlapping in Hcheck. rewrite known in Hcheck.
  assert (Hov : overlaps w d p m mp = false).
  { destruct (overlaps w d p m mp) eqn:Hov; [| reflexivity]. exfalso.
    assert (Hbad : In p []).
    { rewrite <- Hcheck. apply in_flat_map. exists (Inst p). split; [exact Hinp |].
      cbn [look]. rewrite (proj1 (provides_iff _ _ _ _ _) Hp). rewrite Hov.
      left. reflexivity. }
    destruct Hbad. }
  assert (Hnot : ~ below w (cls x) d).
  { intro Hxd. apply Hx. apply (inherited w (cls x) (cls y)); assumption. }
  pose proof (provides_below _ _ _ _ _ Hy) as Hyd.
  pose proof (below_trans w _ _ _ Hw Hyx Hxp) as Hyp.
  unfold overlaps in Hov.
  destruct (Nat.eqb_spec p d) as [-> | Hne]; [contradiction |].
  assert (Hdp : below w d p).
  { destruct (one (cls y) d p Hyd Hyp) as [H | H]; [exact H |].
    exfalso. apply Hnot. apply (below_trans w _ _ _ Hw Hxp H). }
  assert (Hlr : below w l r).
  { destruct apart as [<- | Hn]; [apply below_refl; exact Hw |].
    destruct (one (cls y) l r) as [H | H]; [| exact right_of | exact H | contradiction].
    apply (below_trans w _ _ _ Hw Hyp Hpl). }
  assert (Hcyc : in_type w (Inst d) (m_param mp) = true).
  { apply in_type_belongs. apply Hparam.
    apply (belongs_below w d r); [exact Hw | | exact takes].
    apply (below_trans w _ _ _ Hw Hdp). apply (below_trans w _ _ _ Hw Hpl Hlr). }
  rewrite Hcyc in Hov. cbn [negb andb] in Hov.
  rewrite (proj2 (sub_below w d p) Hdp) in Hov.
  apply negb_false_iff in Hov. apply Hret.
  apply (ty_sub_covers w _ _ Hw Hnr Hov). exact Hv.
Qed.

Lemma subclass_evaluates : exists v,
  evaluates w value cls call Arithmetic name rev x y (Some v)
  /\ belongs w (cls v) (m_return ml).
Proof.
  destruct left_answer as (va & Ha & Hva).
  destruct (eval w value cls call Arithmetic name rev x y) as [v |] eqn:He.
  - exists v. split; [apply evaluates_iff; congruence |].
    unfold eval in He. rewrite Ha in He.
    destruct (goes_first w Arithmetic rev (cls x) (cls y)) eqn:Hf; [| congruence].
    destruct (answer w value cls call y rev x) as [vb |] eqn:Hb; [| congruence].
    injection He as <-. apply right_answer; assumption.
  - exfalso. unfold eval in He. rewrite Ha in He.
    destruct (goes_first _ _ _ _ _); [| discriminate].
    destruct (answer w value cls call y rev x); discriminate.
Qed.

End Subclass.

Lemma own_provides : forall w c name m,
  linear w -> own w c name = Some m -> provides w c name c m.
Proof.
  intros w c name m Hw Ho. destruct (linear_first w Hw c) as (rest & Hc). exists [], rest.
  split; [exact Hc |]. split; [exact Ho | intros e []].
Qed.

(* Subclasses, where the checker takes the method of the right operand. *)

Section Reverse.

Variable w : world.
Variable value : Type.
Variable cls : value -> nat.
Variable call : method -> value -> value -> option value.
Hypothesis Hw : linear w.
Hypothesis keeps : honest w value cls call.
Hypothesis polite : declines w value cls call.

Variables n : string.
Notation name := (dunder n).
Notation rev := (dunder ("r" ++ n)).

Hypothesis known : get reverse_to_normal ("r" ++ n) = Some name.
Hypothesis fits : overrides_fit w name.
Hypothesis reverse_fits : overrides_fit w rev.
Hypothesis one : single w.

Variables l r : nat.
Variables x y : value.
Variables (dl : nat) (ml mr : method).
Hypothesis has : provides w l name dl ml.
Hypothesis within : covers w [Inst r] (m_param ml).
Hypothesis typed : ~ In Any (m_return ml).
Hypothesis defines : own w r rev = Some mr.
Hypothesis takes : In (Inst l) (m_param mr).
Hypothesis checked : check_overlapping w r ("r" ++ n) mr = [].
Hypothesis left_of : below w (cls x) l.
Hypothesis right_of : below w (cls y) r.
Hypothesis not_below : ~ below w r l.
Hypothesis not_above : ~ below w l r.

Lemma within_sub : ty_sub w (m_param ml) [Inst r] = true.
Proof.
  unfold ty_sub. apply forallb_forall. intros [| d] Hin.
  - reflexivity.
  - apply in_type_belongs. apply within. right. exists d. split; [exact Hin |].
    apply below_refl. exact Hw.
Qed.

Lemma returns_within : covers w (m_return mr) (m_return ml).
Proof.
  unfold check_overlapping in checked. rewrite known in checked.
  assert (Hov : overlaps w r l mr ml = false).
  { destruct (overlaps w r l mr ml) eqn:Hov; [| reflexivity]. exfalso.
    assert (Hbad : In l []).
    { rewrite <- checked. apply in_flat_map. exists (Inst l). split; [exact takes |].
      cbn [look]. rewrite (proj1 (provides_iff _ _ _ _ _) has). rewrite Hov.
      left. reflexivity. }
    destruct Hbad. }
  unfold overlaps in Hov.
  destruct (Nat.eqb_spec l r) as [-> | _];
    [exfalso; apply not_below; apply below_refl; exact Hw |].
  rewrite within_sub, andb_false_r in Hov.
  destruct (sub w (Inst r) (Inst l)) eqn:Hs;
    [apply sub_below in Hs; contradiction |].
  apply negb_false_iff in Hov. apply (ty_sub_covers w _ _ Hw typed Hov).
Qed.

Lemma reverse_answer : exists v,
  answer w value cls call y rev x = Some v /\ belongs w (cls v) (m_return mr).
Proof.
  destruct (reverse_fits (cls y) r r mr right_of
    (own_provides w r rev mr Hw defines)) as (e & m & Hp & Hparam & Hret).
  destruct (keeps e rev m y x (provides_own _ _ _ _ _ Hp)) as (v & Hc & Hv).
  - apply Hparam. right. exists l. split; [exact takes | exact left_of].
  - exists v. unfold answer. rewrite (proj1 (provides_iff _ _ _ _ _) Hp).
    split; [exact Hc |]. apply Hret. exact Hv.
Qed.

Lemma forward_answer : forall v,
  answer w value cls call x name y = Some v -> belongs w (cls v) (m_return mr).
Proof.
  intros v Ha.
  destruct (fits (cls x) l dl ml left_of has) as (e & m & Hp & _ & Hret).
  pose proof (provides_own _ _ _ _ _ Hp) as Ho.
  unfold answer in Ha. rewrite (proj1 (provides_iff _ _ _ _ _) Hp) in Ha.
  destruct (in_type w (Inst (cls y)) (m_param m)) eqn:Hin.
  - apply in_type_belongs in Hin. destruct (keeps e name m x y Ho Hin) as (v' & Hc & Hv).
    rewrite Ha in Hc. injection Hc as <-. apply returns_within, Hret, Hv.
  - rewrite (polite e name m x y Ho) in Ha; [discriminate |].
    rewrite <- in_type_belongs, Hin. discriminate.
Qed.

Lemma reverse_evaluates : exists v,
  evaluates w value cls call Arithmetic name rev x y (Some v)
  /\ belongs w (cls v) (m_return mr).
Proof.
  destruct reverse_answer as (vb & Hb & Hvb).
  assert (Hne : asks_both Arithmetic (cls x) (cls y) = true).
  { apply asks_both_iff. right. intro Heq. pose proof left_of as Hx. rewrite Heq in Hx.
    destruct (one (cls y) l r Hx right_of); contradiction. }
  destruct (eval w value cls call Arithmetic name rev x y) as [v |] eqn:He.
  - exists v. split; [apply evaluates_iff; congruence |].
    unfold eval in He. rewrite Hb, Hne in He.
    destruct (goes_first w Arithmetic rev (cls x) (cls y)); [congruence |].
    destruct (answer w value cls call x name y) as [va |] eqn:Ha; [| congruence].
    injection He as <-. apply forward_answer. exact Ha.
  - exfalso. unfold eval in He. rewrite Hb, Hne in He.
    destruct (goes_first _ _ _ _ _); [discriminate |].
    destruct (answer w value cls call x name y); discriminate.
Qed.

End Reverse.

(* The checker takes the method of the left operand. *)
Lemma operate_left : forall w o l r dl ml,
  provides w l (magic o) dl ml -> belongs w r (m_param ml) ->
  shortcut o = true /\ l = r \/ ~ below w r l ->
  operate w o (Inst l) (Inst r) = (m_return ml, []).
Proof.
  intros w o l r dl ml Hp Hin Hrel. unfold operate. cbv zeta. unfold get_strategy.
  cbn [look same_class]. rewrite (proj1 (provides_iff _ _ _ _ _) Hp).
  apply in_type_belongs in Hin.
  destruct (shortcut o && Nat.eqb l r) eqn:Hs.
  - cbn [run]. rewrite Hin. reflexivity.
  - destruct Hrel as [(Hsh & ->) | Hn].
    + rewrite Hsh, Nat.eqb_refl in Hs. discriminate.
    + destruct (sub w (Inst r) (Inst l)) eqn:Hsub.
      * apply sub_below in Hsub. contradiction.
      * cbn [andb run]. rewrite Hin. reflexivity.
Qed.

(* The checker takes the method of the right operand. *)
Lemma operate_reverse : forall w o l r dl ml mr,
  linear w -> provides w l (magic o) dl ml -> ~ belongs w r (m_param ml) ->
  own w r (reverse o) = Some mr -> In (Inst l) (m_param mr) -> ~ below w r l ->
  operate w o (Inst l) (Inst r) = (m_return mr, []).
Proof.
  intros w o l r dl ml mr Hw Hp Hnot Hr Hin Hn. unfold operate. cbv zeta. unfold get_strategy.
  cbn [look same_class]. rewrite (proj1 (provides_iff _ _ _ _ _) Hp).
  rewrite (proj1 (provides_iff _ _ _ _ _) (own_provides w _ _ _ Hw Hr)).
  destruct (Nat.eqb_spec l r) as [-> | _]; [exfalso; apply Hn, below_refl, Hw |].
  rewrite andb_false_r.
  destruct (sub w (Inst r) (Inst l)) eqn:Hsub; [apply sub_below in Hsub; contradiction |].
  cbn [andb run].
  destruct (in_type w (Inst r) (m_param ml)) eqn:Hi; [apply in_type_belongs in Hi; contradiction |].
  cbn [or_else].
  assert (Hl : in_type w (Inst l) (m_param mr) = true).
  { apply in_type_belongs. right. exists l. split; [exact Hin | apply below_refl; exact Hw]. }
  rewrite Hl. reflexivity.
Qed.

(* Augmented assignments *)

Lemma in_place_error : forall w name left right,
  snd (in_place w name left right) = true <-> exists l, In l left /\ look w l name = None.
Proof.
  intros w name left right. induction left as [| l left IH]; cbn [in_place].
  - split; [discriminate | intros (l & [] & _)].
  - destruct (in_place w name left right) as [[t is] e]. cbn [snd] in IH.
    destruct (look w l name) as [[d m] |] eqn:Hl.
    + destruct (ty_sub w right (m_param m)); cbn [snd]; rewrite IH; split.
      all: try (intros (l' & Hin & H); exists l'; split; [right; exact Hin | exact H]).
      all: intros (l' & [<- | Hin] & H); [congruence |]; exists l'; split; assumption.
    + cbn [snd]. split; [| reflexivity]. intros _. exists l.
      split; [left; reflexivity | exact Hl].
Qed.

Lemma in_place_member : forall w name left right l d m,
  In l left -> look w l name = Some (d, m) ->
  incl (m_return m) (fst (fst (in_place w name left right)))
  /\ (snd (fst (in_place w name left right)) = [] -> ty_sub w right (m_param m) = true).
Proof.
  intros w name left right l d m. induction left as [| a left IH]; [intros [] |].
  cbn [in_place]. destruct (in_place w name left right) as [[t is] e]. cbn [fst snd] in IH.
  intros [-> | Hin] Hl.
  - rewrite Hl. destruct (ty_sub w right (m_param m)) eqn:Hs; cbn [fst snd].
    + split; [apply incl_appl, incl_refl | reflexivity].
    + split; [apply incl_appl, incl_refl | discriminate].
  - destruct (IH Hin Hl) as [H1 H2].
    destruct (look w a name) as [[d' m'] |].
    + destruct (ty_sub w right (m_param m')); cbn [fst snd].
      * split; [apply incl_appr; exact H1 | exact H2].
      * split; [apply incl_appr; exact H1 | discriminate].
    + cbn [fst snd]. split; [apply incl_tl; exact H1 | exact H2].
Qed.

Lemma belongs_incl : forall w c t u, incl t u -> belongs w c t -> belongs w c u.
Proof.
  intros w c t u Hi [Ha | (d & Hin & Hb)].
  - left. apply Hi. exact Ha.
  - right. exists d. split; [apply Hi; exact Hin | exact Hb].
Qed.

Lemma sort_in : forall t m, In m (sort_for_priority t) <-> In m t.
Proof.
  intros t m. unfold sort_for_priority. rewrite in_app_iff, !filter_In.
  destruct m; cbn [is_any negb]; split; auto.
  - intros [(_ & H) | (H & _)]; [discriminate | exact H].
  - intros [(H & _) | (_ & H)]; [exact H | discriminate].
Qed.

Lemma augmented_silent : forall w name o left right t,
  augmented w name o left right = (t, []) ->
  snd (fst (in_place w name left right)) = []
  /\ if snd (in_place w name left right) then binary w o left right = (t, [])
     else fst (fst (in_place w name left right)) = t.
Proof.
  intros w name o left right t. unfold augmented.
  destruct (in_place w name left right) as [[t' is] e]. cbn [fst snd].
  destruct e.
  - destruct (binary w o left right) as [t2 is2]. intros [= -> H].
    apply app_eq_nil in H. destruct H as [H1 H2].
    split.
    + destruct is; [reflexivity | discriminate].
    + destruct is2; [reflexivity | discriminate].
  - intros [= -> H]. split; [| reflexivity]. destruct is; [reflexivity | discriminate].
Qed.

(* The `in` operator *)

Lemma next_of_ok : forall w its,
  snd (next_of w its) = false <-> forall i, In i its -> look w i "__next__" <> None.
Proof.
  intros w its. induction its as [| i its IH]; cbn [next_of].
  - split; [intros _ i [] | reflexivity].
  - destruct (next_of w its) as [t e]. cbn [snd] in IH.
    destruct (look w i "__next__") as [[d m] |] eqn:Hl; cbn [snd].
    + rewrite IH. split.
      * intros H j [<- | Hj]; [congruence | apply H; exact Hj].
      * intros H j Hj. apply H. right. exact Hj.
    + split; [discriminate |]. intro H. exfalso. apply (H i); [left; reflexivity | exact Hl].
Qed.

Lemma next_of_in : forall w its m,
  snd (next_of w its) = false ->
  (In m (fst (next_of w its)) <->
   exists i d f, In i its /\ look w i "__next__" = Some (d, f) /\ In m (m_return f)).
Proof.
  intros w its m. induction its as [| i its IH]; cbn [next_of].
  - intros _. split; [intros [] | intros (i & d & f & [] & _)].
  - destruct (next_of w its) as [t e]. cbn [fst snd] in IH.
    destruct (look w i "__next__") as [[d f] |] eqn:Hl; cbn [fst snd]; [| discriminate].
    intro He. specialize (IH He). rewrite in_app_iff, IH. split.
    + intros [H | (j & d' & f' & Hj & Hlj & Hm)].
      * exists i, d, f. split; [left; reflexivity | split; assumption].
      * exists j, d', f'. split; [right; exact Hj | split; assumption].
    + intros (j & d' & f' & [<- | Hj] & Hlj & Hm).
      * left. rewrite Hl in Hlj. injection Hlj as <- <-. exact Hm.
      * right. exists j, d', f'. split; [exact Hj | split; assumption].
Qed.

Lemma in_operator_nil : forall w left right,
  in_operator w left right = [] ->
  (forall l r, In l left -> In r right -> snd (contains w l r) = [])
  /\ (right <> [] -> exists l r, In l left /\ In r right /\ fst (contains w l r) = true).
Proof.
  intros w left right H. unfold in_operator in H. cbv zeta in H.
  apply app_eq_nil in H. destruct H as [H1 H2].
  assert (Hall : forall l r, In l left -> In r right ->
    In (contains w l r) (flat_map (fun r => map (fun l => contains w l r) left) right)).
  { intros l r Hl Hr. apply in_flat_map. exists r. split; [exact Hr |].
    apply in_map_iff. exists l. split; [reflexivity | exact Hl]. }
  revert H1 H2 Hall.
  set (pairs := flat_map (fun r => map (fun l => contains w l r) left) right).
  intros H1 H2 Hall. split.
  - intros l r Hl Hr. specialize (Hall l r Hl Hr).
    destruct (snd (contains w l r)) as [| i is] eqn:Hs; [reflexivity |]. exfalso.
    assert (Hbad : In i []).
    { rewrite <- H1. apply in_flat_map. exists (contains w l r).
      split; [exact Hall |]. rewrite Hs. left. reflexivity. }
    destruct Hbad.
  - intro Hne. destruct (existsb fst pairs) eqn:He.
    + apply existsb_exists in He. destruct He as ((b & is) & Hin & Hb). cbn [fst] in Hb. subst b.
      subst pairs. apply in_flat_map in Hin. destruct Hin as (r & Hr & Hin).
      apply in_map_iff in Hin. destruct Hin as (l & Heq & Hl).
      exists l, r. split; [exact Hl | split; [exact Hr |]]. rewrite Heq. reflexivity.
    + exfalso. destruct right; [congruence |]. discriminate.
Qed.
