(** Proofs for C64. *)
From Coq Require Import NArith Bool Ascii String List Lia PeanoNat.
From Verif Require Import VersionCheckModel VersionCheckSpec.
Import ListNotations.
Open Scope string_scope.
Open Scope N_scope.

Section Run.
Variable py : python.
Variable s : settings.

Fixpoint eval_all (l : list expr) : option (list value) :=
  match l with
  | [] => Some []
  | e :: l => bind (eval py e) (fun v => option_map (cons v) (eval_all l))
  end.

Lemma eval_tuple : forall l, eval py (Tuple l) = option_map VTuple (eval_all l).
Proof. reflexivity. Qed.

Lemma holds_check : forall op c, check_operand_against_total_order op c = if is_comparison op then Some (holds op c) else None.
Proof. intros [] []; reflexivity. Qed.

Definition answers (t : truthiness) (v : value) : Prop :=
  match t with TTrue _ => truth py v = Some true | TFalse => truth py v = Some false | TUnknown => True end.

Lemma answers_bool : forall b v, truth py v = Some b -> answers (from_bool b) v.
Proof. intros [] v H; exact H. Qed.

Lemma entries_right : forall op es cur l vs order,
  is_comparison op = true -> compare_entries cur es Datatypes.Eq = Some order -> eval_all es = Some vs -> (length es <= length cur)%nat ->
  firstn (length es) l = map VInt (firstn (length es) cur) -> length_fits op (length es) (N.of_nat (length l)) ->
  compare_tuples py op l vs = Some (VBool (holds op order)).
Proof.
  intros op es. induction es as [|e es IH]; intros cur l vs order Hop Hc Hv Hlen Hl Hfit.
  - cbn in Hv. injection Hv as <-. assert (order = Datatypes.Eq) as -> by (destruct cur; cbn in Hc; congruence).
    destruct l as [|x l]; [reflexivity|]. destruct Hfit as [Hfit|[[-> | ->] _]]; [cbn in Hfit; lia|reflexivity..].
  - destruct cur as [|c cur]; [cbn in Hlen; lia|]. cbn in Hlen, Hl. destruct l as [|x l]; [discriminate|]. injection Hl as -> Hl.
    cbn [compare_entries] in Hc. destruct e as [| n | | | | | | | | | | | |]; try discriminate.
    destruct (usize_limit <=? n); [discriminate|]. cbn [eval_all eval bind] in Hv.
    destruct (eval_all es) as [vs'|] eqn:E; [|discriminate]. cbn in Hv. injection Hv as <-. cbn [compare_tuples equal].
    destruct (c ?= n) eqn:Hcmp.
    + rewrite (proj2 (N.eqb_eq c n)) by (apply N.compare_eq; exact Hcmp).
      refine (IH cur l vs' order Hop Hc eq_refl _ Hl _); [lia|].
      destruct Hfit as [Hfit|[Ho Hfit]]; cbn [length] in Hfit; [left|right; split; [exact Ho|]]; lia.
    + injection Hc as <-. assert (Hne : (c =? n) = false) by (apply N.eqb_neq; intros ->; rewrite N.compare_refl in Hcmp; discriminate).
      rewrite Hne. unfold compare_scalars. rewrite Hcmp. destruct op; cbn in Hop |- *; try discriminate Hop; reflexivity.
    + injection Hc as <-. assert (Hne : (c =? n) = false) by (apply N.eqb_neq; intros ->; rewrite N.compare_refl in Hcmp; discriminate).
      rewrite Hne. unfold compare_scalars. rewrite Hcmp. destruct op; cbn in Hop |- *; try discriminate Hop; reflexivity.
Qed.

Lemma entries_right_reversed : forall op es cur l vs order,
  op = Eq \/ op = Ne -> compare_entries cur es Datatypes.Eq = Some order -> eval_all es = Some vs -> (length es <= length cur)%nat ->
  firstn (length es) l = map VInt (firstn (length es) cur) -> length es = length l ->
  compare_tuples py op vs l = Some (VBool (holds op order)).
Proof.
  intros op es. induction es as [|e es IH]; intros cur l vs order Hop Hc Hv Hlen Hl Hfit.
  - cbn in Hv. injection Hv as <-. assert (order = Datatypes.Eq) as -> by (destruct cur; cbn in Hc; congruence).
    destruct l as [|x l]; [reflexivity|discriminate].
  - destruct cur as [|c cur]; [cbn in Hlen; lia|]. cbn in Hlen, Hl. destruct l as [|x l]; [discriminate|]. injection Hl as -> Hl.
    cbn [compare_entries] in Hc. destruct e as [| n | | | | | | | | | | | |]; try discriminate.
    destruct (usize_limit <=? n); [discriminate|]. cbn [eval_all eval bind] in Hv.
    destruct (eval_all es) as [vs'|] eqn:E; [|discriminate]. cbn in Hv. injection Hv as <-. cbn [compare_tuples equal].
    destruct (c ?= n) eqn:Hcmp.
    + rewrite (proj2 (N.eqb_eq n c)) by (symmetry; apply N.compare_eq; exact Hcmp).
      refine (IH cur l vs' order Hop Hc eq_refl _ Hl _); [lia|]. cbn in Hfit. lia.
    + injection Hc as <-. assert (Hne : (n =? c) = false) by (apply N.eqb_neq; intros ->; rewrite N.compare_refl in Hcmp; discriminate).
      rewrite Hne. destruct Hop as [-> | ->]; reflexivity.
    + injection Hc as <-. assert (Hne : (n =? c) = false) by (apply N.eqb_neq; intros ->; rewrite N.compare_refl in Hcmp; discriminate).
      rewrite Hne. destruct Hop as [-> | ->]; reflexivity.
Qed.

Lemma part_firstn : forall (x y : N) rest a b k, (k + a <= 2)%nat -> (k <= Nat.min b (2 + length rest) - a)%nat ->
  firstn k (skipn a (firstn b (VInt x :: VInt y :: rest))) = map VInt (firstn k (skipn a [x; y])).
Proof.
  intros x y rest a b k H1 H2.
  destruct a as [|[|[|a]]]; [| | |lia]; destruct k as [|[|[|k]]]; try lia; destruct b as [|[|b]]; cbn in *; try lia; try reflexivity;
    destruct b; cbn; reflexivity.
Qed.

Hypothesis Hrun : described py s.

Lemma sys_version_value : forall v, eval py sys_version = Some v ->
  exists micro level serial, v = VTuple [VInt (major s); VInt (minor s); VInt micro; VStr level; VInt serial].
Proof.
  intros v H. destruct (version_info _ _ Hrun) as (sys & micro & level & serial & H1 & H2 & _). exists micro, level, serial.
  unfold sys_version in H. cbn [eval] in H. rewrite H1 in H. cbn [bind] in H. rewrite H2 in H. congruence.
Qed.

Lemma version_value : forall e a n x, version_part e a n -> eval py e = Some x ->
  exists micro level serial b,
    x = VTuple (skipn (N.to_nat a) (firstn b [VInt (major s); VInt (minor s); VInt micro; VStr level; VInt serial])) /\
    n = N.of_nat (Nat.min b 5 - N.to_nat a).
Proof.
  intros e a n x Hp He. destruct Hp as [| |a|b|a b].
  - destruct (sys_version_value _ He) as (m & l & r & ->). exists m, l, r, 5%nat. split; reflexivity.
  - cbn [eval] in He. fold sys_version in He. destruct (eval py sys_version) as [v|] eqn:E; [|discriminate].
    destruct (sys_version_value _ E) as (m & l & r & ->). exists m, l, r, 5%nat. cbn in He. injection He as <-. split; reflexivity.
  - cbn [eval] in He. fold sys_version in He. destruct (eval py sys_version) as [v|] eqn:E; [|discriminate].
    destruct (sys_version_value _ E) as (m & l & r & ->). exists m, l, r, 5%nat. cbn [bind option_map get_slice] in He. injection He as <-.
    split; [reflexivity|lia].
  - cbn [eval] in He. fold sys_version in He. destruct (eval py sys_version) as [v|] eqn:E; [|discriminate].
    destruct (sys_version_value _ E) as (m & l & r & ->). exists m, l, r, (N.to_nat b). cbn [bind option_map get_slice] in He. injection He as <-.
    split; [reflexivity|lia].
  - cbn [eval] in He. fold sys_version in He. destruct (eval py sys_version) as [v|] eqn:E; [|discriminate].
    destruct (sys_version_value _ E) as (m & l & r & ->). exists m, l, r, (N.to_nat b). cbn [bind option_map get_slice] in He. injection He as <-.
    split; [reflexivity|lia].
Qed.

Lemma tuple_answer : forall op es from t, python_version_matches_tuple s op (Tuple es) from = Some t ->
  (length es <= 5)%nat ->
  t = TUnknown \/
  (N.of_nat (length es) + from <= 2 /\ exists order, is_comparison op = true /\
    compare_entries (skipn (N.to_nat from) [major s; minor s]) es Datatypes.Eq = Some order /\ t = from_bool (holds op order)).
Proof.
  intros op es from t H Hlen. unfold python_version_matches_tuple, unknown, known in H.
  destruct (2 <? (N.of_nat (length es) + from) mod usize_limit) eqn:E1; [left; congruence|].
  destruct (2 <? from) eqn:E2; [discriminate|]. apply N.ltb_ge in E1, E2. rewrite N.mod_small in E1 by (unfold usize_limit; lia).
  destruct (compare_entries (skipn (N.to_nat from) [major s; minor s]) es Datatypes.Eq) as [order|] eqn:Ec; [|left; congruence].
  rewrite holds_check in H. destruct (is_comparison op) eqn:Eo; [|left; congruence]. right. split; [exact E1|]. exists order. repeat split. congruence.
Qed.

Lemma version_part_bound : forall e a n, version_part e a n -> n <= 5.
Proof. intros e a n H. destruct H; lia. Qed.

Lemma tuple_right : forall op e a n es t x y v, version_part e a n -> python_version_matches_tuple s op (Tuple es) a = Some t ->
  length_fits op (length es) n -> eval py e = Some x -> eval py (Tuple es) = Some y -> compare_values py op x y = Some v -> answers t v.
Proof.
  intros op e a n es t x y v Hp Ht Hfit Hx Hy Hv. pose proof (version_part_bound _ _ _ Hp) as Hb.
  assert (Hlen : N.of_nat (length es) <= n) by (destruct Hfit as [|[_ ?]]; lia).
  destruct (tuple_answer _ _ _ _ Ht ltac:(lia)) as [->|(Hsum & order & Hop & Hc & ->)]; [exact Logic.I|].
  destruct (version_value _ _ _ _ Hp Hx) as (m & l & r & b & -> & ->).
  rewrite eval_tuple in Hy. destruct (eval_all es) as [vs|] eqn:Ev; [|discriminate]. cbn in Hy. injection Hy as <-.
  unfold compare_values in Hv. rewrite Hop in Hv.
  rewrite (entries_right op es _ _ vs order Hop Hc Ev) in Hv.
  - injection Hv as <-. apply answers_bool. reflexivity.
  - rewrite skipn_length. cbn [length]. lia.
  - apply part_firstn; cbn [length]; lia.
  - rewrite skipn_length, firstn_length. exact Hfit.
Qed.

Lemma tuple_right_reversed : forall op e a n es t x y v, version_part e a n -> python_version_matches_tuple s op (Tuple es) a = Some t ->
  op = Eq \/ op = Ne -> N.of_nat (length es) = n -> eval py e = Some x -> eval py (Tuple es) = Some y -> compare_values py op y x = Some v -> answers t v.
Proof.
  intros op e a n es t x y v Hp Ht Hop' Hfit Hx Hy Hv. pose proof (version_part_bound _ _ _ Hp) as Hb.
  destruct (tuple_answer _ _ _ _ Ht ltac:(lia)) as [->|(Hsum & order & Hop & Hc & ->)]; [exact Logic.I|].
  destruct (version_value _ _ _ _ Hp Hx) as (m & l & r & b & -> & ->).
  rewrite eval_tuple in Hy. destruct (eval_all es) as [vs|] eqn:Ev; [|discriminate]. cbn in Hy. injection Hy as <-.
  unfold compare_values in Hv. rewrite Hop in Hv.
  rewrite (entries_right_reversed op es _ _ vs order Hop' Hc Ev) in Hv.
  - injection Hv as <-. apply answers_bool. reflexivity.
  - rewrite skipn_length. cbn [length]. lia.
  - apply part_firstn; cbn [length]; lia.
  - rewrite skipn_length, firstn_length. cbn [length]. lia.
Qed.

Lemma maybe_sys_is : forall e name, maybe_sys_name e name = true -> e = Attribute (Name "sys") name.
Proof.
  intros e name H. destruct e as [| | | | |e attr| | | | | | | |]; try discriminate. destruct e; try discriminate. cbn in H.
  apply andb_prop in H as [H1 H2]. apply String.eqb_eq in H1, H2. congruence.
Qed.

Lemma not_tuple : forall op other from, (forall es, other <> Tuple es) -> python_version_matches_tuple s op other from = Some TUnknown.
Proof. intros op other from H. destruct other; try reflexivity. destruct (H l eq_refl). Qed.

Lemma platform_value : forall x, eval py (Attribute (Name "sys") "platform") = Some x -> x = VStr (platform s).
Proof.
  intros x H. destruct (version_info _ _ Hrun) as (sys & micro & level & serial & H1 & _ & H2). cbn [eval] in H. rewrite H1 in H. cbn [bind] in H.
  congruence.
Qed.

Lemma bounds_part : forall first second third t op other from,
  python_version_matches_slice s op first third other = Some t -> t <> TUnknown -> (second = None \/ exists b, second = Some (Int b)) ->
  from = match first with Some (Int a) => a | _ => 0 end ->
  python_version_matches_tuple s op other from = Some t /\ exists n, version_part (Slice sys_version first second third) from n.
Proof.
  intros first second third t op other from H Hk Hs Hf. unfold python_version_matches_slice in H.
  destruct third as [e3|]; [unfold unknown in H; congruence|].
  destruct first as [e1|].
  - destruct e1 as [| a | | | | | | | | | | | |]; try (unfold unknown in H; congruence). subst from.
    destruct (a <? usize_limit); [|unfold unknown in H; congruence]. split; [exact H|].
    destruct Hs as [->|[b ->]]; eexists; constructor.
  - subst from. split; [exact H|]. destruct Hs as [->|[b ->]]; eexists; constructor.
Qed.

Lemma holds_symmetric : forall op n m, op = Eq \/ op = Ne -> holds op (n ?= m) = holds op (m ?= n).
Proof. intros op n m [-> | ->]; rewrite (N.compare_antisym n m); destruct (n ?= m); reflexivity. Qed.

Lemma truthiness_eq : forall t, t = TUnknown \/ t <> TUnknown.
Proof. intros [b| |]; [right; discriminate..|left; reflexivity]. Qed.

(** The two ways in which a comparison is looked at *)
Lemma comparison_right : forall op check other t x y v (flip : bool),
  check_comparison_reachability s op check other = Some t ->
  (if flip then careful_comparison other op check else careful_comparison check op other) ->
  eval py check = Some x -> eval py other = Some y -> (if flip then compare_values py op y x else compare_values py op x y) = Some v ->
  answers t v.
Proof.
  intros op check other t x y v flip Ht Hcare Hx Hy Hv.
  assert (Htuple : forall a n, version_part check a n -> python_version_matches_tuple s op other a = Some t -> answers t v).
  { intros a n Hp H. destruct other as [| | |es| | | | | | | | | |]; try (cbn in H; unfold unknown in H; injection H as <-; exact Logic.I).
    destruct flip.
    - destruct (careful_reversed_tuple _ _ _ Hcare _ _ _ Hp eq_refl) as [Ho Hn]. exact (tuple_right_reversed op check a n es t x y v Hp H Ho Hn Hx Hy Hv).
    - exact (tuple_right op check a n es t x y v Hp H (careful_tuple _ _ _ Hcare _ _ _ Hp eq_refl) Hx Hy Hv). }
  unfold check_comparison_reachability, python_version_matches_index, unknown in Ht. cbv zeta in Ht.
  destruct (maybe_sys_name check "platform") eqn:Eplat.
  - apply maybe_sys_is in Eplat. subst check. apply platform_value in Hx as ->.
    destruct op, other; cbn in Ht; try (injection Ht as <-; exact Logic.I).
    + injection Ht as <-. cbn in Hy. injection Hy as <-. apply answers_bool. destruct flip; cbn in Hv; injection Hv as <-; [reflexivity|].
      cbn. rewrite String.eqb_sym. reflexivity.
    + injection Ht as <-. cbn in Hy. injection Hy as <-. apply answers_bool. destruct flip; cbn in Hv; injection Hv as <-; [reflexivity|].
      cbn. rewrite String.eqb_sym. reflexivity.
  - destruct (maybe_sys_name check "version_info") eqn:Ever.
    + apply maybe_sys_is in Ever. subst check. exact (Htuple 0 5 whole Ht).
    + destruct check as [| | | | | |e i|e first second third| | | | | |]; try (injection Ht as <-; exact Logic.I).
      * destruct (maybe_sys_name e "version_info") eqn:Es; [|injection Ht as <-; exact Logic.I]. apply maybe_sys_is in Es. subst e.
        destruct i as [|nth| | | | | | | | | | | |]; try (injection Ht as <-; exact Logic.I).
        destruct other as [|wanted| | | | | | | | | | | |]; try (injection Ht as <-; exact Logic.I).
        destruct ((nth =? 0) && (wanted <? usize_limit)) eqn:Eb; [|injection Ht as <-; exact Logic.I].
        apply andb_prop in Eb as [Eb _]. apply N.eqb_eq in Eb. subst nth.
        unfold known in Ht. rewrite holds_check in Ht. destruct (is_comparison op) eqn:Eop; [|injection Ht as <-; exact Logic.I]. injection Ht as <-.
        fold sys_version in Hx. cbn [eval] in Hx. destruct (eval py sys_version) as [w|] eqn:Ew; [|discriminate].
        destruct (sys_version_value _ Ew) as (m & l & r & ->). cbn in Hx. injection Hx as <-. cbn in Hy. injection Hy as <-.
        apply answers_bool. destruct flip.
        -- cbn in Hv. rewrite Eop in Hv. injection Hv as <-. cbn. rewrite holds_symmetric; [reflexivity|].
           exact (careful_reversed_index _ _ _ Hcare _ _ eq_refl eq_refl).
        -- cbn in Hv. rewrite Eop in Hv. injection Hv as <-. reflexivity.
      * destruct (maybe_sys_name e "version_info") eqn:Es; [|injection Ht as <-; exact Logic.I]. apply maybe_sys_is in Es. subst e.
        assert (Hs : second = None \/ exists b, second = Some (Int b)).
        { destruct flip; refine (careful_bounds _ _ _ Hcare sys_version other first second third _ eq_refl); [right|left]; split; reflexivity. }
        destruct (truthiness_eq t) as [->|Hk]; [exact Logic.I|].
        destruct (bounds_part first second third t op other _ Ht Hk Hs eq_refl) as (H & n & Hp). exact (Htuple _ _ Hp H).
Qed.

Lemma contains_in : forall l n, contains l n = true <-> In n l.
Proof.
  intros l n. unfold contains. rewrite existsb_exists. split.
  - intros (x & Hx & He). apply String.eqb_eq in He. congruence.
  - intros H. exists n. split; [exact H|apply String.eqb_refl].
Qed.

Lemma name_right : forall n v, env py n = Some v -> answers (name_truthiness s n) v.
Proof.
  intros n v H. unfold name_truthiness.
  destruct (contains ["MYPY"; "TYPE_CHECKING"] n) eqn:E1.
  { apply contains_in in E1. refine (true_names _ _ Hrun n v _ H). apply in_or_app. left. cbn in E1 |- *. tauto. }
  destruct (String.eqb n "PY3" || contains (always_true_symbols s) n) eqn:E2.
  { refine (true_names _ _ Hrun n v _ H). apply in_or_app. apply orb_prop in E2 as [E2|E2].
    - apply String.eqb_eq in E2. subst n. left. cbn. tauto.
    - right. apply contains_in. exact E2. }
  destruct (String.eqb n "PY2" || contains (always_false_symbols s) n) eqn:E3; [|exact Logic.I].
  refine (false_names _ _ Hrun n v _ _ H).
  - apply orb_prop in E3 as [E3|E3]; [left; symmetry; apply String.eqb_eq; exact E3|right; apply contains_in; exact E3].
  - apply orb_false_elim in E2 as [E2 E2']. intros Hin. apply in_app_or in Hin as [Hin|Hin].
    + cbn in Hin. destruct Hin as [<-|[<-|[<-|[]]]]; discriminate.
    + apply contains_in in Hin. congruence.
Qed.

Theorem reachable_right : forall e t v, careful e -> reachable s e = Some t -> eval py e = Some v -> answers t v.
Proof.
  induction e as [n|n|st|es|e IH|e IH attr|e IH i IHi|e IH o1 o2 o3|e IH arg IHa|e IH|l IHl r IHr|l IHl r IHr|l IHl op r IHr|id];
    intros t v Hc Ht Hv; cbn [reachable] in Ht; cbn [careful] in Hc; try (injection Ht as <-; exact Logic.I).
  - injection Ht as <-. apply name_right. exact Hv.
  - exact (IH t v Hc Ht Hv).
  - destruct e; try (injection Ht as <-; exact Logic.I).
    destruct (String.eqb attr "TYPE_CHECKING" && String.eqb s0 "typing") eqn:E; injection Ht as <-; [|exact Logic.I].
    apply andb_prop in E as [E1 E2]. apply String.eqb_eq in E1, E2. subst.
    cbn [eval] in Hv. destruct (env py "typing") as [m|] eqn:Em; [|discriminate]. exact (typing_name _ _ Hrun m v Em Hv).
  - injection Ht as <-. unfold maybe_sys_platform_startswith. destruct e as [| | | | |e attr| | | | | | | |]; try exact Logic.I.
    destruct arg; try exact Logic.I. destruct (String.eqb attr "startswith" && maybe_sys_name e "platform") eqn:E; [|exact Logic.I].
    apply andb_prop in E as [E1 E2]. apply String.eqb_eq in E1. apply maybe_sys_is in E2. subst.
    change (eval py (Call (Attribute (Attribute (Name "sys") "platform") "startswith") (Str s0)))
      with (bind (bind (eval py (Attribute (Name "sys") "platform")) (fun v => get_attribute py v "startswith")) (fun f => bind (Some (VStr s0)) (do_call py f))) in Hv.
    destruct (eval py (Attribute (Name "sys") "platform")) as [x|] eqn:Ex; [|discriminate]. apply platform_value in Ex. subst x. cbn in Hv.
    injection Hv as <-. apply answers_bool. reflexivity.
  - destruct (reachable s e) as [t'|] eqn:E; [|discriminate]. injection Ht as <-. cbn [eval] in Hv.
    destruct (eval py e) as [w|] eqn:Ew; [|discriminate]. cbn [bind] in Hv. pose proof (IH t' w Hc eq_refl eq_refl) as H.
    destruct t'; cbn in H |- *; [rewrite H in Hv|rewrite H in Hv|exact Logic.I]; cbn in Hv; injection Hv as <-; reflexivity.
  - destruct Hc as [Hcl Hcr]. destruct (reachable s l) as [tl|] eqn:El; [|discriminate]. destruct (reachable s r) as [tr|] eqn:Er; [|discriminate].
    injection Ht as <-. cbn [eval] in Hv. destruct (eval py l) as [x|] eqn:Ex; [|discriminate]. cbn [bind] in Hv.
    pose proof (IHl tl x Hcl eq_refl eq_refl) as Hl. destruct (truth py x) as [b|] eqn:Eb; [|discriminate]. cbn [bind] in Hv.
    destruct b.
    + pose proof (IHr tr v Hcr eq_refl Hv) as Hr. destruct tl, tr; cbn in Hl, Hr |- *; try exact Logic.I; congruence.
    + injection Hv as <-. destruct tl, tr; cbn in Hl |- *; try exact Logic.I; congruence.
  - destruct Hc as [Hcl Hcr]. destruct (reachable s l) as [tl|] eqn:El; [|discriminate]. destruct (reachable s r) as [tr|] eqn:Er; [|discriminate].
    injection Ht as <-. cbn [eval] in Hv. destruct (eval py l) as [x|] eqn:Ex; [|discriminate]. cbn [bind] in Hv.
    pose proof (IHl tl x Hcl eq_refl eq_refl) as Hl. destruct (truth py x) as [b|] eqn:Eb; [|discriminate]. cbn [bind] in Hv.
    destruct b.
    + injection Hv as <-. destruct tl, tr; cbn in Hl |- *; try exact Logic.I; congruence.
    + pose proof (IHr tr v Hcr eq_refl Hv) as Hr. destruct tl, tr; cbn in Hl, Hr |- *; try exact Logic.I; congruence.
  - cbn [eval] in Hv. destruct (eval py l) as [x|] eqn:Ex; [|discriminate]. destruct (eval py r) as [y|] eqn:Ey; [|discriminate]. cbn [bind] in Hv.
    destruct (check_comparison_reachability s op l r) as [[b| |]|] eqn:E1; [| | |discriminate].
    + injection Ht as <-. exact (comparison_right op l r _ x y v false E1 Hc Ex Ey Hv).
    + injection Ht as <-. exact (comparison_right op l r _ x y v false E1 Hc Ex Ey Hv).
    + exact (comparison_right op r l _ y x v true Ht Hc Ey Ex Hv).
Qed.

(** ** If statements *)
Lemma if_right : forall conditions els i blocks taken,
  Forall careful conditions -> index_if_stmt s conditions els i = Some blocks -> runs py conditions els i = Some (Some taken) -> In taken blocks.
Proof.
  induction conditions as [|e conditions IH]; intros els i blocks taken Hc Hb Hr; cbn [index_if_stmt runs] in Hb, Hr.
  - injection Hb as <-. injection Hr as Hr. destruct els; [|discriminate]. injection Hr as ->. left. reflexivity.
  - inversion Hc as [|? ? Hce Hcs]; subst. destruct (eval py e) as [v|] eqn:Ev; [|discriminate]. cbn [bind] in Hr.
    destruct (truth py v) as [b|] eqn:Et; [|discriminate]. cbn [bind] in Hr. destruct (reachable s e) as [t|] eqn:Er; [|discriminate].
    pose proof (reachable_right e t v Hce Er Ev) as Hans.
    destruct t as [b0| |]; cbn in Hans.
    + injection Hb as <-. assert (b = true) as -> by congruence. injection Hr as ->. left. reflexivity.
    + assert (b = false) as -> by congruence. exact (IH _ _ _ _ Hcs Hb Hr).
    + destruct (index_if_stmt s conditions els (S i)) as [blocks'|] eqn:Ei; [|discriminate]. injection Hb as <-. destruct b.
      * injection Hr as ->. left. reflexivity.
      * right. exact (IH _ _ _ _ Hcs Ei Hr).
Qed.

Lemma if_only : forall conditions els i blocks taken,
  Forall careful conditions -> Forall (fun e => reachable s e <> Some TUnknown) conditions ->
  index_if_stmt s conditions els i = Some blocks -> runs py conditions els i = Some taken ->
  blocks = match taken with Some j => [j] | None => [] end.
Proof.
  induction conditions as [|e conditions IH]; intros els i blocks taken Hc Hu Hb Hr; cbn [index_if_stmt runs] in Hb, Hr.
  - injection Hb as <-. injection Hr as <-. destruct els; reflexivity.
  - inversion Hc as [|? ? Hce Hcs]; subst. inversion Hu as [|? ? Hue Hus]; subst. destruct (eval py e) as [v|] eqn:Ev; [|discriminate]. cbn [bind] in Hr.
    destruct (truth py v) as [b|] eqn:Et; [|discriminate]. cbn [bind] in Hr. destruct (reachable s e) as [t|] eqn:Er; [|discriminate].
    pose proof (reachable_right e t v Hce Er Ev) as Hans.
    destruct t as [b0| |]; cbn in Hans; [| |congruence].
    + injection Hb as <-. assert (b = true) as -> by congruence. injection Hr as <-. reflexivity.
    + assert (b = false) as -> by congruence. exact (IH _ _ _ _ Hcs Hus Hb Hr).
Qed.
End Run.

(** ** What is decided *)
Lemma entries_decided : forall cur ns order, Forall (fun n => n < 2 ^ 64) ns -> exists o, compare_entries cur (map Int ns) order = Some o.
Proof.
  induction cur as [|c cur IH]; intros ns order H; [destruct ns; eexists; reflexivity|].
  destruct ns as [|n ns]; [eexists; reflexivity|]. inversion H as [|? ? Hn Hns]; subst. cbn [map compare_entries].
  rewrite (proj2 (N.leb_gt _ _)) by exact Hn. destruct (c ?= n); [apply IH; exact Hns|eexists; reflexivity..].
Qed.

Lemma contains_app : forall (s : settings) n,
  In n (["MYPY"; "TYPE_CHECKING"; "PY3"; "PY2"] ++ always_true_symbols s ++ always_false_symbols s) -> name_truthiness s n <> TUnknown.
Proof.
  intros s n H. unfold name_truthiness.
  destruct (contains ["MYPY"; "TYPE_CHECKING"] n) eqn:E1; [discriminate|].
  destruct (String.eqb n "PY3" || contains (always_true_symbols s) n) eqn:E2; [discriminate|].
  destruct (String.eqb n "PY2" || contains (always_false_symbols s) n) eqn:E3; [discriminate|]. exfalso.
  apply orb_false_elim in E2 as [E2 E2'], E3 as [E3 E3']. apply in_app_or in H as [H|H].
  - cbn in H. destruct H as [<-|[<-|[<-|[<-|[]]]]]; discriminate.
  - apply in_app_or in H as [H|H]; apply contains_in in H; congruence.
Qed.

Lemma decided : forall s e, understood s e -> exists t, reachable s e = Some t /\ t <> TUnknown.
Proof.
  intros s. induction e as [n|n|st|es|e IH|e IH attr|e IH i IHi|e IH o1 o2 o3|e IH arg IHa|e IH|l IHl r IHr|l IHl r IHr|l IHl op r IHr|id];
    intros H; cbn [understood] in H; try contradiction; cbn [reachable].
  - eexists. split; [reflexivity|]. apply contains_app. exact H.
  - exact (IH H).
  - destruct e; try contradiction. destruct H as [-> ->]. eexists. split; [reflexivity|discriminate].
  - destruct H as [-> [t ->]]. eexists. split; [reflexivity|]. cbn. destruct (prefix t (platform s)); discriminate.
  - destruct (IH H) as (t & -> & Ht). eexists. split; [reflexivity|]. destruct t; [discriminate..|contradiction].
  - destruct H as [Hl Hr]. destruct (IHl Hl) as (t & -> & Ht), (IHr Hr) as (u & -> & Hu). eexists. split; [reflexivity|].
    destruct t, u; try discriminate; contradiction.
  - destruct H as [Hl Hr]. destruct (IHl Hl) as (t & -> & Ht), (IHr Hr) as (u & -> & Hu). eexists. split; [reflexivity|].
    destruct t, u; try discriminate; contradiction.
  - destruct H as [(-> & [-> | ->] & t & ->)|(-> & Hop & ns & -> & Hlen & Hns)].
    + cbn. unfold known. destruct (String.eqb t (platform s)); cbn; eexists; (split; [reflexivity|discriminate]).
    + cbn. unfold known. destruct (String.eqb t (platform s)); cbn; eexists; (split; [reflexivity|discriminate]).
    + assert (Hk : exists t, check_comparison_reachability s op sys_version (Tuple (map Int ns)) = Some t /\ t <> TUnknown).
      { change (check_comparison_reachability s op sys_version (Tuple (map Int ns))) with (python_version_matches_tuple s op (Tuple (map Int ns)) 0).
        unfold python_version_matches_tuple. rewrite map_length, N.mod_small by (unfold usize_limit; lia).
        rewrite (proj2 (N.ltb_ge 2 _)) by lia. change (2 <? 0) with false. cbv iota.
        destruct (entries_decided (skipn (N.to_nat 0) [major s; minor s]) ns Datatypes.Eq Hns) as [o ->]. rewrite holds_check, Hop. unfold known.
        eexists. split; [reflexivity|]. destruct (holds op o); discriminate. }
      destruct Hk as (t & -> & Ht). destruct t as [b| |]; [eexists; split; [reflexivity|discriminate]..|contradiction].
Qed.

(** ** Crashes *)
Lemma tuple_some : forall s op other from, (forall es, other = Tuple es -> N.of_nat (length es) + from < 2 ^ 64) ->
  python_version_matches_tuple s op other from <> None.
Proof.
  intros s op other from H. unfold python_version_matches_tuple, known, unknown. destruct other as [| | |es| | | | | | | | | |]; try discriminate.
  specialize (H es eq_refl). rewrite N.mod_small by exact H. destruct (2 <? N.of_nat (length es) + from) eqn:E1; [discriminate|].
  apply N.ltb_ge in E1. rewrite (proj2 (N.ltb_ge 2 from)) by lia.
  destruct (compare_entries (skipn (N.to_nat from) [major s; minor s]) es Datatypes.Eq); discriminate.
Qed.

Lemma comparison_some : forall s op l r, ~ wraps l r -> check_comparison_reachability s op l r <> None.
Proof.
  intros s op l r H. unfold check_comparison_reachability, known, unknown. cbv zeta.
  assert (Hz : python_version_matches_tuple s op r 0 <> None).
  { apply tuple_some. intros es ->. destruct (N.lt_ge_cases (N.of_nat (length es) + 0) (2 ^ 64)) as [|Hge]; [assumption|].
    destruct H. right. exists es. split; [reflexivity|lia]. }
  assert (Hv : (if maybe_sys_name l "version_info" then python_version_matches_tuple s op r 0
     else match l with
          | Index e i => if maybe_sys_name e "version_info" then python_version_matches_index s op i r else Some TUnknown
          | Slice e first _ third => if maybe_sys_name e "version_info" then python_version_matches_slice s op first third r else Some TUnknown
          | _ => Some TUnknown
          end) <> None).
  { destruct (maybe_sys_name l "version_info"); [exact Hz|].
    destruct l as [| | | | | |e i|e first second third| | | | | |]; try discriminate.
    - destruct (maybe_sys_name e "version_info"); [|discriminate]. unfold python_version_matches_index, known, unknown.
      destruct i, r; try discriminate. destruct ((n =? 0) && (n0 <? usize_limit)); discriminate.
    - destruct (maybe_sys_name e "version_info"); [|discriminate]. unfold python_version_matches_slice, unknown. destruct third; [discriminate|].
      destruct first as [e1|]; [|exact Hz]. destruct e1 as [|a| | | | | | | | | | | |]; try discriminate.
      destruct (a <? usize_limit); [|discriminate]. apply tuple_some. intros es ->.
      destruct (N.lt_ge_cases (N.of_nat (length es) + a) (2 ^ 64)) as [|Hge]; [assumption|].
      destruct H. left. exists e, a, second, es. repeat split; assumption. }
  destruct (maybe_sys_name l "platform"); [|exact Hv]. destruct op; try exact Hv; destruct r; try exact Hv; discriminate.
Qed.

Lemma no_crash : forall s e, in_range e -> reachable s e <> None.
Proof.
  intros s. induction e as [n|n|st|es|e IH|e IH attr|e IH i IHi|e IH o1 o2 o3|e IH arg IHa|e IH|l IHl r IHr|l IHl r IHr|l IHl op r IHr|id];
    intros H; cbn [in_range] in H; cbn [reachable]; try discriminate.
  - exact (IH H).
  - destruct e; discriminate.
  - specialize (IH H). destruct (reachable s e); [discriminate|contradiction].
  - destruct H as [Hl Hr]. specialize (IHl Hl). specialize (IHr Hr). destruct (reachable s l), (reachable s r); try contradiction; discriminate.
  - destruct H as [Hl Hr]. specialize (IHl Hl). specialize (IHr Hr). destruct (reachable s l), (reachable s r); try contradiction; discriminate.
  - destruct H as [Hl Hr]. pose proof (comparison_some s op l r Hl) as H1. pose proof (comparison_some s op r l Hr) as H2.
    destruct (check_comparison_reachability s op l r) as [[b| |]|]; [discriminate..|exact H2|contradiction].
Qed.
