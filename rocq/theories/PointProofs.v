(** Proofs for the bit-packed cache entries. *)
From Coq Require Import Arith NArith List Bool Lia.
From Verif Require Import PointModel PointSpec.
Import ListNotations.
Open Scope N_scope.

(** The model functions behind the abstract operations. *)
Definition create (m : make) : option point :=
  match m with
  | M_redirect f n l => Some (new_redirect f n l)
  | M_first_name n g l => Some (new_first_name_of_name_def n g l)
  | M_name n g l => Some (new_name_of_name_def n g l)
  | M_parent n l => Some (new_parent n l)
  | M_complex i l => new_complex_point i l
  | M_specific s l => Some (new_specific s l)
  | M_file f l => Some (new_file_reference f l)
  | M_analyzed l n => Some (new_analyzed_with_node_index l n)
  end.

Definition apply_update (p : point) (u : update) : point :=
  match u with
  | U_flow b => with_needs_flow_analysis p b
  | U_node n => with_changed_node_index p n
  | U_global b => with_in_global_scope p b
  | U_checked => set_checked_function p
  | U_partial f => set_partial_flags p f
  end.

Definition run_updates (p : point) (us : list update) : point := fold_left apply_update us p.

Arguments N.shiftl : simpl never.
Arguments N.testbit : simpl never.

(** ** Bits *)

Lemma testbit_bit n i : N.testbit (N.shiftl 1 n) i = (i =? n).
Proof.
  destruct (N.ltb_spec i n).
  - rewrite N.shiftl_spec_low by assumption. symmetry. apply N.eqb_neq. lia.
  - rewrite N.shiftl_spec_high' by assumption.
    destruct (N.eqb_spec i n) as [->|Hn].
    + rewrite N.sub_diag. reflexivity.
    + assert (i - n <> 0) by lia.
      destruct (i - n); [contradiction|]. reflexivity.
Qed.

Lemma testbit_b2n b n i : N.testbit (N.shiftl (b2n b) n) i = b && (i =? n).
Proof.
  destruct b; simpl b2n; [apply testbit_bit|].
  rewrite N.shiftl_0_l. apply N.bits_0.
Qed.

Lemma testbit_shiftl a n i : N.testbit (N.shiftl a n) i = (n <=? i) && N.testbit a (i - n).
Proof.
  destruct (N.leb_spec n i).
  - apply N.shiftl_spec_high'. assumption.
  - rewrite N.shiftl_spec_low by assumption. reflexivity.
Qed.

Lemma testbit_small a n i : a < 2 ^ n -> n <= i -> N.testbit a i = false.
Proof.
  intros Ha Hi. destruct (N.eq_dec a 0) as [->|H0]; [apply N.bits_0|].
  apply N.bits_above_log2. apply N.log2_lt_pow2 in Ha; lia.
Qed.

Lemma testbit_ones n i : N.testbit (N.shiftl 1 n - 1) i = (i <? n).
Proof.
  replace (N.shiftl 1 n - 1) with (N.ones n) by (unfold N.ones; lia).
  destruct (N.ltb_spec i n).
  - apply N.ones_spec_low. assumption.
  - apply N.ones_spec_high. assumption.
Qed.

Lemma land_bit_zero a n : (N.land a (N.shiftl 1 n) =? 0) = negb (N.testbit a n).
Proof.
  destruct (N.testbit a n) eqn:E; cbn [negb].
  - apply N.eqb_neq. intros H.
    assert (Hb : N.testbit (N.land a (N.shiftl 1 n)) n = true).
    { rewrite N.land_spec, E, testbit_bit, N.eqb_refl. reflexivity. }
    rewrite H, N.bits_0 in Hb. discriminate.
  - apply N.eqb_eq. apply N.bits_inj. intros i.
    rewrite N.land_spec, testbit_bit, N.bits_0.
    destruct (N.eqb_spec i n) as [->|]; [rewrite E; reflexivity|apply andb_false_r].
Qed.

Lemma land_bit_pos a n : (0 <? N.land a (N.shiftl 1 n)) = N.testbit a n.
Proof.
  generalize (land_bit_zero a n).
  destruct (N.eqb_spec (N.land a (N.shiftl 1 n)) 0) as [E|E];
    destruct (N.ltb_spec 0 (N.land a (N.shiftl 1 n))); destruct (N.testbit a n);
    simpl; intros; try reflexivity; try discriminate; lia.
Qed.

(** Extracting a field: the bits of the mask shifted down. *)
Lemma field_extract a n c :
  c < 8 ->
  (forall j, j < 3 -> N.testbit a (n + j) = N.testbit c j) ->
  N.shiftr (N.land a (N.shiftl 7 n)) n = c.
Proof.
  intros Hc Hb. apply N.bits_inj. intros j.
  rewrite N.shiftr_spec', N.land_spec, testbit_shiftl.
  replace (n <=? j + n) with true by (symmetry; apply N.leb_le; lia).
  replace (j + n - n) with j by lia. rewrite andb_true_l.
  destruct (N.ltb_spec j 3) as [Hj|Hj].
  - rewrite <- (Hb j Hj). replace (j + n) with (n + j) by lia.
    assert (N.testbit 7 j = true) as ->
      by (assert (j = 0 \/ j = 1 \/ j = 2) as [->|[->| ->]] by lia; reflexivity).
    apply andb_true_r.
  - rewrite (testbit_small 7 3 j), (testbit_small c 3 j) by (assumption || reflexivity).
    apply andb_false_r.
Qed.

Lemma low_extract a n c :
  c < 2 ^ n ->
  (forall j, j < n -> N.testbit a j = N.testbit c j) ->
  N.land a (N.shiftl 1 n - 1) = c.
Proof.
  intros Hc Hb. apply N.bits_inj. intros j. rewrite N.land_spec, testbit_ones.
  destruct (N.ltb_spec j n) as [Hj|Hj].
  - rewrite andb_true_r. apply Hb. assumption.
  - rewrite andb_false_r. symmetry. apply (testbit_small c n); assumption.
Qed.

(** ** Codes *)

Lemma kind_decode k : kind_of_code (kind_code k) = Some k.
Proof. destruct k; reflexivity. Qed.
Lemma locality_decode l : locality_of_code (locality_code l) = Some l.
Proof. destruct l; reflexivity. Qed.
Lemma specific_decode s : specific_of_code (specific_code s) = Some s.
Proof. destruct s; reflexivity. Qed.
Lemma kind_small k : kind_code k < 8.
Proof. destruct k; reflexivity. Qed.
Lemma locality_small l : locality_code l < 8.
Proof. destruct l; reflexivity. Qed.
Lemma specific_small s : specific_code s < 2 ^ 8.
Proof. destruct s; reflexivity. Qed.

(** ** The bits of an entry *)

Definition payload_value (p : payload) : N :=
  match p with
  | P_redirect f | P_file f => f
  | P_complex i => i
  | P_specific s => specific_code s
  end.

Definition entry_bit (e : entry) (i : N) : bool :=
  (i <? 23) && (N.testbit (payload_value (e_payload e)) i
                || (i =? 9) && (e_checked e || nullable (e_partial e))
                || (i =? 10) && reported_error (e_partial e)
                || (i =? 11) && finished (e_partial e))
  || (23 <=? i) && (i <? 26) && N.testbit (kind_code (payload_kind (e_payload e))) (i - 23)
  || (i =? 26) && e_flow e
  || (27 <=? i) && (i <? 30) && N.testbit (locality_code (e_locality e)) (i - 27)
  || (i =? 30) && e_global e
  || (i =? 31).

(** Only function bodies are checked and only partial types have partial flags. *)
Definition entry_ok (e : entry) : Prop :=
  payload_value (e_payload e) < 2 ^ 23 /\
  (e_checked e = true -> exists s, e_payload e = P_specific s /\ is_function_state s = true) /\
  (e_partial e <> no_partial -> exists s, e_payload e = P_specific s /\ is_partial s = true).

Definition rep (p : point) (e : entry) : Prop :=
  pnode p = e_node e /\ entry_ok e /\ forall i, N.testbit (flags p) i = entry_bit e i.

Ltac cmp :=
  repeat match goal with
  | |- context [N.ltb ?a ?b] => destruct (N.ltb_spec a b); try lia
  | |- context [N.leb ?a ?b] => destruct (N.leb_spec a b); try lia
  | |- context [N.eqb ?a ?b] => destruct (N.eqb_spec a b); try lia
  end; cbn [andb orb negb].

Lemma calculate_flags_bits k rest l i :
  N.testbit (calculate_flags k rest l) i =
  N.testbit rest i || (i =? 31) || (27 <=? i) && N.testbit (locality_code l) (i - 27)
  || (23 <=? i) && N.testbit (kind_code k) (i - 23).
Proof.
  unfold calculate_flags. rewrite !N.lor_spec. unfold IS_ANALIZED_MASK.
  rewrite testbit_bit. rewrite !testbit_shiftl. reflexivity.
Qed.

Lemma made_rep k rest l n e g :
  payload_value (e_payload e) = rest -> rest < 2 ^ 23 -> payload_kind (e_payload e) = k ->
  e_locality e = l -> e_node e = n -> e_flow e = false -> e_global e = g ->
  e_checked e = false -> e_partial e = no_partial ->
  rep (with_in_global_scope (mk_point (calculate_flags k rest l) n) g) e.
Proof.
  intros Hv Hr Hk Hl Hn Hf Hg Hc Hp. split; [|split].
  - symmetry. exact Hn.
  - split; [|split].
    + rewrite Hv. exact Hr.
    + rewrite Hc. discriminate.
    + rewrite Hp. intros H. exfalso. apply H. reflexivity.
  - intros i. cbn [with_in_global_scope flags]. rewrite N.lor_spec, calculate_flags_bits.
    unfold IN_GLOBAL_SCOPE_INDEX. rewrite testbit_b2n.
    unfold entry_bit. rewrite Hv, Hk, Hl, Hf, Hg, Hc, Hp. simpl nullable. simpl reported_error.
    simpl finished. rewrite !andb_false_r, !orb_false_r.
    destruct (N.ltb_spec i 23) as [Hi|Hi].
    + cmp. rewrite ?andb_false_r, ?orb_false_r. reflexivity.
    + rewrite (testbit_small rest 23 i Hr Hi).
      destruct (N.ltb_spec i 26) as [Hi2|Hi2].
      * cmp. rewrite ?andb_false_r, ?orb_false_r. reflexivity.
      * rewrite (testbit_small (kind_code k) 3 (i - 23)) by (apply kind_small || lia).
        rewrite !andb_false_r, !orb_false_r. cbn [orb andb].
        destruct (N.ltb_spec i 30) as [Hi3|Hi3].
        -- cmp; rewrite !andb_false_r, !orb_false_r; reflexivity.
        -- rewrite (testbit_small (locality_code l) 3 (i - 27)) by (apply locality_small || lia).
           rewrite !andb_false_r, !orb_false_r. cmp; destruct g; reflexivity.
Qed.

Lemma with_global_false p : with_in_global_scope p false = p.
Proof.
  destruct p as [f n]. unfold with_in_global_scope. simpl b2n. rewrite N.shiftl_0_l, N.lor_0_r.
  reflexivity.
Qed.

Lemma create_rep m : in_range m -> exists p, create m = Some p /\ rep p (made m).
Proof.
  assert (Hs : forall s, specific_code s < 2 ^ 23).
  { intros s. eapply N.lt_trans; [apply specific_small|]. reflexivity. }
  destruct m as [f n l|n g l|n g l|n l|i l|s l|f l|l n]; intros Hr; simpl in Hr; unfold create.
  - exists (new_redirect f n l). split; [reflexivity|].
    rewrite <- (with_global_false (new_redirect f n l)). apply made_rep; (reflexivity || assumption).
  - eexists; split; [reflexivity|]. apply made_rep; (reflexivity || apply Hs).
  - eexists; split; [reflexivity|]. apply made_rep; (reflexivity || apply Hs).
  - exists (new_parent n l). split; [reflexivity|].
    rewrite <- (with_global_false (new_parent n l)). apply made_rep; (reflexivity || apply Hs).
  - unfold new_complex_point. destruct (N.leb_spec i REST_MASK) as [Hi|Hi].
    + eexists; split; [reflexivity|].
      rewrite <- (with_global_false (mk_point _ _)). apply made_rep; (reflexivity || assumption).
    + exfalso. assert (REST_MASK = 2 ^ 23 - 1) as E by reflexivity. rewrite E in Hi. lia.
  - exists (new_specific s l). split; [reflexivity|].
    rewrite <- (with_global_false (new_specific s l)). apply made_rep; (reflexivity || apply Hs).
  - exists (new_file_reference f l). split; [reflexivity|].
    rewrite <- (with_global_false (new_file_reference f l)). apply made_rep; (reflexivity || assumption).
  - exists (new_analyzed_with_node_index l n). split; [reflexivity|].
    rewrite <- (with_global_false (new_analyzed_with_node_index l n)).
    apply made_rep; (reflexivity || apply Hs).
Qed.

Lemma function_state_not_partial s : is_function_state s = true -> is_partial s = false.
Proof. destruct s; (discriminate || reflexivity). Qed.

Lemma update_rep p e u :
  rep p e -> applicable e u -> keeps_flags e u -> rep (apply_update p u) (updated e u).
Proof.
  intros (Hn & (Hv & Hc & Hp) & Hb) Ha Hk.
  destruct e as [pl l n fl g c pf]. simpl in *.
  destruct u as [b|n'|b| |f]; simpl in Ha, Hk.
  - split; [exact Hn|split; [split; [exact Hv|split; assumption]|]].
    intros i. cbn [apply_update with_needs_flow_analysis flags updated].
    rewrite N.lor_spec, Hb. unfold NEEDS_FLOW_ANALYSIS_BIT_INDEX. rewrite testbit_b2n.
    unfold entry_bit. cbn [e_payload e_locality e_node e_flow e_global e_checked e_partial].
    destruct (N.eqb_spec i 26) as [->|Hi].
    + cbn [N.ltb N.leb N.eqb N.compare Pos.compare Pos.compare_cont Pos.eqb andb orb].
      destruct fl; destruct b; try reflexivity. specialize (Hk eq_refl). discriminate.
    + rewrite ?andb_false_r, ?orb_false_r. reflexivity.
  - split; [reflexivity|split; [split; [exact Hv|split; assumption]|exact Hb]].
  - split; [exact Hn|split; [split; [exact Hv|split; assumption]|]].
    intros i. cbn [apply_update with_in_global_scope flags updated].
    rewrite N.lor_spec, Hb. unfold IN_GLOBAL_SCOPE_INDEX. rewrite testbit_b2n.
    unfold entry_bit. cbn [e_payload e_locality e_node e_flow e_global e_checked e_partial].
    destruct (N.eqb_spec i 30) as [->|Hi].
    + cbn [N.ltb N.leb N.eqb N.compare Pos.compare Pos.compare_cont Pos.eqb andb orb].
      destruct g; destruct b; try reflexivity. specialize (Hk eq_refl). discriminate.
    + rewrite ?andb_false_r, ?orb_false_r. reflexivity.
  - destruct Ha as (s & -> & Hfs).
    split; [exact Hn|split; [split; [exact Hv|split; [intros _; exists s; split; [reflexivity|exact Hfs]|exact Hp]]|]].
    intros i. cbn [apply_update set_checked_function flags updated].
    rewrite N.lor_spec, Hb. rewrite testbit_bit.
    unfold entry_bit. cbn [e_payload e_locality e_node e_flow e_global e_checked e_partial].
    change FUNCTION_CHECKED_INDEX with 9.
    destruct (N.eqb_spec i 9) as [->|Hi].
    + cbn [N.ltb N.leb N.eqb N.compare Pos.compare Pos.compare_cont Pos.eqb andb orb].
      rewrite !orb_true_r. reflexivity.
    + cbn [andb orb]. rewrite !orb_false_r. reflexivity.
  - destruct Ha as (s & -> & Hps).
    assert (c = false) as ->.
    { destruct c; [|reflexivity]. destruct (Hc eq_refl) as (s' & E & Hs'). injection E as <-.
      apply function_state_not_partial in Hs'. congruence. }
    split; [exact Hn|split; [split; [exact Hv|split; [discriminate|intros _; exists s; split; [reflexivity|exact Hps]]]|]].
    intros i. cbn [apply_update set_partial_flags flags updated].
    rewrite !N.lor_spec, !N.ldiff_spec, Hb.
    unfold PARTIAL_NULLABLE_MASK, PARTIAL_REPORTED_ERROR_MASK. rewrite !testbit_bit, !testbit_b2n.
    change PARTIAL_NULLABLE_INDEX with 9. change PARTIAL_REPORTED_ERROR_INDEX with 10.
    change PARTIAL_FINISHED_INDEX with 11.
    unfold entry_bit. cbn [e_payload e_locality e_node e_flow e_global e_checked e_partial payload_value payload_kind].
    assert (Hsm : forall j, 8 <= j -> N.testbit (specific_code s) j = false).
    { intros j Hj. apply (testbit_small _ 8); [apply specific_small|exact Hj]. }
    destruct f as [nu re fi]. simpl nullable. simpl reported_error. simpl finished. simpl finished in Hk.
    destruct (N.eqb_spec i 9) as [->|H9].
    { rewrite Hsm by lia.
      cbn [N.ltb N.leb N.eqb N.compare Pos.compare Pos.compare_cont Pos.eqb andb orb negb].
      rewrite !andb_false_r, !orb_false_r, !andb_true_r. reflexivity. }
    destruct (N.eqb_spec i 10) as [->|H10].
    { rewrite Hsm by lia.
      cbn [N.ltb N.leb N.eqb N.compare Pos.compare Pos.compare_cont Pos.eqb andb orb negb].
      rewrite !andb_false_r, !orb_false_r, !andb_true_r. reflexivity. }
    destruct (N.eqb_spec i 11) as [->|H11].
    { rewrite Hsm by lia.
      cbn [N.ltb N.leb N.eqb N.compare Pos.compare Pos.compare_cont Pos.eqb andb orb negb].
      rewrite !andb_false_r, !orb_false_r, !andb_true_r.
      destruct (finished pf); destruct fi; try reflexivity. specialize (Hk eq_refl). discriminate. }
    cbn [negb andb orb]. rewrite !andb_false_r, !orb_false_r, !andb_true_r. reflexivity.
Qed.

Lemma updated_payload e u : e_payload (updated e u) = e_payload e.
Proof. destruct e, u; reflexivity. Qed.

Lemma history_rep m us e :
  in_range m -> history keeps_flags m us e ->
  exists p0, create m = Some p0 /\ rep (run_updates p0 us) e.
Proof.
  intros Hr H. induction H as [|us e u H IH Ha Hk].
  - apply create_rep. exact Hr.
  - destruct IH as (p0 & Hc & Hp). exists p0. split; [exact Hc|].
    unfold run_updates. rewrite fold_left_app. simpl. apply update_rep; assumption.
Qed.

(** ** Getters *)

Section Getters.
Variables (p : point) (e : entry).
Hypothesis Hrep : rep p e.

Lemma rep_calculated : calculated p = true.
Proof.
  destruct Hrep as (_ & _ & Hb). unfold calculated, IS_ANALIZED_MASK. rewrite land_bit_zero, Hb, negb_involutive.
  unfold entry_bit, IS_ANALIZED_BIT_INDEX. rewrite N.eqb_refl, !orb_true_r. reflexivity.
Qed.

Lemma rep_not_calculating : calculating p = false.
Proof.
  destruct Hrep as (_ & _ & Hb). unfold calculating. apply N.eqb_neq. intros E.
  specialize (Hb 31). rewrite E in Hb. unfold entry_bit in Hb. rewrite N.eqb_refl, orb_true_r in Hb.
  discriminate.
Qed.

Lemma rep_kind : get_kind p = Some (payload_kind (e_payload e)).
Proof.
  destruct Hrep as (_ & _ & Hb). unfold get_kind, KIND_MASK.
  rewrite (field_extract _ _ (kind_code (payload_kind (e_payload e)))); [apply kind_decode|apply kind_small|].
  intros j Hj. rewrite Hb. unfold entry_bit, KIND_BIT_INDEX.
  replace (23 + j - 23) with j by lia. cmp. rewrite ?andb_false_r, ?orb_false_r. reflexivity.
Qed.

Lemma rep_locality : get_locality p = Some (e_locality e).
Proof.
  destruct Hrep as (_ & _ & Hb). unfold get_locality, LOCALITY_MASK.
  rewrite (field_extract _ _ (locality_code (e_locality e))); [apply locality_decode|apply locality_small|].
  intros j Hj. rewrite Hb. unfold entry_bit, LOCALITY_BIT_INDEX.
  replace (27 + j - 27) with j by lia. cmp. rewrite !orb_false_r. reflexivity.
Qed.

Lemma rep_flow : needs_flow_analysis p = e_flow e.
Proof.
  destruct Hrep as (_ & _ & Hb). unfold needs_flow_analysis, NEEDS_FLOW_ANALYSIS_MASK.
  rewrite land_bit_pos, Hb. unfold entry_bit, NEEDS_FLOW_ANALYSIS_BIT_INDEX.
  cbn [N.ltb N.leb N.eqb N.compare Pos.compare Pos.compare_cont Pos.eqb andb orb].
  rewrite !orb_false_r. reflexivity.
Qed.

Lemma rep_global : in_global_scope p = e_global e.
Proof.
  destruct Hrep as (_ & _ & Hb). unfold in_global_scope, IN_GLOBAL_SCOPE_MASK.
  rewrite land_bit_zero, negb_involutive, Hb. unfold entry_bit, IN_GLOBAL_SCOPE_INDEX.
  cbn [N.ltb N.leb N.eqb N.compare Pos.compare Pos.compare_cont Pos.eqb andb orb].
  rewrite !orb_false_r. reflexivity.
Qed.

Lemma rep_rest :
  (forall s, e_payload e <> P_specific s) -> N.land (flags p) REST_MASK = payload_value (e_payload e).
Proof.
  intros Hns. destruct Hrep as (_ & (Hv & Hc & Hp) & Hb). unfold REST_MASK.
  apply low_extract; [exact Hv|]. intros j Hj. rewrite Hb. unfold entry_bit.
  unfold KIND_BIT_INDEX in Hj.
  assert (e_checked e = false) as ->.
  { destruct (e_checked e); [|reflexivity]. destruct (Hc eq_refl) as (s & E & _). elim (Hns s E). }
  assert (Hpf : e_partial e = no_partial).
  { destruct (e_partial e) as [[|] [|] [|]]; try reflexivity;
      (destruct Hp as (s & E & _); [discriminate|elim (Hns s E)]). }
  rewrite Hpf. simpl nullable. simpl reported_error. simpl finished.
  rewrite !andb_false_r, !orb_false_r. cmp. rewrite ?andb_false_r, ?orb_false_r. reflexivity.
Qed.

Lemma rep_specific s : e_payload e = P_specific s -> get_specific p = Some s.
Proof.
  intros Es. destruct Hrep as (_ & _ & Hb). unfold get_specific, SPECIFIC_MASK.
  rewrite (low_extract _ _ (specific_code s)); [apply specific_decode|apply specific_small|].
  intros j Hj. rewrite Hb. unfold entry_bit. rewrite Es. unfold SPECIFIC_BIT_LEN in Hj.
  cbn [payload_value]. cmp. rewrite ?andb_false_r, ?orb_false_r. reflexivity.
Qed.

Lemma rep_bit9 s : e_payload e = P_specific s ->
  N.testbit (flags p) 9 = e_checked e || nullable (e_partial e).
Proof.
  intros Es. destruct Hrep as (_ & _ & Hb). rewrite Hb. unfold entry_bit. rewrite Es.
  cbn [payload_value]. rewrite (testbit_small (specific_code s) 8 9) by (apply specific_small || lia).
  cbn [N.ltb N.leb N.eqb N.compare Pos.compare Pos.compare_cont Pos.eqb andb orb].
  rewrite !orb_false_r. reflexivity.
Qed.

Lemma rep_checked s : e_payload e = P_specific s -> is_function_state s = true ->
  function_was_checked p = e_checked e.
Proof.
  intros Es Hs. unfold function_was_checked, FUNCTION_CHECKED_MASK. rewrite land_bit_pos.
  change FUNCTION_CHECKED_INDEX with 9. rewrite (rep_bit9 s Es).
  destruct Hrep as (_ & (_ & _ & Hp) & _).
  assert (nullable (e_partial e) = false) as ->.
  { destruct (nullable (e_partial e)) eqn:E; [|reflexivity].
    destruct Hp as (s' & Es' & Hs').
    - intros H. rewrite H in E. discriminate.
    - rewrite Es in Es'. injection Es' as <-. apply function_state_not_partial in Hs. congruence. }
  apply orb_false_r.
Qed.

Lemma rep_partial s : e_payload e = P_specific s -> is_partial s = true ->
  get_partial_flags p = e_partial e.
Proof.
  intros Es Hs. unfold get_partial_flags, PARTIAL_NULLABLE_MASK, PARTIAL_REPORTED_ERROR_MASK, PARTIAL_FINISHED_MASK.
  rewrite !land_bit_zero, !negb_involutive.
  change PARTIAL_NULLABLE_INDEX with 9. change PARTIAL_REPORTED_ERROR_INDEX with 10.
  change PARTIAL_FINISHED_INDEX with 11.
  rewrite (rep_bit9 s Es).
  destruct Hrep as (_ & (_ & Hc & _) & Hb).
  assert (e_checked e = false) as ->.
  { destruct (e_checked e) eqn:E; [|reflexivity].
    destruct (Hc eq_refl) as (s' & Es' & Hs').
    rewrite Es in Es'. injection Es' as <-. apply function_state_not_partial in Hs'. congruence. }
  rewrite !Hb. unfold entry_bit. rewrite Es. cbn [payload_value].
  rewrite (testbit_small (specific_code s) 8 10), (testbit_small (specific_code s) 8 11)
    by (apply specific_small || lia).
  cbn [N.ltb N.leb N.eqb N.compare Pos.compare Pos.compare_cont Pos.eqb andb orb].
  rewrite !orb_false_r. destruct (e_partial e); reflexivity.
Qed.

Lemma rep_redirect_to f n :
  f < 2 ^ 23 ->
  (maybe_redirect_to p f n = true <-> e_payload e = P_redirect f /\ e_node e = n).
Proof.
  intros Hf. unfold maybe_redirect_to. rewrite andb_true_iff, !N.eqb_eq.
  assert (Hn : pnode p = e_node e) by apply Hrep. rewrite Hn.
  set (want := N.lor (N.lor IS_ANALIZED_MASK REDIRECT_KIND_VALUE) f).
  assert (Hw : forall i, N.testbit want i = (i =? 31) || (i =? 24) || N.testbit f i).
  { intros i. unfold want. rewrite !N.lor_spec. unfold IS_ANALIZED_MASK. rewrite testbit_bit.
    change REDIRECT_KIND_VALUE with (N.shiftl 1 24). rewrite testbit_bit. reflexivity. }
  assert (Hm : forall i, N.testbit CALCULATED_OR_REDIRECT_LIKE_KIND_OR_REST_MASK i
                         = (i =? 31) || (i <? 26)).
  { intros i. unfold CALCULATED_OR_REDIRECT_LIKE_KIND_OR_REST_MASK. rewrite !N.lor_spec.
    unfold IS_ANALIZED_MASK, KIND_MASK, REST_MASK, IS_ANALIZED_BIT_INDEX, KIND_BIT_INDEX.
    rewrite testbit_bit, testbit_shiftl, testbit_ones.
    destruct (N.ltb_spec i 26) as [H|H].
    - destruct (N.ltb_spec i 23); [rewrite !orb_true_r; reflexivity|].
      assert (N.testbit 7 (i - 23) = true) as ->
        by (assert (i - 23 = 0 \/ i - 23 = 1 \/ i - 23 = 2) as [-> |[-> | ->]] by lia; reflexivity).
      cmp; reflexivity.
    - rewrite (testbit_small 7 3 (i - 23)) by (reflexivity || lia).
      cmp; reflexivity. }
  destruct Hrep as (_ & (Hv & _) & Hb). split.
  - intros (En & E). split; [|exact En].
    assert (Hi : forall i, (N.testbit (flags p) i) && ((i =? 31) || (i <? 26)) = (i =? 31) || (i =? 24) || N.testbit f i).
    { intros i. rewrite <- Hm, <- Hw, <- N.land_spec, E. reflexivity. }
    assert (Hk : payload_kind (e_payload e) = K_Redirect).
    { generalize (Hi 23) (Hi 24) (Hi 25). rewrite !Hb.
      rewrite !(testbit_small f 23) by (assumption || lia).
      unfold entry_bit.
      cbn [N.ltb N.leb N.eqb N.compare Pos.compare Pos.compare_cont Pos.eqb andb orb].
      change (23 - 23) with 0. change (24 - 23) with 1. change (25 - 23) with 2.
      rewrite !orb_false_r, !andb_true_r.
      destruct (payload_kind (e_payload e)); vm_compute; intros; congruence. }
    destruct (e_payload e) as [f'|f'|c|s] eqn:Ep; try discriminate. f_equal.
    apply N.bits_inj. intros i. destruct (N.ltb_spec i 23) as [H|H].
    + specialize (Hi i). rewrite Hb in Hi. 
      assert (Hr : N.land (flags p) REST_MASK = f').
      { rewrite rep_rest; [rewrite Ep; reflexivity|]. intros s Hs. rewrite Ep in Hs. discriminate. }
      assert (Hr2 : N.testbit (flags p) i = N.testbit f' i).
      { rewrite <- Hr, N.land_spec. unfold REST_MASK, KIND_BIT_INDEX. rewrite testbit_ones.
        destruct (N.ltb_spec i 23); [|lia]. rewrite andb_true_r. reflexivity. }
      rewrite <- Hr2, Hb. revert Hi. cmp. rewrite andb_true_r. trivial.
    + simpl in Hv. rewrite (testbit_small f' 23), (testbit_small f 23) by assumption. reflexivity.
  - intros (Ep & En). split; [exact En|]. apply N.bits_inj. intros i.
    rewrite N.land_spec, Hm, Hw, Hb.
    assert (Hr : N.land (flags p) REST_MASK = f).
    { rewrite rep_rest; [rewrite Ep; reflexivity|]. intros s Hs. rewrite Ep in Hs. discriminate. }
    destruct (N.ltb_spec i 23) as [H|H].
    + assert (Hr2 : N.testbit (flags p) i = N.testbit f i).
      { rewrite <- Hr, N.land_spec. unfold REST_MASK, KIND_BIT_INDEX. rewrite testbit_ones.
        destruct (N.ltb_spec i 23); [|lia]. rewrite andb_true_r. reflexivity. }
      rewrite Hb in Hr2. rewrite Hr2. cmp. apply andb_true_r.
    + rewrite (testbit_small f 23) by assumption. unfold entry_bit. rewrite Ep. cbn [payload_kind kind_code].
      assert (i = 23 \/ i = 24 \/ i = 25 \/ 26 <= i) as [-> |[-> |[-> | Hi]]] by lia.
      * reflexivity.
      * reflexivity.
      * reflexivity.
      * destruct (N.eqb_spec i 31) as [->|H31]; [rewrite !orb_true_r; reflexivity|].
        destruct (N.ltb_spec i 26); [lia|]. rewrite andb_false_r.
        destruct (N.eqb_spec i 24); [lia|]. reflexivity.
Qed.

End Getters.

(** ** Invalidation *)

Definition refers_to (e : entry) (f : N) : Prop :=
  e_payload e = P_redirect f \/ e_payload e = P_file f.

Definition recheck_always (l : locality) : Prop :=
  l = L_Complex \/ l = L_ImplicitExtern \/ l = L_Todo.

Lemma invalidate_cell_drops f p e :
  rep p e ->
  (e_locality e = L_DirectExtern /\ (exists g, f = Some g /\ refers_to e g)) \/ recheck_always (e_locality e) ->
  invalidate_cell f p = new_uncalculated.
Proof.
  intros Hr Hc. unfold invalidate_cell. rewrite (rep_locality _ _ Hr).
  destruct Hc as [(Hl & g & -> & Hg)|[Hl|[Hl|Hl]]]; rewrite Hl; try reflexivity.
  assert (file_index p = g) as ->.
  { unfold file_index. destruct Hg as [Hg|Hg]; rewrite (rep_rest p e Hr), Hg; try reflexivity;
      intros s Hs; congruence. }
  rewrite N.eqb_refl. reflexivity.
Qed.

Lemma invalidate_cell_keeps f p e :
  rep p e ->
  ~ recheck_always (e_locality e) ->
  (e_locality e = L_DirectExtern ->
   exists g, refers_to e g /\ f <> Some g) ->
  invalidate_cell f p = p.
Proof.
  intros Hr Hn Hd. unfold invalidate_cell. rewrite (rep_locality _ _ Hr).
  destruct (e_locality e) eqn:El; try reflexivity;
    try (elim Hn; unfold recheck_always; tauto).
  destruct (Hd eq_refl) as (g & Hg & Hfg).
  assert (file_index p = g) as ->.
  { unfold file_index. destruct Hg as [Hg|Hg]; rewrite (rep_rest p e Hr), Hg; try reflexivity;
      intros s Hs; congruence. }
  destruct f as [f|]; [|reflexivity].
  destruct (N.eqb_spec g f) as [->|]; [congruence|reflexivity].
Qed.

(** ** Backups *)

Lemma set_at_length ps i p : length (set_at ps i p) = length ps.
Proof.
  revert i; induction ps as [|q r IH]; intros [|i]; simpl; [reflexivity..|].
  rewrite IH. reflexivity.
Qed.

Lemma set_at_nth ps i p j :
  nth_error (set_at ps i p) j =
  if Nat.eqb i j && Nat.ltb i (length ps) then Some p else nth_error ps j.
Proof.
  revert i j; induction ps as [|q r IH]; intros i j.
  - simpl. destruct i; simpl; [destruct j; reflexivity|].
    destruct j; [reflexivity|]. rewrite andb_false_r. reflexivity.
  - destruct i as [|i]; destruct j as [|j]; simpl; try reflexivity. rewrite IH. reflexivity.
Qed.

Lemma reset_from_backup_nth saved : forall ps start j,
  (start + length saved <= length ps)%nat ->
  nth_error (reset_from_backup ps start saved) j =
  if (Nat.leb start j && Nat.ltb j (start + length saved))%nat
  then nth_error saved (j - start) else nth_error ps j.
Proof.
  induction saved as [|p r IH]; intros ps start j Hl; cbn [reset_from_backup length] in *.
  - destruct (Nat.leb_spec start j); destruct (Nat.ltb_spec j (start + 0)); try lia; reflexivity.
  - rewrite IH by (rewrite set_at_length; lia). rewrite set_at_nth.
    destruct (Nat.leb_spec (S start) j); destruct (Nat.ltb_spec j (S start + length r));
      destruct (Nat.leb_spec start j); destruct (Nat.ltb_spec j (start + S (length r)));
      cbn [andb]; try lia; try reflexivity.
    + replace (j - start)%nat with (S (j - S start)) by lia. reflexivity.
    + destruct (Nat.eqb_spec start j); [lia|]. reflexivity.
    + assert (start = j) by lia. subst j. rewrite Nat.eqb_refl, Nat.sub_diag.
      destruct (Nat.ltb_spec start (length ps)); [reflexivity|lia].
    + destruct (Nat.eqb_spec start j); [lia|]. reflexivity.
Qed.
