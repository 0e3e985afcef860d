(** C29: licenses. *)
From Coq Require Import List PArith Pnat NArith Nnat Lia Bool.
From Verif Require Import LicenseModel.
Import ListNotations.
Open Scope N_scope.

(** ** Decimal numbers *)
Lemma decimal_app : forall fuel n after, decimal_ fuel n after = decimal_ fuel n [] ++ after.
Proof.
  induction fuel as [|fuel IH]; intros n after; [reflexivity|]. cbn [decimal_]. destruct (n <? 10); [reflexivity|].
  rewrite IH, (IH _ [_]), <- app_assoc. reflexivity.
Qed.

Lemma size_div10 : forall n, 10 <= n -> (N.size_nat (n / 10) < N.size_nat n)%nat.
Proof.
  intros n H. assert (G : forall m, N.size_nat m = N.to_nat (N.size m)).
  { intros [|p]; [reflexivity|]. cbn. induction p as [p IH|p IH|]; cbn; rewrite ?IH; try reflexivity; rewrite Pos2Nat.inj_succ; reflexivity. }
  rewrite !G. assert (L : n / 10 <= n / 2) by (apply N.div_le_compat_l; lia). 
  assert (E : N.size (n / 10) < N.size n); [|lia].
  assert (n / 10 <> 0) by (intros E; apply N.div_small_iff in E; lia). rewrite !N.size_log2 by lia.
  assert (N.log2 (n / 10) <= N.log2 (n / 2)) by (apply N.log2_le_mono; exact L).
  assert (N.log2 n = N.succ (N.log2 (n / 2))); [|lia]. rewrite <- N.div2_div. rewrite (N.div2_odd n) at 1.
  destruct (N.odd n); cbn [N.b2n]; [apply N.log2_succ_double|rewrite N.add_0_r; apply N.log2_double]; rewrite N.div2_div;
    (assert (1 <= n / 2) by (apply N.div_le_lower_bound; lia); lia).
Qed.

Lemma decimal_fuel : forall fuel n, (N.size_nat n <= fuel)%nat -> decimal_ fuel n [] = decimal n.
Proof.
  intros fuel n. unfold decimal. remember (N.size_nat n) as m eqn:Em. assert (Hm : (N.size_nat n <= m)%nat) by lia. clear Em. revert fuel n Hm.
  induction m as [|m IH]; intros fuel n Hm Hf.
  - assert (n = 0) as -> by (destruct n as [|[]]; cbn in Hm; lia). destruct fuel; reflexivity.
  - destruct fuel as [|fuel]; [lia|]. cbn [decimal_]. destruct (n <? 10) eqn:E; [reflexivity|]. apply N.ltb_ge in E. assert (S' := size_div10 n E).
    rewrite (decimal_app fuel), (decimal_app m). f_equal. apply IH; lia.
Qed.

Lemma decimal_step : forall n, decimal n = if n <? 10 then [48 + n] else decimal (n / 10) ++ [48 + n mod 10].
Proof.
  intros n. unfold decimal at 1. destruct (n <? 10) eqn:E.
  - apply N.ltb_lt in E. destruct (N.size_nat n) as [|f]; cbn [decimal_]; rewrite N.mod_small by exact E; [reflexivity|].
    apply N.ltb_lt in E. rewrite E. reflexivity.
  - assert (L := E). apply N.ltb_ge in L. assert (S' := size_div10 n L). destruct (N.size_nat n) as [|f] eqn:F; [lia|]. cbn [decimal_]. rewrite E, decimal_app.
    f_equal. apply decimal_fuel. lia.
Qed.

Definition value (l : list N) : N := fold_left (fun v d => 10 * v + (d - 48)) l 0.

Lemma decimal_ind : forall P : N -> Prop, (forall n, n < 10 -> P n) -> (forall n, 10 <= n -> P (n / 10) -> P n) -> forall n, P n.
Proof.
  intros P A B n. induction n as [n IH] using (well_founded_induction N.lt_wf_0). destruct (N.lt_ge_cases n 10) as [L|L]; [apply A; exact L|].
  apply B; [exact L|]. apply IH. apply N.div_lt; lia.
Qed.

Lemma value_decimal : forall n, value (decimal n) = n.
Proof.
  intros n. induction n as [n L|n L IH] using decimal_ind; rewrite decimal_step.
  - apply N.ltb_lt in L. rewrite L. unfold value. cbn [fold_left]. lia.
  - apply N.ltb_ge in L. rewrite L. unfold value in *. rewrite fold_left_app, IH. cbn [fold_left]. assert (D := N.div_mod' n 10). replace (48 + n mod 10 - 48) with (n mod 10) by (generalize (n mod 10); intros; lia). symmetry. exact D.
Qed.

Lemma decimal_inj : forall n m, decimal n = decimal m -> n = m.
Proof. intros n m E. rewrite <- (value_decimal n), <- (value_decimal m), E. reflexivity. Qed.

(** [k] digits, with leading zeros. *)
Fixpoint padded (k : nat) (n : N) : list N := match k with O => [] | S k => padded k (n / 10) ++ [48 + n mod 10] end.

Lemma decimal_split : forall k a b, 0 < a -> b < 10 ^ N.of_nat k -> decimal (a * 10 ^ N.of_nat k + b) = decimal a ++ padded k b.
Proof.
  induction k as [|k IH]; intros a b A B.
  - change (10 ^ N.of_nat 0) with 1 in *. rewrite app_nil_r. f_equal. lia.
  - rewrite Nat2N.inj_succ, N.pow_succ_r' in *. set (p := 10 ^ N.of_nat k) in *. assert (1 <= p) by (unfold p; assert (10 ^ N.of_nat k <> 0) by (apply N.pow_nonzero; lia); lia).
    rewrite decimal_step. assert (a * (10 * p) + b <? 10 = false) as -> by (apply N.ltb_ge; nia).
    replace ((a * (10 * p) + b) / 10) with (a * p + b / 10).
    + rewrite IH; [|exact A|apply N.div_lt_upper_bound; lia]. cbn [padded]. rewrite <- app_assoc. f_equal. f_equal. f_equal. f_equal.
      replace (a * (10 * p) + b) with (b + a * p * 10) by lia. apply N.mod_add. lia.
    + replace (a * (10 * p) + b) with (b + a * p * 10) by lia. rewrite N.div_add by lia. lia.
Qed.

Lemma padded_decimal : forall k n, 10 ^ N.of_nat k <= n -> n < 10 ^ N.of_nat (S k) -> padded (S k) n = decimal n.
Proof.
  intros k n L H. rewrite Nat2N.inj_succ, N.pow_succ_r' in H. revert n L H. induction k as [|k IH]; intros n L H.
  - change (10 ^ N.of_nat 0) with 1 in *. rewrite decimal_step. assert (n <? 10 = true) as -> by (apply N.ltb_lt; lia). cbn [padded app]. rewrite N.mod_small by lia. reflexivity.
  - rewrite Nat2N.inj_succ, N.pow_succ_r' in *. rewrite decimal_step. assert (1 <= 10 ^ N.of_nat k) by (assert (10 ^ N.of_nat k <> 0) by (apply N.pow_nonzero; lia); lia).
    assert (n <? 10 = false) as -> by (apply N.ltb_ge; lia). change (padded (S (S k)) n) with (padded (S k) (n / 10) ++ [48 + n mod 10]). f_equal. apply IH.
    + apply N.div_le_lower_bound; lia.
    + apply N.div_lt_upper_bound; lia.
Qed.

(** ** Verification *)
Section Signatures.
Context {key sig : Type}.
Variable parse_signature : list N -> option sig.
Variable verify_strict : key -> list N -> sig -> bool.
Notation verify := (verify_with_keys parse_signature verify_strict).

(** A license is accepted exactly if one of the keys verifies its signature and now is in the period. *)
Theorem C29_accepted_iff : forall l now keys, verify_license parse_signature verify_strict l now keys = Ok (level_ l) <->
  valid_from l <= now <= valid_until l /\
  exists k s, In k keys /\ parse_signature (signature l) = Some s /\ verify_strict k (to_bytes_message l) s = true.
Proof.
  intros l now keys. unfold verify_license. assert (G : verify l now keys = Ok true <->
    valid_from l <= now <= valid_until l /\ exists k s, In k keys /\ parse_signature (signature l) = Some s /\ verify_strict k (to_bytes_message l) s = true).
  { induction keys as [|k keys IH]; cbn [verify_with_keys].
    - split; [discriminate|]. intros (_ & k & s & [] & _).
    - destruct (parse_signature (signature l)) as [s|] eqn:S.
      + destruct (verify_strict k (to_bytes_message l) s) eqn:V.
        * destruct (now <? valid_from l) eqn:A; [split; [discriminate|apply N.ltb_lt in A; lia]|].
          destruct (valid_until l <? now) eqn:B; [split; [discriminate|apply N.ltb_lt in B; lia]|].
          apply N.ltb_ge in A, B. split; [|reflexivity]. intros _. split; [lia|]. exists k, s. split; [left; reflexivity|auto].
        * rewrite IH. split; intros (T & k' & s' & I & Q & W); (split; [exact T|]); exists k', s'; (split; [|split; assumption]).
          -- right. exact I.
          -- destruct I as [->|I]; [congruence|exact I].
      + split; [discriminate|]. intros (_ & k' & s' & _ & Q & _). congruence. }
  destruct (verify l now keys) as [[]|e].
  - rewrite <- G. split; reflexivity.
  - rewrite <- G. split; discriminate.
  - rewrite <- G. split; discriminate.
Qed.

(** Nothing but the level of the license itself is ever returned. *)
Theorem C29_level_of_license : forall l now keys v, verify_license parse_signature verify_strict l now keys = Ok v -> v = level_ l.
Proof. intros l now keys v. unfold verify_license. destruct (verify l now keys) as [[]|]; congruence. Qed.

(** ** Altered licenses, if nobody can sign *)

(** The licenses that were issued; a signature only verifies for the message of one of them. *)
Variable issued : list license.
Definition unforgeable (keys : list key) : Prop :=
  forall k m s, In k keys -> verify_strict k m s = true -> exists l, In l issued /\ to_bytes_message l = m.

(** [l] and [l'] differ in at most one of the fields (and in the signature). *)
Inductive one_field (l l' : license) : Prop :=
| differ_name : email l' = email l -> company l' = company l -> valid_from l' = valid_from l -> valid_until l' = valid_until l ->
    license_version l' = license_version l -> level_ l' = level_ l -> one_field l l'
| differ_email : name l' = name l -> company l' = company l -> valid_from l' = valid_from l -> valid_until l' = valid_until l ->
    license_version l' = license_version l -> level_ l' = level_ l -> one_field l l'
| differ_company : name l' = name l -> email l' = email l -> valid_from l' = valid_from l -> valid_until l' = valid_until l ->
    license_version l' = license_version l -> level_ l' = level_ l -> one_field l l'
| differ_from : name l' = name l -> email l' = email l -> company l' = company l -> valid_until l' = valid_until l ->
    license_version l' = license_version l -> level_ l' = level_ l -> one_field l l'
| differ_until : name l' = name l -> email l' = email l -> company l' = company l -> valid_from l' = valid_from l ->
    license_version l' = license_version l -> level_ l' = level_ l -> one_field l l'
| differ_version : name l' = name l -> email l' = email l -> company l' = company l -> valid_from l' = valid_from l ->
    valid_until l' = valid_until l -> level_ l' = level_ l -> one_field l l'
| differ_level : name l' = name l -> email l' = email l -> company l' = company l -> valid_from l' = valid_from l ->
    valid_until l' = valid_until l -> license_version l' = license_version l -> one_field l l'.

Definition same_fields (l l' : license) : Prop :=
  name l' = name l /\ email l' = email l /\ company l' = company l /\ valid_from l' = valid_from l /\
  valid_until l' = valid_until l /\ license_version l' = license_version l /\ level_ l' = level_ l.

Lemma one_field_message : forall l l', one_field l l' -> to_bytes_message l' = to_bytes_message l -> same_fields l l'.
Proof.
  intros l l' O E. unfold to_bytes_message in E. unfold same_fields.
  destruct O as [E1 E2 E3 E4 E5 E6|E1 E2 E3 E4 E5 E6|E1 E2 E3 E4 E5 E6|E1 E2 E3 E4 E5 E6|E1 E2 E3 E4 E5 E6|E1 E2 E3 E4 E5 E6|E1 E2 E3 E4 E5 E6];
    rewrite E1, E2, E3, E4, E5, E6 in E; repeat apply app_inv_head in E; try (repeat apply app_inv_tail in E); try apply decimal_inj in E; try tauto.
  destruct (level_ l), (level_ l'); try discriminate; tauto.
Qed.

(** Partial: changing only one field of an issued license invalidates it, whatever the signature says.  Missing: several
    fields, see [C29_period_refuted]. *)
Theorem C29_altered_field_partial : forall keys, unforgeable keys -> forall l l', In l issued ->
  (forall o, In o issued -> to_bytes_message o = to_bytes_message l' -> o = l) -> one_field l l' ->
  forall now, verify_license parse_signature verify_strict l' now keys = Ok (level_ l') -> same_fields l l' /\ valid_from l <= now <= valid_until l.
Proof.
  intros keys U l l' I Own O now V. apply C29_accepted_iff in V. destruct V as (T & k & s & Ik & _ & W).
  destruct (U k _ s Ik W) as (o & Io & Eo). rewrite (Own o Io Eo) in Eo. assert (Sm := one_field_message l l' O (eq_sym Eo)).
  split; [exact Sm|]. destruct Sm as (_ & _ & _ & F & T' & _). rewrite <- F, <- T'. exact T.
Qed.

(** An accepted license has the level of an issued one with the same message: a level cannot be forged. *)
Theorem C29_level_kept : forall keys, unforgeable keys -> forall l' now v,
  verify_license parse_signature verify_strict l' now keys = Ok v -> exists l, In l issued /\ level_ l = v.
Proof.
  intros keys U l' now v V. assert (E := C29_level_of_license _ _ _ _ V). subst v. apply C29_accepted_iff in V. destruct V as (_ & k & s & Ik & _ & W).
  destruct (U k _ s Ik W) as (o & Io & Eo). exists o. split; [exact Io|]. unfold to_bytes_message in Eo. rewrite !app_assoc in Eo.
  apply (f_equal (@rev N)) in Eo. rewrite !rev_app_distr in Eo. destruct (level_ o), (level_ l'); cbn in Eo; congruence.
Qed.

(** Refuted: the period can be changed without changing the message.  For every license issued from 2001 on with at most ten digits
    in its times and a non-zero second digit (from [1100000000], so from November 2004 to May 2033), the digits can be
    distributed differently: the result is accepted from 1970 on for billions of years. *)
Theorem C29_period_refuted : forall keys l k s, In k keys -> parse_signature (signature l) = Some s -> verify_strict k (to_bytes_message l) s = true ->
  1100000000 <= valid_from l < 2000000000 -> 1000000000 <= valid_until l < 10000000000 ->
  let forged := mk_license (name l) (email l) (company l) 1 ((valid_from l - 1000000000) * 10000000000 + valid_until l)
                           (license_version l) (level_ l) (signature l) in
  valid_until forged < 2 ^ 64 /\
  (forall now, 1 <= now <= 1000000000000000000 -> verify_license parse_signature verify_strict forged now keys = Ok (level_ l)).
Proof.
  intros keys l k s Ik Ps V F T forged. split.
  { unfold forged. cbn [valid_until]. change (2 ^ 64) with 18446744073709551616. lia. }
  intros now N. change (level_ l) with (level_ forged). apply C29_accepted_iff. split; [unfold forged; cbn [valid_from valid_until]; lia|].
  exists k, s. split; [exact Ik|]. split; [exact Ps|]. rewrite <- V. f_equal. unfold to_bytes_message, forged. cbn [name email company valid_from valid_until license_version level_].
  f_equal. f_equal. f_equal. rewrite !app_assoc. f_equal. f_equal.
  assert (E1 : decimal (valid_from l) = decimal 1 ++ padded 9 (valid_from l - 1000000000)).
  { rewrite <- decimal_split by (change (10 ^ N.of_nat 9) with 1000000000; lia). f_equal. change (10 ^ N.of_nat 9) with 1000000000. lia. }
  assert (E2 : decimal ((valid_from l - 1000000000) * 10000000000 + valid_until l) = decimal (valid_from l - 1000000000) ++ padded 10 (valid_until l)).
  { rewrite <- decimal_split by (change (10 ^ N.of_nat 10) with 10000000000; lia). f_equal. }
  rewrite E1, E2, <- app_assoc. f_equal. rewrite (padded_decimal 8) by (change (10 ^ N.of_nat 8) with 100000000; change (10 ^ N.of_nat 9) with 1000000000; lia).
  f_equal. apply padded_decimal; [change (10 ^ N.of_nat 9) with 1000000000|change (10 ^ N.of_nat 10) with 10000000000]; lia.
Qed.
End Signatures.

(** An instance: signatures are the messages themselves. *)
Definition parse_sample (s : list N) : option (list N) := match s with [] => None | _ => Some s end.
Definition verify_sample (k : N) (m s : list N) : bool := (k =? 7) && if list_eq_dec N.eq_dec m s then true else false.
Definition dave : license :=
  let l := mk_license [68] [105] [90] 1700000000 1731536000 1 Standard [] in
  mk_license [68] [105] [90] 1700000000 1731536000 1 Standard (to_bytes_message l).

Example dave_accepted : verify_license parse_sample verify_sample dave 1710000000 [3; 7] = Ok Standard.
Proof. vm_compute. reflexivity. Qed.
Example dave_expired : verify_license parse_sample verify_sample dave 1731536001 [3; 7] = Err expired.
Proof. vm_compute. reflexivity. Qed.
Example dave_early : verify_license parse_sample verify_sample dave 1699999999 [3; 7] = Err not_yet_valid.
Proof. vm_compute. reflexivity. Qed.
Example dave_other_keys : verify_license parse_sample verify_sample dave 1710000000 [3; 8] = Err invalid_signature.
Proof. vm_compute. reflexivity. Qed.
Example dave_longer :
  verify_license parse_sample verify_sample (mk_license [68] [105] [90] 1700000000 1831536000 1 Standard (signature dave)) 1800000000 [3; 7] = Err invalid_signature.
Proof. vm_compute. reflexivity. Qed.
(** The forgery: valid for ever. *)
Example dave_forged :
  verify_license parse_sample verify_sample (mk_license [68] [105] [90] 1 7000000001731536000 1 Standard (signature dave)) 999999999999 [3; 7] = Ok Standard.
Proof. vm_compute. reflexivity. Qed.
Example sample_unforgeable : unforgeable (fun k m s => verify_sample k m s && (if list_eq_dec N.eq_dec m (to_bytes_message dave) then true else false)) [dave] [3; 7].
Proof.
  intros k m s _ H. apply andb_prop in H. destruct H as [_ H]. destruct (list_eq_dec N.eq_dec m (to_bytes_message dave)) as [->|]; [|discriminate].
  exists dave. split; [left; reflexivity|reflexivity].
Qed.
Example decimal_samples : decimal 0 = [48] /\ decimal 1024 = [49; 48; 50; 52].
Proof. split; reflexivity. Qed.

Print Assumptions C29_accepted_iff.
Print Assumptions C29_level_of_license.
Print Assumptions C29_altered_field_partial.
Print Assumptions C29_level_kept.
Print Assumptions C29_period_refuted.
