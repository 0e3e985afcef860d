(** The evaluation of literals against the reference. *)
From Coq Require Import List NArith Arith Bool Lia Nnat.
From Verif Require Import TextModel TextProofs LiteralModel LiteralSpec.
Import ListNotations.
Open Scope N_scope.

(** ** UTF-8 *)
Lemma utf8_length c : length (utf8 c) = utf8_len c.
Proof. unfold utf8, utf8_len. destruct (c <? 128), (c <? 2048), (c <? 65536); reflexivity. Qed.
Lemma as_bytes_length t : length (as_bytes t) = bytes t.
Proof. induction t as [|c t IH]; [reflexivity|]. change (length (utf8 c ++ as_bytes t) = (utf8_len c + bytes t)%nat). rewrite app_length, utf8_length, IH. reflexivity. Qed.
Lemma as_bytes_app a b : as_bytes (a ++ b) = as_bytes a ++ as_bytes b.
Proof. apply flat_map_app. Qed.
Lemma as_bytes_cons c t : as_bytes (c :: t) = utf8 c ++ as_bytes t.
Proof. reflexivity. Qed.
Lemma utf8_ascii c : c < 128 -> utf8 c = [c].
Proof. intros H. unfold utf8. apply N.ltb_lt in H. rewrite H. reflexivity. Qed.
Lemma utf8_high c : 128 <= c -> Forall (fun b => 128 <= b) (utf8 c).
Proof.
  intros H. unfold utf8. assert (E : (c <? 128) = false) by (apply N.ltb_ge; exact H). rewrite E.
  destruct (c <? 2048); [|destruct (c <? 65536)]; repeat constructor; try (apply N.le_add_r); try (eapply N.le_trans; [|apply N.le_add_r]; discriminate).
Qed.
Lemma utf8_nonempty c : exists b bs, utf8 c = b :: bs.
Proof. unfold utf8. destruct (c <? 128), (c <? 2048), (c <? 65536); eexists; eexists; reflexivity. Qed.
Lemma as_bytes_ascii t : Forall (fun c => c < 128) t -> as_bytes t = t.
Proof. induction 1 as [|c t Hc Ht IH]; [reflexivity|]. rewrite as_bytes_cons, (utf8_ascii c Hc), IH. reflexivity. Qed.
Lemma utf8_head c b bs : utf8 c = b :: bs -> c < 128 /\ b = c /\ bs = [] \/ 128 <= c /\ 128 <= b.
Proof.
  intros E. destruct (N.lt_ge_cases c 128) as [H|H].
  - left. rewrite (utf8_ascii c H) in E. injection E as <- <-. auto.
  - right. split; [exact H|]. pose proof (utf8_high c H) as F. rewrite E in F. inversion F; subst. assumption.
Qed.
Lemma utf8_len_ascii c : c < 128 -> utf8_len c = 1%nat.
Proof. intros H. rewrite <- utf8_length, (utf8_ascii c H). reflexivity. Qed.

(** ** Decisions on numbers *)
Ltac small c := destruct c as [|c]; [try reflexivity|do 8 (try (destruct c as [c|c|]; try reflexivity))].
Lemma un_other c r : c <> 13 -> universal_newlines (c :: r) = c :: universal_newlines r.
Proof. intros H. small c; try reflexivity; contradiction H; reflexivity. Qed.
Lemma un_crlf r : universal_newlines (13 :: 10 :: r) = 10 :: universal_newlines r.
Proof. reflexivity. Qed.
Definition not_lf (r : list N) : Prop := forall r', r <> 10 :: r'.
Lemma un_cr r : not_lf r -> universal_newlines (13 :: r) = 10 :: universal_newlines r.
Proof. intros H. destruct r as [|c r]; [reflexivity|]. small c; try reflexivity. contradiction (H r); reflexivity. Qed.
Lemma lf_dec r : (exists r', r = 10 :: r') \/ not_lf r.
Proof. destruct r as [|c r]; [right; intros r'; discriminate|]. destruct (N.eq_dec c 10) as [->|H]; [left; exists r; reflexivity|right; intros r' [= E _]; contradiction]. Qed.

Lemma un_inv t : forall c r0, universal_newlines t = c :: r0 -> c <> 10 -> exists r, t = c :: r /\ universal_newlines r = r0.
Proof.
  intros c r0 E H. destruct t as [|x t]; [discriminate|]. destruct (N.eq_dec x 13) as [->|Hx].
  - destruct (lf_dec t) as [(t' & ->)|Hl]; [rewrite un_crlf in E|rewrite (un_cr t Hl) in E]; injection E as <- _; contradiction H; reflexivity.
  - rewrite (un_other x t Hx) in E. injection E as <- <-. exists t. split; reflexivity.
Qed.
Lemma un_inv_lf t r0 : universal_newlines t = 10 :: r0 ->
  (exists r, t = 10 :: r /\ universal_newlines r = r0) \/ (exists r, t = 13 :: 10 :: r /\ universal_newlines r = r0) \/ (exists r, t = 13 :: r /\ not_lf r /\ universal_newlines r = r0).
Proof.
  intros E. destruct t as [|x t]; [discriminate|]. destruct (N.eq_dec x 13) as [->|Hx].
  - right. destruct (lf_dec t) as [(t' & ->)|Hl].
    + rewrite un_crlf in E. injection E as <-. left. exists t'. auto.
    + rewrite (un_cr t Hl) in E. injection E as <-. right. exists t. auto.
  - left. rewrite (un_other x t Hx) in E. injection E as -> <-. exists t. auto.
Qed.
Lemma un_app_inv ds : forall t r0, Forall (fun c => c <> 10) ds -> universal_newlines t = ds ++ r0 -> exists r, t = ds ++ r /\ universal_newlines r = r0.
Proof.
  induction ds as [|d ds IH]; intros t r0 F E; [exists t; auto|]. inversion F as [|? ? F1 F2]; subst. destruct (un_inv t d (ds ++ r0) E F1) as (r & -> & E').
  destruct (IH r r0 F2 E') as (r' & -> & E''). exists r'. auto.
Qed.
Lemma un_head_octal t c r' : t = c :: r' -> octal_digit c -> exists r'', universal_newlines t = c :: r''.
Proof. intros -> H. exists (universal_newlines r'). apply un_other. unfold octal_digit in H. lia. Qed.

Lemma bytes_lf r : (match as_bytes r with 10 :: _ => True | _ => False end) <-> exists r', r = 10 :: r'.
Proof.
  destruct r as [|c r]; [split; [intros []|intros (r' & H); discriminate]|]. rewrite as_bytes_cons. destruct (utf8_nonempty c) as (b & bs & E). rewrite E.
  destruct (utf8_head c b bs E) as [(H & -> & ->)|(H & Hb)].
  - cbn. split; [|intros (r' & [= -> _]); exact I]. intros M. exists r. f_equal. small c; destruct M.
  - split; [|intros (r' & [= -> _]); lia]. cbn. intros M. exfalso. small b; try exact M; lia.
Qed.

Lemma high_simple b : 128 <= b -> simple_escape b = None /\ hex_escape b = None /\ b <> 10 /\ b <> 13 /\ b <> 78.
Proof. intros H. refine (conj _ (conj _ _)); [small b; try reflexivity; lia|small b; try reflexivity; lia|lia]. Qed.
Lemma letter_simple c e : letter_escape c e <-> simple_escape c = Some e.
Proof. split; [intros []; reflexivity|]. small c; cbn; intros E; try discriminate E; injection E as <-; constructor. Qed.
Lemma hex_letter_escape c n : hex_letter c n <-> hex_escape c = Some n.
Proof. split; [intros []; reflexivity|]. small c; cbn; intros E; try discriminate E; injection E as <-; constructor. Qed.

(** ** Digits *)
Lemma number_cons b v vs : number b (v :: vs) = v * b ^ N.of_nat (length vs) + number b vs.
Proof.
  unfold number. assert (G : forall vs a, fold_left (fun a d => a * b + d) vs a = a * b ^ N.of_nat (length vs) + fold_left (fun a d => a * b + d) vs 0).
  { clear. induction vs as [|v vs IH]; intros a; [cbn; rewrite N.mul_1_r, N.add_0_r; reflexivity|]. cbn [fold_left length]. rewrite (IH (a * b + v)), (IH (0 * b + v)), Nat2N.inj_succ, N.pow_succ_r'. nia. }
  cbn [fold_left]. rewrite G. cbn. reflexivity.
Qed.

Lemma parse_hex_loop_right ds vs : Forall2 hex_digit ds vs -> forall n rest, parse_hex_loop (length ds) n (ds ++ rest) = (Some (n + number 16 vs), rest).
Proof.
  induction 1 as [|d v ds vs Hd Hds IH]; intros n rest; [cbn; rewrite N.add_0_r; reflexivity|].
  assert (L : length ds = length vs) by (clear - Hds; induction Hds; cbn; congruence).
  rewrite number_cons, <- L. cbn [length app parse_hex_loop]. unfold is_ascii_digit.
  assert (P : forall x, N.shiftl x (N.of_nat (length ds) * 4) = x * 16 ^ N.of_nat (length ds)).
  { intros x. rewrite N.shiftl_mul_pow2, (N.mul_comm _ 4), N.pow_mul_r. reflexivity. }
  destruct Hd as [c H|c H|c H].
  - replace ((48 <=? c) && (c <=? 57)) with true by (symmetry; apply andb_true_iff; rewrite !N.leb_le; lia). rewrite IH, P. f_equal. f_equal. lia.
  - replace ((48 <=? c) && (c <=? 57)) with false by (symmetry; apply andb_false_iff; rewrite !N.leb_gt; lia).
    replace ((97 <=? c) && (c <=? 102)) with true by (symmetry; apply andb_true_iff; rewrite !N.leb_le; lia). rewrite IH, P. replace (c - 97 + 10) with (c - 87) by lia. f_equal. f_equal. lia.
  - replace ((48 <=? c) && (c <=? 57)) with false by (symmetry; apply andb_false_iff; rewrite !N.leb_gt; lia).
    replace ((97 <=? c) && (c <=? 102)) with false by (symmetry; apply andb_false_iff; rewrite !N.leb_gt; lia).
    replace ((65 <=? c) && (c <=? 70)) with true by (symmetry; apply andb_true_iff; rewrite !N.leb_le; lia). rewrite IH, P. replace (c - 65 + 10) with (c - 55) by lia. f_equal. f_equal. lia.
Qed.
Lemma parse_hex_right ds vs rest : Forall2 hex_digit ds vs -> is_scalar (number 16 vs) -> parse_hex (length ds) (ds ++ rest) = (Some (number 16 vs), rest).
Proof.
  intros H Hs. unfold parse_hex. rewrite (parse_hex_loop_right ds vs H 0 rest). cbn. unfold from_u32.
  replace ((number 16 vs <? 55296) || (57343 <? number 16 vs) && (number 16 vs <? 1114112)) with true; [reflexivity|].
  symmetry. apply orb_true_iff. rewrite andb_true_iff, !N.ltb_lt. exact Hs.
Qed.
Lemma hex_digit_ascii ds vs : Forall2 hex_digit ds vs -> Forall (fun c => c < 128) ds /\ Forall (fun c => c <> 10) ds.
Proof. induction 1 as [|d v ds vs Hd Hds [IH1 IH2]]; [split; constructor|]. destruct Hd; split; constructor; try assumption; lia. Qed.

Lemma octal_loop_stop n used result rest : (forall c r, rest = c :: r -> ~ octal_digit c) -> octal_loop n used result rest = (used, result).
Proof.
  intros H. destruct n, rest as [|c r]; try reflexivity. cbn. specialize (H c r eq_refl). unfold octal_digit in H.
  replace ((48 <=? c) && (c <=? 55)) with false; [reflexivity|]. symmetry. apply andb_false_iff. rewrite !N.leb_gt. lia.
Qed.
Lemma octal_loop_right ds : Forall octal_digit ds -> forall n used result rest, (length ds <= n)%nat -> (length ds = n \/ forall c r, rest = c :: r -> ~ octal_digit c) ->
  octal_loop n used result (ds ++ rest) = ((used + length ds)%nat, fold_left (fun a d => a * 8 + d) (map (fun c => c - 48) ds) result).
Proof.
  induction 1 as [|d ds Hd Hds IH]; intros n used result rest Hn Hm.
  - cbn [app length fold_left map]. rewrite Nat.add_0_r. destruct n as [|n]; [destruct rest; reflexivity|]. destruct Hm as [Hm|Hm]; [discriminate|]. exact (octal_loop_stop _ _ _ _ Hm).
  - destruct n as [|n]; [cbn in Hn; lia|]. cbn in Hn. cbn [app octal_loop]. unfold octal_digit in Hd.
    replace ((48 <=? d) && (d <=? 55)) with true by (symmetry; apply andb_true_iff; rewrite !N.leb_le; lia).
    rewrite IH; [|lia|cbn in Hm; destruct Hm as [Hm|Hm]; [left; lia|right; exact Hm]]. cbn [length map fold_left]. rewrite N.shiftl_mul_pow2. change (2 ^ 3) with 8.
    f_equal. lia.
Qed.
Lemma parse_octal_right ds rest : Forall octal_digit ds -> (1 <= length ds <= 3)%nat -> (length ds = 3%nat \/ forall c r, rest = c :: r -> ~ octal_digit c) ->
  parse_python_octal (ds ++ rest) = Some (length ds, number 8 (map (fun c => c - 48) ds)).
Proof.
  intros H L M. unfold parse_python_octal. rewrite (octal_loop_right ds H 3 0 0 rest); [|lia|exact M]. rewrite Nat.add_0_l. fold (number 8 (map (fun c => c - 48) ds)).
  destruct (length ds) as [|k]; [lia|reflexivity].
Qed.
Lemma parse_octal_none rest : (forall c r, rest = c :: r -> ~ octal_digit c) -> parse_python_octal rest = None.
Proof. intros H. unfold parse_python_octal. rewrite (octal_loop_stop 3 0 0 rest H). reflexivity. Qed.

(** ** The loop over the content of a string *)
Definition acc (string : option (list N)) : list N := match string with Some s => s | None => [] end.

Lemma high_byte_skip bs : Forall (fun b => 128 <= b) bs -> forall fuel inner rest string p, (length bs <= fuel)%nat ->
  from_literal_loop fuel inner (bs ++ rest) string p = from_literal_loop (fuel - length bs) inner rest string p.
Proof.
  induction 1 as [|b bs Hb Hbs IH]; intros fuel inner rest string p L; [cbn; rewrite Nat.sub_0_r; reflexivity|].
  destruct fuel as [|fuel]; [cbn in L; lia|]. cbn [app from_literal_loop length].
  replace (b =? 92) with false by (symmetry; apply N.eqb_neq; lia). replace (b =? 13) with false by (symmetry; apply N.eqb_neq; lia).
  rewrite IH by (cbn in L; lia). reflexivity.
Qed.

Definition loop_ok (inner : list N) (string : option (list N)) (pend todo v : list N) (r : res (option (list N) * nat)) : Prop :=
  exists string' p, r = Ok (string', p) /\
  match string' with
  | None => string = None /\ v = todo
  | Some s => exists tail, slice inner p (bytes inner) = Some tail /\ s ++ tail = acc string ++ pend ++ v
  end.

(** The escape sequences of the reference are evaluated like that. *)
Lemma escape_right inner pre r v0 : inner = pre ++ 92 :: r -> string_value (92 :: universal_newlines r) v0 -> Forall is_scalar v0 ->
  exists b bs out r' v', as_bytes r = b :: bs /\ escape inner (bytes pre + 1) b bs = Ok (out, as_bytes r') /\ v0 = out ++ v' /\ string_value (universal_newlines r') v' /\
    (exists mid, r = mid ++ r' /\ mid <> []).
Proof.
  intros Ei Hv Sv.
  assert (Hd : drop_bytes inner (bytes pre + 1) = Some r).
  { rewrite Ei. replace (pre ++ 92 :: r) with ((pre ++ [92]) ++ r) by (rewrite <- app_assoc; reflexivity). replace (bytes pre + 1)%nat with (bytes (pre ++ [92])) by (rewrite bytes_app; reflexivity). apply drop_bytes_app. }
  inversion Hv as [|c0 r0 v Hc _ Ec Ev|r0 v H E Ev|c e r0 v Hl H E Ev|c n ds vs r0 v Hl L F Hn H E Ev|ds r0 v F L M H E Ev|c r0 v N1 N2 N3 N4 N5 H E Ev]; subst v0; clear Hv.
  - contradiction Hc. reflexivity.
  - symmetry in E. destruct (un_inv_lf _ _ E) as [(r' & -> & E')|[(r' & -> & E')|(r' & -> & Hl & E')]]; subst r0.
    + exists 10, (as_bytes r'), [], r', v. refine (conj eq_refl (conj eq_refl (conj eq_refl (conj H _)))). exists [10]. split; [reflexivity|discriminate].
    + exists 13, (10 :: as_bytes r'), [], r', v. refine (conj eq_refl (conj eq_refl (conj eq_refl (conj H _)))). exists [13; 10]. split; [reflexivity|discriminate].
    + exists 13, (as_bytes r'), [], r', v. refine (conj eq_refl (conj _ (conj eq_refl (conj H _)))); [|exists [13]; split; [reflexivity|discriminate]].
      unfold escape. cbn. f_equal. f_equal. pose proof (bytes_lf r') as [B _]. destruct (as_bytes r') as [|x bs]; [reflexivity|].
      small x; try reflexivity. destruct (B I) as (r'' & ->). contradiction (Hl r''). reflexivity.
  - symmetry in E. apply letter_simple in Hl. destruct (un_inv _ _ _ E) as (r' & -> & E'); [intros ->; discriminate Hl|]. subst r0.
    assert (c < 128) by (small c; try discriminate Hl; lia).
    exists c, (as_bytes r'), [e], r', v. refine (conj _ (conj _ (conj eq_refl (conj H _)))); [rewrite as_bytes_cons, utf8_ascii by assumption; reflexivity| |exists [c]; split; [reflexivity|discriminate]].
    unfold escape. rewrite Hl. reflexivity.
  - symmetry in E. apply hex_letter_escape in Hl. destruct (un_inv _ _ _ E) as (r1 & -> & E'); [intros ->; discriminate Hl|].
    destruct (hex_digit_ascii _ _ F) as [A1 A2]. destruct (un_app_inv _ _ _ A2 E') as (r' & -> & E''). subst r0.
    assert (Ac : c < 128) by (small c; try discriminate Hl; lia).
    exists c, (ds ++ as_bytes r'), [number 16 vs], r', v. refine (conj _ (conj _ (conj eq_refl (conj H _)))).
    + rewrite as_bytes_cons, utf8_ascii, as_bytes_app, (as_bytes_ascii ds A1) by assumption. reflexivity.
    + unfold escape. assert (S : simple_escape c = None) by (small c; try discriminate Hl; reflexivity). rewrite S.
      replace (c =? 10) with false by (symmetry; apply N.eqb_neq; intros ->; discriminate Hl). replace (c =? 13) with false by (symmetry; apply N.eqb_neq; intros ->; discriminate Hl).
      rewrite Hl, <- L, (parse_hex_right ds vs _ F); [reflexivity|]. inversion Sv; assumption.
    + exists (c :: ds). split; [reflexivity|discriminate].
  - destruct ds as [|d ds]; [cbn in L; lia|]. cbn [app] in E. symmetry in E.
    assert (Hd8 : octal_digit d) by (inversion F; assumption). assert (A2 : Forall (fun c => c <> 10) (d :: ds)) by (eapply Forall_impl; [|exact F]; cbn; unfold octal_digit; lia).
    assert (A1 : Forall (fun c => c < 128) (d :: ds)) by (eapply Forall_impl; [|exact F]; cbn; unfold octal_digit; lia).
    destruct (un_app_inv (d :: ds) _ _ A2 E) as (r' & -> & E'). subst r0.
    exists d, (ds ++ as_bytes r'), [number 8 (map (fun c => c - 48) (d :: ds))], r', v. refine (conj _ (conj _ (conj eq_refl (conj H _)))).
    + rewrite as_bytes_app, (as_bytes_ascii _ A1). reflexivity.
    + unfold octal_digit in Hd8. unfold escape.
      assert (S1 : simple_escape d = None) by (destruct (simple_escape d) as [e|] eqn:S; [|reflexivity]; apply letter_simple in S; destruct S; lia).
      assert (S2 : hex_escape d = None) by (destruct (hex_escape d) as [e|] eqn:S; [|reflexivity]; apply hex_letter_escape in S; destruct S; lia).
      rewrite S1, S2. replace (d =? 10) with false by (symmetry; apply N.eqb_neq; lia). replace (d =? 13) with false by (symmetry; apply N.eqb_neq; lia). replace (d =? 78) with false by (symmetry; apply N.eqb_neq; lia).
      rewrite Hd. cbn [or_panic bind]. rewrite as_bytes_app, (as_bytes_ascii _ A1).
      rewrite (parse_octal_right (d :: ds) (as_bytes r') F L).
      * f_equal. f_equal. cbn [length]. replace (S (length ds) - 1)%nat with (length ds) by lia. rewrite skipn_app, skipn_all, Nat.sub_diag. reflexivity.
      * destruct M as [M|M]; [left; exact M|right]. intros c bs Eb Hc. destruct r' as [|c' r'']; [discriminate|]. rewrite as_bytes_cons in Eb. destruct (utf8_nonempty c') as (b' & bs' & Eu). rewrite Eu in Eb. injection Eb as -> _.
        destruct (utf8_head _ _ _ Eu) as [(_ & -> & _)|(_ & Hb)]; [|unfold octal_digit in Hc; lia].
        destruct (un_head_octal (c' :: r'') c' r'' eq_refl Hc) as (r3 & E3). rewrite E3 in M. exact (M c' r3 eq_refl Hc).
    + exists (d :: ds). split; [reflexivity|discriminate].
  - symmetry in E. destruct (un_inv _ _ _ E N1) as (r' & -> & E'). subst r0. rewrite as_bytes_cons. destruct (utf8_nonempty c) as (b & bs & Eu). rewrite Eu.
    exists b, (bs ++ as_bytes r'), [92; c], r', v. refine (conj eq_refl (conj _ (conj eq_refl (conj H _)))); [|exists [c]; split; [reflexivity|discriminate]].
    assert (Hb : simple_escape b = None /\ hex_escape b = None /\ b <> 10 /\ b <> 13 /\ b <> 78).
    { destruct (utf8_head _ _ _ Eu) as [(Hc & -> & _)|(_ & Hb)]; [|exact (high_simple b Hb)]. refine (conj _ (conj _ (conj N1 (conj _ N5)))).
      - destruct (simple_escape c) as [e|] eqn:S; [|reflexivity]. apply letter_simple in S. contradiction (N2 e S).
      - destruct (hex_escape c) as [e|] eqn:S; [|reflexivity]. apply hex_letter_escape in S. contradiction (N3 e S).
      - intros ->. destruct (lf_dec r') as [(r'' & ->)|Hl]; [rewrite un_crlf in E|rewrite (un_cr _ Hl) in E]; discriminate E. }
    destruct Hb as (S1 & S2 & S3 & S4 & S5). unfold escape. rewrite S1, S2. replace (b =? 10) with false by (symmetry; apply N.eqb_neq; exact S3). replace (b =? 13) with false by (symmetry; apply N.eqb_neq; exact S4). replace (b =? 78) with false by (symmetry; apply N.eqb_neq; exact S5).
    rewrite Hd. cbn [or_panic bind]. rewrite as_bytes_cons, Eu, parse_octal_none.
    + f_equal. f_equal. rewrite <- utf8_length, Eu. cbn [length]. replace (S (length bs) - 1)%nat with (length bs) by lia. rewrite skipn_app, skipn_all, Nat.sub_diag. reflexivity.
    + intros x y [= <- _] Hx. destruct (utf8_head _ _ _ Eu) as [(_ & -> & _)|(_ & Hb)]; [exact (N4 Hx)|unfold octal_digit in Hx; lia].
Qed.

Lemma loop_right : forall fuel inner pre0 pend todo v string, (bytes todo <= fuel)%nat -> inner = pre0 ++ pend ++ todo ->
  string_value (universal_newlines todo) v -> Forall is_scalar v -> (string = None -> pre0 = []) ->
  loop_ok inner string pend todo v (from_literal_loop fuel inner (as_bytes todo) string (bytes pre0)).
Proof.
  induction fuel as [fuel IH] using lt_wf_ind. intros inner pre0 pend todo v string L Ei Hv Sv H0.
  destruct todo as [|c r].
  - exists string, (bytes pre0). split; [destruct fuel; reflexivity|]. cbn in Hv. inversion Hv; subst. destruct string as [s|].
    + exists pend. rewrite !app_nil_r. split; [|reflexivity]. replace (bytes (pre0 ++ pend)) with (bytes pre0 + bytes pend)%nat by (rewrite bytes_app; reflexivity).
      rewrite <- (app_nil_r (pre0 ++ pend)), <- app_assoc. apply slice_app.
    + split; reflexivity.
  - assert (Ix : (bytes inner - length (as_bytes (c :: r)) = bytes (pre0 ++ pend))%nat) by (rewrite as_bytes_length, Ei, app_assoc, bytes_app; lia).
    assert (Sl : slice inner (bytes pre0) (bytes (pre0 ++ pend)) = Some pend) by (rewrite Ei, bytes_app; apply slice_app).
    cbn [bytes] in L. pose proof (utf8_len_pos c) as Lc.
    destruct (N.eq_dec c 92) as [->|H92].
    + (* an escape *)
      rewrite (un_other 92 r) in Hv by discriminate.
      destruct (escape_right inner (pre0 ++ pend) r v) as (b & bs & out & r' & v' & Eb & Ee & -> & Hv' & (mid & -> & Hm)); [rewrite Ei, app_assoc; reflexivity|exact Hv|exact Sv|].
      destruct fuel as [|fuel]; [lia|]. rewrite as_bytes_cons in *. change (utf8 92) with [92] in *. cbn [app] in *. cbn [from_literal_loop].
      rewrite Ix, Sl, Eb. cbn [or_panic bind]. change (92 =? 92) with true. cbv iota. rewrite Ee. cbn [bind].
      assert (Ix' : (bytes inner - length (as_bytes r') = bytes (pre0 ++ pend ++ 92%N :: mid))%nat).
      { rewrite as_bytes_length, Ei. replace (pre0 ++ pend ++ 92 :: mid ++ r') with ((pre0 ++ pend ++ 92 :: mid) ++ r') by (rewrite <- !app_assoc; reflexivity). rewrite (bytes_app (pre0 ++ pend ++ 92 :: mid) r'). lia. }
      rewrite Ix'.
      destruct (IH fuel (Nat.lt_succ_diag_r fuel) inner (pre0 ++ pend ++ 92 :: mid) [] r' v' (Some (acc string ++ pend ++ out))) as (s' & p & E' & R).
      * change (utf8_len 92) with 1%nat in L. rewrite bytes_app in L. lia.
      * rewrite Ei, <- !app_assoc. reflexivity.
      * exact Hv'.
      * apply Forall_app in Sv. apply Sv.
      * discriminate.
      * exists s', p. split; [exact E'|]. destruct s' as [s'|]; [|destruct R as [R _]; discriminate R].
        destruct R as (tail & Ht & Es). exists tail. split; [exact Ht|]. rewrite Es. cbn [acc app]. rewrite <- !app_assoc. reflexivity.
    + destruct (N.eq_dec c 13) as [->|H13].
      * (* a carriage return *)
        destruct fuel as [|fuel]; [lia|]. rewrite as_bytes_cons in *. change (utf8 13) with [13] in *. cbn [app] in *. cbn [from_literal_loop].
        rewrite Ix, Sl. cbn [or_panic bind]. change (13 =? 92) with false. change (13 =? 13) with true. cbv iota.
        change (utf8_len 13) with 1%nat in L.
        assert (Ep : (bytes (pre0 ++ pend) + 1 = bytes (pre0 ++ pend ++ [13%N]))%nat) by (rewrite app_assoc, (bytes_app _ [13]); reflexivity). rewrite Ep.
        assert (Ei' : inner = (pre0 ++ pend ++ [13]) ++ [] ++ r) by (rewrite Ei, <- !app_assoc; reflexivity).
        destruct (lf_dec r) as [(r' & ->)|Hl].
        -- rewrite un_crlf in Hv. destruct (IH fuel (Nat.lt_succ_diag_r fuel) inner (pre0 ++ pend ++ [13]) [] (10 :: r') v (Some (acc string ++ pend ++ []))) as (s' & p & E' & R); try assumption; [lia|discriminate|].
           exists s', p. split; [exact E'|]. destruct s' as [s'|]; [|destruct R as [R _]; discriminate R].
           destruct R as (tail & Ht & Es). exists tail. split; [exact Ht|]. rewrite Es. cbn [acc app]. rewrite <- !app_assoc. reflexivity.
        -- rewrite (un_cr r Hl) in Hv. inversion Hv as [|c0 r0 v' Hc Hv' Ec Ev| | | | |]; subst. inversion Sv as [|? ? Sv1 Sv2]; subst.
           destruct (IH fuel (Nat.lt_succ_diag_r fuel) (pre0 ++ pend ++ 13 :: r) (pre0 ++ pend ++ [13]) [] r v' (Some (acc string ++ pend ++ [10]))) as (s' & p & E' & R); try assumption; [lia|discriminate|].
           exists s', p. split.
           ++ rewrite <- E'. f_equal. f_equal. unfold acc. f_equal. f_equal. pose proof (bytes_lf r) as [B _]. destruct (as_bytes r) as [|x bs]; [reflexivity|].
              small x; try reflexivity. destruct (B I) as (r'' & ->). contradiction (Hl r''). reflexivity.
           ++ destruct s' as [s'|]; [|destruct R as [R _]; discriminate R]. destruct R as (tail & Ht & Es). exists tail. split; [exact Ht|]. rewrite Es. cbn [acc app]. rewrite <- !app_assoc. reflexivity.
      * (* a character that stands for itself *)
        rewrite (un_other c r H13) in Hv. inversion Hv as [|c0 r0 v' Hc Hv' Ec Ev| | | | |]; subst; try (contradiction H92; reflexivity). inversion Sv as [|? ? Sv1 Sv2]; subst.
        assert (St : from_literal_loop fuel (pre0 ++ pend ++ c :: r) (as_bytes (c :: r)) string (bytes pre0) = from_literal_loop (fuel - utf8_len c) (pre0 ++ pend ++ c :: r) (as_bytes r) string (bytes pre0)).
        { rewrite as_bytes_cons. destruct (N.lt_ge_cases c 128) as [Ha|Ha].
          - rewrite (utf8_ascii c Ha), (utf8_len_ascii c Ha). destruct fuel as [|fuel]; [lia|]. cbn [app from_literal_loop].
            replace (c =? 92) with false by (symmetry; apply N.eqb_neq; exact H92). replace (c =? 13) with false by (symmetry; apply N.eqb_neq; exact H13). replace (S fuel - 1)%nat with fuel by lia. reflexivity.
          - rewrite high_byte_skip, utf8_length; [reflexivity|exact (utf8_high c Ha)|rewrite utf8_length; lia]. }
        rewrite St. destruct (IH (fuel - utf8_len c)%nat ltac:(lia) (pre0 ++ pend ++ c :: r) pre0 (pend ++ [c]) r v' string) as (s' & p & E' & R); try assumption; [lia|rewrite <- !app_assoc; reflexivity|].
        exists s', p. split; [exact E'|]. destruct s' as [s'|].
        -- destruct R as (tail & Ht & Es). exists tail. split; [exact Ht|]. rewrite Es, <- !app_assoc. reflexivity.
        -- destruct R as [R1 R2]. split; [exact R1|congruence].
Qed.

Theorem content_right start inner v : string_value (universal_newlines inner) v -> Forall is_scalar v ->
  exists s, from_content start inner = Ok s /\ (s = Owned start v \/ s = Ref start v /\ v = inner).
Proof.
  intros Hv Sv. unfold from_content. destruct (loop_right (bytes inner) inner [] [] inner v None (le_n _) eq_refl Hv Sv (fun _ => eq_refl)) as (s & p & E & R).
  change (bytes []) with 0%nat in E. rewrite E. cbn [bind]. destruct s as [s|].
  - destruct R as (tail & Ht & Es). rewrite Ht. cbn [or_panic bind]. exists (Owned start (s ++ tail)). split; [reflexivity|left]. rewrite Es. reflexivity.
  - destruct R as [_ ->]. exists (Ref start inner). auto.
Qed.

(** ** The parts of a literal *)
Lemma unpack_prefix prefix raws : Forall2 prefix_letter prefix raws -> forall i rest raw,
  unpack_loop i (prefix ++ rest) raw = unpack_loop (i + length prefix) rest (raw || existsb (fun b => b) raws).
Proof.
  induction 1 as [|c b prefix raws Hc Hp IH]; intros i rest raw; [cbn; rewrite Nat.add_0_r, orb_false_r; reflexivity|].
  cbn [app length existsb]. replace (i + S (length prefix))%nat with (S i + length prefix)%nat by lia. destruct Hc as [c Hc|c Hc].
  - cbn [unpack_loop]. replace ((c =? 114) || (c =? 82)) with true by (symmetry; apply orb_true_iff; rewrite !N.eqb_eq; exact Hc). rewrite IH, orb_true_r. reflexivity.
  - cbn [unpack_loop]. replace ((c =? 114) || (c =? 82)) with false by (symmetry; apply orb_false_iff; rewrite !N.eqb_neq; lia).
    replace ((c =? 39) || (c =? 34)) with false by (symmetry; apply orb_false_iff; rewrite !N.eqb_neq; lia). apply IH.
Qed.
Lemma prefix_ascii prefix raws : Forall2 prefix_letter prefix raws -> Forall (fun c => c < 128) prefix.
Proof. induction 1 as [|c b prefix raws Hc Hp IH]; constructor; [|exact IH]. destruct Hc as [c Hc|c Hc]; lia. Qed.
Lemma bytes_ascii t : Forall (fun c => c < 128) t -> bytes t = length t.
Proof. induction 1 as [|c t Hc Ht IH]; [reflexivity|]. cbn [bytes length]. rewrite (utf8_len_ascii c Hc), IH. reflexivity. Qed.

Lemma unpack_right code raw content : literal_code code raw content -> exists start, unpack_string_or_bytes_content code = Ok (content, start, raw).
Proof.
  intros H. destruct H as [prefix raws q content Hp Hq Hc|prefix raws q content Hp Hq].
  - assert (Aq : q < 128) by lia. pose proof (prefix_ascii _ _ Hp) as Ap. exists (length prefix + 1)%nat. unfold unpack_string_or_bytes_content.
    assert (U : unpack_loop 0 (as_bytes (prefix ++ q :: content ++ [q])) false = (1, length prefix + 1, existsb (fun b => b) raws)%nat).
    { rewrite as_bytes_app, (as_bytes_ascii prefix Ap), (unpack_prefix _ _ Hp), as_bytes_cons, (utf8_ascii q Aq), as_bytes_app. cbn [app]. rewrite Nat.add_0_l. cbn [unpack_loop].
      replace ((q =? 114) || (q =? 82)) with false by (symmetry; apply orb_false_iff; rewrite !N.eqb_neq; lia).
      replace ((q =? 39) || (q =? 34)) with true by (symmetry; apply orb_true_iff; rewrite !N.eqb_eq; exact Hq). change (false || ?x) with x.
      destruct content as [|c content]; [cbn [as_bytes flat_map app]; rewrite (utf8_ascii q Aq); reflexivity|].
      rewrite as_bytes_cons. destruct (utf8_nonempty c) as (b & bs & Eu). rewrite Eu. cbn [app].
      assert (Nb : (b =? q) = false) by (apply N.eqb_neq; destruct (utf8_head _ _ _ Eu) as [(_ & -> & _)|(_ & Hb)]; [exact (Hc c content eq_refl)|lia]).
      destruct ((bs ++ as_bytes content) ++ as_bytes [q]) as [|third l] eqn:El; [reflexivity|]. rewrite Nb. cbn [andb]. rewrite andb_false_r. reflexivity. }
    rewrite U. assert (B : bytes (prefix ++ q :: content ++ [q]) = (length prefix + 1 + bytes content + 1)%nat).
    { rewrite bytes_app, (bytes_ascii prefix Ap). cbn [bytes]. rewrite bytes_app. cbn [bytes]. rewrite (utf8_len_ascii q Aq). lia. }
    rewrite B. replace (length prefix + 1 + bytes content + 1 <? 1)%nat with false by (symmetry; apply Nat.ltb_ge; lia).
    replace (length prefix + 1 + bytes content + 1 - 1)%nat with (length prefix + 1 + bytes content)%nat by lia.
    assert (S : slice (prefix ++ q :: content ++ [q]) (length prefix + 1) (length prefix + 1 + bytes content) = Some content).
    { replace (prefix ++ q :: content ++ [q]) with ((prefix ++ [q]) ++ content ++ [q]) by (rewrite <- app_assoc; reflexivity).
      replace (length prefix + 1)%nat with (bytes (prefix ++ [q])) by (rewrite bytes_app, (bytes_ascii prefix Ap); cbn [bytes]; rewrite (utf8_len_ascii q Aq); lia). apply slice_app. }
    rewrite S. reflexivity.
  - assert (Aq : q < 128) by lia. pose proof (prefix_ascii _ _ Hp) as Ap. exists (length prefix + 3)%nat. unfold unpack_string_or_bytes_content.
    assert (A3 : Forall (fun c => c < 128) [q; q; q]) by (repeat constructor; exact Aq).
    assert (U : unpack_loop 0 (as_bytes (prefix ++ [q; q; q] ++ content ++ [q; q; q])) false = (3, length prefix + 3, existsb (fun b => b) raws)%nat).
    { rewrite as_bytes_app, (as_bytes_ascii prefix Ap), (unpack_prefix _ _ Hp), as_bytes_app, (as_bytes_ascii _ A3), as_bytes_app, (as_bytes_ascii _ A3). cbn [app]. rewrite Nat.add_0_l. cbn [unpack_loop].
      replace ((q =? 114) || (q =? 82)) with false by (symmetry; apply orb_false_iff; rewrite !N.eqb_neq; lia).
      replace ((q =? 39) || (q =? 34)) with true by (symmetry; apply orb_true_iff; rewrite !N.eqb_eq; exact Hq). change (false || ?x) with x.
      rewrite N.eqb_refl. replace (3 <? length (q :: q :: as_bytes content ++ [q; q; q]))%nat with true by (symmetry; apply Nat.ltb_lt; cbn [length]; rewrite app_length; cbn [length]; lia). reflexivity. }
    rewrite U. assert (B : bytes (prefix ++ [q; q; q] ++ content ++ [q; q; q]) = (length prefix + 3 + bytes content + 3)%nat).
    { rewrite !bytes_app, (bytes_ascii prefix Ap), (bytes_ascii _ A3). cbn [length]. lia. }
    rewrite B. replace (length prefix + 3 + bytes content + 3 <? 3)%nat with false by (symmetry; apply Nat.ltb_ge; lia).
    replace (length prefix + 3 + bytes content + 3 - 3)%nat with (length prefix + 3 + bytes content)%nat by lia.
    assert (S : slice (prefix ++ [q; q; q] ++ content ++ [q; q; q]) (length prefix + 3) (length prefix + 3 + bytes content) = Some content).
    { rewrite app_assoc. replace (length prefix + 3)%nat with (bytes (prefix ++ [q; q; q])) by (rewrite bytes_app, (bytes_ascii prefix Ap), (bytes_ascii _ A3); reflexivity). apply slice_app. }
    rewrite S. reflexivity.
Qed.

Lemma remove_carriage_returns_right t : remove_carriage_returns t = universal_newlines t.
Proof.
  assert (G : forall n t, (length t <= n)%nat -> remove_carriage_returns t = universal_newlines t); [|apply (G (length t)); apply le_n].
  clear t. induction n as [|n IH]; intros t L; [destruct t; [reflexivity|cbn in L; lia]|]. destruct t as [|c r]; [reflexivity|]. cbn in L.
  destruct (N.eq_dec c 13) as [->|Hc].
  - destruct (lf_dec r) as [(r' & ->)|Hl].
    + rewrite un_crlf. cbn. f_equal. apply IH. cbn in L. lia.
    + rewrite (un_cr r Hl), <- (IH r) by lia. cbn [remove_carriage_returns]. change (13 =? 13) with true. cbv iota. destruct r as [|x r]; [reflexivity|].
      small x; try reflexivity. contradiction (Hl r). reflexivity.
  - rewrite (un_other c r Hc). cbn [remove_carriage_returns]. replace (c =? 13) with false by (symmetry; apply N.eqb_neq; exact Hc). f_equal. apply IH. lia.
Qed.
Lemma no_cr_bytes t : existsb (N.eqb 13) (as_bytes t) = false -> universal_newlines t = t.
Proof.
  induction t as [|c t IH]; [reflexivity|]. rewrite as_bytes_cons, existsb_app. intros H. apply orb_false_iff in H. destruct H as [H1 H2].
  rewrite un_other, (IH H2); [reflexivity|]. intros ->. discriminate H1.
Qed.

(** The value of one literal. *)
Theorem literal_right start code v : python_value code v -> Forall is_scalar v -> exists s, from_literal (Some (start, code)) = Ok s /\ as_str s = Some v.
Proof.
  intros (raw & content & Hl & Hv) Sv. destruct (unpack_right _ _ _ Hl) as (off & E). cbn [from_literal]. rewrite E. cbn [bind]. destruct raw.
  - subst v. unfold remove_carriage_returns_from_raw_literal. destruct (existsb (N.eqb 13) (as_bytes content)) eqn:Ec.
    + eexists. split; [reflexivity|]. cbn. rewrite remove_carriage_returns_right. reflexivity.
    + eexists. split; [reflexivity|]. cbn. rewrite (no_cr_bytes _ Ec). reflexivity.
  - destruct (content_right (start + off) content v Hv Sv) as (s & Es & [->|[-> _]]); eexists; (split; [exact Es|reflexivity]).
Qed.

Lemma new_loop_right codes vs : Forall2 (fun l v => python_value (snd l) v) codes vs -> Forall (Forall is_scalar) vs -> forall s v, as_str s = Some v ->
  exists s', new_loop s (map Some codes) = Ok s' /\ as_str s' = Some (v ++ concat vs).
Proof.
  induction 1 as [|[start code] v1 codes vs Hc Hcs IH]; intros F s v E; [exists s; cbn; rewrite app_nil_r; auto|]. inversion F as [|? ? F1 F2]; subst.
  destruct (literal_right start code v1 Hc F1) as (s1 & E1 & A1). cbn [map new_loop]. rewrite E1. cbn [bind].
  assert (U : as_str (union s s1) = Some (v ++ v1)) by (destruct s, s1; cbn in *; congruence).
  destruct (IH F2 _ _ U) as (s' & E' & A'). exists s'. split; [exact E'|]. rewrite A'. cbn [concat]. rewrite app_assoc. reflexivity.
Qed.
Theorem strings_right codes vs : codes <> [] -> Forall2 (fun l v => python_value (snd l) v) codes vs -> Forall (Forall is_scalar) vs ->
  exists s, new (map Some codes) = Ok s /\ as_str s = Some (concat vs).
Proof.
  intros Hn H F. destruct H as [|[start code] v codes vs Hc Hcs]; [contradiction Hn; reflexivity|]. inversion F as [|? ? F1 F2]; subst.
  destruct (literal_right start code v Hc F1) as (s1 & E1 & A1). cbn [map new]. rewrite E1. cbn [bind concat]. apply new_loop_right; assumption.
Qed.

(** ** Bytes *)
Lemma slice_bytes_app (a b c : list N) : slice_bytes (a ++ b ++ c) (length a) (length a + length b) = Some b.
Proof.
  unfold slice_bytes. rewrite !app_length. replace (length a + length b <? length a)%nat with false by (symmetry; apply Nat.ltb_ge; lia).
  replace (length a + (length b + length c) <? length a + length b)%nat with false by (symmetry; apply Nat.ltb_ge; lia). cbn [orb].
  rewrite skipn_app, skipn_all, Nat.sub_diag. cbn [skipn app]. replace (length a + length b - length a)%nat with (length b) by lia. rewrite firstn_app, firstn_all, Nat.sub_diag. cbn [firstn]. rewrite app_nil_r. reflexivity.
Qed.
Lemma hex2_scalar ds vs : length ds = 2%nat -> Forall2 hex_digit ds vs -> is_scalar (number 16 vs).
Proof.
  intros L F. destruct F as [|d1 v1 ds vs H1 F]; [discriminate|]. destruct F as [|d2 v2 ds vs H2 F]; [discriminate|]. destruct F as [|d3 v3 ds vs H3 F]; [|discriminate].
  unfold is_scalar, number. cbn [fold_left]. left. destruct H1, H2; lia.
Qed.
Lemma escape_bytes_right r v0 : bytes_value (92 :: r) v0 ->
  exists b bs mid r' out v', r = b :: bs /\ r = mid ++ r' /\ mid <> [] /\ escape_bytes b bs = (out, r', (length mid - 1)%nat) /\ v0 = out ++ v' /\ bytes_value r' v'.
Proof.
  intros Hv. inversion Hv as [|c0 r0 v Hc _ Ec Ev|r0 v H E Ev|c e r0 v Hl H E Ev|ds vs r0 v L F H E Ev|ds r0 v F L M H E Ev|c r0 v N1 N2 N3 N4 H E Ev]; subst v0; clear Hv.
  - contradiction Hc. reflexivity.
  - exists 10, r0, [10], r0, [], v. refine (conj eq_refl (conj eq_refl (conj _ (conj eq_refl (conj eq_refl H))))). discriminate.
  - apply letter_simple in Hl. exists c, r0, [c], r0, [e], v. refine (conj eq_refl (conj eq_refl (conj _ (conj _ (conj eq_refl H))))); [discriminate|]. unfold escape_bytes. rewrite Hl. reflexivity.
  - exists 120, (ds ++ r0), (120 :: ds), r0, [number 16 vs], v. refine (conj eq_refl (conj eq_refl (conj _ (conj _ (conj eq_refl H))))); [discriminate|].
    unfold escape_bytes. cbn [simple_escape]. change (120 =? 10) with false. change (120 =? 120) with true. cbv iota. rewrite <- L.
    rewrite (parse_hex_right ds vs _ F (hex2_scalar _ _ L F)). cbn [length]. rewrite L. reflexivity.
  - destruct ds as [|d ds]; [cbn in L; lia|]. assert (Hd8 : octal_digit d) by (inversion F; assumption). unfold octal_digit in Hd8.
    exists d, (ds ++ r0), (d :: ds), r0, [number 8 (map (fun c => c - 48) (d :: ds)) mod 256], v. refine (conj eq_refl (conj eq_refl (conj _ (conj _ (conj eq_refl H))))); [discriminate|].
    unfold escape_bytes. assert (S1 : simple_escape d = None) by (destruct (simple_escape d) as [e|] eqn:S; [|reflexivity]; apply letter_simple in S; destruct S; lia). rewrite S1.
    replace (d =? 10) with false by (symmetry; apply N.eqb_neq; lia). replace (d =? 120) with false by (symmetry; apply N.eqb_neq; lia).
    change (d :: ds ++ r0) with ((d :: ds) ++ r0). rewrite (parse_octal_right (d :: ds) r0 F L M). cbn [length]. replace (S (length ds) - 1)%nat with (length ds) by lia.
    rewrite skipn_app, skipn_all, Nat.sub_diag. reflexivity.
  - exists c, r0, [c], r0, [92; c], v. refine (conj eq_refl (conj eq_refl (conj _ (conj _ (conj eq_refl H))))); [discriminate|].
    unfold escape_bytes. assert (S1 : simple_escape c = None) by (destruct (simple_escape c) as [e|] eqn:S; [|reflexivity]; apply letter_simple in S; contradiction (N2 e S)). rewrite S1.
    replace (c =? 10) with false by (symmetry; apply N.eqb_neq; exact N1). replace (c =? 120) with false by (symmetry; apply N.eqb_neq; exact N3).
    rewrite parse_octal_none; [reflexivity|]. intros x y [= <- _]. exact N4.
Qed.
Lemma bytes_loop_right : forall fuel inner pre0 pend todo v string, (length todo <= fuel)%nat -> inner = pre0 ++ pend ++ todo -> bytes_value todo v -> (string = None -> pre0 = []) ->
  exists string' p, bytes_loop fuel inner todo string (length pre0) = Ok (string', p) /\
  match string' with
  | None => string = None /\ v = todo
  | Some s => exists tail, slice_bytes inner p (length inner) = Some tail /\ s ++ tail = acc string ++ pend ++ v
  end.
Proof.
  induction fuel as [|fuel IH]; intros inner pre0 pend todo v string L Ei Hv H0.
  - destruct todo; [|cbn in L; lia]. exists string, (length pre0). split; [reflexivity|]. inversion Hv; subst. destruct string as [s|]; [|auto].
    exists pend. rewrite !app_nil_r. split; [|reflexivity]. rewrite app_length. rewrite <- (app_nil_r (pre0 ++ pend)), <- app_assoc. apply slice_bytes_app.
  - destruct todo as [|c r].
    + exists string, (length pre0). split; [reflexivity|]. inversion Hv; subst. destruct string as [s|]; [|auto].
      exists pend. rewrite !app_nil_r. split; [|reflexivity]. rewrite app_length. rewrite <- (app_nil_r (pre0 ++ pend)), <- app_assoc. apply slice_bytes_app.
    + cbn in L. cbn [bytes_loop].
      assert (Ix : (length inner - length (c :: r) = length pre0 + length pend)%nat) by (rewrite Ei, !app_length; lia). rewrite Ix.
      assert (Sl : slice_bytes inner (length pre0) (length pre0 + length pend) = Some pend) by (rewrite Ei; apply slice_bytes_app). rewrite Sl.
      destruct (N.eq_dec c 92) as [->|Hc].
      * change (92 =? 92) with true. cbv iota. cbn [or_panic bind].
        destruct (escape_bytes_right r v Hv) as (b & bs & mid & r' & out & v' & Eb & Em & Hm & Ee & -> & Hv'). subst r. rewrite Ee.
        replace (length pre0 + length pend + 2 + (length mid - 1))%nat with (length (pre0 ++ pend ++ 92%N :: mid)) by (rewrite !app_length; cbn [length]; destruct mid; [contradiction Hm; reflexivity|cbn; lia]).
        destruct (IH inner (pre0 ++ pend ++ 92 :: mid) [] r' v' (Some (acc string ++ pend ++ out))) as (s' & p & E' & R).
        -- rewrite Em, app_length in L. destruct mid; [contradiction Hm; reflexivity|cbn in L; lia].
        -- rewrite Ei, Em, <- !app_assoc. reflexivity.
        -- exact Hv'.
        -- discriminate.
        -- exists s', p. split; [exact E'|]. destruct s' as [s'|]; [|destruct R as [R _]; discriminate R].
           destruct R as (tail & Ht & Es). exists tail. split; [exact Ht|]. rewrite Es. cbn [acc app]. rewrite <- !app_assoc. reflexivity.
      * replace (c =? 92) with false by (symmetry; apply N.eqb_neq; exact Hc).
        inversion Hv as [|c0 r0 v' Hc' Hv' Ec Ev| | | | |]; subst; try (contradiction Hc; reflexivity).
        destruct (IH (pre0 ++ pend ++ c :: r) pre0 (pend ++ [c]) r v' string) as (s' & p & E' & R); [lia|rewrite <- !app_assoc; reflexivity|exact Hv'|exact H0|].
        exists s', p. split; [exact E'|]. destruct s' as [s'|].
        -- destruct R as (tail & Ht & Es). exists tail. split; [exact Ht|]. rewrite Es, <- !app_assoc. reflexivity.
        -- destruct R as [R1 R2]. split; [exact R1|congruence].
Qed.
Theorem bytes_content_right inner v : bytes_value inner v -> bytes_content inner = Ok v.
Proof.
  intros Hv. unfold bytes_content. destruct (bytes_loop_right (length inner) inner [] [] inner v None (le_n _) eq_refl Hv (fun _ => eq_refl)) as (s & p & E & R).
  change (length []) with 0%nat in E. rewrite E. cbn [bind]. destruct s as [s|].
  - destruct R as (tail & Ht & Es). rewrite Ht. cbn [or_panic bind]. rewrite Es. reflexivity.
  - destruct R as [_ ->]. reflexivity.
Qed.
Theorem bytes_right code v : Forall (fun c => c < 128) code -> ~ In 13 code -> python_bytes_value code v -> parse_python_bytes_literal code = Ok v.
Proof.
  intros A Ncr (raw & content & Hl & Hv). assert (C : Forall (fun c => c < 128) content /\ universal_newlines content = content).
  { assert (I : forall c, In c content -> In c code) by (intros c Hc; destruct Hl; apply in_or_app; right; [right|right; right; right]; apply (in_or_app content); left; exact Hc).
    split; [apply Forall_forall; intros c Hc; rewrite Forall_forall in A; apply A, I, Hc|].
    assert (Nc : ~ In 13 content) by (intros Hc; apply Ncr, I, Hc). clear - Nc. induction content as [|c r IH]; [reflexivity|].
    rewrite un_other, IH; [reflexivity|intros Hc; apply Nc; right; exact Hc|intros ->; apply Nc; left; reflexivity]. }
  destruct C as [C1 C2]. rewrite C2 in Hv. destruct (unpack_right _ _ _ Hl) as (off & E). unfold parse_python_bytes_literal. rewrite E. cbn [bind]. rewrite (as_bytes_ascii _ C1). destruct raw.
  - subst v. reflexivity.
  - exact (bytes_content_right _ _ Hv).
Qed.
