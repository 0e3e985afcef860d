(** Lemmas about ignore comments. *)
From Coq Require Import List NArith Arith Bool Lia.
From Verif Require Import TextModel TextProofs IgnoreModel IgnoreSpec.
Import ListNotations.
Open Scope N_scope.

(** ** Parts of a text *)
Section Split.
Variable f : N -> bool.
Variable sep : N -> Prop.
Hypothesis f_sep : forall c, f c = true <-> sep c.
Lemma f_not c : f c = false <-> ~ sep c.
Proof. rewrite <- f_sep. destruct (f c); split; congruence. Qed.
Lemma split_shape s : exists p ps, split_by f s = p :: ps.
Proof. induction s as [|c s (p & ps & IH)]; [exists [], []; reflexivity|]. cbn. destruct (f c); [eauto|]. rewrite IH. eauto. Qed.
(** The first part. *)
Lemma split_head s p ps : split_by f s = p :: ps -> Forall (fun c => ~ sep c) p /\ (s = p /\ ps = [] \/ exists c r, s = p ++ c :: r /\ sep c /\ ps = split_by f r).
Proof.
  revert p ps. induction s as [|c s IH]; intros p ps; cbn.
  - intros [= <- <-]. split; [constructor|auto].
  - destruct (f c) eqn:E.
    + intros [= <- <-]. split; [constructor|]. right. exists c, s. apply f_sep in E. auto.
    + destruct (split_shape s) as (q & qs & Eq). rewrite Eq. intros [= <- <-]. destruct (IH q qs Eq) as (F & H). apply f_not in E. split; [constructor; assumption|].
      destruct H as [[-> ->]|(d & r & -> & D & ->)]; [left; auto|right; exists d, r; auto].
Qed.
Lemma split_none p : Forall (fun c => ~ sep c) p -> split_by f p = [p].
Proof. induction 1 as [|c p Hc Hp IH]; [reflexivity|]. cbn. apply f_not in Hc. rewrite Hc, IH. reflexivity. Qed.
Lemma split_app p c r : Forall (fun c => ~ sep c) p -> sep c -> split_by f (p ++ c :: r) = p :: split_by f r.
Proof. intros Hp Hc. induction Hp as [|x p Hx Hp IH]; cbn; [apply f_sep in Hc; rewrite Hc; reflexivity|]. apply f_not in Hx. rewrite Hx, IH. reflexivity. Qed.
(** Appending behind a separator. *)
Lemma split_app_sep a c r : sep c -> split_by f (a ++ c :: r) = split_by f a ++ split_by f r.
Proof.
  intros Hc. induction a as [|x a IH]; cbn; [apply f_sep in Hc; rewrite Hc; reflexivity|]. destruct (f x); [rewrite IH; reflexivity|]. rewrite IH.
  destruct (split_shape a) as (q & qs & ->). reflexivity.
Qed.
Lemma in_split s p : In p (split_by f s) <-> part sep s p.
Proof.
  split.
  - remember (length s) as n eqn:En. assert (L : (length s <= n)%nat) by lia. clear En. revert s L p. induction n as [|n IH]; intros s L p Hin.
    + destruct s; [|cbn in L; lia]. destruct Hin as [<-|[]]. exists [], []. repeat split; auto; constructor.
    + destruct (split_shape s) as (q & qs & Eq). rewrite Eq in Hin. destruct (split_head s q qs Eq) as (F & H). destruct Hin as [<-|Hin].
      * destruct H as [[-> _]|(c & r & -> & C & _)].
        -- exists [], []. rewrite app_nil_r. auto.
        -- exists [], (c :: r). split; [reflexivity|]. split; [auto|]. split; [eauto|exact F].
      * destruct H as [[_ ->]|(c & r & -> & C & ->)]; [destruct Hin|]. destruct (IH r) with (p := p) as (a & b & -> & A & B & Fp); [rewrite app_length in L; cbn in L; lia|exact Hin|].
        exists (q ++ c :: a), b. split; [rewrite <- app_assoc; reflexivity|]. split; [|auto]. right. destruct A as [->|(a' & d & -> & D)]; [exists q, c; auto|].
        exists (q ++ c :: a'), d. split; [rewrite <- app_assoc; reflexivity|exact D].
  - intros (a & b & -> & A & B & Fp). assert (H : In p (split_by f (p ++ b))).
    { destruct B as [->|(c & b' & -> & C)]; [rewrite app_nil_r, (split_none p Fp); left; reflexivity|rewrite (split_app p c b' Fp C); left; reflexivity]. }
    destruct A as [->|(a' & c & -> & C)]; [exact H|]. rewrite <- app_assoc. cbn [app]. rewrite (split_app_sep a' c _ C). apply in_or_app. right. exact H.
Qed.
(** The parts after the first. *)
Lemma in_tail_split s p : In p (tl (split_by f s)) <-> exists a c b, s = a ++ c :: p ++ b /\ sep c /\ (b = [] \/ exists c b', b = c :: b' /\ sep c) /\ Forall (fun c => ~ sep c) p.
Proof.
  destruct (split_shape s) as (q & qs & Eq). destruct (split_head s q qs Eq) as (F & H). rewrite Eq. cbn [tl]. destruct H as [[-> ->]|(c & r & -> & C & ->)].
  - split; [intros []|]. intros (a & c & b & -> & C & _). apply Forall_app in F. destruct F as [_ F]. inversion F. contradiction.
  - rewrite in_split. split.
    + intros (a & b & -> & A & B & Fp). destruct A as [->|(a' & d & -> & D)]; [exists q, c, b; auto|]. exists (q ++ c :: a'), d, b. split; [rewrite <- !app_assoc; reflexivity|auto].
    + intros (a & d & b & E & D & B & Fp). assert (G : forall q0 a0, Forall (fun c => ~ sep c) q0 -> q0 ++ c :: r = a0 ++ d :: p ++ b -> exists a', r = a' ++ p ++ b /\ (a' = [] \/ exists a1 x, a' = a1 ++ [x] /\ sep x)).
      { induction q0 as [|x q0 IHq]; intros a0 Fq E0.
        - destruct a0 as [|y a0]; injection E0 as <- E0; [exists []; auto|]. exists (a0 ++ [d]). split; [rewrite E0, <- app_assoc; reflexivity|right; eauto].
        - inversion Fq as [|? ? Fx Fq']; subst. destruct a0 as [|y a0]; injection E0 as <- E0; [contradiction|]. exact (IHq a0 Fq' E0). }
      destruct (G q a F E) as (a' & -> & A'). exists a', b. auto.
Qed.
End Split.

Lemma newline_spec c : is_newline c = true <-> newline c.
Proof. unfold is_newline, newline. rewrite orb_true_iff, !N.eqb_eq. reflexivity. Qed.
Lemma eqb_spec x c : N.eqb x c = true <-> x = c.
Proof. apply N.eqb_eq. Qed.

(** ** Trimming *)
Lemma trim_start_spec f s : exists p, s = p ++ trim_start f s /\ Forall (fun c => f c = true) p.
Proof. induction s as [|c s (p & E & F)]; [exists []; auto|]. cbn. destruct (f c) eqn:Ec; [exists (c :: p); split; [cbn; congruence|constructor; assumption]|exists []; auto]. Qed.
Lemma trim_start_head f s c r : trim_start f s = c :: r -> f c = false.
Proof. induction s as [|x s IH]; [discriminate|]. cbn. destruct (f x) eqn:E; [exact IH|]. intros [= <- _]. exact E. Qed.
Lemma trim_start_app f p s : Forall (fun c => f c = true) p -> trim_start f (p ++ s) = trim_start f s.
Proof. induction 1 as [|c p Hc Hp IH]; [reflexivity|]. cbn. rewrite Hc. exact IH. Qed.
Lemma trim_start_id f s : (forall c r, s = c :: r -> f c = false) -> trim_start f s = s.
Proof. destruct s as [|c r]; [reflexivity|]. intros H. cbn. rewrite (H c r eq_refl). reflexivity. Qed.
Lemma trim_end_spec f s : exists p, s = trim_end f s ++ p /\ Forall (fun c => f c = true) p.
Proof.
  unfold trim_end. destruct (trim_start_spec f (rev s)) as (p & E & F). exists (rev p). split; [rewrite <- rev_app_distr, <- E, rev_involutive; reflexivity|].
  apply Forall_forall. intros c Hc. apply in_rev in Hc. rewrite Forall_forall in F. exact (F c Hc).
Qed.
Lemma trim_end_last f s c r : trim_end f s = r ++ [c] -> f c = false.
Proof. unfold trim_end. intros H. apply (f_equal (@rev N)) in H. rewrite rev_involutive, rev_app_distr in H. exact (trim_start_head _ _ _ _ H). Qed.
Lemma trim_end_app f p s : Forall (fun c => f c = true) p -> trim_end f (s ++ p) = trim_end f s.
Proof. intros F. unfold trim_end. rewrite rev_app_distr, trim_start_app; [reflexivity|]. apply Forall_forall. intros c Hc. apply in_rev in Hc. rewrite Forall_forall in F. exact (F c Hc). Qed.
Lemma trim_end_id f s : (forall c r, s = r ++ [c] -> f c = false) -> trim_end f s = s.
Proof.
  intros H. unfold trim_end. rewrite trim_start_id; [apply rev_involutive|]. intros c r E. apply (H c (rev r)). apply (f_equal (@rev N)) in E. rewrite rev_involutive in E. exact E.
Qed.
Lemma spaces_spec s : spaces s <-> Forall (fun c => is_space c = true) s.
Proof. unfold spaces, is_space. split; intros H; (eapply Forall_impl; [|exact H]); intros c; cbn; rewrite N.eqb_eq; auto. Qed.

Lemma strip_prefix_iff p s r : strip_prefix p s = Some r <-> s = p ++ r.
Proof.
  revert s. induction p as [|x p IH]; intros s; cbn; [split; congruence|]. destruct s as [|y s]; [split; discriminate|].
  destruct (N.eqb_spec x y) as [->|H]; [rewrite IH; split; [intros ->; reflexivity|intros [= ->]; reflexivity]|split; [discriminate|intros [= E _]; congruence]].
Qed.
Lemma strip_last_iff c s r : strip_last c s = Some r <-> s = r ++ [c].
Proof.
  unfold strip_last. split.
  - destruct (rev s) as [|x l] eqn:E; [discriminate|]. destruct (N.eqb_spec x c) as [->|H]; [|discriminate]. intros [= <-]. apply (f_equal (@rev N)) in E. rewrite rev_involutive in E. exact E.
  - intros ->. rewrite rev_app_distr. cbn. rewrite N.eqb_refl, rev_involutive. reflexivity.
Qed.

(** ** One comment *)
Definition mark_of (c : type_ignore_comment) : mark := match c with WithCodes codes _ _ _ => Codes codes | WithoutCode => Bare end.

(** What the model computes for codes in brackets. *)
Definition brackets (after : text) : option text :=
  match strip_prefix [91] (trim_end is_space (trim_start is_space after)) with
  | None => None
  | Some t => match strip_last 93 t with None => None | Some [] => None | Some t => Some t end
  end.
Lemma brackets_right after codes : brackets after = Some codes <-> with_codes after codes.
Proof.
  unfold brackets. split.
  - destruct (strip_prefix [91] _) as [t|] eqn:E1; [|discriminate]. destruct (strip_last 93 t) as [[|x u]|] eqn:E2; try discriminate. intros [= <-].
    apply strip_prefix_iff in E1. apply strip_last_iff in E2. subst t. destruct (trim_start_spec is_space after) as (s1 & Ea & F1). destruct (trim_end_spec is_space (trim_start is_space after)) as (s2 & Eb & F2).
    rewrite Ea, Eb, E1. cbn [app]. rewrite <- !app_assoc. cbn [app]. change (s1 ++ 91 :: x :: u ++ 93 :: s2) with (s1 ++ [91] ++ (x :: u) ++ [93] ++ s2). constructor; [apply spaces_spec; exact F1|discriminate|apply spaces_spec; exact F2].
  - intros [s1 codes' s2 H1 Hn H2]. rewrite trim_start_app by (apply spaces_spec; exact H1).
    replace (trim_start is_space ([91] ++ codes' ++ [93] ++ s2)) with ((91 :: codes' ++ [93]) ++ s2) by (cbn; rewrite <- app_assoc; reflexivity).
    rewrite trim_end_app by (apply spaces_spec; exact H2). rewrite trim_end_id.
    + change (91 :: codes' ++ [93]) with ([91] ++ codes' ++ [93]). rewrite (proj2 (strip_prefix_iff [91] _ (codes' ++ [93])) eq_refl). rewrite (proj2 (strip_last_iff 93 _ codes') eq_refl). destruct codes'; [contradiction Hn; reflexivity|reflexivity].
    + intros c r E. change (91 :: codes' ++ [93]) with ((91 :: codes') ++ [93]) in E. apply app_inj_tail in E. destruct E as [_ <-]. reflexivity.
Qed.

Lemma maybe_type_ignore_right k i after : 
  match maybe_type_ignore k i (IGNORE ++ after) with
  | Some c => after_ignore after (mark_of c)
  | None => forall m, ~ after_ignore after m
  end.
Proof.
  unfold maybe_type_ignore. rewrite (proj2 (strip_prefix_iff IGNORE _ after) eq_refl).
  set (w := match strip_prefix [91] _ with None => None | Some _ => _ end).
  assert (W : match w with Some c => exists codes, c = WithCodes codes k (i + (bytes (IGNORE ++ after) - bytes (trim_start is_space after)) + 1) [] /\ brackets after = Some codes | None => brackets after = None end).
  { unfold w, brackets. destruct (strip_prefix [91] _) as [t|]; [|reflexivity]. destruct (strip_last 93 t) as [[|x u]|]; [reflexivity|eauto|reflexivity]. }
  destruct w as [c|].
  - destruct W as (codes & -> & W). cbn. constructor. apply brackets_right. exact W.
  - assert (N : forall codes, ~ with_codes after codes) by (intros codes H; apply brackets_right in H; congruence). destruct after as [|c r].
    + cbn. constructor; auto.
    + destruct ((c =? 32) || (c =? 9)) eqn:E.
      * cbn [mark_of]. constructor; [exact N|]. right. exists c, r. split; [reflexivity|]. apply orb_true_iff in E. rewrite !N.eqb_eq in E. exact E.
      * apply orb_false_iff in E. rewrite !N.eqb_neq in E. intros m H. inversion H as [? codes Hc|? _ [Hr|(c' & r' & Hr & Hc)]]; subst; [exact (N codes Hc)|discriminate Hr|]. injection Hr as <- <-. lia.
Qed.
Lemma maybe_type_ignore_none k i t : strip_prefix IGNORE t = None -> maybe_type_ignore k i t = None.
Proof. unfold maybe_type_ignore. intros ->. reflexivity. Qed.

(** [spaces ++ x :: ...] can be taken apart in one way. *)
Lemma spaces_head_unique s1 s2 c1 c2 r1 r2 : spaces s1 -> spaces s2 -> c1 <> 32 -> c2 <> 32 -> s1 ++ c1 :: r1 = s2 ++ c2 :: r2 -> s1 = s2 /\ c1 = c2 /\ r1 = r2.
Proof.
  intros H1. revert s2. induction H1 as [|x s1 Hx H1 IH]; intros s2 H2 N1 N2 E.
  - destruct H2 as [|y s2 Hy H2]; cbn in E; [injection E as -> ->; auto|injection E as -> _; congruence].
  - destruct H2 as [|y s2 Hy H2]; cbn in E; [injection E as E _; congruence|]. injection E as E1 E2. destruct (IH s2 H2 N1 N2 E2) as (-> & -> & ->). subst. auto.
Qed.
Lemma trim_spaces s1 c r : spaces s1 -> c <> 32 -> trim_start is_space (s1 ++ c :: r) = c :: r.
Proof. intros H N. rewrite trim_start_app by (apply spaces_spec; exact H). cbn. unfold is_space. apply N.eqb_neq in N. rewrite N. reflexivity. Qed.

Lemma scan_comment_right i comment :
  match scan_comment i comment with
  | Some c => comment_text comment (mark_of c)
  | None => forall m, ~ comment_text comment m
  end.
Proof.
  unfold scan_comment. destruct (trim_start_spec is_space comment) as (s1 & E1 & F1). apply spaces_spec in F1.
  set (rest := trim_start is_space comment) in *.
  assert (K : forall kw k ignore, keyword kw -> rest = kw ++ ignore ->
    match maybe_type_ignore k (i + (bytes comment - bytes (trim_start is_space ignore))) (trim_start is_space ignore) with
    | Some c => comment_text comment (mark_of c)
    | None => forall m, ~ comment_text comment m end).
  { intros kw k ignore Hk Er. destruct (trim_start_spec is_space ignore) as (s2 & E2 & F2). apply spaces_spec in F2. set (ig := trim_start is_space ignore) in *.
    assert (U : forall m, comment_text comment m -> exists rest', ig = ignore_word ++ rest' /\ after_ignore rest' m).
    { intros m H. destruct H as [t1 kw' t2 rest' m T1 Hk' T2 Ha]. exists rest'. split; [|exact Ha].
      assert (R : rest = kw' ++ t2 ++ ignore_word ++ rest') by (unfold rest; destruct Hk'; apply trim_spaces; (exact T1 || discriminate)).
      rewrite Er in R. assert (Q : ignore = t2 ++ ignore_word ++ rest') by (destruct Hk, Hk'; try discriminate R; apply app_inv_head in R; exact R).
      unfold ig. rewrite Q. apply (trim_spaces t2 105 ([103; 110; 111; 114; 101] ++ rest') T2). discriminate. }
    destruct (strip_prefix IGNORE ig) as [after|] eqn:Ei.
    - apply strip_prefix_iff in Ei. rewrite Ei. assert (M := maybe_type_ignore_right k (i + (bytes comment - bytes (IGNORE ++ after))) after).
      destruct (maybe_type_ignore k _ (IGNORE ++ after)) as [c|].
      + rewrite E1, Er, E2, Ei. constructor; assumption.
      + intros m H. destruct (U m H) as (rest' & Eg & Ha). rewrite Ei in Eg. apply app_inv_head in Eg. subst rest'. exact (M m Ha).
    - rewrite (maybe_type_ignore_none _ _ _ Ei). intros m H. destruct (U m H) as (rest' & Eg & _). assert (X : strip_prefix IGNORE ig = Some rest') by (apply strip_prefix_iff; exact Eg). congruence. }
  destruct (strip_prefix TYPE_ rest) as [ignore|] eqn:Et.
  - apply strip_prefix_iff in Et. apply (K TYPE_ Type_ ignore); [constructor|exact Et].
  - destruct (strip_prefix ZUBAN_ rest) as [ignore|] eqn:Ez.
    + apply strip_prefix_iff in Ez. apply (K ZUBAN_ Zuban ignore); [constructor|exact Ez].
    + intros m H. destruct H as [t1 kw' t2 rest' m T1 Hk' T2 Ha].
      assert (R : rest = kw' ++ t2 ++ ignore_word ++ rest') by (unfold rest; destruct Hk'; apply trim_spaces; (exact T1 || discriminate)).
      destruct Hk'; [assert (X : strip_prefix TYPE_ rest = Some (t2 ++ ignore_word ++ rest')) by (apply strip_prefix_iff; exact R)|assert (X : strip_prefix ZUBAN_ rest = Some (t2 ++ ignore_word ++ rest')) by (apply strip_prefix_iff; exact R)]; congruence.
Qed.

Lemma comment_rest t1 kw t2 rest m : spaces t1 -> keyword kw -> spaces t2 -> forall u1 kw' u2 rest', spaces u1 -> keyword kw' -> spaces u2 ->
  t1 ++ kw ++ t2 ++ ignore_word ++ rest = u1 ++ kw' ++ u2 ++ ignore_word ++ rest' -> after_ignore rest m -> kw = kw' /\ rest = rest'.
Proof.
  intros T1 K T2 u1 kw' u2 rest' U1 K' U2 E _.
  assert (Q : kw ++ t2 ++ ignore_word ++ rest = kw' ++ u2 ++ ignore_word ++ rest').
  { destruct K, K'; cbn [app] in E; apply spaces_head_unique in E; try assumption; try discriminate; destruct E as (_ & E1 & E2); try discriminate E1; cbn [app]; congruence. }
  assert (Kk : kw = kw') by (destruct K, K'; try discriminate Q; reflexivity). subst kw'. apply app_inv_head in Q.
  split; [reflexivity|]. unfold ignore_word in Q. cbn [app] in Q. apply spaces_head_unique in Q; try assumption; try discriminate. destruct Q as (_ & _ & Q). congruence.
Qed.
Lemma comment_unique b m1 m2 : comment_text b m1 -> comment_text b m2 -> m1 = m2.
Proof.
  intros H1 H2. destruct H1 as [t1 kw t2 rest m1 T1 K T2 A]. inversion H2 as [u1 kw' u2 rest' m' U1 K' U2 A' E]. subst m'.
  destruct (comment_rest t1 kw t2 rest m1 T1 K T2 u1 kw' u2 rest' U1 K' U2 (eq_sym E) A) as [_ <-].
  inversion A as [? c1 W1|? N1 _]; subst; inversion A' as [? c2 W2|? N2 _]; subst; [|contradiction (N2 _ W1)|contradiction (N1 _ W2)|reflexivity].
  apply brackets_right in W1, W2. congruence.
Qed.

(** ** Which diagnostics are ignored *)
Lemma text_eqb_iff a b : text_eqb a b = true <-> a = b.
Proof.
  revert b. induction a as [|x a IH]; intros [|y b]; cbn; try (split; congruence). rewrite andb_true_iff, N.eqb_eq, IH. split; [intros [-> ->]; reflexivity|intros [= -> ->]; auto].
Qed.

(** Facts about the combination of all comments. *)
Section Any.
Variable P : option type_ignore_comment -> Prop.
Variable Q : mark -> Prop.
Hypothesis P_none : ~ P None.
Hypothesis P_mark : forall i c x, scan_comment i c = Some x -> (P (Some x) <-> Q (mark_of x)).
Hypothesis P_combine : forall old i c, P (combine_comments old (scan_comment i c)) <-> P old \/ P (scan_comment i c).
Lemma any_comment i c : P (scan_comment i c) <-> exists m, comment_text c m /\ Q m.
Proof.
  assert (R := scan_comment_right i c). destruct (scan_comment i c) as [x|] eqn:E.
  - rewrite (P_mark i c x E). split; [intros H; eauto|]. intros (m & Hm & C). rewrite (comment_unique _ _ _ R Hm). exact C.
  - split; [intros H; contradiction (P_none H)|]. intros (m & Hm & _). contradiction (R m Hm).
Qed.
Lemma any_scan_comments cs : forall i r, P (snd (scan_comments i cs r)) <-> P r \/ exists c m, In c cs /\ comment_text c m /\ Q m.
Proof.
  induction cs as [|c cs IH]; intros i r; cbn [scan_comments]; [split; [auto|intros [H|(c & m & [] & _)]; exact H]|].
  rewrite IH, P_combine, any_comment. split.
  - intros [[H|(m & H1 & H2)]|(c' & m & H1 & H2)]; [auto|right; exists c, m; split; [left; reflexivity|auto]|right; exists c', m; split; [right; exact H1|exact H2]].
  - intros [H|(c' & m & [<-|Hc] & H2)]; [auto|left; right; eauto|right; eauto].
Qed.
Lemma carries_iff line m : carries line m <-> exists c, In c (tl (split_by (N.eqb 35) line)) /\ comment_text c m.
Proof.
  split.
  - intros (pre & body & post & -> & Nb & Hp & Hc). exists body. split; [|exact Hc]. apply (in_tail_split _ (eq 35) (eqb_spec 35)). exists pre, 35, post. refine (conj eq_refl (conj eq_refl (conj _ _))).
    + destruct Hp as [->|(p & ->)]; [auto|right; eauto].
    + apply Forall_forall. intros c Hin <-. exact (Nb Hin).
  - intros (c & Hin & Hc). apply (in_tail_split _ (eq 35) (eqb_spec 35)) in Hin. destruct Hin as (a & x & b & -> & <- & Hb & F). exists a, c, b. refine (conj eq_refl (conj _ (conj _ Hc))).
    + intros Hi. rewrite Forall_forall in F. exact (F 35 Hi eq_refl).
    + destruct Hb as [->|(x & b' & -> & <-)]; [auto|right; eauto].
Qed.
Lemma any_scan_lines ls : forall i r, P (scan_lines i ls r) <-> P r \/ exists line m, In line ls /\ carries line m /\ Q m.
Proof.
  induction ls as [|l ls IH]; intros i r; cbn [scan_lines]; [split; [auto|intros [H|(c & m & [] & _)]; exact H]|].
  destruct (split_shape (N.eqb 35) l) as (first & comments & Es). rewrite Es. destruct (scan_comments (i + (bytes first + 1)) comments r) as [j r'] eqn:Er.
  assert (H' : P r' <-> P r \/ exists m, carries l m /\ Q m).
  { replace r' with (snd (scan_comments (i + (bytes first + 1)) comments r)) by (rewrite Er; reflexivity). rewrite any_scan_comments. split.
    - intros [H|(c & m & H1 & H2 & H3)]; [auto|]. right. exists m. split; [|exact H3]. apply carries_iff. exists c. rewrite Es. auto.
    - intros [H|(m & H1 & H2)]; [auto|]. apply carries_iff in H1. destruct H1 as (c & Hc & Ht). rewrite Es in Hc. right. eauto. }
  rewrite IH, H'. split.
  - intros [[H|(m & H1 & H2)]|(x & m & H1 & H2)]; [auto|right; exists l, m; split; [left; reflexivity|auto]|right; exists x, m; split; [right; exact H1|exact H2]].
  - intros [H|(x & m & [<-|Hx] & H2)]; [auto|left; right; eauto|right; eauto].
Qed.
Lemma any_region i r : P (type_ignore_comment_for_region i r) <-> exists line m, line_of r line /\ carries line m /\ Q m.
Proof.
  unfold type_ignore_comment_for_region. rewrite any_scan_lines. split.
  - intros [H|(l & m & Hl & H)]; [contradiction (P_none H)|]. exists l, m. split; [apply (in_split _ newline newline_spec); exact Hl|exact H].
  - intros (l & m & Hl & H). right. exists l, m. split; [apply (in_split _ newline newline_spec); exact Hl|exact H].
Qed.
End Any.

Section Holds.
Variables e super_ : option text.
Definition holds (r : option type_ignore_comment) : Prop := fst (is_ignored e super_ r) = true.
Definition item_ok (code : text) : bool :=
  let code := trim_end is_space (trim_start is_space code) in
  match e with Some e => text_eqb e code | None => false end
  || match super_ with Some s => text_eqb s code | None => false end
  || match e with None => true | Some _ => false end.
Lemma holds_codes codes k i later : holds (Some (WithCodes codes k i later)) <-> exists l, In l (codes :: later) /\ existsb item_ok (split_by (N.eqb 44) l) = true.
Proof.
  unfold holds, is_ignored. fold item_ok. destruct (existsb item_ok (flat_map (split_by (N.eqb 44)) (codes :: later))) eqn:E.
  - split; [intros _|reflexivity]. apply existsb_exists in E. destruct E as (x & Hx & Ox). apply in_flat_map in Hx. destruct Hx as (l & Hl & Hx). exists l. split; [exact Hl|]. apply existsb_exists. eauto.
  - split; [discriminate|]. intros (l & Hl & Hx). apply existsb_exists in Hx. destruct Hx as (x & Hx & Ox).
    assert (X : existsb item_ok (flat_map (split_by (N.eqb 44)) (codes :: later)) = true) by (apply existsb_exists; exists x; split; [apply in_flat_map; eauto|exact Ox]). congruence.
Qed.
Lemma codes_cover l : existsb item_ok (split_by (N.eqb 44) l) = true <-> covers e super_ (Codes l).
Proof.
  rewrite existsb_exists. cbn [covers]. split.
  - intros (x & Hx & Ox). apply (in_split _ (eq 44) (eqb_spec 44)) in Hx. unfold item_ok in Ox. destruct (trim_start_spec is_space x) as (s1 & E1 & F1).
    destruct (trim_end_spec is_space (trim_start is_space x)) as (s2 & E2 & F2). set (item := trim_end is_space (trim_start is_space x)) in *.
    assert (L : listed l item).
    { exists s1, s2. rewrite <- E2, <- E1. refine (conj _ (conj _ (conj Hx (conj _ _)))); [apply spaces_spec; exact F1|apply spaces_spec; exact F2| |].
      - intros c r Ei. rewrite Ei in E2. cbn [app] in E2. apply trim_start_head in E2. unfold is_space in E2. apply N.eqb_neq in E2. exact E2.
      - intros c r Ei. unfold item in Ei. apply trim_end_last in Ei. unfold is_space in Ei. apply N.eqb_neq in Ei. exact Ei. }
    apply orb_true_iff in Ox. destruct Ox as [Ox|Ox]; [|destruct e; [discriminate|auto]]. apply orb_true_iff in Ox. destruct Ox as [Ox|Ox].
    + destruct e as [c|]; [|discriminate]. apply text_eqb_iff in Ox. subst c. right. eauto.
    + destruct super_ as [c|]; [|discriminate]. apply text_eqb_iff in Ox. subst c. right. eauto.
  - intros [He|(item & L & H)].
    + destruct (split_shape (N.eqb 44) l) as (p & ps & Ep). exists p. rewrite Ep. split; [left; reflexivity|]. unfold item_ok. rewrite He, orb_true_r. reflexivity.
    + destruct L as (s1 & s2 & H1 & H2 & P & Ih & Il). exists (s1 ++ item ++ s2). split; [apply (in_split _ (eq 44) (eqb_spec 44)); exact P|]. unfold item_ok.
      assert (T : trim_end is_space (trim_start is_space (s1 ++ item ++ s2)) = item).
      { apply spaces_spec in H1, H2. rewrite trim_start_app by exact H1. destruct item as [|c r].
        - cbn [app]. rewrite <- (app_nil_r s2), trim_start_app by exact H2. reflexivity.
        - rewrite trim_start_id; [rewrite trim_end_app by exact H2; apply trim_end_id|].
          + intros x y Ex. apply N.eqb_neq. exact (Il x y Ex).
          + intros x y Ex. injection Ex as <- _. apply N.eqb_neq. exact (Ih c r eq_refl). }
      rewrite T. destruct H as [-> | ->]; rewrite (proj2 (text_eqb_iff item item) eq_refl), ?orb_true_r; reflexivity.
Qed.
Lemma maybe_later i t k codes k' j later : maybe_type_ignore k i t = Some (WithCodes codes k' j later) -> later = [].
Proof.
  unfold maybe_type_ignore. destruct (strip_prefix IGNORE t) as [after|]; [|discriminate].
  destruct (strip_prefix [91] _) as [u|]; [destruct (strip_last 93 u) as [[|x v]|]|]; try congruence;
    (destruct after as [|c r]; [congruence|]; destruct (_ || _); congruence).
Qed.
Lemma scan_later i c codes k j later : scan_comment i c = Some (WithCodes codes k j later) -> later = [].
Proof.
  unfold scan_comment. destruct (strip_prefix TYPE_ _); [apply maybe_later|]. destruct (strip_prefix ZUBAN_ _); [apply maybe_later|discriminate].
Qed.
Lemma holds_mark i c x : scan_comment i c = Some x -> (holds (Some x) <-> covers e super_ (mark_of x)).
Proof.
  intros H. destruct x as [codes k j later|]; [|split; [intros _; exact I|reflexivity]]. pose proof (scan_later _ _ _ _ _ _ H) as ->. rewrite holds_codes. cbn [mark_of]. rewrite <- codes_cover.
  split; [intros (l & [<-|[]] & Hl); exact Hl|intros Hl; exists codes; split; [left; reflexivity|exact Hl]].
Qed.
Lemma holds_combine old i c : holds (combine_comments old (scan_comment i c)) <-> holds old \/ holds (scan_comment i c).
Proof.
  destruct (scan_comment i c) as [new|] eqn:E; [|destruct old as [[]|]; cbn [combine_comments]; (split; [auto|intros [H|H]; [exact H|discriminate H]])].
  destruct old as [old|]; [|cbn [combine_comments]; split; [auto|intros [H|H]; [discriminate H|exact H]]].
  destruct old as [c1 k1 i1 l1|], new as [c2 k2 i2 l2|]; cbn [combine_comments]; try (split; [intros _; (left; reflexivity) || (right; reflexivity)|reflexivity]).
  pose proof (scan_later _ _ _ _ _ _ E) as ->. rewrite !holds_codes. split.
  - intros (l & [<-|Hl] & Ol); [left; exists c1; split; [left; reflexivity|exact Ol]|]. apply in_app_or in Hl. destruct Hl as [Hl|[<-|[]]]; [left; exists l; split; [right; exact Hl|exact Ol]|right; exists c2; split; [left; reflexivity|exact Ol]].
  - intros [(l & Hl & Ol)|(l & [<-|[]] & Ol)]; [exists l; split; [|exact Ol]; destruct Hl as [<-|Hl]; [left; reflexivity|right; apply in_or_app; left; exact Hl]|].
    exists c2. split; [right; apply in_or_app; right; left; reflexivity|exact Ol].
Qed.
Lemma holds_region i r : holds (type_ignore_comment_for_region i r) <-> exists line m, line_of r line /\ carries line m /\ covers e super_ m.
Proof. apply any_region; [discriminate|exact holds_mark|exact holds_combine]. Qed.
End Holds.

Lemma find_newline r2 post : Forall (fun c => ~ newline c) r2 -> (post = [] \/ exists c p, post = c :: p /\ newline c) ->
  find_char is_newline (r2 ++ post) = match post with [] => None | _ => Some (bytes r2) end.
Proof.
  intros F H. induction F as [|c r2 Hc F IH].
  - destruct H as [->|(c & p & -> & Hc)]; [reflexivity|]. cbn. apply newline_spec in Hc. rewrite Hc. reflexivity.
  - cbn. destruct (is_newline c) eqn:E; [apply newline_spec in E; contradiction|]. rewrite IH. destruct post; reflexivity.
Qed.
Lemma comment_for_region code start end_ r : region code start end_ r -> type_ignore_comment_for code start end_ = Ok (type_ignore_comment_for_region start r).
Proof.
  intros (pre & r1 & r2 & post & -> & Hs & He & -> & F & Hp). unfold type_ignore_comment_for. rewrite <- He at 1. rewrite (app_assoc pre r1), drop_bytes_app. cbn [or_panic bind].
  rewrite (find_newline r2 post F Hp). destruct post as [|c p].
  - rewrite app_nil_r, <- app_assoc, <- Hs, drop_bytes_app. reflexivity.
  - assert (S : slice ((pre ++ r1) ++ r2 ++ c :: p) start (end_ + bytes r2) = Some (r1 ++ r2)).
    { replace ((pre ++ r1) ++ r2 ++ c :: p) with (pre ++ (r1 ++ r2) ++ c :: p) by (rewrite <- !app_assoc; reflexivity).
      replace (end_ + bytes r2)%nat with (bytes pre + bytes (r1 ++ r2))%nat by (rewrite <- He, !bytes_app; lia). rewrite <- Hs. apply slice_app. }
    rewrite S. reflexivity.
Qed.
Theorem ignored_region code start end_ r e super_ : region code start end_ r -> exists c, type_ignore_comment_for code start end_ = Ok c /\
  (fst (is_ignored e super_ c) = true <-> exists line m, line_of r line /\ carries line m /\ covers e super_ m).
Proof. intros H. eexists. split; [exact (comment_for_region _ _ _ _ H)|]. apply holds_region. Qed.

(** The rest of the first line does not matter if there is no number sign in it. *)
Lemma carries_before before line m : ~ In 35 before -> (carries (before ++ line) m <-> carries line m).
Proof.
  intros N. split.
  - intros (pre & body & post & E & H). assert (G : exists pre', line = pre' ++ [35] ++ body ++ post).
    { revert pre E. induction before as [|c b IH]; intros pre E; [exists pre; exact E|]. destruct pre as [|x pre]; cbn in E; injection E as E1 E2.
      - contradiction N. left. exact E1.
      - apply (IH (fun H => N (or_intror H)) pre E2). }
    destruct G as (pre' & ->). exists pre', body, post. auto.
  - intros (pre & body & post & -> & H). exists (before ++ pre), body, post. rewrite <- app_assoc. auto.
Qed.
Lemma line_of_cons before r line : Forall (fun c => ~ newline c) before ->
  (line_of (before ++ r) line <-> (exists l, line = before ++ l /\ exists ls, split_by is_newline r = l :: ls) \/ In line (tl (split_by is_newline r))).
Proof.
  intros F. unfold line_of. rewrite <- (in_split is_newline newline newline_spec). destruct (split_shape is_newline r) as (l & ls & E).
  assert (S : split_by is_newline (before ++ r) = (before ++ l) :: ls).
  { clear line. induction F as [|c b Hc F IH]; [exact E|]. cbn. destruct (is_newline c) eqn:Ec; [apply newline_spec in Ec; contradiction|]. rewrite IH. reflexivity. }
  rewrite S, E. cbn [In tl]. split; [intros [<-|H]; [left; eauto|auto]|intros [(x & -> & y & [= -> ->])|H]; auto].
Qed.
Theorem spans_region code start end_ r e super_ before : region code start end_ r ->
  (exists pre, bytes (pre ++ before) = start /\ (exists q, code = pre ++ before ++ q) /\ (pre = [] \/ exists p c, pre = p ++ [c] /\ newline c)) ->
  Forall (fun c => ~ newline c) before -> ~ In 35 before ->
  ((exists line m, line_of r line /\ carries line m /\ covers e super_ m) <-> (exists line m, spans code start end_ line /\ carries line m /\ covers e super_ m)).
Proof.
  intros (pre0 & r1 & r2 & post & Ec & Hs & He & -> & F & Hp) (pre & Hb & (q & Eq) & Hpre) Fb N.
  assert (E0 : pre0 = pre ++ before /\ r1 ++ r2 ++ post = q).
  { rewrite Ec in Eq. apply (bytes_prefix_inj pre0 _ (pre ++ before)); [rewrite <- app_assoc; exact Eq|congruence]. }
  destruct E0 as [-> <-].
  assert (Sp : forall line, line_of (before ++ r1 ++ r2) line <-> spans code start end_ line).
  { intros line. split.
    - intros H. exists pre, before, r1, r2, post. rewrite Ec. rewrite <- !app_assoc in *. auto 10.
    - intros (pre' & before' & r1' & r2' & post' & Ec' & Hs' & He' & Hpre' & Fb' & F' & Hp' & H).
      rewrite Ec in Ec'. rewrite <- !app_assoc in Ec'.
      assert (A : (pre ++ before) = (pre' ++ before') /\ r1 ++ r2 ++ post = r1' ++ r2' ++ post') by (apply bytes_prefix_inj; [rewrite <- !app_assoc; exact Ec'|congruence]).
      destruct A as [A1 A2]. assert (B : r1 = r1' /\ r2 ++ post = r2' ++ post').
      { apply bytes_prefix_inj; [exact A2|]. rewrite !bytes_app in *. lia. }
      destruct B as [<- B]. assert (C : r2 = r2').
      { clear - B F F' Hp Hp'. revert r2' B F'. induction F as [|c r2 Hc F IH]; intros r2' B F'; destruct F' as [|c' r2' Hc' F']; cbn in B.
        - reflexivity.
        - destruct Hp as [->|(d & p & -> & D)]; [discriminate|]. injection B as -> _. contradiction.
        - destruct Hp' as [->|(d & p & -> & D)]; [discriminate|]. injection B as -> _. contradiction.
        - injection B as -> B. f_equal. exact (IH r2' B F'). }
      subst r2'. assert (D : before = before').
      { clear - A1 Hpre Hpre' Fb Fb'. revert A1.
        assert (R : forall a b, rev a = rev b -> a = b :> list N) by (intros a b Hr; apply (f_equal (@rev N)) in Hr; rewrite !rev_involutive in Hr; exact Hr).
        intros A1. apply (f_equal (@rev N)) in A1. rewrite !rev_app_distr in A1. apply R.
        assert (G1 : Forall (fun c => ~ newline c) (rev before)) by (apply Forall_rev; exact Fb). assert (G2 : Forall (fun c => ~ newline c) (rev before')) by (apply Forall_rev; exact Fb').
        assert (P1 : rev pre = [] \/ exists c p, rev pre = c :: p /\ newline c) by (destruct Hpre as [->|(p & c & -> & Hc)]; [auto|right; rewrite rev_app_distr; cbn; eauto]).
        assert (P2 : rev pre' = [] \/ exists c p, rev pre' = c :: p /\ newline c) by (destruct Hpre' as [->|(p & c & -> & Hc)]; [auto|right; rewrite rev_app_distr; cbn; eauto]).
        revert A1 P1 P2. generalize (rev pre) (rev pre'). revert G1. generalize (rev before). revert G2. generalize (rev before'). clear.
        intros b' F' b F. revert b' F'. induction F as [|c b Hc F IH]; intros b' F' x y E X Y; destruct F' as [|c' b' Hc' F']; cbn in E.
        - reflexivity.
        - destruct X as [->|(d & p & -> & D)]; [discriminate|]. injection E as -> _. contradiction.
        - destruct Y as [->|(d & p & -> & D)]; [discriminate|]. injection E as -> _. contradiction.
        - injection E as -> E. f_equal. exact (IH b' F' x y E X Y). }
      subst before'. exact H. }
  assert (L := line_of_cons before (r1 ++ r2)). split.
  - intros (line & m & Hl & Hc & Hm). apply (in_split is_newline newline newline_spec) in Hl. destruct (split_shape is_newline (r1 ++ r2)) as (l & ls & E). rewrite E in Hl. destruct Hl as [<-|Hl].
    + exists (before ++ l), m. split; [apply Sp, (L _ Fb); left; eauto|]. split; [apply carries_before; assumption|exact Hm].
    + exists line, m. split; [apply Sp, (L _ Fb); right; rewrite E; exact Hl|auto].
  - intros (line & m & Hl & Hc & Hm). apply Sp in Hl. apply (L _ Fb) in Hl. destruct Hl as [(l & -> & ls & E)|Hl].
    + exists l, m. split; [apply (in_split is_newline newline newline_spec); rewrite E; left; reflexivity|]. split; [apply (carries_before before); assumption|exact Hm].
    + exists line, m. split; [apply (in_split is_newline newline newline_spec)|auto]. destruct (split_by is_newline (r1 ++ r2)); [destruct Hl|right; exact Hl].
Qed.

(** ** The whole file *)
Lemma bare_region i r : type_ignore_comment_for_region i r = Some WithoutCode <-> exists line m, line_of r line /\ carries line m /\ m = Bare.
Proof.
  apply (any_region (fun x => x = Some WithoutCode) (fun m => m = Bare)); [discriminate| |].
  - intros j c x _. destruct x; cbn [mark_of]; split; congruence.
  - intros old j c. destruct (scan_comment j c) as [[]|]; destruct old as [[]|]; cbn [combine_comments]; split; intuition congruence.
Qed.
Lemma some_region i r : type_ignore_comment_for_region i r <> None <-> exists line m, line_of r line /\ carries line m.
Proof.
  rewrite (any_region (fun x => x <> None) (fun _ => True)).
  - split; [intros (l & m & H1 & H2 & _); eauto|intros (l & m & H1 & H2); eauto].
  - congruence.
  - intros j c x _. split; [auto|congruence].
  - intros old j c. destruct (scan_comment j c) as [[]|]; destruct old as [[]|]; cbn [combine_comments]; split; intuition congruence.
Qed.
