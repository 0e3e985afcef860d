(** The tokenizer goes through the text from left to right. *)
From Coq Require Import List NArith Arith Bool Lia.
From Verif Require Import TextModel TextProofs RegexModel TokenizerModel TokenizerSpec TokenizerLiterals.
Import ListNotations.
Local Open Scope nat_scope.

(** ** Skipping what is between tokens *)

Lemma newline_dec c : ((c =? 10) || (c =? 13))%N = true <-> newline c.
Proof. unfold newline. rewrite orb_true_iff, !N.eqb_eq. tauto. Qed.
Lemma blank_dec c : ((c =? 32) || (c =? 9) || (c =? 12))%N = true <-> blank c.
Proof. unfold blank. rewrite !orb_true_iff, !N.eqb_eq. tauto. Qed.
Lemma newline_not c : ((c =? 10) || (c =? 13))%N = false <-> ~ newline c.
Proof. rewrite <- newline_dec. destruct ((c =? 10) || (c =? 13))%N; split; congruence. Qed.
Lemma blank_len c : blank c -> utf8_len c = 1.
Proof. intros [-> | [-> | ->]]; reflexivity. Qed.
Lemma newline_len c : newline c -> utf8_len c = 1.
Proof. intros [-> | ->]; reflexivity. Qed.
Lemma utf8_len_pos c : 1 <= utf8_len c.
Proof. unfold utf8_len. destruct (c <? 128)%N, (c <? 2048)%N, (c <? 65536)%N; lia. Qed.
Lemma bytes_blank b : Forall blank b -> bytes b = length b.
Proof. induction 1 as [|c b H F IH]; cbn [bytes length]; [reflexivity|]. rewrite (blank_len _ H). lia. Qed.
Lemma length_bytes t : length t <= bytes t.
Proof. induction t as [|c t IH]; cbn [bytes length]; [lia|]. pose proof (utf8_len_pos c). lia. Qed.

(** The text of a comment from the middle on, and what follows. *)
Definition between_from (was_comment : bool) (s rest : text) : Prop :=
  if was_comment then
    exists body g, s = body ++ g /\ Forall (fun c => ~ newline c) body /\
      (g ++ rest = [] \/ exists c r, g ++ rest = c :: r /\ newline c) /\ between g rest
  else between s rest.

(** Nothing is skipped here. *)
Definition stops (rest : text) : Prop := forall k m, skip_whitespace true false k m rest = (k, m).

Lemma between_from_nil wc rest : (rest = [] \/ exists c r, rest = c :: r /\ newline c) -> between_from wc [] rest.
Proof.
  intros H. destruct wc; cbn; [|constructor]. exists [], [].
  exact (conj eq_refl (conj (Forall_nil _) (conj H (between_nothing rest)))).
Qed.

Lemma skip_between : forall len cs, length cs <= len -> forall prev wc ind n ind' n',
  skip_whitespace prev wc ind n cs = (ind', n') ->
  exists s rest, cs = s ++ rest /\ n' = n + bytes s /\ between_from wc s rest.
Proof.
  induction len as [|len IH]; intros cs L prev wc ind n ind' n' H.
  - destruct cs; [|cbn in L; lia]. injection H as <- <-. exists [], []. split; [reflexivity|]. split; [cbn; lia|].
    apply between_from_nil; auto.
  - destruct cs as [|c r].
    { injection H as <- <-. exists [], []. split; [reflexivity|]. split; [cbn; lia|].
      apply between_from_nil; auto. }
    cbn [length] in L. apply le_S_n in L. cbn [skip_whitespace] in H.
    destruct ((c =? 10) || (c =? 13))%N eqn:En.
    { apply newline_dec in En. destruct prev.
      - apply IH in H; [|assumption]. destruct H as (s & rest & -> & -> & B). exists (c :: s), rest.
        split; [reflexivity|]. split; [cbn [bytes]; lia|]. cbn in B. destruct wc; cbn.
        + exists [], (c :: s). refine (conj eq_refl (conj (Forall_nil _) (conj _ _))); [right; exists c, (s ++ rest); auto|apply between_newline; auto].
        + apply between_newline; auto.
      - injection H as <- <-. exists [], (c :: r). split; [reflexivity|]. split; [cbn; lia|].
        apply between_from_nil; right; eauto. }
    apply newline_not in En. destruct wc.
    { apply IH in H; [|assumption]. destruct H as (s & rest & -> & -> & body & g & -> & F & E & B). exists (c :: body ++ g), rest.
      split; [reflexivity|]. split; [cbn [bytes]; lia|]. exists (c :: body), g. auto. }
    destruct ((c =? 32) || (c =? 9) || (c =? 12))%N eqn:Eb.
    { apply blank_dec in Eb. apply IH in H; [|assumption]. destruct H as (s & rest & -> & -> & B). exists (c :: s), rest.
      split; [reflexivity|]. split; [cbn [bytes]; lia|]. apply between_blank; auto. }
    destruct (c =? 35)%N eqn:Ec.
    { apply N.eqb_eq in Ec. subst c. apply IH in H; [|assumption].
      destruct H as (s & rest & -> & -> & body & g & -> & F & E & B). exists (35%N :: body ++ g), rest.
      split; [reflexivity|]. split; [cbn [bytes]; lia|]. apply between_comment; auto. }
    assert (Stop : forall m : nat * nat, m = (ind, n) -> m = (ind', n') ->
      exists s rest, c :: r = s ++ rest /\ n' = n + bytes s /\ between_from false s rest).
    { intros m -> [= <- <-]. exists [], (c :: r). split; [reflexivity|]. split; [cbn; lia|]. constructor. }
    destruct (c =? 92)%N eqn:Es.
    + apply N.eqb_eq in Es. subst c.
      assert (Go : forall e k r', r = e ++ r' -> line_end e -> k = n + 1 + bytes e ->
        (ind, snd (skip_whitespace prev false 0 k r')) = (ind', n') ->
        exists s rest, 92%N :: r = s ++ rest /\ n' = n + bytes s /\ between_from false s rest).
      { intros e k r' -> Le -> [= <- <-].
        destruct (skip_whitespace prev false 0 (n + 1 + bytes e) r') as [i2 n2] eqn:E2. cbn [snd].
        apply IH in E2. 2: { rewrite app_length in L. lia. }
        destruct E2 as (s & rest & -> & -> & B). exists (92%N :: e ++ s), rest.
        split; [cbn [app]; rewrite app_assoc; reflexivity|].
        split; [cbn [bytes]; rewrite bytes_app; change (utf8_len 92) with 1; lia|]. apply between_continuation; auto. }
      destruct r as [|d r']; [exact (Stop _ eq_refl H)|].
      destruct (d =? 13)%N eqn:E13.
      { apply N.eqb_eq in E13. subst d. destruct r' as [|d2 r2].
        { apply (Go [13%N] (n + 2) []); [reflexivity|right; left; reflexivity|cbn; lia|exact H]. }
        destruct (d2 =? 10)%N eqn:E10.
        - apply N.eqb_eq in E10. subst d2.
          apply (Go [13%N; 10%N] (n + 3) r2); [reflexivity|right; right; reflexivity|cbn; lia|exact H].
        - apply (Go [13%N] (n + 2) (d2 :: r2)); [reflexivity|right; left; reflexivity|cbn; lia|exact H]. }
      destruct (d =? 10)%N eqn:E10; [|exact (Stop _ eq_refl H)].
      apply N.eqb_eq in E10. subst d.
      apply (Go [10%N] (n + 2) r'); [reflexivity|left; reflexivity|cbn; lia|exact H].
    + exact (Stop _ eq_refl H).
Qed.

(** The same within a line *)
Definition inline_from (was_comment : bool) (s rest : text) : Prop :=
  if was_comment then
    exists body g, s = body ++ g /\ Forall (fun c => ~ newline c) body /\
      (g ++ rest = [] \/ exists c r, g ++ rest = c :: r /\ newline c) /\ inline g rest
  else inline s rest.
Lemma inline_from_nil wc rest : (rest = [] \/ exists c r, rest = c :: r /\ newline c) -> inline_from wc [] rest.
Proof.
  intros H. destruct wc; cbn; [|constructor]. exists [], [].
  exact (conj eq_refl (conj (Forall_nil _) (conj H (inline_nothing rest)))).
Qed.

Lemma skip_inline : forall len cs, length cs <= len -> forall wc ind n ind' n',
  skip_whitespace false wc ind n cs = (ind', n') ->
  exists s rest, cs = s ++ rest /\ n' = n + bytes s /\ inline_from wc s rest.
Proof.
  induction len as [|len IH]; intros cs L wc ind n ind' n' H.
  - destruct cs; [|cbn in L; lia]. injection H as <- <-. exists [], []. split; [reflexivity|]. split; [cbn; lia|].
    apply inline_from_nil; auto.
  - destruct cs as [|c r].
    { injection H as <- <-. exists [], []. split; [reflexivity|]. split; [cbn; lia|].
      apply inline_from_nil; auto. }
    cbn [length] in L. apply le_S_n in L. cbn [skip_whitespace] in H.
    destruct ((c =? 10) || (c =? 13))%N eqn:En.
    { apply newline_dec in En. injection H as <- <-. exists [], (c :: r). split; [reflexivity|]. split; [cbn; lia|].
      apply inline_from_nil; right; eauto. }
    apply newline_not in En. destruct wc.
    { apply IH in H; [|assumption]. destruct H as (s & rest & -> & -> & body & g & -> & F & E & B). exists (c :: body ++ g), rest.
      split; [reflexivity|]. split; [cbn [bytes]; lia|]. exists (c :: body), g. auto. }
    destruct ((c =? 32) || (c =? 9) || (c =? 12))%N eqn:Eb.
    { apply blank_dec in Eb. apply IH in H; [|assumption]. destruct H as (s & rest & -> & -> & B). exists (c :: s), rest.
      split; [reflexivity|]. split; [cbn [bytes]; lia|]. apply inline_blank; auto. }
    destruct (c =? 35)%N eqn:Ec.
    { apply N.eqb_eq in Ec. subst c. apply IH in H; [|assumption].
      destruct H as (s & rest & -> & -> & body & g & -> & F & E & B). exists (35%N :: body ++ g), rest.
      split; [reflexivity|]. split; [cbn [bytes]; lia|]. apply inline_comment; auto. }
    assert (Stop : forall m : nat * nat, m = (ind, n) -> m = (ind', n') ->
      exists s rest, c :: r = s ++ rest /\ n' = n + bytes s /\ inline_from false s rest).
    { intros m -> [= <- <-]. exists [], (c :: r). split; [reflexivity|]. split; [cbn; lia|]. constructor. }
    destruct (c =? 92)%N eqn:Es.
    + apply N.eqb_eq in Es. subst c.
      assert (Go : forall e k r', r = e ++ r' -> line_end e -> k = n + 1 + bytes e ->
        (ind, snd (skip_whitespace false false 0 k r')) = (ind', n') ->
        exists s rest, 92%N :: r = s ++ rest /\ n' = n + bytes s /\ inline_from false s rest).
      { intros e k r' -> Le -> [= <- <-].
        destruct (skip_whitespace false false 0 (n + 1 + bytes e) r') as [i2 n2] eqn:E2. cbn [snd].
        apply IH in E2. 2: { rewrite app_length in L. lia. }
        destruct E2 as (s & rest & -> & -> & B). exists (92%N :: e ++ s), rest.
        split; [cbn [app]; rewrite app_assoc; reflexivity|].
        split; [cbn [bytes]; rewrite bytes_app; change (utf8_len 92) with 1; lia|]. apply inline_continuation; auto. }
      destruct r as [|d r']; [exact (Stop _ eq_refl H)|].
      destruct (d =? 13)%N eqn:E13.
      { apply N.eqb_eq in E13. subst d. destruct r' as [|d2 r2].
        { apply (Go [13%N] (n + 2) []); [reflexivity|right; left; reflexivity|cbn; lia|exact H]. }
        destruct (d2 =? 10)%N eqn:E10.
        - apply N.eqb_eq in E10. subst d2.
          apply (Go [13%N; 10%N] (n + 3) r2); [reflexivity|right; right; reflexivity|cbn; lia|exact H].
        - apply (Go [13%N] (n + 2) (d2 :: r2)); [reflexivity|right; left; reflexivity|cbn; lia|exact H]. }
      destruct (d =? 10)%N eqn:E10; [|exact (Stop _ eq_refl H)].
      apply N.eqb_eq in E10. subst d.
      apply (Go [10%N] (n + 2) r'); [reflexivity|left; reflexivity|cbn; lia|exact H].
    + exact (Stop _ eq_refl H).
Qed.

(** The text passed over ends with the white space at the start of a line, and that is the
    indentation; or there was a continuation after the white space at the start of a line. *)
Definition line_after (wc : bool) (s1 : text) : Prop := (s1 = [] /\ wc = false) \/ exists a c, s1 = a ++ [c] /\ newline c.
Definition skipped_line (wc : bool) (b0 cs : text) (ind : nat) (rest : text) : Prop :=
  rest = [] \/
  (stops rest /\ exists s1 b, b0 ++ cs = s1 ++ b ++ rest /\ Forall blank b /\ length b = ind /\ line_after wc s1) \/
  (stops rest /\ exists s1 b c d, b0 ++ cs = s1 ++ b ++ 92%N :: c :: d /\ newline c /\ Forall blank b /\ length b = ind /\ line_after wc s1).

Lemma line_after_cons s1 pre wc c : line_after wc s1 -> wc = true \/ newline c -> exists a d, pre ++ c :: s1 = a ++ [d] /\ newline d.
Proof.
  intros [[-> ->]|(a & d & -> & H)] [W|W]; try discriminate.
  - exists pre, c. auto.
  - exists (pre ++ c :: a), d. rewrite <- app_assoc. auto.
  - exists (pre ++ c :: a), d. rewrite <- app_assoc. auto.
Qed.

Lemma skipped_cons wc wc' c b0 r ind rest :
  skipped_line wc' [] r ind rest -> wc' = true \/ newline c -> skipped_line wc b0 (c :: r) ind rest.
Proof.
  intros [E|[(St & s1 & b & E & Fb & Lb & La)|(St & s1 & b & d & z & E & Nd & Fb & Lb & La)]] H.
  - left. exact E.
  - right. left. split; [exact St|]. cbn [app] in E. subst r. exists (b0 ++ c :: s1), b.
    split; [rewrite <- app_assoc; reflexivity|]. split; [exact Fb|]. split; [exact Lb|]. right. exact (line_after_cons _ _ _ _ La H).
  - right. right. split; [exact St|]. cbn [app] in E. subst r. exists (b0 ++ c :: s1), b, d, z.
    split; [rewrite <- app_assoc; reflexivity|]. split; [exact Nd|]. split; [exact Fb|]. split; [exact Lb|]. right. exact (line_after_cons _ _ _ _ La H).
Qed.

Lemma skip_line : forall len cs, length cs <= len -> forall wc b0 n ind' n', Forall blank b0 -> (wc = true -> b0 = []) ->
  skip_whitespace true wc (length b0) n cs = (ind', n') ->
  exists s rest, cs = s ++ rest /\ n' = n + bytes s /\ skipped_line wc b0 cs ind' rest.
Proof.
  induction len as [|len IH]; intros cs L wc b0 n ind' n' Fb Wc H.
  - destruct cs; [|cbn in L; lia]. injection H as <- <-. exists [], []. split; [reflexivity|]. split; [cbn; lia|]. left. reflexivity.
  - destruct cs as [|c r].
    { injection H as <- <-. exists [], []. split; [reflexivity|]. split; [cbn; lia|]. left. reflexivity. }
    cbn [length] in L. apply le_S_n in L. cbn [skip_whitespace] in H.
    destruct ((c =? 10) || (c =? 13))%N eqn:En.
    { apply newline_dec in En. apply (IH r L false []) in H; [|constructor|discriminate].
      destruct H as (s & rest & Er & -> & Sk). exists (c :: s), rest. subst r.
      split; [reflexivity|]. split; [cbn [bytes]; lia|]. apply (skipped_cons _ false); auto. }
    destruct wc.
    { rewrite (Wc eq_refl) in *. apply (IH r L true []) in H; [|constructor|reflexivity].
      destruct H as (s & rest & Er & -> & Sk). exists (c :: s), rest. subst r.
      split; [reflexivity|]. split; [cbn [bytes]; lia|]. apply (skipped_cons _ true); auto. }
    destruct ((c =? 32) || (c =? 9) || (c =? 12))%N eqn:Eb.
    { apply blank_dec in Eb. replace (S (length b0)) with (length (b0 ++ [c])) in H by (rewrite app_length; cbn; lia).
      apply (IH r L false (b0 ++ [c])) in H; [|apply Forall_app; auto|discriminate].
      destruct H as (s & rest & Er & -> & Sk). exists (c :: s), rest. split; [subst r; reflexivity|]. split; [cbn [bytes]; lia|].
      unfold skipped_line in *. rewrite <- app_assoc in Sk. exact Sk. }
    destruct (c =? 35)%N eqn:Ec.
    { apply (IH r L true []) in H; [|constructor|reflexivity].
      destruct H as (s & rest & Er & -> & Sk). exists (c :: s), rest. subst r.
      split; [reflexivity|]. split; [cbn [bytes]; lia|]. apply (skipped_cons _ true); auto. }
    assert (Stop : forall m : nat * nat, m = (length b0, n) -> m = (ind', n') -> stops (c :: r) ->
      exists s rest, c :: r = s ++ rest /\ n' = n + bytes s /\ skipped_line false b0 (c :: r) ind' rest).
    { intros m -> [= <- <-] St. exists [], (c :: r). split; [reflexivity|]. split; [cbn; lia|].
      right. left. split; [exact St|]. exists [], b0. repeat split; auto. left. auto. }
    destruct (c =? 92)%N eqn:Es.
    + apply N.eqb_eq in Es. subst c.
      assert (Go : forall e k r', r = e ++ r' -> (exists d z, e = d :: z /\ newline d) -> k = n + 1 + bytes e ->
        (length b0, snd (skip_whitespace true false 0 k r')) = (ind', n') ->
        exists s rest, 92%N :: r = s ++ rest /\ n' = n + bytes s /\ skipped_line false b0 (92%N :: r) ind' rest).
      { intros e k r' -> (d & z & -> & Nd) -> H2.
        destruct (skip_whitespace true false 0 (n + 1 + bytes (d :: z)) r') as [i2 n2] eqn:E2. cbn [snd] in H2. injection H2 as <- <-.
        apply (IH r') with (b0 := []) in E2; [|rewrite app_length in L; lia|constructor|discriminate].
        destruct E2 as (s & rest & -> & -> & B). exists (92%N :: (d :: z) ++ s), rest.
        split; [cbn [app]; rewrite app_assoc; reflexivity|].
        split; [cbn [bytes app]; rewrite bytes_app; assert (U : utf8_len 92 = 1) by reflexivity; lia|].
        assert (St : rest = [] \/ stops rest) by (destruct B as [B|[[B _]|[B _]]]; auto).
        destruct St as [St|St]; [left; exact St|right; right]. split; [exact St|].
        exists [], b0, d, (z ++ s ++ rest). repeat split; auto. left. auto. }
      destruct r as [|d r']; [refine (Stop _ eq_refl H _); intros k m; reflexivity|].
      destruct (d =? 13)%N eqn:E13.
      { apply N.eqb_eq in E13. subst d. destruct r' as [|d2 r2].
        { apply (Go [13%N] (n + 2) []); [reflexivity|exists 13%N, []; split; [reflexivity|right; reflexivity]|cbn; lia|exact H]. }
        destruct (d2 =? 10)%N eqn:E10.
        - apply N.eqb_eq in E10. subst d2.
          apply (Go [13%N; 10%N] (n + 3) r2); [reflexivity|exists 13%N, [10%N]; split; [reflexivity|right; reflexivity]|cbn; lia|exact H].
        - apply (Go [13%N] (n + 2) (d2 :: r2)); [reflexivity|exists 13%N, []; split; [reflexivity|right; reflexivity]|cbn; lia|exact H]. }
      destruct (d =? 10)%N eqn:E10.
      2: { refine (Stop _ eq_refl H _). intros k m. cbn [skip_whitespace]. rewrite E13, E10. reflexivity. }
      apply N.eqb_eq in E10. subst d.
      apply (Go [10%N] (n + 2) r'); [reflexivity|exists 10%N, []; split; [reflexivity|left; reflexivity]|cbn; lia|exact H].
    + refine (Stop _ eq_refl H _). intros k m. cbn [skip_whitespace]. rewrite En, Eb, Ec, Es. reflexivity.
Qed.

(** White space is skipped and counted. *)
Lemma skip_blanks : forall b rest k n, Forall blank b -> stops rest ->
  skip_whitespace true false k n (b ++ rest) = (k + length b, n + bytes b).
Proof.
  induction b as [|c b IH]; intros rest k n F St; cbn [app length bytes].
  - rewrite !Nat.add_0_r. apply St.
  - apply Forall_cons_iff in F. destruct F as [Hc F]. cbn [skip_whitespace].
    assert (E : ((c =? 10) || (c =? 13))%N = false) by (destruct Hc as [-> | [-> | ->]]; reflexivity).
    rewrite E, (proj2 (blank_dec c) Hc), (IH rest (S k) _ F St). f_equal; lia.
Qed.

Lemma between_app g1 : forall g2 rest, between g1 (g2 ++ rest) -> between g2 rest -> between (g1 ++ g2) rest.
Proof.
  intros g2 rest H. remember (g2 ++ rest) as r eqn:E. induction H; intros B; subst.
  - exact B.
  - cbn. apply between_blank; auto.
  - cbn. apply between_newline; auto.
  - cbn. rewrite <- app_assoc. apply between_comment; auto.
    rewrite <- app_assoc. assumption.
  - cbn. rewrite <- app_assoc. apply between_continuation; auto.
Qed.

Lemma inline_app g1 : forall g2 rest, inline g1 (g2 ++ rest) -> inline g2 rest -> inline (g1 ++ g2) rest.
Proof.
  intros g2 rest H. remember (g2 ++ rest) as r eqn:E. induction H; intros B; subst.
  - exact B.
  - cbn. apply inline_blank; auto.
  - cbn. rewrite <- app_assoc. apply inline_comment; auto.
    rewrite <- app_assoc. assumption.
  - cbn. rewrite <- app_assoc. apply inline_continuation; auto.
Qed.

(** ** One token *)

(** The stack of indentations grows strictly from zero. *)
Fixpoint stack_ok (l : list nat) : Prop :=
  match l with
  | [] => False
  | i :: r => match r with [] => i = 0 | x :: _ => x < i /\ stack_ok r end
  end.

(** What a token does to the stack of indentations. *)
Definition levels (k : kind) (l l' : list nat) : Prop :=
  match k with
  | Indent => exists i, l' = i :: l
  | Dedent => exists x, l = x :: l'
  | ErrorDedent => exists i x r, l = x :: r /\ l' = i :: r
  | _ => l' = l
  end.

(** Whether brackets or f-strings are open. *)
Definition opened (st : state) : nat :=
  if (parens st =? 0) && match fstack st with [] => true | _ => false end then 0 else 1.

Definition is_newline (k : kind) : bool := match k with Newline => true | _ => false end.

Definition step_facts (st : state) (t : token) (w rest : text) (st' : state) : Prop :=
  prev_newline st' = is_newline (tok_kind t) /\ ended st' = is_end t /\
  (prev_newline st' = true -> opened st' = 0) /\
  (is_end t = true -> rest = [] /\ indents st' = [0]) /\
  length (fstack st') <= length (fstack st) + length w /\
  levels (tok_kind t) (indents st) (indents st') /\ stack_ok (indents st') /\
  (w = [] -> opened st' <= opened st) /\ (tok_kind t = ErrorDedent -> opened st' < opened st) /\ tok_kind t <> Indent.

(** What it does to the lines, outside of f-strings *)
Definition line_facts (st : state) (t : token) (g w rest : text) (st' : state) : Prop :=
  fstack st = [] ->
  (parens st = 0 -> inline g (w ++ rest)) /\ (tok_kind t = Newline -> parens st = 0) /\
  (parens st = 0 -> tok_kind t = Dedent \/ tok_kind t = ErrorDedent -> rest = []) /\
  (tok_kind t <> FStringStart -> fstack st' = [] /\ (rest = [] \/ parens st' = depth_after (tok_kind t) w (parens st))).

(** [r] is a token of [c], the text at the index of [st]. *)
Definition good (st : state) (c : text) (r : run (option token * state)) : Prop :=
  exists g w rest t st', r = Got (Some t, st') /\ c = g ++ w ++ rest /\ between g (w ++ rest) /\
    tok_start t = index st + bytes g /\ tok_len t = bytes w /\ fits (tok_kind t) w /\
    index st' = index st + bytes g + bytes w /\ step_facts st t w rest st' /\ line_facts st t g w rest st'.

Lemma good_shift st s c r : between s c -> (parens st = 0 -> fstack st = [] -> inline s c) -> good (set_index (index st + bytes s) st) c r -> good st (s ++ c) r.
Proof.
  intros B Bi (g & w & rest & t & st' & -> & -> & Bg & Es & El & F & Ei & Sf & Lf). cbn [index set_index] in Es, Ei.
  exists (s ++ g), w, rest, t, st'. split; [reflexivity|]. split; [rewrite app_assoc; reflexivity|].
  split; [apply between_app; assumption|]. rewrite bytes_app. split; [lia|]. split; [exact El|]. split; [exact F|]. split; [lia|].
  split; [exact Sf|]. intros Fs. destruct (Lf Fs) as (L1 & L2 & L3 & L4). cbn [parens set_index] in *.
  refine (conj _ (conj L2 (conj L3 L4))). intros P0. apply inline_app; auto.
Qed.

(** A token at the index, with no white space before it. *)
Lemma good_here st w rest t st' :
  tok_start t = index st -> tok_len t = bytes w -> fits (tok_kind t) w -> index st' = index st + bytes w ->
  step_facts st t w rest st' -> line_facts st t [] w rest st' -> good st (w ++ rest) (Got (Some t, st')).
Proof.
  intros Es El F Ei Sf Lf. exists [], w, rest, t, st'. cbn [bytes app]. rewrite !Nat.add_0_r.
  exact (conj eq_refl (conj eq_refl (conj (between_nothing _) (conj Es (conj El (conj F (conj Ei (conj Sf Lf)))))))).
Qed.

(** A token that is neither a line end nor a bracket *)
Lemma line_plain st t w rest st' : tok_kind t <> Newline -> tok_kind t <> Dedent -> tok_kind t <> ErrorDedent ->
  (fstack st = [] -> tok_kind t <> FStringStart -> fstack st' = [] /\ (rest = [] \/ parens st' = depth_after (tok_kind t) w (parens st))) ->
  line_facts st t [] w rest st'.
Proof.
  intros K1 K2 K3 H Fs. refine (conj _ (conj _ (conj _ (H Fs)))).
  - intros _. constructor.
  - congruence.
  - intros _ [K|K]; congruence.
Qed.
Lemma line_fstring_gap st t g w rest st' : fstack st <> [] -> line_facts st t g w rest st'.
Proof. intros H Fs. contradiction. Qed.
Lemma line_fstring st t w rest st' : fstack st <> [] -> line_facts st t [] w rest st'.
Proof. intros H Fs. contradiction. Qed.

(** A token that changes nothing else. *)
Lemma good_plain st w rest k syntax :
  prev_newline st = false -> ended st = false -> stack_ok (indents st) -> w <> [] -> fits k w ->
  k <> Indent -> k <> Dedent -> k <> ErrorDedent -> k <> Newline -> k <> Endmarker -> k <> Operator -> k <> Name ->
  good st (w ++ rest) (Got (Some (new_tok (set_index (index st + bytes w) st) (index st) syntax k), set_index (index st + bytes w) st)).
Proof.
  intros P E S0 Nw F N1 N2 N3 N4 N5 N6 N7. apply good_here; cbn; auto; try lia.
  2: { apply line_plain; auto. intros Fs _. split; [exact Fs|right]. cbn. destruct k; congruence || reflexivity. }
  unfold step_facts. cbn. rewrite P, E.
  assert (K : is_newline k = false) by (destruct k; congruence || reflexivity).
  assert (K2 : is_end (mk_tok (index st) (index st + bytes w - index st) k syntax) = false) by (destruct k; congruence || reflexivity).
  unfold new_tok. cbn. rewrite K, K2. refine (conj eq_refl (conj eq_refl (conj _ (conj _ (conj _ (conj _ (conj S0 (conj _ (conj _ _))))))))); try discriminate; try lia.
  - destruct k; cbn; congruence || reflexivity.
  - congruence.
  - congruence.
  - congruence.
Qed.

Lemma dedent_cases st ind : stack_ok (indents st) ->
  (dedent_if_necessary st ind = Got (None, st) /\ hd 0 (indents st) <= ind) \/
  exists k l, dedent_if_necessary st ind = Got (Some (mk_tok (index st) 0 k false), set_indents l st) /\
    (k = Dedent \/ k = ErrorDedent /\ hd 0 l = ind) /\ levels k (indents st) l /\ stack_ok l /\ ind < hd 0 (indents st).
Proof.
  intros S0. unfold dedent_if_necessary. destruct (indents st) as [|last rest] eqn:E; [contradiction|].
  cbn [hd]. destruct (ind <? last) eqn:El; [|left; apply Nat.ltb_ge in El; auto]. apply Nat.ltb_lt in El. right.
  cbn [stack_ok] in S0. destruct rest as [|second rest]; [lia|]. destruct S0 as [Lt S0].
  unfold new_tok. rewrite Nat.sub_diag. destruct (second <? ind) eqn:Es.
  - apply Nat.ltb_lt in Es. exists ErrorDedent, (ind :: second :: rest). split; [reflexivity|]. split; [right; split; reflexivity|].
    split; [exists ind, last, (second :: rest); auto|]. split; [|exact El]. cbn [stack_ok]. cbn [stack_ok] in S0. split; [lia|exact S0].
  - exists Dedent, (second :: rest). split; [reflexivity|]. split; [left; reflexivity|]. split; [exists last; auto|]. auto.
Qed.

Lemma opened_closed st : opened (set_fstack [] (set_parens 0 st)) = 0.
Proof. reflexivity. Qed.
Lemma opened_le st : opened st <= 1.
Proof. unfold opened. destruct (_ && _); lia. Qed.

Section Proofs.
Variables (alphabetic numeric : N -> bool).

(** Before a token that always starts a statement: brackets are closed, perhaps there is a dedent. *)
Lemma break_cases code st pre c : code = pre ++ c -> index st = bytes pre -> stack_ok (indents st) ->
  exists o st', encountered_break_token code st = Got (o, st') /\
    index st' = index st /\ prev_newline st' = prev_newline st /\ ended st' = ended st /\ stack_ok (indents st') /\
    (fstack st' = fstack st \/ fstack st' = []) /\ parens st' = 0 /\
    match o with
    | None => indents st' = indents st
    | Some t => opened st = 1 /\ opened st' = 0 /\ tok_start t = index st /\ tok_len t = 0 /\
        (tok_kind t = Dedent \/ tok_kind t = ErrorDedent) /\ levels (tok_kind t) (indents st) (indents st')
    end.
Proof.
  intros Ec Ei S0. unfold encountered_break_token.
  destruct (negb (parens st =? 0) || _) eqn:Eo.
  2: { apply orb_false_iff in Eo. destruct Eo as [Eo _]. apply negb_false_iff, Nat.eqb_eq in Eo. exists None, st. repeat split; auto. }
  assert (O : opened st = 1).
  { unfold opened. destruct (parens st =? 0); cbn in *; [|reflexivity]. destruct (fstack st); [discriminate|reflexivity]. }
  cbn [index set_fstack set_parens]. rewrite Ei, Ec, take_bytes_app.
  destruct (indentation_before (rev pre) 0) as [ind|].
  2: { eexists None, _. split; [reflexivity|]. cbn. repeat split; auto. }
  destruct (dedent_cases (set_fstack [] (set_parens 0 st)) ind S0) as [[-> _]|(k & l & -> & K & Lv & Sl & _)].
  - eexists None, _. split; [reflexivity|]. cbn. repeat split; auto.
  - eexists (Some _), _. split; [reflexivity|]. cbn. repeat split; auto. destruct K as [K|[K _]]; auto.
Qed.

Definition fgood (st : state) (c : text) (h : handled) : Prop :=
  match h with
  | FNone st' => st' = st
  | FToken t st' => good st c (Got (Some t, st'))
  | FNext st' => exists j, st' = set_fstack (firstn j (fstack st)) st /\ j < length (fstack st)
  end.

Lemma fstring_string st done cs : prev_newline st = false -> ended st = false -> stack_ok (indents st) ->
  match maybe_fstring_string st (bytes done) with
  | Some (t, st') => good st (done ++ cs) (Got (Some t, st'))
  | None => done = []
  end.
Proof.
  intros P E S0. unfold maybe_fstring_string. destruct (0 <? bytes done) eqn:L.
  - apply good_plain; auto; try discriminate; intros ->; discriminate.
  - destruct done as [|c done]; [reflexivity|]. apply Nat.ltb_ge in L. cbn [bytes] in L. pose proof (utf8_len_pos c). lia.
Qed.

Lemma fstring_end st done cs w rest j quote : prev_newline st = false -> ended st = false -> stack_ok (indents st) -> fstack st <> [] ->
  cs = w ++ rest -> fits FStringEnd w -> bytes w = match quote with Single | Double => 1 | _ => 3 end ->
  fgood st (done ++ cs) (end_f_string st (bytes done) j quote).
Proof.
  intros P E S0 Nf Ec F Bw. unfold end_f_string. pose proof (fstring_string st done cs P E S0) as H.
  destruct (maybe_fstring_string st (bytes done)) as [[t st']|]; [exact H|]. subst done. cbn [app fgood]. subst cs. rewrite <- Bw.
  apply good_here; cbn; auto; try lia. 2: { apply line_fstring. exact Nf. } unfold step_facts. cbn. rewrite P, E.
  refine (conj eq_refl (conj eq_refl (conj _ (conj _ (conj _ (conj eq_refl (conj S0 (conj _ (conj _ _))))))))); try discriminate.
  - rewrite firstn_length. lia.
  - intros ->. destruct F as [q [_ [F|F]]]; discriminate.
Qed.

Lemma find_quote_spec short triple is_triple : forall l j j' q, find_quote short triple is_triple j l = Some (j', q) ->
  short q = true \/ triple q = true /\ is_triple = true.
Proof.
  induction l as [|n l IH]; intros j j' q H; cbn in H; [discriminate|].
  destruct (short (f_quote n) || triple (f_quote n) && is_triple) eqn:E.
  - injection H as _ <-. apply orb_true_iff in E. destruct E as [E|E]; [auto|]. apply andb_true_iff in E. auto.
  - eapply IH. exact H.
Qed.

Lemma starts_with_app : forall p t, starts_with p t = true -> exists r, t = p ++ r.
Proof.
  induction p as [|a p IH]; intros t H; [exists t; reflexivity|]. destruct t as [|b t]; [discriminate|].
  cbn in H. apply andb_true_iff in H. destruct H as [E H]. apply N.eqb_eq in E. subst b.
  destruct (IH _ H) as [r ->]. exists r. reflexivity.
Qed.

Lemma find_single_line_lt : forall l j j', find_single_line j l = Some j' -> j' < j + length l.
Proof.
  induction l as [|n l IH]; intros j j' H; cbn in *; [discriminate|].
  destruct (allow_multiline n); [apply IH in H; lia|]. injection H as <-. lia.
Qed.

Lemma fstring_loop_good st tos : prev_newline st = false -> ended st = false -> stack_ok (indents st) -> fstack st <> [] ->
  forall cs skip done, fgood st (done ++ cs) (fstring_loop st tos skip (bytes done) cs).
Proof.
  intros P E S0 Nf. induction cs as [|c r IH]; intros skip done; cbn [fstring_loop]; [reflexivity|].
  assert (Step : forall skip, fgood st (done ++ c :: r) (fstring_loop st tos skip (bytes done + utf8_len c) r)).
  { intros sk. specialize (IH sk (done ++ [c])). rewrite bytes_app in IH. cbn [bytes] in IH. rewrite Nat.add_0_r, <- app_assoc in IH. exact IH. }
  destruct skip as [|skip]; [|apply Step].
  destruct ((c =? 123) || (c =? 125))%N.
  { destruct r as [|next r']; [apply Step|]. destruct (negb (next =? c)%N || in_format_spec tos); [|apply Step].
    pose proof (fstring_string st done (c :: next :: r') P E S0) as H.
    destruct (maybe_fstring_string st (bytes done)) as [[t st']|]; [exact H|reflexivity]. }
  destruct (c =? 34)%N eqn:E34.
  { apply N.eqb_eq in E34. subst c. destruct (find_quote _ _ _ 0 (fstack st)) as [[j q]|] eqn:Eq; [|apply Step].
    apply find_quote_spec in Eq. destruct Eq as [Q|[Q Tr]].
    - apply (fstring_end st done _ [34%N] r); auto. { exists 34%N. split; [right; reflexivity|left; reflexivity]. } destruct q; discriminate || reflexivity.
    - apply starts_with_app in Tr. destruct Tr as [r3 Er]. apply (fstring_end st done _ [34%N; 34%N; 34%N] r3); auto.
      { exists 34%N. split; [right; reflexivity|right; reflexivity]. } destruct q; discriminate || reflexivity. }
  destruct (c =? 39)%N eqn:E39.
  { apply N.eqb_eq in E39. subst c. unfold find_quote_rev. destruct (find_quote _ _ _ 0 (rev (fstack st))) as [[j q]|] eqn:Eq; [|apply Step].
    apply find_quote_spec in Eq. destruct Eq as [Q|[Q Tr]].
    - apply (fstring_end st done _ [39%N] r); auto. { exists 39%N. split; [left; reflexivity|left; reflexivity]. } destruct q; discriminate || reflexivity.
    - apply starts_with_app in Tr. destruct Tr as [r3 Er]. apply (fstring_end st done _ [39%N; 39%N; 39%N] r3); auto.
      { exists 39%N. split; [left; reflexivity|right; reflexivity]. } destruct q; discriminate || reflexivity. }
  destruct (c =? 92)%N.
  { destruct r as [|next r']; [apply Step|].
    destruct (if (next =? 78)%N then find_end UNICODE_CHARACTER_NAME r' else None); apply Step. }
  destruct ((c =? 10) || (c =? 13))%N; [|apply Step].
  destruct (find_single_line 0 (fstack st)) as [j|] eqn:Ej; [|apply Step].
  pose proof (fstring_string st done (c :: r) P E S0) as H.
  destruct (maybe_fstring_string st (bytes done)) as [[t st']|]; [exact H|].
  exists j. split; [reflexivity|]. apply find_single_line_lt in Ej. exact Ej.
Qed.

Lemma set_tos_length n (l : list fnode) : l <> [] -> length (set_tos n l) = length l.
Proof.
  intros H. unfold set_tos. rewrite app_length. cbn [length]. destruct (exists_last H) as (l' & x & ->).
  rewrite removelast_last, app_length. reflexivity.
Qed.
Lemma set_tos_nonempty n (l : list fnode) : exists x r, set_tos n l = x :: r.
Proof. unfold set_tos. destruct (removelast l); cbn; eauto. Qed.

Lemma handle_good code st tos pre c : code = pre ++ c -> index st = bytes pre -> prev_newline st = false -> ended st = false ->
  stack_ok (indents st) -> fstack st <> [] ->
  exists h, handle_fstring_stack code st tos = Got h /\ fgood st c h.
Proof.
  intros Ec Ei P E S0 Nf. unfold handle_fstring_stack. rewrite Ei, Ec, drop_bytes_app.
  destruct (in_expr tos).
  - destruct c as [|character c']; [eexists; split; reflexivity|].
    destruct ((character =? 58)%N && (f_level tos - f_specs tos =? 1)) eqn:E58; [|eexists; split; reflexivity].
    apply andb_true_iff in E58. destruct E58 as [E58 _]. apply N.eqb_eq in E58. subst character.
    eexists. split; [reflexivity|]. rewrite <- Ei. cbn [fgood]. change (58%N :: c') with ([58%N] ++ c').
    apply good_here.
    + reflexivity.
    + unfold new_tok. cbn [tok_len index set_index set_fstack bytes]. change (utf8_len 58) with 1. lia.
    + exact (OPERATOR_spec _ (proj1 (find_sound OPERATOR [58%N] [58%N] eq_refl))).
    + cbn [index set_index bytes]. change (utf8_len 58) with 1. lia.
    + unfold step_facts. cbn. rewrite P, E.
      refine (conj eq_refl (conj eq_refl (conj _ (conj _ (conj _ (conj eq_refl (conj S0 (conj _ (conj _ _))))))))); try discriminate.
      rewrite set_tos_length by assumption. lia.
    + apply line_fstring. exact Nf.
  - eexists. split; [reflexivity|]. apply (fstring_loop_good st tos P E S0 Nf c 0 []).
Qed.

Lemma brackets_facts character st :
  index (brackets character st) = index st /\ prev_newline (brackets character st) = prev_newline st /\
  ended (brackets character st) = ended st /\ indents (brackets character st) = indents st /\
  length (fstack (brackets character st)) = length (fstack st).
Proof.
  unfold brackets. destruct (mem character [40%N; 91%N; 123%N]).
  - destruct (fstack st) as [|n r] eqn:Ef; cbn; rewrite ?Ef; auto.
    refine (conj eq_refl (conj eq_refl (conj eq_refl (conj eq_refl _)))). apply (set_tos_length _ (n :: r)). discriminate.
  - destruct (mem character [41%N; 93%N; 125%N]); [|auto].
    destruct (fstack st) as [|n r] eqn:Ef; cbn; rewrite ?Ef; auto.
    refine (conj eq_refl (conj eq_refl (conj eq_refl (conj eq_refl _)))). apply (set_tos_length _ (n :: r)). discriminate.
Qed.

Lemma brackets_lines character st : fstack st = [] -> fstack (brackets character st) = [] /\
  parens (brackets character st) = if mem character [40%N; 91%N; 123%N] then S (parens st) else if mem character [41%N; 93%N; 125%N] then pred (parens st) else parens st.
Proof. intros Fs. unfold brackets. rewrite Fs. destruct (mem character [40%N; 91%N; 123%N]), (mem character [41%N; 93%N; 125%N]); auto. Qed.

Lemma operator_depth character m d : In (character :: m) operators -> let d0 := if (character =? 59)%N then 0 else d in
  (if mem character [40%N; 91%N; 123%N] then S d0 else if mem character [41%N; 93%N; 125%N] then pred d0 else d0) = depth_after Operator (character :: m) d.
Proof.
  intros H.
  assert (A : forallb (fun w => match w with c :: m =>
      (Bool.eqb (mem c [40%N; 91%N; 123%N]) (one_of [[40%N]; [91%N]; [123%N]] w)) && (Bool.eqb (mem c [41%N; 93%N; 125%N]) (one_of [[41%N]; [93%N]; [125%N]] w))
      && (Bool.eqb (c =? 59)%N (one_of [[59%N]] w)) | [] => false end) operators = true) by (vm_compute; reflexivity).
  rewrite forallb_forall in A. apply A in H. apply andb_true_iff in H. destruct H as [H H3]. apply andb_true_iff in H. destruct H as [H1 H2].
  apply Bool.eqb_prop in H1, H2, H3. unfold depth_after. rewrite <- H1, <- H2, <- H3. cbv zeta.
  destruct (character =? 59)%N eqn:E; [|reflexivity]. apply N.eqb_eq in E. subst character. reflexivity.
Qed.

Lemma words_same name : existsb (text_eqb name) ALWAYS_BREAK_NAMES = one_of (map text_of statement_words) name.
Proof.
  apply Bool.eq_iff_eq_true. unfold one_of. rewrite !existsb_exists.
  assert (A : forallb (one_of (map text_of statement_words)) ALWAYS_BREAK_NAMES = true) by (vm_compute; reflexivity).
  assert (B : forallb (one_of ALWAYS_BREAK_NAMES) (map text_of statement_words) = true) by (vm_compute; reflexivity).
  rewrite forallb_forall in A, B. split; intros [x [Hx E]]; unfold text_eqb in *; destruct (list_eq_dec N.eq_dec name x) as [->|]; try discriminate.
  - apply A in Hx. apply existsb_exists in Hx. exact Hx.
  - apply B in Hx. apply existsb_exists in Hx. exact Hx.
Qed.

(** A token that may change the brackets and f-strings. *)
Lemma good_mark st w rest k syntax st' :
  prev_newline st = false -> ended st = false -> stack_ok (indents st) -> w <> [] -> fits k w ->
  k <> Indent -> k <> Dedent -> k <> ErrorDedent -> k <> Newline -> k <> Endmarker ->
  index st' = index st + bytes w -> prev_newline st' = false -> ended st' = false -> indents st' = indents st ->
  length (fstack st') <= S (length (fstack st)) ->
  (fstack st = [] -> k <> FStringStart -> fstack st' = [] /\ parens st' = depth_after k w (parens st)) ->
  good st (w ++ rest) (Got (Some (new_tok st' (index st) syntax k), st')).
Proof.
  intros P E S0 Nw F N1 N2 N3 N4 N5 Ei P' E' Ind Lf Ll. apply good_here; auto; unfold new_tok; cbn [tok_start tok_len tok_kind]; auto; try lia.
  2: { apply line_plain; auto. intros Fs Kf. destruct (Ll Fs Kf). auto. }
  assert (K : is_newline k = false) by (destruct k; congruence || reflexivity).
  assert (K2 : is_end (mk_tok (index st) (index st' - index st) k syntax) = false) by (destruct k; congruence || reflexivity).
  unfold step_facts. cbn [tok_kind]. rewrite K, K2, P', E', Ind.
  assert (Lw : 1 <= length w) by (destruct w; [congruence|cbn; lia]).
  refine (conj eq_refl (conj eq_refl (conj _ (conj _ (conj _ (conj _ (conj S0 (conj _ (conj _ _))))))))); try discriminate; try lia.
  - destruct k; cbn; congruence || reflexivity.
  - congruence.
  - congruence.
  - congruence.
Qed.

Lemma break_then st c st1 o code pre (r : state -> run (option token * state)) (b : bool) : code = pre ++ c -> index st = bytes pre ->
  prev_newline st = false -> ended st = false -> stack_ok (indents st) ->
  (if b then encountered_break_token code st else Got (None, st)) = Got (o, st1) ->
  (o = None -> index st1 = index st -> prev_newline st1 = false -> ended st1 = false -> indents st1 = indents st ->
    length (fstack st1) <= length (fstack st) -> parens st1 = (if b then 0 else parens st) -> good st c (r st1)) ->
  good st c (match o with Some t => Got (Some t, st1) | None => r st1 end).
Proof.
  intros Ec Ei P E S0 H K. destruct b.
  2: { injection H as <- <-. apply K; auto. }
  destruct (break_cases code st pre c Ec Ei S0) as (o' & st' & Eq & I1 & P1 & E1 & S1 & F1 & Z1 & M).
  rewrite Eq in H. injection H as <- <-. destruct o' as [t|].
  - destruct M as (O & O' & Ts & Tl & Tk & Lv). refine (good_here st [] c t st' Ts Tl _ _ _ _).
    + destruct Tk as [-> | ->]; reflexivity.
    + cbn. lia.
    + unfold step_facts. rewrite P1, E1, P, E, O, O'.
      assert (Le : length (fstack st') <= length (fstack st) + length (@nil N)) by (destruct F1 as [-> | ->]; cbn; lia).
      unfold is_end. destruct Tk as [Tk|Tk]; rewrite Tk in *; cbn;
        refine (conj eq_refl (conj eq_refl (conj _ (conj _ (conj Le (conj Lv (conj S1 (conj _ (conj _ _))))))))); auto; discriminate.
    + intros Fs. assert (Np : parens st <> 0) by (intros Z; unfold opened in O; rewrite Fs, Z in O; discriminate).
      refine (conj _ (conj _ (conj _ _))).
      * congruence.
      * destruct Tk as [-> | ->]; discriminate.
      * congruence.
      * intros _. split; [destruct F1 as [-> | ->]; auto|]. right. rewrite Z1. destruct Tk as [-> | ->]; reflexivity.
  - apply K; auto; try congruence. destruct F1 as [-> | ->]; cbn; lia.
Qed.

Definition again_ok (code : text) (fuel : nat) (again : state -> run (option token * state)) : Prop :=
  forall st pre c, code = pre ++ c -> index st = bytes pre -> prev_newline st = false -> ended st = false -> stack_ok (indents st) ->
    length c + length (fstack st) < fuel -> good st c (again st).

Lemma name_from_app : forall cs first, exists r, cs = name_from alphabetic numeric first cs ++ r.
Proof.
  induction cs as [|c cs IH]; intros first; [exists []; reflexivity|]. cbn [name_from].
  destruct (_ || _); [|exists (c :: cs); reflexivity]. destruct (IH false) as [r Er]. exists r. cbn. f_equal. exact Er.
Qed.

Lemma newline_lang w : lang NEWLINE w -> line_end w.
Proof.
  intros L. unfold NEWLINE, one, Opt in L. unfold line_end.
  inversion L as [| | |a b x L1|a b x L1| |]; subst.
  - inversion L1 as [| |a b x y La Lb| | | |]; subst.
    inversion La as [|p c Hc| | | | |]; subst. apply N.eqb_eq in Hc. subst c.
    inversion Lb as [| | |a b x L2|a b x L2| |]; subst.
    + inversion L2 as [|p c Hc| | | | |]; subst. apply N.eqb_eq in Hc. subst c. auto.
    + inversion L2; subst. auto.
  - inversion L1 as [|p c Hc| | | | |]; subst. apply N.eqb_eq in Hc. subst c. auto.
Qed.

Lemma next_token_good code fuel again st pre c : code = pre ++ c -> index st = bytes pre ->
  prev_newline st = false -> ended st = false -> stack_ok (indents st) ->
  again_ok code fuel again -> length c + length (fstack st) <= fuel ->
  good st c (next_token alphabetic numeric code again st c).
Proof.
  intros Ec Ei P E S0 Ag Fu. unfold next_token.
  destruct (find NUMBER c) as [m|] eqn:F1.
  { pose proof (find_nonempty NUMBER c m eq_refl F1) as Nm. apply find_sound in F1. destruct F1 as [L [rest ->]]. apply NUMBER_spec in L.
    apply good_plain; auto; discriminate. }
  destruct (find OPERATOR c) as [m|] eqn:F2.
  { pose proof (find_nonempty OPERATOR c m eq_refl F2) as Nm. apply find_sound in F2. destruct F2 as [L [rest Em]]. apply OPERATOR_spec in L.
    destruct c as [|character c']. { destruct m; [congruence|discriminate]. }
    set (o := if (character =? 59)%N then encountered_break_token code st else Got (None, st)).
    assert (Ho : exists o1 st1, o = Got (o1, st1)).
    { unfold o. destruct (character =? 59)%N; [|eauto]. destruct (break_cases code st pre _ Ec Ei S0) as (o' & st' & Eq & _). eauto. }
    destruct Ho as (o1 & st1 & Ho). rewrite Ho.
    enough (G : good st (character :: c') (match o1 with Some t => Got (Some t, st1) | None =>
      (fun st1 => Got (Some (new_tok (brackets character (set_index (index st1 + bytes m) st1)) (index st) true Operator),
           brackets character (set_index (index st1 + bytes m) st1))) st1 end)) by (destruct o1; exact G).
    apply (break_then st _ st1 o1 code pre (fun st1 => Got (Some (new_tok (brackets character (set_index (index st1 + bytes m) st1)) (index st) true Operator),
           brackets character (set_index (index st1 + bytes m) st1))) (character =? 59)%N Ec Ei P E S0 Ho).
    intros -> I1 P1 E1 Ind1 L1 Z1. rewrite Em.
    destruct (brackets_facts character (set_index (index st1 + bytes m) st1)) as (B1 & B2 & B3 & B4 & B5).
    apply good_mark; auto; try discriminate.
    - rewrite B1. cbn. congruence.
    - rewrite B2. exact P1.
    - rewrite B3. exact E1.
    - rewrite B4. exact Ind1.
    - rewrite B5. cbn. lia.
    - intros Fs _. assert (Fs1 : fstack st1 = []) by (rewrite Fs in L1; destruct (fstack st1); [reflexivity|cbn in L1; lia]).
      destruct (brackets_lines character (set_index (index st1 + bytes m) st1) Fs1) as [X Y]. split; [exact X|]. rewrite Y. cbn [parens set_index].
      destruct m as [|c0 m']; [congruence|]. cbn [app] in Em. injection Em as <- Em. rewrite Z1. exact (operator_depth character m' (parens st) L). }
  destruct (find STRING c) as [m|] eqn:F3.
  { pose proof (find_nonempty STRING c m eq_refl F3) as Nm. apply find_sound in F3. destruct F3 as [L [rest ->]]. apply STRING_spec in L.
    destruct (unterminated m); apply good_plain; auto; first [discriminate|right; exact L]. }
  destruct (find BYTES c) as [m|] eqn:F4.
  { pose proof (find_nonempty BYTES c m eq_refl F4) as Nm. apply find_sound in F4. destruct F4 as [L [rest ->]]. apply BYTES_spec in L.
    destruct (unterminated m); apply good_plain; auto; first [discriminate|right; exact L]. }
  destruct (find F_STRING_START c) as [m|] eqn:F5.
  { pose proof (find_nonempty F_STRING_START c m eq_refl F5) as Nm. apply find_sound in F5. destruct F5 as [L [rest ->]]. apply F_STRING_START_spec in L.
    apply good_mark; auto; try discriminate; [cbn; rewrite app_length; cbn; lia|]. intros _ H. congruence. }
  destruct (name_from_app c true) as [rest Em]. destruct (name_from alphabetic numeric true c) as [|c1 name'] eqn:F6.
  2: { remember (c1 :: name') as name eqn:En.
    set (b := existsb (text_eqb name) ALWAYS_BREAK_NAMES).
    assert (Ho : exists o1 st1, (if b then encountered_break_token code st else Got (None, st)) = Got (o1, st1)).
    { destruct b; [|eauto]. destruct (break_cases code st pre _ Ec Ei S0) as (o' & st' & Eq & _). eauto. }
    destruct Ho as (o1 & st1 & Ho). rewrite Ho.
    enough (G : good st c (match o1 with Some t => Got (Some t, st1) | None =>
      (fun st1 => Got (Some (new_tok (set_index (index st1 + bytes name) st1) (index st) true Name), set_index (index st1 + bytes name) st1)) st1 end)) by (destruct o1; exact G).
    apply (break_then st _ st1 o1 code pre (fun st1 => Got (Some (new_tok (set_index (index st1 + bytes name) st1) (index st) true Name), set_index (index st1 + bytes name) st1)) b Ec Ei P E S0 Ho).
    intros -> I1 P1 E1 Ind1 L1 Z1. rewrite Em. assert (Nn : name <> []) by (subst name; discriminate).
    apply good_mark; auto; try discriminate; cbn [index set_index prev_newline ended indents fstack]; auto; try lia.
    intros Fs _. split; [rewrite Fs in L1; destruct (fstack st1); [reflexivity|cbn in L1; lia]|].
    cbn [parens set_index depth_after]. rewrite Z1. unfold b. rewrite words_same. reflexivity. }
  destruct (find NEWLINE c) as [m|] eqn:F7.
  { pose proof (find_nonempty NEWLINE c m eq_refl F7) as Nm. apply find_sound in F7. destruct F7 as [L [rest' ->]].
    apply newline_lang in L.
    destruct ((parens st =? 0) && _) eqn:Eo.
    - apply good_here; unfold new_tok; cbn; auto; try lia.
      2: { apply andb_true_iff in Eo. destruct Eo as [Eo _]. apply Nat.eqb_eq in Eo. intros Fs. cbn.
           refine (conj (fun _ => inline_nothing _) (conj (fun _ => Eo) (conj _ (fun _ => conj Fs (or_intror eq_refl))))). intros _ [K|K]; discriminate. }
      unfold step_facts. cbn. rewrite E.
      refine (conj eq_refl (conj eq_refl (conj _ (conj _ (conj _ (conj eq_refl (conj S0 (conj _ (conj _ _))))))))); try discriminate; try lia.
      + intros _. unfold opened. cbn. rewrite Eo. reflexivity.
      + intros ->. congruence.
    - assert (B : between m rest').
      { destruct L as [-> | [-> | ->]]; repeat (apply between_newline; [unfold newline; auto|]); constructor. }
      apply good_shift; [exact B| |].
      { intros P0 Fs. rewrite P0, Fs in Eo. discriminate. }
      apply (Ag _ (pre ++ m) rest'); cbn; auto.
      + rewrite <- app_assoc. exact Ec.
      + rewrite bytes_app. lia.
      + rewrite app_length in Fu. assert (1 <= length m) by (destruct m; [congruence|cbn; lia]). lia. }
  destruct c as [|character c'].
  - destruct (indents st) as [|x l] eqn:Ind; [contradiction|]. destruct l as [|y l].
    + cbn [stack_ok] in S0. subst x. apply (good_here st [] []); unfold new_tok; cbn; auto; try lia.
      2: { apply line_plain; cbn; try discriminate. auto. }
      unfold step_facts. cbn. rewrite P, Ind. 
      refine (conj eq_refl (conj eq_refl (conj _ (conj _ (conj _ (conj eq_refl (conj eq_refl (conj _ (conj _ _))))))))); try discriminate; auto; try lia.
    + apply (good_here st [] []); unfold new_tok; cbn [tl]; cbn [tok_start tok_len tok_kind index set_indents bytes]; auto; try lia; try reflexivity.
      2: { intros Fs. refine (conj (fun _ => inline_nothing _) (conj _ (conj (fun _ _ => eq_refl) (fun _ => conj Fs (or_introl eq_refl))))). discriminate. }
      unfold step_facts. cbn [tok_kind prev_newline ended indents fstack set_indents is_end is_newline]. rewrite P, E, Ind.
      destruct S0 as [_ S0].
      refine (conj eq_refl (conj eq_refl (conj _ (conj _ (conj _ (conj _ (conj S0 (conj _ (conj _ _))))))))); try discriminate; try (cbn; lia).
      * exists x. reflexivity.
      * intros _. unfold opened. cbn. lia.
  - change (character :: c') with ([character] ++ c').
    replace (index st + utf8_len character) with (index st + bytes [character]) by (cbn; lia).
    apply good_plain; auto; first [discriminate|left; exists character; reflexivity].
Qed.

Lemma app_split (a b c d : text) : a ++ b = c ++ d -> bytes a <= bytes c -> exists z, b = z ++ d /\ c = a ++ z.
Proof.
  revert c. induction a as [|x a IH]; intros c H L; [exists c; auto|].
  destruct c as [|y c].
  - cbn [bytes] in L. pose proof (utf8_len_pos x). lia.
  - cbn in H. injection H as <- H. cbn [bytes] in L. destruct (IH c H ltac:(lia)) as (z & -> & ->). exists z. auto.
Qed.

Lemma next_main_good code fuel again st pre c : code = pre ++ c -> index st = bytes pre ->
  prev_newline st = false -> ended st = false -> stack_ok (indents st) ->
  again_ok code fuel again -> length c + length (fstack st) <= fuel ->
  good st c (next_main alphabetic numeric code again st).
Proof.
  intros Ec Ei P E S0 Ag Fu. unfold next_main. rewrite Ei, Ec, drop_bytes_app, P.
  destruct (skip_whitespace false false 0 0 c) as [ind n] eqn:Sk.
  pose proof Sk as Sk2. apply (skip_inline (length c) c (le_n _)) in Sk2. destruct Sk2 as (s2 & rest2 & Es2 & En2 & B2).
  apply (skip_between (length c) c (le_n _)) in Sk. destruct Sk as (s & rest & Es & -> & B). cbn [Nat.add between_from inline_from] in *.
  assert (Q : s2 = s /\ rest2 = rest).
  { destruct (app_split s rest s2 rest2) as (z & Ez & Ez2); [congruence|lia|]. assert (bytes z = 0) by (subst s2; rewrite bytes_app in *; lia).
    destruct z as [|z1 z]; [|cbn [bytes] in *; pose proof (utf8_len_pos z1); lia]. rewrite app_nil_r in Ez2. auto. }
  destruct Q as [-> ->].
  cbn [index set_index prev_newline]. rewrite P, <- bytes_app. subst c. rewrite app_assoc, drop_bytes_app. rewrite bytes_app, <- Ei.
  apply good_shift; [exact B|intros _ _; exact B2|]. rewrite <- (app_assoc pre s rest), <- Ec. apply (next_token_good code fuel _ _ (pre ++ s)); auto.
  - rewrite <- app_assoc. exact Ec.
  - cbn. rewrite bytes_app. lia.
  - cbn. rewrite app_length in Fu. lia.
Qed.

Lemma next_good code : forall fuel, again_ok code fuel (next alphabetic numeric fuel code).
Proof.
  induction fuel as [|fuel IH]; intros st pre c Ec Ei P E S0 Fu; [lia|]. cbn [next]. rewrite E.
  destruct (fstack st) as [|n r] eqn:Ef.
  - apply (next_main_good code fuel _ _ pre); auto. rewrite Ef. cbn in *. lia.
  - destruct (handle_good code st (List.last r n) pre c Ec Ei P E S0) as (h & -> & G); [congruence|].
    destruct h as [st'|t st'|st']; cbn [fgood] in G.
    + subst st'. apply (next_main_good code fuel _ _ pre); auto. rewrite Ef. cbn in *. lia.
    + exact G.
    + destruct G as (j & -> & Lj).
      assert (G : good (set_fstack (firstn j (fstack st)) st) c (next alphabetic numeric fuel code (set_fstack (firstn j (fstack st)) st))).
      { apply (IH _ pre); auto. cbn [fstack set_fstack]. rewrite firstn_length. rewrite Ef in *. cbn in *. lia. }
      destruct G as (g & w & rest & t & st' & -> & G). exists g, w, rest, t, st'. split; [reflexivity|].
      destruct G as (-> & Bg & Es & El & F & Ei' & Sf & _). cbn [index set_fstack] in Es, Ei'.
      do 6 (split; [first [reflexivity|assumption]|]). split; [|apply line_fstring_gap; congruence].
      destruct Sf as (A1 & A2 & A3 & A4 & A5 & A6 & A7 & A8 & A9 & A10). cbn [fstack set_fstack indents] in *.
      assert (O : opened st = 1) by (unfold opened; rewrite Ef; destruct (parens st =? 0); reflexivity).
      pose proof (opened_le (set_fstack (firstn j (fstack st)) st)) as Ole.
      unfold step_facts. rewrite O. rewrite firstn_length in A5.
      refine (conj A1 (conj A2 (conj A3 (conj A4 (conj _ (conj A6 (conj A7 (conj _ (conj _ A10))))))))).
      * lia.
      * intros H. specialize (A8 H). lia.
      * intros H. specialize (A9 H). lia.
Qed.

(** ** The start of a line *)

Lemma skip_ind_le : forall len cs, length cs <= len -> forall prev wc ind n ind' n',
  skip_whitespace prev wc ind n cs = (ind', n') -> ind' + n <= ind + n'.
Proof.
  induction len as [|len IH]; intros cs L prev wc ind n ind' n' H.
  - destruct cs; [|cbn in L; lia]. injection H as <- <-. lia.
  - destruct cs as [|c r]; [injection H as <- <-; lia|]. cbn [length] in L. apply le_S_n in L. cbn [skip_whitespace] in H.
    pose proof (utf8_len_pos c) as U.
    destruct ((c =? 10) || (c =? 13))%N.
    { destruct prev; [apply (IH r L) in H; lia|injection H as <- <-; lia]. }
    destruct wc; [apply (IH r L) in H; lia|].
    destruct ((c =? 32) || (c =? 9) || (c =? 12))%N; [apply (IH r L) in H; destruct prev; lia|].
    destruct (c =? 35)%N; [apply (IH r L) in H; lia|].
    destruct (c =? 92)%N; [|injection H as <- <-; lia].
    assert (Go : forall k r', length r' <= len -> n <= k -> (ind, snd (skip_whitespace prev false 0 k r')) = (ind', n') -> ind' + n <= ind + n').
    { intros k r' Lr Lk [= <- <-]. destruct (skip_whitespace prev false 0 k r') as [i2 n2] eqn:E2. apply (IH r' Lr) in E2. cbn. lia. }
    destruct r as [|d r']; [injection H as <- <-; lia|]. cbn [length] in L.
    destruct (d =? 13)%N.
    { destruct r' as [|d2 r2]; [apply (Go (n + 2) []); auto; cbn; lia|]. cbn [length] in L.
      destruct (d2 =? 10)%N; [apply (Go (n + 3) r2); auto; lia|apply (Go (n + 2) (d2 :: r2)); auto; cbn; lia]. }
    destruct (d =? 10)%N; [apply (Go (n + 2) r'); auto; lia|injection H as <- <-; lia].
Qed.

Lemma opened_zero st : opened st = 0 -> parens st = 0 /\ fstack st = [].
Proof.
  unfold opened. destruct (parens st =? 0) eqn:E; cbn; [|discriminate]. apply Nat.eqb_eq in E.
  destruct (fstack st); [auto|discriminate].
Qed.

(** The first token of a line: an ordinary token, an indent or a dedent. *)
Lemma next_line code fuel st pre c ind n : code = pre ++ c -> index st = bytes pre ->
  prev_newline st = true -> ended st = false -> stack_ok (indents st) -> opened st = 0 -> length c <= fuel ->
  skip_whitespace true false 0 0 c = (ind, n) ->
  exists s rest, c = s ++ rest /\ n = bytes s /\ between s rest /\
  let st1 := set_index (index st + n) st in
  let r := next alphabetic numeric (S fuel) code st in
  good (set_prev false st1) rest r \/
  (rest <> [] /\ hd 0 (indents st) < ind /\
   r = Got (Some (mk_tok (index st + n) 0 Indent false), set_prev false (set_indents (ind :: indents st) st1))) \/
  (rest <> [] /\ ind < hd 0 (indents st) /\ exists k l,
   r = Got (Some (mk_tok (index st + n) 0 k false), set_index (index st + n - ind) (set_indents l st1)) /\
   (k = Dedent \/ k = ErrorDedent /\ hd 0 l = ind) /\ levels k (indents st) l /\ stack_ok l).
Proof.
  intros Ec Ei P E S0 O Fu Sk. destruct (opened_zero st O) as [Op Of].
  pose proof (skip_ind_le _ c (le_n _) _ _ _ _ _ _ Sk) as Le. pose proof Sk as Sk0.
  apply (skip_between (length c) c (le_n _)) in Sk. destruct Sk as (s & rest & Es & En & B). cbn [Nat.add between_from] in *.
  exists s, rest. split; [exact Es|]. split; [exact En|]. split; [exact B|]. cbn zeta.
  cbn [next]. rewrite E, Of. unfold next_main. rewrite Ei, Ec, drop_bytes_app, P, Sk0.
  cbn [index set_index prev_newline]. rewrite P, Es, En, app_assoc, <- bytes_app, drop_bytes_app.
  rewrite <- app_assoc, <- Es, <- Ec. rewrite bytes_app, <- Ei, <- En.
  assert (G : good (set_prev false (set_index (index st + n) st)) rest
     (next_token alphabetic numeric code (next alphabetic numeric fuel code) (set_prev false (set_index (index st + n) st)) rest)).
  { apply (next_token_good code fuel _ _ (pre ++ s)); auto.
    - rewrite <- app_assoc, <- Es. exact Ec.
    - cbn. rewrite bytes_app. lia.
    - apply next_good.
    - cbn. rewrite Of. subst c. rewrite app_length in Fu. cbn. lia. }
  destruct rest as [|character rest']; [left; exact G|].
  destruct (negb (character =? 10)%N && negb (character =? 13)%N && (parens (set_index (index st + n) st) =? 0) && _); [|left; exact G].
  cbn [indents set_index].
  destruct (indents st) as [|last l] eqn:Ind; [contradiction|]. cbn [hd].
  destruct (last <? ind) eqn:El.
  { right. left. apply Nat.ltb_lt in El. split; [discriminate|]. split; [exact El|]. unfold new_tok. cbn. rewrite Nat.sub_diag, ?P, ?E, ?Op, ?Of, ?Ind. reflexivity. }
  assert (S1 : stack_ok (indents (set_index (index st + n) st))) by (cbn; rewrite Ind; exact S0).
  destruct (dedent_cases (set_index (index st + n) st) ind S1) as [[-> _]|(k & l' & -> & K & Lv & Sl & Lt)]; [left; exact G|].
  right. right. cbn [indents set_index] in *. rewrite Ind in *. cbn [hd] in Lt. split; [discriminate|]. split; [exact Lt|].
  exists k, l'. cbn [index set_indents set_index]. assert (Lb : (index st + n <? ind) = false) by (apply Nat.ltb_ge; lia). rewrite Lb.
  split; [reflexivity|]. auto.
Qed.

(** ** Every text: the tokenizer stops, and indents and dedents match *)

Definition unsettled (st : state) (c : text) : nat := if fst (skip_whitespace true false 0 0 c) =? hd 0 (indents st) then 0 else 1.
Definition potential (st : state) (c : text) : nat :=
  6 * length c + 2 * length (indents st) + (if prev_newline st then 3 + unsettled st c else 0) + opened st.

Definition valid (code : text) (st : state) (pre c : text) : Prop :=
  code = pre ++ c /\ index st = bytes pre /\ ended st = false /\ stack_ok (indents st) /\
  (prev_newline st = true -> opened st = 0) /\ length (fstack st) <= length pre.

Definition progress (code : text) (st : state) (c : text) (t : token) (st' : state) : Prop :=
  ended st' = is_end t /\ levels (tok_kind t) (indents st) (indents st') /\ stack_ok (indents st') /\
  (is_end t = true -> tok_start t = bytes code /\ tok_len t = 0 /\ indents st' = [0]) /\
  (is_end t = false -> drop_bytes code (index st') = None \/ exists pre' c', valid code st' pre' c' /\ potential st' c' < potential st c).

Lemma unsettled_le st c : unsettled st c <= 1.
Proof. unfold unsettled. destruct (_ =? _); lia. Qed.

Lemma levels_length k l l' : levels k l l' -> length l' = match k with Indent => S (length l) | Dedent => pred (length l) | _ => length l end.
Proof.
  destruct k; cbn; intros H; subst; auto.
  - destruct H as [i ->]. reflexivity.
  - destruct H as [x ->]. reflexivity.
  - destruct H as (i & x & r & -> & ->). reflexivity.
Qed.

Lemma fits_nonempty k w : fits k w -> w = [] -> k = Indent \/ k = Dedent \/ k = ErrorDedent \/ k = Endmarker.
Proof.
  destruct k; cbn [fits]; intros F ->; auto; try congruence; exfalso.
  all: try exact (number_nonempty F).
  all: try exact (literal_nonempty _ F).
  all: try (destruct F as [F|[F|F]]; discriminate).
  all: try (destruct F as [p [q [_ [_ [F|F]]]]]; destruct p; discriminate).
  all: try (destruct F as [q [_ [F|F]]]; discriminate).
  all: try (destruct F as [[c F]|[p [q [_ [_ F]]]]]; [discriminate|destruct p; discriminate]).
  assert (A : listed operators [] = false) by (vm_compute; reflexivity). unfold listed in A. apply Bool.not_true_iff_false in A. apply A.
  apply existsb_exists. exists []. split; [exact F|reflexivity].
Qed.

(** A token in the middle of a line. *)
Lemma good_progress code st pre c r : valid code st pre c -> prev_newline st = false -> good st c r ->
  exists t st', r = Got (Some t, st') /\ progress code st c t st'.
Proof.
  intros (Ec & Ei & E & S0 & Po & Lf) P (g & w & rest & t & st' & -> & -> & Bg & Es & El & F & Ei' & Sf & Lines).
  destruct Sf as (A1 & A2 & A3 & A4 & A5 & A6 & A7 & A8 & A9 & A10).
  exists t, st'. split; [reflexivity|]. split; [exact A2|]. split; [exact A6|]. split; [exact A7|]. split.
  - intros H. destruct (A4 H) as [-> Hi]. unfold is_end in H. destruct (tok_kind t) eqn:K; try discriminate. cbn in F. subst w.
    rewrite Es, El, Ei, Ec, !app_nil_r, bytes_app. auto.
  - intros H. right. exists (pre ++ g ++ w), rest. split.
    + split; [rewrite Ec, <- !app_assoc; reflexivity|]. split; [rewrite Ei', Ei, !bytes_app; lia|].
      split; [congruence|]. split; [exact A7|]. split; [exact A3|]. rewrite !app_length. lia.
    + unfold potential. rewrite P, A1, (levels_length _ _ _ A6), !app_length. pose proof (unsettled_le st' rest) as U. pose proof (opened_le st') as O'.
      destruct w as [|w1 w'].
      * destruct (fits_nonempty _ _ F eq_refl) as [K|[K|[K|K]]]; rewrite K in *.
        -- congruence.
        -- destruct A6 as [x A6]. rewrite A6. cbn. specialize (A8 eq_refl). lia.
        -- cbn. specialize (A9 eq_refl). lia.
        -- unfold is_end in H. rewrite K in H. discriminate.
      * cbn [length]. destruct (tok_kind t) eqn:K; cbn [is_newline] in *; try (cbn; lia).
Qed.

Lemma next_progress code st pre c : valid code st pre c ->
  exists t st', next alphabetic numeric (S (length code)) code st = Got (Some t, st') /\ progress code st c t st'.
Proof.
  intros V. pose proof V as (Ec & Ei & E & S0 & Po & Lf).
  destruct (prev_newline st) eqn:P.
  2: { apply (good_progress code st pre c _ V P). apply (next_good code _ _ pre); auto. subst code. rewrite app_length. lia. }
  specialize (Po eq_refl). destruct (opened_zero st Po) as [Op Of].
  destruct (skip_whitespace true false 0 0 c) as [ind n] eqn:Sk.
  pose proof (skip_ind_le _ c (le_n _) _ _ _ _ _ _ Sk) as Le.
  assert (Fu : length c <= length code) by (subst code; rewrite app_length; lia).
  destruct (next_line code (length code) st pre c ind n Ec Ei P E S0 Po Fu Sk) as (s & rest & Es & En & B & H). cbn zeta in H.
  assert (Lc : length rest <= length c) by (subst c; rewrite app_length; lia).
  assert (V1 : valid code (set_prev false (set_index (index st + n) st)) (pre ++ s) rest).
  { split; [rewrite <- app_assoc, <- Es; exact Ec|]. split; [cbn; rewrite bytes_app; lia|]. split; [exact E|]. split; [exact S0|].
    split; [discriminate|]. cbn. rewrite Of. cbn. lia. }
  destruct H as [G|[(Nr & Lt & R)|(Nr & Lt & k & l & R & K & Lv & Sl)]].
  - destruct (good_progress _ _ _ _ _ V1 eq_refl G) as (t & st' & R & A1 & A2 & A3 & A4 & A5).
    exists t, st'. split; [exact R|]. split; [exact A1|]. split; [exact A2|]. split; [exact A3|]. split; [exact A4|].
    intros H. destruct (A5 H) as [Nn|(pre' & c' & V' & Lp)]; [left; exact Nn|right]. exists pre', c'. split; [exact V'|].
    refine (Nat.lt_le_trans _ _ _ Lp _). unfold potential. change (opened (set_prev false (set_index (index st + n) st))) with (opened st).
    cbn [prev_newline set_prev indents set_index]. destruct (prev_newline st); lia.
  - eexists _, _. split; [exact R|]. split; [exact E|]. split; [exists ind; reflexivity|]. split.
    { cbn [indents set_prev set_indents]. cbn [stack_ok]. destruct (indents st) as [|x y] eqn:Ind; [contradiction|]. cbn in Lt. auto. }
    split; [discriminate|]. intros _. right. exists (pre ++ s), rest. split.
    { destruct V1 as (W1 & W2 & W3 & W4 & W5 & W6). split; [exact W1|]. split; [exact W2|]. split; [exact E|]. split; [|split; [discriminate|exact W6]].
      cbn [indents set_prev set_indents stack_ok]. destruct (indents st) as [|x y] eqn:Ind; [contradiction|]. cbn in Lt. auto. }
    unfold potential. cbn [prev_newline set_prev indents set_index set_indents length]. rewrite P.
    change (opened _) with (opened st) at 1. lia.
  - eexists _, _. split; [exact R|]. split. { cbn [ended set_index set_indents]. rewrite E. destruct K as [-> |[-> _]]; reflexivity. }
    split; [exact Lv|]. split; [exact Sl|]. split. { intros H. destruct K as [-> |[-> _]]; discriminate H. }
    intros _. cbn [index set_index].
    destruct (drop_bytes code (index st + n - ind)) as [c'|] eqn:Ed; [right|left; reflexivity].
    apply drop_bytes_inv in Ed. destruct Ed as (pre' & Ec' & Ep').
    destruct (app_split pre c pre' c') as (z & Ez & Epz); [congruence|lia|].
    exists pre', c'. split.
    { split; [exact Ec'|]. split; [cbn; lia|]. split; [exact E|]. split; [exact Sl|]. split; [intros _; exact Po|].
      cbn. rewrite Of. cbn. lia. }
    unfold potential. cbn [prev_newline set_index set_indents indents]. rewrite P.
    replace (opened (set_index (index st + n - ind) (set_indents l (set_index (index st + n) st)))) with (opened st) by reflexivity.
    assert (U : unsettled st c = 1).
    { unfold unsettled. rewrite Sk. cbn [fst]. replace (ind =? hd 0 (indents st)) with false; [reflexivity|]. symmetry. apply Nat.eqb_neq. lia. }
    rewrite U, (levels_length _ _ _ Lv).
    match goal with |- context [unsettled ?s c'] => set (s' := s); pose proof (unsettled_le s' c') as U' end.
    assert (Lz : length c = length z + length c') by (subst c; rewrite Ez, app_length; reflexivity).
    destruct K as [-> |[-> Hl]].
    + destruct Lv as [x Lv]. rewrite Lv. cbn [length pred]. lia.
    + destruct z as [|z1 z]; [|cbn [length] in Lz; lia]. cbn [app] in Ez. rewrite <- Ez.
      assert (U2 : unsettled s' c = 0). { unfold unsettled. rewrite Sk. cbn [fst]. unfold s'. cbn [indents set_index set_indents]. rewrite Hl, Nat.eqb_refl. reflexivity. }
      rewrite U2. lia.
Qed.

Lemma count_cons p t ts : count p (t :: ts) = (if p t then 1 else 0) + count p ts.
Proof. unfold count. cbn. destruct (p t); reflexivity. Qed.

(** From a state with [d] open blocks. *)
Definition closes (d : nat) (ts : list token) : Prop :=
  count is_indent ts + d = count is_dedent ts /\ forall p q, ts = p ++ q -> count is_dedent p <= count is_indent p + d.

Lemma closes_cons k d d' t ts : tok_kind t = k -> d' = (match k with Indent => S d | Dedent => pred d | _ => d end) ->
  (k = Dedent -> d <> 0) -> closes d' ts -> closes d (t :: ts).
Proof.
  intros K -> Nd [C1 C2]. unfold closes.
  assert (Ki : is_indent t = match k with Indent => true | _ => false end) by (unfold is_indent; rewrite K; reflexivity).
  assert (Kd : is_dedent t = match k with Dedent => true | _ => false end) by (unfold is_dedent; rewrite K; reflexivity).
  split.
  - rewrite !count_cons, Ki, Kd. destruct k; cbn in *; try lia. specialize (Nd eq_refl). lia.
  - intros p q H. destruct p as [|t' p]; [cbn; lia|]. cbn in H. injection H as <- H. specialize (C2 p q H).
    rewrite !count_cons, Ki, Kd. destruct k; cbn in *; try lia. specialize (Nd eq_refl). lia.
Qed.

Definition finished (code : text) (ts : list token) : Prop := ends_once (bytes code) ts.

Lemma tokens_from_ended fuel code st : ended st = true -> 0 < fuel -> tokens_from alphabetic numeric fuel code st = Got [].
Proof. intros E L. destruct fuel; [lia|]. cbn [tokens_from]. cbn [next]. rewrite E. reflexivity. Qed.

Lemma potential_pos code st pre c : valid code st pre c -> 2 <= potential st c.
Proof. intros (_ & _ & _ & S0 & _). unfold potential. destruct (indents st); [contradiction|]. cbn [length]. lia. Qed.

Lemma tokens_total code : forall fuel st, ended st = false ->
  (drop_bytes code (index st) = None /\ 1 <= fuel \/ exists pre c, valid code st pre c /\ potential st c <= fuel) ->
  tokens_from alphabetic numeric fuel code st = Undefined \/
  exists ts, tokens_from alphabetic numeric fuel code st = Got ts /\ closes (pred (length (indents st))) ts /\ finished code ts.
Proof.
  induction fuel as [|fuel IH]; intros st E H.
  { exfalso. destruct H as [[_ H]|(pre & c & V & Lp)]; [lia|]. pose proof (potential_pos _ _ _ _ V). lia. }
  cbn [tokens_from]. destruct H as [[Nn _]|(pre & c & V & Lp)].
  { left. replace (next alphabetic numeric (S (length code)) code st) with (@Undefined (option token * state)); [reflexivity|].
    cbn [next]. rewrite E. destruct (fstack st) as [|n r]; [unfold next_main|unfold handle_fstring_stack]; rewrite Nn; reflexivity. }
  destruct (next_progress code st pre c V) as (t & st' & -> & A1 & A2 & A3 & A4 & A5).
  pose proof V as (_ & _ & _ & S0 & _ & _). pose proof (potential_pos _ _ _ _ V) as Pos.
  assert (D : pred (length (indents st')) = match tok_kind t with Indent => S (pred (length (indents st))) | Dedent => pred (pred (length (indents st))) | _ => pred (length (indents st)) end).
  { rewrite (levels_length _ _ _ A2). destruct (indents st); [contradiction|]. destruct (tok_kind t); reflexivity. }
  assert (Nd : tok_kind t = Dedent -> pred (length (indents st)) <> 0).
  { intros K. rewrite K in A2. destruct A2 as [x ->]. cbn. destruct (indents st'); [contradiction|discriminate]. }
  destruct (is_end t) eqn:Et.
  - right. rewrite (tokens_from_ended fuel code st' A1) by lia. exists [t]. split; [reflexivity|].
    destruct (A4 eq_refl) as (T1 & T2 & T3). split.
    + apply (closes_cons (tok_kind t) _ (pred (length (indents st'))) t []); auto. rewrite T3. cbn. unfold closes. cbn. split; [reflexivity|].
      intros p q Hp. symmetry in Hp. apply app_eq_nil in Hp. destruct Hp as [-> _]. cbn. lia.
    + unfold is_end in Et. destruct t as [ts tl tk tsy]. cbn in *. destruct tk; try discriminate. subst. exists [], tsy. auto.
  - assert (Nx : drop_bytes code (index st') = None /\ 1 <= fuel \/ exists pre c, valid code st' pre c /\ potential st' c <= fuel).
    { destruct (A5 eq_refl) as [Nn|(pre' & c' & V' & L')]; [left; split; [exact Nn|lia]|right]. exists pre', c'. split; [exact V'|]. lia. }
    destruct (IH st' A1 Nx) as [R|(ts & R & C & Fi)]; rewrite R; [left; reflexivity|right].
    exists (t :: ts). split; [reflexivity|]. split.
    + apply (closes_cons (tok_kind t) _ (pred (length (indents st'))) t ts); auto.
    + destruct Fi as (l & s & -> & Ce). exists (t :: l), s. split; [reflexivity|]. rewrite count_cons, Et, Ce. reflexivity.
Qed.

Lemma start_valid code : valid code start_state [] code.
Proof. repeat split; auto; cbn; lia. Qed.

Lemma start_potential code : potential start_state code <= 6 * length code + 6.
Proof. unfold potential. pose proof (unsettled_le start_state code). cbn -[Nat.mul]. lia. Qed.

Theorem tokenize_total code : tokenize alphabetic numeric code = Undefined \/
  exists ts, tokenize alphabetic numeric code = Got ts /\ balanced ts /\ ends_once (bytes code) ts.
Proof.
  destruct (tokens_total code (6 * length code + 6) start_state eq_refl) as [H|(ts & R & [C1 C2] & F)].
  - right. exists [], code. split; [apply start_valid|apply start_potential].
  - left. exact H.
  - right. exists ts. split; [exact R|]. split; [|exact F]. cbn [length indents start_state pred] in *.
    split; [lia|]. intros p q H. specialize (C2 p q H). lia.
Qed.

(** ** The tokens are in order, when no line with a continuation begins with white space *)

(** [b] is white space that is still to be passed over, and the last token was after it. *)
Definition placed (code : text) (st : state) (pre b rest : text) : Prop :=
  code = pre ++ b ++ rest /\ index st = bytes pre /\ Forall blank b /\
  (b <> [] -> prev_newline st = true) /\
  (prev_newline st = true -> line_start pre /\ (b = [] \/ stops rest) \/ b = [] /\ stops rest).

Lemma line_start_after pre s1 : line_start pre -> line_after false s1 -> line_start (pre ++ s1).
Proof.
  intros L [[-> _]|(a & c & -> & H)]; [rewrite app_nil_r; exact L|]. right. exists (pre ++ a), c. rewrite app_assoc. auto.
Qed.

Lemma scan code pre b rest ind n : ~ indented_continuation code -> code = pre ++ b ++ rest -> Forall blank b ->
  line_start pre /\ (b = [] \/ stops rest) \/ b = [] /\ stops rest ->
  skip_whitespace true false 0 0 (b ++ rest) = (ind, n) ->
  exists g rest2, rest = g ++ rest2 /\ n = bytes b + bytes g /\ between g rest2 /\
    (rest2 = [] \/ exists pre' b', pre ++ b ++ g = pre' ++ b' /\ Forall blank b' /\ length b' = ind /\ stops rest2 /\ (line_start pre' \/ b' = [])).
Proof.
  intros NC Ec Fb H Sk.
  assert (Stop : stops rest -> line_start pre \/ b = [] -> exists g rest2, rest = g ++ rest2 /\ n = bytes b + bytes g /\ between g rest2 /\
    (rest2 = [] \/ exists pre' b', pre ++ b ++ g = pre' ++ b' /\ Forall blank b' /\ length b' = ind /\ stops rest2 /\ (line_start pre' \/ b' = []))).
  { intros St L. rewrite (skip_blanks b rest 0 0 Fb St) in Sk. injection Sk as <- <-. exists [], rest.
    split; [reflexivity|]. split; [cbn; lia|]. split; [constructor|]. right. exists pre, b. rewrite app_nil_r. auto. }
  destruct H as [[L [-> |St]]|[-> St]]; [|apply Stop; auto|apply Stop; auto].
  cbn [app] in *. pose proof Sk as Sk2. apply (skip_between _ rest (le_n _)) in Sk2. destruct Sk2 as (g & rest2 & Er & En & B).
  apply (skip_line _ rest (le_n _) false []) in Sk; [|constructor|discriminate]. destruct Sk as (g' & rest2' & Er' & En' & Sk).
  assert (Eg : g' = g /\ rest2' = rest2).
  { destruct (app_split g rest2 g' rest2') as (z & Ez & Ez2); [congruence|lia|]. assert (bytes z = 0) by (subst g'; rewrite bytes_app in *; lia).
    destruct z as [|z1 z]; [|cbn [bytes] in *; pose proof (utf8_len_pos z1); lia]. rewrite app_nil_r in Ez2. auto. }
  destruct Eg as [-> ->]. exists g, rest2. split; [exact Er|]. split; [cbn; lia|]. split; [exact B|].
  destruct Sk as [Sk|[(St & s1 & b & E & Fb' & Lb & La)|(St & s1 & b & c & d & E & Nc & Fb' & Lb & La)]].
  - left. exact Sk.
  - right. exists (pre ++ s1), b. cbn [app] in E. rewrite Er, app_assoc in E. apply app_inv_tail in E. subst g.
    split; [rewrite <- app_assoc; reflexivity|]. repeat (split; [assumption|]). left. apply line_start_after; assumption.
  - right. destruct b as [|b1 b].
    + exists (pre ++ g), []. rewrite app_nil_r. repeat (split; [auto|]). auto.
    + exfalso. apply NC. exists (pre ++ s1), (b1 :: b), c, d. split.
      * rewrite Ec, <- app_assoc. cbn [app] in E. rewrite E. reflexivity.
      * split; [apply line_start_after; assumption|]. split; [discriminate|]. auto.
Qed.

Lemma line_end_start pre w : line_end w -> line_start (pre ++ w).
Proof.
  intros [-> | [-> | ->]]; right.
  - exists pre, 10%N. split; [reflexivity|left; reflexivity].
  - exists pre, 13%N. split; [reflexivity|right; reflexivity].
  - exists (pre ++ [13%N]), 10%N. rewrite <- app_assoc. split; [reflexivity|left; reflexivity].
Qed.

Lemma good_placed code st pre c t st' r : code = pre ++ c -> index st = bytes pre -> good st c r -> r = Got (Some t, st') ->
  exists g w rest, c = g ++ w ++ rest /\ between g (w ++ rest) /\ tok_start t = bytes pre + bytes g /\ tok_len t = bytes w /\
    fits (tok_kind t) w /\ (is_end t = true -> rest = []) /\ placed code st' (pre ++ g ++ w) [] rest /\
    prev_newline st' = is_newline (tok_kind t) /\ line_facts st t g w rest st'.
Proof.
  intros Ec Ei (g & w & rest & t2 & st2 & -> & -> & Bg & Es & El & F & Ei' & Sf & Lines) [= -> ->].
  destruct Sf as (A1 & A2 & A3 & A4 & A5 & A6 & A7 & A8 & A9 & A10).
  exists g, w, rest. split; [reflexivity|]. split; [exact Bg|]. split; [lia|]. split; [exact El|]. split; [exact F|].
  split. { intros H. exact (proj1 (A4 H)). }
  refine ((fun X Y => conj X (conj A1 Y)) _ Lines).
  split; [rewrite Ec, <- !app_assoc; reflexivity|]. split; [rewrite !bytes_app; lia|]. split; [constructor|]. split; [congruence|].
  intros P. left. split; [|left; reflexivity]. rewrite A1 in P. destruct (tok_kind t) eqn:K; try discriminate.
  rewrite app_assoc. apply line_end_start. exact F.
Qed.

(** What a token does to the lines *)
Definition moved (st : state) (t : token) (g w rest : text) (st' : state) : Prop :=
  fstack st = [] ->
  (prev_newline st = false -> parens st = 0 -> inline g (w ++ rest)) /\
  (tok_kind t = Newline -> parens st = 0 /\ prev_newline st = false) /\
  (tok_kind t <> FStringStart -> fstack st' = [] /\
    (rest = [] \/ parens st' = depth_after (tok_kind t) w (parens st) /\ prev_newline st' = fresh_after (tok_kind t) (prev_newline st))).

Lemma stops_nonblank c r : stops (c :: r) -> ~ newline c /\ ~ blank c /\ c <> 35%N /\ (c = 92%N -> forall d r', r = d :: r' -> ~ newline d).
Proof.
  intros St. specialize (St 0 0). cbn [skip_whitespace] in St.
  assert (G : forall wc i n l, 1 <= n -> snd (skip_whitespace true wc i n l) <> 0).
  { intros wc i n l Hn. destruct (skip_whitespace true wc i n l) as [x y] eqn:E. apply (skip_between _ l (le_n _)) in E. destruct E as (z1 & z2 & _ & -> & _). cbn. lia. }
  pose proof (utf8_len_pos c) as U.
  assert (G2 : forall wc i l, skip_whitespace true wc i (0 + utf8_len c) l <> (0, 0)).
  { intros wc i l H. apply (G wc i (0 + utf8_len c) l); [lia|]. rewrite H. reflexivity. }
  refine (conj _ (conj _ (conj _ _))).
  - intros H. apply newline_dec in H. rewrite H in St. exact (G2 _ _ _ St).
  - intros H. assert (N0 : ((c =? 10) || (c =? 13))%N = false) by (destruct H as [-> | [-> | ->]]; reflexivity).
    apply blank_dec in H. rewrite N0, H in St. exact (G2 _ _ _ St).
  - intros ->. exact (G2 _ _ _ St).
  - intros -> d r' -> [-> | ->]; cbn in St.
    + injection St as St. exact (G false 0 2 r' ltac:(lia) St).
    + destruct r' as [|e r'']; [discriminate|]. destruct (e =? 10)%N.
      * injection St as St. exact (G false 0 3 r'' ltac:(lia) St).
      * injection St as St. exact (G false 0 2 (e :: r'') ltac:(lia) St).
Qed.

Lemma stops_newline g w rest : stops (g ++ w ++ rest) -> inline g (w ++ rest) -> line_end w -> False.
Proof.
  intros St H L. remember (w ++ rest) as wr eqn:Ew. destruct H as [r|c g r Hc H|body g r Hb He H|e g r He H].
  - cbn [app] in St. subst r. destruct L as [-> | [-> | ->]]; cbn [app] in St; apply stops_nonblank in St; destruct St as [St _]; apply St; unfold newline; auto.
  - cbn [app] in St. apply stops_nonblank in St. destruct St as (_ & St & _). exact (St Hc).
  - cbn [app] in St. apply stops_nonblank in St. destruct St as (_ & _ & St & _). congruence.
  - destruct He as [-> | [-> | ->]]; cbn [app] in St; apply stops_nonblank in St; destruct St as (_ & _ & _ & St); eapply (St eq_refl); [reflexivity| | reflexivity| |reflexivity|]; unfold newline; auto.
Qed.

Lemma next_placed code st pre0 c pre b rest t st' : ~ indented_continuation code -> valid code st pre0 c -> placed code st pre b rest ->
  next alphabetic numeric (S (length code)) code st = Got (Some t, st') ->
  exists g w rest', rest = g ++ w ++ rest' /\ between g (w ++ rest') /\ tok_start t = bytes (pre ++ b) + bytes g /\ tok_len t = bytes w /\
    fits (tok_kind t) w /\ (is_end t = true -> rest' = []) /\
    (exists pre' b', placed code st' pre' b' rest' /\ bytes (pre' ++ b') = bytes (pre ++ b) + bytes g + bytes w) /\
    moved st t g w rest' st'.
Proof.
  intros NC (Ec0 & Ei0 & E & S0 & Po & Lf) (Ec & Ei & Fb & Pb & Pl) R.
  assert (Epre : pre0 = pre /\ c = b ++ rest).
  { destruct (app_split pre0 c pre (b ++ rest)) as (z & -> & ->); [congruence|lia|]. rewrite bytes_app in Ei.
    destruct z as [|z1 z]; [rewrite app_nil_r; auto|]. cbn [bytes] in Ei. pose proof (utf8_len_pos z1). lia. }
  destruct Epre as [-> ->]. destruct (prev_newline st) eqn:P.
  2: { assert (b = []) by (destruct b; [reflexivity|]; discriminate (Pb ltac:(discriminate))). subst b. cbn [app] in *.
    destruct (good_placed code st pre rest t st' _ Ec Ei (next_good code (S (length code)) st pre rest Ec Ei P E S0
       ltac:(rewrite Ec, app_length; lia)) R) as (g & w & rest' & A1 & A2 & A3 & A4 & A5 & A6 & A7 & A8 & A9).
    exists g, w, rest'. rewrite app_nil_r. do 6 (split; [assumption|]). split.
    - exists (pre ++ g ++ w), []. split; [exact A7|]. rewrite app_nil_r, !bytes_app. lia.
    - intros Fs. destruct (A9 Fs) as (L1 & L2 & L3 & L4). rewrite P, A8. refine (conj (fun _ => L1) (conj (fun K => conj (L2 K) eq_refl) _)).
      intros K. destruct (L4 K) as [X [Y|Y]]; [auto|]. split; [exact X|]. right. split; [exact Y|]. destruct (tok_kind t); reflexivity. }
  specialize (Po eq_refl). specialize (Pl eq_refl).
  destruct (skip_whitespace true false 0 0 (b ++ rest)) as [ind n] eqn:Sk.
  assert (Fu : length (b ++ rest) <= length code) by (rewrite Ec, (app_length pre); lia).
  destruct (next_line code (length code) st pre (b ++ rest) ind n Ec Ei P E S0 Po Fu Sk) as (s & rest2 & Es & En & B & H).
  destruct (scan code pre b rest ind n NC Ec Fb Pl Sk) as (g & rest2' & Er & En' & Bg & Land).
  assert (Eg : s = b ++ g /\ rest2' = rest2).
  { destruct (app_split s rest2 (b ++ g) rest2') as (z & Ez & Ez2); [rewrite <- Es, Er, app_assoc; reflexivity|rewrite bytes_app; lia|].
    assert (bytes z = 0) by (apply (f_equal bytes) in Ez2; rewrite !bytes_app in Ez2; lia).
    destruct z as [|z1 z]; [rewrite app_nil_r in Ez2; auto|]. cbn [bytes] in *. pose proof (utf8_len_pos z1). lia. }
  destruct Eg as [-> ->]. rewrite bytes_app in En. cbn zeta in H.
  assert (Ec2 : code = (pre ++ b ++ g) ++ rest2) by (rewrite Ec, Er, <- !app_assoc; reflexivity).
  destruct H as [G|[(Nr & Lt & R2)|(Nr & Lt & k & l & R2 & K & Lv & Sl)]].
  - destruct (good_placed code (set_prev false (set_index (index st + n) st)) (pre ++ b ++ g) rest2 t st' _ Ec2
      ltac:(cbn; rewrite !bytes_app; lia) G R) as (g2 & w & rest' & A1 & A2 & A3 & A4 & A5 & A6 & A7 & A8 & A9).
    exists (g ++ g2), w, rest'. split; [rewrite Er, A1, <- app_assoc; reflexivity|]. split; [apply between_app; [rewrite <- A1; exact Bg|exact A2]|].
    split; [rewrite A3, !bytes_app; lia|]. split; [exact A4|]. split; [exact A5|]. split; [exact A6|].
    split; [exists ((pre ++ b ++ g) ++ g2 ++ w), []; split; [exact A7|]; rewrite app_nil_r, !bytes_app; lia|].
    intros Fs. destruct (A9 Fs) as (L1 & L2 & L3 & L4). cbn [parens set_prev set_index] in *. rewrite P, A8.
    assert (P0 : parens st = 0) by (apply opened_zero; exact Po). specialize (L1 P0). specialize (L3 P0).
    refine (conj _ (conj _ _)).
    + discriminate.
    + intros K. exfalso. rewrite K in A5. destruct Land as [Land|(pre' & b' & Ep & Fb' & Lb' & St & Ls)].
      * rewrite Land in A1. symmetry in A1. apply app_eq_nil in A1. destruct A1 as [_ A1]. apply app_eq_nil in A1. destruct A1 as [-> _].
        destruct A5 as [A5|[A5|A5]]; discriminate.
      * rewrite A1 in St. exact (stops_newline g2 w rest' St L1 A5).
    + intros K. destruct (L4 K) as [X [Y|Y]]; [auto|]. split; [exact X|].
      destruct (tok_kind t) eqn:Kt; try (right; split; [exact Y|reflexivity]); left; apply L3; auto.
  - rewrite R in R2. injection R2 as -> ->. exists g, [], rest2. cbn [app bytes tok_start tok_len tok_kind fits]. rewrite !bytes_app.
    split; [exact Er|]. split; [exact Bg|]. split; [lia|]. split; [reflexivity|]. split; [reflexivity|]. split; [discriminate|].
    split.
    + exists (pre ++ b ++ g), []. split; [|rewrite app_nil_r, !bytes_app; lia].
      split; [exact Ec2|]. split; [cbn; rewrite !bytes_app; lia|]. split; [constructor|]. split; [congruence|]. discriminate.
    + intros Fs. cbn. rewrite P. refine (conj _ (conj _ _)); try discriminate. intros _. split; [exact Fs|]. right. auto.
  - rewrite R in R2. injection R2 as -> ->. exists g, [], rest2. cbn [app bytes tok_start tok_len tok_kind fits]. rewrite !bytes_app.
    split; [exact Er|]. split; [exact Bg|]. split; [lia|]. split; [reflexivity|]. split; [destruct K as [-> |[-> _]]; reflexivity|].
    split; [destruct K as [-> |[-> _]]; discriminate|].
    destruct Land as [Land|(pre' & b' & Ep & Fb' & Lb' & St & Ls)]; [contradiction|].
    split.
    2: { intros Fs. cbn. rewrite P. refine (conj _ (conj _ _)).
         - discriminate.
         - intros K'. exfalso. destruct K as [-> |[-> _]]; discriminate.
         - intros _. split; [exact Fs|]. right. destruct (opened_zero st Po) as [P0 _]. rewrite P0. destruct K as [-> |[-> _]]; auto. }
    exists pre', b'. split.
    + split; [rewrite Ec2, Ep, <- app_assoc; reflexivity|]. split.
      { cbn. apply (f_equal bytes) in Ep. rewrite !bytes_app in Ep. rewrite (bytes_blank b' Fb') in Ep. lia. }
      split; [exact Fb'|]. split; [intros _; exact P|]. intros _. destruct Ls as [Ls| ->]; [left|right]; auto.
    + apply (f_equal bytes) in Ep. rewrite !bytes_app in Ep. rewrite bytes_app. lia.
Qed.

Lemma laid_out_lines : forall at_ rest ts, laid_out at_ rest ts -> rest = [] -> forall fresh d, lines fresh d [] ts.
Proof.
  intros at_ rest ts H. induction H as [a|a g w rest t ts Bg Es El F L IH]; intros E fresh d; [constructor|].
  apply app_eq_nil in E. destruct E as [-> E]. apply app_eq_nil in E. destruct E as [-> ->].
  change (@nil N) with (@nil N ++ [] ++ []). apply lines_token; auto.
  - destruct fresh; [constructor|]. destruct (d =? 0); constructor.
  - intros K. rewrite K in F. destruct F as [F|[F|F]]; discriminate.
Qed.

Lemma tokens_placed code : ~ indented_continuation code -> forall fuel st pre0 c pre b rest,
  valid code st pre0 c -> potential st c <= fuel -> placed code st pre b rest ->
  exists ts, tokens_from alphabetic numeric fuel code st = Got ts /\ laid_out (bytes (pre ++ b)) rest ts /\
    (fstack st = [] -> lines (prev_newline st) (parens st) rest ts).
Proof.
  intros NC. induction fuel as [|fuel IH]; intros st pre0 c pre b rest V Lp Pl; pose proof (potential_pos _ _ _ _ V) as Pos; [lia|].
  cbn [tokens_from]. destruct (next_progress code st pre0 c V) as (t & st' & R & A1 & A2 & A3 & A4 & A5). rewrite R.
  destruct (next_placed code st pre0 c pre b rest t st' NC V Pl R) as (g & w & rest' & -> & Bg & Ts & Tl & F & Et & (pre' & b' & Pl' & Eb) & Mv).
  assert (Go : forall ts, laid_out (bytes (pre ++ b) + bytes g + bytes w) rest' ts -> (fstack st' = [] -> lines (prev_newline st') (parens st') rest' ts) ->
    laid_out (bytes (pre ++ b)) (g ++ w ++ rest') (t :: ts) /\ (fstack st = [] -> lines (prev_newline st) (parens st) (g ++ w ++ rest') (t :: ts))).
  { intros ts La Li. split; [apply laid_token; auto|]. intros Fs. destruct (Mv Fs) as (M1 & M2 & M3). apply lines_token; auto.
    - destruct (prev_newline st); [exact Bg|]. destruct (Nat.eqb_spec (parens st) 0) as [P0|_]; [exact (M1 eq_refl P0)|exact Bg].
    - assert (D : tok_kind t = FStringStart \/ tok_kind t <> FStringStart) by (destruct (tok_kind t); auto; right; discriminate).
      destruct D as [D|D]; [left; exact D|right]. destruct (M3 D) as [X [Y|[Y Z]]].
      + subst rest'. exact (laid_out_lines _ _ _ La eq_refl _ _).
      + rewrite <- Y, <- Z. exact (Li X). }
  destruct (is_end t) eqn:Ie.
  - rewrite (tokens_from_ended fuel code st' A1) by lia. exists [t]. split; [reflexivity|]. apply Go.
    + rewrite (Et eq_refl). constructor.
    + intros _. rewrite (Et eq_refl). constructor.
  - destruct (A5 eq_refl) as [Nn|(pre1 & c1 & V1 & L1)].
    + exfalso. destruct Pl' as (Ec' & Ei' & _). rewrite Ei', Ec', drop_bytes_app in Nn. discriminate.
    + destruct (IH st' pre1 c1 pre' b' rest' V1 ltac:(lia) Pl') as (ts & -> & La & Li). exists (t :: ts). split; [reflexivity|].
      rewrite Eb in La. apply Go; assumption.
Qed.

Theorem tokenize_lines code : ~ indented_continuation code ->
  exists ts, tokenize alphabetic numeric code = Got ts /\ laid_out 0 code ts /\ lines true 0 code ts.
Proof.
  intros NC. destruct (tokens_placed code NC (6 * length code + 6) start_state [] code [] [] code) as (ts & R & La & Li).
  - apply start_valid.
  - apply start_potential.
  - split; [reflexivity|]. split; [reflexivity|]. split; [constructor|]. split; [congruence|]. intros _. left. split; left; reflexivity.
  - exists ts. split; [exact R|]. split; [exact La|]. exact (Li eq_refl).
Qed.
Theorem tokenize_ordered code : ~ indented_continuation code ->
  exists ts, tokenize alphabetic numeric code = Got ts /\ laid_out 0 code ts.
Proof. intros NC. destruct (tokenize_lines code NC) as (ts & R & La & _). eauto. Qed.
End Proofs.
