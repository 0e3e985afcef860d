(** Proofs for [dedent_cow] and [clean_docstring]. *)
From Coq Require Import List NArith Arith Bool Lia.
From Verif Require Import TextModel TextProofs PathModel DedentModel DedentSpec.
Import ListNotations.
Open Scope nat_scope.

Lemma split_lines : forall t, lines_of t (split LF t).
Proof.
  induction t as [|c t IH]; [constructor; intros []|]. cbn [split]. destruct (N.eqb_spec c LF) as [->|N].
  - apply (lines_next []); [intros []|exact IH].
  - inversion IH as [l L E|l t' ls L M E1 E2]; subst.
    + constructor. intros [X|X]; [congruence|contradiction].
    + apply (lines_next (c :: l)); [|exact M]. intros [X|X]; [congruence|contradiction].
Qed.

Lemma split_no_lf : forall l, ~ In LF l -> split LF l = [l].
Proof.
  induction l as [|c l IH]; [reflexivity|]. intros H. cbn [split]. destruct (N.eqb_spec c LF) as [->|N]; [exfalso; apply H; left; reflexivity|].
  rewrite IH; [reflexivity|]. intros E. apply H. right. exact E.
Qed.

Lemma split_cons_line : forall l t, ~ In LF l -> split LF (l ++ LF :: t) = l :: split LF t.
Proof.
  induction l as [|c l IH]; intros t H; cbn [app split].
  - rewrite N.eqb_refl. reflexivity.
  - destruct (N.eqb_spec c LF) as [->|N]; [exfalso; apply H; left; reflexivity|].
    rewrite IH; [reflexivity|]. intros E. apply H. right. exact E.
Qed.

Lemma lines_split : forall t ls, lines_of t ls -> split LF t = ls.
Proof.
  intros t ls H. induction H as [l L|l t ls L H IH]; [apply split_no_lf; exact L|]. rewrite split_cons_line by exact L. rewrite IH. reflexivity.
Qed.

Lemma lines_no_lf : forall t ls, lines_of t ls -> Forall (fun l => ~ In LF l) ls.
Proof. intros t ls H. induction H as [l L|l t ls L H IH]; constructor; auto. Qed.

Lemma lines_join : forall t ls, lines_of t ls -> join_lines ls = t.
Proof.
  intros t ls H. induction H as [l L|l t ls L H IH]; [reflexivity|]. cbn [join_lines].
  destruct ls as [|l' r]; [inversion H|]. rewrite IH. reflexivity.
Qed.

Lemma join_lines_of : forall ls, ls <> [] -> Forall (fun l => ~ In LF l) ls -> lines_of (join_lines ls) ls.
Proof.
  induction ls as [|l r IH]; [congruence|]. intros _ H. inversion H as [|? ? L R]; subst. destruct r as [|l' r].
  - constructor. exact L.
  - change (join_lines (l :: l' :: r)) with (l ++ LF :: join_lines (l' :: r)). constructor; [exact L|]. apply IH; [discriminate|exact R].
Qed.

(** ** White space *)

Lemma trim_start_split : forall t, exists w, t = w ++ trim_start t /\ blank white w.
Proof.
  induction t as [|c t [w [E B]]]; [exists []; split; [reflexivity|intros ? []]|]. cbn [trim_start]. destruct (white c) eqn:W.
  - exists (c :: w). split; [cbn; congruence|]. intros x [<-|H]; [exact W|exact (B x H)].
  - exists []. split; [reflexivity|intros ? []].
Qed.

Lemma trim_start_head : forall t c r, trim_start t = c :: r -> white c = false.
Proof.
  induction t as [|x t IH]; intros c r E; [discriminate|]. cbn [trim_start] in E. destruct (white x) eqn:W; [exact (IH c r E)|].
  injection E as -> _. exact W.
Qed.

Lemma trim_start_blank : forall t, blank white t -> trim_start t = [].
Proof.
  induction t as [|c t IH]; intros B; [reflexivity|]. cbn. rewrite (B c (or_introl eq_refl)). apply IH. intros x H. apply B. right. exact H.
Qed.

Lemma trim_start_app : forall w t, blank white w -> trim_start (w ++ t) = trim_start t.
Proof.
  induction w as [|c w IH]; intros t B; [reflexivity|]. cbn. rewrite (B c (or_introl eq_refl)). apply IH. intros x H. apply B. right. exact H.
Qed.

Lemma trim_start_id : forall c r, white c = false -> trim_start (c :: r) = c :: r.
Proof. intros c r W. cbn. rewrite W. reflexivity. Qed.

Lemma blank_dec : forall t, {blank white t} + {exists w c r, t = w ++ c :: r /\ blank white w /\ white c = false}.
Proof.
  induction t as [|c t [B|H]].
  - left. intros x [].
  - destruct (white c) eqn:W; [left; intros x [<-|H]; [exact W|exact (B x H)]|].
    right. exists [], c, t. split; [reflexivity|]. split; [intros x []|exact W].
  - right. destruct (white c) eqn:W.
    + destruct H as (w & d & r & -> & B & D). exists (c :: w), d, r. split; [reflexivity|]. split; [|exact D]. intros x [<-|H]; [exact W|exact (B x H)].
    + exists [], c, t. split; [reflexivity|]. split; [intros x []|exact W].
Qed.

Lemma blank_rev : forall t, blank white t -> blank white (rev t).
Proof. intros t B c H. apply B. apply in_rev. exact H. Qed.

Lemma trim_blank : forall t, trim t = [] <-> blank white t.
Proof.
  intros t. unfold trim. split.
  - intros E. destruct (trim_start_split t) as [w [Et Bw]]. destruct (trim_start t) as [|c r] eqn:T; [rewrite app_nil_r in Et; subst; exact Bw|].
    exfalso. assert (W := trim_start_head _ _ _ T). destruct (trim_start_split (rev (c :: r))) as [w2 [E2 B2]].
    apply (f_equal (@rev N)) in E. rewrite rev_involutive in E. cbn in E, E2. rewrite E, app_nil_r in E2.
    assert (In c w2) by (rewrite <- E2; apply in_or_app; right; left; reflexivity). rewrite (B2 c H) in W. discriminate.
  - intros B. rewrite (trim_start_blank t B). reflexivity.
Qed.

(** The text is white space, the trimmed text and white space. *)
Lemma trim_split : forall t, exists a b, t = a ++ trim t ++ b /\ blank white a /\ blank white b.
Proof.
  intros t. unfold trim. destruct (trim_start_split t) as [a [E A]]. destruct (trim_start_split (rev (trim_start t))) as [b [F B]].
  exists a, (rev b). split; [|split; [exact A|apply blank_rev; exact B]].
  rewrite <- rev_app_distr, <- F, rev_involutive. exact E.
Qed.

Lemma trim_head : forall t c r, trim t = c :: r -> white c = false.
Proof.
  intros t c r E. unfold trim in E. destruct (trim_start_split (rev (trim_start t))) as [b [F B]].
  apply (f_equal (@rev N)) in F. rewrite rev_involutive, rev_app_distr, E in F. cbn in F.
  destruct (trim_start t) as [|x y] eqn:T; [discriminate|]. injection F as <- _. exact (trim_start_head _ _ _ T).
Qed.

Lemma trim_last : forall t r c, trim t = r ++ [c] -> white c = false.
Proof.
  intros t r c E. unfold trim in E. apply (f_equal (@rev N)) in E. rewrite rev_involutive, rev_app_distr in E. cbn in E.
  exact (trim_start_head _ _ _ E).
Qed.

(** ** The smallest indentation *)

(** The indentation in bytes. *)
Definition indent_of (l : text) : nat := bytes l - bytes (trim_start l).

Lemma indent_split : forall w c r, blank white w -> white c = false -> indent_of (w ++ c :: r) = bytes w.
Proof.
  intros w c r B W. unfold indent_of. rewrite trim_start_app by exact B. rewrite trim_start_id by exact W. rewrite bytes_app. lia.
Qed.

Lemma min_indent_spec : forall ls i,
  match min_indent ls i with
  | None => i = None /\ Forall (blank white) ls
  | Some k => (forall l, In l ls -> blank white l \/ k <= indent_of l) /\ (forall j, i = Some j -> k <= j) /\
              (i = Some k \/ exists l, In l ls /\ ~ blank white l /\ indent_of l = k)
  end.
Proof.
  induction ls as [|l ls IH]; intros i; cbn [min_indent].
  - destruct i as [k|]; [|auto]. split; [intros ? []|]. split; [intros j E; injection E as ->; lia|left; reflexivity].
  - destruct (trim l) as [|c r] eqn:T.
    + apply trim_blank in T. specialize (IH i). destruct (min_indent ls i) as [k|].
      * destruct IH as (A & B & C). split; [intros x [<-|H]; [left; exact T|exact (A x H)]|]. split; [exact B|].
        destruct C as [C|(x & H & X)]; [left; exact C|right; exists x; split; [right; exact H|exact X]].
      * destruct IH as [A B]. split; [exact A|constructor; assumption].
    + assert (NB : ~ blank white l) by (rewrite <- trim_blank, T; discriminate). fold (indent_of l).
      set (j := match i with Some i => Nat.min i (indent_of l) | None => indent_of l end).
      specialize (IH (Some j)). destruct (min_indent ls (Some j)) as [k|]; [|destruct IH; discriminate].
      destruct IH as (A & B & C). specialize (B j eq_refl).
      assert (J : j <= indent_of l) by (unfold j; destruct i; lia).
      split; [intros x [<-|H]; [right; lia|exact (A x H)]|]. split; [intros x ->; unfold j in B; lia|].
      destruct C as [C|(x & H & X)]; [|right; exists x; split; [right; exact H|exact X]].
      injection C as <-. unfold j in *. destruct i as [i|].
      * destruct (Nat.min_spec i (indent_of l)) as [[M ->]|[M ->]]; [left; reflexivity|right; exists l; split; [left; reflexivity|auto]].
      * right. exists l. split; [left; reflexivity|auto].
Qed.

(** ** The lines *)

Lemma cut_spec : forall k l l', blank white l \/ k <= indent_of l -> cut k l = Ok l' -> dedented white k l l'.
Proof.
  intros k l l' H C. unfold cut in C. destruct (Nat.leb_spec k (bytes l)) as [L|L].
  - destruct (slice l k (bytes l)) as [m|] eqn:S; [|discriminate]. injection C as <-. apply slice_inv in S.
    destruct S as (p & q & E & P & Q). assert (q = []).
    { rewrite E in Q. rewrite !bytes_app in Q. apply bytes_0. lia. }
    subst q. rewrite app_nil_r in E. left. exists p. split; [exact E|]. split; [|exact P].
    destruct H as [B|I]; [intros c Hc; apply B; rewrite E; apply in_or_app; left; exact Hc|].
    destruct (trim_start_split l) as [w [F W]]. intros c Hc. apply W.
    assert (Bw : bytes w = indent_of l) by (unfold indent_of; rewrite F at 1; rewrite bytes_app; lia).
    assert (exists x, w = p ++ x) as [x ->]; [|apply in_or_app; left; exact Hc].
    clear - E F Bw I P. rewrite <- Bw, <- P in I. remember (trim_start l) as q. rewrite E in F. clear - F I.
    revert w F I. induction p as [|a p IH]; intros w F I; [exists w; reflexivity|].
    destruct w as [|b w]; [cbn in I; pose proof (utf8_len_pos a); lia|]. cbn in F. injection F as <- F. cbn in I.
    destruct (IH w F) as [x ->]; [lia|]. exists x. reflexivity.
  - injection C as <-. right. split; [reflexivity|]. split; [|exact L]. destruct H as [B|I]; [exact B|]. unfold indent_of in I. lia.
Qed.

Lemma cut_all_spec : forall k ls ls', (forall l, In l ls -> blank white l \/ k <= indent_of l) -> cut_all k ls = Ok ls' ->
  Forall2 (dedented white k) ls ls'.
Proof.
  induction ls as [|l ls IH]; intros ls' H C; cbn [cut_all] in C; [injection C as <-; constructor|].
  destruct (cut k l) as [l'| |] eqn:E; try discriminate. cbn [bind] in C. destruct (cut_all k ls) as [r| |] eqn:F; try discriminate.
  injection C as <-. constructor; [apply cut_spec; [apply H; left; reflexivity|exact E]|]. apply IH; [|reflexivity]. intros x Hx. apply H. right. exact Hx.
Qed.

Lemma dedented_in : forall k l l' c, dedented white k l l' -> In c l' -> In c l.
Proof. intros k l l' c [(w & -> & _)|(-> & _)] H; [apply in_or_app; right; exact H|exact H]. Qed.

Lemma dedented_left : forall k l l', dedented white k l l' -> ~ blank white l -> indent_of l = k -> flush_left white l'.
Proof.
  intros k l l' [(w & E & B & W)|(-> & B & _)] N I; [|contradiction].
  destruct (blank_dec l) as [Y|(v & c & r & F & V & C)]; [contradiction|]. rewrite F in I. rewrite indent_split in I by assumption.
  rewrite F in E. destruct (bytes_prefix_inj v (c :: r) w l' E) as [_ <-]; [lia|]. exists c, r. auto.
Qed.

Lemma min_indent_zero : forall ls, (exists l, In l ls /\ flush_left white l) -> min_indent ls None = Some 0.
Proof.
  intros ls (l & H & c & r & -> & W). assert (S := min_indent_spec ls None). destruct (min_indent ls None) as [k|].
  - destruct S as (A & _). destruct (A _ H) as [B|I].
    + rewrite (B c (or_introl eq_refl)) in W. discriminate.
    + change (c :: r) with ([] ++ c :: r) in I. rewrite indent_split in I by (try exact W; intros x []). cbn in I. f_equal. lia.
  - destruct S as [_ F]. rewrite Forall_forall in F. rewrite (F _ H c (or_introl eq_refl)) in W. discriminate.
Qed.

Lemma cut_zero : forall ls, cut_all 0 ls = Ok ls.
Proof.
  induction ls as [|l ls IH]; [reflexivity|]. cbn [cut_all]. unfold cut. cbn [Nat.leb].
  assert (S : slice l 0 (bytes l) = Some l).
  { unfold slice. cbn. rewrite drop_bytes_0, Nat.sub_0_r. apply take_bytes_all. }
  rewrite S. cbn [or_panic bind]. rewrite IH. reflexivity.
Qed.

(** ** Texts with one-byte indentation *)

Lemma drop_bytes_ascii : forall k t, length (firstn k t) = k -> (forall c, In c (firstn k t) -> (c < 128)%N) -> drop_bytes t k = Some (skipn k t).
Proof.
  induction k as [|k IH]; intros t L A; [apply drop_bytes_0|]. destruct t as [|c t]; [discriminate|]. cbn [firstn skipn] in *.
  rewrite drop_bytes_cons by lia. assert (U : utf8_len c = 1).
  { unfold utf8_len. assert (H := A c (or_introl eq_refl)). apply N.ltb_lt in H. rewrite H. reflexivity. }
  rewrite U. cbn [Nat.leb]. replace (S k - 1) with k by lia. apply IH; [cbn in L; lia|]. intros x H. apply A. right. exact H.
Qed.

Lemma bytes_ascii : forall w, (forall c, In c w -> (c < 128)%N) -> bytes w = length w.
Proof.
  induction w as [|c w IH]; intros A; [reflexivity|]. cbn. rewrite IH by (intros x H; apply A; right; exact H).
  unfold utf8_len. assert (H := A c (or_introl eq_refl)). apply N.ltb_lt in H. rewrite H. reflexivity.
Qed.

Lemma cut_ascii : forall k l, (blank white l \/ k <= indent_of l) ->
  (forall w r, l = w ++ r -> blank white w -> forall c, In c w -> (c < 128)%N) -> exists l', cut k l = Ok l'.
Proof.
  intros k l H A. unfold cut. destruct (Nat.leb_spec k (bytes l)) as [L|L]; [|eexists; reflexivity].
  assert (exists w r, l = w ++ r /\ blank white w /\ k <= bytes w) as (w & r & -> & B & K).
  { destruct H as [B|I]; [exists l, []; rewrite app_nil_r; auto|]. destruct (trim_start_split l) as [w [E W]].
    exists w, (trim_start l). split; [exact E|]. split; [exact W|]. unfold indent_of in I. rewrite E in I at 1. rewrite bytes_app in I. lia. }
  assert (Aw := A w r eq_refl B). rewrite (bytes_ascii w Aw) in K.
  assert (D : drop_bytes (w ++ r) k = Some (skipn k (w ++ r))).
  { apply drop_bytes_ascii; [rewrite firstn_length, app_length; lia|]. intros c Hc. rewrite firstn_app in Hc.
    replace (k - length w) with 0 in Hc by lia. cbn [firstn] in Hc. rewrite app_nil_r in Hc. apply Aw.
    rewrite <- (firstn_skipn k w). apply in_or_app. left. exact Hc. }
  unfold slice. replace (bytes (w ++ r) <? k) with false by (symmetry; apply Nat.ltb_ge; lia). rewrite D.
  destruct (drop_bytes_inv _ _ _ D) as (p & E & P).
  replace (bytes (w ++ r) - k) with (bytes (skipn k (w ++ r))) by (rewrite E at 2; rewrite bytes_app; lia).
  rewrite take_bytes_all. eexists. reflexivity.
Qed.

Lemma cut_all_ascii : forall k ls, (forall l, In l ls -> blank white l \/ k <= indent_of l) ->
  (forall l w r, In l ls -> l = w ++ r -> blank white w -> forall c, In c w -> (c < 128)%N) -> exists ls', cut_all k ls = Ok ls'.
Proof.
  induction ls as [|l ls IH]; intros H A; [eexists; reflexivity|]. cbn [cut_all].
  destruct (cut_ascii k l) as [l' E]; [apply H; left; reflexivity|intros w r; apply A; left; reflexivity|].
  rewrite E. destruct IH as [r F]; [intros x Hx; apply H; right; exact Hx|intros x w r Hx; apply A; right; exact Hx|].
  cbn. rewrite F. eexists. reflexivity.
Qed.

(** ** Trimming *)

Lemma starts_with_app : forall p t, starts_with p (p ++ t) = true.
Proof. induction p as [|a p IH]; intros t; [reflexivity|]. cbn. rewrite N.eqb_refl. apply IH. Qed.

Lemma find_after_white : forall a p t n, blank white a -> (forall c r, p = c :: r -> white c = false) -> p <> [] ->
  find_from p (a ++ p ++ t) n = Some (n + bytes a).
Proof.
  induction a as [|c a IH]; intros p t n B H N.
  - cbn [app bytes]. destruct p as [|x p]; [congruence|]. cbn [find_from app]. rewrite Nat.add_0_r.
    change (x :: p ++ t) with ((x :: p) ++ t). rewrite starts_with_app. reflexivity.
  - destruct p as [|x p]; [congruence|]. assert (E : (x =? c)%N = false).
    { apply N.eqb_neq. intros ->. specialize (H c p eq_refl). rewrite (B c (or_introl eq_refl)) in H. discriminate. }
    cbn [app find_from starts_with]. rewrite E. cbn [andb]. change (x :: p ++ t) with ((x :: p) ++ t). rewrite IH; [|intros y Hy; apply B; right; exact Hy|exact H|exact N].
    cbn [bytes]. f_equal. lia.
Qed.

Lemma trim_in_place_spec : forall s, trim_string_in_place s = Ok (trim s).
Proof.
  intros s. unfold trim_string_in_place. destruct (trim s) as [|c r] eqn:T.
  - destruct s as [|x s]; [reflexivity|]. cbn. reflexivity.
  - destruct (trim_split s) as (a & b & E & A & B). rewrite T in E. rewrite E at 1.
    rewrite find_after_white; [|exact A| |discriminate].
    2:{ intros x y F. injection F as <- _. exact (trim_head _ _ _ T). }
    cbn [or_panic bind Nat.add]. rewrite <- bytes_app. rewrite E at 1. rewrite app_assoc, take_bytes_app. cbn [or_panic bind].
    rewrite drop_bytes_app. reflexivity.
Qed.
