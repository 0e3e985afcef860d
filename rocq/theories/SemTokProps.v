(** C08: semantic token responses. *)
From Coq Require Import NArith Arith List Bool Lia.
From Verif Require Import TextModel TextProofs LinesSpec LinesModel LinesProofs LinesProps
  SemTokModel SemTokSpec SemTokProofs.
Import ListNotations.

(** C08: every sorted sequence of tokens is encoded without arithmetic failure and a client decodes exactly
    the tokens pushed (positions, lengths, types and modifiers). *)
Theorem C08_decode_encode ss :
  sorted ss ->
  exists b, pushes new_builder ss = Some b /\ decode 0 0 (data b) = Some (map expected ss).
Proof.
  intros Hs. destruct (pushes_inv ss new_builder [] inv_new Hs) as (b & Hp & (Hd & _)).
  - discriminate.
  - exists b. split; [exact Hp|exact Hd].
Qed.

(** C08 for documents: for names in document order the response is computed, and the decoded positions lead
    back to the first byte of each name. *)
Theorem C08_document t idx enc ts :
  index_for idx t ->
  (forall x, In x ts -> exists suf, t = nt_before x ++ nt_name x ++ suf) ->
  (forall i x y, nth_error ts i = Some x -> nth_error ts (S i) = Some y ->
     bytes (nt_before x) <= bytes (nt_before y)) ->
  exists data ds,
    semantic_tokens_internal enc idx t ts = Ok data /\ decode 0 0 data = Some ds /\
    Forall2 (fun x d =>
      (exists oob, line_column_to_byte idx t (input_of enc (d_line d) (d_char d))
                   = Ok (mk_bpi (bytes (nt_before x)) oob)) /\
      d_len d = token_length x /\ d_type d = nt_type x /\ d_mods d = mods_of (nt_props x)) ts ds.
Proof.
  intros Hidx Hin Hord.
  assert (Hidx' : get_lines idx t = compute_lines t) by exact Hidx.
  (* the sources *)
  assert (Hsrc : forall l b, (forall x, In x l -> exists suf, t = nt_before x ++ nt_name x ++ suf) ->
    exists ss,
      push_all enc idx t b l = or_panic (pushes b ss) /\
      Forall2 (fun x s => to_position enc idx t (bytes (nt_before x)) = Ok (s_line s, s_char s) /\
                s_len s = token_length x /\ s_type s = nt_type x /\ s_props s = nt_props x) l ss).
  { induction l as [|x l IH]; intros b Hl.
    - exists []. split; [reflexivity|constructor].
    - destruct (Hl x (or_introl eq_refl)) as (suf & Ht).
      destruct (to_position_mono t idx enc _ _ _ _ Hidx' Ht Ht (le_n _)) as (l1 & c1 & _ & _ & Hp & _ & _).
      cbn [push_all]. rewrite Hp. cbn [bind].
      destruct (push b l1 c1 (token_length x) (nt_type x) (nt_props x)) as [b'|] eqn:Eb.
      + destruct (IH b' (fun y Hy => Hl y (or_intror Hy))) as (ss & Hpa & Hf).
        exists (mk_src l1 c1 (token_length x) (nt_type x) (nt_props x) :: ss). split.
        * cbn [or_panic bind pushes s_line s_char s_len s_type s_props]. rewrite Eb. exact Hpa.
        * constructor; [repeat split; exact Hp|exact Hf].
      + destruct (IH b (fun y Hy => Hl y (or_intror Hy))) as (ss & Hpa & Hf).
        exists (mk_src l1 c1 (token_length x) (nt_type x) (nt_props x) :: ss). split.
        * cbn [or_panic bind pushes s_line s_char s_len s_type s_props]. rewrite Eb. reflexivity.
        * constructor; [repeat split; exact Hp|exact Hf]. }
  destruct (Hsrc ts new_builder Hin) as (ss & Hpa & Hf).
  assert (Hsorted : sorted ss).
  { clear Hpa Hsrc. revert Hin Hord. induction Hf as [|x s l l' Hx Hf IH]; intros Hin Hord; [constructor|].
    destruct Hf as [|y s' l l' Hy Hf]; [constructor|]. constructor.
    - destruct (Hin x (or_introl eq_refl)) as (suf & Ht).
      destruct (Hin y (or_intror (or_introl eq_refl))) as (suf' & Ht').
      destruct (to_position_mono t idx enc _ _ _ _ Hidx' Ht Ht' (Hord 0 x y eq_refl eq_refl))
        as (l1 & c1 & l2 & c2 & H1 & H2 & Hb).
      destruct Hx as (Hx & _). destruct Hy as (Hy & _).
      rewrite H1 in Hx. injection Hx as <- <-. rewrite H2 in Hy. injection Hy as <- <-. exact Hb.
    - apply IH.
      + intros z Hz. apply Hin. right. exact Hz.
      + intros i a b Ha Hb. exact (Hord (S i) a b Ha Hb). }
  destruct (C08_decode_encode ss Hsorted) as (b & Hb & Hd).
  exists (data b), (map expected ss). split; [|split; [exact Hd|]].
  - unfold semantic_tokens_internal. rewrite Hpa, Hb. reflexivity.
  - clear Hpa Hsrc Hb Hd Hsorted Hord. induction Hf as [|x s l l' Hx Hf IH]; [constructor|].
    cbn [map]. constructor; [|apply IH; intros z Hz; apply Hin; right; exact Hz].
    destruct Hx as (Hx & H1 & H2 & H3). cbn [expected d_line d_char d_len d_type d_mods].
    split; [|split; [exact H1|split; [exact H2|rewrite H3; reflexivity]]].
    destruct (Hin x (or_introl eq_refl)) as (suf & Ht).
    destruct (C01_roundtrip t (nt_before x) _ idx enc Ht Hidx) as (line & col & oob & Hline & Hcol & Hback & _).
    exists oob. unfold to_position in Hx.
    unfold shown_column in Hcol. rewrite Hcol in Hx. cbn [bind] in Hx.
    rewrite Hline in Hx. injection Hx as <- <-. exact Hback.
Qed.

(* "a = b\nc": the names a, b, c *)
Example C08_case :
  let t := [97;32;61;32;98;10;99]%N in
  let p := mk_props true false false false false false false false in
  let ts := [mk_nt [] [97]%N T_VARIABLE p; mk_nt [97;32;61;32]%N [98]%N T_CLASS p;
             mk_nt [97;32;61;32;98;10]%N [99]%N T_FUNCTION p] in
  semantic_tokens_internal U16 None t ts
  = Ok [mk_enc 0 0 1 8 2; mk_enc 0 4 1 2 2; mk_enc 1 0 1 12 2].
Proof. reflexivity. Qed.

(** The length of a token is given in bytes whatever encoding was negotiated, so for UTF-16 (and UTF-32) the
    decoded token does not cover exactly the name. *)
Theorem C08_length_refuted :
  exists t x data d,
    t = nt_before x ++ nt_name x /\
    semantic_tokens_internal U16 None t [x] = Ok data /\ decode 0 0 data = Some [d] /\
    d_len d <> width U16 (nt_name x).
Proof.
  pose (p := mk_props true false false false false false false false).
  exists [233]%N, (mk_nt [] [233]%N T_VARIABLE p). do 2 eexists.
  split; [reflexivity|]. split; [reflexivity|]. split; [reflexivity|]. vm_compute. discriminate.
Qed.

(** It does for ASCII names and for clients that negotiated UTF-8. *)
Theorem C08_length_partial x enc :
  enc = U8 \/ Forall (fun c => (c < 128)%N) (nt_name x) ->
  token_length x = width enc (nt_name x).
Proof.
  intros H. unfold token_length. destruct H as [->|H]; [reflexivity|].
  assert (Hb : bytes (nt_name x) = length (nt_name x)).
  { induction H as [|c l Hc Hl IH]; [reflexivity|]. cbn [bytes length]. rewrite IH.
    unfold utf8_len. apply N.ltb_lt in Hc. rewrite Hc. reflexivity. }
  destruct enc; cbn [width]; [reflexivity| |exact Hb].
  rewrite Hb. symmetry. apply bmp_units16.
  eapply Forall_impl; [|exact H]. intros c Hc. simpl in Hc. lia.
Qed.

Print Assumptions C08_decode_encode.
Print Assumptions C08_document.
Print Assumptions C08_length_refuted.
Print Assumptions C08_length_partial.
