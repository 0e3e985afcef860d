(** Property theorems for positions in documents (C01, C02, C03, C41, C42). *)
From Coq Require Import List NArith Arith Bool Lia.
From Verif Require Import TextModel TextProofs LinesModel LinesSpec LinesProofs.
Import ListNotations.

(** "The index was computed for this text" (either lazily or before). *)
Definition index_for (idx : newline_indices) (t : text) : Prop :=
  get_lines idx t = get_lines None t.

(** The column an API client is shown, in each encoding. *)
Definition shown_column (enc : encoding) (t : text) (p : position_infos) : res nat :=
  match enc with
  | U8 => Ok (utf8_bytes_column p)
  | U16 => utf16_code_units_column t p
  | U32 => code_points_column t p
  end.

(** The line decomposition exists for every text, so the theorems below apply to
    every text. *)
Theorem C01_every_text_has_lines : forall t, exists ls, lines_of t ls.
Proof. exact lines_of_exists. Qed.

(** C01, forward direction: the offset that lies [p] characters into line [l] is
    shown as line [l] and the width of [p]. *)
Theorem C01_offset_to_position :
  forall t ls l s e p q idx enc,
    lines_of t ls -> nth_error ls l = Some (s, e) -> s ++ e = p ++ q ->
    (q <> [] \/ e = []) -> index_for idx t ->
    let pos := position_infos_of idx t (line_start ls l + bytes p) in
    pi_line pos = l /\ shown_column enc t pos = Ok (width enc p).
Proof.
  intros t ls l s e p q idx enc Hl Hn Hs Hq Hidx pos.
  unfold pos. rewrite (position_line _ _ _ _ _ _ _ Hl Hn Hs Hq _ Hidx).
  split; [reflexivity|].
  pose proof (position_line_part _ _ _ _ _ _ _ Hl Hn Hs) as Hp.
  destruct enc; unfold shown_column, utf8_bytes_column, utf16_code_units_column, code_points_column.
  - simpl. f_equal. lia.
  - rewrite Hp. reflexivity.
  - rewrite Hp. reflexivity.
Qed.

(** C01, round trip: for every character boundary of every text and every
    encoding the shown position converts back to the same byte. *)
Theorem C01_roundtrip :
  forall t pre suf idx enc,
    t = pre ++ suf -> index_for idx t ->
    exists line col oob,
      pi_line (position_infos_of idx t (bytes pre)) = line /\
      shown_column enc t (position_infos_of idx t (bytes pre)) = Ok col /\
      line_column_to_byte idx t (input_of enc line col) = Ok (mk_bpi (bytes pre) oob) /\
      (enc <> U16 -> oob = false).
Proof.
  intros t pre suf idx enc Ht Hidx.
  destruct (lines_of_exists t) as [ls Hl].
  destruct (prefix_in_line _ _ _ _ Hl Ht) as (l & s & e & p & q & Hn & Hs & Hq & Hb).
  rewrite Hb.
  destruct (C01_offset_to_position t ls l s e p q idx enc Hl Hn Hs Hq Hidx) as [H1 H2].
  assert (Hq' : exists q', s ++ removelast e = p ++ q').
  { destruct (lines_of_nth_last _ _ Hl _ _ _ Hn) as [_ [[_ He]|[_ ->]]].
    - destruct Hq as [Hq|Hq]; [|subst e; destruct He as [He|[He|He]]; discriminate].
      destruct (exists_last Hq) as (q' & c & ->).
      exists q'. apply (f_equal (@removelast _)) in Hs.
      rewrite removelast_app in Hs by (destruct He as [->|[->| ->]]; discriminate).
      rewrite app_assoc, removelast_last in Hs. exact Hs.
    - exists q. simpl. rewrite app_nil_r in Hs. rewrite app_nil_r. exact Hs. }
  destruct Hq' as [q' Hq'].
  destruct (column_to_byte t ls l s e p q' idx enc Hl Hn Hq' Hidx) as (b & H3 & H4).
  exists l, (width enc p), b. repeat split; auto.
  intros Hne. destruct b; [|reflexivity]. destruct H4 as [H4 _].
  destruct (H4 eq_refl) as [E _]. contradiction.
Qed.

(** "x😀\r\nä\ny": the position after the astral character. *)
Example C01_roundtrip_case :
  let t := [120; 128512; 13; 10; 228; 10; 121]%N in
  t = [120; 128512]%N ++ [13; 10; 228; 10; 121]%N /\
  shown_column U16 t (position_infos_of None t 5) = Ok 3 /\
  line_column_to_byte None t (Utf16CodeUnits 0 3) = Ok (mk_bpi 5 false) /\
  lines_of t [([120; 128512]%N, [CR; LF]); ([228]%N, [LF]); ([121]%N, [])].
Proof.
  repeat split.
  apply (lines_more [120; 128512]%N [CR; LF] [228; 10; 121]%N).
  - split; intros [H|[H|[]]]; discriminate.
  - right; left; reflexivity.
  - discriminate.
  - apply (lines_more [228]%N [LF] [121]%N).
    + split; intros [H|[]]; discriminate.
    + left; reflexivity.
    + discriminate.
    + constructor. split; intros [H|[]]; discriminate.
Qed.

(** C02: whatever position a client sends, the conversion does not panic and, if
    accepted, gives a character boundary inside the document. *)
Theorem C02_positions_are_safe :
  forall t idx inp,
    index_for idx t ->
    line_column_to_safe_byte idx t inp <> Panic /\
    (forall b, line_column_to_safe_byte idx t inp = Ok b ->
       exists pre suf, t = pre ++ suf /\ b = bytes pre).
Proof.
  intros t idx inp Hidx. unfold line_column_to_safe_byte. split.
  - pose proof (line_column_to_byte_no_panic t idx inp Hidx) as H.
    destruct (line_column_to_byte idx t inp) as [r| |]; simpl; try discriminate.
    + destruct (column_out_of_bounds r); discriminate.
    + contradiction.
  - intros b H.
    destruct (line_column_to_byte idx t inp) as [r| |] eqn:E; simpl in H; try discriminate.
    destruct (column_out_of_bounds r); [discriminate|]. injection H as <-.
    exact (line_column_to_byte_boundary _ _ _ _ Hidx E).
Qed.

Example C02_case :
  line_column_to_safe_byte None [228; 10; 228]%N (Utf8Bytes 1 1) = Err /\
  line_column_to_safe_byte None [228; 10; 228]%N (Utf8Bytes 1 2) = Ok 5.
Proof. split; reflexivity. Qed.

(** C02, exactness: positions inside the content of a line are accepted and
    resolve to the byte they denote (UTF-16: unless it is the end of a line with
    astral characters, see C03). *)
Theorem C02_positions_in_a_line_resolve :
  forall t ls l s e p q idx enc,
    lines_of t ls -> nth_error ls l = Some (s, e) -> s = p ++ q ->
    index_for idx t -> (enc <> U16 \/ q <> [] \/ bmp p \/ e = [CR; LF]) ->
    line_column_to_safe_byte idx t (input_of enc l (width enc p))
    = Ok (line_start ls l + bytes p).
Proof.
  intros t ls l s e p q idx enc Hl Hn -> Hidx Hor.
  destruct (column_to_byte t ls l (p ++ q) e p (q ++ removelast e) idx enc Hl Hn) as (b & H1 & H2).
  - rewrite app_assoc. reflexivity.
  - exact Hidx.
  - unfold line_column_to_safe_byte. rewrite H1. simpl.
    destruct b; [|reflexivity]. exfalso.
    destruct H2 as [H2 _]. destruct (H2 eq_refl) as (E1 & E2 & E3).
    destruct Hor as [H|[H|[H|H]]].
    + contradiction.
    + apply app_eq_nil in E2. destruct E2 as [E2 _]. contradiction.
    + contradiction.
    + subst e. apply app_eq_nil in E2. destruct E2 as [_ E2]. discriminate.
Qed.

(** A line number beyond the last line is always refused. *)
Theorem C02_lines_beyond_the_end_are_refused :
  forall t ls l c idx enc,
    lines_of t ls -> index_for idx t -> length ls <= l ->
    line_column_to_safe_byte idx t (input_of enc l c) = Err.
Proof.
  intros t ls l c idx enc Hl Hidx Hle.
  unfold line_column_to_safe_byte.
  destruct enc; simpl; rewrite Hidx; change (get_lines None t) with (compute_lines t);
    rewrite (line_infos_err _ _ _ Hl Hle); reflexivity.
Qed.

(** C03 holds for UTF-8 and code points, and for UTF-16 on lines of the basic
    multilingual plane ... *)
Theorem C03_end_of_line_accepted_partial :
  forall t ls l s e idx enc,
    lines_of t ls -> nth_error ls l = Some (s, e) -> index_for idx t ->
    (enc <> U16 \/ bmp s) ->
    line_column_to_safe_byte idx t (input_of enc l (width enc s))
    = Ok (line_start ls l + bytes s).
Proof.
  intros t ls l s e idx enc Hl Hn Hidx Hor.
  apply (C02_positions_in_a_line_resolve t ls l s e s []); auto.
  - rewrite app_nil_r. reflexivity.
  - destruct Hor; auto.
Qed.

(** ... but not in general: for UTF-16, the only default encoding every client supports, the end
    of a line with an astral character is refused. *)
Theorem C03_end_of_line_accepted_refuted :
  exists t ls l s e,
    lines_of t ls /\ nth_error ls l = Some (s, e) /\
    line_column_to_safe_byte None t (input_of U16 l (width U16 s)) = Err.
Proof.
  exists [128512]%N, [([128512]%N, [])], 0, [128512]%N, [].
  repeat split. constructor. split; intros [H|[]]; discriminate.
Qed.

(** The exact class of refused end-of-line positions. *)
Theorem C03_exact_failure_class :
  forall t ls l s e idx,
    lines_of t ls -> nth_error ls l = Some (s, e) -> index_for idx t ->
    (line_column_to_safe_byte idx t (input_of U16 l (width U16 s)) = Err
     <-> ~ bmp s /\ e <> [CR; LF]).
Proof.
  intros t ls l s e idx Hl Hn Hidx.
  destruct (column_to_byte t ls l s e s (removelast e) idx U16 Hl Hn eq_refl Hidx) as (b & H1 & H2).
  unfold line_column_to_safe_byte. rewrite H1. simpl.
  assert (He : removelast e = [] <-> e <> [CR; LF]).
  { destruct (lines_of_nth_last _ _ Hl _ _ _ Hn) as [_ [[_ [->|[->| ->]]]|[_ ->]]];
      simpl; split; try discriminate; auto; intros H; exfalso; apply H; reflexivity. }
  rewrite <- He.
  destruct b.
  - split; [|reflexivity]. intros _. destruct (proj1 H2 eq_refl) as (_ & Ha & Hb). auto.
  - split; [discriminate|]. intros [Ha Hb]. discriminate (proj2 H2 (conj eq_refl (conj Hb Ha))).
Qed.

(** C41: expanding a range to full lines starts at the start of the first line
    touched and ends at the end of the content of the last line touched. *)
Theorem C41_expand_range :
  forall t ls l1 s1 e1 p1 q1 l2 s2 e2 p2 q2 idx,
    lines_of t ls -> index_for idx t ->
    nth_error ls l1 = Some (s1, e1) -> s1 ++ e1 = p1 ++ q1 -> (q1 <> [] \/ e1 = []) ->
    nth_error ls l2 = Some (s2, e2) -> s2 ++ e2 = p2 ++ q2 -> (q2 <> [] \/ e2 = []) ->
    exists cr, (cr = [] \/ e2 = cr ++ [LF] /\ cr = [CR]) /\
    expand_range_to_full_lines idx t (line_start ls l1 + bytes p1) (line_start ls l2 + bytes p2)
    = (line_start ls l1, line_start ls l2 + bytes (s2 ++ cr)).
Proof.
  intros t ls l1 s1 e1 p1 q1 l2 s2 e2 p2 q2 idx Hl Hidx Hn1 Hs1 Hq1 Hn2 Hs2 Hq2.
  exists (removelast e2). split.
  - destruct (lines_of_nth_last _ _ Hl _ _ _ Hn2) as [_ [[_ [->|[->| ->]]]|[_ ->]]]; auto.
  - exact (expand_range_correct _ _ _ _ _ _ _ _ _ _ _ _ _ Hl Hidx Hn1 Hs1 Hq1 Hn2 Hs2 Hq2).
Qed.

Example C41_case :
  expand_range_to_full_lines None [120; 10; 121; 121; 10; 122]%N 3 5 = (2, 6).
Proof. reflexivity. Qed.

(** C42: listing lines with numbers enumerates exactly the lines of the text,
    with their numbers, starting at the requested line, and never panics.
    ([LinesSpec.listed]: contents in order; a trailing empty line is omitted.) *)
Theorem C42_numbers_with_lines :
  forall t ls idx k,
    lines_of t ls -> index_for idx t -> t <> [] ->
    numbers_with_lines idx t k = Ok (number_from k (skipn k (listed ls))).
Proof. exact numbers_with_lines_correct. Qed.

Example C42_case :
  numbers_with_lines None [120; 10; 228; 10; 121]%N 1 = Ok [(1, [228]%N); (2, [121]%N)].
Proof. reflexivity. Qed.

Print Assumptions C01_every_text_has_lines.
Print Assumptions C01_offset_to_position.
Print Assumptions C01_roundtrip.
Print Assumptions C02_positions_are_safe.
Print Assumptions C02_positions_in_a_line_resolve.
Print Assumptions C02_lines_beyond_the_end_are_refused.
Print Assumptions C03_end_of_line_accepted_partial.
Print Assumptions C03_end_of_line_accepted_refuted.
Print Assumptions C03_exact_failure_class.
Print Assumptions C41_expand_range.
Print Assumptions C42_numbers_with_lines.
