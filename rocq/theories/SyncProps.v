(** Property theorems for document synchronisation (C04). *)
From Coq Require Import List NArith Arith Bool Lia.
From Verif Require Import TextModel TextProofs LinesSpec LinesModel LinesProofs SyncModel SyncSpec SyncProofs.
Import ListNotations.

(** C04 (partial: UTF-16 positions at the end of a line with astral characters
    and a ranged change after a full one on an already indexed document are excluded; the
    refutations below show that both exclusions are needed).
    If the changes are valid according to the protocol and lead from [t] to [t'],
    the implementation computes [t']. *)
Theorem C04_sync_partial :
  forall enc t cs t' idx,
    sync enc (not_astral_eol enc) t cs t' ->
    idx = None \/ (idx = Some (get_lines None t) /\ no_range_after_full cs) ->
    fst (apply_document_changes enc t idx cs) = Ok t'.
Proof.
  intros enc t cs t' idx Hs Hidx. apply apply_document_changes_correct; [assumption|].
  destruct Hidx as [->|[-> Hn]]; [left; reflexivity|right].
  split; [reflexivity|].
  destruct Hn as [Hn|(cs0 & s & ->)].
  - left. clear Hs. induction cs as [|c cs IH]; [reflexivity|].
    simpl. rewrite IH by (intros c' Hc'; apply Hn; right; assumption).
    destruct (ch_range c) eqn:E; [reflexivity|].
    exfalso. apply (Hn c); [left; reflexivity|assumption].
  - right. exists s. clear Hs. induction cs0 as [|c cs0 IH]; [reflexivity|].
    simpl. rewrite IH. reflexivity.
Qed.

(** Two edits in one notification, the second relative to the first:
    "ab\r\nc" -> insert "X\r\n" at (0,1) -> delete line 1's first character. *)
Example C04_case :
  let t := [97; 98; 13; 10; 99]%N in
  let cs := [mk_change (Some (mk_pos 0 1, mk_pos 0 1)) [88; 13; 10]%N;
             mk_change (Some (mk_pos 1 0, mk_pos 1 1)) []] in
  sync U16 (not_astral_eol U16) t cs [97; 88; 13; 10; 13; 10; 99]%N /\
  fst (apply_document_changes U16 t (Some (compute_lines t)) cs)
  = Ok [97; 88; 13; 10; 13; 10; 99]%N.
Proof.
  intros t cs. split; [|reflexivity].
  assert (Hl0 : lines_of t [([97;98]%N, [CR;LF]); ([99]%N, [])]).
  { apply (lines_more [97;98]%N [CR;LF] [99]%N); [split; intros [H|[H|[]]]; discriminate|right; left; reflexivity|discriminate|].
    constructor. split; intros [H|[]]; discriminate. }
  assert (Hl1 : lines_of [97; 88; 13; 10; 98; 13; 10; 99]%N
     [([97;88]%N, [CR;LF]); ([98]%N, [CR;LF]); ([99]%N, [])]).
  { apply (lines_more [97;88]%N [CR;LF] [98;13;10;99]%N); [split; intros [H|[H|[]]]; discriminate|right; left; reflexivity|discriminate|].
    apply (lines_more [98]%N [CR;LF] [99]%N); [split; intros [H|[]]; discriminate|right; left; reflexivity|discriminate|].
    constructor. split; intros [H|[]]; discriminate. }
  apply (sync_range _ _ t (mk_pos 0 1) (mk_pos 0 1) [88;13;10]%N _ _ [97]%N [] [98;13;10;99]%N).
  - intros _ ls s e Hl Hn Hc. rewrite (lines_of_fun _ _ Hl _ Hl0) in Hn. simpl in Hn.
    injection Hn as <- <-. repeat constructor.
  - intros _ ls s e Hl Hn Hc. rewrite (lines_of_fun _ _ Hl _ Hl0) in Hn. simpl in Hn.
    injection Hn as <- <-. repeat constructor.
  - reflexivity.
  - exists [([97;98]%N, [CR;LF]); ([99]%N, [])], [97;98]%N, [CR;LF], [97]%N, [98]%N. repeat split; assumption.
  - exists [([97;98]%N, [CR;LF]); ([99]%N, [])], [97;98]%N, [CR;LF], [97]%N, [98]%N. repeat split; assumption.
  - apply (sync_range _ _ _ (mk_pos 1 0) (mk_pos 1 1) [] _ _ [97;88;13;10]%N [98]%N [13;10;99]%N).
    + intros _ ls s e Hl Hn Hc. rewrite (lines_of_fun _ _ Hl _ Hl1) in Hn. simpl in Hn.
      injection Hn as <- <-. repeat constructor.
    + intros _ ls s e Hl Hn Hc. rewrite (lines_of_fun _ _ Hl _ Hl1) in Hn. simpl in Hn.
      injection Hn as <- <-. repeat constructor.
    + reflexivity.
    + exists [([97;88]%N, [CR;LF]); ([98]%N, [CR;LF]); ([99]%N, [])], [98]%N, [CR;LF], [], [98]%N. repeat split; assumption.
    + exists [([97;88]%N, [CR;LF]); ([98]%N, [CR;LF]); ([99]%N, [])], [98]%N, [CR;LF], [98]%N, []. repeat split; assumption.
    + apply sync_nil.
Qed.

(** A session with an open document: the text after a history of requests, valid change notifications and refused
    ones. *)
Inductive session (enc : encoding) : text -> list doc_op -> text -> Prop :=
| session_nil t : session enc t [] t
| session_look t ops t' : session enc t ops t' -> session enc t (Look :: ops) t'
| session_notify t cs t1 ops t' :
    sync enc (not_astral_eol enc) t cs t1 -> no_range_after_full cs ->
    session enc t1 ops t' -> session enc t (Notify cs :: ops) t'
| session_refused t cs ops t' :
    (forall c, In c cs -> ch_range c <> None) ->
    (forall idx, idx = None \/ idx = Some (get_lines None t) -> fst (apply_document_changes enc t idx cs) = Err) ->
    session enc t ops t' -> session enc t (Notify cs :: ops) t'.

(** C04 over whole sessions (same exclusions): whatever requests come in between, after every history the server holds
    the text of the editor, and later positions are resolved against the lines of that text. *)
Theorem C04_session_partial :
  forall enc t ops t',
    session enc t ops t' ->
    forall idx, idx = None \/ idx = Some (get_lines None t) ->
    let d := fold_left (fun d o => snd (doc_step enc d o)) ops (mk_doc t idx) in
    d_code d = t' /\ get_lines (d_index d) (d_code d) = get_lines None t'.
Proof.
  induction 1 as [t|t ops t' Hs IH|t cs t1 ops t' Hsync Hn Hs IH|t cs ops t' Hr Herr Hs IH]; intros idx Hidx.
  - cbn. split; [reflexivity|]. destruct Hidx as [->| ->]; reflexivity.
  - apply IH. right. destruct Hidx as [->| ->]; reflexivity.
  - assert (E : fst (apply_document_changes enc t idx cs) = Ok t1).
    { apply C04_sync_partial; [exact Hsync|]. destruct Hidx as [->| ->]; [left|right; split]; auto. }
    assert (E2 : snd (doc_step enc (mk_doc t idx) (Notify cs)) = mk_doc t1 None).
    { cbn [doc_step]. unfold store_file_with_lsp_changes. cbn [d_code d_index].
      destruct (apply_document_changes enc t idx cs) as [[u| |] i]; cbn [fst] in E; try discriminate.
      injection E as ->. reflexivity. }
    cbn zeta. cbn [fold_left]. rewrite E2. apply IH. left. reflexivity.
  - assert (Hi : snd (apply_document_changes enc t idx cs) = None \/
                 snd (apply_document_changes enc t idx cs) = Some (get_lines None t)).
    { unfold apply_document_changes.
      assert (Ef : after_last_full cs = None).
      { clear - Hr. induction cs as [|c cs IH]; [reflexivity|]. cbn.
        rewrite IH by (intros c' Hc'; apply Hr; right; exact Hc').
        destruct (ch_range c) eqn:E; [reflexivity|]. destruct (Hr c (or_introl eq_refl) E). }
      rewrite Ef. destruct cs as [|c cs]; [exact Hidx|]. apply (apply_loop_borrowed enc t); [exact Hidx|].
      split; [reflexivity|]. intros _. reflexivity. }
    pose proof (Herr idx Hidx) as E.
    assert (E2 : exists i, (i = None \/ i = Some (get_lines None t)) /\
                 snd (doc_step enc (mk_doc t idx) (Notify cs)) = mk_doc t i).
    { cbn [doc_step]. unfold store_file_with_lsp_changes. cbn [d_code d_index].
      destruct (apply_document_changes enc t idx cs) as [[u| |] i]; cbn [fst snd] in *; try discriminate.
      exists i. split; [exact Hi|reflexivity]. }
    destruct E2 as (i & Hi' & E2). cbn zeta. cbn [fold_left]. rewrite E2. apply IH. exact Hi'.
Qed.

(** A session whose second notification depends on the first. *)
Example C04_session_case :
  let ops := [Look; Notify [mk_change None [120; 121; 10; 122]%N]; Notify [mk_change (Some (mk_pos 1 9, mk_pos 1 9)) []]; Look;
              Notify [mk_change (Some (mk_pos 1 0, mk_pos 1 1)) [119]%N]] in
  let d := fold_left (fun d o => snd (doc_step U16 d o)) ops (mk_doc [97; 10; 98]%N None) in
  session U16 [97; 10; 98]%N ops [120; 121; 10; 119]%N /\ d_code d = [120; 121; 10; 119]%N.
Proof.
  intros ops d. split; [|reflexivity]. unfold ops.
  apply session_look.
  apply session_notify with (t1 := [120; 121; 10; 122]%N).
  { apply sync_full, sync_nil. }
  { right. exists [], [120; 121; 10; 122]%N. reflexivity. }
  apply session_refused.
  { intros c [<-|[]]. discriminate. }
  { intros idx [->| ->]; reflexivity. }
  apply session_look.
  assert (Hl : lines_of [120; 121; 10; 122]%N [([120; 121]%N, [LF]); ([122]%N, [])]).
  { apply (lines_more [120;121]%N [LF] [122]%N).
    - split; intros [H|[H|[]]]; discriminate.
    - left; reflexivity.
    - discriminate.
    - constructor. split; intros [H|[]]; discriminate. }
  apply session_notify with (t1 := [120; 121; 10; 119]%N).
  - apply (sync_range _ _ _ (mk_pos 1 0) (mk_pos 1 1) [119]%N _ _ [120;121;10]%N [122]%N []).
    + intros _ ls s e Hl' Hn Hc. rewrite (lines_of_fun _ _ Hl' _ Hl) in Hn. simpl in Hn.
      injection Hn as <- <-. repeat constructor.
    + intros _ ls s e Hl' Hn Hc. rewrite (lines_of_fun _ _ Hl' _ Hl) in Hn. simpl in Hn.
      injection Hn as <- <-. repeat constructor.
    + reflexivity.
    + exists [([120; 121]%N, [LF]); ([122]%N, [])], [122]%N, [], [], [122]%N. repeat split; assumption.
    + exists [([120; 121]%N, [LF]); ([122]%N, [])], [122]%N, [], [122]%N, []. repeat split; assumption.
    + apply sync_nil.
  - left. intros c [<-|[]]. discriminate.
  - apply session_nil.
Qed.

(** Why the exclusions are needed. *)

(** A full change followed by a ranged change on an already indexed document uses
    the newline index of the old text: wrong text ... *)
Theorem C04_full_then_range_refuted :
  exists enc t cs t',
    sync enc (not_astral_eol enc) t cs t' /\
    fst (apply_document_changes enc t (Some (get_lines None t)) cs) <> Ok t' /\
    exists wrong, fst (apply_document_changes enc t (Some (get_lines None t)) cs) = Ok wrong.
Proof.
  (* old "a\nb", new "xyz\nw", then insert "!" at the start of line 1 *)
  exists U32, [97; 10; 98]%N,
    [mk_change None [120; 121; 122; 10; 119]%N; mk_change (Some (mk_pos 1 0, mk_pos 1 0)) [33]%N],
    [120; 121; 122; 10; 33; 119]%N.
  split; [|split].
  - apply sync_full.
    assert (Hl : lines_of [120; 121; 122; 10; 119]%N [([120;121;122]%N, [LF]); ([119]%N, [])]).
    { apply (lines_more [120;121;122]%N [LF] [119]%N).
      - split; intros [H|[H|[H|[]]]]; discriminate.
      - left; reflexivity.
      - discriminate.
      - constructor. split; intros [H|[]]; discriminate. }
    apply (sync_range _ _ _ (mk_pos 1 0) (mk_pos 1 0) [33]%N _ _ [120;121;122;10]%N [] [119]%N).
    + discriminate.
    + discriminate.
    + reflexivity.
    + exists [([120;121;122]%N, [LF]); ([119]%N, [])], [119]%N, [], [], [119]%N. repeat split; assumption.
    + exists [([120;121;122]%N, [LF]); ([119]%N, [])], [119]%N, [], [], [119]%N. repeat split; assumption.
    + apply sync_nil.
  - vm_compute. discriminate.
  - eexists. vm_compute. reflexivity.
Qed.

(** ... or a panic (slicing inside a multi-byte character). *)
Theorem C04_full_then_range_panics_refuted :
  exists t cs,
    fst (apply_document_changes U32 t (Some (get_lines None t)) cs) = Panic.
Proof.
  exists [10; 98]%N,
    [mk_change None [228; 10; 119]%N; mk_change (Some (mk_pos 1 0, mk_pos 1 0)) [33]%N].
  vm_compute. reflexivity.
Qed.

(** If such a notification fails on a not yet indexed document, the old text
    stays but its newline index now belongs to the text that was thrown away. *)
Theorem C04_failed_change_corrupts_index_refuted :
  exists d cs d',
    d_index d = None /\ store_file_with_lsp_changes U32 d cs = (Err, d') /\
    d_code d' = d_code d /\ get_lines (d_index d') (d_code d') <> get_lines None (d_code d').
Proof.
  exists (mk_doc [97; 10; 98]%N None),
    [mk_change None [120]%N; mk_change (Some (mk_pos 7 0, mk_pos 7 0)) [33]%N].
  eexists. repeat split. vm_compute. discriminate.
Qed.

(** An edit at the end of a line with an astral character is refused (UTF-16). *)
Theorem C04_astral_end_of_line_refuted :
  exists t cs t',
    sync U16 any_position t cs t' /\
    fst (apply_document_changes U16 t None cs) = Err.
Proof.
  (* type "x" behind an emoji *)
  exists [128512]%N, [mk_change (Some (mk_pos 0 2, mk_pos 0 2)) [120]%N], [128512; 120]%N.
  split; [|reflexivity].
  assert (Hl : lines_of [128512]%N [([128512]%N, [])])
    by (constructor; split; intros [H|[]]; discriminate).
  apply (sync_range _ _ _ (mk_pos 0 2) (mk_pos 0 2) [120]%N _ _ [128512]%N [] []).
  - exact I.
  - exact I.
  - reflexivity.
  - exists [([128512]%N, [])], [128512]%N, [], [128512]%N, []. repeat split; assumption.
  - exists [([128512]%N, [])], [128512]%N, [], [128512]%N, []. repeat split; assumption.
  - apply sync_nil.
Qed.

Print Assumptions C04_sync_partial.
Print Assumptions C04_full_then_range_refuted.
Print Assumptions C04_full_then_range_panics_refuted.
Print Assumptions C04_failed_change_corrupts_index_refuted.
Print Assumptions C04_astral_end_of_line_refuted.
Print Assumptions C04_session_partial.
