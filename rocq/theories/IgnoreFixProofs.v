(** Lemmas about the quick fix. *)
From Coq Require Import List NArith Arith Bool Lia Sorting.Sorted.
From Verif Require Import TextModel TextProofs TreeModel TreeSpec TreeProofs TreeProps IgnoreModel IgnoreSpec IgnoreProofs IgnoreFixSpec.
Import ListNotations.
Open Scope N_scope.

Notation nl_end post := (post = [] \/ exists c p, post = c :: p /\ newline c) (only parsing).
Notation no_nl := (Forall (fun c => ~ newline c)) (only parsing).

(** A text can be cut at the first line end. *)
Lemma cut_line s : exists a b, s = a ++ b /\ no_nl a /\ nl_end b.
Proof.
  induction s as [|c s (a & b & -> & F & H)]; [exists [], []; auto|]. destruct (is_newline c) eqn:E.
  - apply newline_spec in E. exists [], (c :: a ++ b). split; [reflexivity|]. split; [constructor|]. right. eauto.
  - exists (c :: a), b. split; [reflexivity|]. split; [|exact H]. constructor; [|exact F]. intros H'. apply newline_spec in H'. congruence.
Qed.
Lemma region_exists code pre s rest : code = pre ++ s ++ rest -> exists r, region code (bytes pre) (bytes (pre ++ s)) r.
Proof. intros ->. destruct (cut_line rest) as (a & b & -> & F & H). exists (s ++ a), pre, s, a, b. auto 10. Qed.

(** Every region from [bytes pre] on has the rest of that line as its first line. *)
Lemma region_first_line pre line post start end_ r : no_nl line -> nl_end post -> bytes pre = start ->
  region (pre ++ line ++ post) start end_ r -> line_of r line.
Proof.
  intros F Hp Hs (pre' & r1 & r2 & post' & E & Hs' & He & -> & F2 & Hp'). assert (A : pre = pre' /\ line ++ post = r1 ++ r2 ++ post') by (apply bytes_prefix_inj; [exact E|congruence]).
  destruct A as [_ A]. rewrite app_assoc in A. set (r := r1 ++ r2) in *. clearbody r. clear - A F Hp Hp'.
  assert (G : exists x, r = line ++ x /\ nl_end x).
  { revert r A. induction F as [|c line Hc F IH]; intros r A.
    - exists r. split; [reflexivity|]. cbn in A. destruct r as [|d r]; [auto|]. right. destruct Hp as [->|(c & p & -> & Hc)]; [discriminate|]. injection A as -> _. eauto.
    - destruct r as [|d r].
      + cbn in A. destruct Hp' as [->|(x & p & -> & Hx)]; [discriminate|]. injection A as <- _. contradiction.
      + cbn in A. injection A as <- A. destruct (IH r A) as (x & -> & Hx). exists x. auto. }
  destruct G as (x & -> & Hx). exists [], x. auto.
Qed.

(** After the insertion into the line, the diagnostic is ignored if the new line carries a comment for it. *)
Lemma fix_ignores pre L1 L2 post new e super_ m end_ s rest : no_nl (L1 ++ new ++ L2) -> nl_end post -> carries (L1 ++ new ++ L2) m -> covers e super_ m ->
  pre ++ L1 ++ L2 ++ post = pre ++ s ++ rest -> end_ = bytes (pre ++ s) ->
  exists c, type_ignore_comment_for (pre ++ L1 ++ new ++ L2 ++ post) (bytes pre) (moved (bytes (pre ++ L1)) (bytes new) end_) = Ok c /\ fst (is_ignored e super_ c) = true.
Proof.
  intros F Hp Hc Hm E He. apply app_inv_head in E.
  assert (R : exists r, region (pre ++ L1 ++ new ++ L2 ++ post) (bytes pre) (moved (bytes (pre ++ L1)) (bytes new) end_) r).
  { unfold moved. destruct (Nat.ltb_spec (bytes (pre ++ L1)) end_) as [L|L].
    - assert (G : exists s', s = L1 ++ s' /\ L2 ++ post = s' ++ rest).
      { subst end_. rewrite !bytes_app in L. clear - E L. revert s E L. induction L1 as [|c L1 IH]; intros s E L; [exists s; auto|]. destruct s as [|d s]; [cbn in L; lia|]. cbn in E. injection E as <- E.
        destruct (IH s E) as (s' & -> & E'); [cbn in L; lia|]. exists s'. auto. }
      destruct G as (s' & -> & E'). destruct (region_exists (pre ++ L1 ++ new ++ L2 ++ post) pre (L1 ++ new ++ s') rest) as (r & Hr); [rewrite E', <- !app_assoc; reflexivity|]. exists r.
      replace (end_ + bytes new)%nat with (bytes (pre ++ L1 ++ new ++ s')) by (rewrite He, !bytes_app; lia). exact Hr.
    - assert (G : exists s', L1 = s ++ s').
      { subst end_. rewrite !bytes_app in L. clear - E L. revert s E L. induction L1 as [|c L1 IH]; intros s E L.
        - exists []. assert (bytes s = 0%nat) by (cbn in L; lia). apply bytes_0 in H. subst s. reflexivity.
        - destruct s as [|d s]; [exists (c :: L1); reflexivity|]. cbn in E. injection E as <- E. destruct (IH s E) as (s' & ->); [cbn in L; lia|]. exists s'. reflexivity. }
      destruct G as (s' & ->). rewrite He. eapply region_exists. rewrite <- !app_assoc. reflexivity. }
  destruct R as (r & Hr). destruct (ignored_region _ _ _ r e super_ Hr) as (c & Ec & Hi). exists c. split; [exact Ec|]. apply Hi. exists (L1 ++ new ++ L2), m. split; [|auto].
  refine (region_first_line pre (L1 ++ new ++ L2) post _ _ r F Hp eq_refl _). rewrite <- !app_assoc. exact Hr.
Qed.

(** ** A new comment *)
Definition new_comment (k : kind) (e : text) : text := [32; 32; 35; 32] ++ kind_text k ++ [58; 32] ++ IGNORE ++ [91] ++ e ++ [93].
Lemma plain_listed e : plain_code e -> listed e e.
Proof.
  intros (Hn & F). exists [], []. rewrite app_nil_r. cbn [app]. refine (conj (Forall_nil _) (conj (Forall_nil _) (conj _ (conj _ _)))).
  - exists [], []. rewrite app_nil_r. refine (conj eq_refl (conj (or_introl eq_refl) (conj (or_introl eq_refl) _))). eapply Forall_impl; [|exact F]. cbn. intros c H <-. tauto.
  - intros c r ->. inversion F as [|? ? H _]; subst. tauto.
  - intros c r ->. apply Forall_app in F. destruct F as [_ F]. inversion F as [|? ? H _]; subst. tauto.
Qed.
Lemma plain_no_nl e : plain_code e -> no_nl e.
Proof. intros [_ F]. eapply Forall_impl; [|exact F]. cbn. tauto. Qed.
Lemma plain_no_hash e : plain_code e -> ~ In 35 e.
Proof. intros [_ F] H. rewrite Forall_forall in F. destruct (F 35 H) as (_ & X & _). congruence. Qed.
Lemma new_comment_no_nl k e : plain_code e -> no_nl (new_comment k e).
Proof.
  intros P. assert (Q := plain_no_nl e P). unfold new_comment, IGNORE, newline in *. destruct k; cbn [kind_text app]; repeat (constructor; [lia|]); (apply Forall_app; split; [exact Q|repeat constructor; lia]).
Qed.
Lemma new_comment_carries k e L1 L2 s : plain_code e -> spaces s -> (L2 = s \/ exists b, L2 = s ++ 35 :: b) -> carries (L1 ++ new_comment k e ++ L2) (Codes e).
Proof.
  intros P Hs HL. set (kw := kind_text k ++ [58]). assert (K : keyword kw) by (destruct k; constructor).
  assert (B : exists post, L2 = s ++ post /\ (post = [] \/ exists p, post = 35 :: p)) by (destruct HL as [->|(b & ->)]; [exists []; rewrite app_nil_r; auto|eauto]). destruct B as (post & -> & Hp).
  exists (L1 ++ [32; 32]), ([32] ++ kw ++ [32] ++ ignore_word ++ ([] ++ [91] ++ e ++ [93] ++ s)), post. refine (conj _ (conj _ (conj Hp _))).
  - unfold new_comment, kw, IGNORE, ignore_word. destruct k; cbn [kind_text app]; rewrite <- ?app_assoc; cbn [app]; rewrite <- ?app_assoc; reflexivity.
  - assert (Q := plain_no_hash e P). intros H. apply in_app_or in H. destruct H as [[H|[]]|H]; [discriminate|]. apply in_app_or in H. destruct H as [H|H]; [unfold kw in H; destruct k; cbn in H; intuition discriminate|].
    apply in_app_or in H. destruct H as [[H|[]]|H]; [discriminate|]. apply in_app_or in H. destruct H as [H|H]; [cbn in H; intuition discriminate|]. cbn [app] in H. destruct H as [H|H]; [discriminate|].
    apply in_app_or in H. destruct H as [H|[H|H]]; [exact (Q H)|discriminate|]. unfold spaces in Hs. rewrite Forall_forall in Hs. specialize (Hs 35 H). discriminate.
  - constructor; [repeat constructor|exact K|repeat constructor|]. constructor. constructor; [constructor|apply P|exact Hs].
Qed.

(** ** The text after the last leaf of the line *)
Lemma gap_line L g : gap (L ++ g) -> no_nl L -> nl_end g -> ~ In 9 L -> ~ In 12 L ->
  exists s, spaces s /\ (L = s \/ (exists b, L = s ++ 35 :: b) \/ L = s ++ [92] /\ g <> []).
Proof.
  remember (L ++ g) as x eqn:Ex. intros H. revert L Ex. induction H as [|c x Hc H IH|c x Hc H IH|body x Fb Hx H IH|c x Hc H IH]; intros L Ex F Hg N9 N12.
  - exists []. split; [constructor|]. left. destruct L; [reflexivity|discriminate].
  - destruct L as [|d L].
    + exists []. split; [constructor|auto].
    + injection Ex as <- Ex. inversion F as [|? ? _ F']; subst. destruct (IH L eq_refl F' Hg) as (s & Hs & Q); [intros X; apply N9; right; exact X|intros X; apply N12; right; exact X|].
      assert (c = 32) by (destruct Hc as [-> | [-> | ->]]; [reflexivity|contradiction N9; left; reflexivity|contradiction N12; left; reflexivity]). subst c.
      exists (32 :: s). split; [constructor; [reflexivity|exact Hs]|]. destruct Q as [->|[(b & ->)|(-> & Q)]]; [auto|right; left; exists b; reflexivity|right; right; auto].
  - destruct L as [|d L]; [exists []; split; [constructor|auto]|]. injection Ex as <- Ex. inversion F; contradiction.
  - destruct L as [|d L]; [exists []; split; [constructor|auto]|]. injection Ex as <- Ex. exists []. split; [constructor|]. right. left. exists L. reflexivity.
  - destruct L as [|d L]; [exists []; split; [constructor|auto]|]. injection Ex as <- Ex. exists []. split; [constructor|]. right. right. inversion F as [|? ? _ F']; subst.
    destruct L as [|y L]; [|injection Ex as <- Ex; inversion F'; contradiction]. split; [reflexivity|]. cbn in Ex. rewrite <- Ex. discriminate.
Qed.

Section Tree.
Variable t : tree.
Variable hi : nat.
Hypothesis proper_t : proper t.
Hypothesis placed_t : placed 0 t hi.
Lemma leaf_here q : leaf_at t q -> exists n, nth_error (array t) (index t q) = Some n /\ is_leaf n = true /\ start_index n = leaf_start t q /\ end_ n = leaf_end t q.
Proof.
  intros Lq. destruct (proj1 (leaf_iff t q proper_t (leaf_node _ _ Lq)) Lq) as (n & N & Ln). exists n. split; [exact N|]. split; [exact Ln|].
  destruct Lq as (ty & st & l & E). destruct (node_at _ _ _ E) as (m & M & _ & _ & A & B). rewrite N in M. injection M as <-. unfold leaf_start, leaf_end. rewrite E. auto.
Qed.
Lemma leaf_order q q' : leaf_at t q -> leaf_at t q' -> left_of q q' -> (leaf_end t q <= leaf_start t q' /\ leaf_start t q' <= leaf_end t q' /\ index t q < index t q' < length (array t))%nat.
Proof.
  intros L L' Lo. destruct (placed_flat 0 t hi placed_t proper_t) as [_ X]. destruct (X true) as [So _]. fold (array t) in So.
  destruct (leaf_here q L) as (n & N & Ln & S1 & E1). destruct (leaf_here q' L') as (m & M & Lm & S2 & E2).
  assert (I' := left_index _ _ _ Lo (leaf_node _ _ L) (leaf_node _ _ L')). destruct (sorted_nth _ So _ _ _ _ I' N M) as [_ Z]. specialize (Z Ln). unfold end_ in *.
  assert (B : (index t q' < length (array t))%nat) by (apply nth_error_Some; congruence). lia.
Qed.

Lemma last_leaf_right lv : forall fuel q, leaf_at t q -> (length (array t) <= fuel + index t q)%nat -> (0 < fuel)%nat ->
  exists q', leaf_at t q' /\ (leaf_end t q <= leaf_end t q')%nat /\ 
  (exists n, last_leaf_of_line fuel (array t) lv (index t q) = Some n /\ end_ n = leaf_end t q') /\
  ((forall r, leaf_at t r -> ~ left_of q' r) \/ exists r, leaf_at t r /\ left_of q' r /\ (forall x, leaf_at t x -> left_of q' x -> x = r \/ left_of r x) /\ (lv <= leaf_start t r)%nat).
Proof.
  induction fuel as [|fuel IH]; intros q Lq B F; [lia|]. cbn [last_leaf_of_line]. assert (Nx := C17_next_leaf t q proper_t (leaf_node _ _ Lq)).
  destruct (leaf_here q Lq) as (n & N & Ln & _ & En).
  destruct (next_leaf (array t) (index t q)) as [j|].
  - destruct Nx as (q2 & -> & L2 & Pre & Min). assert (Lo : left_of q q2) by (destruct Pre as [Z|Z]; [exact Z|exfalso; exact (leaf_not_around _ _ _ Lq (leaf_node _ _ L2) Z)]).
    destruct (leaf_order q q2 Lq L2 Lo) as (O1 & O2 & O3 & O4). destruct (leaf_here q2 L2) as (m & M & Lm & Sm & Em). rewrite M. destruct (Nat.ltb_spec (start_index m) lv) as [C|C].
    + destruct (IH q2 L2) as (q' & L' & O' & R); [lia|lia|]. exists q'. split; [exact L'|]. split; [lia|exact R].
    + exists q. split; [exact Lq|]. split; [lia|]. split; [exists n; auto|]. right. exists q2. rewrite <- Sm. refine (conj L2 (conj Lo (conj _ C))).
      intros x Lx Lox. exact (Min x Lx (or_introl Lox)).
  - exists q. split; [exact Lq|]. split; [lia|]. split; [exists n; auto|]. left. intros r Lr Lo. exact (Nx r Lr (or_introl Lo)).
Qed.
End Tree.

(** ** An existing comment with codes *)
Lemma trim_bytes s p r : s = p ++ r -> (bytes s - bytes r)%nat = bytes p.
Proof. intros ->. rewrite bytes_app. lia. Qed.
Lemma maybe_position k i t0 codes k' j later : maybe_type_ignore k i t0 = Some (WithCodes codes k' j later) ->
  exists s1 s2, t0 = IGNORE ++ s1 ++ [91] ++ codes ++ [93] ++ s2 /\ spaces s1 /\ spaces s2 /\ codes <> [] /\ j = (i + bytes (IGNORE ++ s1 ++ [91%N]))%nat /\ k' = k.
Proof.
  unfold maybe_type_ignore. destruct (strip_prefix IGNORE t0) as [after|] eqn:E0; [|discriminate]. apply strip_prefix_iff in E0.
  destruct (trim_start_spec is_space after) as (s1 & E1 & F1). destruct (trim_end_spec is_space (trim_start is_space after)) as (s2 & E2 & F2).
  set (tr := trim_start is_space after) in *. set (tt := trim_end is_space tr) in *.
  assert (D : match after with [] => Some WithoutCode | c :: _ => if (c =? 32) || (c =? 9) then Some WithoutCode else None end <> Some (WithCodes codes k' j later)) by (destruct after; [discriminate|destruct (_ || _); discriminate]).
  destruct (strip_prefix [91] tt) as [u|] eqn:E3; [|intros H; contradiction (D H)]. destruct (strip_last 93 u) as [[|x v]|] eqn:E4; [intros H; contradiction (D H)| |intros H; contradiction (D H)].
  intros [= <- <- <- _]. apply strip_prefix_iff in E3. apply strip_last_iff in E4. subst u. apply spaces_spec in F1, F2.
  assert (Et : t0 = IGNORE ++ s1 ++ [91] ++ (x :: v) ++ [93] ++ s2) by (rewrite E0, E1, E2, E3, <- !app_assoc; reflexivity).
  exists s1, s2. refine (conj Et (conj F1 (conj F2 (conj _ (conj _ eq_refl))))); [discriminate|].
  replace (bytes t0 - bytes tr)%nat with (bytes (IGNORE ++ s1)) by (symmetry; apply trim_bytes; rewrite E0, <- app_assoc; f_equal; exact E1).
  rewrite app_assoc, (bytes_app (IGNORE ++ s1)). change (bytes [91]) with 1%nat. lia.
Qed.
Lemma scan_position i c codes k j later : scan_comment i c = Some (WithCodes codes k j later) ->
  exists P S, c = P ++ codes ++ S /\ j = (i + bytes P)%nat /\ codes <> [] /\ forall codes', codes' <> [] -> comment_text (P ++ codes' ++ S) (Codes codes').
Proof.
  unfold scan_comment. destruct (trim_start_spec is_space c) as (s0 & E0 & F0). set (rest := trim_start is_space c) in *. apply spaces_spec in F0.
  assert (G : forall kw k0 ignore, keyword kw -> rest = kw ++ ignore ->
    maybe_type_ignore k0 (i + (bytes c - bytes (trim_start is_space ignore))) (trim_start is_space ignore) = Some (WithCodes codes k j later) ->
    exists P S, c = P ++ codes ++ S /\ j = (i + bytes P)%nat /\ codes <> [] /\ forall codes', codes' <> [] -> comment_text (P ++ codes' ++ S) (Codes codes')).
  { intros kw k0 ignore K Er M. destruct (trim_start_spec is_space ignore) as (s1 & E1 & F1). apply spaces_spec in F1. set (ig := trim_start is_space ignore) in *.
    destruct (maybe_position _ _ _ _ _ _ _ M) as (s2 & s3 & Eg & F2 & F3 & Hn & Ej & _).
    assert (Ec : c = (s0 ++ kw ++ s1) ++ ig) by (rewrite E0, Er, E1, <- !app_assoc; reflexivity).
    exists (s0 ++ kw ++ s1 ++ IGNORE ++ s2 ++ [91]), ([93] ++ s3). refine (conj _ (conj _ (conj Hn _))).
    - rewrite Ec, Eg, <- !app_assoc. reflexivity.
    - rewrite Ej, (trim_bytes _ _ _ Ec), !bytes_app. lia.
    - intros codes' Hn'. rewrite <- !app_assoc. change IGNORE with ignore_word. constructor; [exact F0|exact K|exact F1|]. constructor. constructor; assumption. }
  destruct (strip_prefix TYPE_ rest) as [ignore|] eqn:Et; [apply strip_prefix_iff in Et; apply (G TYPE_); [constructor|exact Et]|].
  destruct (strip_prefix ZUBAN_ rest) as [ignore|] eqn:Ez; [apply strip_prefix_iff in Ez; apply (G ZUBAN_); [constructor|exact Ez]|discriminate].
Qed.

(** The comments with the number signs in front of them. *)
Definition with_signs (cs : list text) : text := flat_map (cons 35) cs.
Lemma split_signs line first cs : split_by (N.eqb 35) line = first :: cs -> line = first ++ with_signs cs /\ Forall (fun c => ~ In 35 c) cs.
Proof.
  revert first cs. induction line as [|c line IH]; intros first cs; [intros [= <- <-]; split; [reflexivity|constructor]|]. cbn [split_by].
  destruct (split_shape (N.eqb 35) line) as (p & ps & E). rewrite E. destruct (IH p ps E) as [IH1 IH2]. destruct (N.eqb_spec 35 c) as [<-|Hc]; intros [= <- <-].
  - cbn [with_signs flat_map app]. split; [f_equal; exact IH1|]. constructor; [|exact IH2]. destruct (split_head (N.eqb 35) (eq 35) (eqb_spec 35) _ _ _ E) as [F _]. intros H. rewrite Forall_forall in F. exact (F 35 H eq_refl).
  - split; [cbn; f_equal; exact IH1|exact IH2].
Qed.
Lemma scan_comments_position cs : forall i r res codes k j later, scan_comments i cs r = (res, Some (WithCodes codes k j later)) ->
  (exists later', r = Some (WithCodes codes k j later')) \/
  r = None /\ exists cs1 c cs2, cs = cs1 ++ c :: cs2 /\ scan_comment (i + bytes (with_signs cs1)) c = Some (WithCodes codes k j []).
Proof.
  induction cs as [|c cs IH]; intros i r res codes k j later; cbn [scan_comments].
  - intros [= _ ->]. eauto.
  - intros H. destruct (IH _ _ _ _ _ _ _ H) as [(l & E)|(E & cs1 & c' & cs2 & -> & Hc)].
    + destruct (scan_comment i c) as [new|] eqn:En.
      * destruct r as [[]|]; cbn [combine_comments] in E.
        -- destruct new; [|discriminate]. injection E as -> -> -> _. left. eauto.
        -- destruct new; discriminate.
        -- injection E as ->. right. split; [reflexivity|]. exists [], c, cs. split; [reflexivity|]. cbn. rewrite Nat.add_0_r, En. f_equal. f_equal. apply (scan_later _ _ _ _ _ _ En).
      * left. exists l. destruct r as [[]|]; exact E.
    + right. assert (En : scan_comment i c = None /\ r = None) by (destruct r as [[]|], (scan_comment i c) as [[]|]; cbn in E; try discriminate; auto). destruct En as [En ->].
      split; [reflexivity|]. exists (c :: cs1), c', cs2. split; [reflexivity|]. rewrite <- Hc. f_equal. cbn [with_signs flat_map]. fold (with_signs cs1). change (35 :: c) with ([35] ++ c). rewrite <- app_assoc, !bytes_app. change (bytes [35]) with 1%nat. lia.
Qed.
Lemma codes_position position line codes k j later : no_nl line -> type_ignore_comment_for_region position line = Some (WithCodes codes k j later) ->
  exists P S, line = P ++ codes ++ S /\ j = (position + bytes P)%nat /\ codes <> [] /\ ~ In 35 codes /\ forall codes', codes' <> [] -> ~ In 35 codes' -> carries (P ++ codes' ++ S) (Codes codes').
Proof.
  intros F. unfold type_ignore_comment_for_region. rewrite (split_none is_newline newline newline_spec line F). cbn [scan_lines].
  destruct (split_shape (N.eqb 35) line) as (first & cs & E). rewrite E. destruct (split_signs _ _ _ E) as [El Fc]. destruct (scan_comments (position + (bytes first + 1)) cs None) as [x y] eqn:Es. intros ->.
  destruct (scan_comments_position _ _ _ _ _ _ _ _ Es) as [(l & Hl)|(_ & cs1 & c & cs2 & -> & Hc)]; [discriminate|].
  destruct (scan_position _ _ _ _ _ _ Hc) as (P & S & -> & -> & Hn & H). apply Forall_app in Fc. destruct Fc as [_ Fc]. inversion Fc as [|? ? Nc _]; subst.
  assert (E2 : first ++ with_signs (cs1 ++ (P ++ codes ++ S) :: cs2) = (first ++ with_signs cs1 ++ [35] ++ P) ++ codes ++ S ++ with_signs cs2).
  { unfold with_signs. rewrite flat_map_app. cbn [flat_map app]. rewrite <- !app_assoc. cbn [app]. rewrite <- ?app_assoc. reflexivity. }
  rewrite E2. exists (first ++ with_signs cs1 ++ [35] ++ P), (S ++ with_signs cs2). refine (conj eq_refl (conj _ (conj Hn (conj _ _)))).
  - rewrite !bytes_app. change (bytes [35]) with 1%nat. lia.
  - intros Hi. apply Nc. apply in_or_app. right. apply in_or_app. left. exact Hi.
  - intros codes' Hn' Ni. exists (first ++ with_signs cs1), (P ++ codes' ++ S), (with_signs cs2). refine (conj _ (conj _ (conj _ (H codes' Hn')))).
    + rewrite <- !app_assoc. reflexivity.
    + intros Hi. apply in_app_or in Hi. destruct Hi as [Hi|Hi]; [apply Nc; apply in_or_app; left; exact Hi|]. apply in_app_or in Hi. destruct Hi as [Hi|Hi]; [exact (Ni Hi)|].
      apply Nc. apply in_or_app. right. apply in_or_app. right. exact Hi.
    + destruct cs2; [auto|right; cbn; eauto].
Qed.

(** A code added to a list of codes is in it. *)
Lemma added_listed c1 ws e : plain_code e -> spaces ws -> listed (c1 ++ ([44; 32] ++ e) ++ ws) e.
Proof.
  intros P Hw. destruct (plain_listed e P) as (_ & _ & _ & _ & _ & H1 & H2). exists [32], ws. refine (conj _ (conj Hw (conj _ (conj H1 H2)))); [repeat constructor|].
  exists (c1 ++ [44]), []. refine (conj _ (conj _ (conj (or_introl eq_refl) _))).
  - rewrite app_nil_r, <- !app_assoc. reflexivity.
  - right. eauto.
  - apply Forall_app. split; [repeat constructor; discriminate|]. apply Forall_app. destruct P as [_ F]. split.
    + eapply Forall_impl; [|exact F]. cbn. intros c X <-. tauto.
    + eapply Forall_impl; [|exact Hw]. cbn. intros c -> X. discriminate.
Qed.

Lemma region_here pre line post : no_nl line -> nl_end post -> region (pre ++ line ++ post) (bytes pre) (bytes pre) line.
Proof. intros F H. exists pre, [], line, post. rewrite app_nil_r. auto 10. Qed.
Lemma slice_end t0 a b g : slice t0 a b = Some g -> exists x y, t0 = x ++ g ++ y /\ bytes x = a /\ b = (a + bytes g)%nat.
Proof. intros H. apply slice_inv in H. destruct H as (x & y & -> & H1 & H2). exists x, y. split; [reflexivity|]. lia. Qed.

Section Fix.
Variables (t : tree) (hi : nat) (code : text) (position : nat) (line pre post : text).
Hypothesis proper_t : proper t.
Hypothesis placed_t : placed 0 t hi.
Hypothesis gaps : gaps_of code t.
Hypothesis at_leaf : exists q, leaf_at t q /\ leaf_start t q = position.
Hypothesis code_here : code = pre ++ line ++ post.
Hypothesis pre_here : bytes pre = position.
Hypothesis no_nl_line : no_nl line.
Hypothesis post_here : nl_end post.

Lemma comment_here : type_ignore_comment_for code position position = Ok (type_ignore_comment_for_region position line).
Proof. rewrite code_here, <- pre_here. apply comment_for_region. apply region_here; assumption. Qed.

(** The leaf after which the comment is inserted. *)
Lemma last_leaf_here : exists leaf q n, leaf_by_position (array t) position = Some leaf /\
  last_leaf_of_line (S (length (array t))) (array t) (position + bytes line) leaf = Some n /\ leaf_at t q /\ end_ n = leaf_end t q /\ (position <= leaf_end t q)%nat /\
  ((forall r, leaf_at t r -> ~ left_of q r) \/ exists r, leaf_at t r /\ left_of q r /\ (forall x, leaf_at t x -> left_of q x -> x = r \/ left_of r x) /\ (position + bytes line <= leaf_start t r)%nat).
Proof.
  destruct (C18_leaf_by_position t hi position proper_t placed_t) as (q0 & E0 & L0 & H0).
  assert (B0 : (position <= leaf_end t q0)%nat).
  { destruct H0 as [[H0 _]|[[H0 _]|[H0 Hn]]]; [lia| |].
    - destruct L0 as (ty & st & l & E). unfold leaf_start, leaf_end in *. rewrite E in *. cbn in *. lia.
    - exfalso. destruct at_leaf as (q & Lq & Eq). destruct (path_compare q q0) as [->|[C|C]].
      + destruct Lq as (ty & st & l & E). unfold leaf_start, leaf_end in *. rewrite E in *. cbn in *. lia.
      + destruct C as [C|C]; [|exact (leaf_not_around _ _ _ Lq (leaf_node _ _ L0) C)]. destruct (leaf_order t hi proper_t placed_t q q0 Lq L0 C) as (O1 & O2 & _).
        destruct Lq as (ty & st & l & E). unfold leaf_start, leaf_end in *. rewrite E in *. cbn in *. lia.
      + destruct C as [C|C]; [exact (Hn q Lq C)|exact (leaf_not_around _ _ _ L0 (leaf_node _ _ Lq) C)]. }
  destruct (last_leaf_right t hi proper_t placed_t (position + bytes line) (S (length (array t))) q0 L0) as (q & Lq & B & (n & En & Ee) & R); [lia|lia|].
  exists (index t q0), q, n. refine (conj E0 (conj En (conj Lq (conj Ee (conj _ R))))). lia.
Qed.

Lemma insertion_none : type_ignore_comment_for_region position line = None ->
  insertion_point_for_type_ignore code (array t) position = Ok None \/
  exists q, leaf_at t q /\ insertion_point_for_type_ignore code (array t) position = Ok (Some (mk_insertion (leaf_end t q) None)) /\
   (position <= leaf_end t q <= position + bytes line)%nat /\ (post = [] \/ strip_last 92 line = None) /\
  ((forall r, leaf_at t r -> ~ left_of q r) \/ exists r, leaf_at t r /\ left_of q r /\ (forall x, leaf_at t x -> left_of q x -> x = r \/ left_of r x) /\ (position + bytes line <= leaf_start t r)%nat).
Proof.
  intros Hr. unfold insertion_point_for_type_ignore. rewrite comment_here, Hr. cbn [bind].
  assert (D : drop_bytes code position = Some (line ++ post)) by (rewrite code_here, <- pre_here; apply drop_bytes_app). rewrite D. cbn [or_panic bind].
  rewrite (find_newline line post no_nl_line post_here). destruct last_leaf_here as (leaf & q & n & E1 & E2 & Lq & Ee & B & R).
  assert (G : forall r, r = (if (position + bytes line <? end_ n)%nat then Ok None else Ok (Some (mk_insertion (end_ n) None))) -> (post = [] \/ strip_last 92 line = None) ->
    r = Ok None \/ exists q, leaf_at t q /\ r = Ok (Some (mk_insertion (leaf_end t q) None)) /\ (position <= leaf_end t q <= position + bytes line)%nat /\ (post = [] \/ strip_last 92 line = None) /\
    ((forall r, leaf_at t r -> ~ left_of q r) \/ exists r, leaf_at t r /\ left_of q r /\ (forall x, leaf_at t x -> left_of q x -> x = r \/ left_of r x) /\ (position + bytes line <= leaf_start t r)%nat)).
  { intros r -> Hb. destruct (Nat.ltb_spec (position + bytes line) (end_ n)) as [L|L]; [left; reflexivity|]. right. exists q. rewrite Ee. refine (conj Lq (conj eq_refl (conj _ (conj Hb R)))). lia. }
  destruct post as [|c p] eqn:Ep.
  - rewrite app_nil_r. cbn [bind]. rewrite E1. cbn [or_panic bind]. rewrite E2. cbn [or_panic bind]. apply G; auto.
  - rewrite take_bytes_app. cbn [or_panic bind]. destruct (strip_last 92 line) as [x|] eqn:Es; [left; reflexivity|]. cbn [bind]. rewrite E1. cbn [or_panic bind]. rewrite E2. cbn [or_panic bind]. apply G; auto.
Qed.

Theorem insertion_total : exists r, insertion_point_for_type_ignore code (array t) position = Ok r.
Proof.
  destruct (type_ignore_comment_for_region position line) as [[codes k j later|]|] eqn:Hr.
  - unfold insertion_point_for_type_ignore. rewrite comment_here, Hr. cbn [bind]. eauto.
  - unfold insertion_point_for_type_ignore. rewrite comment_here, Hr. cbn [bind]. eauto.
  - destruct (insertion_none Hr) as [H|(q & _ & H & _)]; rewrite H; eauto.
Qed.

Variables (i : insertion) (k : kind) (e : text) (super_ : option text) (code' s rest : text) (end_ : nat).
Hypothesis no_tab : ~ In 9 line.
Hypothesis no_form_feed : ~ In 12 line.
Hypothesis plain_e : plain_code e.
Hypothesis offered : insertion_point_for_type_ignore code (array t) position = Ok (Some i).
Hypothesis edited : fixed_code code i k e = Ok (Some code').
Hypothesis diag : code = pre ++ s ++ rest.
Hypothesis diag_end : end_ = bytes (pre ++ s).

Lemma finish new L1 L2 m : line = L1 ++ L2 -> insertion_index i = (position + bytes L1)%nat -> format_for_kind i k e = Some new -> no_nl new ->
  carries (L1 ++ new ++ L2) m -> covers (Some e) super_ m ->
  inserted code code' (insertion_index i) new /\ exists c, type_ignore_comment_for code' position (moved (insertion_index i) (bytes new) end_) = Ok c /\ fst (is_ignored (Some e) super_ c) = true.
Proof.
  intros El Ei Ef Fn Hc Hm. unfold fixed_code in edited. rewrite Ef in edited.
  assert (Er : replace_range code (insertion_index i) (insertion_index i) new = Some ((pre ++ L1) ++ new ++ L2 ++ post)).
  { rewrite Ei, <- pre_here, <- bytes_app, code_here, El. replace (pre ++ (L1 ++ L2) ++ post) with ((pre ++ L1) ++ [] ++ (L2 ++ post)) by (cbn; rewrite <- !app_assoc; reflexivity).
    rewrite <- (Nat.add_0_r (bytes (pre ++ L1))) at 2. apply (replace_range_app (pre ++ L1) [] (L2 ++ post)). }
  rewrite Er in edited. cbn in edited. injection edited as <-. rewrite <- !app_assoc. split.
  - exists (pre ++ L1), (L2 ++ post). rewrite code_here, El, Ei, <- pre_here, bytes_app, <- !app_assoc. auto.
  - rewrite Ei, <- pre_here, <- bytes_app. apply (fix_ignores pre L1 L2 post new (Some e) super_ m end_ s rest); try assumption.
    + rewrite El in no_nl_line. apply Forall_app in no_nl_line. destruct no_nl_line as [N1 N2]. apply Forall_app. split; [exact N1|]. apply Forall_app. auto.
    + rewrite <- diag, code_here, El, <- !app_assoc. reflexivity.
Qed.

Theorem fix_works : exists new, inserted code code' (insertion_index i) new /\
  exists c, type_ignore_comment_for code' position (moved (insertion_index i) (bytes new) end_) = Ok c /\ fst (is_ignored (Some e) super_ c) = true.
Proof.
  destruct (type_ignore_comment_for_region position line) as [[codes k' j later|]|] eqn:Hr.
  - unfold insertion_point_for_type_ignore in offered. rewrite comment_here, Hr in offered. cbn [bind] in offered. injection offered as Ei.
    destruct (codes_position _ _ _ _ _ _ no_nl_line Hr) as (P & S & El & -> & Hn & Nh & Hc). destruct (trim_end_spec is_ascii_whitespace codes) as (ws & Ew & Fw). set (tr := trim_end is_ascii_whitespace codes) in *.
    assert (Sw : spaces ws).
    { apply Forall_forall. intros c Hin. rewrite Forall_forall in Fw. specialize (Fw c Hin). assert (Il : In c line) by (rewrite El, Ew; apply in_or_app; right; apply in_or_app; left; apply in_or_app; right; exact Hin).
      unfold is_ascii_whitespace in Fw. rewrite !orb_true_iff, !N.eqb_eq in Fw. assert (Nn : ~ newline c) by (rewrite Forall_forall in no_nl_line; exact (no_nl_line c Il)). unfold newline in Nn.
      destruct Fw as [[[[Q|Q]|Q]|Q]|Q]; [exact Q|subst c; contradiction|lia|subst c; contradiction|lia]. }
    assert (Ek : format_for_kind i k e = Some ([44; 32] ++ e)).
    { unfold fixed_code in edited. destruct (format_for_kind i k e) as [new|] eqn:Ef; [|discriminate]. rewrite <- Ef. unfold format_for_kind in *. rewrite <- Ei in *. cbn [preexisting_type_ignore_kind] in *. destruct (kind_eqb k' k); [reflexivity|discriminate]. }
    exists ([44; 32] ++ e). apply (finish _ (P ++ tr) (ws ++ S) (Codes (tr ++ ([44; 32] ++ e) ++ ws))).
    + rewrite El, Ew at 1. rewrite <- !app_assoc. reflexivity.
    + rewrite <- Ei. cbn [insertion_index]. rewrite bytes_app. lia.
    + exact Ek.
    + apply Forall_app. split; [unfold newline; repeat constructor; lia|apply plain_no_nl; exact plain_e].
    + replace ((P ++ tr) ++ ([44; 32] ++ e) ++ ws ++ S) with (P ++ (tr ++ ([44; 32] ++ e) ++ ws) ++ S) by (rewrite <- !app_assoc; reflexivity). apply Hc.
      * destruct tr; discriminate.
      * intros Hi. apply in_app_or in Hi. destruct Hi as [Hi|Hi]; [apply Nh; rewrite Ew; apply in_or_app; left; exact Hi|]. apply in_app_or in Hi. destruct Hi as [Hi|Hi]; [|apply Nh; rewrite Ew; apply in_or_app; right; exact Hi].
        cbn in Hi. destruct Hi as [Hi|[Hi|Hi]]; [discriminate|discriminate|]. exact (plain_no_hash e plain_e Hi).
    + right. exists e. split; [apply added_listed; assumption|auto].
  - unfold insertion_point_for_type_ignore in offered. rewrite comment_here, Hr in offered. discriminate offered.
  - destruct (insertion_none Hr) as [H|(q & Lq & H & B & Hb & R)]; rewrite H in offered; [discriminate|]. injection offered as Ei.
    assert (G : exists g stop, slice code (leaf_end t q) stop = Some g /\ gap g /\ (position + bytes line <= stop)%nat).
    { destruct (gaps q Lq) as [G1 G2]. destruct R as [R|(r & Lr & Lo & Min & Ls)].
      - destruct (G2 R) as (g & Hg & Gg). exists g, (bytes code). split; [exact Hg|]. split; [exact Gg|]. rewrite code_here, !bytes_app. lia.
      - destruct (G1 r Lr Lo Min) as (g & Hg & Gg). exists g, (leaf_start t r). auto. }
    destruct G as (g & stop & Hg & Gg & Hs). apply slice_end in Hg. destruct Hg as (x & y & Ex & Ax & Estop).
    assert (X : exists L1 L2 g', x = pre ++ L1 /\ line = L1 ++ L2 /\ g = L2 ++ g' /\ post = g' ++ y).
    { rewrite code_here in Ex. assert (Bx : (bytes pre <= bytes x <= bytes pre + bytes line)%nat) by lia. assert (Bg : (bytes pre + bytes line <= bytes x + bytes g)%nat) by lia. clear - Ex Bx Bg.
      assert (P : exists L1, x = pre ++ L1 /\ line ++ post = L1 ++ g ++ y).
      { revert x Ex Bx Bg. induction pre as [|c p IH]; intros x Ex Bx Bg; [exists x; auto|]. destruct x as [|d x]; [cbn in Bx; pose proof (utf8_len_pos c); lia|]. cbn in Ex. injection Ex as <- Ex.
        destruct (IH x Ex) as (L1 & -> & E); [cbn in Bx; lia|cbn in Bg; lia|]. exists L1. auto. }
      destruct P as (L1 & -> & E). rewrite bytes_app in *. assert (Bx' : (bytes L1 <= bytes line)%nat) by lia. assert (Bg' : (bytes line <= bytes L1 + bytes g)%nat) by lia. clear Bx Bg Ex.
      assert (P : exists L2, line = L1 ++ L2 /\ L2 ++ post = g ++ y).
      { revert L1 E Bx' Bg'. induction line as [|c l IH]; intros L1 E Bx Bg; [assert (Z : bytes L1 = 0%nat) by (cbn in Bx; lia); apply bytes_0 in Z; subst L1; exists []; auto|].
        destruct L1 as [|d L1]; [exists (c :: l); auto|]. cbn in E. injection E as <- E. destruct (IH L1 E) as (L2 & -> & E2); [cbn in Bx; lia|cbn in Bg; lia|]. exists L2. auto. }
      destruct P as (L2 & -> & E2). rewrite bytes_app in Bg'. assert (Bg : (bytes L2 <= bytes g)%nat) by lia. clear E Bx' Bg'.
      assert (P : exists g', g = L2 ++ g' /\ post = g' ++ y).
      { revert g E2 Bg. induction L2 as [|c l IH]; intros g E2 Bg; [exists g; auto|]. destruct g as [|d g]; [cbn in Bg; pose proof (utf8_len_pos c); lia|]. cbn in E2. injection E2 as <- E2.
        destruct (IH g E2) as (g' & -> & ->); [cbn in Bg; lia|]. exists g'. auto. }
      destruct P as (g' & -> & ->). exists L1, L2, g'. auto. }
    destruct X as (L1 & L2 & g' & -> & El & -> & Ep).
    assert (F2 : no_nl L2) by (rewrite El in no_nl_line; apply Forall_app in no_nl_line; apply no_nl_line).
    assert (N9 : ~ In 9 L2) by (intros Hi; apply no_tab; rewrite El; apply in_or_app; right; exact Hi).
    assert (N12 : ~ In 12 L2) by (intros Hi; apply no_form_feed; rewrite El; apply in_or_app; right; exact Hi).
    assert (Ng : nl_end g') by (destruct g' as [|c g']; [auto|right; destruct post_here as [Z|(d & p & Z & Hd)]; rewrite Z in Ep; [discriminate|injection Ep as -> _; eauto]]).
    destruct (gap_line L2 g' Gg F2 Ng N9 N12) as (sp & Hsp & Q).
    assert (Q' : L2 = sp \/ exists b, L2 = sp ++ 35 :: b).
    { destruct Q as [Q|[Q|(Q & Ne)]]; [auto|auto|]. exfalso. destruct Hb as [Hb|Hb]; [rewrite Hb in Ep; destruct g'; [apply Ne; reflexivity|discriminate]|].
      rewrite El, Q, app_assoc in Hb. rewrite (proj2 (strip_last_iff 92 _ (L1 ++ sp)) eq_refl) in Hb. discriminate. }
    exists (new_comment k e). apply (finish _ L1 L2 (Codes e)).
    + exact El.
    + rewrite <- Ei. cbn [insertion_index]. rewrite bytes_app in Ax. lia.
    + rewrite <- Ei. reflexivity.
    + apply new_comment_no_nl. exact plain_e.
    + apply (new_comment_carries k e L1 L2 sp plain_e Hsp Q').
    + right. exists e. split; [apply plain_listed; exact plain_e|auto].
Qed.
End Fix.
