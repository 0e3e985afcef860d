(** Proofs about the edits that add an import. *)
From Coq Require Import Ascii String List Bool PeanoNat Lia.
From Verif Require Import AutoImportModel AutoImportSpec.
Import ListNotations.
Open Scope nat_scope.
Open Scope list_scope.

(** ** Texts *)
Lemma is_char_eq : forall c d, is_char c d = true <-> c = d.
Proof. intros c d. unfold is_char. destruct (ascii_dec c d); split; congruence. Qed.
Lemma is_char_neq : forall c d, is_char c d = false <-> c <> d.
Proof. intros c d. unfold is_char. destruct (ascii_dec c d); split; congruence. Qed.

Lemma find_first : forall c a b, ~ In c a -> find c (a ++ c :: b) = Some (length a).
Proof.
  intros c a b H. induction a as [| d a IH]; cbn [app find length].
  - rewrite (proj2 (is_char_eq c c) eq_refl). reflexivity.
  - rewrite (proj2 (is_char_neq c d)) by (intros ->; apply H; left; reflexivity).
    rewrite IH by (intro Ha; apply H; right; exact Ha). reflexivity.
Qed.

Lemma firstn_exact : forall A (a b : list A), firstn (length a) (a ++ b) = a.
Proof. intros A a b. rewrite firstn_app, Nat.sub_diag, firstn_all. cbn. apply app_nil_r. Qed.
Lemma skipn_exact : forall A (a b : list A), skipn (length a) (a ++ b) = b.
Proof. intros A a b. rewrite skipn_app, Nat.sub_diag, skipn_all. reflexivity. Qed.

Lemma lines_text_app : forall a b, lines_text (a ++ b) = lines_text a ++ lines_text b.
Proof. intros a b. unfold lines_text. apply flat_map_app. Qed.
Lemma smalls_text_app : forall a b, smalls_text (a ++ b) = smalls_text a ++ smalls_text b.
Proof. intros a b. unfold smalls_text. apply flat_map_app. Qed.

(** ** Trivia *)
Lemma trivia_newline : forall t, trivia t -> trivia (newline :: t).
Proof.
  intros t H. apply (Trivia_line [] t); [| exact H]. exists [], []. split; [reflexivity |]. split; [constructor |].
  split; [left; reflexivity | intros []].
Qed.
Lemma trivia_app : forall a b, trivia a -> trivia b -> trivia (a ++ b).
Proof.
  intros a b Ha Hb. induction Ha as [| t rest Ht Hr IH]; [exact Hb |].
  rewrite <- app_assoc. cbn [app]. apply Trivia_line; assumption.
Qed.
Definition padding (x : text) : Prop := x = [] \/ x = [newline].
Lemma trivia_padding : forall x t, padding x -> trivia t -> trivia (x ++ t).
Proof. intros x t [-> | ->] H; [exact H | apply trivia_newline; exact H]. Qed.

(** The scan stops at the start of a line. *)
Lemma blank_not_newline : forall c, blank c -> is_char c newline = false /\ is_ascii_whitespace c = true.
Proof. intros c [<- | [<- | [<- | [<- | []]]]]; split; reflexivity. Qed.

Lemma empty_line_no_newline : forall t, empty_line t -> ~ In newline t.
Proof.
  intros t (b & c & -> & Hb & _ & Hc) H. apply in_app_iff in H. destruct H as [H | H]; [| contradiction].
  rewrite Forall_forall in Hb. specialize (Hb _ H). destruct Hb as [E | [E | [E | [E | []]]]]; discriminate E.
Qed.

(** Trivia is cut after a newline into trivia. *)
Lemma trivia_cut : forall t, trivia t -> forall a b, t = a ++ newline :: b -> trivia (a ++ [newline]) /\ trivia b.
Proof.
  intros t H. induction H as [| t rest Ht Hr IH]; intros a b E; [destruct a; discriminate E |].
  pose proof (empty_line_no_newline t Ht) as Hn.
  assert (D : (a = t /\ b = rest) \/ exists a2, a = t ++ newline :: a2 /\ rest = a2 ++ newline :: b).
  { clear - Hn E. revert a E. induction t as [| c t IHt]; intros a E.
    - destruct a as [| d a]; cbn [app] in E; [injection E as <-; left; split; reflexivity |].
      injection E as <- E. right. exists a. split; [reflexivity | exact E].
    - destruct a as [| d a]; cbn [app] in E; injection E as E1 E2.
      + subst c. exfalso. apply Hn. left. reflexivity.
      + destruct (IHt (fun H => Hn (or_intror H)) a E2) as [[-> ->] | (a2 & -> & E3)].
        * left. subst d. split; reflexivity.
        * right. exists a2. subst d. split; [reflexivity | exact E3]. }
  destruct D as [[-> ->] | (a2 & -> & E2)].
  - split; [apply (Trivia_line t []); [exact Ht | constructor] | exact Hr].
  - destruct (IH a2 b E2) as [H1 H2]. split; [| exact H2]. rewrite <- app_assoc. cbn [app]. apply Trivia_line; assumption.
Qed.

Lemma scan_cut : forall r i last n suffix, scan i last r = Some n -> i = length suffix ->
  (last = 0 \/ exists s1 s2, suffix = s1 ++ newline :: s2 /\ length s2 = last) ->
  n = 0 \/ exists s1 s2, rev r ++ suffix = s1 ++ newline :: s2 /\ length s2 = n.
Proof.
  induction r as [| c r IH]; intros i last n suffix E Hi Hl; cbn [scan] in E; [discriminate |].
  cbn [rev]. rewrite <- app_assoc. cbn [app].
  assert (Hl2 : last = 0 \/ exists s1 s2, c :: suffix = s1 ++ newline :: s2 /\ length s2 = last).
  { destruct Hl as [Hl | (s1 & s2 & -> & Hl)]; [left; exact Hl | right; exists (c :: s1), s2; split; [reflexivity | exact Hl]]. }
  destruct (is_char c newline) eqn:Ec; [| destruct (is_ascii_whitespace c)].
  - apply is_char_eq in Ec. subst c. apply (IH (S i) i n (newline :: suffix) E); [cbn; congruence |].
    right. exists [], suffix. split; [reflexivity | congruence].
  - apply (IH (S i) last n (c :: suffix) E); [cbn; congruence | exact Hl2].
  - injection E as <-. destruct Hl2 as [Hl2 | (s1 & s2 & E & Hl2)]; [left; exact Hl2 |].
    right. exists (rev r ++ s1), s2. rewrite E, <- app_assoc. split; [reflexivity | exact Hl2].
Qed.

(** The place in the prefix of the first statement *)
Lemma end_at_cut : forall prefix, trivia prefix ->
  exists p1 p2, prefix = p1 ++ p2 /\ trivia p1 /\ trivia p2 /\ end_at true 0 prefix = length p1.
Proof.
  intros prefix H. unfold end_at. destruct (scan 0 0 (rev prefix)) as [n |] eqn:E.
  - apply (scan_cut _ 0 0 n []) in E; [| reflexivity | left; reflexivity].
    rewrite rev_involutive, app_nil_r in E. destruct E as [-> | (s1 & s2 & E & Hn)].
    + exists prefix, []. rewrite app_nil_r. split; [reflexivity |]. split; [exact H |]. split; [constructor | lia].
    + exists (s1 ++ [newline]), s2. destruct (trivia_cut prefix H s1 s2 E) as [H1 H2].
      split; [rewrite E, <- app_assoc; reflexivity |]. split; [exact H1 |]. split; [exact H2 |].
      rewrite E, !app_length. cbn [length]. lia.
  - exists [], prefix. split; [reflexivity |]. split; [constructor |]. split; [exact H | reflexivity].
Qed.

(** ** The loop over the imports *)
Definition item : Type := nat * nat * option import_kind.
Definition i_start (i : item) : nat := fst (fst i).
Definition i_end (i : item) : nat := snd (fst i).

Lemma through_char : forall code eoi kind beyond, (forall i, In i beyond -> eoi <= i_start i) -> forall items prev,
  (forall i, In i items -> i_start i < eoi) ->
  exists i1 i2, items = i1 ++ i2
    /\ (forall i k, In i i1 -> snd i = Some k -> less kind k = false)
    /\ (i2 = [] \/ exists s e k rest, i2 = (s, e, Some k) :: rest /\ less kind k = true)
    /\ ((exists a s e k b, i1 = a ++ (s, e, Some k) :: b /\ (forall i, In i b -> snd i = None)
           /\ through code eoi kind (items ++ beyond) prev = (newline_end_after_import code e, less k kind))
        \/ (forall i, In i i1 -> snd i = None)
           /\ through code eoi kind (items ++ beyond) prev =
              match prev with
              | Some (k, p) => (p, less k kind)
              | None => match i2 with [] => (eoi, false) | i :: _ => (i_start i, false) end
              end).
Proof.
  intros code eoi kind beyond Hb. induction items as [| [[s e] k] items IH]; intros prev Hs.
  - exists [], []. split; [reflexivity |]. split; [intros i k [] |]. split; [left; reflexivity |]. right. split; [intros i [] |].
    cbn [app]. destruct beyond as [| [[s e] k] beyond]; cbn [through]; [destruct prev as [[k p] |]; reflexivity |].
    specialize (Hb (s, e, k) (or_introl eq_refl)). cbn [i_start fst] in Hb. rewrite (proj2 (Nat.leb_le eoi s) Hb).
    destruct prev as [[pk p] |]; reflexivity.
  - pose proof (Hs (s, e, k) (or_introl eq_refl)) as H0. cbn [i_start fst] in H0.
    assert (Hs2 : forall i, In i items -> i_start i < eoi) by (intros i Hi; apply Hs; right; exact Hi).
    cbn [app through]. rewrite (proj2 (Nat.leb_gt eoi s) H0). destruct k as [k |].
    + destruct (less kind k) eqn:El.
      * exists [], ((s, e, Some k) :: items). split; [reflexivity |]. split; [intros i k2 [] |].
        split; [right; exists s, e, k, items; split; [reflexivity | exact El] |].
        right. split; [intros i [] |]. destruct prev as [[pk p] |]; reflexivity.
      * destruct (IH (Some (k, newline_end_after_import code e)) Hs2) as (i1 & i2 & E & H1 & H2 & H3).
        exists ((s, e, Some k) :: i1), i2. split; [rewrite E; reflexivity |].
        split; [intros i k2 [<- | Hi] Ek; [cbn [snd] in Ek; injection Ek as <-; exact El | exact (H1 i k2 Hi Ek)] |].
        split; [exact H2 |]. left. destruct H3 as [(a & s2 & e2 & k2 & b & -> & Hn & ->) | (Hn & ->)].
        -- exists ((s, e, Some k) :: a), s2, e2, k2, b. split; [reflexivity |]. split; [exact Hn | reflexivity].
        -- exists [], s, e, k, i1. split; [reflexivity |]. split; [exact Hn | reflexivity].
    + destruct (IH prev Hs2) as (i1 & i2 & E & H1 & H2 & H3).
      exists ((s, e, None) :: i1), i2. split; [rewrite E; reflexivity |].
      split; [intros i k2 [<- | Hi] Ek; [discriminate Ek | exact (H1 i k2 Hi Ek)] |]. split; [exact H2 |].
      destruct H3 as [(a & s2 & e2 & k2 & b & -> & Hn & ->) | (Hn & ->)].
      * left. exists ((s, e, None) :: a), s2, e2, k2, b. split; [reflexivity |]. split; [exact Hn | reflexivity].
      * right. split; [| reflexivity]. intros i [<- | Hi]; [reflexivity | exact (Hn i Hi)].
Qed.

(** ** Where the imports are *)
Lemma small_imports_split : forall l off i1 s e k i2, small_imports off l = i1 ++ (s, e, k) :: i2 ->
  exists a x b fu, l = a ++ x :: b /\ s_what x = Import k fu
    /\ s = off + length (smalls_text a) + length (s_gap x) /\ e = off + length (smalls_text (a ++ [x]))
    /\ i2 = small_imports (off + length (smalls_text (a ++ [x]))) b.
Proof.
  induction l as [| y l IH]; intros off i1 s e k i2 E; cbn [small_imports] in E; [destruct i1; discriminate E |].
  assert (R : forall i1, small_imports (off + length (small_text y)) l = i1 ++ (s, e, k) :: i2 ->
    exists a x b fu, y :: l = a ++ x :: b /\ s_what x = Import k fu
    /\ s = off + length (smalls_text a) + length (s_gap x) /\ e = off + length (smalls_text (a ++ [x]))
    /\ i2 = small_imports (off + length (smalls_text (a ++ [x]))) b).
  { intros j E2. destruct (IH _ _ _ _ _ _ E2) as (a & x & b & fu & -> & Hx & -> & -> & ->). exists (y :: a), x, b, fu.
    split; [reflexivity |]. split; [exact Hx |]. cbn [app smalls_text flat_map].
    change (flat_map small_text a) with (smalls_text a). change (flat_map small_text (a ++ [x])) with (smalls_text (a ++ [x])).
    rewrite !app_length. split; [lia |]. split; [lia |]. f_equal. lia. }
  destruct (s_what y) as [| kind fu |] eqn:Ey; try (exact (R i1 E)).
  destruct i1 as [| i i1]; cbn [app] in E; [| injection E as _ E; exact (R i1 E)].
  injection E as <- <- <- <-. exists [], y, l, fu. split; [reflexivity |]. split; [exact Ey |].
  cbn [app smalls_text flat_map length]. rewrite app_nil_r. split; [lia |]. split; reflexivity.
Qed.

Lemma all_imports_split : forall lines off i1 s e k i2, all_imports off lines = i1 ++ (s, e, k) :: i2 ->
  exists l1 l l2 a x b fu, lines = l1 ++ l :: l2 /\ l_smalls l = a ++ x :: b /\ s_what x = Import k fu
    /\ s = off + length (lines_text l1) + length (l_prefix l) + length (smalls_text a) + length (s_gap x)
    /\ e = off + length (lines_text l1) + length (l_prefix l) + length (smalls_text (a ++ [x]))
    /\ i2 = small_imports e b ++ all_imports (off + length (lines_text (l1 ++ [l]))) l2.
Proof.
  induction lines as [| m lines IH]; intros off i1 s e k i2 E; cbn [all_imports] in E; [destruct i1; discriminate E |].
  remember (small_imports (off + length (l_prefix m)) (l_smalls m)) as first eqn:Ef.
  assert (D : (exists j, first = i1 ++ (s, e, k) :: j /\ i2 = j ++ all_imports (off + length (line_text m)) lines)
              \/ exists j, all_imports (off + length (line_text m)) lines = j ++ (s, e, k) :: i2).
  { clear - E. revert i1 E. induction first as [| f first IHf]; intros i1 E; cbn [app] in E; [right; exists i1; exact E |].
    destruct i1 as [| i i1]; cbn [app] in E; injection E as E1 E2.
    - left. exists first. subst f. split; [reflexivity | congruence].
    - destruct (IHf i1 E2) as [(j & -> & ->) | (j & Ej)]; [left; exists j; subst f; split; reflexivity | right; exists j; exact Ej]. }
  destruct D as [(j & E1 & ->) | (j & E1)].
  - rewrite E1 in Ef. symmetry in Ef. apply small_imports_split in Ef. destruct Ef as (a & x & b & fu & Hl & Hx & -> & -> & ->).
    exists [], m, lines, a, x, b, fu. split; [reflexivity |]. split; [exact Hl |]. split; [exact Hx |].
    cbn [lines_text flat_map length app]. rewrite app_nil_r. split; [lia |]. split; [lia |]. rewrite Nat.add_0_r || idtac; f_equal; f_equal; lia.
  - destruct (IH _ _ _ _ _ _ E1) as (l1 & l & l2 & a & x & b & fu & -> & Hl & Hx & -> & -> & ->).
    exists (m :: l1), l, l2, a, x, b, fu. split; [reflexivity |]. split; [exact Hl |]. split; [exact Hx |].
    cbn [app lines_text flat_map]. change (flat_map line_text l1) with (lines_text l1).
    change (flat_map line_text (l1 ++ [l])) with (lines_text (l1 ++ [l])).
    rewrite !app_length. split; [lia |]. split; [lia |]. f_equal; f_equal; lia.
Qed.

Lemma all_imports_app : forall l1 l2 off, all_imports off (l1 ++ l2) = all_imports off l1 ++ all_imports (off + length (lines_text l1)) l2.
Proof.
  induction l1 as [| l l1 IH]; intros l2 off; cbn [app all_imports].
  - cbn [lines_text flat_map length]. rewrite Nat.add_0_r. reflexivity.
  - rewrite IH, <- app_assoc. f_equal. f_equal. f_equal. cbn [lines_text flat_map]. change (flat_map line_text l1) with (lines_text l1).
    rewrite app_length. lia.
Qed.

(** Where an import ends *)
Lemma all_imports_bounds : forall lines off i, In i (all_imports off lines) ->
  off + match lines with l :: _ => length (l_prefix l) | [] => 0 end <= i_start i /\ i_start i <= i_end i.
Proof.
  intros lines off [[s e] k] Hi. apply in_split in Hi. destruct Hi as (i1 & i2 & E).
  destruct (all_imports_split _ _ _ _ _ _ _ E) as (l1 & l & l2 & a & x & b & fu & -> & Hl & Hx & -> & -> & _).
  cbn [i_start i_end fst snd]. rewrite smalls_text_app, app_length. cbn [smalls_text flat_map]. rewrite app_nil_r.
  unfold small_text. rewrite app_length. split; [| lia].
  destruct l1 as [| l0 l1]; cbn [app lines_text flat_map length]; [lia |].
  unfold line_text at 1. rewrite !app_length. lia.
Qed.

Lemma newline_end : forall l1 l l2 tail a x b, line_ok l -> tidy l -> l_smalls l = a ++ x :: b -> imported x ->
  newline_end_after_import (lines_text (l1 ++ l :: l2) ++ tail) (length (lines_text l1) + length (l_prefix l) + length (smalls_text (a ++ [x])))
  = length (lines_text (l1 ++ [l])).
Proof.
  intros l1 l l2 tail a x b Hok Ht Hl Hx. destruct (Ht a x b Hl Hx) as [Hb Hn].
  assert (En : exists r, l_newline l = r ++ [newline] /\ ~ In newline r).
  { destruct (ok_newline l Hok) as [E | [E | E]]; [| | contradiction].
    - exists []. split; [exact E | intros []].
    - exists [carriage_return]. split; [exact E |]. intros [E2 | []]. discriminate E2. }
  destruct En as (r & En & Hr). unfold newline_end_after_import.
  assert (E : lines_text (l1 ++ l :: l2) ++ tail =
    (lines_text l1 ++ l_prefix l ++ smalls_text (a ++ [x])) ++ (smalls_text b ++ l_rest l ++ r) ++ newline :: lines_text l2 ++ tail).
  { rewrite lines_text_app. cbn [lines_text flat_map]. change (flat_map line_text l2) with (lines_text l2).
    unfold line_text. rewrite Hl, En. replace (a ++ x :: b) with ((a ++ [x]) ++ b) by (rewrite <- app_assoc; reflexivity).
    rewrite (smalls_text_app (a ++ [x]) b). rewrite <- !app_assoc. reflexivity. }
  rewrite E.
  assert (El : length (lines_text l1) + length (l_prefix l) + length (smalls_text (a ++ [x]))
               = length (lines_text l1 ++ l_prefix l ++ smalls_text (a ++ [x]))) by (rewrite !app_length; lia).
  rewrite El, skipn_exact. rewrite find_first.
  - rewrite lines_text_app. cbn [lines_text flat_map]. rewrite app_nil_r. unfold line_text. rewrite Hl, En.
    replace (a ++ x :: b) with ((a ++ [x]) ++ b) by (rewrite <- app_assoc; reflexivity).
    rewrite (smalls_text_app (a ++ [x]) b). rewrite !app_length. cbn [length]. lia.
  - intro H. rewrite !in_app_iff in H. destruct H as [H | [H | H]]; [exact (Hb H) | exact (ok_rest l Hok H) | exact (Hr H)].
Qed.

(** ** The first imports *)
Lemma region : forall lines first off tail, exists r b, lines = r ++ b
  /\ (forall l, In l r -> forall s, In s (l_smalls l) -> imported s \/ exists t, In t (l_smalls l) /\ s_what t = StringExpression)
  /\ imports_end first off lines tail =
     match r with
     | [] => end_at first off (match b with l :: _ => l_prefix l | [] => tail end)
     | _ => off + length (lines_text r)
     end.
Proof.
  induction lines as [| l lines IH]; intros first off tail; cbn [imports_end].
  - exists [], []. split; [reflexivity |]. split; [intros l [] | reflexivity].
  - destruct (are_imports first (l_smalls l)) eqn:Ea.
    + destruct (IH false (off + length (line_text l)) tail) as (r & b & -> & Hr & ->).
      exists (l :: r), b. split; [reflexivity |]. split.
      * intros m [<- | Hm]; [| apply Hr; exact Hm]. intros s Hs. clear - Ea Hs. revert Ea Hs. generalize (l_smalls l).
        induction l0 as [| t l0 IHl]; intros Ea Hs; [destruct Hs |]. cbn [are_imports] in Ea.
        destruct (s_what t) as [| k fu |] eqn:Et; [| | discriminate].
        -- right. exists t. split; [left; reflexivity | exact Et].
        -- destruct Hs as [<- | Hs]; [left; unfold imported; rewrite Et; exact Logic.I |].
           destruct (IHl Ea Hs) as [H | (u & Hu & Eu)]; [left; exact H | right; exists u; split; [right; exact Hu | exact Eu]].
      * cbn [lines_text flat_map]. change (flat_map line_text r) with (lines_text r). rewrite app_length.
        destruct r as [| m r]; [unfold end_at; destruct (match b with [] => tail | l0 :: _ => l_prefix l0 end); cbn [lines_text flat_map length]; lia | lia].
    + exists [], (l :: lines). split; [reflexivity |]. split; [intros m [] | reflexivity].
Qed.

(** ** Files with a new line *)
Section New.
Variable stmt : text.
Variable kind : import_kind.
Definition new_small (gap : text) : small := mk_small gap stmt (Import (Some kind) false).
Definition before_rest (x : text) (lines : list line) (tail : text) (p2 : text) : list line * text :=
  match lines with
  | l :: lines => (mk_line (x ++ p2) (l_smalls l) (l_rest l) (l_newline l) :: lines, tail)
  | [] => ([], x ++ p2)
  end.
Definition head_prefix (lines : list line) (tail : text) : text := match lines with l :: _ => l_prefix l | [] => tail end.

(** At the start of a line *)
Lemma new_line : forall l1 l2 tail p1 p2 (nl x : text), Forall line_ok (l1 ++ l2) ->
  (exists t last, tail = t ++ last /\ trivia t /\ empty_line last) ->
  head_prefix l2 tail = p1 ++ p2 -> trivia p1 -> (p1 = [] \/ trivia p2 /\ l2 <> []) -> padding nl -> padding x ->
  let f' := mk_file (l1 ++ mk_line (p1 ++ nl) [new_small []] [] [newline] :: fst (before_rest x l2 tail p2)) (snd (before_rest x l2 tail p2)) in
  file_text f' = firstn (length (lines_text l1 ++ p1)) (lines_text (l1 ++ l2) ++ tail)
                 ++ (nl ++ stmt ++ [newline] ++ x) ++ skipn (length (lines_text l1 ++ p1)) (lines_text (l1 ++ l2) ++ tail)
  /\ file_ok f'
  /\ statements f' = statements (mk_file l1 []) ++ (stmt, Import (Some kind) false) :: statements (mk_file l2 []).
Proof.
  intros l1 l2 tail p1 p2 nl x Hok Htail Hp Hp1 Hp2 Hnl Hx f'. apply Forall_app in Hok. destruct Hok as [Hok1 Hok2].
  assert (Etext : exists rest, lines_text (l1 ++ l2) ++ tail = (lines_text l1 ++ p1) ++ p2 ++ rest
                  /\ lines_text (fst (before_rest x l2 tail p2)) ++ snd (before_rest x l2 tail p2) = x ++ p2 ++ rest).
  { rewrite lines_text_app. destruct l2 as [| l l2]; cbn [head_prefix before_rest fst snd] in *.
    - exists []. cbn [lines_text flat_map]. rewrite !app_nil_r, Hp, <- !app_assoc. split; reflexivity.
    - exists (smalls_text (l_smalls l) ++ l_rest l ++ l_newline l ++ lines_text l2 ++ tail).
      cbn [lines_text flat_map]. change (flat_map line_text l2) with (lines_text l2).
      change (line_text l) with (l_prefix l ++ smalls_text (l_smalls l) ++ l_rest l ++ l_newline l).
      change (line_text (mk_line (x ++ p2) (l_smalls l) (l_rest l) (l_newline l)))
        with ((x ++ p2) ++ smalls_text (l_smalls l) ++ l_rest l ++ l_newline l).
      rewrite Hp, <- !app_assoc. split; reflexivity. }
  destruct Etext as (rest & E1 & E2). split; [| split].
  - rewrite E1, firstn_exact, skipn_exact. subst f'. unfold file_text. cbn [f_lines f_tail].
    rewrite lines_text_app. cbn [lines_text flat_map]. change (flat_map line_text (fst (before_rest x l2 tail p2)))
      with (lines_text (fst (before_rest x l2 tail p2))).
    change (line_text (mk_line (p1 ++ nl) [new_small []] [] [newline])) with ((p1 ++ nl) ++ (stmt ++ []) ++ [newline]).
    rewrite app_nil_r, <- !app_assoc. rewrite E2. reflexivity.
  - subst f'. split; cbn [f_lines f_tail].
    + apply Forall_app. split; [exact Hok1 |]. constructor.
      * split; cbn [l_prefix l_smalls l_rest l_newline].
        -- destruct Hnl as [-> | ->]; [rewrite app_nil_r; exact Hp1 | apply trivia_app; [exact Hp1 | apply trivia_newline; constructor]].
        -- exists (new_small []), []. split; [reflexivity |]. split; [reflexivity | constructor].
        -- intros [].
        -- left. reflexivity.
      * destruct l2 as [| l l2]; cbn [before_rest fst]; [constructor |]. inversion Hok2 as [| m ms Hl Hls]. subst. constructor; [| exact Hls].
        split; cbn [l_prefix l_smalls l_rest l_newline]; [| apply (ok_smalls l Hl) | apply (ok_rest l Hl) | apply (ok_newline l Hl)].
        apply trivia_padding; [exact Hx |]. destruct Hp2 as [-> | [Hp2 _]]; [| exact Hp2].
        cbn [head_prefix app] in Hp. rewrite <- Hp. apply (ok_prefix l Hl).
    + destruct l2 as [| l l2]; cbn [before_rest snd]; [| exact Htail]. destruct Hp2 as [-> | [_ H]]; [| congruence].
      cbn [head_prefix app] in Hp. subst p2. destruct Htail as (t & last & -> & Ht & Hlast).
      exists (x ++ t), last. split; [rewrite app_assoc; reflexivity |]. split; [apply trivia_padding; assumption | exact Hlast].
  - subst f'. unfold statements. cbn [f_lines]. rewrite flat_map_app, map_app. cbn [flat_map l_smalls app map s_code s_what new_small].
    destruct l2 as [| l l2]; reflexivity.
Qed.

(** Before a statement of a line *)
Lemma new_before : forall l1 l l2 tail a s b x, Forall line_ok (l1 ++ l :: l2) ->
  (exists t last, tail = t ++ last /\ trivia t /\ empty_line last) ->
  l_smalls l = a ++ s :: b -> padding x ->
  let start := lines_text l1 ++ l_prefix l ++ smalls_text a ++ s_gap s in
  let f' := mk_file (l1 ++ mk_line (l_prefix l) (a ++ [new_small (s_gap s)]) [] [newline]
                        :: mk_line x (mk_small [] (s_code s) (s_what s) :: b) (l_rest l) (l_newline l) :: l2) tail in
  file_text f' = firstn (length start) (lines_text (l1 ++ l :: l2) ++ tail)
                 ++ ([] ++ stmt ++ [newline] ++ x) ++ skipn (length start) (lines_text (l1 ++ l :: l2) ++ tail)
  /\ file_ok f'
  /\ statements f' = (statements (mk_file l1 []) ++ map (fun s => (s_code s, s_what s)) a)
                     ++ (stmt, Import (Some kind) false) :: map (fun s => (s_code s, s_what s)) (s :: b) ++ statements (mk_file l2 []).
Proof.
  intros l1 l l2 tail a s b x Hok Htail Hl Hx start f'. apply Forall_app in Hok. destruct Hok as [Hok1 Hok2].
  inversion Hok2 as [| m ms Hlok Hok3]. subst m ms. split; [| split].
  - assert (E : lines_text (l1 ++ l :: l2) ++ tail = start ++ s_code s ++ smalls_text b ++ l_rest l ++ l_newline l ++ lines_text l2 ++ tail).
    { subst start. rewrite lines_text_app. cbn [lines_text flat_map]. change (flat_map line_text l2) with (lines_text l2).
      change (line_text l) with (l_prefix l ++ smalls_text (l_smalls l) ++ l_rest l ++ l_newline l).
      rewrite Hl, smalls_text_app. cbn [smalls_text flat_map]. change (flat_map small_text b) with (smalls_text b).
      unfold small_text at 1. rewrite <- !app_assoc. reflexivity. }
    rewrite E, firstn_exact, skipn_exact. subst f' start. unfold file_text. cbn [f_lines f_tail].
    rewrite lines_text_app. cbn [lines_text flat_map]. change (flat_map line_text l2) with (lines_text l2).
    change (line_text (mk_line (l_prefix l) (a ++ [new_small (s_gap s)]) [] [newline]))
      with (l_prefix l ++ smalls_text (a ++ [new_small (s_gap s)]) ++ [newline]).
    change (line_text (mk_line x (mk_small [] (s_code s) (s_what s) :: b) (l_rest l) (l_newline l)))
      with (x ++ (s_code s ++ smalls_text b) ++ l_rest l ++ l_newline l).
    rewrite smalls_text_app. change (smalls_text [new_small (s_gap s)]) with ((s_gap s ++ stmt) ++ []). rewrite app_nil_r.
    rewrite <- !app_assoc. reflexivity.
  - subst f'. split; cbn [f_lines f_tail]; [| exact Htail]. apply Forall_app. split; [exact Hok1 |].
    destruct (ok_smalls l Hlok) as (s0 & others & E & Hg & Ho). constructor; [| constructor; [| exact Hok3]].
    + split; cbn [l_prefix l_smalls l_rest l_newline]; [apply (ok_prefix l Hlok) | | intros [] | left; reflexivity].
      destruct a as [| a0 a]; cbn [app] in *.
      * exists (new_small (s_gap s)), []. split; [reflexivity |]. split; [| constructor]. cbn. congruence.
      * rewrite Hl in E. injection E as <- E. exists a0, (a ++ [new_small (s_gap s)]). split; [reflexivity |]. split; [exact Hg |].
        rewrite <- E in Ho. apply Forall_app in Ho. destruct Ho as [Ho1 Ho2]. inversion Ho2 as [| m ms Hm Hms]. subst.
        apply Forall_app. split; [exact Ho1 | constructor; [exact Hm | constructor]].
    + split; cbn [l_prefix l_smalls l_rest l_newline]; [| | apply (ok_rest l Hlok) | apply (ok_newline l Hlok)].
      * destruct Hx as [-> | ->]; [constructor | apply trivia_newline; constructor].
      * exists (mk_small [] (s_code s) (s_what s)), b. split; [reflexivity |]. split; [reflexivity |].
        rewrite Hl in E. destruct a as [| a0 a]; cbn [app] in E; injection E as _ E; rewrite <- E in Ho; [exact Ho |].
        apply Forall_app in Ho. destruct Ho as [_ Ho]. inversion Ho as [| m ms Hm Hms]. exact Hms.
  - subst f'. unfold statements. cbn [f_lines]. rewrite flat_map_app, map_app. cbn [flat_map l_smalls].
    rewrite !map_app. cbn [map s_code s_what new_small app]. rewrite <- !app_assoc. reflexivity.
Qed.
End New.
