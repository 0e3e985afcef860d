(** C74: The quick fix that adds an import adds just this import. *)
From Coq Require Import Ascii String List Bool PeanoNat Lia.
From Verif Require Import AutoImportModel AutoImportSpec AutoImport.
Import ListNotations.
Open Scope nat_scope.
Open Scope list_scope.

Lemma newline_not_empty : forall l, line_ok l -> 1 <= length (l_newline l).
Proof. intros l H. destruct (ok_newline l H) as [-> | [-> | ->]]; cbn; lia. Qed.

Lemma items_inside : forall r, Forall line_ok r -> forall i, In i (all_imports 0 r) -> i_start i < length (lines_text r).
Proof.
  intros r Hok [[s e] k] Hi. apply in_split in Hi. destruct Hi as (i1 & i2 & E).
  destruct (all_imports_split _ _ _ _ _ _ _ E) as (l1 & l & l2 & a & x & b & fu & -> & Hl & Hx & -> & -> & _).
  cbn [i_start fst]. rewrite lines_text_app, app_length. cbn [lines_text flat_map]. rewrite app_length.
  change (line_text l) with (l_prefix l ++ smalls_text (l_smalls l) ++ l_rest l ++ l_newline l).
  rewrite Hl, smalls_text_app. cbn [smalls_text flat_map]. unfold small_text at 1. rewrite !app_length.
  apply Forall_app in Hok. destruct Hok as [_ Hok]. inversion Hok as [| m ms Hm Hms]. pose proof (newline_not_empty l Hm). 
  change (flat_map small_text a) with (smalls_text a). lia.
Qed.

Lemma beyond_region : forall f r b, file_ok f -> f_lines f <> [] -> f_lines f = r ++ b ->
  initial_imports_end_code_index f =
     match r with [] => end_at true 0 (match b with l :: _ => l_prefix l | [] => f_tail f end) | _ => 0 + length (lines_text r) end ->
  forall i, In i (all_imports (0 + length (lines_text r)) b) -> initial_imports_end_code_index f <= i_start i.
Proof.
  intros f r b [Hok _] Hne E Ee i Hi. rewrite Ee. pose proof (all_imports_bounds _ _ _ Hi) as [H _]. destruct r as [| m r].
  - destruct b as [| l b]; [destruct Hi |].
    rewrite E in Hok. cbn [app] in Hok. inversion Hok as [| m ms Hm Hms].
    destruct (end_at_cut (l_prefix l) (ok_prefix l Hm)) as (p1 & p2 & Ep & _ & _ & ->). rewrite Ep, app_length in H.
    cbn [lines_text flat_map length] in H. lia.
  - lia.
Qed.

(** The edit gives a file with one more statement, which is the import, and it comes before all statements that are not imports. Missing:
    several statements on one line where one after an import takes several lines, and lines that end with a carriage return only. *)
Theorem C74_insert_partial : forall f kind p, file_ok f -> f_lines f <> [] -> Forall tidy (f_lines f) ->
  exists f' before after,
    file_text f' = apply_action (file_text f) (create_import_code_action f kind p)
    /\ file_ok f'
    /\ statements f = before ++ after
    /\ statements f' = before ++ (statement p, Import (Some kind) false) :: after
    /\ ((forall l s, In l (f_lines f) -> In s (l_smalls l) -> s_what s = StringExpression -> forall t, In t (l_smalls l) -> s_what t <> Other) ->
        forall s, In s before -> snd s <> Other).
Proof.
  intros f kind p Hok Hne Htidy. destruct f as [lines tail]. cbn [f_lines f_tail] in *.
  destruct (region lines true 0 tail) as (r & b & -> & Hr & Eend). destruct Hok as [Hok Htail]. cbn [f_lines f_tail] in *.
  pose proof (beyond_region (mk_file (r ++ b) tail) r b (conj Hok Htail) Hne eq_refl Eend) as Hbeyond.
  unfold initial_imports_end_code_index in Hbeyond. cbn [f_lines f_tail] in Hbeyond.
  set (eoi := imports_end true 0 (r ++ b) tail) in *.
  apply Forall_app in Hok as Hok2. destruct Hok2 as [Hokr Hokb].
  assert (Hother : (forall l s, In l (r ++ b) -> In s (l_smalls l) -> s_what s = StringExpression -> forall t, In t (l_smalls l) -> s_what t <> Other) ->
    forall l s, In l r -> In s (l_smalls l) -> s_what s <> Other).
  { intros H l s Hl Hs. destruct (Hr l Hl s Hs) as [Hi | (t & Ht & Et)].
    - unfold imported in Hi. destruct (s_what s); congruence.
    - apply (H l t (in_or_app _ _ _ (or_introl Hl)) Ht Et s Hs). }
  assert (Hin : forall i, In i (all_imports 0 r) -> i_start i < eoi).
  { intros i Hi. rewrite Eend. destruct r as [| m r]; [destruct Hi |]. apply (items_inside _ Hokr i Hi). }
  assert (Hpos : position_for_import (mk_file (r ++ b) tail) kind =
    through (lines_text (r ++ b) ++ tail) eoi kind (all_imports 0 r ++ all_imports (0 + length (lines_text r)) b) None).
  { unfold position_for_import, file_text, initial_imports_end_code_index. cbn [f_lines f_tail]. rewrite all_imports_app. reflexivity. }
  unfold create_import_code_action, apply_action. rewrite Hpos. change (file_text (mk_file (r ++ b) tail)) with (lines_text (r ++ b) ++ tail).
  assert (Hpad : forall c : bool, padding (if c then [newline] else [])) by (intros [|]; [right | left]; reflexivity).
  assert (Hpad2 : forall c : bool, padding (if c then [] else [newline])) by (intros [|]; [left | right]; reflexivity).
  destruct (through_char (lines_text (r ++ b) ++ tail) eoi kind (all_imports (0 + length (lines_text r)) b) Hbeyond (all_imports 0 r) None Hin)
    as (i1 & i2 & Ei & _ & _ & [(a & s & e & k & c & -> & _ & Et) | (_ & Et)]); unfold item in Et; rewrite Et; clear Et.
  - rewrite <- app_assoc in Ei. cbn [app] in Ei.
    destruct (all_imports_split _ _ _ _ _ _ _ Ei) as (l1 & l & l2 & sa & x & sb & fu & -> & Hl & Hx & _ & -> & _).
    assert (Hlin : In l (l1 ++ l :: l2)) by (apply in_or_app; right; left; reflexivity).
    rewrite <- (app_assoc l1). cbn [app]. cbn [Nat.add]. rewrite (newline_end l1 l (l2 ++ b) tail sa x sb).
    + cbn [fst snd]. set (x2 := if starts_new_line _ _ then [] else [newline]).
      replace (l1 ++ l :: l2 ++ b) with ((l1 ++ [l]) ++ l2 ++ b) by (rewrite <- app_assoc; reflexivity).
      destruct (new_line (statement p) kind (l1 ++ [l]) (l2 ++ b) tail [] (head_prefix (l2 ++ b) tail) (if less k kind then [newline] else []) x2)
        as (T1 & T2 & T3); [| exact Htail | reflexivity | apply Trivia_nil | left; reflexivity | apply Hpad | apply Hpad2 |].
      { replace ((l1 ++ [l]) ++ l2 ++ b) with ((l1 ++ l :: l2) ++ b) by (rewrite <- !app_assoc; reflexivity). exact Hok. }
      rewrite app_nil_r in T1. eexists. exists (statements (mk_file (l1 ++ [l]) [])), (statements (mk_file (l2 ++ b) [])).
      split; [rewrite T1, <- ?app_assoc; reflexivity |]. split; [exact T2 |].
      split; [unfold statements; cbn [f_lines]; rewrite <- map_app, <- flat_map_app; reflexivity |]. split; [exact T3 |].
      intros H y Hy. unfold statements in Hy. cbn [f_lines] in Hy. apply in_map_iff in Hy. destruct Hy as (z & <- & Hz).
      apply in_flat_map in Hz. destruct Hz as (m & Hm & Hz). cbn [snd]. apply (Hother) with (l := m); [| | exact Hz].
      * intros l0 s0 Hl0. apply H. rewrite <- !app_assoc. rewrite <- app_assoc in Hl0. exact Hl0.
      * apply in_or_app. apply in_app_iff in Hm. destruct Hm as [Hm | [<- | []]]; [left; exact Hm | right; left; reflexivity].
    + rewrite Forall_forall in Hokr. apply Hokr. exact Hlin.
    + rewrite Forall_forall in Htidy. apply Htidy. apply in_or_app. left. exact Hlin.
    + exact Hl.
    + unfold imported. rewrite Hx. exact Logic.I.
  - destruct i2 as [| [[s e] k] i2].
    + cbn [fst snd]. set (x2 := if starts_new_line _ _ then [] else [newline]).
      destruct r as [| m r].
      * destruct b as [| l b]; [exfalso; apply Hne; reflexivity |]. cbn [app] in *. inversion Hokb as [| m ms Hl Hls].
        destruct (end_at_cut (l_prefix l) (ok_prefix l Hl)) as (p1 & p2 & Ep & Hp1 & Hp2 & Ee).
        rewrite Ee in Eend. rewrite Eend.
        destruct (new_line (statement p) kind [] (l :: b) tail p1 p2 [] x2) as (T1 & T2 & T3);
          [exact Hok | exact Htail | exact Ep | exact Hp1 | right; split; [exact Hp2 | discriminate] | left; reflexivity | apply Hpad2 |].
        change (lines_text [] ++ p1) with p1 in T1. change ([] ++ l :: b) with (l :: b) in T1. eexists. exists [], (statements (mk_file (l :: b) [])).
        split; [rewrite T1; cbn [app]; rewrite <- ?app_assoc; reflexivity |]. split; [exact T2 |]. split; [reflexivity |].
        split; [exact T3 |]. intros _ y [].
      * rewrite Eend. cbn [Nat.add].
        destruct (new_line (statement p) kind (m :: r) b tail [] (head_prefix b tail) [] x2) as (T1 & T2 & T3);
          [exact Hok | exact Htail | reflexivity | apply Trivia_nil | left; reflexivity | left; reflexivity | apply Hpad2 |].
        rewrite (app_nil_r (lines_text (m :: r))) in T1. eexists. exists (statements (mk_file (m :: r) [])), (statements (mk_file b [])).
        split; [rewrite T1; reflexivity |]. split; [exact T2 |].
        split; [unfold statements; cbn [f_lines]; rewrite <- map_app, <- flat_map_app; reflexivity |].
        split; [exact T3 |]. intros H y Hy. unfold statements in Hy. cbn [f_lines] in Hy. apply in_map_iff in Hy. destruct Hy as (z & <- & Hz).
        apply in_flat_map in Hz. destruct Hz as (n & Hn & Hz). cbn [snd]. apply (Hother H n z Hn Hz).
    + cbn [i_start fst snd]. set (x2 := if starts_new_line _ _ then [] else [newline]).
      destruct (all_imports_split _ _ _ _ _ _ _ Ei) as (l1 & l & l2 & sa & x & sb & fu & -> & Hl & Hx & -> & _ & _).
      rewrite <- (app_assoc l1). cbn [app].
      destruct (new_before (statement p) kind l1 l (l2 ++ b) tail sa x sb x2) as (T1 & T2 & T3);
        [| exact Htail | exact Hl | apply Hpad2 |].
      { rewrite <- app_assoc in Hok. exact Hok. }
      eexists. exists (statements (mk_file l1 []) ++ map (fun s => (s_code s, s_what s)) sa),
        (map (fun s => (s_code s, s_what s)) (x :: sb) ++ statements (mk_file (l2 ++ b) [])).
      split; [| split; [exact T2 |]].
      * rewrite T1. cbn [Nat.add]. rewrite !app_length. rewrite !Nat.add_assoc. cbn [app]. rewrite <- ?app_assoc. reflexivity.
      * split; [| split; [exact T3 |]].
        -- unfold statements. cbn [f_lines]. rewrite flat_map_app, map_app. cbn [flat_map]. rewrite Hl, ?map_app.
           cbn [map]. rewrite <- ?app_assoc. reflexivity.
        -- intros H y Hy. assert (H2 : forall m s, In m (l1 ++ l :: l2) -> In s (l_smalls m) -> s_what s <> Other).
           { apply Hother. intros m s0 Hm. apply H. rewrite <- app_assoc in Hm. exact Hm. }
           apply in_app_iff in Hy. destruct Hy as [Hy | Hy].
           ++ unfold statements in Hy. cbn [f_lines] in Hy. apply in_map_iff in Hy. destruct Hy as (z & <- & Hz).
              apply in_flat_map in Hz. destruct Hz as (n & Hn & Hz). apply (H2 n z); [apply in_or_app; left; exact Hn | exact Hz].
           ++ apply in_map_iff in Hy. destruct Hy as (z & <- & Hz). apply (H2 l z); [apply in_or_app; right; left; reflexivity |].
              rewrite Hl. apply in_or_app. left. exact Hz.
Qed.

(** ** The docstring and the imports from [__future__] stay first. *)
Lemma newline_end_ge : forall code e, e <= newline_end_after_import code e.
Proof. intros code e. unfold newline_end_after_import. destruct (find newline (skipn e code)); lia. Qed.

Lemma through_ge : forall code eoi kind bound items prev, bound <= eoi ->
  (forall i, In i items -> bound <= i_start i /\ i_start i <= i_end i) -> (forall k p, prev = Some (k, p) -> bound <= p) ->
  bound <= fst (through code eoi kind items prev).
Proof.
  intros code eoi kind bound. induction items as [| [[s e] k] items IH]; intros prev Hb Hi Hp; cbn [through].
  - destruct prev as [[k p] |]; cbn [fst]; [apply (Hp k p eq_refl) | exact Hb].
  - destruct (Hi (s, e, k) (or_introl eq_refl)) as [H1 H2]. cbn [i_start i_end fst snd] in H1, H2.
    assert (Hi2 : forall i, In i items -> bound <= i_start i /\ i_start i <= i_end i) by (intros i H; apply Hi; right; exact H).
    destruct (eoi <=? s); [destruct prev as [[pk p] |]; cbn [fst]; [apply (Hp pk p eq_refl) | exact Hb] |].
    destruct k as [k |]; [| apply IH; assumption]. destruct (less kind k).
    + destruct prev as [[pk p] |]; cbn [fst]; [apply (Hp pk p eq_refl) | exact H1].
    + apply IH; try assumption. intros k2 p2 E. injection E as _ <-. pose proof (newline_end_ge code e). lia.
Qed.

Lemma imports_end_ge : forall lines off tail, off <= imports_end false off lines tail.
Proof.
  induction lines as [| l lines IH]; intros off tail; cbn [imports_end end_at]; [lia |].
  destruct (are_imports false (l_smalls l)); [| cbn [end_at]; lia]. specialize (IH (off + length (line_text l)) tail). lia.
Qed.

Lemma imports_end_app : forall a b off tail, (forall l, In l a -> are_imports false (l_smalls l) = true) ->
  imports_end false off (a ++ b) tail = imports_end false (off + length (lines_text a)) b tail.
Proof.
  induction a as [| l a IH]; intros b off tail H; cbn [app imports_end].
  - cbn [lines_text flat_map length]. rewrite Nat.add_0_r. reflexivity.
  - rewrite (H l (or_introl eq_refl)), IH by (intros m Hm; apply H; right; exact Hm). f_equal.
    cbn [lines_text flat_map]. change (flat_map line_text a) with (lines_text a). rewrite app_length. lia.
Qed.

Definition from_std_lib (s : small) : Prop := exists future, s_what s = Import (Some StdLib) future.
Lemma std_lib_imports : forall first l, Forall from_std_lib l -> are_imports first l = true.
Proof.
  intros first l H. induction H as [| s l (fu & Es) Hl IH]; [reflexivity |]. cbn [are_imports]. rewrite Es. exact IH.
Qed.

Lemma through_std_lib : forall code eoi kind items s e rest prev,
  (forall i, In i (items ++ [(s, e, Some StdLib)]) -> i_start i < eoi /\ snd i = Some StdLib) ->
  through code eoi kind (items ++ (s, e, Some StdLib) :: rest) prev = through code eoi kind rest (Some (StdLib, newline_end_after_import code e)).
Proof.
  intros code eoi kind. assert (L : less kind StdLib = false) by (destruct kind; reflexivity).
  induction items as [| [[s0 e0] k0] items IH]; intros s e rest prev H; cbn [app through].
  - destruct (H (s, e, Some StdLib) (or_introl eq_refl)) as [H1 _]. cbn [i_start fst] in H1.
    rewrite (proj2 (Nat.leb_gt eoi s) H1), L. reflexivity.
  - destruct (H (s0, e0, k0) (or_introl eq_refl)) as [H1 H2]. cbn [i_start fst snd] in H1, H2. subst k0.
    rewrite (proj2 (Nat.leb_gt eoi s0) H1), L. apply IH. intros i Hi. apply H. right. exact Hi.
Qed.

Lemma small_imports_app : forall a b off,
  small_imports off (a ++ b) = small_imports off a ++ small_imports (off + length (smalls_text a)) b.
Proof.
  induction a as [| s a IH]; intros b off; cbn [app small_imports].
  - cbn [smalls_text flat_map length]. rewrite Nat.add_0_r. reflexivity.
  - rewrite IH. cbn [smalls_text flat_map]. change (flat_map small_text a) with (smalls_text a). rewrite app_length.
    rewrite Nat.add_assoc. destruct (s_what s); reflexivity.
Qed.

(** The first lines are a docstring, if there is one, and the imports from [__future__]. *)
Definition layout (f : file) (docs futures others : list line) : Prop :=
  f_lines f = docs ++ futures ++ others
  /\ (docs = [] \/ exists l s, docs = [l] /\ l_smalls l = [s] /\ s_what s = StringExpression)
  /\ forall l, In l futures -> Forall from_std_lib (l_smalls l).

Theorem C74_after_partial : forall f kind docs futures others, file_ok f -> Forall tidy (f_lines f) -> layout f docs futures others ->
  length (lines_text (docs ++ futures)) <= fst (position_for_import f kind).
Proof.
  intros [lines tail] kind docs futures others [Hok _] Htidy (E & Hd & Hf). cbn [f_lines f_tail] in *. subst lines.
  assert (Hfi : forall first l, In l futures -> are_imports first (l_smalls l) = true) by (intros first l Hl; apply std_lib_imports, Hf, Hl).
  assert (Hend : docs ++ futures = [] \/
    imports_end true 0 (docs ++ futures ++ others) tail = imports_end false (length (lines_text (docs ++ futures))) others tail).
  { destruct Hd as [-> | (l & s & -> & Hl & Hs)].
    - destruct futures as [| l futures]; [left; reflexivity |]. right. cbn [app imports_end].
      rewrite (Hfi true l (or_introl eq_refl)), imports_end_app by (intros m Hm; apply Hfi; right; exact Hm).
      cbn [lines_text flat_map]. rewrite app_length. reflexivity.
    - right. cbn [app imports_end]. rewrite Hl. cbn [are_imports]. rewrite Hs, imports_end_app by (intros m Hm; apply Hfi; exact Hm).
      cbn [lines_text flat_map]. rewrite app_length. reflexivity. }
  destruct Hend as [E | Hend]; [rewrite E; cbn; lia |].
  unfold position_for_import, initial_imports_end_code_index. cbn [f_lines f_tail]. rewrite Hend.
  set (bound := length (lines_text (docs ++ futures))) in *.
  pose proof (imports_end_ge others bound tail) as Hge. set (eoi := imports_end false bound others tail) in *.
  rewrite app_assoc, all_imports_app. fold bound. rewrite Nat.add_0_l.
  assert (Hothers : forall i, In i (all_imports bound others) -> bound <= i_start i /\ i_start i <= i_end i)
    by (intros i Hi; destruct (all_imports_bounds _ _ _ Hi) as [H1 H2]; split; [lia | exact H2]).
  rewrite all_imports_app, Nat.add_0_l.
  assert (Ed : all_imports 0 docs = []).
  { destruct Hd as [-> | (l & s & -> & Hl & Hs)]; [reflexivity |]. cbn [all_imports]. rewrite Hl. cbn [small_imports]. rewrite Hs. reflexivity. }
  rewrite Ed. cbn [app].
  destruct futures as [| m futures0] eqn:Efut using rev_ind.
  - cbn [all_imports app]. apply through_ge; [exact Hge | exact Hothers | intros k p E; discriminate E].
  - clear IHfutures0. rename m into l. rename futures0 into fs.
    rewrite Forall_forall in Hok, Htidy.
    assert (Hin : In l (docs ++ (fs ++ [l]) ++ others)) by (apply in_or_app; right; apply in_or_app; left; apply in_or_app; right; left; reflexivity).
    destruct (ok_smalls l (Hok l Hin)) as (s0 & os & Es & _).
    destruct (exists_last (l := l_smalls l)) as (a & x & Ea); [rewrite Es; discriminate |].
    assert (Hx : from_std_lib x).
    { assert (Hl : In l (fs ++ [l])) by (apply in_or_app; right; left; reflexivity).
      specialize (Hf l Hl). rewrite Ea in Hf. apply Forall_app in Hf. destruct Hf as [_ Hf]. inversion Hf. assumption. }
    destruct Hx as (fu & Hx).
    assert (Eall : exists i s e, all_imports (length (lines_text docs)) (fs ++ [l]) = i ++ [(s, e, Some StdLib)]
      /\ e = length (lines_text (docs ++ fs)) + length (l_prefix l) + length (smalls_text (a ++ [x]))).
    { rewrite all_imports_app. cbn [all_imports]. rewrite app_nil_r, Ea, small_imports_app. cbn [small_imports]. rewrite Hx.
      eexists (_ ++ _), _, _. split; [rewrite <- app_assoc; reflexivity |].
      rewrite lines_text_app, smalls_text_app, !app_length. cbn [smalls_text flat_map]. rewrite app_nil_r. lia. }
    destruct Eall as (i & s & e & Eall & Ee). rewrite Eall.
    assert (Hall : forall j, In j (i ++ [(s, e, Some StdLib)]) -> i_start j < eoi /\ snd j = Some StdLib).
    { rewrite <- Eall. intros j Hj. split.
      - assert (Hj2 : In j (all_imports 0 (docs ++ fs ++ [l]))) by (rewrite all_imports_app; apply in_or_app; right; exact Hj).
        apply items_inside in Hj2; [fold bound in Hj2; lia |]. apply Forall_forall. intros m Hm. apply Hok.
        rewrite app_assoc. apply in_or_app. left. exact Hm.
      - destruct j as [[sj ej] kj]. apply in_split in Hj. destruct Hj as (j1 & j2 & Ej).
        destruct (all_imports_split _ _ _ _ _ _ _ Ej) as (l1 & m & l2 & ma & y & mb & fy & Em & Hm & Hy & _).
        assert (Hml : In m (fs ++ [l])) by (rewrite Em; apply in_or_app; right; left; reflexivity).
        specialize (Hf m Hml). rewrite Hm in Hf. apply Forall_app in Hf. destruct Hf as [_ Hf]. inversion Hf as [| y0 ys (fu2 & Hy0) Hys]. subst.
        cbn [snd]. congruence. }
    rewrite <- (app_assoc i). cbn [app]. rewrite through_std_lib by exact Hall. apply through_ge; [exact Hge | exact Hothers |].
    intros k p Ep. injection Ep as _ <-. rewrite Ee.
    unfold file_text. cbn [f_lines f_tail].
    replace ((docs ++ fs ++ [l]) ++ others) with ((docs ++ fs) ++ l :: others) by (rewrite <- !app_assoc; reflexivity).
    rewrite (newline_end (docs ++ fs) l others tail a x []); [subst bound; rewrite <- app_assoc; lia | | | exact Ea |].
    + apply Hok. exact Hin.
    + apply Htidy. exact Hin.
    + unfold imported. rewrite Hx. exact Logic.I.
Qed.

(** ** The order of the kinds is kept. *)
Lemma all_imports_order : forall lines off a i b j, all_imports off lines = a ++ i :: b -> In j b -> i_end i <= i_start j.
Proof.
  intros lines off a [[s e] k] b j E Hj.
  destruct (all_imports_split _ _ _ _ _ _ _ E) as (l1 & l & l2 & sa & x & sb & fu & -> & Hl & Hx & _ & Ee & ->).
  cbn [i_end fst snd]. apply in_app_iff in Hj. destruct Hj as [Hj | Hj].
  - destruct j as [[s2 e2] k2]. apply in_split in Hj. destruct Hj as (j1 & j2 & Ej).
    destruct (small_imports_split _ _ _ _ _ _ _ Ej) as (ja & y & jb & fy & _ & _ & -> & _). cbn [i_start fst]. lia.
  - apply all_imports_bounds in Hj. destruct Hj as [Hj _]. rewrite lines_text_app, app_length in Hj. cbn [lines_text flat_map] in Hj.
    rewrite app_nil_r in Hj. change (line_text l) with (l_prefix l ++ smalls_text (l_smalls l) ++ l_rest l ++ l_newline l) in Hj.
    rewrite Hl in Hj. replace (sa ++ x :: sb) with ((sa ++ [x]) ++ sb) in Hj by (rewrite <- app_assoc; reflexivity).
    rewrite (smalls_text_app (sa ++ [x])), !app_length in Hj. lia.
Qed.

Definition sorted (items : list (nat * nat * option import_kind)) : Prop :=
  forall a i b j c k l, items = a ++ i :: b ++ j :: c -> snd i = Some k -> snd j = Some l -> rank k <= rank l.

Theorem C74_sorted_partial : forall f kind, file_ok f -> f_lines f <> [] -> Forall tidy (f_lines f) ->
  (forall l, In l (f_lines f) -> length (small_imports 0 (l_smalls l)) <= 1) ->
  sorted (all_imports 0 (f_lines f)) ->
  forall s e k, In (s, e, Some k) (all_imports 0 (f_lines f)) -> s < initial_imports_end_code_index f ->
    (rank k <= rank kind -> e <= fst (position_for_import f kind)) /\ (rank kind < rank k -> fst (position_for_import f kind) <= s).
Proof.
  intros [lines tail] kind Hok Hne Htidy Hone Hsort s e k Hi Hs. cbn [f_lines f_tail] in *.
  destruct (region lines true 0 tail) as (r & b & -> & Hr & Eend). destruct Hok as [Hok Htail]. cbn [f_lines f_tail] in *.
  pose proof (beyond_region (mk_file (r ++ b) tail) r b (conj Hok Htail) Hne eq_refl Eend) as Hbeyond.
  unfold position_for_import, file_text, initial_imports_end_code_index in *. cbn [f_lines f_tail] in *.
  set (eoi := imports_end true 0 (r ++ b) tail) in *.
  apply Forall_app in Hok as Hok2. destruct Hok2 as [Hokr Hokb].
  assert (Hin : forall i, In i (all_imports 0 r) -> i_start i < eoi).
  { intros i Hi2. rewrite Eend. destruct r as [| m r]; [destruct Hi2 |]. apply (items_inside _ Hokr i Hi2). }
  rewrite all_imports_app in Hi, Hsort |- *. apply in_app_iff in Hi. destruct Hi as [Hi | Hi]; [| apply Hbeyond in Hi; cbn [i_start fst] in Hi; lia].
  assert (Hless : forall k l, less k l = true <-> rank k < rank l) by (intros; unfold less; apply Nat.ltb_lt).
  destruct (through_char (lines_text (r ++ b) ++ tail) eoi kind (all_imports (0 + length (lines_text r)) b) Hbeyond (all_imports 0 r) None Hin)
    as (i1 & i2 & Ei & H1 & H2 & H3).
  assert (Hk1 : forall s e k, In (s, e, Some k) i1 -> ~ rank kind < rank k).
  { intros s1 e1 k1 Hi1 Hlt. apply Hless in Hlt. pose proof (H1 _ _ Hi1 eq_refl). congruence. }
  assert (Hk2 : forall s e k, In (s, e, Some k) i2 -> rank kind < rank k).
  { intros s1 e1 k1 Hi1. destruct H2 as [-> | (s2 & e2 & k2 & rest & -> & Hl)]; [destruct Hi1 |]. apply Hless in Hl.
    destruct Hi1 as [E | Hi1]; [injection E as _ _ <-; exact Hl |]. apply in_split in Hi1. destruct Hi1 as (j1 & j2 & ->).
    specialize (Hsort i1 (s2, e2, Some k2) j1 (s1, e1, Some k1) (j2 ++ all_imports (0 + length (lines_text r)) b) k2 k1).
    rewrite Ei in Hsort. cbn [snd] in Hsort. assert (rank k2 <= rank k1); [| lia]. apply Hsort; try reflexivity.
    rewrite <- !app_assoc. cbn [app]. rewrite <- !app_assoc. reflexivity. }
  rewrite Ei in Hi. apply in_app_iff in Hi.
  destruct H3 as [(a & s3 & e3 & k3 & c & -> & Hc & Et) | (Hc & Et)]; unfold item in Et; rewrite Et; cbn [fst].
  - pose proof (newline_end_ge (lines_text (r ++ b) ++ tail) e3) as Hn. rewrite <- app_assoc in Ei. cbn [app] in Ei. split.
    + intro Hk. destruct Hi as [Hi | Hi]; [| apply Hk2 in Hi; lia]. apply in_app_iff in Hi. destruct Hi as [Hi | [Hi | Hi]].
      * apply in_split in Hi. destruct Hi as (a1 & a2 & ->). rewrite <- app_assoc in Ei. cbn [app] in Ei.
        pose proof (all_imports_order r 0 a1 (s, e, Some k) _ (s3, e3, Some k3) Ei) as Ho.
        assert (Hin3 : In (s3, e3, Some k3) (a2 ++ (s3, e3, Some k3) :: c ++ i2)) by (apply in_or_app; right; left; reflexivity).
        specialize (Ho Hin3). cbn [i_end i_start fst snd] in Ho.
        assert (In (s3, e3, Some k3) (all_imports 0 r)) as Hb by (rewrite Ei; apply in_or_app; right; right; exact Hin3).
        apply all_imports_bounds in Hb. cbn [i_end i_start fst snd] in Hb. lia.
      * injection Hi as _ <- _. lia.
      * apply Hc in Hi. discriminate Hi.
    + intro Hk. destruct Hi as [Hi | Hi]; [apply Hk1 in Hi; lia |].
      destruct (all_imports_split _ _ _ _ _ _ _ Ei) as (l1 & l & l2 & sa & x & sb & fu & -> & Hl & Hx & _ & Ee & Eafter).
      assert (Hlin : In l ((l1 ++ l :: l2) ++ b)) by (apply in_or_app; left; apply in_or_app; right; left; reflexivity).
      assert (Esb : forall off, small_imports off sb = []).
      { intro off. specialize (Hone l Hlin). rewrite Hl, small_imports_app in Hone. cbn [small_imports] in Hone. rewrite Hx in Hone.
        rewrite app_length in Hone. cbn [length] in Hone.
        assert (Hlen : forall o1 o2 (q : list small), length (small_imports o1 q) = length (small_imports o2 q)).
        { clear. intros o1 o2 q. revert o1 o2. induction q as [| y q IH]; intros o1 o2; [reflexivity |]. cbn [small_imports].
          destruct (s_what y); cbn [length]; try (apply IH); apply f_equal, IH. }
        destruct (small_imports off sb) as [| j js] eqn:Ej; [reflexivity |]. exfalso.
        match type of Hone with context [length (small_imports ?o sb)] => pose proof (Hlen o off sb) as Hq end.
        rewrite Ej in Hq. cbn [length] in Hq. lia. }
      rewrite Esb in Eafter. cbn [app] in Eafter.
      assert (Hi4 : In (s, e, Some k) (c ++ i2)) by (apply in_or_app; right; exact Hi). rewrite Eafter in Hi4.
      apply all_imports_bounds in Hi4. destruct Hi4 as [Hi4 _]. cbn [i_start fst] in Hi4.
      rewrite <- app_assoc. cbn [app]. rewrite Ee. cbn [Nat.add]. rewrite Forall_forall in Hok, Htidy.
      rewrite (newline_end l1 l (l2 ++ b) tail sa x sb (Hok l Hlin) (Htidy l Hlin) Hl); [lia |]. unfold imported. rewrite Hx. exact Logic.I.
  - split.
    + intro Hk. destruct Hi as [Hi | Hi]; [apply Hc in Hi; discriminate Hi | apply Hk2 in Hi; lia].
    + intro Hk. destruct Hi as [Hi | Hi]; [apply Hc in Hi; discriminate Hi |].
      destruct i2 as [| [[s2 e2] k2] i2]; [destruct Hi |]. cbn [fst i_start]. destruct Hi as [E | Hi]; [injection E as <- _ _; lia |].
      pose proof (all_imports_order r 0 i1 (s2, e2, k2) i2 (s, e, Some k) Ei Hi) as Ho. cbn [i_end i_start fst snd] in Ho.
      assert (In (s2, e2, k2) (all_imports 0 r)) as Hb by (rewrite Ei; apply in_or_app; right; left; reflexivity).
      apply all_imports_bounds in Hb. cbn [i_end i_start fst snd] in Hb. lia.
Qed.

(** ** Names that are added to an import *)
Lemma listed_last : forall inner ns, listed inner ns -> forall name, name <> str "," ->
  exists front code suffix, inner = front ++ [(code, suffix)]
    /\ (code = str "," -> forall g h, listed (front ++ [(str ",", g); (name, h)]) (ns ++ [name]))
    /\ (code <> str "," -> forall g h i, listed (front ++ [(code, g); (str ",", h); (name, i)]) (ns ++ [name])).
Proof.
  intros inner ns H name Hn. induction H as [n g Hc | n g h Hc | n g h cs ns Hc Hl IH].
  - exists [], n, g. split; [reflexivity |]. split; [contradiction |]. intros _ a b c. cbn [app]. apply Listed_more; [exact Hc |].
    apply Listed_one. exact Hn.
  - exists [(n, g)], (str ","), h. split; [reflexivity |]. split; [| congruence]. intros _ a b. cbn [app].
    apply Listed_more; [exact Hc |]. apply Listed_one. exact Hn.
  - destruct IH as (front & code & suffix & -> & H1 & H2). exists ((n, g) :: (str ",", h) :: front), code, suffix.
    split; [reflexivity |]. split.
    + intros E a b. cbn [app]. apply Listed_more; [exact Hc | apply H1; exact E].
    + intros E a b c. cbn [app]. apply Listed_more; [exact Hc | apply H2; exact E].
Qed.

Ltac fin := rewrite ?rev_involutive; cbn [app flat_map]; rewrite ?flat_map_app; cbn [flat_map]; unfold child_text; cbn [fst snd];
  rewrite ?app_nil_r, <- ?app_assoc; reflexivity.
Theorem C74_brackets : forall cs ns name, in_brackets cs ns -> name <> str "," ->
  exists cs', add_name (Brackets cs) name = Some (flat_map child_text cs') /\ in_brackets cs' (ns ++ [name]).
Proof.
  intros cs ns name (g & inner & last & -> & Hl) Hn.
  destruct (listed_last inner ns Hl name Hn) as (front & code & suffix & -> & H1 & H2).
  assert (Erev : rev ((str "(", g) :: (front ++ [(code, suffix)]) ++ [(str ")", last)])
                 = (str ")", last) :: (code, suffix) :: rev ((str "(", g) :: front)).
  { cbn [rev]. rewrite !rev_app_distr. cbn [rev app]. reflexivity. }
  unfold add_name. unfold child in *. rewrite Erev.
  assert (Hfin : forall cs' t, in_brackets cs' (ns ++ [name]) -> t = flat_map child_text cs' ->
    exists cs', Some t = Some (flat_map child_text cs') /\ in_brackets cs' (ns ++ [name])) by (intros cs' t H ->; exists cs'; split; [reflexivity | exact H]).
  destruct (list_eq_dec ascii_dec code (str ",")) as [E | E].
  - subst code. destruct suffix as [| c suffix]; [| destruct (starts_with_blank (c :: suffix)) eqn:Eb].
    + apply (Hfin ((str "(", g) :: (front ++ [(str ",", str " "); (name, [])]) ++ [(str ")", last)])).
      * exists g, (front ++ [(str ",", str " "); (name, [])]), last. split; [reflexivity | apply H1; reflexivity].
      * fin.
    + apply (Hfin ((str "(", g) :: (front ++ [(str ",", [c]); (name, suffix)]) ++ [(str ")", last)])).
      * exists g, (front ++ [(str ",", [c]); (name, suffix)]), last. split; [reflexivity | apply H1; reflexivity].
      * fin.
    + apply (Hfin ((str "(", g) :: (front ++ [(str ",", str " "); (name, c :: suffix)]) ++ [(str ")", last)])).
      * exists g, (front ++ [(str ",", str " "); (name, c :: suffix)]), last. split; [reflexivity | apply H1; reflexivity].
      * fin.
  - apply (Hfin ((str "(", g) :: (front ++ [(code, []); (str ",", str " "); (name, suffix)]) ++ [(str ")", last)])).
    * exists g, (front ++ [(code, []); (str ",", str " "); (name, suffix)]), last. split; [reflexivity | apply H2; exact E].
    * fin.
Qed.

(** [from m import *] becomes [from m import *, name]. *)
Definition possible_targets (t : text) : Prop := t = str "*" \/ ~ In "*"%char t.
Theorem C74_star_refuted : ~ forall t name r, possible_targets (targets_text t) -> possible_targets name -> ~ In "*"%char name ->
  add_name t name = Some r -> possible_targets r.
Proof.
  intro H. destruct (H Star (str "_x") (str "*, _x")) as [E | E].
  - left. reflexivity.
  - right. cbn. intros [E | [E | []]]; discriminate E.
  - cbn. intros [E | [E | []]]; discriminate E.
  - reflexivity.
  - discriminate E.
  - apply E. left. reflexivity.
Qed.

(** ** Where an import does not go well *)
Definition inside (f : file) (pos : nat) : Prop :=
  exists l1 l l2 a s b, f_lines f = l1 ++ l :: l2 /\ l_smalls l = a ++ s :: b
    /\ length (lines_text l1 ++ l_prefix l ++ smalls_text a ++ s_gap s) < pos
    /\ pos < length (lines_text l1 ++ l_prefix l ++ smalls_text (a ++ [s])).
Definition simple (code : string) (w : what) : line := mk_line [] [mk_small [] (str code) w] [] [newline].

(** [import os; from foo import (x,
     y)] *)
Definition brackets : file := mk_file
  [mk_line [] [mk_small [] (str "import os") (Import (Some StdLib) false);
               mk_small (str "; ") (str "from foo import (x," ++ newline :: str " y)") (Import (Some Project) false)] [] [newline];
   simple "sys" Other] [].
Lemma simple_ok : forall code w, line_ok (simple code w).
Proof.
  intros code w. split; cbn; [constructor | | intros [] | left; reflexivity].
  exists (mk_small [] (str code) w), []. split; [reflexivity |]. split; [reflexivity | constructor].
Qed.
Lemma empty_tail : exists t last, @nil ascii = t ++ last /\ trivia t /\ empty_line last.
Proof.
  exists [], []. split; [reflexivity |]. split; [constructor |]. exists [], []. split; [reflexivity |]. split; [constructor |].
  split; [left; reflexivity | intros []].
Qed.
Lemma semicolon : separator (str "; ").
Proof. exists [], [" "%char]. split; [reflexivity |]. split; [constructor |]. constructor; [left; reflexivity | constructor]. Qed.
Theorem C74_inside_refuted : ~ forall f kind, file_ok f -> f_lines f <> [] -> ~ inside f (fst (position_for_import f kind)).
Proof.
  intro H. apply (H brackets StdLib).
  - split; [| exact empty_tail]. constructor; [| constructor; [apply simple_ok | constructor]].
    split; cbn; [constructor | | intros [] | left; reflexivity].
    eexists _, _. split; [reflexivity |]. split; [reflexivity |]. constructor; [exact semicolon | constructor].
  - discriminate.
  - exists [], (hd (simple "" Other) (f_lines brackets)), [simple "sys" Other], [mk_small [] (str "import os") (Import (Some StdLib) false)],
      (mk_small (str "; ") (str "from foo import (x," ++ newline :: str " y)") (Import (Some Project) false)), [].
    split; [reflexivity |]. split; [reflexivity |]. split; vm_compute; lia.
Qed.

(** With carriage returns as line ends, the new import is put right behind the last one. *)
Definition returns : file := mk_file
  [mk_line [] [mk_small [] (str "import os") (Import (Some StdLib) false)] [] [carriage_return];
   mk_line [] [mk_small [] (str "sys") Other] [] [carriage_return]] [].
Theorem C74_return_refuted : ~ forall f kind p, file_ok f -> f_lines f <> [] ->
  let code := file_text f in
  let (pos, new) := create_import_code_action f kind p in
  pos = 0 \/ exists c, nth_error code (pos - 1) = Some c /\ In c [newline; carriage_return; ";"%char; " "%char].
Proof.
  intro H. specialize (H returns StdLib (Module (str "sys"))). cbv zeta in H.
  assert (Hok : file_ok returns).
  { split; [| exact empty_tail]. constructor; [| constructor; [| constructor]].
    - split; cbn; [constructor | | intros [] | right; right; reflexivity].
      eexists _, _. split; [reflexivity |]. split; [reflexivity | constructor].
    - split; cbn; [constructor | | intros [] | right; right; reflexivity].
      eexists _, _. split; [reflexivity |]. split; [reflexivity | constructor]. }
  specialize (H Hok ltac:(discriminate)). vm_compute in H. destruct H as [H | (c & E & Hc)]; [discriminate H |].
  injection E as <-. destruct Hc as [E | [E | [E | [E | []]]]]; discriminate E.
Qed.

(** The new import comes before [from __future__ import annotations; x = 1]. *)
Definition shared : file := mk_file
  [mk_line [] [mk_small [] (str "from __future__ import annotations") (Import (Some StdLib) true); mk_small (str "; ") (str "x = 1") Other] [] [newline];
   simple "sys" Other] [].
Theorem C74_future_refuted : ~ forall f kind l others s, file_ok f -> Forall tidy (f_lines f) -> f_lines f = l :: others ->
  In s (l_smalls l) -> s_what s = Import (Some StdLib) true -> length (lines_text [l]) <= fst (position_for_import f kind).
Proof.
  intro H. specialize (H shared StdLib (hd (simple "" Other) (f_lines shared)) [simple "sys" Other]
    (mk_small [] (str "from __future__ import annotations") (Import (Some StdLib) true))).
  assert (L : length (lines_text [hd (simple "" Other) (f_lines shared)]) <= fst (position_for_import shared StdLib)).
  { apply H; try reflexivity; [| | left; reflexivity].
    - split; [| exact empty_tail]. constructor; [| constructor; [apply simple_ok | constructor]].
      split; cbn; [constructor | | intros [] | left; reflexivity].
      eexists _, _. split; [reflexivity |]. split; [reflexivity |]. constructor; [exact semicolon | constructor].
    - constructor; [| constructor; [| constructor]].
      + intros a s b E _. split; [| cbn; discriminate]. intro Hin. cbn [l_smalls] in E. destruct a as [| a0 [| a1 a]].
        * injection E as _ <-. cbn in Hin. repeat (destruct Hin as [Hin | Hin]; [discriminate Hin |]). destruct Hin.
        * injection E as _ _ <-. destruct Hin.
        * destruct a; discriminate E.
      + intros a s b E _. split; [| cbn; discriminate]. destruct a as [| a0 a]; [injection E as _ <-; intros [] | destruct a; discriminate E]. }
  vm_compute in L. lia.
Qed.

(** ** Cases *)
Definition example : file := mk_file
  [simple """doc""" StringExpression;
   mk_line (newline :: str "# c" ++ [newline]) [mk_small [] (str "from __future__ import annotations") (Import (Some StdLib) true)] [] [newline];
   simple "import os" (Import (Some StdLib) false);
   mk_line [newline] [mk_small [] (str "import third") (Import (Some ThirdParty) false)] (str "  # c") [newline];
   simple "x = sys" Other] [].
Example example_ok : file_ok example /\ Forall tidy (f_lines example).
Proof.
  assert (Ht : forall t, l_newline t = [newline] -> (exists s, l_smalls t = [s]) -> tidy t).
  { intros t En (s & Es) a u b E _. rewrite En, Es in *. split; [| discriminate]. destruct a as [| a0 a]; [| destruct a; discriminate E].
    injection E as _ <-. intros []. }
  split; [split; [| exact empty_tail] |].
  - constructor; [apply simple_ok |]. constructor.
    { split; cbn; [| eexists _, _; split; [reflexivity |]; split; [reflexivity | constructor] | intros [] | left; reflexivity].
      apply trivia_newline. apply (Trivia_line (str "# c") []); [| constructor].
      exists [], (str "# c"). split; [reflexivity |]. split; [constructor |]. split; [right; eexists; reflexivity |].
      cbn. intros [E | [E | [E | []]]]; discriminate E. }
    constructor; [apply simple_ok |]. constructor.
    { split; cbn; [apply trivia_newline; constructor | eexists _, _; split; [reflexivity |]; split; [reflexivity | constructor] | | left; reflexivity].
      intros [E | [E | [E | [E | [E | []]]]]]; discriminate E. }
    constructor; [apply simple_ok | constructor].
  - repeat (constructor; [apply Ht; [reflexivity | eexists; reflexivity] |]). constructor.
Qed.
Definition show (f : file) (kind : import_kind) (p : potential) : string :=
  string_of_list_ascii (apply_action (file_text f) (create_import_code_action f kind p)).
Definition nl : string := String newline "".
Open Scope string_scope.
Example example_std : show example StdLib (Module (str "sys")) =
  """doc""" ++ nl ++ nl ++ "# c" ++ nl ++ "from __future__ import annotations" ++ nl ++ "import os" ++ nl ++ "import sys" ++ nl ++ nl
  ++ "import third  # c" ++ nl ++ "x = sys" ++ nl.
Proof. reflexivity. Qed.
Example example_project : show example Project (NameOf (str "m") (str "sys")) =
  """doc""" ++ nl ++ nl ++ "# c" ++ nl ++ "from __future__ import annotations" ++ nl ++ "import os" ++ nl ++ nl
  ++ "import third  # c" ++ nl ++ nl ++ "from m import sys" ++ nl ++ nl ++ "x = sys" ++ nl.
Proof. vm_compute. reflexivity. Qed.
Open Scope list_scope.
Example example_layout : layout example (firstn 1 (f_lines example)) (firstn 2 (skipn 1 (f_lines example))) (skipn 3 (f_lines example)).
Proof.
  split; [reflexivity |]. split; [right; eexists _, _; split; [reflexivity |]; split; reflexivity |].
  intros l [<- | [<- | []]]; (constructor; [eexists; reflexivity | constructor]).
Qed.
Example example_sorted : sorted (all_imports 0 (f_lines example))
  /\ forall l, In l (f_lines example) -> length (small_imports 0 (l_smalls l)) <= 1.
Proof.
  split.
  - intros a i b j c k l E Hk Hl. vm_compute in E.
    destruct a as [| a0 [| a1 [| a2 a]]]; cbn [app] in E; [| | | apply (f_equal (@length _)) in E; cbn in E; rewrite app_length in E; cbn in E; lia].
    + injection E as <- E. injection Hk as <-. cbn. lia.
    + injection E as _ <- E. injection Hk as <-. cbn. lia.
    + injection E as _ _ _ E. destruct b; discriminate E.
  - intros l Hl. repeat (destruct Hl as [<- | Hl]; [cbn; lia |]). destruct Hl.
Qed.
Example brackets_name : add_name (Brackets [(str "(", []); (str "a", []); (str ",", [newline]); (str ")", [])]) (str "b")
  = Some (str "(a, b" ++ newline :: str ")").
Proof. reflexivity. Qed.

Print Assumptions C74_insert_partial.
Print Assumptions C74_after_partial.
Print Assumptions C74_sorted_partial.
Print Assumptions C74_brackets.
Print Assumptions C74_star_refuted.
Print Assumptions C74_inside_refuted.
Print Assumptions C74_return_refuted.
Print Assumptions C74_future_refuted.
