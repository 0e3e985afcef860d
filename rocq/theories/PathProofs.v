(** Proofs about paths. *)
From Coq Require Import NArith List Bool Lia.
From Verif Require Import PathSpec PathModel.
Import ListNotations.
Open Scope N_scope.

Lemma str_eqb_spec a b : reflect (a = b) (str_eqb a b).
Proof.
  revert b; induction a as [|x a IH]; intros [|y b]; simpl; try (constructor; congruence).
  destruct (N.eqb_spec x y) as [->|H]; simpl; [|constructor; congruence].
  destruct (IH b) as [->|H]; constructor; congruence.
Qed.

Lemma component_eqb_spec a b : reflect (a = b) (component_eqb a b).
Proof.
  destruct a, b; simpl; try (constructor; congruence).
  destruct (str_eqb_spec n n0) as [->|H]; constructor; congruence.
Qed.

Lemma split_nonempty c p : split c p <> [].
Proof.
  destruct p as [|x r]; simpl; [discriminate|].
  destruct (x =? c); [discriminate|]. destruct (split c r); discriminate.
Qed.

Lemma split_no_sep c s : ~ In c s -> split c s = [s].
Proof.
  induction s as [|x r IH]; intros H; [reflexivity|]. simpl.
  destruct (N.eqb_spec x c) as [->|Hx]; [elim H; left; reflexivity|].
  rewrite IH; [reflexivity|]. intros H'. apply H. right. exact H'.
Qed.

Lemma split_app c s p : ~ In c s -> split c (s ++ c :: p) = s :: split c p.
Proof.
  induction s as [|x r IH]; intros H.
  - simpl. rewrite N.eqb_refl. reflexivity.
  - simpl. destruct (N.eqb_spec x c) as [->|Hx]; [elim H; left; reflexivity|].
    rewrite IH; [reflexivity|]. intros H'. apply H. right. exact H'.
Qed.

(** Every text is its first piece, then possibly a separator and the rest. *)
Lemma first_piece (c : N) (p : list N) :
  ~ In c p \/ exists s r, p = s ++ c :: r /\ ~ In c s.
Proof.
  induction p as [|x r IH]; [left; intros []|].
  destruct (N.eq_dec x c) as [->|Hx].
  - right. exists [], r. split; [reflexivity|intros []].
  - destruct IH as [H|(s & q & -> & Hs)].
    + left. intros [H'|H']; [congruence|contradiction].
    + right. exists (x :: s), q. split; [reflexivity|]. intros [H'|H']; [congruence|contradiction].
Qed.

(** ** The walk as a function *)

Definition fwalk1 (d : list (list N)) (s : list N) : list (list N) :=
  if str_eqb s [] then d
  else if str_eqb s [DOT] then d
  else if str_eqb s [DOT; DOT] then removelast d
  else d ++ [s].

Lemma removelast_snoc {A} (l : list A) x : removelast (l ++ [x]) = l.
Proof. rewrite removelast_app by discriminate. simpl. apply app_nil_r. Qed.

Lemma walk1_fwalk1 d s d' : walk1 d s d' -> fwalk1 d s = d'.
Proof.
  intros H; destruct H as [| |Hd|d' n Hd|n (H1 & H2 & H3 & H4)]; unfold fwalk1.
  - reflexivity.
  - reflexivity.
  - rewrite Hd. reflexivity.
  - rewrite Hd. change (str_eqb [DOT; DOT] []) with false. change (str_eqb [DOT; DOT] [DOT]) with false.
    change (str_eqb [DOT; DOT] [DOT; DOT]) with true. cbv iota. apply removelast_snoc.
  - destruct (str_eqb_spec n []); [contradiction|]. destruct (str_eqb_spec n [DOT]); [contradiction|].
    destruct (str_eqb_spec n [DOT; DOT]); [contradiction|]. reflexivity.
Qed.

Lemma fwalk1_walk1 d s : ~ In SLASH s -> walk1 d s (fwalk1 d s).
Proof.
  intros Hs. unfold fwalk1.
  destruct (str_eqb_spec s []) as [->|H1]; [constructor|].
  destruct (str_eqb_spec s [DOT]) as [->|H2]; [constructor|].
  destruct (str_eqb_spec s [DOT; DOT]) as [->|H3].
  - destruct d as [|x d] using rev_ind; [constructor; reflexivity|].
    apply (walk_up _ _ x). rewrite removelast_snoc. reflexivity.
  - apply walk_name. repeat split; assumption.
Qed.

Definition fwalk (d : list (list N)) (p : list N) : list (list N) :=
  fold_left fwalk1 (split SLASH p) d.

Lemma walk_fwalk d p d' : walk d p d' -> fwalk d p = d'.
Proof.
  intros H. induction H as [d s d' Hs H1|d s d1 p d' Hs H1 H IH]; unfold fwalk.
  - rewrite split_no_sep by exact Hs. apply walk1_fwalk1. exact H1.
  - rewrite split_app by exact Hs. simpl. rewrite (walk1_fwalk1 _ _ _ H1). exact IH.
Qed.

Lemma fwalk_walk p : forall d, walk d p (fwalk d p).
Proof.
  induction p as [p IH] using (well_founded_induction
    (Wf_nat.well_founded_ltof _ (@length N))).
  intros d. destruct (first_piece SLASH p) as [H|(s & r & -> & Hs)]; unfold fwalk.
  - rewrite split_no_sep by exact H. apply walk_last; [exact H|]. apply fwalk1_walk1. exact H.
  - rewrite split_app by exact Hs. simpl. eapply walk_seg; [exact Hs|apply fwalk1_walk1; exact Hs|].
    apply IH. unfold Wf_nat.ltof. rewrite app_length. simpl. lia.
Qed.

Lemma fwalk1_names d s : ~ In SLASH s -> Forall is_name d -> Forall is_name (fwalk1 d s).
Proof.
  intros Hs Hd. unfold fwalk1.
  destruct (str_eqb_spec s []) as [->|H1]; [exact Hd|].
  destruct (str_eqb_spec s [DOT]) as [->|H2]; [exact Hd|].
  destruct (str_eqb_spec s [DOT; DOT]) as [->|H3].
  - destruct d as [|x d] using rev_ind; [exact Hd|]. rewrite removelast_snoc.
    apply Forall_app in Hd. apply Hd.
  - apply Forall_app. split; [exact Hd|]. constructor; [|constructor]. repeat split; assumption.
Qed.

Lemma split_pieces c p : Forall (fun s => ~ In c s) (split c p).
Proof.
  induction p as [|x r IH]; simpl; [constructor; [intros []|constructor]|].
  destruct (N.eqb_spec x c) as [->|Hx]; [constructor; [intros []|exact IH]|].
  destruct (split c r) as [|s ps]; [repeat constructor; intros [H|[]]; congruence|].
  inversion IH as [|? ? H1 H2]; subst. constructor; [|exact H2]. intros [H|H]; [congruence|contradiction].
Qed.

Lemma fwalk_names p d : Forall is_name d -> Forall is_name (fwalk d p).
Proof.
  unfold fwalk. generalize (split_pieces SLASH p). generalize (split SLASH p). intros l.
  revert d; induction l as [|s l IH]; intros d Hl Hd; [exact Hd|]. simpl.
  inversion Hl; subst. apply IH; [assumption|]. apply fwalk1_names; assumption.
Qed.

(** ** Normalisation *)

Lemma slashed_app a b : slashed (a ++ b) = slashed a ++ slashed b.
Proof. induction a as [|n a IH]; [reflexivity|]. simpl. rewrite IH, app_assoc. reflexivity. Qed.

Lemma spelling_nonempty d : spelling d <> [].
Proof. destruct d; discriminate. Qed.

Lemma name_last n : is_name n -> exists a x, n = a ++ [x] /\ x <> SLASH.
Proof.
  intros (H1 & H2 & _). destruct n as [|x a] using rev_ind; [contradiction|].
  exists a, x. split; [reflexivity|]. intros ->. apply H2. apply in_or_app. right. left. reflexivity.
Qed.

Lemma ends_with_slash_spelling d :
  Forall is_name d -> ends_with_slash (spelling d) = match d with [] => true | _ => false end.
Proof.
  intros Hd. destruct d as [|n d]; [reflexivity|].
  destruct (@exists_last _ (n :: d) ltac:(discriminate)) as (d' & m & E). rewrite E in *.
  replace (spelling (d' ++ [m])) with (slashed (d' ++ [m])) by (destruct d'; reflexivity).
  apply Forall_app in Hd. destruct Hd as (_ & Hm). inversion Hm as [|? ? Hm' _]; subst.
  destruct (name_last m Hm') as (a & x & -> & Hx).
  rewrite slashed_app. simpl. rewrite app_nil_r.
  unfold ends_with_slash. rewrite rev_app_distr. simpl. rewrite rev_app_distr. simpl.
  apply N.eqb_neq in Hx. rewrite Hx. reflexivity.
Qed.

Lemma push_spelling d n :
  Forall is_name d -> is_name n -> buf_push (spelling d) (Normal n) = spelling (d ++ [n]).
Proof.
  intros Hd Hn. unfold buf_push.
  destruct (spelling d) as [|c b] eqn:E; [elim (spelling_nonempty d E)|]. rewrite <- E.
  rewrite (ends_with_slash_spelling d Hd).
  destruct d as [|m d]; [simpl; rewrite app_nil_r; reflexivity|].
  cbn [spelling app]. change (m :: d ++ [n]) with ((m :: d) ++ [n]). rewrite slashed_app.
  cbn [slashed]. rewrite app_nil_r. reflexivity.
Qed.

Lemma rsplit_none c s : ~ In c s -> rsplit c s = None.
Proof.
  induction s as [|x r IH]; intros H; [reflexivity|]. simpl.
  rewrite IH by (intros H'; apply H; right; exact H').
  destruct (N.eqb_spec x c) as [->|]; [elim H; left; reflexivity|reflexivity].
Qed.

Lemma rsplit_app c a b : ~ In c b -> rsplit c (a ++ c :: b) = Some (a, b).
Proof.
  intros Hb. induction a as [|x a IH].
  - simpl. rewrite rsplit_none by exact Hb. rewrite N.eqb_refl. reflexivity.
  - simpl. rewrite IH. reflexivity.
Qed.

Lemma pop_spelling d : Forall is_name d -> buf_pop (spelling d) = spelling (removelast d).
Proof.
  intros Hd. destruct d as [|n d] using rev_ind; [reflexivity|].
  rewrite removelast_snoc. apply Forall_app in Hd. destruct Hd as (Hd' & Hn). inversion Hn as [|? ? Hn' _]; subst.
  replace (spelling (d ++ [n])) with (slashed (d ++ [n])) by (destruct d; reflexivity).
  rewrite slashed_app. cbn [slashed]. rewrite app_nil_r.
  unfold buf_pop. rewrite rsplit_app by apply Hn'.
  destruct d as [|m d]; [reflexivity|]. reflexivity.
Qed.

Lemma normalize_pieces l : forall d,
  Forall (fun s => ~ In SLASH s) l -> Forall is_name d ->
  fold_left normalize_step (concat (map piece_component l)) (spelling d) = spelling (fold_left fwalk1 l d).
Proof.
  induction l as [|s l IH]; intros d Hl Hd; [reflexivity|]. inversion Hl; subst.
  simpl. rewrite fold_left_app.
  rewrite <- IH by (try assumption; apply fwalk1_names; assumption). f_equal.
  unfold piece_component, fwalk1.
  destruct (str_eqb_spec s []) as [->|H1']; [reflexivity|].
  destruct (str_eqb_spec s [DOT]) as [->|H2']; [reflexivity|].
  destruct (str_eqb_spec s [DOT; DOT]) as [->|H3'].
  - simpl. apply pop_spelling. exact Hd.
  - simpl fold_left. unfold normalize_step. apply push_spelling; [exact Hd|].
    repeat split; assumption.
Qed.

Lemma normalize_location p d : location p d -> normalize p = spelling d.
Proof.
  intros (r & -> & Hw). apply walk_fwalk in Hw.
  assert (E : fold_left normalize_step (components (SLASH :: r)) [] = spelling d).
  { cbn [components]. rewrite N.eqb_refl. cbn [fold_left normalize_step buf_push].
    change [SLASH] with (spelling []). rewrite normalize_pieces; [|apply split_pieces|constructor].
    rewrite <- Hw. reflexivity. }
  unfold normalize, normalize_opt. rewrite E.
  destruct (str_eqb_spec (spelling d) (SLASH :: r)); [symmetry; assumption|reflexivity].
Qed.

Lemma absolute_location p : absolute p -> exists d, location p d /\ Forall is_name d.
Proof.
  intros (r & ->). exists (fwalk [] r). split.
  - exists r. split; [reflexivity|]. apply fwalk_walk.
  - apply fwalk_names. constructor.
Qed.

Lemma location_fun p d d' : location p d -> location p d' -> d = d'.
Proof.
  intros (r & -> & H1) (r' & E & H2). injection E as <-.
  apply walk_fwalk in H1. apply walk_fwalk in H2. congruence.
Qed.

Lemma split_slashed n d : is_name n -> Forall is_name d ->
  split SLASH (n ++ slashed d) = n :: d.
Proof.
  revert n; induction d as [|m d IH]; intros n Hn Hd.
  - cbn [slashed]. rewrite app_nil_r. apply split_no_sep. apply Hn.
  - cbn [slashed]. rewrite split_app by apply Hn. inversion Hd; subst. rewrite IH by assumption. reflexivity.
Qed.

Lemma fwalk_name_list d' : forall d, Forall is_name d' -> fold_left fwalk1 d' d = d ++ d'.
Proof.
  induction d' as [|n d' IH]; intros d Hd; [symmetry; apply app_nil_r|].
  inversion Hd as [|? ? Hn Hd']; subst. simpl. rewrite IH by exact Hd'.
  replace (fwalk1 d n) with (d ++ [n]); [rewrite <- app_assoc; reflexivity|].
  symmetry. apply walk1_fwalk1. apply walk_name. exact Hn.
Qed.

Lemma location_spelling d : Forall is_name d -> location (spelling d) d.
Proof.
  intros Hd. destruct d as [|n d].
  - exists []. split; [reflexivity|]. apply walk_last; [intros []|constructor].
  - exists (n ++ slashed d). split; [reflexivity|]. inversion Hd; subst.
    replace (n :: d) with (fwalk [] (n ++ slashed d)); [apply fwalk_walk|].
    unfold fwalk. rewrite split_slashed by assumption. rewrite fwalk_name_list by assumption. reflexivity.
Qed.

(** ** Relative paths *)

Lemma components_spelling d : Forall is_name d -> components (spelling d) = RootDir :: map Normal d.
Proof.
  intros Hd. destruct d as [|n d]; [reflexivity|].
  cbn [spelling slashed components]. rewrite N.eqb_refl. f_equal.
  inversion Hd as [|? ? Hn Hd']; subst. rewrite split_slashed by assumption. clear Hn Hd'.
  induction Hd as [|m l Hm Hl IH]; [reflexivity|]. cbn [map concat]. rewrite IH.
  destruct Hm as (H1 & H2 & H3 & H4). unfold piece_component.
  destruct (str_eqb_spec m []); [contradiction|]. destruct (str_eqb_spec m [DOT]); [contradiction|].
  destruct (str_eqb_spec m [DOT; DOT]); [contradiction|]. reflexivity.
Qed.

Lemma drop_common_spec a : forall b,
  exists c a' b', a = c ++ a' /\ b = c ++ b' /\
    drop_common (map Normal a) (map Normal b) = (map Normal a', map Normal b').
Proof.
  induction a as [|x a IH]; intros b.
  - exists [], [], b. destruct b; repeat split; reflexivity.
  - destruct b as [|y b].
    + exists [], (x :: a), []. repeat split; reflexivity.
    + simpl. destruct (str_eqb_spec x y) as [->|H].
      * destruct (IH b) as (c & a' & b' & -> & -> & E).
        exists (y :: c), a', b'. repeat split; try reflexivity. exact E.
      * exists [], (x :: a), (y :: b). repeat split; reflexivity.
Qed.

(** Names separated by slashes. *)
Fixpoint joined_names (d : list (list N)) : list N :=
  match d with
  | [] => []
  | n :: r => n ++ match r with [] => [] | _ => SLASH :: joined_names r end
  end.

Lemma render_rest_true d : render_rest SLASH true (map Normal d) = slashed d.
Proof. induction d as [|n d IH]; [reflexivity|]. simpl. rewrite IH. reflexivity. Qed.

Lemma render_rest_false n d : render_rest SLASH false (map Normal (n :: d)) = n ++ slashed d.
Proof. simpl. rewrite render_rest_true. reflexivity. Qed.

Lemma fwalk_seg d s p : ~ In SLASH s -> fwalk d (s ++ SLASH :: p) = fwalk (fwalk1 d s) p.
Proof. intros H. unfold fwalk. rewrite split_app by exact H. reflexivity. Qed.

Lemma dotdot_no_slash : ~ In SLASH [DOT; DOT].
Proof. intros [H|[H|[]]]; discriminate. Qed.

Lemma fwalk_ups b : forall c p,
  fwalk (c ++ b) (render_ups SLASH (map Normal b) ++ p) = fwalk c p.
Proof.
  induction b as [|x b IH] using rev_ind; intros c p.
  - simpl. rewrite app_nil_r. reflexivity.
  - assert (E : forall l, render_ups SLASH (map Normal (l ++ [x])) = [DOT; DOT; SLASH] ++ render_ups SLASH (map Normal l)).
    { induction l as [|y l IHl]; [reflexivity|]. cbn [app map render_ups]. rewrite IHl. reflexivity. }
    rewrite E, <- app_assoc.
    change ([DOT; DOT; SLASH] ++ render_ups SLASH (map Normal b) ++ p)
      with ([DOT; DOT] ++ SLASH :: (render_ups SLASH (map Normal b) ++ p)).
    rewrite fwalk_seg by apply dotdot_no_slash.
    assert (fwalk1 (c ++ b ++ [x]) [DOT; DOT] = c ++ b) as ->.
    { unfold fwalk1. change (str_eqb [DOT; DOT] []) with false. change (str_eqb [DOT; DOT] [DOT]) with false.
      change (str_eqb [DOT; DOT] [DOT; DOT]) with true. cbv iota. rewrite app_assoc. apply removelast_snoc. }
    apply IH.
Qed.

Lemma relative_walk df dt :
  Forall is_name df -> Forall is_name dt ->
  exists r, path_relative_to (spelling df) (spelling dt) SLASH = Some r /\ fwalk dt r = df /\
            ~ absolute r.
Proof.
  intros Hf Ht. unfold path_relative_to.
  rewrite (components_spelling df Hf), (components_spelling dt Ht). cbn [component_eqb].
  destruct (drop_common_spec df dt) as (c & a & b & -> & -> & E). rewrite E.
  eexists. split; [reflexivity|]. apply Forall_app in Hf. destruct Hf as (Hc & Ha). split.
  - rewrite fwalk_ups. destruct a as [|n a].
    + cbn [map render_rest]. unfold fwalk. cbn [split fold_left]. rewrite app_nil_r. reflexivity.
    + rewrite render_rest_false. unfold fwalk. inversion Ha; subst.
      rewrite split_slashed by assumption. apply fwalk_name_list. exact Ha.
  - intros (q & Hq). destruct b as [|x b]; [|discriminate].
    destruct a as [|n a]; [discriminate|]. simpl in Hq.
    inversion Ha as [|? ? (H1 & H2 & _) _]; subst.
    destruct n as [|y n]; [contradiction|]. injection Hq as -> _. apply H2. left. reflexivity.
Qed.

Lemma path_join_location dt r d :
  Forall is_name dt -> ~ absolute r -> fwalk dt r = d -> location (path_join (spelling dt) r) d.
Proof.
  intros Ht Hr Hw.
  assert (Hgen : forall q, q = spelling dt ++ (if ends_with_slash (spelling dt) then [] else [SLASH]) ++ r ->
                 location q d).
  { intros q ->. rewrite (ends_with_slash_spelling dt Ht). destruct dt as [|n dt].
    - exists r. split; [reflexivity|]. rewrite <- Hw. apply fwalk_walk.
    - exists (n ++ slashed dt ++ SLASH :: r).
      split; [cbn [spelling slashed app]; rewrite <- app_assoc; reflexivity|].
      rewrite <- Hw. inversion Ht as [|? ? Hn Hdt]; subst.
      assert (E : forall n' l e, is_name n' -> Forall is_name l ->
                  fwalk e (n' ++ slashed l ++ SLASH :: r) = fwalk (e ++ n' :: l) r).
      { intros n' l; revert n'. induction l as [|m l IH]; intros n' e Hn' Hl.
        - cbn [slashed app]. rewrite fwalk_seg by apply Hn'. f_equal. apply walk1_fwalk1. apply walk_name. exact Hn'.
        - cbn [slashed]. cbn [app]. rewrite fwalk_seg by apply Hn'. inversion Hl; subst.
          rewrite <- app_assoc. rewrite IH by assumption.
          assert (fwalk1 e n' = e ++ [n']) as -> by (apply walk1_fwalk1; apply walk_name; exact Hn').
          rewrite <- app_assoc. reflexivity. }
      change (n :: dt) with ([] ++ n :: dt). rewrite <- (E n dt [] Hn Hdt). apply fwalk_walk. }
  apply Hgen. unfold path_join.
  destruct r as [|x r].
  - destruct (spelling dt) as [|y s] eqn:Es; [elim (spelling_nonempty dt Es)|]. rewrite <- Es.
    destruct (ends_with_slash (spelling dt)); cbn [app]; [rewrite app_nil_r|]; reflexivity.
  - destruct (N.eqb_spec x SLASH) as [->|Hx]; [elim Hr; exists r; reflexivity|].
    destruct (spelling dt) as [|y s] eqn:Es; [elim (spelling_nonempty dt Es)|]. rewrite <- Es.
    destruct (ends_with_slash (spelling dt)); reflexivity.
Qed.

(** ** Containment *)

Lemma comps_prefix_spec a b :
  comps_prefix (map Normal a) (map Normal b) = true <-> exists r, b = a ++ r.
Proof.
  revert b; induction a as [|x a IH]; intros b; simpl.
  - split; [intros _; exists b; reflexivity|reflexivity].
  - destruct b as [|y b]; simpl.
    + split; [discriminate|intros (r & H); discriminate].
    + rewrite andb_true_iff, IH. destruct (str_eqb_spec x y) as [->|H].
      * split; [intros (_ & r & ->); exists r; reflexivity|].
        intros (r & E). injection E as ->. split; [reflexivity|exists r; reflexivity].
      * split; [intros (E & _); discriminate|]. intros (r & E). injection E as -> _. contradiction.
Qed.

Lemma contains_spec db dp :
  Forall is_name db -> Forall is_name dp ->
  (contains_sub_file (spelling db) (spelling dp) = true <-> exists r, dp = db ++ r).
Proof.
  intros Hb Hp. unfold contains_sub_file. rewrite !components_spelling by assumption.
  cbn [comps_prefix component_eqb andb]. apply comps_prefix_spec.
Qed.

(** ** Splitting *)

Lemma lsplit_spec c s :
  match lsplit c s with
  | Some (a, b) => s = a ++ c :: b /\ ~ In c a
  | None => ~ In c s
  end.
Proof.
  induction s as [|x r IH]; simpl; [intros []|].
  destruct (N.eqb_spec x c) as [->|Hx]; [split; [reflexivity|intros []]|].
  destruct (lsplit c r) as [(a, b)|].
  - destruct IH as (-> & Ha). split; [reflexivity|]. intros [H|H]; [congruence|contradiction].
  - intros [H|H]; [congruence|contradiction].
Qed.

Lemma rsplit_spec c s :
  match rsplit c s with
  | Some (a, b) => s = a ++ c :: b /\ ~ In c b
  | None => ~ In c s
  end.
Proof.
  induction s as [|x r IH]; simpl; [intros []|].
  destruct (rsplit c r) as [(a, b)|].
  - destruct IH as (-> & Hb). split; [reflexivity|exact Hb].
  - destruct (N.eqb_spec x c) as [->|Hx]; [split; [reflexivity|exact IH]|].
    intros [H|H]; [congruence|contradiction].
Qed.
