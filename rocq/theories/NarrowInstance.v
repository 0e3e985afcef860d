(** Proofs about narrowing by [isinstance] *)
From Coq Require Import List NArith ZArith Bool Lia.
From Verif Require Import TupleModel TupleSpec SubtypeModel SubtypeSpec NarrowModel NarrowProofs NarrowIsModel NarrowExhausts NarrowInstanceModel NarrowInstanceSpec.
Import ListNotations.
Open Scope N_scope.

Section Proofs.
Context {V : Type}.
Variables (w : world V) (env : N -> V -> Prop).
Notation has := (has w env).
Variable p : program.
Variable passes : type -> V -> bool.
Variables (float complex : N) (exact : N -> N).
Variables (fits : type -> type -> option bool) (below : type -> type -> bool) (unite : type -> type -> type) (unite_all : list type -> type).
Variables (overlaps accepts : type -> type -> bool) (class_of_both : type -> type -> option type) (any_first : bool).
Variable i0 : type.                      (* the classes *)
Notation is_instance := (is_instance passes i0).
Notation intersect := (intersect accepts class_of_both).
Notation look_at_class := (look_at_class fits below unite).
Notation split_part := (split_part fits below unite any_first i0).
Notation split_one := (split_one p fits below unite accepts class_of_both any_first i0).
Notation find_others := (find_others p unite overlaps accepts class_of_both).
Notation replace_promoted := (replace_promoted float complex exact unite_all).
Notation handle_promotions := (handle_promotions p float complex exact unite_all accepts).
Notation split_and_intersect := (split_and_intersect p float complex exact fits below unite unite_all overlaps accepts class_of_both any_first).
Notation int_type := (Class (int_class p) []).
Notation float_type := (Class float []).
Hypothesis laws : instance_laws w env p passes float complex fits unite unite_all accepts class_of_both i0.
Hypothesis numbers : number_laws w env p passes float complex exact.

(** ** The parts that are looked at *)
Definition pieces_of (t : type) : list type := match t with TypeOf (Union ts) => map TypeOf ts | _ => [t] end.
Definition pieces (t : type) : list type := flat_map pieces_of (parts t).

Lemma has_pieces_of : forall t v, has t v <-> exists u, In u (pieces_of t) /\ has u v.
Proof.
  intros t v. assert (One : pieces_of t = [t] -> has t v <-> exists u, In u (pieces_of t) /\ has u v).
  { intros ->. split; [intros H; exists t; split; [now left|exact H]|]. intros [u [[<-|[]] H]]. exact H. }
  destruct t as [| | | | | | | | | | | | | |t]; try (exact (One eq_refl)). destruct t as [| | | | | | | |ts| | | | | |]; try (exact (One eq_refl)). cbn [pieces_of]. split.
  - intros [x [H1 H2]]. apply has_union in H2 as [t [T1 T2]]. exists (TypeOf t). split; [now apply in_map|]. now exists x.
  - intros [u [U1 H]]. apply in_map_iff in U1 as [t [<- T]]. destruct H as [x [H1 H2]]. exists x. split; [exact H1|]. apply has_union. now exists t.
Qed.

Lemma has_pieces : forall t v, has t v <-> exists u, In u (pieces t) /\ has u v.
Proof.
  intros t v. rewrite has_parts. unfold pieces. split.
  - intros [u [U1 U2]]. apply has_pieces_of in U2 as [x [X1 X2]]. exists x. split; [apply in_flat_map; now exists u|exact X2].
  - intros [x [X1 X2]]. apply in_flat_map in X1 as [u [U1 U2]]. exists u. split; [exact U1|]. apply has_pieces_of. now exists x.
Qed.

Lemma piece_class : forall t c gs, In (Class c gs) (pieces t) <-> In (Class c gs) (parts t).
Proof.
  intros t c gs. unfold pieces. rewrite in_flat_map. split.
  - intros [u [U1 U2]]. destruct u as [| | | | | | | | | | | | | |u]; try (destruct U2 as [<-|[]]; exact U1).
    destruct u; try (destruct U2 as [X|[]]; discriminate X). apply in_map_iff in U2 as [x [X _]]. discriminate X.
  - intros H. exists (Class c gs). split; [exact H|now left].
Qed.

(** ** One part *)
Definition fits_fully (t i : type) : bool := negb (is_any i) && match fits i t with Some false => true | _ => false end.
Definition fits_at_all (t i : type) : bool := negb (is_any i) && match fits i t with Some _ => true | None => false end.
Definition drops (t : type) : bool := existsb (fits_fully t) (parts i0).

Lemma round_flags : forall t l r, let r' := fold_left (look_at_class t) l r in
  matched r' = matched r || existsb (fits_at_all t) l /\
  matched_with_any r' = matched_with_any r && negb (existsb (fits_fully t) l) /\
  had_any r' = had_any r || existsb is_any l.
Proof.
  intros t. induction l as [|i l IH]; intros r; cbn [fold_left existsb]; [rewrite !orb_false_r, andb_true_r; auto|].
  destruct (IH (look_at_class t r i)) as [H1 [H2 H3]]. cbv zeta in *. rewrite H1, H2, H3. unfold fits_at_all, fits_fully, NarrowInstanceModel.look_at_class.
  destruct i; cbn [is_any negb andb];
    try (destruct (fits _ t) as [[]|]; [| |destruct (below _ t)]; cbn [matched matched_with_any had_any true_type orb andb negb];
         rewrite ?orb_true_r, ?orb_false_r, ?andb_true_r, ?andb_false_r, ?orb_true_l; auto; repeat split; try reflexivity; now destruct (matched r), (existsb (fits_at_all t) l)).
  cbn [matched matched_with_any had_any]. rewrite !orb_true_r. auto.
Qed.

Lemma drops_matches : forall t, drops t = true -> existsb (fits_at_all t) (parts i0) = true.
Proof.
  intros t H. unfold drops in H. apply existsb_exists in H as [i [H1 H2]]. apply existsb_exists. exists i. split; [exact H1|].
  unfold fits_fully, fits_at_all in *. apply andb_prop in H2 as [-> H2]. destruct (fits i t); [reflexivity|discriminate H2].
Qed.

Lemma split_part_other : forall s t, snd (split_part s t) = if drops t then snd s else join (snd s) t.
Proof.
  intros s t. unfold NarrowInstanceModel.split_part. destruct (round_flags t (parts i0) (mk_round (fst s) false true false)) as [H1 [H2 H3]]. cbv zeta in *.
  set (r := fold_left _ _ _) in *. cbn [matched matched_with_any had_any orb andb] in H1, H2, H3. rewrite H1, H2. fold (drops t). destruct (drops t) eqn:D.
  - rewrite (drops_matches t D). cbn [negb]. destruct (had_any r); reflexivity.
  - cbn [negb]. destruct (existsb (fits_at_all t) (parts i0)); destruct (had_any r); reflexivity.
Qed.

(** The true type grows. *)
Lemma round_grows : forall t l r v, has (true_type r) v -> has (true_type (fold_left (look_at_class t) l r)) v.
Proof.
  intros t. induction l as [|i l IH]; intros r v H; cbn [fold_left]; [exact H|]. apply IH. unfold NarrowInstanceModel.look_at_class.
  destruct i; try (destruct (fits _ t) as [[]|]; [exact H|exact H|]; destruct (below _ t); [|exact H]; cbn [true_type]; apply (law_unite _ _ _ _ _ _ _ _ _ _ _ _ laws); now left).
  exact H.
Qed.

Lemma round_below : forall t l r i v, In i l -> i <> Any -> fits i t = None -> below i t = true -> has i v -> has (true_type (fold_left (look_at_class t) l r)) v.
Proof.
  intros t. induction l as [|j l IH]; intros r i v Hi Na F B H; [destruct Hi|]. cbn [fold_left]. destruct Hi as [->|Hi]; [|exact (IH _ i v Hi Na F B H)].
  apply round_grows. unfold NarrowInstanceModel.look_at_class. rewrite F, B. destruct i; try (cbn [true_type]; apply (law_unite _ _ _ _ _ _ _ _ _ _ _ _ laws); now right). contradiction.
Qed.

Lemma split_part_grows : forall s t v, has (fst s) v -> has (fst (split_part s t)) v.
Proof.
  intros s t v H. unfold NarrowInstanceModel.split_part. set (r := fold_left _ _ _).
  assert (G : has (true_type r) v) by (apply round_grows; exact H).
  set (s' := if matched r then _ else _). assert (G' : has (fst s') v).
  { subst s'. destruct (matched r); [|exact G]. destruct (matched_with_any r); cbn [fst]; apply (law_unite _ _ _ _ _ _ _ _ _ _ _ _ laws); now left. }
  destruct (had_any r); [|exact G']. cbn [fst]. destruct any_first; apply has_join; auto.
Qed.

(** A part of the type that is settled by the classes: each of them is [Any], has all of its values (as far as is known), has a subtype of it, or has none of its
    values *)
Definition settled (t : type) : Prop := forall i, In i (parts i0) ->
  i = Any \/ fits i t <> None \/ below i t = true \/ (forall v, has t v -> passes i v = false).

Lemma instance_has : forall v, is_instance v = true -> has i0 v.
Proof.
  intros v H. apply existsb_exists in H as [i [H1 H2]]. apply has_parts. exists i. split; [exact H1|]. exact (law_passes _ _ _ _ _ _ _ _ _ _ _ _ laws i v H1 H2).
Qed.

Lemma split_part_settled : forall s t v, settled t -> has t v -> is_instance v = true -> has (fst (split_part s t)) v.
Proof.
  intros s t v S Ht Hi. pose proof (instance_has v Hi) as H0. apply existsb_exists in Hi as [i [I1 I2]].
  unfold NarrowInstanceModel.split_part. destruct (round_flags t (parts i0) (mk_round (fst s) false true false)) as [F1 [F2 F3]]. cbv zeta in *.
  set (r := fold_left _ _ _) in *. cbn [matched matched_with_any had_any orb andb] in F1, F2, F3.
  set (s' := if matched r then _ else _).
  assert (Last : forall P : Prop, (has (fst s') v -> P) -> (had_any r = true -> P) -> (is_any i = true \/ has (fst s') v) -> P).
  { intros P P1 P2 [X|X]; [|exact (P1 X)]. apply P2. rewrite F3. apply existsb_exists. now exists i. }
  assert (M : is_any i = true \/ has (fst s') v).
  { destruct (is_any i) eqn:A; [now left|]. right. assert (Na : i <> Any) by (intros ->; discriminate A).
    destruct (S i I1) as [X|[X|[X|X]]]; [contradiction| | |rewrite (X v Ht) in I2; discriminate I2].
    - assert (Mt : matched r = true). { rewrite F1. apply existsb_exists. exists i. split; [exact I1|]. unfold fits_at_all. rewrite A. destruct (fits i t); [reflexivity|contradiction]. }
      subst s'. rewrite Mt. destruct (matched_with_any r); cbn [fst]; apply (law_unite _ _ _ _ _ _ _ _ _ _ _ _ laws); right; assumption.
    - destruct (fits i t) as [b|] eqn:F.
      + assert (Mt : matched r = true). { rewrite F1. apply existsb_exists. exists i. split; [exact I1|]. unfold fits_at_all. now rewrite A, F. }
        subst s'. rewrite Mt. destruct (matched_with_any r); cbn [fst]; apply (law_unite _ _ _ _ _ _ _ _ _ _ _ _ laws); right; assumption.
      + assert (T : has (true_type r) v) by (apply (round_below t (parts i0) _ i v I1 Na F X); exact (law_passes _ _ _ _ _ _ _ _ _ _ _ _ laws i v I1 I2)).
        subst s'. destruct (matched r); [|exact T]. destruct (matched_with_any r); cbn [fst]; apply (law_unite _ _ _ _ _ _ _ _ _ _ _ _ laws); now left. }
  apply (Last _); [| |exact M].
  - intros H. destruct (had_any r); [|exact H]. cbn [fst]. destruct any_first; apply has_join; auto.
  - intros ->. cbn [fst]. destruct any_first; apply has_join; [left|right]; exact Logic.I.
Qed.

(** ** All parts *)
Definition is_split (t : type) : bool :=
  match t with TypeVar n => unrestricted p n && match intersect t i0 with Some _ => true | None => false end | _ => false end.
Definition kept (t : type) : bool := is_any t || is_split t || negb (drops t).

Lemma join_kept : forall s t, kept t = negb (drops t) -> snd (split_part s t) = fold_left join (filter kept [t]) (snd s).
Proof. intros s t E. rewrite split_part_other. cbn [filter]. rewrite E. destruct (drops t); reflexivity. Qed.

Lemma split_parts_other : forall ts s, (forall t, In t ts -> kept t = negb (drops t)) ->
  snd (fold_left split_part ts s) = fold_left join (filter kept ts) (snd s).
Proof.
  induction ts as [|t ts IH]; intros s E; cbn [fold_left]; [reflexivity|].
  rewrite IH by (intros u U; apply E; now right). rewrite (join_kept s t) by (apply E; now left). cbn [filter]. destruct (kept t); reflexivity.
Qed.

Lemma split_one_other : forall x t, snd (fst (split_one x t)) = fold_left join (filter kept (pieces_of t)) (snd (fst x)).
Proof.
  intros [s f] t. cbn [fst].
  assert (One : pieces_of t = [t] -> kept t = negb (drops t) -> snd (split_part s t) = fold_left join (filter kept (pieces_of t)) (snd s)).
  { intros -> E. apply join_kept. exact E. }
  unfold NarrowInstanceModel.split_one. destruct t as [| | | | | | | | | | | | |n|t]; try (apply One; reflexivity).
  - reflexivity.
  - assert (K : kept (TypeVar n) = is_split (TypeVar n) || negb (drops (TypeVar n))) by reflexivity. unfold is_split in K.
    destruct (unrestricted p n); cbn [andb orb] in K; [|cbn [fst]; now apply One].
    destruct (intersect (TypeVar n) i0) as [new|] eqn:E; cbn [fst]; [|now apply One]. cbn [pieces_of filter]. rewrite K. reflexivity.
  - destruct t as [| | | | | | | |ts| | | | | |]; try (apply One; reflexivity). cbn [pieces_of fst]. apply split_parts_other.
    intros t H. apply in_map_iff in H as [u [<- _]]. reflexivity.
Qed.

Lemma all_other : forall ts x, snd (fst (fold_left split_one ts x)) = fold_left join (filter kept (flat_map pieces_of ts)) (snd (fst x)).
Proof.
  induction ts as [|t ts IH]; intros x; cbn [fold_left flat_map]; [reflexivity|]. rewrite IH, split_one_other, filter_app, fold_left_app. reflexivity.
Qed.

Definition other_side (t : type) : type := fold_left join (filter kept (pieces t)) Never.

Lemma has_other_side : forall t v, has (other_side t) v <-> exists u, In u (pieces t) /\ kept u = true /\ has u v.
Proof.
  intros t v. unfold other_side. rewrite has_join_all. split.
  - intros [[]|[u [H1 H2]]]. apply filter_In in H1 as [H1 H3]. now exists u.
  - intros [u [H1 [H2 H3]]]. right. exists u. split; [now apply filter_In|exact H3].
Qed.

(** A part for which something is found *)
Definition handled (u : type) : Prop := u = Any \/ is_split u = true \/ settled u.

(** A type variable that makes the code forget what it has found *)
Definition forgets (t : type) : Prop := exists before n after new,
  parts t = before ++ TypeVar n :: after /\ unrestricted p n = true /\ intersect (TypeVar n) i0 = Some new /\ before <> [] /\ new <> i0.

Lemma intersect_has : forall t new v, intersect t i0 = Some new -> has t v -> is_instance v = true -> has new v.
Proof.
  intros t new v E Ht Hi. unfold NarrowInstanceModel.intersect in E. destruct (accepts t i0); [injection E as <-; now apply instance_has|].
  destruct (accepts i0 t); [injection E as <-; exact Ht|]. exact (law_both _ _ _ _ _ _ _ _ _ _ _ _ laws t new v E Ht Hi).
Qed.

Lemma split_parts_grow : forall ts s v, has (fst s) v -> has (fst (fold_left split_part ts s)) v.
Proof. induction ts as [|t ts IH]; intros s v H; cbn [fold_left]; [exact H|]. apply IH, split_part_grows, H. Qed.

Lemma split_parts_settled : forall ts s t v, In t ts -> settled t -> has t v -> is_instance v = true -> has (fst (fold_left split_part ts s)) v.
Proof.
  induction ts as [|u ts IH]; intros s t v Ht S H Hi; [destruct Ht|]. cbn [fold_left]. destruct Ht as [->|Ht]; [|exact (IH _ t v Ht S H Hi)].
  apply split_parts_grow. now apply split_part_settled.
Qed.

Lemma split_one_grows : forall x t v, is_instance v = true -> (forall n new, t = TypeVar n -> unrestricted p n = true -> intersect t i0 = Some new -> new = i0) ->
  has (fst (fst x)) v -> has (fst (fst (split_one x t))) v.
Proof.
  intros [s f] t v Hi N H. cbn [fst] in H. unfold NarrowInstanceModel.split_one. destruct t as [| | | | | | | | | | | | |n|t]; try (cbn [fst]; now apply split_part_grows).
  - cbn [fst]. now apply instance_has.
  - destruct (unrestricted p n) eqn:U; [|cbn [fst]; now apply split_part_grows]. destruct (intersect (TypeVar n) i0) as [new|] eqn:E; cbn [fst]; [|now apply split_part_grows].
    rewrite (N n new eq_refl U eq_refl). now apply instance_has.
  - destruct t as [| | | | | | | |ts| | | | | |]; try (cbn [fst]; now apply split_part_grows). cbn [fst]. now apply split_parts_grow.
Qed.

Lemma split_one_handled : forall x t u v, In u (pieces_of t) -> handled u -> has u v -> is_instance v = true -> has (fst (fst (split_one x t))) v.
Proof.
  intros [s f] t u v Hu Hh H Hi. unfold NarrowInstanceModel.split_one.
  assert (One : pieces_of t = [t] -> t <> Any -> (forall n, t <> TypeVar n) -> has (fst (split_part s t)) v).
  { intros E Na Nv. rewrite E in Hu. destruct Hu as [->|[]]. destruct Hh as [X|[X|X]]; [contradiction| |now apply split_part_settled].
    destruct u as [| | | | | | | | | | | | |n|]; try discriminate X. now destruct (Nv n). }
  destruct t as [| | | | | | | | | | | | |n|t]; try (cbn [fst]; apply One; [reflexivity|discriminate|discriminate]).
  - cbn [fst]. now apply instance_has.
  - clear One. cbn [pieces_of] in Hu. destruct Hu as [<-|[]]. assert (X : is_split (TypeVar n) = true \/ settled (TypeVar n)) by (destruct Hh as [X|X]; [discriminate X|exact X]).
    unfold is_split in X. destruct (unrestricted p n); cbn [andb] in X.
    + destruct (intersect (TypeVar n) i0) as [new|] eqn:E; cbn [fst]; [exact (intersect_has _ new v E H Hi)|].
      destruct X as [X|X]; [discriminate X|]. now apply split_part_settled.
    + destruct X as [X|X]; [discriminate X|]. now apply split_part_settled.
  - destruct t as [| | | | | | | |ts| | | | | |]; try (cbn [fst]; apply One; [reflexivity|discriminate|discriminate]). cbn [fst pieces_of] in *.
    apply (split_parts_settled _ s u v Hu); [|exact H|exact Hi]. apply in_map_iff in Hu as [y [<- _]]. destruct Hh as [X|[X|X]]; [discriminate X|discriminate X|exact X].
Qed.

Lemma all_handled : forall t before after x u v, ~ forgets t -> parts t = before ++ after -> In u (flat_map pieces_of after) -> handled u -> has u v ->
  is_instance v = true -> has (fst (fst (fold_left split_one after x))) v.
Proof.
  intros t before after. revert before.
  assert (Grow : forall after before x v, ~ forgets t -> before <> [] -> parts t = before ++ after -> is_instance v = true -> has (fst (fst x)) v ->
    has (fst (fst (fold_left split_one after x))) v).
  { clear after. induction after as [|a after IH]; intros before x v F B E Hi H; cbn [fold_left]; [exact H|].
    apply (IH (before ++ [a])); [exact F|now destruct before|now rewrite <- app_assoc|exact Hi|]. apply split_one_grows; [exact Hi| |exact H].
    intros n new -> U En. destruct (same new i0) eqn:Sm; [now apply same_eq|]. destruct F. exists before, n, after, new. repeat split; auto.
    intros ->. assert (X : same i0 i0 = true) by now apply same_iff. congruence. }
  induction after as [|a after IH]; intros before x u v F E Hu Hh H Hi; [destruct Hu|]. cbn [fold_left flat_map] in *. apply in_app_or in Hu as [Hu|Hu].
  - apply (Grow after (before ++ [a])); [exact F|now destruct before|now rewrite <- app_assoc|exact Hi|]. exact (split_one_handled x a u v Hu Hh H Hi).
  - apply (IH (before ++ [a])) with (u := u); auto. now rewrite <- app_assoc.
Qed.

(** ** If nothing is found *)
(** A part for which nothing is found *)
Definition untouched (u : type) : Prop := u <> Any /\ is_split u = false /\ (forall i, In i (parts i0) -> i <> Any /\ fits i u = None /\ below i u = false).

Lemma round_untouched : forall t l r, (forall i, In i l -> i <> Any /\ fits i t = None /\ below i t = false) -> fold_left (look_at_class t) l r = r.
Proof.
  intros t. induction l as [|i l IH]; intros r U; cbn [fold_left]; [reflexivity|]. destruct (U i (or_introl eq_refl)) as [U1 [U2 U3]].
  assert (E : look_at_class t r i = r). { unfold NarrowInstanceModel.look_at_class. rewrite U2, U3. destruct i; try reflexivity. contradiction. }
  rewrite E. apply IH. intros j J. apply U. now right.
Qed.

Lemma split_part_untouched : forall s t, untouched t -> fst (split_part s t) = fst s.
Proof. intros s t [_ [_ U]]. unfold NarrowInstanceModel.split_part. rewrite (round_untouched t _ _ U). reflexivity. Qed.

Lemma split_parts_untouched : forall ts s, (forall t, In t ts -> untouched t) -> fst (fold_left split_part ts s) = fst s.
Proof.
  induction ts as [|t ts IH]; intros s U; cbn [fold_left]; [reflexivity|]. rewrite IH by (intros u H; apply U; now right). apply split_part_untouched, U. now left.
Qed.

Lemma split_one_untouched : forall x t, (forall u, In u (pieces_of t) -> untouched u) -> fst (fst (split_one x t)) = fst (fst x).
Proof.
  intros [s f] t U. unfold NarrowInstanceModel.split_one.
  assert (One : pieces_of t = [t] -> fst (split_part s t) = fst s). { intros E. apply split_part_untouched, U. rewrite E. now left. }
  destruct t as [| | | | | | | | | | | | |n|t]; try (cbn [fst]; apply One; reflexivity).
  - destruct (U Any (or_introl eq_refl)) as [X _]. contradiction.
  - destruct (U (TypeVar n) (or_introl eq_refl)) as [_ [X _]]. unfold is_split in X. destruct (unrestricted p n); cbn [andb] in X; [|cbn [fst]; apply One; reflexivity].
    destruct (intersect (TypeVar n) i0); [discriminate X|]. cbn [fst]. apply One. reflexivity.
  - destruct t as [| | | | | | | |ts| | | | | |]; try (cbn [fst]; apply One; reflexivity). cbn [fst pieces_of] in *. now apply split_parts_untouched.
Qed.

Lemma all_untouched : forall ts x, (forall u, In u (flat_map pieces_of ts) -> untouched u) -> fst (fst (fold_left split_one ts x)) = fst (fst x).
Proof.
  induction ts as [|t ts IH]; intros x U; cbn [fold_left flat_map] in *; [reflexivity|].
  rewrite IH by (intros u H; apply U, in_or_app; now right). apply split_one_untouched. intros u H. apply U, in_or_app. now left.
Qed.

Lemma repeat_unite : forall (l : list type) t u v, has t v -> has (fold_left (fun tt _ => unite tt u) l t) v.
Proof. induction l as [|y l IH]; intros t u v H; cbn [fold_left]; [exact H|]. apply IH. apply (law_unite _ _ _ _ _ _ _ _ _ _ _ _ laws). now left. Qed.

Lemma others_found : forall t v, has t v -> is_instance v = true -> has (find_others t i0) v.
Proof.
  intros t v H Hi. unfold NarrowInstanceModel.find_others. destruct (overlaps t i0); [now apply instance_has|]. apply has_parts in H as [u [U H]].
  set (step := fun _ _ => _). assert (Grow : forall l acc, has acc v -> has (fold_left step l acc) v).
  { induction l as [|y l IH]; intros acc X; cbn [fold_left]; [exact X|]. apply IH. unfold step.
    destruct (intersect y i0) as [new|]; [apply (law_unite _ _ _ _ _ _ _ _ _ _ _ _ laws); now left|]. now apply repeat_unite. }
  generalize Never. induction (parts t) as [|y l IH]; intros acc; [destruct U|]. cbn [fold_left]. destruct U as [->|U]; [|now apply IH]. apply Grow. clear IH Grow.
  unfold step. destruct (intersect u i0) as [new|] eqn:E.
  - apply (law_unite _ _ _ _ _ _ _ _ _ _ _ _ laws). right. exact (intersect_has u new v E H Hi).
  - assert (E' : class_of_both u i0 = None). { unfold NarrowInstanceModel.intersect in E. destruct (accepts u i0); [discriminate E|]. destruct (accepts i0 u); [discriminate E|exact E]. }
    destruct (law_neither _ _ _ _ _ _ _ _ _ _ _ _ laws u v E' H Hi) as [c [gs [C1 C2]]].
    assert (X : In (Class c gs) (protocols p i0)). { unfold protocols. apply filter_In. split; [exact C1|exact C2]. }
    destruct (protocols p i0) as [|z l']; [destruct X|]. cbn [fold_left]. apply repeat_unite. apply (law_unite _ _ _ _ _ _ _ _ _ _ _ _ laws). now right.
Qed.

(** ** The two sides *)
Lemma split_shape : forall t, exists f,
  snd (split_and_intersect t i0) = handle_promotions t i0 f (other_side t) /\
  fst (split_and_intersect t i0) =
    (let found := fst (fst (fold_left split_one (parts t) (nothing, false))) in if is_never found then find_others t i0 else found) /\
  f = snd (fold_left split_one (parts t) (nothing, false)).
Proof.
  intros t. unfold NarrowInstanceModel.split_and_intersect. pose proof (all_other (parts t) (nothing, false)) as E. cbn [fst snd nothing] in E. fold (pieces t) in E.
  fold (other_side t) in E. destruct (fold_left split_one (parts t) (nothing, false)) as [[tt o] f]. exists f. cbn [fst snd] in *. subst o. repeat split; reflexivity.
Qed.

Theorem truthy_has : forall t v, has t v -> is_instance v = true ->
  (~ forgets t /\ exists u, In u (pieces t) /\ handled u /\ has u v) \/ (forall u, In u (pieces t) -> untouched u) ->
  has (fst (split_and_intersect t i0)) v.
Proof.
  intros t v H Hi C. destruct (split_shape t) as [f [_ [-> _]]]. cbv zeta. destruct C as [[F [u [U1 [U2 U3]]]]|U].
  - pose proof (all_handled t [] (parts t) (nothing, false) u v F eq_refl U1 U2 U3 Hi) as X. destruct (is_never _) eqn:E; [|exact X].
    set (found := fst (fst (fold_left split_one (parts t) (nothing, false)))) in *. destruct found; try discriminate E. destruct X.
  - rewrite (all_untouched (parts t) (nothing, false) U). now apply others_found.
Qed.

(** ** Promotions *)
Lemma is_class_spec : forall c t, is_class exact c t = true -> exists d gs, t = Class d gs /\ (d = c \/ d = exact c).
Proof.
  intros c t H. destruct t as [| | |d gs| | | | | | | | | | |]; try discriminate H. cbn [is_class] in H. apply orb_prop in H as [H|H]; apply N.eqb_eq in H; exists d, gs; auto.
Qed.

Lemma replaced : forall for_int o n v, replace_promoted for_int o = Some n -> has o v ->
  has n v \/ has int_type v \/ for_int = false /\ has (Class (exact float) []) v.
Proof.
  intros for_int. induction o as [| | |c gs IH|c gs IH|l| |ts IH|t IH|b n a IHb IHa|b t a IHb IHt IHa|ts IH|ts IH|e|e m|n|n|t IH] using type_rect'; intros n' v E H; try discriminate E.
  - cbn [NarrowInstanceModel.replace_promoted] in E. destruct for_int.
    + destruct (is_class exact float (Class c gs)) eqn:Fl.
      * injection E as <-. apply is_class_spec in Fl as [d [gs' [X D]]]. injection X as <- <-. destruct (law_float _ _ _ _ _ _ _ numbers c gs v D H) as [Y|[_ Y]]; auto.
      * destruct (is_class exact complex (Class c gs)) eqn:Co; [|discriminate E].
        assert (Y : join (exact_type exact float) (exact_type exact complex) = n') by congruence. clear E. subst n'.
        apply is_class_spec in Co as [d [gs' [X D]]]. injection X as <- <-. rewrite has_join. destruct (law_complex _ _ _ _ _ _ _ numbers c gs v D H) as [Y|[_ [Y|Y]]]; auto.
    + destruct (is_class exact complex (Class c gs)) eqn:Co; [|discriminate E]. injection E as <-. apply is_class_spec in Co as [d [gs' [X D]]]. injection X as <- <-.
      destruct (law_complex _ _ _ _ _ _ _ numbers c gs v D H) as [Y|[_ [Y|Y]]]; auto.
  - cbn [NarrowInstanceModel.replace_promoted] in E. destruct (existsb _ ts); [|discriminate E]. injection E as <-. apply has_union in H as [t [T H]].
    rewrite (law_unite_all _ _ _ _ _ _ _ _ _ _ _ _ laws). destruct (replace_promoted for_int t) as [n|] eqn:R.
    + rewrite Forall_forall in IH. destruct (IH t T n v R H) as [X|X]; [|now right]. left. exists n. split; [|exact X]. apply in_map_iff. exists t. rewrite R. split; [reflexivity|exact T].
    + left. exists t. split; [|exact H]. apply in_map_iff. exists t. rewrite R. split; [reflexivity|exact T].
Qed.

(** The parts that have numbers, and lose them with the class *)
Definition numbers_suit (t : type) : Prop :=
  (forall gs, In (Class float gs) (parts t) -> drops (Class float gs) = true ->
    (forall v, has int_type v -> is_instance v = true) \/
    (exists c gs', i0 = Class c gs' /\ (c = float \/ c = exact float)) /\ non_promotable exact float t = false /\ (forall u, In u (parts t) -> is_split u = false)) /\
  (forall gs, In (Class complex gs) (parts t) -> drops (Class complex gs) = true ->
    (forall v, has float_type v -> is_instance v = true) \/
    (exists c gs', i0 = Class c gs' /\ (c = complex \/ c = exact complex)) /\ non_promotable exact complex t = false /\ (forall u, In u (pieces t) -> kept u = false)) /\
  (forall c gs, In (TypeOf (Class c gs)) (pieces t) -> c = float \/ c = complex -> drops (TypeOf (Class c gs)) = false).

Lemma no_split : forall ts x, (forall u, In u ts -> is_split u = false) -> snd (fold_left split_one ts x) = snd x.
Proof.
  induction ts as [|t ts IH]; intros x N; cbn [fold_left]; [reflexivity|]. rewrite IH by (intros u U; apply N; now right).
  pose proof (N t (or_introl eq_refl)) as X. destruct x as [s f]. unfold NarrowInstanceModel.split_one.
  destruct t as [| | | | | | | | | | | | |n|t]; try reflexivity; [|destruct t; reflexivity]. unfold is_split in X.
  destruct (unrestricted p n); cbn [andb] in X; [|reflexivity]. destruct (intersect (TypeVar n) i0); [discriminate X|reflexivity].
Qed.

Lemma single_instance : forall c gs v, i0 = Class c gs -> is_instance v = passes i0 v.
Proof. intros c gs v E. unfold NarrowInstanceSpec.is_instance. rewrite E. cbn [parts existsb]. apply orb_false_r. Qed.

(** What is kept stays. *)
Lemma promotions_keep : forall t f o v, has o v -> is_instance v = false -> has (handle_promotions t i0 f o) v.
Proof.
  intros t f o v H Hi.
  assert (One : (exists c gs, i0 = Class c gs) \/ handle_promotions t i0 f o = o) by (destruct i0; (left; eexists; eexists; reflexivity) || (right; reflexivity)).
  destruct One as [[c [gs I0]]| ->]; [|exact H]. rewrite (single_instance c gs v I0) in Hi. rewrite I0 in Hi |- *. unfold NarrowInstanceModel.handle_promotions.
  destruct (is_class exact float (Class c gs)) eqn:Fl.
  - destruct (non_promotable exact float t); [exact H|]. destruct (replace_promoted false o) as [n|] eqn:R.
    + rewrite has_join. destruct (replaced false o n v R H) as [X|[X|[_ X]]]; [now left|right; exact X|].
      apply is_class_spec in Fl as [d [gs' [Y D]]]. injection Y as <- <-. rewrite (law_exact_float _ _ _ _ _ _ _ numbers c gs v D X) in Hi. discriminate Hi.
    + destruct (negb f && negb (accepts o _)); [rewrite has_join; now left|exact H].
  - destruct (of_class (int_class p) (Class c gs)) eqn:In.
    + destruct (replace_promoted true o) as [n|] eqn:R; [|exact H]. cbn [or_else]. destruct (replaced true o n v R H) as [X|[X|[X _]]]; [exact X| |discriminate X].
      cbn [of_class] in In. apply N.eqb_eq in In as <-. rewrite (law_int _ _ _ _ _ _ _ numbers gs v X) in Hi. discriminate Hi.
    + destruct (is_class exact complex (Class c gs)); [|exact H]. destruct o; try exact H. destruct H.
Qed.

Lemma float_not_int : float <> int_class p /\ exact float <> int_class p /\ complex <> float /\ complex <> exact float /\ complex <> int_class p /\
  exact complex <> float /\ exact complex <> exact float /\ exact complex <> int_class p.
Proof.
  pose proof (law_different _ _ _ _ _ _ _ numbers) as D. inversion D as [|x1 l1 D1 D2 E1]; subst. inversion D2 as [|x2 l2 D3 D4 E2]; subst.
  inversion D4 as [|x3 l3 D5 D6 E3]; subst. inversion D6 as [|x4 l4 D7 D8 E4]; subst. cbn [In] in *. repeat split; intros X; intuition congruence.
Qed.

Theorem falsey_has : forall t v, numbers_suit t -> has t v -> is_instance v = false -> has (snd (split_and_intersect t i0)) v.
Proof.
  intros t v [Nf [Nc Nt]] H Hi. destruct (split_shape t) as [f [-> [_ F]]]. apply has_pieces in H as [u [U H]]. destruct (kept u) eqn:K.
  { apply promotions_keep; [|exact Hi]. apply has_other_side. now exists u. }
  assert (D : drops u = true). { unfold kept in K. apply orb_false_elim in K as [_ K]. now destruct (drops u). }
  pose proof D as D'. unfold drops in D'. apply existsb_exists in D' as [i [I1 I2]]. unfold fits_fully in I2. apply andb_prop in I2 as [I2 I3].
  assert (Fi : fits i u = Some false) by (destruct (fits i u) as [[]|]; try discriminate I3; reflexivity).
  assert (Np : passes i v = true -> False). { intros X. assert (Y : is_instance v = true) by (apply existsb_exists; now exists i). congruence. }
  pose proof (law_fits _ _ _ _ _ _ _ _ _ _ _ _ laws i u v I1 Fi H) as L. destruct u as [| | |c gs| | | | | | | | | | |a]; try (destruct (Np L)).
  2: { destruct a as [| | |c gs| | | | | | | | | | |]; try (destruct (Np L)). destruct L as [L|L]; [destruct (Np L)|]. rewrite (Nt c gs U L) in D. discriminate D. }
  apply piece_class in U. destruct L as [L|[[-> L]|[-> L]]]; [destruct (Np L)| |].
  - destruct (Nf gs U D) as [X|[[c [gs' [I0 C]]] [P Ns]]]; [rewrite (X v L) in Hi; discriminate Hi|].
    unfold NarrowInstanceModel.handle_promotions. rewrite I0. assert (Fl : is_class exact float (Class c gs') = true).
    { cbn [is_class]. destruct C as [->| ->]; rewrite N.eqb_refl; [reflexivity|apply orb_true_r]. }
    rewrite Fl, P. destruct (replace_promoted false (other_side t)) as [n|]; [apply has_join; now right|].
    rewrite F, no_split by exact Ns. cbn [snd negb andb]. destruct (accepts (other_side t) _) eqn:A; cbn [negb].
    + exact (law_accepts _ _ _ _ _ _ _ _ _ _ _ _ laws _ v A L).
    + apply has_join. now right.
  - destruct (Nc gs U D) as [X|[[c [gs' [I0 C]]] [P Ns]]]; [rewrite (X v L) in Hi; discriminate Hi|].
    unfold NarrowInstanceModel.handle_promotions. rewrite I0. destruct float_not_int as [D1 [D2 [D3 [D4 [D5 [D6 [D7 D8]]]]]]].
    assert (Fl : is_class exact float (Class c gs') = false).
    { cbn [is_class]. destruct C as [->| ->]; apply orb_false_intro; now apply N.eqb_neq. }
    assert (In' : of_class (int_class p) (Class c gs') = false). { cbn [of_class]. destruct C as [->| ->]; apply N.eqb_neq; congruence. }
    assert (Co : is_class exact complex (Class c gs') = true). { cbn [is_class]. destruct C as [->| ->]; rewrite N.eqb_refl; [reflexivity|apply orb_true_r]. }
    rewrite Fl, In', Co, P. assert (O : other_side t = Never).
    { unfold other_side. assert (X : filter kept (pieces t) = []). { clear - Ns. induction (pieces t) as [|y l IH]; [reflexivity|]. cbn [filter]. rewrite (Ns y (or_introl eq_refl)). apply IH. intros u U. apply Ns. now right. }
      now rewrite X. }
    rewrite O. exact L.
Qed.

(** ** Nothing is added *)
(** The types of numbers are ordered. *)
Record tower : Prop := mk_tower {
  tower_float : forall gs v, has (Class (exact float) []) v \/ has int_type v -> has (Class float gs) v;
  tower_complex : forall gs v, has (Class (exact complex) []) v \/ has float_type v -> has (Class complex gs) v;
  tower_exact : forall gs v, has (Class (exact float) []) v -> has (Class (exact float) gs) v;
  tower_exact_complex : forall gs v, has (Class (exact complex) []) v -> has (Class (exact complex) gs) v
}.

Fixpoint mentions (c : N) (t : type) : bool :=
  match t with Class d _ => d =? c | Union ts => existsb (mentions c) ts | _ => false end.

Lemma replaced_within : forall for_int, tower -> forall o n v, (for_int = true -> mentions (exact complex) o = false) -> replace_promoted for_int o = Some n -> has n v -> has o v.
Proof.
  intros for_int T. induction o as [| | |c gs IH|c gs IH|l| |ts IH|t IH|b n a IHb IHa|b t a IHb IHt IHa|ts IH|ts IH|e|e m|n|n|t IH] using type_rect'; intros n' v M E H; try discriminate E.
  - cbn [NarrowInstanceModel.replace_promoted] in E. destruct for_int.
    + destruct (is_class exact float (Class c gs)) eqn:Fl.
      * injection E as <-. apply is_class_spec in Fl as [d [gs' [X D]]]. injection X as <- <-. destruct D as [->| ->]; [apply (tower_float T); now left|now apply (tower_exact T)].
      * destruct (is_class exact complex (Class c gs)) eqn:Co; [|discriminate E].
        assert (Y : join (exact_type exact float) (exact_type exact complex) = n') by congruence. clear E. subst n'.
        apply is_class_spec in Co as [d [gs' [X D]]]. injection X as <- <-. apply has_join in H. destruct D as [->| ->].
        -- apply (tower_complex T). destruct H as [H|H]; [right|now left]. apply (tower_float T). now left.
        -- specialize (M eq_refl). cbn [mentions] in M. rewrite N.eqb_refl in M. discriminate M.
    + destruct (is_class exact complex (Class c gs)) eqn:Co; [|discriminate E]. injection E as <-. apply is_class_spec in Co as [d [gs' [X D]]]. injection X as <- <-.
      destruct D as [->| ->]; [apply (tower_complex T); now left|now apply (tower_exact_complex T)].
  - cbn [NarrowInstanceModel.replace_promoted] in E. destruct (existsb _ ts); [|discriminate E]. injection E as <-.
    apply (law_unite_all _ _ _ _ _ _ _ _ _ _ _ _ laws) in H as [t' [T' H]]. apply in_map_iff in T' as [t [<- Ht]]. apply has_union. exists t. split; [exact Ht|].
    destruct (replace_promoted for_int t) as [n|] eqn:R; [|exact H]. rewrite Forall_forall in IH. apply (IH t Ht n v); [|exact R|exact H].
    intros F. specialize (M F). cbn [mentions] in M. destruct (mentions (exact complex) t) eqn:Q; [|reflexivity].
    assert (Z : existsb (mentions (exact complex)) ts = true) by (apply existsb_exists; now exists t). congruence.
Qed.

Lemma mentions_parts : forall c t, mentions c t = existsb (mentions c) (parts t).
Proof. intros c t. destruct t; cbn [parts mentions existsb]; rewrite ?orb_false_r; reflexivity. Qed.

Lemma mentions_other : forall c t, mentions c t = false -> mentions c (other_side t) = false.
Proof.
  intros c t M. destruct (mentions c (other_side t)) eqn:E; [|reflexivity]. exfalso. rewrite mentions_parts in E, M. apply existsb_exists in E as [x [X1 X2]].
  unfold other_side in X1. apply in_parts_all in X1 as [[]|[u [U X1]]]. apply filter_In in U as [U _]. unfold pieces in U. apply in_flat_map in U as [y [Y U]].
  assert (Z : mentions c y = true).
  { assert (Q : mentions c u = true) by (rewrite mentions_parts; apply existsb_exists; now exists x).
    destruct y as [| | | | | | | | | | | | | |y]; try (destruct U as [<-|[]]; exact Q). destruct y; try (destruct U as [<-|[]]; exact Q). apply in_map_iff in U as [z [<- _]]. discriminate Q. }
  assert (W : existsb (mentions c) (parts t) = true) by (apply existsb_exists; now exists y). congruence.
Qed.

(** What is known about the numbers in [t] *)
Definition numbers_within (t : type) : Prop :=
  match i0 with
  | Class c gs =>
      if is_class exact float i0 then exists gs', In (Class float gs') (parts t) \/ In (Class complex gs') (parts t)
      else if of_class (int_class p) i0 then mentions (exact complex) t = false
      else if is_class exact complex i0 then (exists gs', In (Class float gs') (parts t) \/ In (Class complex gs') (parts t)) \/ other_side t <> Never
      else True
  | _ => True
  end.

Lemma float_part : forall t gs v, tower -> In (Class float gs) (parts t) \/ In (Class complex gs) (parts t) -> has int_type v -> has t v.
Proof.
  intros t gs v T H Hv. apply has_parts. destruct H as [H|H]; eexists; (split; [exact H|]); [apply (tower_float T); now right|].
  apply (tower_complex T). right. apply (tower_float T). now right.
Qed.

Theorem falsey_within : forall t v, tower -> (forall gs v, has float_type v -> has (Class float gs) v) -> numbers_within t -> has (snd (split_and_intersect t i0)) v -> has t v.
Proof.
  intros t v T Fg W H. destruct (split_shape t) as [f [E _]]. rewrite E in H. clear E.
  assert (O : forall v, has (other_side t) v -> has t v). { intros x X. apply has_other_side in X as [u [U [_ X]]]. apply has_pieces. now exists u. }
  assert (One : (exists c gs, i0 = Class c gs) \/ handle_promotions t i0 f (other_side t) = other_side t) by (destruct i0; (left; eexists; eexists; reflexivity) || (right; reflexivity)).
  destruct One as [[c [gs I0]]|E]; [|rewrite E in H; exact (O v H)]. unfold numbers_within in W. rewrite I0 in W, H. unfold NarrowInstanceModel.handle_promotions in H.
  destruct (is_class exact float (Class c gs)).
  - destruct W as [gs' W]. destruct (non_promotable exact float t); [exact (O v H)|]. destruct (replace_promoted false (other_side t)) as [n|] eqn:R.
    + apply has_join in H as [H|H]; [|exact (float_part t gs' v T W H)]. apply O. apply (replaced_within false T (other_side t) n v); [discriminate|exact R|exact H].
    + destruct (negb f && _); [|exact (O v H)]. apply has_join in H as [H|H]; [exact (O v H)|exact (float_part t gs' v T W H)].
  - destruct (of_class (int_class p) (Class c gs)).
    + destruct (replace_promoted true (other_side t)) as [n|] eqn:R; [|exact (O v H)]. cbn [or_else] in H. apply O.
      apply (replaced_within true T (other_side t) n v); [|exact R|exact H]. intros _. now apply mentions_other.
    + destruct (is_class exact complex (Class c gs)); [|exact (O v H)]. destruct (is_never (other_side t)) eqn:Nv; cbn [andb] in H; [|exact (O v H)].
      destruct (negb _); [|exact (O v H)]. destruct W as [[gs' W]|W]; [|destruct (other_side t); try discriminate Nv; contradiction].
      apply has_parts. destruct W as [W|W]; eexists; (split; [exact W|]); [now apply Fg|]. apply (tower_complex T). now right.
Qed.

(** ** Exactly *)
(** The classes tell all about a part: [isinstance] is true for all of its values, for none, or for the ones of a class that is below it. *)
Definition decided (u : type) : Prop := u <> Any /\ is_split u = false /\ forall i, In i (parts i0) -> i <> Any /\
  (fits i u = Some false /\ (forall v, has u v -> passes i v = true) \/
   fits i u = None /\ below i u = true /\ (forall v, has i v -> has u v) \/
   fits i u = None /\ below i u = false /\ (forall v, has u v -> passes i v = false)).

Lemma decided_settled : forall u, decided u -> settled u.
Proof.
  intros u [_ [_ D]] i I1. destruct (D i I1) as [_ [[X _]|[[_ [X _]]|[_ [_ X]]]]]; [right; left; rewrite X; discriminate|right; right; left; exact X|right; right; right; exact X].
Qed.

Lemma round_exact : forall t l r v, has (true_type (fold_left (look_at_class t) l r)) v ->
  has (true_type r) v \/ exists i, In i l /\ fits i t = None /\ below i t = true /\ has i v.
Proof.
  intros t. induction l as [|i l IH]; intros r v H; cbn [fold_left] in H; [now left|]. apply IH in H as [H|[j [J H]]]; [|right; exists j; split; [now right|exact H]].
  unfold NarrowInstanceModel.look_at_class in H.
  assert (X : has (true_type r) v \/ fits i t = None /\ below i t = true /\ has i v).
  { destruct (fits i t) as [[]|]; [destruct i; now left|destruct i; now left|]. destruct (below i t); [|destruct i; now left].
    destruct i; try (cbn [true_type] in H; apply (law_unite _ _ _ _ _ _ _ _ _ _ _ _ laws) in H as [H|H]; auto). now left. }
  destruct X as [X|X]; [now left|]. right. exists i. split; [now left|exact X].
Qed.

Lemma split_part_exact : forall s t v, (forall i x, In i (parts i0) -> has i x -> passes i x = true) -> decided t ->
  has (fst (split_part s t)) v <-> has (fst s) v \/ has t v /\ is_instance v = true.
Proof.
  intros s t v Ps D. split; [|intros [H|[H Hi]]; [now apply split_part_grows|apply split_part_settled; auto; now apply decided_settled]].
  destruct D as [_ [_ D]]. unfold NarrowInstanceModel.split_part. destruct (round_flags t (parts i0) (mk_round (fst s) false true false)) as [F1 [F2 F3]]. cbv zeta in *.
  pose proof (round_exact t (parts i0) (mk_round (fst s) false true false) v) as X. set (r := fold_left _ _ _) in *. cbn [matched matched_with_any had_any true_type orb andb] in *.
  assert (Na : had_any r = false).
  { rewrite F3. destruct (existsb is_any (parts i0)) eqn:E; [|reflexivity]. apply existsb_exists in E as [i [I1 I2]]. destruct (D i I1) as [N _]. destruct i; try discriminate I2. contradiction. }
  assert (G : has (true_type r) v -> has (fst s) v \/ has t v /\ is_instance v = true).
  { intros H. destruct (X H) as [Y|[i [I1 [I2 [I3 I4]]]]]; [now left|]. right. split; [|apply existsb_exists; exists i; split; [exact I1|now apply Ps]].
    destruct (D i I1) as [_ [[Y _]|[[_ [_ Y]]|[_ [Y _]]]]]; [congruence|exact (Y v I4)|congruence]. }
  rewrite Na. destruct (matched r) eqn:M; [|exact G].
  assert (Z : exists i, In i (parts i0) /\ fits i t = Some false /\ fits_fully t i = true /\ forall x, has t x -> passes i x = true).
  { assert (Q : existsb (fits_at_all t) (parts i0) = true) by congruence. apply existsb_exists in Q as [i [I1 I2]]. exists i. unfold fits_at_all in I2. apply andb_prop in I2 as [I2 I3].
    destruct (D i I1) as [_ [[Y Y']|[[Y _]|[Y _]]]]; [|rewrite Y in I3; discriminate I3|rewrite Y in I3; discriminate I3]. unfold fits_fully. rewrite I2, Y. auto. }
  destruct Z as [i [I1 [_ [I3 I4]]]]. assert (W : matched_with_any r = false).
  { rewrite F2. assert (E : existsb (fits_fully t) (parts i0) = true) by (apply existsb_exists; now exists i). rewrite E. reflexivity. }
  rewrite W. cbn [fst]. intros H. apply (law_unite _ _ _ _ _ _ _ _ _ _ _ _ laws) in H as [H|H]; [exact (G H)|]. right. split; [exact H|].
  apply existsb_exists. exists i. split; [exact I1|exact (I4 v H)].
Qed.

Lemma split_parts_exact : forall ts s v, (forall i x, In i (parts i0) -> has i x -> passes i x = true) -> (forall t, In t ts -> decided t) ->
  has (fst (fold_left split_part ts s)) v <-> has (fst s) v \/ (exists u, In u ts /\ has u v) /\ is_instance v = true.
Proof.
  induction ts as [|t ts IH]; intros s v Ps D; cbn [fold_left].
  - split; [now left|]. intros [H|[[u [[] _]] _]]. exact H.
  - rewrite (IH _ v Ps) by (intros u U; apply D; now right). rewrite (split_part_exact s t v Ps (D t (or_introl eq_refl))). split.
    + intros [[H|[H Hi]]|[[u [U H]] Hi]]; [now left|right; split; [exists t; split; [now left|exact H]|exact Hi]|right; split; [exists u; split; [now right|exact H]|exact Hi]].
    + intros [H|[[u [[<-|U] H]] Hi]]; [left; now left|left; right; now split|right; split; [now exists u|exact Hi]].
Qed.

Lemma split_one_exact : forall x t v, (forall i x, In i (parts i0) -> has i x -> passes i x = true) -> (forall u, In u (pieces_of t) -> decided u) ->
  has (fst (fst (split_one x t))) v <-> has (fst (fst x)) v \/ has t v /\ is_instance v = true.
Proof.
  intros [s f] t v Ps D. unfold NarrowInstanceModel.split_one. cbn [fst].
  assert (One : pieces_of t = [t] -> has (fst (split_part s t)) v <-> has (fst s) v \/ has t v /\ is_instance v = true).
  { intros E. apply split_part_exact; [exact Ps|]. apply D. rewrite E. now left. }
  destruct t as [| | | | | | | | | | | | |n|t]; try (cbn [fst]; apply One; reflexivity).
  - destruct (D Any (or_introl eq_refl)) as [X _]. contradiction.
  - destruct (D (TypeVar n) (or_introl eq_refl)) as [_ [X _]]. unfold is_split in X. destruct (unrestricted p n); cbn [andb] in X; [|cbn [fst]; apply One; reflexivity].
    destruct (intersect (TypeVar n) i0); [discriminate X|]. cbn [fst]. apply One. reflexivity.
  - destruct t as [| | | | | | | |ts| | | | | |]; try (cbn [fst]; apply One; reflexivity). cbn [fst]. rewrite (split_parts_exact (map TypeOf ts) s v Ps D).
    pose proof (has_pieces_of (TypeOf (Union ts)) v) as X. cbn [pieces_of] in X. rewrite X. reflexivity.
Qed.

Lemma all_exact : forall ts x v, (forall i x, In i (parts i0) -> has i x -> passes i x = true) -> (forall u, In u (flat_map pieces_of ts) -> decided u) ->
  has (fst (fst (fold_left split_one ts x))) v <-> has (fst (fst x)) v \/ (exists u, In u ts /\ has u v) /\ is_instance v = true.
Proof.
  induction ts as [|t ts IH]; intros x v Ps D; cbn [fold_left flat_map] in *.
  - split; [now left|]. intros [H|[[u [[] _]] _]]. exact H.
  - rewrite (IH _ v Ps) by (intros u U; apply D, in_or_app; now right). rewrite (split_one_exact x t v Ps) by (intros u U; apply D, in_or_app; now left). split.
    + intros [[H|[H Hi]]|[[u [U H]] Hi]]; [now left|right; split; [exists t; split; [now left|exact H]|exact Hi]|right; split; [exists u; split; [now right|exact H]|exact Hi]].
    + intros [H|[[u [[<-|U] H]] Hi]]; [left; now left|left; right; now split|right; split; [now exists u|exact Hi]].
Qed.

Theorem truthy_exact : forall t, (forall i x, In i (parts i0) -> has i x -> passes i x = true) -> (forall u, In u (pieces t) -> decided u) ->
  (exists v, has t v /\ is_instance v = true) -> forall v, has (fst (split_and_intersect t i0)) v <-> has t v /\ is_instance v = true.
Proof.
  intros t Ps D [v0 [V1 V2]] v. destruct (split_shape t) as [f [_ [-> _]]]. cbv zeta.
  assert (X : forall v, has (fst (fst (fold_left split_one (parts t) (nothing, false)))) v <-> has t v /\ is_instance v = true).
  { intros x. rewrite (all_exact (parts t) (nothing, false) x Ps D). rewrite (has_parts w env t x). cbn. tauto. }
  set (found := fst (fst (fold_left split_one (parts t) (nothing, false)))) in *. destruct (is_never found) eqn:E; [|exact (X v)].
  pose proof (proj2 (X v0) (conj V1 V2)) as Y. destruct found; try discriminate E. destruct Y.
Qed.

(** All or nothing *)
Definition separated (u : type) : Prop := decided u /\ forall i, In i (parts i0) -> below i u = false.

Definition no_number : Prop := match i0 with Class _ _ => is_class exact float i0 = false /\ of_class (int_class p) i0 = false /\ is_class exact complex i0 = false | _ => True end.

Theorem falsey_exact : forall t, no_number -> (forall u, In u (pieces t) -> separated u) ->
  forall v, has (snd (split_and_intersect t i0)) v <-> exists u, In u (pieces t) /\ has u v /\ is_instance v = false.
Proof.
  intros t Nn D v. destruct (split_shape t) as [f [-> _]].
  assert (E : handle_promotions t i0 f (other_side t) = other_side t).
  { unfold no_number in Nn. unfold NarrowInstanceModel.handle_promotions. destruct i0; try reflexivity. destruct Nn as [-> [-> ->]]. reflexivity. }
  rewrite E, has_other_side. split.
  - intros [u [U [K H]]]. exists u. repeat split; auto. destruct (D u U) as [[D1 [D2 D3]] D4].
    assert (Dr : drops u = false). { unfold kept in K. rewrite D2 in K. destruct u; try contradiction; cbn [is_any orb] in K; now apply negb_true_iff in K. }
    destruct (is_instance v) eqn:Hi; [|reflexivity]. exfalso. apply existsb_exists in Hi as [i [I1 I2]]. destruct (D3 i I1) as [Na [[Y _]|[[_ [Y _]]|[_ [_ Y]]]]].
    + assert (Z : drops u = true). { apply existsb_exists. exists i. split; [exact I1|]. unfold fits_fully. rewrite Y. destruct i; try reflexivity. contradiction. } congruence.
    + rewrite (D4 i I1) in Y. discriminate Y.
    + rewrite (Y v H) in I2. discriminate I2.
  - intros [u [U [H Hi]]]. exists u. repeat split; auto. destruct (D u U) as [[D1 [D2 D3]] D4]. unfold kept. destruct (drops u) eqn:Dr; [|apply orb_true_r].
    exfalso. unfold drops in Dr. apply existsb_exists in Dr as [i [I1 I2]]. unfold fits_fully in I2. apply andb_prop in I2 as [_ I2].
    destruct (D3 i I1) as [_ [[Y Y']|[[Y _]|[Y _]]]]; [|rewrite Y in I2; discriminate I2|rewrite Y in I2; discriminate I2].
    assert (Z : is_instance v = true) by (apply existsb_exists; exists i; split; [exact I1|exact (Y' v H)]). congruence.
Qed.
End Proofs.
