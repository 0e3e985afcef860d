(** The iterator over the parameters for calls that end with [*xs] or [**kws]. *)
From Coq Require Import List NArith Arith Bool Lia Permutation.
From Verif Require Import CallModel CallSpec CallFacts CallProofs.
Import ListNotations.

Section Proofs.
Variables (ty val : Type) (fits : ty -> val -> bool).
Notation param := (param ty).
Notation arg := (arg val).
Notation state := (state ty val).
Notation ref := (ref ty).
Notation right_type := (fun t v => fits t v = true).
Notation ok := (ok ty val right_type).
Notation kw_ok := (kw_ok ty val right_type).
Notation without := (without val).
Notation matches := (item_matches fits).
Notation is_pos := (is_pos val).
Notation is_kw := (is_kw val).
Notation kv := (kv val).
Notation same := (same val).
Notation rep := (rep ty val).
Notation once := (once val).
Notation answer := (answer ty val fits).
Notation final := (final ty val).
Notation values := (map a_value).

Definition first_value (X : list arg) : option val := option_map a_value (hd_error X).

(** ** Parameters one after the other *)

Definition by_kw_open (p : param) (k : list (N * val) -> Prop) (K : list (N * val)) (y : option val) : Prop :=
  (exists n v, p_name p = Some n /\ In (n, v) K /\ ok p v /\ k (without n K)) \/
  ((forall n, p_name p = Some n -> ~ In n (map fst K)) /\ match y with Some b => ok p b | None => p_default p = true end /\ k K).

Fixpoint binds_open (ps : list param) (vs : list val) (x : option val) (K : list (N * val)) (y : option val) : Prop :=
  match ps with
  | [] => vs = [] /\ K = []
  | p :: r =>
      match p_kind p with
      | PositionalOnly =>
          match vs, x with
          | v :: vs, _ => ok p v /\ binds_open r vs x K y
          | [], Some a => ok p a /\ binds_open r [] x K y
          | [], None => p_default p = true /\ binds_open r [] x K y
          end
      | PositionalOrKeyword =>
          match vs, x with
          | v :: vs, _ => ok p v /\ binds_open r vs x K y
          | [], Some a => ok p a /\ binds_open r [] x K y
          | [], None => by_kw_open p (fun K => binds_open r [] None K y) K y
          end
      | Star => Forall (ok p) vs /\ match x with Some a => ok p a | None => True end /\ binds_open r [] None K y
      | KeywordOnly => vs = [] /\ by_kw_open p (fun K => binds_open r [] None K y) K y
      | StarStar => vs = [] /\ Forall (fun kv => ok p (snd kv)) K /\ match y with Some b => ok p b | None => True end /\ binds_open r [] None [] None
      end
  end.

Lemma binds_open_same : forall ps vs x K K' y, same K K' -> binds_open ps vs x K y -> binds_open ps vs x K' y.
Proof.
  induction ps as [|p r IH]; intros vs x K K' y H; cbn [binds_open].
  - intros [-> ->]; split; [reflexivity|]. apply same_nil, same_sym, H.
  - assert (Hkw : by_kw_open p (fun K => binds_open r [] None K y) K y -> by_kw_open p (fun K => binds_open r [] None K y) K' y).
    { intros [(n & v & Hn & Hin & Hv & Hk)|(Hno & Hd & Hk)]; [left|right].
      - exists n, v; refine (conj Hn (conj _ (conj Hv _))); [apply H; exact Hin|].
        exact (IH [] _ _ _ _ (same_without _ _ _ n H) Hk).
      - refine (conj _ (conj Hd (IH [] _ _ _ _ H Hk))).
        intros n Hn Hin; exact (Hno n Hn (same_fst _ _ _ _ (same_sym _ _ _ H) Hin)). }
    destruct (p_kind p).
    + destruct vs as [|v vs]; [destruct x|]; intros [A B]; split; eauto.
    + destruct vs as [|v vs]; [destruct x; [|exact Hkw]|]; intros [A B]; split; eauto.
    + intros (A & B & C); refine (conj A (conj B _)); eauto.
    + intros [A B]; split; auto.
    + intros (A & B & C & D); refine (conj A (conj _ (conj C D))).
      rewrite Forall_forall in *; intros z Hz; apply B, H; exact Hz.
Qed.

(** Once [*args] and [*xs] are out of the way, [*xs] makes no difference. *)
Lemma binds_open_late : forall p r x K y, 3 <= rank (p_kind p) -> binds_open (p :: r) [] x K y <-> binds_open (p :: r) [] None K y.
Proof. intros p r x K y H. cbn [binds_open]. destruct (p_kind p); cbn in H; try lia; reflexivity. Qed.

(** ** States *)

Record shape (s : state) (q : list arg) (todo : list ref) (u : list arg) (sp dp : option ref) (tm : bool) : Prop := {
  s_rep : rep s q;
  s_params : params s = todo;
  s_unused : unused_keyword_arguments s = u;
  s_star : current_starred_param s = sp;
  s_star_star : current_double_starred_param s = dp;
  s_too_many : too_many_positional_arguments s = tm
}.

(** Arguments of the four sorts. *)
Definition many (a : arg) : Prop := a_kind a = ManyPositional.
Definition many_kw (a : arg) : Prop := a_kind a = ManyKeywords.
Definition at_most_one (F : arg -> Prop) (X : list arg) : Prop := X = [] \/ exists x, X = [x] /\ F x.

Lemma next_arg_definite : forall s a q todo u sp dp tm, shape s (a :: q) todo u sp dp tm -> is_pos a \/ is_kw a ->
  exists s', next_arg s = (Some a, s') /\ shape s' q todo u sp dp tm.
Proof.
  intros s a q todo u sp dp tm [A B C D E F] Ha. rewrite (next_arg_cons ty val s a q A Ha). eexists; split; [reflexivity|].
  constructor; cbn; auto; reflexivity.
Qed.

Lemma next_arg_none : forall s todo u sp dp tm, shape s [] todo u sp dp tm -> next_arg s = (None, s).
Proof. intros s todo u sp dp tm [A _ _ _ _ _]. exact (next_arg_nil ty val s A). Qed.

Lemma next_arg_many : forall s x q todo u sp dp tm, shape s (x :: q) todo u sp dp tm -> many x ->
  exists s', next_arg s = (Some x, s') /\ shape s' (x :: q) todo u sp dp tm /\ shape (set_current None s') q todo u sp dp tm.
Proof.
  intros s x q todo u sp dp tm [A B C D E F] Hx. unfold CallProofs.rep in A. unfold next_arg.
  assert (E1 : arbitrary_len x = true) by (unfold arbitrary_len; rewrite Hx; reflexivity).
  assert (E2 : is_arbitrary_kwargs x = false) by (unfold is_arbitrary_kwargs; rewrite Hx; reflexivity).
  destruct (current_arg s) as [b|] eqn:Ec.
  - cbn [app] in A; injection A as -> Eq. rewrite E1, E2. eexists; split; [reflexivity|].
    split; (constructor; [unfold CallProofs.rep; cbn; rewrite Eq; reflexivity|cbn; assumption..]).
  - cbn [app] in A; rewrite A, E1, E2. eexists; split; [reflexivity|].
    split; (constructor; [reflexivity|cbn; assumption..]).
Qed.

Lemma next_arg_kws : forall s y todo u sp dp tm, shape s [y] todo u sp dp tm -> many_kw y ->
  exists s', next_arg s = (Some y, s') /\ shape s' [y] todo u sp dp tm /\ shape (set_current None s') [] todo u sp dp tm.
Proof.
  intros s y todo u sp dp tm [A B C D E F] Hy. unfold CallProofs.rep in A. unfold next_arg.
  assert (E1 : arbitrary_len y = true) by (unfold arbitrary_len; rewrite Hy; reflexivity).
  assert (E2 : is_arbitrary_kwargs y = true) by (unfold is_arbitrary_kwargs; rewrite Hy; reflexivity).
  destruct (current_arg s) as [b|] eqn:Ec.
  - cbn [app] in A; injection A as -> Eq. rewrite E1, E2. cbn [arguments set_current set_handled]. rewrite Eq. cbn [after_kwargs].
    eexists; split; [reflexivity|]. split; (constructor; [reflexivity|cbn; assumption..]).
  - cbn [app] in A; rewrite A, E1, E2. cbn [arguments set_current set_handled set_arguments after_kwargs].
    eexists; split; [reflexivity|]. split; (constructor; [reflexivity|cbn; assumption..]).
Qed.

Lemma shape_fuel : forall s q todo u sp dp tm, shape s q todo u sp dp tm -> length q < arguments_left s.
Proof. intros s q todo u sp dp tm [A _ _ _ _ _]. exact (rep_length ty val s q A). Qed.

Lemma kind_facts : forall a,
  (is_pos a -> keyword_name a = None /\ is_keyword_argument a = false /\ is_arbitrary_kwargs a = false /\ arbitrary_len a = false /\ can_be_used_to_match_positional_param a = true) /\
  (is_kw a -> keyword_name a = Some (fst (kv a)) /\ is_keyword_argument a = true /\ is_arbitrary_kwargs a = false /\ arbitrary_len a = false /\ can_be_used_to_match_positional_param a = false) /\
  (many a -> keyword_name a = None /\ is_keyword_argument a = false /\ is_arbitrary_kwargs a = false /\ arbitrary_len a = true /\ can_be_used_to_match_positional_param a = true) /\
  (many_kw a -> keyword_name a = None /\ is_keyword_argument a = true /\ is_arbitrary_kwargs a = true /\ arbitrary_len a = true /\ can_be_used_to_match_positional_param a = false).
Proof.
  intros a. unfold keyword_name, is_keyword_argument, is_arbitrary_kwargs, arbitrary_len, can_be_used_to_match_positional_param.
  refine (conj _ (conj _ (conj _ _))).
  - intros ->; auto.
  - intros H; pose proof (kw_name val a H) as E; unfold keyword_name in E. destruct H as (n & Hk); rewrite Hk in *. auto.
  - unfold many; intros ->; auto.
  - unfold many_kw; intros ->; auto.
Qed.

Lemma shape_push : forall s a q todo u sp dp tm, shape s q todo u sp dp tm -> shape (push_unused a s) q todo (u ++ [a]) sp dp tm.
Proof. intros s a q todo u sp dp tm [A B C D E F]. constructor; cbn; auto. rewrite C; reflexivity. Qed.

Lemma shape_unused : forall s u' q todo u sp dp tm, shape s q todo u sp dp tm -> shape (set_unused u' s) q todo u' sp dp tm.
Proof. intros s u' q todo u sp dp tm [A B C D E F]. constructor; cbn; auto. Qed.

Lemma shape_params : forall s todo' q todo u sp dp tm, shape s q todo u sp dp tm -> shape (set_params todo' s) q todo' u sp dp tm.
Proof. intros s todo' q todo u sp dp tm [A B C D E F]. constructor; cbn; auto. Qed.

(** ** Looking for a keyword *)

Inductive taken_open (p : param) (L K' U' Y : list arg) : option arg -> Prop :=
| to_some : forall a, p_name p = Some (fst (kv a)) -> Permutation L (a :: K' ++ U') -> taken_open p L K' U' Y (Some a)
| to_none : (forall n, p_name p = Some n -> ~ In n (map fst (map kv L))) -> Permutation L (K' ++ U') -> taken_open p L K' U' Y (hd_error Y).

Lemma taken_open_push : forall p a q u K' U' Y f, taken_open p (q ++ u ++ [a]) K' U' Y f -> taken_open p ((a :: q) ++ u) K' U' Y f.
Proof.
  intros p a q u K' U' Y f H.
  assert (P : Permutation ((a :: q) ++ u) (q ++ u ++ [a])).
  { cbn [app]. rewrite app_assoc. apply Permutation_cons_append. }
  destruct H as [b Hn Hp|Hn Hp].
  - constructor; [exact Hn|]. transitivity (q ++ u ++ [a]); assumption.
  - constructor; [|transitivity (q ++ u ++ [a]); assumption].
    intros n Hm Hin; apply (Hn n Hm). rewrite map_map in *.
    apply (Permutation_in _ (Permutation_map (fun x => fst (kv x)) P)); exact Hin.
Qed.

Lemma name_is_true : forall n k, name_is n k = true -> n = Some k.
Proof. intros [m|] k H; [|discriminate]. cbn in H. apply N.eqb_eq in H; congruence. Qed.

(** When no keyword arguments are left but the unused ones. *)
Lemma at_end : forall (p : ref) s q todo u sp dp tm Y, shape s q todo u sp dp tm -> Forall is_kw u ->
  exists U' f s', match check_unused (p_name (snd p)) u with
                  | Some (b, r) => ((p, Some b), set_unused r s)
                  | None => ((p, hd_error Y), s)
                  end = ((p, f), s') /\ shape s' q todo U' sp dp tm /\ taken_open (snd p) u [] U' Y f.
Proof.
  intros p s q todo u sp dp tm Y H F. destruct (check_unused (p_name (snd p)) u) as [[b r]|] eqn:E.
  - destruct (check_unused_some val _ _ _ _ E F) as [E1 E2]. exists r, (Some b), (set_unused r s).
    refine (conj eq_refl (conj (shape_unused _ _ _ _ _ _ _ _ H) _)). constructor; assumption.
  - exists u, (hd_error Y), s. refine (conj eq_refl (conj H _)). constructor; [exact (check_unused_none val _ _ E F)|reflexivity].
Qed.

Lemma pk_open : forall K fuel (p : ref) s Y todo u sp dp tm, shape s (K ++ Y) todo u sp dp tm -> length (K ++ Y) < fuel ->
  Forall is_kw K -> Forall is_kw u -> at_most_one many_kw Y ->
  exists K' U' f s', positional_or_keyword fuel p s = ((p, f), s') /\ shape s' (K' ++ Y) todo U' sp dp tm /\
    taken_open (snd p) (K ++ u) K' U' Y f.
Proof.
  induction K as [|a K IH]; intros fuel p s Y todo u sp dp tm Hs Hf FK FU HY; (destruct fuel as [|fuel]; [lia|]); cbn [positional_or_keyword].
  - cbn [app] in Hs. destruct HY as [->|(y & -> & Hy)].
    + rewrite (next_arg_none _ _ _ _ _ _ Hs). unfold from_unused. rewrite (s_unused _ _ _ _ _ _ _ Hs).
      destruct (at_end p s [] todo u sp dp tm [] Hs FU) as (U' & f & s' & E & A & B). exists [], U', f, s'. auto.
    + destruct (next_arg_kws _ _ _ _ _ _ _ Hs Hy) as (s' & E & Hs' & _). rewrite E.
      destruct (proj2 (proj2 (proj2 (kind_facts y))) Hy) as (E1 & _ & E2 & _). rewrite E1, E2, (s_unused _ _ _ _ _ _ _ Hs').
      destruct (at_end p s' [y] todo u sp dp tm [y] Hs' FU) as (U' & f & s'' & E' & A & B). exists [], U', f, s''. auto.
  - inversion FK as [|? ? Ha FK']; subst. cbn [app] in Hs.
    destruct (next_arg_definite _ _ _ _ _ _ _ _ Hs (or_intror Ha)) as (s' & E & Hs'). rewrite E, (kw_name val a Ha).
    destruct (name_is (p_name (snd p)) (fst (kv a))) eqn:En.
    + exists K, u, (Some a), s'. refine (conj eq_refl (conj Hs' _)). constructor; [exact (name_is_true _ _ En)|reflexivity].
    + destruct (IH fuel p (push_unused a s') Y todo (u ++ [a]) sp dp tm) as (K' & U' & f & s'' & E' & A & B); try assumption.
      * apply shape_push; exact Hs'.
      * cbn in Hf; lia.
      * apply Forall_app; split; [exact FU|constructor; [exact Ha|constructor]].
      * exists K', U', f, s''. refine (conj E' (conj A _)). apply taken_open_push; exact B.
Qed.

Lemma ko_open_kw : forall K fuel (p : ref) s Y todo u sp dp tm, shape s (K ++ Y) todo u sp dp tm -> length (K ++ Y) < fuel ->
  Forall is_kw K -> Forall is_kw u -> at_most_one many_kw Y ->
  exists K' U' f s', keyword_only fuel p s = ((p, f), s') /\ shape s' (K' ++ Y) todo U' sp dp tm /\
    taken_open (snd p) (K ++ u) K' U' Y f.
Proof.
  induction K as [|a K IH]; intros fuel p s Y todo u sp dp tm Hs Hf FK FU HY; (destruct fuel as [|fuel]; [lia|]); cbn [keyword_only].
  - cbn [app] in Hs. destruct HY as [->|(y & -> & Hy)].
    + rewrite (next_arg_none _ _ _ _ _ _ Hs). unfold from_unused. rewrite (s_unused _ _ _ _ _ _ _ Hs).
      destruct (at_end p s [] todo u sp dp tm [] Hs FU) as (U' & f & s' & E & A & B). exists [], U', f, s'. auto.
    + destruct (next_arg_kws _ _ _ _ _ _ _ Hs Hy) as (s' & E & Hs' & _). rewrite E.
      destruct (proj2 (proj2 (proj2 (kind_facts y))) Hy) as (E1 & _ & E2 & _). rewrite E2, (s_unused _ _ _ _ _ _ _ Hs').
      destruct (at_end p s' [y] todo u sp dp tm [y] Hs' FU) as (U' & f & s'' & E' & A & B). exists [], U', f, s''. auto.
  - inversion FK as [|? ? Ha FK']; subst. cbn [app] in Hs.
    destruct (next_arg_definite _ _ _ _ _ _ _ _ Hs (or_intror Ha)) as (s' & E & Hs'). rewrite E.
    destruct (proj1 (proj2 (kind_facts a)) Ha) as (E1 & _ & E2 & _). rewrite E2, E1.
    destruct (name_is (p_name (snd p)) (fst (kv a))) eqn:En.
    + exists K, u, (Some a), s'. refine (conj eq_refl (conj Hs' _)). constructor; [exact (name_is_true _ _ En)|reflexivity].
    + destruct (IH fuel p (push_unused a s') Y todo (u ++ [a]) sp dp tm) as (K' & U' & f & s'' & E' & A & B); try assumption.
      * apply shape_push; exact Hs'.
      * cbn in Hf; lia.
      * apply Forall_app; split; [exact FU|constructor; [exact Ha|constructor]].
      * exists K', U', f, s''. refine (conj E' (conj A _)). apply taken_open_push; exact B.
Qed.

Lemma ko_open : forall P X K fuel (p : ref) s Y todo u sp dp tm, shape s (P ++ X ++ K ++ Y) todo u sp dp tm -> length (P ++ X ++ K ++ Y) < fuel ->
  Forall is_pos P -> at_most_one many X -> Forall is_kw K -> Forall is_kw u -> at_most_one many_kw Y ->
  exists K' U' f s', keyword_only fuel p s = ((p, f), s') /\
    shape s' (K' ++ Y) todo U' sp dp (match P with [] => tm | _ => true end) /\ taken_open (snd p) (K ++ u) K' U' Y f.
Proof.
  induction P as [|a P IH]; intros X K fuel p s Y todo u sp dp tm Hs Hf FP HX FK FU HY.
  - cbn [app] in Hs, Hf. destruct HX as [->|(x & -> & Hx)]; [exact (ko_open_kw K fuel p s Y todo u sp dp tm Hs Hf FK FU HY)|].
    destruct fuel as [|fuel]; [lia|]. cbn [keyword_only]. cbn [app] in Hs, Hf.
    destruct (next_arg_many _ _ _ _ _ _ _ _ Hs Hx) as (s' & E & _ & Hs'). rewrite E.
    destruct (proj1 (proj2 (proj2 (kind_facts x))) Hx) as (E1 & _ & E2 & E3 & _). rewrite E2, E1, E3.
    apply (ko_open_kw K fuel p (set_current None s') Y todo u sp dp tm Hs'); try assumption. cbn in Hf; lia.
  - inversion FP as [|? ? Ha FP']; subst. destruct fuel as [|fuel]; [lia|]. cbn [keyword_only]. cbn [app] in Hs, Hf.
    destruct (next_arg_definite _ _ _ _ _ _ _ _ Hs (or_introl Ha)) as (s' & E & Hs'). rewrite E.
    destruct (proj1 (kind_facts a) Ha) as (E1 & _ & E2 & E3 & _). rewrite E2, E1, E3.
    destruct (IH X K fuel p (set_too_many s') Y todo u sp dp true) as (K' & U' & f & s'' & E' & A & B); try assumption.
    + destruct Hs' as [A B C D F G]. constructor; cbn; auto.
    + cbn in Hf; lia.
    + exists K', U', f, s''. refine (conj E' (conj _ B)). destruct P; exact A.
Qed.

(** ** The end *)

Lemma unused_kws : forall n Y s todo u sp dp tm, shape s Y todo u sp dp tm -> at_most_one many_kw Y -> has_unused_arguments (S (S n)) s = false.
Proof.
  intros n Y s todo u sp dp tm Hs [->|(y & -> & Hy)]; cbn [has_unused_arguments].
  - rewrite (next_arg_none _ _ _ _ _ _ Hs); reflexivity.
  - destruct (next_arg_kws _ _ _ _ _ _ _ Hs Hy) as (s' & E & _ & Hs'). rewrite E.
    destruct (proj2 (proj2 (proj2 (kind_facts y))) Hy) as (_ & _ & _ & E1 & _). rewrite E1.
    rewrite (next_arg_none _ _ _ _ _ _ Hs'). reflexivity.
Qed.

Lemma unused_definite : forall n a q s todo u sp dp tm, shape s (a :: q) todo u sp dp tm -> is_pos a \/ is_kw a -> has_unused_arguments (S n) s = true.
Proof.
  intros n a q s todo u sp dp tm Hs Ha; cbn [has_unused_arguments].
  destruct (next_arg_definite _ _ _ _ _ _ _ _ Hs Ha) as (s' & E & _). rewrite E.
  assert (E1 : arbitrary_len a = false) by (destruct Ha as [Ha|Ha]; [apply (proj1 (kind_facts a) Ha)|apply (proj1 (proj2 (kind_facts a)) Ha)]).
  rewrite E1; reflexivity.
Qed.

Lemma final_open : forall s P X K Y todo u sp dp tm, shape s (P ++ X ++ K ++ Y) todo u sp dp tm ->
  Forall is_pos P -> at_most_one many X -> Forall is_kw K -> at_most_one many_kw Y ->
  (final s = true <-> tm = false /\ P = [] /\ K = [] /\ u = []).
Proof.
  intros s P X K Y todo u sp dp tm Hs FP HX FK HY. unfold CallProofs.final.
  rewrite !andb_true_iff, !negb_true_iff, (s_unused _ _ _ _ _ _ _ Hs), (s_too_many _ _ _ _ _ _ _ Hs).
  assert (E : has_unused_arguments (arguments_left s) s = match P, K with [], [] => false | _, _ => true end).
  { pose proof (shape_fuel _ _ _ _ _ _ _ Hs) as Hf. unfold arguments_left in *. destruct P as [|a P].
    - cbn [app] in Hs, Hf.
      assert (G : forall n s, shape s (K ++ Y) todo u sp dp tm -> has_unused_arguments (S (S n)) s = match K with [] => false | _ => true end).
      { intros n s' Hs'. destruct K as [|k K]; [exact (unused_kws n Y s' _ _ _ _ _ Hs' HY)|].
        inversion FK as [|? ? Hk _]; subst. exact (unused_definite (S n) k _ s' _ _ _ _ _ Hs' (or_intror Hk)). }
      destruct HX as [->|(x & -> & Hx)]; [apply G; exact Hs|].
      cbn [app length] in Hs, Hf. cbn [has_unused_arguments].
      destruct (next_arg_many _ _ _ _ _ _ _ _ Hs Hx) as (s' & E & _ & Hs'). rewrite E.
      destruct (proj1 (proj2 (proj2 (kind_facts x))) Hx) as (_ & _ & _ & E1 & _). rewrite E1.
      destruct (length (arguments s)) as [|n] eqn:El.
      + assert (Hn : K ++ Y = []) by (destruct (K ++ Y); [reflexivity|cbn in Hf; lia]). apply app_eq_nil in Hn as [-> ->].
        cbn [app] in Hs'. change (has_unused_arguments 1 (set_current None s') = false). cbn [has_unused_arguments].
        rewrite (next_arg_none _ _ _ _ _ _ Hs'). reflexivity.
      + exact (G n _ Hs').
    - inversion FP as [|? ? Ha _]; subst. rewrite (unused_definite _ a _ s _ _ _ _ _ Hs (or_introl Ha)). reflexivity. }
  rewrite E. destruct P, K, u; split; try tauto; try (intros ((A & B) & C); discriminate); try (intros (A & B & C & D); discriminate).
Qed.

Lemma next_plain : forall (todo : list ref) s q u tm, shape s q todo u None None tm ->
  next (params s) s =
  match todo with
  | [] => (None, s)
  | p :: todo =>
      let s := set_params todo s in
      match p_kind (snd p) with
      | PositionalOrKeyword => let (i, s) := positional_or_keyword (arguments_left s) p s in (Some i, s)
      | KeywordOnly => let (i, s) := keyword_only (arguments_left s) p s in (Some i, s)
      | PositionalOnly => let (i, s) := positional_only p s in (Some i, s)
      | Star => next todo (set_starred (Some p) s)
      | StarStar => next todo (set_double_starred (Some p) s)
      end
  end.
Proof.
  intros todo s q u tm H. rewrite (s_params _ _ _ _ _ _ _ H).
  exact (next_unfold ty val todo s (s_star _ _ _ _ _ _ _ H) (s_star_star _ _ _ _ _ _ _ H)).
Qed.

(** ** Draining [*args] and [**kwargs] *)

Definition opt_ok (p : param) (X : list arg) : Prop := match X with [] => True | x :: _ => ok p (a_value x) end.

Lemma star_open : forall P X K Y fuel (p : ref) s todo u tm, shape s (P ++ X ++ K ++ Y) todo u (Some p) None tm ->
  Forall is_pos P -> at_most_one many X -> Forall is_kw K -> at_most_one many_kw Y -> length P + length X < fuel ->
  exists fuel' s', fuel = length P + length X + fuel' /\ shape s' (K ++ Y) todo u None None tm /\
    (answer fuel s = true <-> Forall (ok (snd p)) (values P) /\ opt_ok (snd p) X /\ answer fuel' s' = true).
Proof.
  induction P as [|a P IH]; intros X K Y fuel p s todo u tm Hs FP HX FK HY Hf.
  - assert (Hend : forall fuel s, shape s (K ++ Y) todo u (Some p) None tm -> 0 < fuel ->
      exists s', shape s' (K ++ Y) todo u None None tm /\ answer fuel s = answer fuel s').
    { clear - FK HY. intros fuel s Hs Hf.
      assert (Hex : exists s', starred s = (None, s') /\ shape s' (K ++ Y) todo u None None tm).
      { unfold starred; rewrite (s_star _ _ _ _ _ _ _ Hs). unfold arguments_left; cbn [maybe_exact_multi_arg].
        destruct K as [|k K].
        - cbn [app] in Hs |- *. destruct HY as [->|(y & -> & Hy)].
          + rewrite (next_arg_none _ _ _ _ _ _ Hs). eexists; split; [reflexivity|].
            destruct Hs as [A B C D E F]; constructor; cbn; auto.
          + destruct (next_arg_kws _ _ _ _ _ _ _ Hs Hy) as (s' & E & Hs' & Hs''). rewrite E.
            destruct (proj2 (proj2 (proj2 (kind_facts y))) Hy) as (_ & E1 & _). rewrite E1. cbn [Bool.eqb andb]. eexists; split; [reflexivity|].
            destruct Hs' as [A B C D E' F], Hs'' as [A' _ _ _ _ _]. unfold CallProofs.rep in *; cbn in A'.
            constructor; cbn; auto. unfold CallProofs.rep; cbn. rewrite A'; reflexivity.
        - inversion FK as [|? ? Hk FK']; subst. cbn [app] in Hs.
          destruct (next_arg_definite _ _ _ _ _ _ _ _ Hs (or_intror Hk)) as (s' & E & Hs'). rewrite E.
          destruct (proj1 (proj2 (kind_facts k)) Hk) as (_ & E1 & _). rewrite E1. cbn [Bool.eqb andb]. eexists; split; [reflexivity|].
          destruct Hs' as [A B C D E' F]. assert (Hc : current_arg s' = None /\ arguments s' = K ++ Y).
          { assert (Ed : is_pos k \/ is_kw k) by (right; exact Hk).
            rewrite (next_arg_cons ty val s k (K ++ Y) (s_rep _ _ _ _ _ _ _ Hs) Ed) in E. injection E as <-. split; reflexivity. }
          constructor; cbn; auto. unfold CallProofs.rep; cbn. rewrite (proj2 Hc); reflexivity. }
      destruct Hex as (s' & E & Hs'). exists s'. split; [exact Hs'|]. destruct fuel as [|fuel]; [lia|].
      apply answer_next. rewrite (s_params _ _ _ _ _ _ _ Hs), (s_params _ _ _ _ _ _ _ Hs').
      apply next_starred_none; [exact E|exact (s_star _ _ _ _ _ _ _ Hs')]. }
    cbn [app] in Hs. destruct HX as [->|(x & -> & Hx)].
    + cbn [length] in Hf. destruct (Hend fuel s Hs) as (s' & Hs' & E); [lia|]. exists fuel, s'. refine (conj eq_refl (conj Hs' _)).
      rewrite E. cbn [map opt_ok]. split; [|tauto]. intros H; refine (conj (Forall_nil _) (conj I H)).
    + cbn [length Nat.add] in Hf. destruct fuel as [|fuel]; [lia|]. cbn [app] in Hs.
      destruct (next_arg_many _ _ _ _ _ _ _ _ Hs Hx) as (s' & E & _ & Hs').
      assert (Est : starred s = (Some (p, Some x), set_current None (set_handled true s'))).
      { unfold starred; rewrite (s_star _ _ _ _ _ _ _ Hs). unfold arguments_left; cbn [maybe_exact_multi_arg]. rewrite E.
        destruct (proj1 (proj2 (proj2 (kind_facts x))) Hx) as (_ & E1 & _). rewrite E1. reflexivity. }
      assert (Hs'' : shape (set_current None (set_handled true s')) (K ++ Y) todo u (Some p) None tm).
      { destruct Hs' as [A B C D F G]. constructor; cbn in *; auto. }
      destruct (Hend fuel _ Hs'') as (s''' & Hs3 & E3); [lia|]. exists fuel, s'''. refine (conj eq_refl (conj Hs3 _)).
      rewrite (answer_some ty val fits fuel s _ _ (next_starred_some ty val _ _ _ _ Est)), andb_true_iff, item_ok, E3. cbn [map opt_ok].
      split; [|tauto]. intros [A B]; refine (conj (Forall_nil _) (conj A B)).
  - inversion FP as [|? ? Ha FP']; subst. cbn [length Nat.add] in Hf. destruct fuel as [|fuel]; [lia|]. cbn [app] in Hs.
    destruct (next_arg_definite _ _ _ _ _ _ _ _ Hs (or_introl Ha)) as (s' & E & Hs').
    assert (Hc : current_arg s' = None).
    { assert (Ed : is_pos a \/ is_kw a) by (left; exact Ha).
      rewrite (next_arg_cons ty val s a _ (s_rep _ _ _ _ _ _ _ Hs) Ed) in E. injection E as <-. reflexivity. }
    assert (Est : starred s = (Some (p, Some a), set_current None (set_handled true s'))).
    { unfold starred; rewrite (s_star _ _ _ _ _ _ _ Hs). unfold arguments_left; cbn [maybe_exact_multi_arg]. rewrite E.
      destruct (proj1 (kind_facts a) Ha) as (_ & E1 & _). rewrite E1. reflexivity. }
    assert (Hs'' : shape (set_current None (set_handled true s')) (P ++ X ++ K ++ Y) todo u (Some p) None tm).
    { destruct Hs' as [A B C D F G]. unfold CallProofs.rep in A. rewrite Hc in A. constructor; cbn in *; auto. }
    destruct (IH X K Y fuel p _ todo u tm Hs'' FP' HX FK HY) as (fuel' & s''' & H1 & H2 & H3); [lia|].
    exists fuel', s'''. refine (conj _ (conj H2 _)); [cbn; lia|].
    rewrite (answer_some ty val fits fuel s _ _ (next_starred_some ty val _ _ _ _ Est)), andb_true_iff, item_ok, H3. cbn [map].
    rewrite Forall_cons_iff; tauto.
Qed.

Lemma shape_handled : forall s b q todo u sp dp tm, shape s q todo u sp dp tm -> shape (set_handled b s) q todo u sp dp tm.
Proof. intros s b q todo u sp dp tm [A B C D E F]. constructor; cbn; auto. Qed.

Lemma next_arg_dropped : forall s a q todo u sp dp tm, shape s (a :: q) todo u sp dp tm -> is_pos a \/ is_kw a ->
  exists s', next_arg s = (Some a, s') /\ shape (set_current None s') q todo u sp dp tm /\ shape (set_current (Some a) s') (a :: q) todo u sp dp tm.
Proof.
  intros s a q todo u sp dp tm [A B C D E F] Ha. rewrite (next_arg_cons ty val s a q A Ha). eexists; split; [reflexivity|].
  split; constructor; cbn; auto; reflexivity.
Qed.

Lemma kw_step : forall s X K Y todo u sp dp tm, shape s (X ++ K ++ Y) todo u sp dp tm ->
  at_most_one many X -> Forall is_kw K -> at_most_one many_kw Y ->
  exists s', maybe_exact_multi_arg (arguments_left s) true s = (hd_error (K ++ Y), s') /\ shape s' (tl (K ++ Y)) todo u sp dp tm.
Proof.
  assert (G : forall n s K Y todo u sp dp tm, shape s (K ++ Y) todo u sp dp tm -> Forall is_kw K -> at_most_one many_kw Y ->
    exists s', maybe_exact_multi_arg (S n) true s = (hd_error (K ++ Y), s') /\ shape s' (tl (K ++ Y)) todo u sp dp tm).
  { intros n s K Y todo u sp dp tm Hs FK HY. cbn [maybe_exact_multi_arg]. destruct K as [|k K].
    - cbn [app] in Hs |- *. destruct HY as [->|(y & -> & Hy)].
      + rewrite (next_arg_none _ _ _ _ _ _ Hs). exists s; split; [reflexivity|exact Hs].
      + destruct (next_arg_kws _ _ _ _ _ _ _ Hs Hy) as (s' & E & _ & Hs'). rewrite E.
        destruct (proj2 (proj2 (proj2 (kind_facts y))) Hy) as (_ & E1 & _). rewrite E1. cbn [Bool.eqb].
        eexists; split; [reflexivity|]. exact (shape_handled _ true _ _ _ _ _ _ Hs').
    - inversion FK as [|? ? Hk _]; subst. cbn [app] in Hs |- *.
      destruct (next_arg_dropped _ _ _ _ _ _ _ _ Hs (or_intror Hk)) as (s' & E & Hs' & _). rewrite E.
      destruct (proj1 (proj2 (kind_facts k)) Hk) as (_ & E1 & _). rewrite E1. cbn [Bool.eqb].
      eexists; split; [reflexivity|]. exact (shape_handled _ true _ _ _ _ _ _ Hs'). }
  intros s X K Y todo u sp dp tm Hs [->|(x & -> & Hx)] FK HY; [exact (G _ s K Y todo u sp dp tm Hs FK HY)|].
  unfold arguments_left; cbn [app] in Hs.
  destruct (next_arg_many _ _ _ _ _ _ _ _ Hs Hx) as (s' & E & _ & Hs').
  destruct (proj1 (proj2 (proj2 (kind_facts x))) Hx) as (_ & E1 & _ & E2 & _).
  destruct (G (length (arguments s)) (set_current None s') K Y todo u sp dp tm Hs' FK HY) as (s'' & E3 & Hs'').
  exists s''; split; [|exact Hs'']. rewrite <- E3.
  change (maybe_exact_multi_arg (S (S (length (arguments s)))) true s) with
    (match next_arg s with
      | (None, s) => (None, s)
      | (Some a, s0) =>
          if Bool.eqb (is_keyword_argument a) true then
            (Some a, set_current None (set_handled true s0))
          else if true && arbitrary_len a then
            maybe_exact_multi_arg (S (length (arguments s))) true (set_current None s0)
          else (None, set_current (Some a) s0)
      end). rewrite E, E1, E2. reflexivity.
Qed.

Lemma shape_double : forall s x q todo u sp dp tm, shape s q todo u sp dp tm -> shape (set_double_starred x s) q todo u sp x tm.
Proof. intros s x q todo u sp dp tm [A B C D E F]. constructor; cbn; auto. Qed.

Lemma star_star_open : forall n P X K Y fuel (p : ref) s u tm, shape s (P ++ X ++ K ++ Y) [] u None (Some p) tm ->
  Forall is_pos P -> at_most_one many X -> Forall is_kw K -> at_most_one many_kw Y ->
  n = length (K ++ Y) + length u -> n < fuel ->
  (answer fuel s = true <-> tm = false /\ P = [] /\ Forall (ok (snd p)) (values (K ++ u)) /\ opt_ok (snd p) Y).
Proof.
  induction n as [n IH] using lt_wf_ind; intros P X K Y fuel p s u tm Hs FP HX FK HY Hn Hf; (destruct fuel as [|fuel]; [lia|]).
  pose proof (next_double ty val s (s_star _ _ _ _ _ _ _ Hs) (s_params _ _ _ _ _ _ _ Hs)) as Hnext.
  unfold double_starred in Hnext; rewrite (s_star_star _ _ _ _ _ _ _ Hs) in Hnext.
  assert (Hpop : forall s' X K Y, shape s' (P ++ X ++ K ++ Y) [] u None (Some p) tm -> maybe_exact_multi_arg (arguments_left s) true s = (None, s') ->
    at_most_one many X -> Forall is_kw K -> at_most_one many_kw Y -> (P = [] -> K = [] /\ Y = []) -> n = length (K ++ Y) + length u ->
    (answer (S fuel) s = true <-> tm = false /\ P = [] /\ Forall (ok (snd p)) (values (K ++ u)) /\ opt_ok (snd p) Y)).
  { clear Hs HX FK HY Hn X K Y. intros s' X K Y Hs E HX FK HY HP Hn. rewrite E, (s_unused _ _ _ _ _ _ _ Hs) in Hnext.
    destruct (rev u) as [|b r] eqn:Er.
    - rewrite (answer_none ty val fits _ _ _ Hnext).
      assert (Eu : u = []) by (apply (f_equal (@rev _)) in Er; rewrite rev_involutive in Er; exact Er). subst u.
      rewrite (final_open _ P X K Y _ _ _ _ _ (shape_double _ None _ _ _ _ _ _ Hs) FP HX FK HY). split.
      + intros (A & B & _). destruct (HP B) as [-> ->]. refine (conj A (conj B (conj (Forall_nil _) I))).
      + intros (A & B & _). destruct (HP B) as [-> ->]. auto.
    - assert (EU : u = rev r ++ [b]) by (rewrite <- (rev_involutive u), Er; reflexivity).
      rewrite (answer_some ty val fits _ _ _ _ Hnext), andb_true_iff, item_ok.
      assert (El : length u = S (length (rev r))) by (rewrite EU, app_length; cbn; lia).
      rewrite (IH (length (K ++ Y) + length (rev r)) ltac:(lia) P X K Y fuel p (set_unused (rev r) s') (rev r) tm (shape_unused _ _ _ _ _ _ _ _ Hs) FP HX FK HY eq_refl ltac:(lia)).
      rewrite EU, app_assoc, (map_app _ (K ++ rev r)), Forall_app. cbn [map].
      split; [intros (A & B & C & D & F)|intros (B & C & (D & G) & F)].
      + refine (conj B (conj C (conj (conj D _) F))). constructor; [exact A|constructor].
      + exact (conj (Forall_inv G) (conj B (conj C (conj D F)))). }
  destruct P as [|a P].
  - cbn [app] in Hs. destruct (kw_step s X K Y _ _ _ _ _ Hs HX FK HY) as (s' & E & Hs').
    destruct (K ++ Y) as [|b q] eqn:Eq.
    + cbn [hd_error tl] in E, Hs'. apply app_eq_nil in Eq as [-> ->].
      exact (Hpop s' [] [] [] Hs' E (or_introl eq_refl) (Forall_nil _) (or_introl eq_refl) (fun _ => conj eq_refl eq_refl) Hn).
    + cbn [hd_error tl] in E, Hs'. rewrite E in Hnext.
      rewrite (answer_some ty val fits _ _ _ _ Hnext), andb_true_iff, item_ok. cbn [length] in Hn.
      destruct K as [|k K].
      * cbn [app] in Eq. destruct HY as [->|(y & -> & Hy)]; [discriminate|]. injection Eq as <- <-.
        rewrite (IH (length u) ltac:(cbn in Hn; lia) [] [] [] [] fuel p s' u tm Hs' (Forall_nil _) (or_introl eq_refl) (Forall_nil _) (or_introl eq_refl) eq_refl ltac:(lia)).
        cbn [app opt_ok]. tauto.
      * cbn [app] in Eq. injection Eq as <- <-. inversion FK as [|? ? Hk FK']; subst.
        rewrite (IH (length (K ++ Y) + length u) ltac:(lia) [] [] K Y fuel p s' u tm Hs' (Forall_nil _) (or_introl eq_refl) FK' HY eq_refl ltac:(lia)).
        cbn [app map]. rewrite Forall_cons_iff. tauto.
  - inversion FP as [|? ? Ha FP']; subst.
    pose proof Hs as Hs0. cbn [app] in Hs. destruct (next_arg_dropped _ _ _ _ _ _ _ _ Hs (or_introl Ha)) as (s' & E & _ & Hs').
    apply (Hpop (set_current (Some a) s') X K Y Hs'); try assumption; [|discriminate|reflexivity].
    unfold arguments_left; cbn [maybe_exact_multi_arg]. rewrite E.
    destruct (proj1 (kind_facts a) Ha) as (_ & E1 & _ & E2 & _). rewrite E1, E2. reflexivity.
Qed.

(** ** The simulation *)

Lemma hd_many_kw : forall Y, at_most_one many_kw Y -> Y = [] \/ exists y, Y = [y].
Proof. intros Y [->|(y & -> & _)]; eauto. Qed.

Lemma taken_open_by : forall (p : ref) L K' U' Y f (k : list (N * val) -> Prop), taken_open (snd p) L K' U' Y f -> once L -> at_most_one many_kw Y ->
  (forall A B, same A B -> k A -> k B) ->
  (matches (p, f) = true /\ k (map kv (K' ++ U')) <-> by_kw_open (snd p) k (map kv L) (first_value Y)).
Proof.
  intros p L K' U' Y f k H Ho HY Hk. unfold by_kw_open. destruct H as [a Hn Hp|Hn Hp].
  - pose proof (taken_by_kw ty val fits p L K' U' (Some a) k (taken_some _ _ _ _ _ _ _ Hn Hp) Ho Hk) as H. rewrite H. unfold by_kw.
    assert (Hin : In (kv a) (map kv L)) by (apply (perm_same val _ _ Hp); left; reflexivity).
    assert (Hnot : ~ (forall n, p_name (snd p) = Some n -> ~ In n (map fst (map kv L)))).
    { intros F; apply (F _ Hn). apply (in_map fst) in Hin; exact Hin. }
    split; (intros [A|(A & _)]; [left; exact A|contradiction]).
  - pose proof (perm_same val _ _ Hp) as Hs.
    assert (Hnot : forall n v, p_name (snd p) = Some n -> ~ In (n, v) (map kv L)).
    { intros n v E Hin; apply (Hn n E). apply (in_map fst) in Hin; exact Hin. }
    assert (Em : matches (p, hd_error Y) = true <-> match first_value Y with Some b => ok (snd p) b | None => p_default (snd p) = true end).
    { destruct Y as [|y Y]; [reflexivity|]. cbn [hd_error first_value option_map]. apply item_ok. }
    rewrite Em. split.
    + intros [A B]; right; refine (conj Hn (conj A (Hk _ _ (same_sym _ _ _ Hs) B))).
    + intros [(n & v & A & B & _)|(_ & A & B)]; [exfalso; exact (Hnot n v A B)|]. split; [exact A|exact (Hk _ _ Hs B)].
Qed.

Lemma first_value_nil : first_value [] = None.
Proof. reflexivity. Qed.

Lemma simulation_open : forall todo P X K Y u fuel s tm, shape s (P ++ X ++ K ++ Y) todo u None None tm ->
  Forall is_pos P -> at_most_one many X -> Forall is_kw K -> Forall is_kw u -> at_most_one many_kw Y ->
  signature (map snd todo) -> once (K ++ u) ->
  length todo + length (P ++ X ++ K ++ Y) + length u < fuel ->
  (answer fuel s = true <-> tm = false /\ binds_open (map snd todo) (values P) (first_value X) (map kv (K ++ u)) (first_value Y)).
Proof.
  induction todo as [|p todo IH]; intros P X K Y u fuel s tm Hs FP HX FK FU HY Hsig Ho Hf; (destruct fuel as [|fuel]; [lia|]);
    pose proof (next_plain _ _ _ _ _ Hs) as Hnext; cbv zeta in Hnext.
  - rewrite (answer_none ty val fits _ _ _ Hnext), (final_open _ P X K Y _ _ _ _ _ Hs FP HX FK HY). cbn [map binds_open]. split.
    + intros (A & -> & -> & ->). auto.
    + intros (A & B & C). apply map_eq_nil in B, C. apply app_eq_nil in C as [-> ->]. auto.
  - cbn [map] in Hsig |- *. pose proof (signature_tail _ _ _ Hsig) as Hsig'. cbn [length] in Hf.
    assert (Hs' : shape (set_params todo s) (P ++ X ++ K ++ Y) todo u None None tm) by exact (shape_params _ _ _ _ _ _ _ _ Hs).
    assert (Hkw : forall (K' U' : list arg) f s' tm', taken_open (snd p) (K ++ u) K' U' Y f ->
      next (params s) s = (Some (p, f), s') -> shape s' (K' ++ Y) todo U' None None tm' ->
      (answer (S fuel) s = true <-> tm' = false /\ by_kw_open (snd p) (fun K => binds_open (map snd todo) [] None K (first_value Y)) (map kv (K ++ u)) (first_value Y))).
    { intros K' U' f s' tm' Ht E Hsh. rewrite (answer_some ty val fits _ _ _ _ E), andb_true_iff.
      assert (FKU : Forall is_kw (K ++ u)) by (apply Forall_app; split; assumption).
      assert (HKU : Forall is_kw (K' ++ U') /\ once (K' ++ U') /\ length (K' ++ U') <= length (K ++ u)).
      { destruct Ht as [a _ Hperm|_ Hperm].
        - pose proof (Permutation_Forall Hperm FKU) as F; inversion F; subst.
          pose proof (once_perm val _ _ Hperm Ho) as O; inversion O; subst.
          apply Permutation_length in Hperm; cbn in Hperm. refine (conj _ (conj _ _)); [assumption..|lia].
        - refine (conj (Permutation_Forall Hperm FKU) (conj (once_perm val _ _ Hperm Ho) _)). apply Permutation_length in Hperm; lia. }
      destruct HKU as (HKU & Ho' & Hlen). apply Forall_app in HKU as [FK' FU'].
      rewrite (IH [] [] K' Y U' fuel s' tm' Hsh (Forall_nil _) (or_introl eq_refl) FK' FU' HY Hsig' Ho').
      - change (map a_value []) with (@nil val). rewrite first_value_nil.
        rewrite <- (taken_open_by p _ _ _ _ _ _ Ht Ho HY (fun A B => binds_open_same (map snd todo) [] None A B _)). tauto.
      - rewrite !app_length in *. cbn [length]. lia. }
    cbn [binds_open]. cbv iota beta in Hnext.
    destruct (p_kind (snd p)) eqn:Ek; rewrite ?Ek in Hnext.
    + unfold positional_only in Hnext. destruct P as [|a P].
      * cbn [app] in Hs'. cbn [map]. destruct HX as [->|(x & -> & Hx)].
        -- cbn [app] in Hs'. rewrite first_value_nil. destruct K as [|k K].
           ++ assert (Hn2 : exists s', next (params s) s = (Some (p, None), s') /\ shape s' Y todo u None None tm).
              { cbn [app] in Hs'. destruct HY as [->|(y & -> & Hy)].
                - rewrite (next_arg_none _ _ _ _ _ _ Hs') in Hnext. eexists; split; [exact Hnext|exact Hs'].
                - destruct (next_arg_kws _ _ _ _ _ _ _ Hs' Hy) as (s' & E & A & _). rewrite E in Hnext.
                  destruct (proj2 (proj2 (proj2 (kind_facts y))) Hy) as (E1 & _ & _ & _ & E2). rewrite E1, E2 in Hnext. eexists; split; [exact Hnext|exact A]. }
              destruct Hn2 as (s' & E & Hs''). rewrite (answer_some ty val fits _ _ _ _ E), andb_true_iff.
              rewrite (IH [] [] [] Y u fuel s' tm Hs'' (Forall_nil _) (or_introl eq_refl) FK FU HY Hsig' Ho) by (cbn in *; lia).
              cbn [item_matches snd fst map]. rewrite first_value_nil. tauto.
           ++ inversion FK as [|? ? Hk FK']; subst. cbn [app] in Hs'.
              destruct (next_arg_definite _ _ _ _ _ _ _ _ Hs' (or_intror Hk)) as (s' & E & Hs''). rewrite E in Hnext.
              destruct (proj1 (proj2 (kind_facts k)) Hk) as (E1 & _ & _ & _ & E2). rewrite E1, E2 in Hnext.
              rewrite (answer_some ty val fits _ _ _ _ Hnext), andb_true_iff.
              assert (Hperm : Permutation ((k :: K) ++ u) (K ++ u ++ [k])).
              { cbn [app]. rewrite app_assoc. apply Permutation_cons_append. }
              rewrite (IH [] [] K Y (u ++ [k]) fuel _ tm (shape_push _ k _ _ _ _ _ _ Hs'') (Forall_nil _) (or_introl eq_refl) FK').
              ** cbn [item_matches snd fst map]. rewrite first_value_nil. split; (intros (A & B & C)).
                 --- refine (conj B (conj A (binds_open_same _ _ _ _ _ _ (same_sym _ _ _ (perm_same val _ _ Hperm)) C))).
                 --- refine (conj B (conj A (binds_open_same _ _ _ _ _ _ (perm_same val _ _ Hperm) C))).
              ** apply Forall_app; split; [exact FU|constructor; [exact Hk|constructor]].
              ** exact HY.
              ** exact Hsig'.
              ** exact (once_perm val _ _ Hperm Ho).
              ** rewrite !app_length in *; cbn in Hf |- *; lia.
        -- cbn [app] in Hs'. destruct (next_arg_many _ _ _ _ _ _ _ _ Hs' Hx) as (s' & E & Hs'' & _). rewrite E in Hnext.
           destruct (proj1 (proj2 (proj2 (kind_facts x))) Hx) as (_ & _ & _ & _ & E2). rewrite E2 in Hnext.
           rewrite (answer_some ty val fits _ _ _ _ Hnext), andb_true_iff, item_ok.
           rewrite (IH [] [x] K Y u fuel s' tm Hs'' (Forall_nil _) (or_intror (ex_intro _ x (conj eq_refl Hx))) FK FU HY Hsig' Ho) by (cbn in *; lia).
           cbn [map first_value hd_error option_map]. tauto.
      * inversion FP as [|? ? Ha FP']; subst. cbn [app] in Hs'.
        destruct (next_arg_definite _ _ _ _ _ _ _ _ Hs' (or_introl Ha)) as (s' & E & Hs''). rewrite E in Hnext.
        destruct (proj1 (kind_facts a) Ha) as (_ & _ & _ & _ & E2). rewrite E2 in Hnext.
        rewrite (answer_some ty val fits _ _ _ _ Hnext), andb_true_iff, item_ok.
        rewrite (IH P X K Y u fuel s' tm Hs'' FP' HX FK FU HY Hsig' Ho) by (cbn in *; lia). cbn [map]. tauto.
    + destruct P as [|a P].
      * cbn [map]. cbn [app] in Hs'. destruct HX as [->|(x & -> & Hx)].
        -- cbn [app] in Hs'. rewrite first_value_nil.
           destruct (pk_open K (arguments_left (set_params todo s)) p (set_params todo s) Y todo u None None tm Hs' (shape_fuel _ _ _ _ _ _ _ Hs') FK FU HY)
             as (K' & U' & f & s' & E & A & B). rewrite E in Hnext. exact (Hkw K' U' f s' tm B Hnext A).
        -- cbn [app] in Hs'. destruct (next_arg_many _ _ _ _ _ _ _ _ Hs' Hx) as (s' & E & Hs'' & _).
           unfold arguments_left in Hnext; cbn [positional_or_keyword] in Hnext. rewrite E in Hnext.
           destruct (proj1 (proj2 (proj2 (kind_facts x))) Hx) as (E1 & _ & E2 & _). rewrite E1, E2 in Hnext.
           rewrite (answer_some ty val fits _ _ _ _ Hnext), andb_true_iff, item_ok.
           rewrite (IH [] [x] K Y u fuel s' tm Hs'' (Forall_nil _) (or_intror (ex_intro _ x (conj eq_refl Hx))) FK FU HY Hsig' Ho) by (cbn in *; lia).
           cbn [map first_value hd_error option_map]. tauto.
      * inversion FP as [|? ? Ha FP']; subst. cbn [app] in Hs'.
        destruct (next_arg_definite _ _ _ _ _ _ _ _ Hs' (or_introl Ha)) as (s' & E & Hs'').
        unfold arguments_left in Hnext; cbn [positional_or_keyword] in Hnext. rewrite E in Hnext.
        destruct (proj1 (kind_facts a) Ha) as (E1 & _ & E2 & _). rewrite E1, E2 in Hnext.
        rewrite (answer_some ty val fits _ _ _ _ Hnext), andb_true_iff, item_ok.
        rewrite (IH P X K Y u fuel s' tm Hs'' FP' HX FK FU HY Hsig' Ho) by (cbn in *; lia). cbn [map]. tauto.
    + assert (Hstar : shape (set_starred (Some p) (set_params todo s)) (P ++ X ++ K ++ Y) todo u (Some p) None tm).
      { destruct Hs' as [A B C D E F]. constructor; cbn in *; auto. }
      rewrite (answer_next ty val fits fuel s (set_starred (Some p) (set_params todo s)) Hnext).
      rewrite !app_length in Hf.
      destruct (star_open P X K Y (S fuel) p _ todo u tm Hstar FP HX FK HY) as (fuel' & s' & H1 & H2 & H3); [lia|].
      rewrite H3. rewrite (IH [] [] K Y u fuel' s' tm H2 (Forall_nil _) (or_introl eq_refl) FK FU HY Hsig' Ho) by (cbn [app]; rewrite app_length; lia).
      change (map a_value []) with (@nil val). rewrite first_value_nil. destruct HX as [->|(x & -> & _)]; cbn [first_value hd_error option_map opt_ok]; tauto.
    + destruct (ko_open P X K (arguments_left (set_params todo s)) p (set_params todo s) Y todo u None None tm Hs' (shape_fuel _ _ _ _ _ _ _ Hs') FP HX FK FU HY)
        as (K' & U' & f & s' & E & A & B). rewrite E in Hnext. rewrite (Hkw K' U' f s' _ B Hnext A).
      destruct P as [|a P]; [cbn [map]; tauto|]. split; [intros (C & _); discriminate|intros (_ & C & _); discriminate].
    + assert (E : todo = []).
      { destruct todo as [|q r]; [reflexivity|exfalso].
        pose proof (signature_rank _ _ _ (snd q) Hsig (or_introl eq_refl)) as Hq; rewrite Ek in Hq; cbn [rank] in Hq.
        apply (signature_variadic _ _ _ (snd q) Hsig (or_introl eq_refl)); [right; exact Ek|].
        rewrite Ek; destruct (p_kind (snd q)); cbn in Hq; try lia; reflexivity. }
      subst todo. rewrite (answer_next ty val fits fuel s (set_double_starred (Some p) (set_params [] s)) Hnext).
      rewrite (star_star_open _ P X K Y (S fuel) p _ u tm (shape_double _ (Some p) _ _ _ _ _ _ Hs') FP HX FK HY eq_refl)
        by (rewrite !app_length in *; lia).
      cbn [map binds_open]. rewrite !Forall_map. cbn [snd kv]. split.
      * intros (A & -> & C & D). refine (conj A (conj eq_refl (conj C (conj _ (conj eq_refl eq_refl))))). destruct Y; exact D.
      * intros (A & B & C & D & _). apply map_eq_nil in B. refine (conj A (conj B (conj C _))). destruct Y; exact D.
Qed.

End Proofs.
