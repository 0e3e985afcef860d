(** The variants tried with one member in place of each union, against its specification. *)
From Coq Require Import List Arith Bool Lia.
From Verif Require Import OverloadModel OverloadSpec OverloadProofs.
Import ListNotations.

Section Math.
Variables (expected arg ty variant : Type).
Variable match_signature : context expected -> variant -> list arg -> signature_match ty * bool.
Variable infer : context expected -> arg -> option ty.
Variable union_like : ty -> option (list ty).
Variable override : arg -> ty -> arg.
Variables (any_type never : ty) (simplified_union : ty -> ty -> ty).
Variable as_union_math_type : context expected -> variant -> list arg -> ty.

(** A union has members, and [simplified_union] is the smallest type above two. *)
Hypothesis members_exist : forall t us, union_like t = Some us -> us <> [].
Variable below : ty -> ty -> Prop.
Hypothesis below_refl : forall a, below a a.
Hypothesis below_trans : forall a b c, below a b -> below b c -> below a c.
Hypothesis never_below : forall a, below never a.
Hypothesis union_left : forall a b, below a (simplified_union a b).
Hypothesis union_right : forall a b, below b (simplified_union a b).
Hypothesis union_least : forall a b c, below a c -> below b c -> below (simplified_union a b) c.

Variables (c : context expected) (vs : list variant).
Notation takes := (takes match_signature c).
Notation first_taking := (first_taking match_signature c vs).
Notation nearest := (nearest match_signature c vs).
Notation chosen := (chosen infer union_like override c).
Notation choice := (choice infer union_like override c).
Notation unions := (unions infer union_like c).
Notation try_variants := (try_variants _ _ _ _ match_signature as_union_math_type c).
Notation members := (members arg ty override simplified_union).
Notation check := (check_union_math _ _ _ _ match_signature infer union_like override any_type never simplified_union as_union_math_type c vs).

Definition nobody (x : list arg) : Prop := forall v, In v vs -> ~ takes v x.
Definition least_nearest (T : list arg -> Prop) (i : nat) : Prop :=
  (exists x, T x /\ nearest x i) /\ forall x j, T x -> nearest x j -> i <= j.

(** The answer for all the argument lists in [T]. *)
Definition answers (T : list arg -> Prop) (r : union_math_result ty) : Prop :=
  match r with
  | Match i t =>
      (forall x, T x -> exists v, first_taking x v /\ below (as_union_math_type c v x) t) /\
      (forall b, (forall x v, T x -> first_taking x v -> below (as_union_math_type c v x) b) -> below t b) /\
      least_nearest T i
  | FirstSimilarIndex i => (exists x, T x /\ nobody x) /\ least_nearest T i
  | NoMatch => (exists x, T x /\ nobody x) /\ forall x i, T x -> ~ nearest x i
  | _ => False
  end.

Lemma answers_iff : forall (T T' : list arg -> Prop) r, (forall x, T x <-> T' x) -> answers T r -> answers T' r.
Proof.
  intros T T' r H.
  assert (Hn : forall i, least_nearest T i -> least_nearest T' i).
  { intros i [[x [Hx Hi]] Hl]. split; [exists x; split; [apply H; exact Hx|exact Hi]|]. intros y j Hy. apply Hl. apply H. exact Hy. }
  destruct r as [i|i t| | |]; cbn [answers].
  - intros [[x [Hx Hb]] Hi]. split; [exists x; split; [apply H; exact Hx|exact Hb]|exact (Hn i Hi)].
  - intros [H1 [H2 H3]]. refine (conj _ (conj _ (Hn i H3))).
    + intros x Hx. apply H1. apply H. exact Hx.
    + intros b Hb. apply H2. intros x v Hx. apply Hb. apply H. exact Hx.
  - intros [[x [Hx Hb]] Hi]. split; [exists x; split; [apply H; exact Hx|exact Hb]|]. intros y i Hy. apply Hi. apply H. exact Hy.
  - intros [].
  - intros [].
Qed.

Lemma least_unique : forall (P : nat -> Prop) i j, least P i -> least P j -> i = j.
Proof.
  intros P i j [Hi Li] [Hj Lj]. destruct (Nat.lt_trichotomy i j) as [H|[H|H]]; [|exact H|]; exfalso.
  - exact (Lj i H Hi).
  - exact (Li j H Hj).
Qed.

Lemma nearest_unique : forall x i j, nearest x i -> nearest x j -> i = j.
Proof.
  intros x i j Hi Hj.
  assert (Hx : forall i, least (fun j => exists w, nth_error vs j = Some w /\ takes w x) i -> ~ nobody x).
  { intros k [[w [Hw Ht]] _] Hn. exact (Hn w (nth_error_In _ _ Hw) Ht). }
  destruct Hi as [Hi|[Ni Hi]], Hj as [Hj|[Nj Hj]].
  - exact (least_unique _ i j Hi Hj).
  - exfalso; exact (Hx i Hi Nj).
  - exfalso; exact (Hx j Hj Ni).
  - exact (least_unique _ i j Hi Hj).
Qed.

Lemma try_spec : forall x todo done fs, vs = done ++ todo ->
  (forall v, In v done -> ~ takes v x) ->
  match fs with
  | Some i => i < length done /\ least (fun j => exists w, nth_error vs j = Some w /\ fst (match_signature c w x) = False_ true) i
  | None => forall j w, j < length done -> nth_error vs j = Some w -> fst (match_signature c w x) <> False_ true
  end ->
  match try_variants x (length done) todo fs with
  | Match i t => exists v, nth_error vs i = Some v /\ least (fun j => exists w, nth_error vs j = Some w /\ takes w x) i /\ t = as_union_math_type c v x
  | FirstSimilarIndex i => nobody x /\ nearest x i
  | NoMatch => nobody x /\ forall i, ~ nearest x i
  | _ => False
  end.
Proof.
  intros x todo; induction todo as [|v todo IH]; intros done fs E Hn Hf; cbn [OverloadModel.try_variants].
  - rewrite app_nil_r in E. subst done. assert (Hno : nobody x) by exact Hn. destruct fs as [i|].
    + split; [exact Hno|]. right. split; [exact Hno|exact (proj2 Hf)].
    + split; [exact Hno|]. intros i [[[w [Hw Ht]] _]|[_ [[w [Hw Ht]] _]]].
      * exact (Hno w (nth_error_In _ _ Hw) Ht).
      * refine (Hf i w _ Hw Ht). apply nth_error_Some. rewrite Hw. discriminate.
  - assert (Hk : nth_error vs (length done) = Some v) by (rewrite E, nth_error_app2, Nat.sub_diag; [reflexivity|lia]).
    assert (Hdone : forall j w, j < length done -> nth_error vs j = Some w -> In w done).
    { intros j w Hj Hw. rewrite E, nth_error_app1 in Hw by exact Hj. exact (nth_error_In _ _ Hw). }
    assert (Hfound : takes v x -> exists v0, nth_error vs (length done) = Some v0 /\
      least (fun j => exists w, nth_error vs j = Some w /\ takes w x) (length done) /\ as_union_math_type c v x = as_union_math_type c v0 x).
    { intros Ht. exists v. refine (conj Hk (conj _ eq_refl)). split; [exists v; split; [exact Hk|exact Ht]|].
      intros j Hj [w [Hw Hx]]. exact (Hn w (Hdone j w Hj Hw) Hx). }
    assert (Hnext : ~ takes v x -> forall w, In w (done ++ [v]) -> ~ takes w x).
    { intros Ht w Hw. apply in_app_or in Hw. destruct Hw as [Hw|[<-|[]]]; [exact (Hn w Hw)|exact Ht]. }
    assert (E' : vs = (done ++ [v]) ++ todo) by (rewrite <- app_assoc; exact E).
    assert (Hlen : length (done ++ [v]) = S (length done)) by (rewrite app_length; cbn; lia).
    unfold OverloadSpec.takes in Hfound, Hnext. 
    destruct (fst (match_signature c v x)) as [[|]|l|h] eqn:Em.
    + rewrite <- Hlen. apply IH; [exact E'|apply Hnext; intros []|]. rewrite Hlen. destruct fs as [i|]; cbn [or_first].
      * split; [lia|exact (proj2 Hf)].
      * split; [lia|]. split; [exists v; split; [exact Hk|exact Em]|]. intros j Hj [w [Hw Hx]]. exact (Hf j w Hj Hw Hx).
    + rewrite <- Hlen. apply IH; [exact E'|apply Hnext; intros []|]. rewrite Hlen. destruct fs as [i|].
      * split; [lia|exact (proj2 Hf)].
      * intros j w Hj Hw. destruct (Nat.eq_dec j (length done)) as [->|Hne]; [|apply (Hf j w); [lia|exact Hw]].
        rewrite Hk in Hw. injection Hw as <-. rewrite Em. discriminate.
    + exact (Hfound I).
    + exact (Hfound I).
Qed.

Lemma try_answers : forall x, answers (eq x) (try_variants x 0 vs None).
Proof.
  intros x. pose proof (try_spec x vs [] None eq_refl (fun v H => False_ind _ H)) as H. cbn [length] in H.
  assert (H0 : forall j w, j < 0 -> nth_error vs j = Some w -> fst (match_signature c w x) <> False_ true) by (intros j w Hj; lia).
  specialize (H H0). clear H0. unfold answers. destruct (try_variants x 0 vs None) as [i|i t| | |].
  - destruct H as [Hn Hi]. refine (conj (ex_intro _ x (conj eq_refl Hn)) (conj (ex_intro _ x (conj eq_refl Hi)) _)).
    intros y j <- Hj. rewrite (nearest_unique x i j Hi Hj). apply Nat.le_refl.
  - destruct H as [v [Hv [Hl ->]]].
    assert (Hf : first_taking x v) by (exists i; split; [exact Hv|exact Hl]).
    refine (conj _ (conj _ (conj (ex_intro _ x (conj eq_refl (or_introl Hl))) _))).
    + intros y <-. exists v. split; [exact Hf|]. apply below_refl.
    + intros b Hb. exact (Hb x v eq_refl Hf).
    + intros y j <- Hj. rewrite (nearest_unique x i j (or_introl Hl) Hj). apply Nat.le_refl.
  - destruct H as [Hn Hi]. split; [exists x; split; [reflexivity|exact Hn]|]. intros y i <-. apply Hi.
  - exact H.
  - exact H.
Qed.

(** What the loop over members knows after the argument lists in [D]. *)
Definition so_far (D : list arg -> Prop) (unioned : ty) (fs : option nat) (mismatch : bool) : Prop :=
  (if mismatch then exists x, D x /\ nobody x
   else (forall x, D x -> exists v, first_taking x v /\ below (as_union_math_type c v x) unioned) /\
        (forall b, (forall x v, D x -> first_taking x v -> below (as_union_math_type c v x) b) -> below unioned b)) /\
  match fs with Some i => least_nearest D i | None => forall x i, D x -> ~ nearest x i end.

Lemma nearest_union : forall D T fs (r : union_math_result ty),
  match fs with Some i => least_nearest D i | None => forall x i, D x -> ~ nearest x i end -> answers T r ->
  match (match r with Match i _ | FirstSimilarIndex i => smaller fs i | _ => fs end) with
  | Some i => least_nearest (fun x => D x \/ T x) i
  | None => forall x i, (D x \/ T x) -> ~ nearest x i
  end.
Proof.
  intros D T fs r Hf Ha.
  assert (Hsm : forall i, least_nearest T i -> match smaller fs i with
    | Some i => least_nearest (fun x => D x \/ T x) i | None => forall x i, (D x \/ T x) -> ~ nearest x i end).
  { intros i [[x [Hx Hi]] Hl]. destruct fs as [f|]; cbn [smaller].
    - destruct Hf as [[y [Hy Hyf]] Hyl]. destruct (i <? f) eqn:E.
      + apply Nat.ltb_lt in E. split; [exists x; split; [right; exact Hx|exact Hi]|].
        intros z j [Hz|Hz] Hj; [specialize (Hyl z j Hz Hj); lia|exact (Hl z j Hz Hj)].
      + apply Nat.ltb_ge in E. split; [exists y; split; [left; exact Hy|exact Hyf]|].
        intros z j [Hz|Hz] Hj; [exact (Hyl z j Hz Hj)|specialize (Hl z j Hz Hj); lia].
    - split; [exists x; split; [right; exact Hx|exact Hi]|].
      intros z j [Hz|Hz] Hj; [exfalso; exact (Hf z j Hz Hj)|exact (Hl z j Hz Hj)]. }
  destruct r as [i|i t| | |].
  - apply Hsm. exact (proj2 Ha).
  - apply Hsm. exact (proj2 (proj2 Ha)).
  - destruct Ha as [_ Hn]. destruct fs as [f|].
    + destruct Hf as [[y [Hy Hyf]] Hyl]. split; [exists y; split; [left; exact Hy|exact Hyf]|].
      intros z j [Hz|Hz] Hj; [exact (Hyl z j Hz Hj)|exfalso; exact (Hn z j Hz Hj)].
    + intros x i [Hx|Hx]; [exact (Hf x i Hx)|exact (Hn x i Hx)].
  - destruct Ha.
  - destruct Ha.
Qed.

Lemma members_spec : forall deeper a (T : list arg -> list arg -> Prop) l0 us y D unioned fs mismatch,
  (forall u, exists rest, snd (deeper (l0 ++ [override a u])) = (l0 ++ [override a u]) ++ rest) ->
  (forall u, In u us -> answers (T (l0 ++ [override a u])) (fst (deeper (l0 ++ [override a u])))) ->
  so_far D unioned fs mismatch ->
  us <> [] \/ fs <> None \/ mismatch = true ->
  (exists rest, snd (members deeper a us (l0 ++ [y]) unioned fs mismatch) = l0 ++ rest) /\
  answers (fun x => D x \/ exists u, In u us /\ T (l0 ++ [override a u]) x) (fst (members deeper a us (l0 ++ [y]) unioned fs mismatch)).
Proof.
  intros deeper a T l0 us; induction us as [|u us IH]; intros y D unioned fs mismatch Hvec Hans Hso Hne; cbn [OverloadModel.members].
  - cbn [fst snd]. split; [exists [y]; reflexivity|].
    destruct Hso as [Hm Hf].
    assert (Hset : forall Q : Prop, (exists u : ty, In u [] /\ Q) -> False) by (intros Q [u [[] _]]).
    assert (Hd : forall x, (D x \/ exists u, In u [] /\ T (l0 ++ [override a u]) x) -> D x) by (intros x [Hx|[u [[] _]]]; exact Hx).
    destruct mismatch.
    + destruct Hm as [x [Hx Hn]]. destruct fs as [i|].
      * split; [exists x; split; [left; exact Hx|exact Hn]|]. destruct Hf as [[z [Hz Hi]] Hl].
        split; [exists z; split; [left; exact Hz|exact Hi]|]. intros w j Hw. exact (Hl w j (Hd w Hw)).
      * split; [exists x; split; [left; exact Hx|exact Hn]|]. intros w j Hw. exact (Hf w j (Hd w Hw)).
    + destruct fs as [i|].
      * destruct Hm as [Hm1 Hm2]. refine (conj _ (conj _ _)).
        -- intros x Hx. exact (Hm1 x (Hd x Hx)).
        -- intros b Hb. apply Hm2. intros x v Hx. apply Hb. left; exact Hx.
        -- destruct Hf as [[z [Hz Hi]] Hl]. split; [exists z; split; [left; exact Hz|exact Hi]|]. intros w j Hw. exact (Hl w j (Hd w Hw)).
      * destruct Hne as [Hx|[Hx|Hx]]; [exfalso; apply Hx; reflexivity|exfalso; apply Hx; reflexivity|discriminate Hx].
  - unfold set_last. rewrite removelast_last.
    destruct (Hvec u) as [rest Hrest]. pose proof (Hans u (or_introl eq_refl)) as Hu.
    destruct (deeper (l0 ++ [override a u])) as [r l'] eqn:Ed. cbn [fst snd] in Hrest, Hu. subst l'.
    assert (Hcut : firstn (length (l0 ++ [y])) ((l0 ++ [override a u]) ++ rest) = l0 ++ [override a u]).
    { replace (length (l0 ++ [y])) with (length (l0 ++ [override a u])) by (rewrite !app_length; reflexivity).
      rewrite firstn_app, Nat.sub_diag, firstn_all, app_nil_r. reflexivity. }
    set (D' := fun x => D x \/ T (l0 ++ [override a u]) x).
    pose proof (nearest_union D (T (l0 ++ [override a u])) fs r (proj2 Hso) Hu) as Hnear.
    assert (Hgo : forall unioned' fs' mm', so_far D' unioned' fs' mm' -> (fs' <> None \/ mm' = true) ->
      (exists rest0, snd (members deeper a us (l0 ++ [override a u]) unioned' fs' mm') = l0 ++ rest0) /\
      answers (fun x => D x \/ exists u0, In u0 (u :: us) /\ T (l0 ++ [override a u0]) x)
        (fst (members deeper a us (l0 ++ [override a u]) unioned' fs' mm'))).
    { intros unioned' fs' mm' H1 H2.
      destruct (IH (override a u) D' unioned' fs' mm' Hvec (fun w Hw => Hans w (or_intror Hw)) H1 (or_intror H2)) as [H3 H4].
      split; [exact H3|]. revert H4.
      assert (Hiff : forall x, (D' x \/ exists u0, In u0 us /\ T (l0 ++ [override a u0]) x) <->
         (D x \/ exists u0, In u0 (u :: us) /\ T (l0 ++ [override a u0]) x)).
      { intros x; unfold D'; split.
        - intros [[Hx|Hx]|[w [Hw Hx]]]; [left; exact Hx|right; exists u; split; [left; reflexivity|exact Hx]|right; exists w; split; [right; exact Hw|exact Hx]].
        - intros [Hx|[w [[<-|Hw] Hx]]]; [left; left; exact Hx|left; right; exact Hx|right; exists w; split; [exact Hw|exact Hx]]. }
      clear - Hiff. intros H4. exact (answers_iff _ _ _ Hiff H4). }
    destruct Hso as [Hm Hf].
    destruct r as [i|i t| | |].
    + rewrite Hcut. apply Hgo; [|right; reflexivity]. split; [|exact Hnear].
      destruct Hu as [[x [Hx Hn]] _]. exists x. split; [right; exact Hx|exact Hn].
    + destruct mismatch.
      * rewrite Hcut. apply Hgo; [|right; reflexivity]. split; [|exact Hnear].
        destruct Hm as [x [Hx Hn]]. exists x. split; [left; exact Hx|exact Hn].
      * rewrite Hcut. apply Hgo.
        -- split; [|exact Hnear]. destruct Hm as [Hm1 Hm2], Hu as [Hu1 [Hu2 _]]. split.
           ++ intros x [Hx|Hx].
              ** destruct (Hm1 x Hx) as [v [Hv Hb]]. exists v. split; [exact Hv|]. exact (below_trans _ _ _ Hb (union_left _ _)).
              ** destruct (Hu1 x Hx) as [v [Hv Hb]]. exists v. split; [exact Hv|]. exact (below_trans _ _ _ Hb (union_right _ _)).
           ++ intros b Hb. apply union_least; [apply Hm2|apply Hu2]; intros x v Hx; apply Hb; [left|right]; exact Hx.
        -- left. destruct fs as [f|]; cbn [smaller]; [destruct (i <? f); discriminate|discriminate].
    + rewrite Hcut. apply Hgo; [|right; reflexivity]. split; [|exact Hnear].
      destruct Hu as [[x [Hx Hn]] _]. exists x. split; [right; exact Hx|exact Hn].
    + destruct Hu.
    + destruct Hu.
Qed.


Lemma members_vector : forall deeper a l0 us y unioned fs mismatch,
  (forall l, exists rest, snd (deeper l) = l ++ rest) ->
  exists rest, snd (members deeper a us (l0 ++ [y]) unioned fs mismatch) = l0 ++ rest.
Proof.
  intros deeper a l0 us; induction us as [|u us IH]; intros y unioned fs mismatch H; cbn [OverloadModel.members].
  - exists [y]; reflexivity.
  - unfold set_last. rewrite removelast_last. destruct (H (l0 ++ [override a u])) as [rest Hrest].
    destruct (deeper (l0 ++ [override a u])) as [r l'] eqn:Ed. cbn [snd] in Hrest. subst l'.
    assert (Hcut : firstn (length (l0 ++ [y])) ((l0 ++ [override a u]) ++ rest) = l0 ++ [override a u]).
    { replace (length (l0 ++ [y])) with (length (l0 ++ [override a u])) by (rewrite !app_length; reflexivity).
      rewrite firstn_app, Nat.sub_diag, firstn_all, app_nil_r. reflexivity. }
    rewrite Hcut. destruct r as [i|i t| | |]; try (apply IH; exact H).
    + destruct mismatch; apply IH; exact H.
    + cbn [snd]. exists ([override a u] ++ rest). rewrite <- app_assoc. reflexivity.
    + cbn [snd]. exists ([override a u] ++ rest). rewrite <- app_assoc. reflexivity.
Qed.

Lemma check_unfold : forall args l depth, check args l depth =
  if MAX_UNIONS <=? depth then (TooManyUnions, l)
  else match args with
    | [] => (try_variants l 0 vs None, l)
    | a :: args =>
        match infer c a with
        | None => check args (l ++ [a]) depth
        | Some t =>
            match union_like t with
            | Some us => members (fun l => check args l (S depth)) a us (l ++ [override a any_type]) never None false
            | None => check args (l ++ [a]) depth
            end
        end
    end.
Proof. intros [|a args] l depth; reflexivity. Qed.

Lemma check_vector : forall args l depth, exists rest, snd (check args l depth) = l ++ rest.
Proof.
  induction args as [|a args IH]; intros l depth; rewrite check_unfold; destruct (MAX_UNIONS <=? depth); try (exists []; symmetry; apply app_nil_r).
  assert (Hpush : exists rest, snd (check args (l ++ [a]) depth) = l ++ rest).
  { destruct (IH (l ++ [a]) depth) as [rest Hr]. exists ([a] ++ rest). rewrite Hr, <- app_assoc. reflexivity. }
  destruct (infer c a) as [t|]; [|exact Hpush]. destruct (union_like t) as [us|]; [|exact Hpush].
  apply members_vector. intros l'. exact (IH l' (S depth)).
Qed.

Lemma unions_exist : forall args, exists n, unions args n.
Proof.
  induction args as [|a args [n IH]]; [exists 0; constructor|].
  destruct (infer c a) as [t|] eqn:Ei; [destruct (union_like t) as [us|] eqn:Eu|].
  - exists (S n). exact (a_union _ _ _ _ _ c a args t us n Ei Eu IH).
  - exists n. apply no_union; [|exact IH]. rewrite Ei. intros t' [= <-]. exact Eu.
  - exists n. apply no_union; [|exact IH]. rewrite Ei. intros t' H; discriminate H.
Qed.

Lemma check_many : forall args n, unions args n -> forall l depth, MAX_UNIONS <= depth + n -> fst (check args l depth) = TooManyUnions.
Proof.
  intros args n H; induction H as [|a args t us n Ei Eu H IH|a args n Hn H IH]; intros l depth Hd; rewrite check_unfold.
  - rewrite Nat.add_0_r in Hd. apply Nat.leb_le in Hd. rewrite Hd. reflexivity.
  - destruct (MAX_UNIONS <=? depth); [reflexivity|]. rewrite Ei, Eu.
    destruct us as [|u us]; [exfalso; exact (members_exist t [] Eu eq_refl)|]. cbn [OverloadModel.members].
    specialize (IH (set_last arg (l ++ [override a any_type]) (override a u)) (S depth)).
    destruct (check args (set_last arg (l ++ [override a any_type]) (override a u)) (S depth)) as [r l']. cbn [fst] in IH.
    rewrite IH by lia. reflexivity.
  - destruct (MAX_UNIONS <=? depth); [reflexivity|]. destruct (infer c a) as [t|]; [rewrite (Hn t eq_refl)|]; apply IH; exact Hd.
Qed.

Lemma check_few : forall args n, unions args n -> forall l depth, depth + n < MAX_UNIONS ->
  answers (fun x => exists args', choice args args' /\ x = l ++ args') (fst (check args l depth)).
Proof.
  intros args n H; induction H as [|a args t us n Ei Eu H IH|a args n Hn H IH]; intros l depth Hd; rewrite check_unfold;
    replace (MAX_UNIONS <=? depth) with false by (symmetry; apply Nat.leb_gt; lia).
  - cbn [fst]. apply (answers_iff (eq l)); [|apply try_answers]. intros x; split.
    + intros <-. exists []. split; [constructor|symmetry; apply app_nil_r].
    + intros [args' [Hc ->]]. inversion Hc. symmetry; apply app_nil_r.
  - rewrite Ei, Eu.
    destruct (members_spec (fun l => check args l (S depth)) a
      (fun l x => exists args', choice args args' /\ x = l ++ args') l us (override a any_type) (fun _ => False) never None false) as [_ Ha].
    + intros u. apply check_vector.
    + intros u _. apply IH. lia.
    + split; [split|].
      * intros x [].
      * intros b _. apply never_below.
      * intros x i [].
    + left. exact (members_exist t us Eu).
    + revert Ha. apply answers_iff. intros x; split.
      * intros [[]|[u [Hu [args' [Hc ->]]]]]. exists (override a u :: args'). split; [|rewrite <- app_assoc; reflexivity].
        constructor; [|exact Hc]. unfold OverloadSpec.chosen. rewrite Ei, Eu. exists u. split; [exact Hu|reflexivity].
      * intros [args' [Hc ->]]. right. inversion Hc as [|a' b args0 args1 Hb Hr E1 E2]; subst.
        unfold OverloadSpec.chosen in Hb. rewrite Ei, Eu in Hb. destruct Hb as [u [Hu ->]]. exists u. split; [exact Hu|].
        exists args1. split; [exact Hr|]. rewrite <- app_assoc. reflexivity.
  - assert (Hch : forall b, chosen a b <-> b = a).
    { intros b. unfold OverloadSpec.chosen. destruct (infer c a) as [t|]; [rewrite (Hn t eq_refl)|]; reflexivity. }
    assert (Hp : answers (fun x => exists args', choice (a :: args) args' /\ x = l ++ args') (fst (check args (l ++ [a]) depth))).
    { generalize (IH (l ++ [a]) depth Hd). apply answers_iff. intros x; split.
      - intros [args' [Hc ->]]. exists (a :: args'). split; [constructor; [apply Hch; reflexivity|exact Hc]|rewrite <- app_assoc; reflexivity].
      - intros [args' [Hc ->]]. inversion Hc as [|a' b args0 args1 Hb Hr E1 E2]; subst. apply Hch in Hb. subst b.
        exists args1. split; [exact Hr|rewrite <- app_assoc; reflexivity]. }
    destruct (infer c a) as [t|]; [rewrite (Hn t eq_refl)|]; exact Hp.
Qed.

End Math.
