(** The loops of the search for a variant against their specification. *)
From Coq Require Import List Arith Bool Lia.
From Verif Require Import OverloadModel OverloadSpec.
Import ListNotations.

Section Proofs.
Variables (expected arg ty variant : Type).
Variable match_signature : context expected -> variant -> list arg -> signature_match ty * bool.
Variables (return_type : variant -> ty) (has_guard : variant -> bool).
Variables (type_eqb is_equal_type : ty -> ty -> bool).

Notation round := (round _ _ _ _ match_signature return_type has_guard type_eqb is_equal_type).
Notation rounds := (rounds _ _ _ _ match_signature return_type has_guard type_eqb is_equal_type).
Notation takes := (takes match_signature).
Notation accepted := (accepted match_signature).
Notation nearly := (nearly match_signature).
Notation plain := (plain match_signature).
Notation by_any := (by_any match_signature).
Notation conflicts := (conflicts match_signature return_type has_guard (fun t u => type_eqb t u = true) (fun t u => is_equal_type t u = true)).
Notation search := (search ty variant).

Lemma ambiguous_iff : forall v w l m,
  are_any_arguments_ambiguous_in_overload _ type_eqb l m &&
    negb (is_equal_type (return_type v) (return_type w) && negb (has_guard w) && negb (has_guard v)) = true <->
  ambiguous return_type has_guard (fun t u => type_eqb t u = true) (fun t u => is_equal_type t u = true) v w l m.
Proof.
  intros v w l m; unfold are_any_arguments_ambiguous_in_overload, ambiguous.
  rewrite andb_true_iff, existsb_exists, negb_true_iff. assert (both : forall A B C D : Prop, (A <-> C) -> (B <-> D) -> (A /\ B <-> C /\ D)) by tauto. apply both; clear both.
  - split.
    + intros [[i t] [Hl He]]. apply existsb_exists in He. destruct He as [[j u] [Hm He]]. cbn [fst snd] in He.
      apply andb_true_iff in He. destruct He as [He Ht]. apply Nat.eqb_eq in He. subst j.
      exists i, t, u. refine (conj Hl (conj Hm _)). intros Hx. rewrite Hx in Ht. discriminate Ht.
    + intros [i [t [u [Hl [Hm Ht]]]]]. exists (i, t). split; [exact Hl|]. apply existsb_exists. exists (i, u). split; [exact Hm|].
      cbn [fst snd]. rewrite Nat.eqb_refl. destruct (type_eqb t u); [exfalso; apply Ht; reflexivity|reflexivity].
  - destruct (is_equal_type (return_type v) (return_type w)), (has_guard w), (has_guard v); cbn; split; intros H; try discriminate H;
      try reflexivity; try (intros [H1 [H2 H3]]; congruence). exfalso; apply H. repeat split; reflexivity.
Qed.

(** The variants before [k] have been looked at, without a decision. *)
Record looked_at (c : context expected) (vs : list variant) (args : list arg) (k : nat) (s : search) : Prop := {
  la_plain : forall j, j < k -> ~ plain c vs args j;
  la_any : match multi_any_match _ _ s with
    | Some (i, v, l) => i < k /\ nth_error vs i = Some v /\ fst (match_signature c v args) = TrueWithAny l /\ least (by_any c vs args) i /\
        forall j, i < j -> j < k -> ~ conflicts c vs args i j
    | None => forall j, j < k -> ~ by_any c vs args j
    end;
  la_arbitrary : match first_arbitrary_length_not_handled _ _ s with
    | Some i => i < k /\ least (accepted c vs args) i
    | None => forall j, j < k -> accepted c vs args j -> by_any c vs args j
    end;
  la_similar : match first_similar _ _ s with
    | Some i => i < k /\ least (nearly c vs args) i
    | None => forall j, j < k -> ~ nearly c vs args j
    end;
  la_error : match had_error_in_func _ _ s with
    | Some i => i < k /\ exists v, nth_error vs i = Some v /\ snd (match_signature c v args) = true
    | None => forall j v, j < k -> nth_error vs j = Some v -> snd (match_signature c v args) = false
    end
}.

(** A decision of the loop. *)
Definition decides (c : context expected) (vs : list variant) (args : list arg) (k : nat) (r : overload_result ty) : Prop :=
  (forall j, j < k -> ~ plain c vs args j) /\
  match r with
  | Single i => i = k /\ plain c vs args k /\ forall j, j < k -> ~ by_any c vs args j
  | NotFound => exists i, i < k /\ least (by_any c vs args) i /\ conflicts c vs args i k
  | _ => False
  end.

Lemma below_S : forall (P : nat -> Prop) k, (forall j, j < k -> P j) -> P k -> forall j, j < S k -> P j.
Proof. intros P k H Hk j Hj. destruct (Nat.eq_dec j k) as [->|Hn]; [exact Hk|]. apply H; lia. Qed.

Section At.
Variables (c : context expected) (vs : list variant) (args : list arg) (k : nat) (v : variant).
Hypothesis at_k : nth_error vs k = Some v.

Lemma at_same : forall w, nth_error vs k = Some w -> w = v.
Proof. intros w H. rewrite at_k in H. injection H as H; exact (eq_sym H). Qed.

Lemma accepted_at : accepted c vs args k <-> takes c v args /\ snd (match_signature c v args) = false.
Proof.
  split; [intros [w [Hw H]]; rewrite (at_same w Hw) in H; exact H|].
  intros H; exists v; split; [exact at_k|exact H].
Qed.
Lemma nearly_at : nearly c vs args k <-> fst (match_signature c v args) = False_ true \/ takes c v args /\ snd (match_signature c v args) = true.
Proof.
  split; [intros [w [Hw H]]; rewrite (at_same w Hw) in H; exact H|].
  intros H; exists v; split; [exact at_k|exact H].
Qed.
Lemma plain_at : plain c vs args k <-> match_signature c v args = (True_ true, false).
Proof.
  unfold OverloadSpec.plain; rewrite accepted_at; unfold OverloadSpec.takes. split.
  - intros [[_ Hs] [w [Hw Hf]]]. rewrite (at_same w Hw) in Hf. destruct (match_signature c v args) as [m e]; cbn in *; subst; reflexivity.
  - intros H; rewrite H; cbn. refine (conj (conj I eq_refl) _). exists v. rewrite H. split; [exact at_k|reflexivity].
Qed.
Lemma any_at : by_any c vs args k <-> exists l, match_signature c v args = (TrueWithAny l, false).
Proof.
  unfold OverloadSpec.by_any; rewrite accepted_at; unfold OverloadSpec.takes. split.
  - intros [[_ Hs] [w [l [Hw Hf]]]]. rewrite (at_same w Hw) in Hf. exists l. destruct (match_signature c v args) as [m e]; cbn in *; subst; reflexivity.
  - intros [l H]; rewrite H; cbn. refine (conj (conj I eq_refl) _). exists v, l. rewrite H. split; [exact at_k|reflexivity].
Qed.
Lemma conflicts_at : forall i w l, nth_error vs i = Some w -> fst (match_signature c w args) = TrueWithAny l ->
  (conflicts c vs args i k <-> accepted c vs args k /\
    match fst (match_signature c v args) with
    | True_ _ => True
    | TrueWithAny m => ambiguous return_type has_guard (fun t u => type_eqb t u = true) (fun t u => is_equal_type t u = true) w v l m
    | False_ _ => False
    end).
Proof.
  intros i w l Hi Hl; unfold OverloadSpec.conflicts; split; intros [Ha H]; split; try exact Ha.
  - destruct H as [w' [v' [l' [Hw' [Hv' [Hl' H]]]]]]. rewrite (at_same v' Hv') in H. rewrite Hi in Hw'. injection Hw' as <-.
    rewrite Hl in Hl'. injection Hl' as <-. exact H.
  - exists w, v, l. refine (conj Hi (conj at_k (conj Hl H))).
Qed.
End At.

Lemma round_spec : forall c vs args k v s, nth_error vs k = Some v -> looked_at c vs args k s ->
  match round c args k v s with
  | inl r => decides c vs args k r
  | inr s => looked_at c vs args (S k) s
  end.
Proof.
  intros c vs args k v s Hk [Lp La Lr Ls Le].
  pose proof (accepted_at c vs args k v Hk) as Ea. pose proof (nearly_at c vs args k v Hk) as En.
  pose proof (plain_at c vs args k v Hk) as Ep. pose proof (any_at c vs args k v Hk) as Ey.
  pose proof (conflicts_at c vs args k v Hk) as Ec.
  unfold OverloadModel.round. destruct (match_signature c v args) as [m e] eqn:Em. cbn [fst snd] in *.
  unfold OverloadSpec.takes in Ea, En. rewrite Em in Ea, En. cbn [fst] in Ea, En.
  (* the variables that only depend on the error *)
  assert (He : match (if e then or_first (had_error_in_func _ _ s) k else had_error_in_func _ _ s) with
    | Some i => i < S k /\ exists v, nth_error vs i = Some v /\ snd (match_signature c v args) = true
    | None => forall j v, j < S k -> nth_error vs j = Some v -> snd (match_signature c v args) = false
    end).
  { destruct (had_error_in_func _ _ s) as [i|]; [destruct e; cbn [or_first]; destruct Le as [Hi Le]; split; try lia; exact Le|].
    destruct e; cbn [or_first].
    - split; [lia|]. exists v. rewrite Em. split; [exact Hk|reflexivity].
    - intros j w Hj Hw. destruct (Nat.eq_dec j k) as [->|Hn]; [|apply (Le j w); [lia|exact Hw]].
      rewrite Hk in Hw. injection Hw as <-. rewrite Em. reflexivity. }
  assert (Hany : ~ accepted c vs args k -> match multi_any_match _ _ s with
    | Some (i, w, l) => i < S k /\ nth_error vs i = Some w /\ fst (match_signature c w args) = TrueWithAny l /\ least (by_any c vs args) i /\
        forall j, i < j -> j < S k -> ~ conflicts c vs args i j
    | None => forall j, j < S k -> ~ by_any c vs args j
    end).
  { intros Hn. destruct (multi_any_match _ _ s) as [[[i w] l]|].
    - destruct La as [Hi [Hw [Hl [Hf Hc]]]]. refine (conj _ (conj Hw (conj Hl (conj Hf _)))); [lia|].
      intros j Hij Hj. destruct (Nat.eq_dec j k) as [->|Hne]; [intros [Hx _]; exact (Hn Hx)|apply Hc; lia].
    - apply (below_S _ k La). intros [Hx _]. exact (Hn Hx). }
  assert (Hplain : ~ accepted c vs args k -> forall j, j < S k -> ~ plain c vs args j).
  { intros Hn. apply (below_S _ k Lp). intros [Hx _]. exact (Hn Hx). }
  assert (Harb : ~ accepted c vs args k -> match first_arbitrary_length_not_handled _ _ s with
    | Some i => i < S k /\ least (accepted c vs args) i
    | None => forall j, j < S k -> accepted c vs args j -> by_any c vs args j
    end).
  { intros Hn. destruct (first_arbitrary_length_not_handled _ _ s) as [i|].
    - destruct Lr as [Hi Lr]. split; [lia|exact Lr].
    - apply (below_S (fun j => accepted c vs args j -> by_any c vs args j) k Lr). intros Hx; exfalso; exact (Hn Hx). }
  assert (Hsim : nearly c vs args k -> match or_first (first_similar _ _ s) k with
    | Some i => i < S k /\ least (nearly c vs args) i
    | None => forall j, j < S k -> ~ nearly c vs args j
    end).
  { intros Hn. destruct (first_similar _ _ s) as [i|]; cbn [or_first].
    - destruct Ls as [Hi Ls]. split; [lia|exact Ls].
    - split; [lia|]. split; [exact Hn|exact Ls]. }
  assert (Hnot : ~ nearly c vs args k -> match first_similar _ _ s with
    | Some i => i < S k /\ least (nearly c vs args) i
    | None => forall j, j < S k -> ~ nearly c vs args j
    end).
  { intros Hn. destruct (first_similar _ _ s) as [i|].
    - destruct Ls as [Hi Ls]. split; [lia|exact Ls].
    - exact (below_S _ k Ls Hn). }

  destruct e.
  - (* an error in an argument *)
    assert (Hna : ~ accepted c vs args k) by (rewrite Ea; intros [_ Hx]; discriminate Hx).
    destruct m as [[|]|l|h]; cbn [first_arbitrary_length_not_handled first_similar multi_any_match had_error_in_func].
    + constructor; cbn; try exact (Hplain Hna); try exact (Hany Hna); try exact (Harb Hna); try exact He.
      apply Hsim. apply En. left; reflexivity.
    + constructor; cbn; try exact (Hplain Hna); try exact (Hany Hna); try exact (Harb Hna); try exact He.
      apply Hnot. rewrite En. intros [Hx|[Hx _]]; [discriminate Hx|exact Hx].
    + constructor; cbn; try exact (Hplain Hna); try exact (Hany Hna); try exact (Harb Hna); try exact He.
      apply Hsim. apply En. right; split; [exact I|reflexivity].
    + constructor; cbn; try exact (Hplain Hna); try exact (Hany Hna); try exact (Harb Hna); try exact He.
      apply Hsim. apply En. right; split; [exact I|reflexivity].
  - destruct m as [[|]|l|h].
    + assert (Hna : ~ accepted c vs args k) by (rewrite Ea; intros [Hx _]; exact Hx).
      constructor; cbn; try exact (Hplain Hna); try exact (Hany Hna); try exact (Harb Hna); try exact He.
      apply Hsim. apply En. left; reflexivity.
    + assert (Hna : ~ accepted c vs args k) by (rewrite Ea; intros [Hx _]; exact Hx).
      constructor; try exact (Hplain Hna); try exact (Hany Hna); try exact (Harb Hna); try exact He.
      apply Hnot. rewrite En. intros [Hx|[Hx _]]; [discriminate Hx|exact Hx].
    + (* with Any *)
      assert (Hac : accepted c vs args k) by (apply Ea; split; [exact I|reflexivity]).
      assert (Hb : by_any c vs args k) by (apply Ey; exists l; reflexivity).
      assert (Hnn : ~ nearly c vs args k) by (rewrite En; intros [Hx|[_ Hx]]; discriminate Hx).
      assert (Hnp : forall j, j < S k -> ~ plain c vs args j).
      { apply (below_S _ k Lp). rewrite Ep. intros Hx; discriminate Hx. }
      assert (Har : match first_arbitrary_length_not_handled _ _ s with
        | Some i => i < S k /\ least (accepted c vs args) i
        | None => forall j, j < S k -> accepted c vs args j -> by_any c vs args j
        end).
      { destruct (first_arbitrary_length_not_handled _ _ s) as [i|].
        - destruct Lr as [Hi Lr]. split; [lia|exact Lr].
        - apply (below_S (fun j => accepted c vs args j -> by_any c vs args j) k Lr). intros _; exact Hb. }
      destruct (multi_any_match _ _ s) as [[[i w] old]|] eqn:Emul.
      * destruct La as [Hi [Hw [Hl [Hf Hc]]]].
        destruct (are_any_arguments_ambiguous_in_overload _ type_eqb old l && _) eqn:Eamb.
        -- apply ambiguous_iff in Eamb. split; [exact Lp|]. exists i. refine (conj Hi (conj Hf _)). apply (Ec i w old Hw Hl). split; [exact Hac|exact Eamb].
        -- constructor; [exact Hnp| |exact Har|exact (Hnot Hnn)|exact He].
           rewrite Emul. refine (conj _ (conj Hw (conj Hl (conj Hf _)))); [lia|].
           intros j Hij Hj. destruct (Nat.eq_dec j k) as [->|Hne]; [|apply Hc; lia].
           rewrite (Ec i w old Hw Hl). intros [_ Hx]. apply ambiguous_iff in Hx. rewrite Hx in Eamb. discriminate Eamb.
      * constructor; cbn; [exact Hnp| |exact Har|exact (Hnot Hnn)|exact He].
        refine (conj _ (conj Hk (conj _ (conj _ _)))); [lia|rewrite Em; reflexivity|split; [exact Hb|exact La]|]. intros j Hj Hj'; lia.
    + assert (Hac : accepted c vs args k) by (apply Ea; split; [exact I|reflexivity]).
      assert (Hnn : ~ nearly c vs args k) by (rewrite En; intros [Hx|[_ Hx]]; discriminate Hx).
      destruct (multi_any_match _ _ s) as [[[i w] old]|] eqn:Emul.
      * destruct La as [Hi [Hw [Hl [Hf Hc]]]]. split; [exact Lp|]. exists i. refine (conj Hi (conj Hf _)). apply (Ec i w old Hw Hl). split; [exact Hac|exact I].
      * assert (Hnb : ~ by_any c vs args k) by (rewrite Ey; intros [l Hx]; discriminate Hx).
        destruct h; cbn [negb].
        -- split; [exact Lp|]. refine (conj eq_refl (conj _ La)). apply Ep; reflexivity.
        -- constructor; cbn; [| | |exact (Hnot Hnn)|exact He].
           ++ apply (below_S _ k Lp). rewrite Ep. intros Hx; discriminate Hx.
           ++ exact (below_S _ k La Hnb).
           ++ destruct (first_arbitrary_length_not_handled _ _ s) as [i|]; cbn [or_first].
              ** destruct Lr as [Hi Lr]. split; [lia|exact Lr].
              ** split; [lia|]. split; [exact Hac|]. intros j Hj Hx. exact (La j Hj (Lr j Hj Hx)).
Qed.

Lemma rounds_spec : forall c args vs todo done s, vs = done ++ todo -> looked_at c vs args (length done) s ->
  match rounds c args (length done) todo s with
  | inl r => exists k, k < length vs /\ decides c vs args k r
  | inr s => looked_at c vs args (length vs) s
  end.
Proof.
  intros c args vs todo; induction todo as [|v todo IH]; intros done s E L; cbn [OverloadModel.rounds].
  - rewrite app_nil_r in E. subst vs. exact L.
  - assert (Hk : nth_error vs (length done) = Some v) by (subst vs; rewrite nth_error_app2, Nat.sub_diag; [reflexivity|lia]).
    pose proof (round_spec c vs args (length done) v s Hk L) as H.
    destruct (round c args (length done) v s) as [r|s'].
    + exists (length done). split; [|exact H]. apply nth_error_Some. rewrite Hk. discriminate.
    + specialize (IH (done ++ [v]) s'). rewrite app_length in IH. cbn [length] in IH. rewrite Nat.add_1_r in IH. apply IH; [|exact H].
      subst vs. rewrite <- app_assoc. reflexivity.
Qed.

Lemma rounds_all : forall c args vs,
  match rounds c args 0 vs (mk_search _ _ None None None None) with
  | inl r => exists k, k < length vs /\ decides c vs args k r
  | inr s => looked_at c vs args (length vs) s
  end.
Proof.
  intros c args vs. apply (rounds_spec c args vs vs []); [reflexivity|]. constructor; cbn; intros; lia.
Qed.

End Proofs.
