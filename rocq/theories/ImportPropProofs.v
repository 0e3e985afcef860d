From Coq Require Import List Bool String Arith Lia.
From Verif Require Import ImportModel ImportSpec ImportProofs.
Import ListNotations.
Open Scope string_scope.
Open Scope list_scope.

(** ** The order of precedence *)

Definition as_spec (r : option result) : option (list string + list (list string) + list string) :=
  match r with
  | Some (RFile f) => Some (inl (inl f))
  | Some (RNamespace ns) => Some (inl (inr ns))
  | Some (RUntyped f) => Some (inr f)
  | None => None
  end.

Section Precedence.
  Variables (t : item) (follow : bool) (name : string) (stubs : bool).
  Notation FS := (kind_at t).

  Lemma not_file : forall k, is_file k = false -> k <> Some KFile.
  Proof. intros k H E. subst k. discriminate. Qed.

  Lemma no_package : forall d, is_file (FS (stub_init name d)) = false -> is_file (FS (source_init name d)) = false ->
    forall g, ~ package FS name d g.
  Proof. intros d A B g [[-> H]|[-> [H _]]]; rewrite H in *; discriminate. Qed.

  Lemma stub_source_file : forall d, stub_file name d <> source_file name d.
  Proof. intros d E. apply app_inv_head in E. injection E as E. apply append_inj in E. discriminate. Qed.
  Lemma stub_source_init : forall d, stub_init name d <> source_init name d.
  Proof. intros d E. apply app_inv_head in E. discriminate. Qed.

  Definition adjust (x : list string * bool) : list string * bool := (fst x, snd x && negb follow).

  (** What [one] means. *)
  Lemma one_spec : forall x,
    match one t follow name stubs x with
    | Found (RFile f) _ =>
        regular FS stubs name (fst x) f /\ (snd (adjust x) = false \/ package FS name (fst x) f /\ has_marker FS name (fst x))
    | Found (RUntyped f) _ =>
        regular FS stubs name (fst x) f /\ snd (adjust x) = true /\ ~ (package FS name (fst x) f /\ has_marker FS name (fst x))
    | Found (RNamespace _) _ => False
    | Go _ => forall g, ~ regular FS stubs name (fst x) g
    end.
  Proof.
    intros [d needs]. unfold one, adjust, fs. cbn [fst snd]. set (u := needs && negb follow).
    assert (MK : forall f, package FS name d f -> forall g,
      match (if u && match FS (d ++ [name; "py.typed"]) with None => true | _ => false end then RUntyped f else RFile f) with
      | RFile f => regular FS stubs name d f /\ (u = false \/ package FS name d f /\ has_marker FS name d)
      | RUntyped f => regular FS stubs name d f /\ u = true /\ ~ (package FS name d f /\ has_marker FS name d)
      | RNamespace _ => g
      end).
    { intros f P g. unfold has_marker. destruct u; cbn.
      - destruct (FS (d ++ [name; "py.typed"])) as [k|].
        + split; [left; exact P|]. right. split; [exact P|discriminate].
        + split; [left; exact P|]. split; [reflexivity|]. intros [_ H]. congruence.
      - split; [left; exact P|]. left. reflexivity. }
    assert (MF : forall f regs g, module_file FS stubs name d f -> (forall g, ~ package FS name d g) ->
      match Found (if u then RUntyped f else RFile f) regs with
      | Found (RFile f) _ => regular FS stubs name d f /\ (u = false \/ package FS name d f /\ has_marker FS name d)
      | Found (RUntyped f) _ => regular FS stubs name d f /\ u = true /\ ~ (package FS name d f /\ has_marker FS name d)
      | Found (RNamespace _) _ => False
      | Go _ => g
      end).
    { intros f regs g M P. destruct u; cbn.
      - split; [right; split; assumption|]. split; [reflexivity|]. intros [A _]. exact (P _ A).
      - split; [right; split; assumption|]. left. reflexivity. }
    destruct (is_file (FS (stub_init name d))) eqn:E1.
    { apply is_file_iff in E1. cbn beta iota. apply (MK (stub_init name d)) with (g := False). left. split; [reflexivity|exact E1]. }
    destruct (is_file (FS (source_init name d))) eqn:E2.
    { apply is_file_iff in E2. cbn beta iota. apply (MK (source_init name d)) with (g := False). right. split; [reflexivity|]. split; [exact E2|].
      apply not_file. exact E1. }
    assert (NP := no_package d E1 E2). apply not_file in E1, E2.
    destruct (stubs && is_file (FS (stub_file name d))) eqn:E3.
    { apply andb_prop in E3. destruct E3 as [S E3]. apply is_file_iff in E3. apply (MF _ [] True); [|exact NP].
      left. repeat split; assumption. }
    destruct (is_file (FS (source_file name d))) eqn:E4.
    { apply is_file_iff in E4. apply (MF _ [] True); [|exact NP]. right. split; [reflexivity|]. split; [exact E4|].
      intros [S H]. rewrite S, H in E3. discriminate. }
    intros g [P|[[[S [-> H]]|[-> [H _]]] _]]; [exact (NP _ P)| |].
    - rewrite S, H in E3. discriminate.
    - rewrite H in E4. discriminate.
  Qed.

  Lemma resolve_ns : forall dirs before ns regs,
    (forall x, In x before -> forall g, ~ regular FS stubs name (fst x) g) ->
    ns = map (fun x => fst x ++ [name]) (filter (fun x => is_dir (FS (fst x ++ [name]))) before) ->
    resolves FS stubs name (map adjust (before ++ dirs)) (as_spec (fst (resolve t follow name stubs dirs ns regs))).
  Proof.
    induction dirs as [|x r IH]; intros before ns regs B N.
    - cbn. rewrite app_nil_r.
      assert (B' : forall y, In y (map adjust before) -> forall g, ~ regular FS stubs name (fst y) g).
      { intros y Hy. apply in_map_iff in Hy. destruct Hy as [z [<- Hz]]. exact (B z Hz). }
      destruct ns as [|n0 ns].
      + cbn. apply resolves_nothing; [exact B'|]. intros y Hy E. apply in_map_iff in Hy. destruct Hy as [z [<- Hz]]. cbn in E.
        assert (In (fst z ++ [name]) []); [|contradiction].
        rewrite N. apply in_map_iff. exists z. split; [reflexivity|]. apply filter_In. split; [exact Hz|].
        apply is_dir_iff. exact E.
      + cbn. apply resolves_namespace; [exact B'|discriminate|].
        exists (fun x => is_dir (FS (fst x ++ [name]))). split.
        * rewrite N. clear. induction before as [|y r IH]; [reflexivity|]. cbn.
          destruct (is_dir (FS (fst y ++ [name]))); cbn; [f_equal|]; exact IH.
        * intros y _. apply is_dir_iff.
    - cbn [resolve]. assert (O := one_spec x). destruct (one t follow name stubs x) as [res g|g] eqn:E.
      + assert (Sp : map adjust (before ++ x :: r) = map adjust before ++ (fst x, snd (adjust x)) :: map adjust r).
        { rewrite map_app. reflexivity. }
        assert (B' : forall y, In y (map adjust before) -> forall g, ~ regular FS stubs name (fst y) g).
        { intros y Hy. apply in_map_iff in Hy. destruct Hy as [z [<- Hz]]. exact (B z Hz). }
        destruct res as [f|l|f]; cbn [as_spec fst].
        * destruct O as [R T]. eapply resolves_file; eassumption.
        * contradiction.
        * destruct O as [R [T M]]. rewrite T in Sp. eapply resolves_untyped; eassumption.
      + replace (before ++ x :: r) with ((before ++ [x]) ++ r) by (rewrite <- app_assoc; reflexivity). apply IH.
        * intros y Hy. apply in_app_or in Hy. destruct Hy as [Hy|[<-|[]]]; [exact (B y Hy)|exact O].
        * rewrite filter_app, map_app, N. f_equal. cbn. unfold fs. destruct (is_dir (FS (fst x ++ [name]))); reflexivity.
  Qed.
End Precedence.

Lemma package_det : forall FS name d f g, package FS name d f -> package FS name d g -> f = g.
Proof. intros FS name d f g [[-> A]|[-> [A A']]] [[-> B]|[-> [B B']]]; congruence. Qed.
Lemma module_file_det : forall FS stubs name d f g, module_file FS stubs name d f -> module_file FS stubs name d g -> f = g.
Proof.
  intros FS stubs name d f g [[S [-> A]]|[-> [A A']]] [[S' [-> B]]|[-> [B B']]]; try reflexivity; exfalso.
  - apply B'. split; assumption.
  - apply A'. split; assumption.
Qed.
Lemma regular_det : forall FS stubs name d f g, regular FS stubs name d f -> regular FS stubs name d g -> f = g.
Proof.
  intros FS stubs name d f g [A|[A A']] [B|[B B']].
  - exact (package_det _ _ _ _ _ A B).
  - exfalso. exact (B' _ A).
  - exfalso. exact (A' _ B).
  - exact (module_file_det _ _ _ _ _ _ A B).
Qed.

Lemma first_split : forall (A : Type) (P : A -> Prop) a x b a' x' b', a ++ x :: b = a' ++ x' :: b' ->
  (forall y, In y a -> ~ P y) -> (forall y, In y a' -> ~ P y) -> P x -> P x' -> x = x'.
Proof.
  intros A P. induction a as [|y a IH]; intros x b a' x' b' E Ha Ha' X X'; destruct a' as [|y' a']; cbn in E; injection E as E1 E2.
  - exact E1.
  - subst. exfalso. apply (Ha' y'); [left; reflexivity|exact X].
  - subst. exfalso. apply (Ha x'); [left; reflexivity|exact X'].
  - apply (IH x b a' x' b' E2); try assumption; intros z Hz; [apply Ha|apply Ha']; right; exact Hz.
Qed.

(** The specification determines the result. *)
Lemma resolves_det : forall FS stubs name dirs r r', resolves FS stubs name dirs r -> resolves FS stubs name dirs r' -> r = r'.
Proof.
  intros FS stubs name dirs r r' H H'.
  assert (K : forall before d needs after f before' d' needs' after' f',
    dirs = before ++ (d, needs) :: after -> dirs = before' ++ (d', needs') :: after' ->
    (forall x, In x before -> forall g, ~ regular FS stubs name (fst x) g) ->
    (forall x, In x before' -> forall g, ~ regular FS stubs name (fst x) g) ->
    regular FS stubs name d f -> regular FS stubs name d' f' -> d = d' /\ needs = needs' /\ f = f').
  { intros before d needs after f before' d' needs' after' f' D D' B B' R R'.
    assert (E : (d, needs) = (d', needs')).
    { apply (first_split _ (fun x => exists g, regular FS stubs name (fst x) g) before (d, needs) after before' (d', needs') after').
      - congruence.
      - intros y Hy [g G]. exact (B y Hy g G).
      - intros y Hy [g G]. exact (B' y Hy g G).
      - exists f. exact R.
      - exists f'. exact R'. }
    injection E as -> ->. repeat split. exact (regular_det _ _ _ _ _ _ R R'). }
  assert (Q : forall before d needs after f, dirs = before ++ (d, needs) :: after -> regular FS stubs name d f ->
    (forall x, In x dirs -> forall g, ~ regular FS stubs name (fst x) g) -> False).
  { intros before d needs after f D R N. apply (N (d, needs)) with (g := f); [|exact R]. rewrite D. apply in_elt. }
  inversion H as [b d n a f D B R T|b d a f D B R T|ns B N P|B N]; subst r;
    inversion H' as [b' d' n' a' f' D' B' R' T'|b' d' a' f' D' B' R' T'|ns' B' N' P'|B' N']; subst r';
    try (exfalso; eapply Q; eassumption).
  - destruct (K _ _ _ _ _ _ _ _ _ _ D D' B B' R R') as [_ [_ ->]]. reflexivity.
  - destruct (K _ _ _ _ _ _ _ _ _ _ D D' B B' R R') as [-> [-> ->]]. exfalso. destruct T as [T|T]; [discriminate|exact (T' T)].
  - destruct (K _ _ _ _ _ _ _ _ _ _ D D' B B' R R') as [-> [<- ->]]. exfalso. destruct T' as [T'|T']; [discriminate|exact (T T')].
  - destruct (K _ _ _ _ _ _ _ _ _ _ D D' B B' R R') as [_ [_ ->]]. reflexivity.
  - destruct P as [k [E K1]]. destruct P' as [k' [E' K2]]. do 3 f_equal. subst ns ns'. f_equal.
    apply filter_ext_in. intros x Hx. specialize (K1 x Hx). specialize (K2 x Hx).
    destruct (k x), (k' x); try reflexivity; exfalso; [assert (false = true); [|discriminate]..]; tauto.
  - exfalso. destruct P as [k [-> K1]]. apply N. destruct (filter k dirs) as [|x l] eqn:F; [reflexivity|].
    assert (Hx : In x (filter k dirs)) by (rewrite F; left; reflexivity). apply filter_In in Hx. destruct Hx as [Hx Kx].
    exfalso. apply (N' x Hx). apply K1; assumption.
  - exfalso. destruct P' as [k [-> K1]]. apply N'. destruct (filter k dirs) as [|x l] eqn:F; [reflexivity|].
    assert (Hx : In x (filter k dirs)) by (rewrite F; left; reflexivity). apply filter_In in Hx. destruct Hx as [Hx Kx].
    exfalso. apply (N x Hx). apply K1; assumption.
  - reflexivity.
Qed.
