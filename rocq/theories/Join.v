From Coq Require Import List NArith Bool Lia PeanoNat.
From Verif Require Import TupleModel TupleSpec SubtypeModel SubtypeSpec SubtypeProofs SubtypeSound JoinModel JoinSpec.
Import ListNotations.
Open Scope N_scope.

(** ** Loops *)
Lemma first_found : forall {A} (f : A -> attempt) l t, first_of f l = Some (Some t) -> exists x, In x l /\ f x = Some (Some t).
Proof.
  intros A f l. induction l as [|x l IH]; intros t H; cbn in H; [discriminate H|]. destruct (f x) as [[s|]|] eqn:E.
  - injection H as <-. exists x. split; [left; reflexivity|exact E].
  - destruct (IH t H) as (y & Hy & Ey). exists y. split; [right; exact Hy|exact Ey].
  - discriminate H.
Qed.

Lemma or_try_found : forall a b t, or_try a b = Some (Some t) -> a = Some (Some t) \/ a = Some None /\ b = Some (Some t).
Proof. intros [[s|]|] b t H; cbn in H; [left; exact H|right; split; [reflexivity|exact H]|discriminate H]. Qed.

Lemma collected : forall {A} (f : A -> attempt) l ts, collect f l = Some (Some ts) -> Forall2 (fun x t => f x = Some (Some t)) l ts.
Proof.
  intros A f l. induction l as [|x l IH]; intros ts H; cbn in H; [injection H as <-; constructor|].
  destruct (f x) as [[t|]|] eqn:E; [|discriminate H|discriminate H]. destruct (collect f l) as [[us|]|] eqn:C; [|discriminate H|discriminate H].
  injection H as <-. constructor; [exact E|apply IH; reflexivity].
Qed.

Lemma and_then_found : forall {A} (a : option (option A)) f t, and_then a f = Some (Some t) -> exists x, a = Some (Some x) /\ t = f x.
Proof. intros A [[x|]|] f t H; cbn in H; [|discriminate H|discriminate H]. injection H as <-. exists x. auto. Qed.

Lemma always_found : forall a t, always a = Some (Some t) -> a = Some t.
Proof. intros [s|] t H; cbn in H; [injection H as ->; reflexivity|discriminate H]. Qed.

Section Types.
Variable p : program.
Notation good := (good p).

Lemma good_typable : forall t, tame p None t -> typable p None t.
Proof.
  apply (type_induction (fun t => tame p None t -> typable p None t)); cbn; auto. intros ts IH H. apply Forall_of_map in H. apply map_of_Forall.
  exact (Forall_mp _ _ _ IH H).
Qed.

Lemma tame_substitute : forall gs k, Forall (tame p None) gs -> forall t, tame p (Some k) t -> tame p None (substitute gs t).
Proof.
  intros gs k Hg. assert (L : forall ts, Forall (fun t => tame p (Some k) t -> tame p None (substitute gs t)) ts -> Forall (fun s => s) (map (tame p (Some k)) ts) ->
    Forall (fun s => s) (map (tame p None) (map (substitute gs) ts))).
  { intros ts IH H. apply Forall_of_map in H. apply map_of_Forall. apply Forall_map. exact (Forall_mp _ _ _ IH H). }
  apply (type_induction (fun t => tame p (Some k) t -> tame p None (substitute gs t))); cbn; auto.
  - intros c ts IH [Hn H]. split; [exact Hn|apply L; assumption].
  - intros n _. destruct (nth_in_or_default (N.to_nat n) gs Any) as [Hi| ->]; [|exact Logic.I]. rewrite Forall_forall in Hg. exact (Hg _ Hi).
Qed.

Lemma good_substitute : forall gs t, Forall (good None) gs -> good (Some (length gs)) t -> good None (substitute gs t).
Proof.
  intros gs t Hg [Hf Ht]. assert (G1 : Forall (fine p None) gs) by (eapply Forall_impl; [|exact Hg]; intros x [Hx _]; exact Hx).
  assert (G2 : Forall (tame p None) gs) by (eapply Forall_impl; [|exact Hg]; intros x [_ Hx]; exact Hx).
  split; [exact (fine_substitute p gs t G1 Hf)|exact (tame_substitute gs _ G2 t Ht)].
Qed.

Lemma forall_good : forall k ts, Forall (fun s => s) (map (fine p k) ts) -> Forall (fun s => s) (map (tame p k) ts) -> Forall (good k) ts.
Proof. intros k ts H1 H2. apply Forall_of_map in H1, H2. rewrite Forall_forall in *. intros t Ht. split; auto. Qed.

Lemma good_forall : forall k ts, Forall (good k) ts -> Forall (fun s => s) (map (fine p k) ts) /\ Forall (fun s => s) (map (tame p k) ts).
Proof. intros k ts H. split; apply map_of_Forall; (eapply Forall_impl; [|exact H]); intros t [H1 H2]; assumption. Qed.

Lemma good_class : forall c gs, good None (Class c gs) <-> length gs = length (variances p c) /\ nameable p c /\ Forall (good None) gs.
Proof.
  intros c gs. split.
  - intros [(L & I1 & I2 & I3 & I4 & I5 & G) T]. split; [exact L|]. split; [repeat split; assumption|]. exact (forall_good None gs G T).
  - intros (L & (I1 & I2 & I3 & I4 & I5) & G). destruct (good_forall None gs G) as [G1 G2]. split; [|exact G2]. repeat split; assumption.
Qed.

Lemma good_fixed : forall ts, good None (Tuple (FixedLen ts)) <-> Forall (good None) ts.
Proof. intros ts. split; [intros [H1 H2]; exact (forall_good None ts H1 H2)|intros H; exact (good_forall None ts H)]. Qed.

Lemma good_arbitrary : forall t, good None (Tuple (ArbitraryLen t)) <-> good None t.
Proof. intros t. split; intros H; exact H. Qed.

Lemma good_type : forall t, good None (TypeOf t) <-> good None t.
Proof. intros t. split; [intros [[_ H1] H2]; split; assumption|]. intros [H1 H2]. split; [split; [exact (good_typable t H2)|exact H1]|exact H2]. Qed.

Lemma good_members : forall ts, good None (Union ts) -> Forall (good None) ts.
Proof. intros ts [(_ & _ & _ & H1) H2]. exact (forall_good None ts H1 H2). Qed.

Lemma good_union : forall ts, ts <> [] -> distinct_bools ts -> Forall (good None) ts -> good None (Union ts).
Proof. intros ts N B H. destruct (good_forall None ts H) as [H1 H2]. split; [|exact H2]. split; [exact N|]. split; [exact B|]. split; [intros E; destruct (E eq_refl)|exact H1]. Qed.

Lemma never_good : good None Never.
Proof. split; exact Logic.I. Qed.
End Types.

(** ** Unions *)
Section Unions.
Variable p : program.
Variable equal : type -> type -> bool.
Hypothesis equal_iff : forall t s, equal t s = true <-> t = s.
Notation good := (good p).
Notation bools ts := (filter (fun t => match t with Literal (LBool _) => true | _ => false end) ts).

Lemma push_in : forall ts t s, In s (push equal ts t) <-> In s ts \/ s = t.
Proof.
  intros ts t s. unfold push. destruct (existsb (fun s => equal s t) ts) eqn:E.
  - split; [left; assumption|]. intros [H|H]; [exact H|]. subst s. apply existsb_exists in E as (x & Hx & Ex). apply equal_iff in Ex. subst x. exact Hx.
  - rewrite in_app_iff. cbn. split; [intros [H|[H|[]]]; auto|intros [H|H]; auto].
Qed.

Lemma push_bools : forall ts t, distinct_bools ts -> distinct_bools (push equal ts t).
Proof.
  intros ts t H. unfold push. destruct (existsb (fun s => equal s t) ts) eqn:E; [exact H|]. unfold distinct_bools in *. rewrite filter_app, app_length. cbn [filter length].
  assert (No : ~ In t ts).
  { intros Hi. assert (X : existsb (fun s => equal s t) ts = true) by (apply existsb_exists; exists t; split; [exact Hi|apply equal_iff; reflexivity]). rewrite X in E. discriminate E. }
  destruct t as [| | |c gs|c gs|l| |a|us|us|e|e m|n|n|t]; try (cbn; intros L; assert (L' : (2 <= length (bools ts))%nat) by (cbn in L; lia); destruct (H L') as [A B]; split; apply in_or_app; left; assumption).
  destruct l as [n s|b|s|s]; try (cbn; intros L; assert (L' : (2 <= length (bools ts))%nat) by (cbn in L; lia); destruct (H L') as [A B]; split; apply in_or_app; left; assumption).
  cbn. intros L. destruct (bools ts) as [|x r] eqn:F; [cbn in L; lia|]. assert (Hx : In x (bools ts)) by (rewrite F; left; reflexivity). apply filter_In in Hx as [Hx Bx].
  destruct x as [| | |c gs|c gs|l| |a|us|us|e|e m|n|n|t']; try discriminate Bx. destruct l as [n s|b'|s|s]; try discriminate Bx.
  assert (D : b <> b') by (intros ->; exact (No Hx)). destruct b, b'; try (destruct (D eq_refl)); split; apply in_or_app; ((left; exact Hx) || (right; left; reflexivity)).
Qed.

Lemma push_good : forall ts t, good None (Union ts) -> good None t -> good None (Union (push equal ts t)).
Proof.
  intros ts t H Ht. assert (B := H). destruct B as [(N & B & _) _]. apply good_union.
  - intros E. assert (I1 : In t (push equal ts t)) by (apply push_in; right; reflexivity). rewrite E in I1. destruct I1.
  - exact (push_bools ts t B).
  - assert (G := good_members p ts H). rewrite Forall_forall in *. intros s Hs. apply push_in in Hs as [Hs| ->]; [exact (G s Hs)|exact Ht].
Qed.

Lemma pushes_in : forall vs us s, In s (fold_left (push equal) vs us) <-> In s us \/ In s vs.
Proof.
  intros vs. induction vs as [|v vs IH]; intros us s; cbn; [split; [auto|intros [H|[]]; exact H]|]. rewrite IH, push_in. split.
  - intros [[H|H]|H]; auto.
  - intros [H|[H|H]]; auto.
Qed.

Lemma pushes_good : forall vs us, good None (Union us) -> Forall (good None) vs -> good None (Union (fold_left (push equal) vs us)).
Proof. intros vs. induction vs as [|v vs IH]; intros us H F; cbn; [exact H|]. inversion F as [|x l Hx Hl]; subst. exact (IH _ (push_good us v H Hx) Hl). Qed.

Lemma two_good : forall t1 t2, t1 <> t2 -> good None t1 -> good None t2 -> good None (Union [t1; t2]).
Proof.
  intros t1 t2 D H1 H2. assert (E : push equal [t1] t2 = [t1; t2]).
  { unfold push. cbn. destruct (equal t1 t2) eqn:E; [apply equal_iff in E; destruct (D E)|reflexivity]. }
  rewrite <- E. apply good_union; [rewrite E; discriminate| |rewrite E; constructor; [exact H1|constructor; [exact H2|constructor]]].
  apply push_bools. unfold distinct_bools. cbn. destruct t1 as [| | |c gs|c gs|l| |a|us|us|e|e m|n|n|t]; cbn; try lia. destruct l; cbn; lia.
Qed.

Lemma union_good : forall t1 t2, good None t1 -> good None t2 -> good None (union equal t1 t2).
Proof.
  intros t1 t2 H1 H2. unfold union.
  assert (D : t1 <> Never -> (forall us, t1 <> Union us) -> good None (match t2 with Union vs => Union (push equal vs t1) | _ => if equal t1 t2 || is_never t2 then t1 else Union [t1; t2] end)).
  { intros _ _. destruct (equal t1 t2) eqn:E; cbn [orb].
    - destruct t2; try exact H1. exact (push_good _ _ H2 H1).
    - assert (Ne : t1 <> t2) by (intros X; apply equal_iff in X; rewrite X in E; discriminate E). destruct t2; cbn [is_never]; try exact (two_good _ _ Ne H1 H2); [exact H1|exact (push_good _ _ H2 H1)]. }
  destruct t1; try (apply D; [discriminate|intros us; discriminate]); [exact H2|].
  destruct t2; try exact (push_good _ _ H1 H2); [exact H1|]. exact (pushes_good _ _ H1 (good_members p _ H2)).
Qed.

Lemma union_has : forall {V} (w : world V) env t1 t2 v, has w env (union equal t1 t2) v <-> has w env t1 v \/ has w env t2 v.
Proof.
  intros V w env t1 t2 v. unfold union.
  assert (P : forall us t, has w env (Union (push equal us t)) v <-> has w env (Union us) v \/ has w env t v).
  { intros us t. rewrite !has_union. split.
    - intros (s & Hs & Hv). apply push_in in Hs as [Hs| ->]; [left; exists s; auto|right; exact Hv].
    - intros [(s & Hs & Hv)|Hv]; [exists s|exists t]; (split; [apply push_in; auto|exact Hv]). }
  assert (D : has w env (match t2 with Union vs => Union (push equal vs t1) | _ => if equal t1 t2 || is_never t2 then t1 else Union [t1; t2] end) v <-> has w env t1 v \/ has w env t2 v).
  { assert (O : has w env (if equal t1 t2 || is_never t2 then t1 else Union [t1; t2]) v <-> has w env t1 v \/ has w env t2 v).
    { destruct (equal t1 t2) eqn:E; cbn [orb].
      - apply equal_iff in E. subst t2. tauto.
      - destruct (is_never t2) eqn:En; [destruct t2; try discriminate En; cbn; tauto|]. rewrite has_union. split.
        + intros (s & [<-|[<-|[]]] & Hv); auto.
        + intros [Hv|Hv]; [exists t1|exists t2]; (split; [cbn; auto|exact Hv]). }
    destruct t2; try exact O. rewrite P. tauto. }
  destruct t1; try exact D; [cbn; tauto|].
  destruct t2; try apply P; [cbn; tauto|]. rewrite !has_union. split.
  - intros (s & Hs & Hv). apply pushes_in in Hs as [Hs|Hs]; [left|right]; exists s; auto.
  - intros [(s & Hs & Hv)|(s & Hs & Hv)]; exists s; (split; [apply pushes_in; auto|exact Hv]).
Qed.
End Unions.

(** ** Values *)
Section Values.
Context {V : Type}.
Variables (p : program) (w : world V) (env : N -> V -> Prop).
Hypothesis Hp : proper p.
Hypothesis Hw : lawful p w env.
Hypothesis Hs : settled p.
Variable equal : type -> type -> bool.
Hypothesis equal_iff : forall t s, equal t s = true <-> t = s.
Variable su : type -> type -> type.
Hypothesis Hu : unites p w env su.
Notation has := (has w env).
Notation good := (good p None).
Notation contains := (contains w env).

Lemma object_good : good (Class (object p) []).
Proof. apply good_class. destruct (proper_object _ Hp) as [L _]. rewrite L. split; [reflexivity|]. split; [apply (settled_classes _ Hs); left; reflexivity|constructor]. Qed.

Lemma object_contains : forall t, contains (Class (object p) []) t.
Proof. intros t v _. exact (law_object _ _ _ Hw v). Qed.

Lemma mro_good : forall t e, good t -> In e (mro p t) -> good e.
Proof.
  intros t e H [<-|Ht]; [exact H|]. apply in_app_or in Ht. destruct Ht as [Ht|[<-|[]]]; [|exact object_good].
  assert (G : forall c gs, nameable p c -> length gs = length (variances p c) -> Forall good gs -> In e (map (substitute gs) (bases p c)) -> good e).
  { intros c gs N L F Hin. apply in_map_iff in Hin as (b & <- & Hb). apply good_substitute; [exact F|]. rewrite L. exact (settled_bases _ Hs c b N Hb). }
  unfold behind in Ht. destruct t as [| | |c gs|c gs|l| |a|us|us|x|x m|n|n|t]; try (destruct Ht; fail).
  - apply good_class in H as (L & N & F). exact (G c gs N L F Ht).
  - destruct H as [(L & _ & F) [N T]]. exact (G c gs N L (forall_good p None gs F T) Ht).
  - assert (Nl : nameable p (fallback p l)) by (apply (settled_classes _ Hs); destruct l; cbn; auto 10). destruct Ht as [<-|Ht]; [apply good_class; rewrite (literal_variances p Hp); split; [reflexivity|split; [exact Nl|constructor]]|].
    apply (G (fallback p l) []); [apply (settled_classes _ Hs); destruct l; cbn; auto 10|symmetry; rewrite (literal_variances p Hp); reflexivity|constructor|exact Ht].
  - apply (G (tuple_class p) [entries p a]); [apply (settled_classes _ Hs); cbn; auto 10|symmetry; exact (proper_tuple _ Hp)| |exact Ht].
    constructor; [exact (settled_entries _ Hs a H)|constructor].
  - apply (G (enum_class p x) []); [exact (settled_enums _ Hs x)|rewrite (proper_enums _ Hp); reflexivity|constructor|exact Ht].
  - apply (G (enum_class p x) []); [exact (settled_enums _ Hs x)|rewrite (proper_enums _ Hp); reflexivity|constructor|exact Ht].
Qed.

Lemma mro_contains : forall t e, good t -> In e (mro p t) -> contains e t.
Proof. intros t e H Hin. exact (mro_within p w env Hp Hw t e (fine_is_value p None t (proj1 H)) Hin). Qed.

Lemma sub_contains : forall fuel t1 t2, simple_sub_type p fuel t1 t2 = Some true -> good t1 -> good t2 -> contains t2 t1.
Proof.
  intros fuel t1 t2 H H1 H2. unfold simple_sub_type in H. destruct (run p fuel (Matches Contravariant false t1 t2)) as [m|] eqn:E; [|discriminate H]. cbn in H. injection H as H.
  apply holds_yes in H. subst m. exact (run_sound p w env Hp Hw fuel _ E (fine_is_value p None t1 (proj1 H1)) (proj1 H2)).
Qed.

Lemma same_contains : forall fuel t1 t2, simple_same_type p fuel t1 t2 = Some true -> good t1 -> good t2 -> forall v, has t2 v <-> has t1 v.
Proof.
  intros fuel t1 t2 H H1 H2. unfold simple_same_type in H. destruct (run p fuel (Matches Invariant false t1 t2)) as [m|] eqn:E; [|discriminate H]. cbn in H. injection H as H.
  apply holds_yes in H. subst m. exact (proj1 (run_sound p w env Hp Hw fuel _ E) (proj1 H1) (proj1 H2)).
Qed.

(** ** Meets *)
Definition below (m t1 t2 : type) : Prop := contains t1 m /\ contains t2 m.

Definition meets (f : type -> type -> attempt) : Prop := forall t1 t2 m, f t1 t2 = Some (Some m) -> good t1 -> good t2 -> good m /\ below m t1 t2.

Section MeetStep.
Variables (meet : type -> type -> attempt) (sub : type -> type -> option bool).
Hypothesis IH : meets meet.
Hypothesis Hsub : forall t1 t2, sub t1 t2 = Some true -> good t1 -> good t2 -> contains t2 t1.

Lemma members_below : forall ts other result m, meet_members equal meet ts other result = Some (Some m) -> good other -> Forall good ts ->
  match result with Some r => good r | None => True end ->
  good m /\ forall v, has m v -> match result with Some r => has r v | None => False end \/ (exists t, In t ts /\ has t v) /\ has other v.
Proof.
  intros ts other. induction ts as [|t ts IHts]; intros result m E Ho Ht Hr; cbn in E.
  - injection E as ->. split; [exact Hr|]. intros v Hv. left. exact Hv.
  - inversion Ht as [|x l Hx Hl]; subst. destruct (meet t other) as [[found|]|] eqn:M; [| |discriminate E].
    + destruct (IH t other found M Hx Ho) as [Gf [B1 B2]].
      destruct (IHts _ m E Ho Hl) as [Gm Hm]; [destruct result as [r|]; [exact (union_good p equal equal_iff r found Hr Gf)|exact Gf]|].
      split; [exact Gm|]. intros v Hv. destruct (Hm v Hv) as [H|[(s & Hin & H) H']]; [|right; split; [exists s; split; [right; exact Hin|exact H]|exact H']].
      assert (F : has found v -> (exists t0, In t0 (t :: ts) /\ has t0 v) /\ has other v) by (intros F; split; [exists t; split; [left; reflexivity|exact (B1 v F)]|exact (B2 v F)]).
      destruct result as [r|]; [|right; exact (F H)]. apply (union_has equal equal_iff) in H as [H|H]; [left; exact H|right; exact (F H)].
    + destruct (IHts result m E Ho Hl Hr) as [Gm Hm]. split; [exact Gm|]. intros v Hv. destruct (Hm v Hv) as [H|[(s & Hin & H) H']]; [left; exact H|]. right. split; [|exact H']. exists s. split; [right; exact Hin|exact H].
Qed.

Lemma meet_pairs : forall ts us ms, length ts = length us -> Forall2 (fun x t => meet_pair meet x = Some (Some t)) (combine ts us) ms -> Forall good ts -> Forall good us ->
  Forall good ms /\ Forall2 contains ts ms /\ Forall2 contains us ms.
Proof.
  intros ts. induction ts as [|t ts IHts]; intros [|u us] ms L F G1 G2; cbn in *; try lia; [inversion F; subst; repeat constructor|].
  inversion F as [|x y l l' Hx Hl]; subst. inversion G1 as [|? ? Gt Gts]; inversion G2 as [|? ? Gu Gus]; subst. destruct (IH t u y Hx Gt Gu) as [Gy [B1 B2]].
  destruct (IHts us l' ltac:(lia) Hl Gts Gus) as (A & B & C). split; [constructor; assumption|]. split; constructor; assumption.
Qed.

Lemma meet_each : forall ts u ms, Forall2 (fun s t => meet s u = Some (Some t)) ts ms -> Forall good ts -> good u ->
  Forall good ms /\ Forall2 contains ts ms /\ Forall (contains u) ms.
Proof.
  intros ts u ms F. induction F as [|s t ts ms Hst F IHF]; intros G1 G2; [repeat constructor|]. inversion G1 as [|? ? Gs Gts]; subst. destruct (IH s u t Hst Gs G2) as [Gt [B1 B2]].
  destruct (IHF Gts G2) as (A & B & C). split; [constructor; assumption|]. split; constructor; assumption.
Qed.

Lemma contains_sets : forall ts ms, Forall2 contains ts ms -> Forall2 within (map has ms) (map has ts).
Proof. intros ts ms F. induction F; cbn; constructor; assumption. Qed.

Lemma contains_all : forall t ms vs, Forall (contains t) ms -> Forall2 (fun (s : V -> Prop) x => s x) (map has ms) vs -> Forall (has t) vs.
Proof. intros t ms. induction ms as [|m ms IHm]; intros vs F H; cbn in H; inversion H; subst; constructor; inversion F; subst; auto. Qed.

Lemma items_has : forall ts xs, Forall2 (fun (s : V -> Prop) x => s x) (map has ts) xs <-> Forall2 has ts xs.
Proof. intros ts xs. split; revert xs; induction ts as [|t ts IHt]; intros xs H; inversion H; subst; constructor; auto. Qed.

Lemma contains_items : forall ts ms xs, Forall2 contains ts ms -> Forall2 has ms xs -> Forall2 has ts xs.
Proof. intros ts ms xs F. revert xs. induction F as [|t m ts ms Hm F IHF]; intros xs H; inversion H; subst; constructor; auto. Qed.

Lemma unpack_iff : forall b t a v, has (Tuple (WithUnpack (mk_unpack b (Many t) a))) v <->
  exists x y z, tuple_value w v (x ++ y ++ z) /\ Forall2 has b x /\ Forall (has t) y /\ Forall2 has a z.
Proof.
  intros b t a v. cbn. unfold tuple_of. cbn. split.
  - intros (vs & Hv & x & y & z & -> & Hx & Hy & Hz). exists x, y, z. apply items_has in Hx, Hz. auto.
  - intros (x & y & z & Hv & Hx & Hy & Hz). exists (x ++ y ++ z). split; [exact Hv|]. exists x, y, z. rewrite !items_has. auto.
Qed.

Lemma fixed_iff : forall ts v, has (Tuple (FixedLen ts)) v <-> exists xs, tuple_value w v xs /\ Forall2 has ts xs.
Proof. intros ts v. cbn. unfold tuple_of. cbn. split; intros (xs & Hv & Hx); exists xs; rewrite ?items_has in *; auto. Qed.

Lemma arbitrary_iff : forall t v, has (Tuple (ArbitraryLen t)) v <-> exists xs, tuple_value w v xs /\ Forall (has t) xs.
Proof. intros t v. cbn. unfold tuple_of. cbn. tauto. Qed.

Lemma Forall2_app_split : forall {A B} (R : A -> B -> Prop) l l' m, Forall2 R (l ++ l') m -> exists m1 m2, m = m1 ++ m2 /\ Forall2 R l m1 /\ Forall2 R l' m2.
Proof. intros A B R l l' m H. apply Forall2_app_inv_l in H as (m1 & m2 & H1 & H2 & ->). exists m1, m2. auto. Qed.

Lemma repeat_all : forall t n xs, Forall2 has (repeat t n) xs -> Forall (has t) xs.
Proof. intros t n. induction n as [|n IHn]; intros xs H; cbn in H; inversion H; subst; constructor; auto. Qed.

Lemma args_below : forall a1 a2 m, meet_args equal meet a1 a2 = Some (Some m) -> loose p a1 -> loose p a2 -> below m (Tuple a1) (Tuple a2).
Proof.
  assert (FA : forall ts t m, and_then (collect (fun s => meet s t) ts) (fun ts => Tuple (FixedLen ts)) = Some (Some m) -> Forall good ts -> good t ->
    contains (Tuple (FixedLen ts)) m /\ contains (Tuple (ArbitraryLen t)) m).
  { intros ts t m E G1 G2. apply and_then_found in E as (ms & E & ->). apply collected in E. destruct (meet_each ts t ms E G1 G2) as (_ & B1 & B2). split; intros v Hv; apply fixed_iff in Hv as (xs & Hv & Hx).
    - apply fixed_iff. exists xs. split; [exact Hv|]. exact (contains_items ts ms xs B1 Hx).
    - apply arbitrary_iff. exists xs. split; [exact Hv|]. apply (contains_all t ms xs B2). apply items_has. exact Hx. }
  assert (FW : forall ts wu m, (if Nat.ltb (length ts) (length (before wu) + length (after wu)) then Some None
      else match middle wu with
           | TypeVarTuple _ => Some None
           | Many t => and_then (collect (meet_pair meet) (combine ts (before wu ++ repeat t (length ts - (length (before wu) + length (after wu))) ++ after wu))) (fun ts => Tuple (FixedLen ts))
           end) = Some (Some m) -> Forall good ts -> loose p (WithUnpack wu) -> contains (Tuple (FixedLen ts)) m /\ contains (Tuple (WithUnpack wu)) m).
  { intros ts [b mid a] m E G (Gb & Ga & Gm). cbn [before middle after] in E. destruct (Nat.ltb_spec (length ts) (length b + length a)) as [_|L]; [discriminate E|].
    destruct mid as [n|t]; [discriminate E|]. apply and_then_found in E as (ms & E & ->). apply collected in E.
    destruct (meet_pairs ts (b ++ repeat t (length ts - (length b + length a)) ++ a) ms) as (_ & B1 & B2).
    - rewrite !app_length, repeat_length. lia.
    - exact E.
    - exact G.
    - rewrite !Forall_app. split; [exact Gb|]. split; [|exact Ga]. apply Forall_forall. intros x Hx. apply repeat_spec in Hx. subst x. exact Gm.
    - split; intros v Hv; apply fixed_iff in Hv as (xs & Hv & Hx).
      + apply fixed_iff. exists xs. split; [exact Hv|exact (contains_items _ _ _ B1 Hx)].
      + assert (Hy := contains_items _ _ _ B2 Hx). apply Forall2_app_split in Hy as (x & r & -> & Hb & Hr). apply Forall2_app_split in Hr as (y & z & -> & Hm & Ha).
        apply unpack_iff. exists x, y, z. split; [exact Hv|]. split; [exact Hb|]. split; [exact (repeat_all t _ y Hm)|exact Ha]. }
  assert (WA : forall wu t m, match collect (fun s => meet s t) (before wu), middle wu with
      | Some (Some b), TypeVarTuple _ => Some None
      | Some (Some b), Many s =>
          match meet s t with
          | Some (Some m) => and_then (collect (fun s => meet s t) (after wu)) (fun a => Tuple (WithUnpack (mk_unpack b (Many m) a)))
          | Some None => Some None
          | None => None
          end
      | Some None, _ => Some None
      | None, _ => None
      end = Some (Some m) -> loose p (WithUnpack wu) -> good t -> contains (Tuple (WithUnpack wu)) m /\ contains (Tuple (ArbitraryLen t)) m).
  { intros [b mid a] t m E (Gb & Ga & Gm) G. cbn [before middle after] in E. destruct (collect (fun s => meet s t) b) as [[bs|]|] eqn:Eb; [|discriminate E|discriminate E].
    destruct mid as [n|s]; [discriminate E|]. destruct (meet s t) as [[mm|]|] eqn:Em; [|discriminate E|discriminate E]. apply and_then_found in E as (as_ & Ea & ->).
    apply collected in Eb, Ea. destruct (meet_each b t bs Eb Gb G) as (_ & B1 & B2). destruct (meet_each a t as_ Ea Ga G) as (_ & A1 & A2). destruct (IH s t mm Em Gm G) as [_ [M1 M2]].
    split; intros v Hv; apply unpack_iff in Hv as (x & y & z & Hv & Hx & Hy & Hz).
    - apply unpack_iff. exists x, y, z. split; [exact Hv|]. split; [exact (contains_items _ _ _ B1 Hx)|]. split; [exact (Forall_impl _ M1 Hy)|exact (contains_items _ _ _ A1 Hz)].
    - apply arbitrary_iff. exists (x ++ y ++ z). split; [exact Hv|]. rewrite !Forall_app. split; [apply (contains_all t bs x B2); apply items_has; exact Hx|].
      split; [exact (Forall_impl _ M2 Hy)|]. apply (contains_all t as_ z A2). apply items_has. exact Hz. }
  intros [ts1|t1|w1] [ts2|t2|w2] m E G1 G2; cbn [meet_args] in E; unfold below.
  - destruct (Nat.eqb_spec (length ts1) (length ts2)) as [L|_]; cbn [negb] in E; [|discriminate E]. apply and_then_found in E as (ms & E & ->). apply collected in E.
    destruct (meet_pairs ts1 ts2 ms L E G1 G2) as (_ & B1 & B2). split; intros v Hv; apply fixed_iff in Hv as (xs & Hv & Hx); apply fixed_iff; exists xs; (split; [exact Hv|]); [exact (contains_items _ _ _ B1 Hx)|exact (contains_items _ _ _ B2 Hx)].
  - exact (FA ts1 t2 m E G1 G2).
  - exact (FW ts1 w2 m E G1 G2).
  - destruct (FA ts2 t1 m E G2 G1) as [A B]. split; assumption.
  - apply and_then_found in E as (mm & E & ->). destruct (IH t1 t2 mm E G1 G2) as [_ [B1 B2]]. split; intros v Hv; apply arbitrary_iff in Hv as (xs & Hv & Hx); apply arbitrary_iff; exists xs; (split; [exact Hv|]); [exact (Forall_impl _ B1 Hx)|exact (Forall_impl _ B2 Hx)].
  - destruct (WA w2 t1 m E G2 G1) as [A B]. split; assumption.
  - destruct (FW ts2 w1 m E G2 G1) as [A B]. split; assumption.
  - exact (WA w1 t2 m E G1 G2).
  - destruct (equal (Tuple (WithUnpack w1)) (Tuple (WithUnpack w2))) eqn:Eq; [|discriminate E]. injection E as <-. apply equal_iff in Eq. rewrite <- Eq. split; intros v Hv; exact Hv.
Qed.

Lemma args_good : forall a1 a2 m, meet_args equal meet a1 a2 = Some (Some m) -> good (Tuple a1) -> good (Tuple a2) -> good m.
Proof.
  intros [ts1|t1|w1] [ts2|t2|w2] m E G1 G2; cbn [meet_args] in E; try (destruct G1 as [_ []]; fail); try (destruct G2 as [_ []]; fail); rewrite ?good_fixed, ?good_arbitrary in *.
  - destruct (Nat.eqb_spec (length ts1) (length ts2)) as [L|_]; cbn [negb] in E; [|discriminate E]. apply and_then_found in E as (ms & E & ->). apply collected in E. apply good_fixed. exact (proj1 (meet_pairs ts1 ts2 ms L E G1 G2)).
  - apply and_then_found in E as (ms & E & ->). apply collected in E. apply good_fixed. exact (proj1 (meet_each ts1 t2 ms E G1 G2)).
  - apply and_then_found in E as (ms & E & ->). apply collected in E. apply good_fixed. exact (proj1 (meet_each ts2 t1 ms E G2 G1)).
  - apply and_then_found in E as (mm & E & ->). apply good_arbitrary. exact (proj1 (IH t1 t2 mm E G1 G2)).
Qed.

Lemma good_loose : forall a, good (Tuple a) -> loose p a.
Proof. intros [ts|t|wu] H; [apply good_fixed; exact H|exact H|destruct H as [_ []]]. Qed.

Lemma meet_step_meets : meets (meet_step equal meet sub).
Proof.
  intros t1 t2 m E G1 G2.
  assert (U1 : forall ts t, meet_members equal meet ts t None = Some (Some m) -> good (Union ts) -> good t -> good m /\ contains (Union ts) m /\ contains t m).
  { intros ts t H Gu Gt. destruct (members_below ts t None m H Gt (good_members p ts Gu) Logic.I) as [Gm Hm]. split; [exact Gm|].
    split; intros v Hv; destruct (Hm v Hv) as [[]|[Hx Hy]]; [|exact Hy]. apply has_union. exact Hx. }
  assert (Sm : match sub t1 t2 with
      | Some true => Some (Some t1)
      | Some false => match sub t2 t1 with Some true => Some (Some t2) | Some false => Some None | None => None end
      | None => None end = Some (Some m) -> good m /\ below m t1 t2).
  { intros H. destruct (sub t1 t2) as [[|]|] eqn:S1; [| |discriminate H].
    - injection H as <-. split; [exact G1|]. split; [intros v Hv; exact Hv|exact (Hsub t1 t2 S1 G1 G2)].
    - destruct (sub t2 t1) as [[|]|] eqn:S2; [|discriminate H|discriminate H]. injection H as <-. split; [exact G2|]. split; [exact (Hsub t2 t1 S2 G2 G1)|intros v Hv; exact Hv]. }
  assert (An : ~ good Any) by (intros [[] _]).
  unfold meet_step in E.
  destruct t1 as [| | |c gs|c gs|l| |a|us|us|x|x n'|n|n|s1]; try (destruct (An G1)); try exact (U1 us t2 E G1 G2);
    (destruct t2 as [| | |c2 gs2|c2 gs2|l2| |a2|us2|us2|x2|x2 m2|n2|n2|s2]; try (destruct (An G2)); try exact (Sm E);
     try (match type of E with meet_members _ _ ?ts ?t None = _ => destruct (U1 ts t E G2 G1) as (Ga & Gb & Gc); exact (conj Ga (conj Gc Gb)) end)).
  - split; [exact (args_good a a2 m E G1 G2)|exact (args_below a a2 m E (good_loose a G1) (good_loose a2 G2))].
  - apply and_then_found in E as (new & E & ->). apply (proj1 (good_type p _)) in G1, G2. destruct (IH s1 s2 new E G1 G2) as [Gn [B1 B2]].
    assert (X : good (TypeOf new) /\ below (TypeOf new) (TypeOf s1) (TypeOf s2)).
    { split; [apply good_type; exact Gn|]. split; intros v (y & Hy & Hn); exists y; (split; [exact Hy|]); [exact (B1 y Hn)|exact (B2 y Hn)]. }
    destruct (equal new s1) eqn:E1; [apply equal_iff in E1; subst new; exact X|]. destruct (equal new s2) eqn:E2; [apply equal_iff in E2; subst new; exact X|exact X].
Qed.
End MeetStep.

Theorem common_sub_type_meets : forall fuel, meets (common_sub_type p equal fuel).
Proof.
  intros fuel. induction fuel as [|fuel IH]; [intros t1 t2 m E; discriminate E|]. cbn [common_sub_type]. apply meet_step_meets; [exact IH|].
  intros t1 t2 H G1 G2. exact (sub_contains fuel t1 t2 H G1 G2).
Qed.

(** ** Joins *)
Definition above (t t1 t2 : type) : Prop := contains t t1 /\ contains t t2.
Definition joins (f : type -> type -> option type) : Prop := forall t1 t2 t, f t1 t2 = Some t -> good t1 -> good t2 -> good t /\ above t t1 t2.

Section JoinStep.
Variables (join : type -> type -> option type) (meet : type -> type -> attempt) (same : type -> type -> option bool) (promote : N -> N -> attempt).
Hypothesis IH : joins join.
Hypothesis Hm : meets meet.
Hypothesis Hsame : forall t1 t2, same t1 t2 = Some true -> good t1 -> good t2 -> forall v, has t2 v <-> has t1 v.
Hypothesis Hpromote : forall c d t s, promote c d = Some (Some t) -> good t /\ (forall v, instance w c s v -> has t v) /\ t = Class d [].

Lemma simplified_above : forall t1 t2, good t1 -> good t2 -> good (su t1 t2) /\ above (su t1 t2) t1 t2.
Proof. intros t1 t2 G1 G2. split; [exact (unites_good _ _ _ _ Hu t1 t2 G1 G2)|]. exact (unites_both _ _ _ _ Hu t1 t2 (or_introl G1) (or_introl G2)). Qed.

Lemma argument_related : forall t1 t2 v t, join_argument join meet same (t1, t2, v) = Some (Some t) -> good t1 -> good t2 ->
  good t /\ related v (has t1) (has t) /\ related v (has t2) (has t).
Proof.
  intros t1 t2 v t E G1 G2. destruct v; cbn in E.
  - destruct (same t1 t2) as [[|]|] eqn:S1; cbn in E; [|discriminate E|discriminate E]. injection E as <-. split; [exact G1|]. split; [intros x; reflexivity|]. exact (Hsame t1 t2 S1 G1 G2).
  - apply always_found in E. destruct (IH t1 t2 t E G1 G2) as [G [A B]]. split; [exact G|]. split; assumption.
  - destruct (Hm t1 t2 t E G1 G2) as [G [A B]]. split; [exact G|]. split; assumption.
Qed.

Lemma arguments_related : forall vs gs1 gs2 ts, length gs1 = length vs -> length gs2 = length vs ->
  Forall2 (fun x t => join_argument join meet same x = Some (Some t)) (zip3 gs1 gs2 vs) ts -> Forall good gs1 -> Forall good gs2 ->
  length ts = length vs /\ Forall good ts /\
  (forall i u t, nth_error vs i = Some u -> nth_error ts i = Some t -> forall t1, nth_error gs1 i = Some t1 -> related u (has t1) (has t)) /\
  (forall i u t, nth_error vs i = Some u -> nth_error ts i = Some t -> forall t2, nth_error gs2 i = Some t2 -> related u (has t2) (has t)).
Proof.
  intros vs. induction vs as [|v vs IHv]; intros [|g1 gs1] [|g2 gs2] ts L1 L2 F G1 G2; cbn in *; try lia.
  - inversion F; subst. split; [reflexivity|]. split; [constructor|]. split; intros [|i] u t H; discriminate H.
  - inversion F as [|x t l ts' Hx Hl]; subst. inversion G1 as [|? ? Ga Gas]; inversion G2 as [|? ? Gb Gbs]; subst. destruct (argument_related g1 g2 v t Hx Ga Gb) as (Gt & R1 & R2).
    destruct (IHv gs1 gs2 ts' ltac:(lia) ltac:(lia) Hl Gas Gbs) as (L & Gts & A & B). split; [cbn; lia|]. split; [constructor; assumption|].
    split; intros [|i] u s Hu' Ht t' Ht'; cbn in *.
    + injection Hu' as <-. injection Ht as <-. injection Ht' as <-. exact R1.
    + exact (A i u s Hu' Ht t' Ht').
    + injection Hu' as <-. injection Ht as <-. injection Ht' as <-. exact R2.
    + exact (B i u s Hu' Ht t' Ht').
Qed.

Lemma class_above : forall c gs ts, length gs = length (variances p c) -> length ts = length (variances p c) ->
  (forall i u t, nth_error (variances p c) i = Some u -> nth_error ts i = Some t -> forall t1, nth_error gs i = Some t1 -> related u (has t1) (has t)) ->
  contains (Class c ts) (Class c gs).
Proof.
  intros c gs ts L1 L2 H v Hv. refine (law_arguments _ _ _ Hw c (map has gs) (map has ts) v _ _ _ Hv); [rewrite map_length; exact L1|rewrite map_length; exact L2|].
  intros i u a b Hi Ha Hb. apply nth_map_inv in Ha as (g & Hg & <-). apply nth_map_inv in Hb as (t & Ht & <-). exact (H i u t Hi Ht g Hg).
Qed.

Lemma basic_above : forall c1 gs1 c2 gs2 t, common_base_class_basic p join meet same c1 gs1 c2 gs2 = Some (Some t) -> good (Class c1 gs1) -> good (Class c2 gs2) ->
  good t /\ above t (Class c1 gs1) (Class c2 gs2).
Proof.
  intros c1 gs1 c2 gs2 t E G1 G2. unfold common_base_class_basic in E. destruct (N.eqb_spec c1 c2) as [<-|_]; cbn [negb] in E; [|discriminate E].
  destruct (variances p c1) as [|v vs] eqn:Ev.
  - injection E as <-. split; [exact G1|]. apply good_class in G1 as (L1 & _), G2 as (L2 & _). rewrite Ev in L1, L2. destruct gs1; [|discriminate L1]. destruct gs2; [|discriminate L2]. split; intros x Hx; exact Hx.
  - rewrite <- Ev in E. apply and_then_found in E as (ts & E & ->). apply collected in E. assert (G1' := G1). apply good_class in G1 as (L1 & N1 & F1). apply good_class in G2 as (L2 & _ & F2).
    destruct (arguments_related (variances p c1) gs1 gs2 ts L1 L2 E F1 F2) as (L & Gt & A & B). split; [apply good_class; split; [exact L|]; split; [exact N1|exact Gt]|].
    split; [exact (class_above c1 gs1 ts L1 L A)|exact (class_above c1 gs2 ts L2 L B)].
Qed.

Lemma class_join_above : forall c1 gs1 c2 gs2 t, common_base_class p join meet same promote c1 gs1 c2 gs2 = Some (Some t) -> good (Class c1 gs1) -> good (Class c2 gs2) ->
  good t /\ above t (Class c1 gs1) (Class c2 gs2).
Proof.
  intros c1 gs1 c2 gs2 t E G1 G2. unfold common_base_class in E. apply or_try_found in E as [E|[_ E]]; [apply or_try_found in E as [E|[_ E]]|].
  - exact (basic_above c1 gs1 c2 gs2 t E G1 G2).
  - destruct (Hpromote c1 c2 t (map has gs1) E) as (G & A & ->). split; [exact G|]. split; [intros v Hv; exact (A v Hv)|].
    destruct (proj1 (good_class p c2 []) G) as (L & _). destruct (proj1 (good_class p c2 gs2) G2) as (L2 & _). cbn in L. rewrite <- L in L2. destruct gs2; [|discriminate L2]. intros v Hv. exact Hv.
  - destruct (Hpromote c2 c1 t (map has gs2) E) as (G & A & ->). split; [exact G|]. split; [|intros v Hv; exact (A v Hv)].
    destruct (proj1 (good_class p c1 []) G) as (L & _). destruct (proj1 (good_class p c1 gs1) G1) as (L1 & _). cbn in L. rewrite <- L in L1. destruct gs1; [|discriminate L1]. intros v Hv. exact Hv.
Qed.

Lemma from_above : forall ts t r, join_from join t ts = Some r -> good t -> Forall good ts -> good r /\ contains r t /\ Forall (contains r) ts.
Proof.
  intros ts. induction ts as [|s ts IHts]; intros t r E G F; cbn in E; [injection E as <-; split; [exact G|]; split; [intros v Hv; exact Hv|constructor]|].
  inversion F as [|? ? Gs Gts]; subst. destruct (join t s) as [q|] eqn:J; [|discriminate E]. destruct (IH t s q J G Gs) as [Gq [A B]]. destruct (IHts q r E Gq Gts) as (Gr & C & D).
  split; [exact Gr|]. split; [intros v Hv; exact (C v (A v Hv))|]. constructor; [intros v Hv; exact (C v (B v Hv))|exact D].
Qed.

Lemma all_above : forall ts r, join_all join ts = Some r -> Forall good ts -> good r /\ Forall (contains r) ts.
Proof.
  intros [|t ts] r E F; cbn in E; [injection E as <-; split; [apply never_good|constructor]|]. inversion F as [|? ? G Gs]; subst.
  destruct (from_above ts t r E G Gs) as (Gr & A & B). split; [exact Gr|constructor; assumption].
Qed.

Lemma pairs_above : forall ts us rs, join_pairs join ts us = Some rs -> length ts = length us -> Forall good ts -> Forall good us ->
  Forall good rs /\ Forall2 contains rs ts /\ Forall2 contains rs us.
Proof.
  intros ts. induction ts as [|t ts IHts]; intros [|u us] rs E L F1 F2; cbn in *; try lia; [injection E as <-; repeat constructor|].
  inversion F1 as [|? ? Gt Gts]; inversion F2 as [|? ? Gu Gus]; subst. destruct (join t u) as [r|] eqn:J; [|discriminate E]. destruct (join_pairs join ts us) as [rs'|] eqn:Js; [|discriminate E]. injection E as <-.
  destruct (IH t u r J Gt Gu) as [Gr [A B]]. destruct (IHts us rs' Js ltac:(lia) Gts Gus) as (C & D & F). split; [constructor; assumption|]. split; constructor; assumption.
Qed.

Lemma contains_fixed : forall rs ts, Forall2 contains rs ts -> contains (Tuple (FixedLen rs)) (Tuple (FixedLen ts)).
Proof. intros rs ts F v Hv. apply fixed_iff in Hv as (xs & Hv & Hx). apply fixed_iff. exists xs. split; [exact Hv|exact (contains_items rs ts xs F Hx)]. Qed.

Lemma contains_arbitrary : forall r ts, Forall (contains r) ts -> contains (Tuple (ArbitraryLen r)) (Tuple (FixedLen ts)).
Proof. intros r ts F v Hv. apply fixed_iff in Hv as (xs & Hv & Hx). apply arbitrary_iff. exists xs. split; [exact Hv|]. apply (contains_all r ts xs F). apply items_has. exact Hx. Qed.

Lemma contains_both : forall r t, contains r t -> contains (Tuple (ArbitraryLen r)) (Tuple (ArbitraryLen t)).
Proof. intros r t F v Hv. apply arbitrary_iff in Hv as (xs & Hv & Hx). apply arbitrary_iff. exists xs. split; [exact Hv|exact (Forall_impl _ F Hx)]. Qed.

Lemma contains_entries : forall r a, contains r (entries p a) -> contains (Tuple (ArbitraryLen r)) (Tuple a).
Proof.
  intros r a F v Hv. destruct (has_tuple w env a v Hv) as [xs Hx]. apply arbitrary_iff. exists xs. split; [exact Hx|]. exact (Forall_impl _ F (law_entries _ _ _ Hw a v xs Hv Hx)).
Qed.

Lemma union_pairs_above : forall ts us, length ts = length us -> Forall good ts -> Forall good us ->
  Forall2 contains (union_pairs su ts us) ts /\ Forall2 contains (union_pairs su ts us) us.
Proof.
  intros ts. induction ts as [|t ts IHts]; intros [|u us] L F1 F2; cbn in *; try lia; [split; constructor|]. inversion F1 as [|? ? Gt Gts]; inversion F2 as [|? ? Gu Gus]; subst.
  destruct (simplified_above t u Gt Gu) as [_ [A B]]. destruct (IHts us ltac:(lia) Gts Gus) as [C D]. split; constructor; assumption.
Qed.

Definition middle_has (u : @unpack type) (xs : list V) : Prop := match u with Many t => Forall (has t) xs | TypeVarTuple n => stands_for w n xs end.

Lemma unpacked_iff : forall b u a v, has (Tuple (WithUnpack (mk_unpack b u a))) v <->
  exists x y z, tuple_value w v (x ++ y ++ z) /\ Forall2 has b x /\ middle_has u y /\ Forall2 has a z.
Proof.
  intros b [n|t] a v; [|apply unpack_iff]. cbn. unfold tuple_of. cbn. split.
  - intros (vs & Hv & x & y & z & -> & Hx & Hy & Hz). exists x, y, z. apply items_has in Hx, Hz. auto.
  - intros (x & y & z & Hv & Hx & Hy & Hz). exists (x ++ y ++ z). split; [exact Hv|]. exists x, y, z. rewrite !items_has. auto.
Qed.

Lemma unpack_above : forall u1 u2, match u1 with Many t => good t | TypeVarTuple _ => True end -> match u2 with Many t => good t | TypeVarTuple _ => True end ->
  forall xs, middle_has u1 xs \/ middle_has u2 xs -> middle_has (join_unpack p su u1 u2) xs.
Proof.
  intros u1 u2 G1 G2 xs.
  assert (Ob : forall xs, Forall (has (Class (object p) [])) xs) by (intros ys; apply Forall_forall; intros y _; exact (law_object _ _ _ Hw y)).
  assert (An : forall u, is_any_unpack u = true -> middle_has u xs).
  { intros [n|t] E; [discriminate E|]. destruct t; try discriminate E. apply Forall_forall. intros y _. exact Logic.I. }
  assert (Ot : middle_has (if is_any_unpack u1 then u1 else if is_any_unpack u2 then u2 else Many (Class (object p) [])) xs).
  { destruct (is_any_unpack u1) eqn:E1; [exact (An u1 E1)|]. destruct (is_any_unpack u2) eqn:E2; [exact (An u2 E2)|exact (Ob xs)]. }
  unfold join_unpack. destruct u1 as [n|t1], u2 as [m|t2]; intros H; try exact Ot.
  - destruct (N.eqb_spec n m) as [->|_]; [|exact Ot]. destruct H; assumption.
  - destruct (simplified_above t1 t2 G1 G2) as [_ [A B]]. destruct H as [H|H]; [exact (Forall_impl _ A H)|exact (Forall_impl _ B H)].
Qed.

Lemma args_above : forall a1 a2 t, join_args p equal su join a1 a2 = Some t -> loose p a1 -> loose p a2 -> above t (Tuple a1) (Tuple a2).
Proof.
  intros a1 a2 t E L1 L2. unfold join_args in E. destruct (equal (Tuple a1) (Tuple a2)) eqn:Eq.
  { injection E as <-. apply equal_iff in Eq. rewrite <- Eq. split; intros v Hv; exact Hv. }
  assert (An : ~ good Any) by (intros [[] _]).
  assert (A1 : is_any_args a1 = false) by (destruct a1 as [ts|[]|wu]; try reflexivity; destruct (An L1)). assert (A2 : is_any_args a2 = false) by (destruct a2 as [ts|[]|wu]; try reflexivity; destruct (An L2)).
  rewrite A1, A2 in E.
  assert (En : above (Tuple (ArbitraryLen (su (entries p a1) (entries p a2)))) (Tuple a1) (Tuple a2)).
  { destruct (unites_both _ _ _ _ Hu (entries p a1) (entries p a2) (settled_loose _ Hs a1 L1) (settled_loose _ Hs a2 L2)) as [B1 B2]. split; apply contains_entries; assumption. }
  destruct a1 as [ts1|t1|w1], a2 as [ts2|t2|w2]; cbn [option_map] in E; try (injection E as <-; exact En).
  - destruct (Nat.eqb_spec (length ts1) (length ts2)) as [L|_].
    + destruct (join_pairs join ts1 ts2) as [rs|] eqn:J; [|discriminate E]. injection E as <-. destruct (pairs_above ts1 ts2 rs J L L1 L2) as (_ & B1 & B2). split; apply contains_fixed; assumption.
    + destruct (join_all join (ts1 ++ ts2)) as [r|] eqn:J; [|discriminate E]. injection E as <-. destruct (all_above (ts1 ++ ts2) r J) as [_ B]; [apply Forall_app; split; assumption|]. apply Forall_app in B as [B1 B2].
      split; apply contains_arbitrary; assumption.
  - destruct (join_all join (t2 :: ts1)) as [r|] eqn:J; [|discriminate E]. injection E as <-. destruct (all_above (t2 :: ts1) r J) as [_ B]; [constructor; assumption|]. inversion B as [|? ? B1 B2]; subst.
    split; [apply contains_arbitrary; exact B2|apply contains_both; exact B1].
  - destruct (join_all join (t1 :: ts2)) as [r|] eqn:J; [|discriminate E]. injection E as <-. destruct (all_above (t1 :: ts2) r J) as [_ B]; [constructor; assumption|]. inversion B as [|? ? B1 B2]; subst.
    split; [apply contains_both; exact B1|apply contains_arbitrary; exact B2].
  - destruct (join t1 t2) as [r|] eqn:J; [|discriminate E]. injection E as <-. destruct (IH t1 t2 r J L1 L2) as [_ [B1 B2]]. split; apply contains_both; assumption.
  - destruct w1 as [b1 m1 a1], w2 as [b2 m2 a2]. destruct L1 as (Gb1 & Ga1 & Gm1), L2 as (Gb2 & Ga2 & Gm2). cbn [before middle after] in E.
    destruct (Nat.eqb_spec (length b1) (length b2)) as [Lb|_]; cbn [andb] in E; [|injection E as <-; exact En]. destruct (Nat.eqb_spec (length a1) (length a2)) as [La|_]; [|injection E as <-; exact En]. injection E as <-.
    destruct (union_pairs_above b1 b2 Lb Gb1 Gb2) as [B1 B2]. destruct (union_pairs_above a1 a2 La Ga1 Ga2) as [C1 C2].
    split; intros v Hv; apply unpacked_iff in Hv as (x & y & z & Hv & Hx & Hy & Hz); apply unpacked_iff; exists x, y, z; (split; [exact Hv|]).
    + split; [exact (contains_items _ _ _ B1 Hx)|]. split; [exact (unpack_above m1 m2 Gm1 Gm2 y (or_introl Hy))|exact (contains_items _ _ _ C1 Hz)].
    + split; [exact (contains_items _ _ _ B2 Hx)|]. split; [exact (unpack_above m1 m2 Gm1 Gm2 y (or_intror Hy))|exact (contains_items _ _ _ C2 Hz)].
Qed.

Lemma join_args_good : forall a1 a2 t, join_args p equal su join a1 a2 = Some t -> good (Tuple a1) -> good (Tuple a2) -> good t.
Proof.
  intros a1 a2 t E G1 G2. unfold join_args in E. destruct (equal (Tuple a1) (Tuple a2)); [injection E as <-; exact G1|]. destruct (is_any_args a1); [injection E as <-; exact G1|].
  destruct (is_any_args a2); [injection E as <-; exact G2|].
  destruct a1 as [ts1|t1|w1]; [| |destruct G1 as [_ []]]; (destruct a2 as [ts2|t2|w2]; [| |destruct G2 as [_ []]]); rewrite ?good_fixed, ?good_arbitrary in *.
  - destruct (Nat.eqb_spec (length ts1) (length ts2)) as [L|_].
    + destruct (join_pairs join ts1 ts2) as [rs|] eqn:J; [|discriminate E]. injection E as <-. apply good_fixed. exact (proj1 (pairs_above ts1 ts2 rs J L G1 G2)).
    + destruct (join_all join (ts1 ++ ts2)) as [r|] eqn:J; [|discriminate E]. injection E as <-. apply good_arbitrary. refine (proj1 (all_above (ts1 ++ ts2) r J _)). apply Forall_app. split; assumption.
  - destruct (join_all join (t2 :: ts1)) as [r|] eqn:J; [|discriminate E]. injection E as <-. apply good_arbitrary. refine (proj1 (all_above _ r J _)). constructor; assumption.
  - destruct (join_all join (t1 :: ts2)) as [r|] eqn:J; [|discriminate E]. injection E as <-. apply good_arbitrary. refine (proj1 (all_above _ r J _)). constructor; assumption.
  - destruct (join t1 t2) as [r|] eqn:J; [|discriminate E]. injection E as <-. apply good_arbitrary. exact (proj1 (IH t1 t2 r J G1 G2)).
Qed.

Lemma non_class_above : forall t1 t2 t, common_base_type_for_non_class p equal su join same t1 t2 = Some (Some t) -> good t1 -> good t2 -> good t /\ above t t1 t2.
Proof.
  intros t1 t2 t E G1 G2.
  assert (Sm : option_map (fun b : bool => if b then Some t1 else None) (same t1 t2) = Some (Some t) -> good t /\ above t t1 t2).
  { intros H. destruct (same t1 t2) as [[|]|] eqn:S1; cbn in H; [|discriminate H|discriminate H]. injection H as <-. split; [exact G1|]. split; [intros v Hv; exact Hv|]. intros v. apply (Hsame t1 t2 S1 G1 G2). }
  unfold common_base_type_for_non_class in E. destruct t1 as [| | |c gs|c gs|l| |a|us|us|x|x n'|n|n|s1]; try exact (Sm E).
  - destruct t2 as [| | |c2 gs2|c2 gs2|l2| |a2|us2|us2|x2|x2 m2|n2|n2|s2]; try discriminate E. apply always_found in E.
    split; [exact (join_args_good a a2 t E G1 G2)|exact (args_above a a2 t E (good_loose a G1) (good_loose a2 G2))].
  - destruct t2 as [| | |c2 gs2|c2 gs2|l2| |a2|us2|us2|x2|x2 m2|n2|n2|s2]; try discriminate E. apply always_found in E. destruct (join s1 s2) as [r|] eqn:J; [|discriminate E]. injection E as <-.
    apply (proj1 (good_type p _)) in G1, G2. destruct (IH s1 s2 r J G1 G2) as [Gr [A B]]. split; [apply good_type; exact Gr|]. split; intros v (y & Hy & Hn); exists y; (split; [exact Hy|]); [exact (A y Hn)|exact (B y Hn)].
Qed.

Lemma entries_above : forall self other c1 c2 t, join_entries p equal su join meet same promote self other c1 c2 = Some (Some t) -> good c1 -> good c2 -> good t /\ above t c1 c2.
Proof.
  intros self other c1 c2 t E G1 G2. unfold join_entries in E.
  assert (Nc : common_base_type_for_non_class p equal su join same c1 c2 = Some (Some t) -> good t /\ above t c1 c2) by (intros H; exact (non_class_above c1 c2 t H G1 G2)).
  destruct c1 as [| | |d1 gs1|c gs|l| |a|us|us|x|x n'|n|n|s1]; destruct c2 as [| | |d2 gs2|c2 gs2|l2| |a2|us2|us2|x2|x2 m2|n2|n2|s2]; try exact (Nc E); try discriminate E.
  destruct (common_base_class p join meet same promote d1 gs1 d2 gs2) as [[s|]|] eqn:C; [|discriminate E|discriminate E].
  destruct (is_object p (Class d1 gs1) && (is_protocol_type p self || is_protocol_type p other)); [discriminate E|]. injection E as ->. exact (class_join_above d1 gs1 d2 gs2 t C G1 G2).
Qed.

Lemma sides_above : forall self other t1 t2 r t, check_both_sides p su join self other t1 t2 r = Some (Some t) -> good self -> good other ->
  (if r then t1 = other /\ t2 = self else t1 = self /\ t2 = other) -> good t /\ above t self other.
Proof.
  intros self other t1 t2 r t E Gs Go R.
  assert (U : good (su self other) /\ above (su self other) self other) by exact (simplified_above self other Gs Go).
  assert (Ob : is_object p other = true -> good other /\ above other self other).
  { intros H. split; [exact Go|]. split; [|intros v Hv; exact Hv]. destruct other; try discriminate H. cbn in H. apply N.eqb_eq in H. subst c. apply good_class in Go as (L & _). destruct (proper_object _ Hp) as [L0 _]. rewrite L0 in L.
    destruct gs; [|discriminate L]. exact (object_contains self). }
  assert (Gn : good Never -> True) by auto.
  assert (S2 : good t2 /\ (t1 = Never -> above t2 self other)).
  { destruct r; destruct R as [-> ->]; split; try assumption; intros X; subst; (split; intros v Hv); try exact Hv; destruct Hv. }
  destruct t1 as [| | |c gs|c gs|l| |a|us|us|x|x n'|n|n|s1]; cbn in E; try discriminate E.
  - destruct r; destruct R as [R1 R2]; [rewrite <- R1 in Go; destruct Go as [[] _]|rewrite <- R1 in Gs; destruct Gs as [[] _]].
  - destruct (is_object p other) eqn:O; injection E as <-; [exact (Ob eq_refl)|exact U].
  - injection E as <-. destruct S2 as [G2 A]. split; [exact G2|exact (A eq_refl)].
  - destruct r; destruct R as [R1 R2]; [rewrite <- R1 in Go; destruct Go as [[] _]|rewrite <- R1 in Gs; destruct Gs as [[] _]].
  - destruct (is_object p other) eqn:O; injection E as <-; [exact (Ob eq_refl)|exact U].
  - assert (X : su self other = t -> good t /\ above t self other) by (intros <-; exact U).
    destruct t2 as [| | |c2 gs2|c2 gs2|l2| |a2|us2|us2|x2|x2 m2|n2|n2|s2]; try discriminate E; injection E as E; destruct r; destruct R as [<- <-]; exact (X E).
Qed.

Lemma implemented_above : forall t other r, implemented p t other = Some (Some r) -> good t -> good other -> good r /\ contains r t /\ contains r other.
Proof.
  intros t other r E Gt Go. unfold implemented in E. injection E as E. destruct t as [| | |c gs|c gs|l| |a|us|us|x|x n'|n|n|s1]; try discriminate E.
  destruct (is_protocol p c) eqn:P; cbn [andb] in E; [|discriminate E]. destruct (check_protocol p c gs other) as [s q|] eqn:C; cbn [holds] in E; [discriminate E|]. injection E as <-.
  split; [exact Gt|]. split; [intros v Hv; exact Hv|]. intros v Hv. exact (law_protocols _ _ _ Hw c gs other v (proj1 Gt) (fine_is_value p None other (proj1 Go)) P C Hv).
Qed.

Lemma join_step_joins : joins (join_step p equal su join meet same promote).
Proof.
  intros t1 t2 t E G1 G2. unfold join_step in E.
  match type of E with (match ?x with _ => _ end) = _ => destruct x as [[s|]|] eqn:F; [|injection E as <-; split; [exact object_good|split; apply object_contains]|discriminate E] end.
  injection E as <-. apply or_try_found in F as [F|[_ F]]; [exact (sides_above t1 t2 t1 t2 false s F G1 G2 (conj eq_refl eq_refl))|].
  apply or_try_found in F as [F|[_ F]]; [exact (sides_above t1 t2 t2 t1 true s F G1 G2 (conj eq_refl eq_refl))|].
  apply or_try_found in F as [F|[_ F]].
  - apply first_found in F as (c1 & H1 & F). apply first_found in F as (c2 & H2 & F). assert (K1 := mro_good t1 c1 G1 H1). assert (K2 := mro_good t2 c2 G2 H2).
    destruct (entries_above t1 t2 c1 c2 s F K1 K2) as [Gs [A B]]. split; [exact Gs|]. split; intros v Hv; [exact (A v (mro_contains t1 c1 G1 H1 v Hv))|exact (B v (mro_contains t2 c2 G2 H2 v Hv))].
  - apply or_try_found in F as [F|[_ F]].
    + destruct (implemented_above t1 t2 s F G1 G2) as (Gs & A & B). split; [exact Gs|]. split; assumption.
    + destruct (implemented_above t2 t1 s F G2 G1) as (Gs & A & B). split; [exact Gs|]. split; assumption.
Qed.
End JoinStep.

Lemma promoted_sound : forall fuel c d t s, promoted p fuel c d = Some (Some t) -> good t /\ (forall v, instance w c s v -> has t v) /\ t = Class d [].
Proof.
  intros fuel. induction fuel as [|fuel IH]; intros c d t s E; cbn in E; [discriminate E|]. destruct (promote_to p c) as [e|] eqn:P; [|discriminate E].
  assert (Ge : good (Class e [])).
  { assert (F := proper_promotions _ Hp c e P). split; [exact F|constructor]. }
  destruct (N.eqb_spec e d) as [->|_].
  - injection E as <-. split; [exact Ge|]. split; [|reflexivity]. intros v Hv. exact (law_promotions _ _ _ Hw c d s v P Hv).
  - destruct (IH e d t [] E) as (G & A & Et). split; [exact G|]. split; [|exact Et]. intros v Hv. exact (A v (law_promotions _ _ _ Hw c e s v P Hv)).
Qed.

Theorem internal_joins : forall fuel previous, joins (common_base_type_internal p equal su fuel previous).
Proof.
  intros fuel. induction fuel as [|fuel IH]; intros previous t1 t2 t E G1 G2; cbn in E; [discriminate E|].
  destruct (is_cycle equal previous t1 t2); [injection E as <-; split; [exact object_good|split; apply object_contains]|].
  refine (join_step_joins _ _ _ _ _ _ _ _ t1 t2 t E G1 G2).
  - exact (IH _).
  - exact (common_sub_type_meets fuel).
  - intros s1 s2 H K1 K2. exact (same_contains fuel s1 s2 H K1 K2).
  - exact (promoted_sound fuel).
Qed.

Theorem gather_joins : forall use_joins fuel, joins (gather_types p equal su use_joins fuel).
Proof.
  intros [|] fuel t1 t2 t E G1 G2; [exact (internal_joins fuel [] t1 t2 t E G1 G2)|]. injection E as <-. exact (simplified_above t1 t2 G1 G2).
Qed.

Theorem display_above : forall use_joins fuel ts t, display p equal su use_joins fuel ts = Some t -> Forall good ts -> good t /\ Forall (contains t) ts.
Proof. intros use_joins fuel ts t E F. exact (all_above _ (gather_joins use_joins fuel) ts t E F). Qed.

(** ** Exact meets *)
Section Exact.
Hypothesis one_tuple : forall v xs ys, tuple_value w v xs -> tuple_value w v ys -> xs = ys.

Definition keeps (f : type -> type -> attempt) : Prop :=
  forall t1 t2 m, f t1 t2 = Some (Some m) -> plain_parts t1 -> plain_parts t2 -> forall v, has t1 v -> has t2 v -> has m v.

Lemma keeps_pairs : forall meet, keeps meet -> forall ts us ms xs, Forall2 (fun x t => meet_pair meet x = Some (Some t)) (combine ts us) ms ->
  Forall plain_parts ts -> Forall plain_parts us -> Forall2 has ts xs -> Forall2 has us xs -> Forall2 has ms xs.
Proof.
  intros meet K ts. induction ts as [|t ts IHts]; intros us ms xs F P1 P2 H1 H2; inversion H1; subst; inversion H2; subst; cbn in F; inversion F; subst; [constructor|].
  inversion P1; subst. inversion P2; subst. constructor; [eapply K; eassumption|]. eapply IHts; eassumption.
Qed.

Lemma keeps_each : forall meet, keeps meet -> forall ts u ms xs, Forall2 (fun s t => meet s u = Some (Some t)) ts ms ->
  Forall plain_parts ts -> plain_parts u -> Forall2 has ts xs -> Forall (has u) xs -> Forall2 has ms xs.
Proof.
  intros meet K ts u ms xs F. revert xs. induction F as [|s t ts ms Hst F IHF]; intros xs P1 P2 H1 H2; inversion H1; subst; [constructor|]. inversion H2; subst. inversion P1; subst.
  constructor; [eapply K; eassumption|]. apply IHF; assumption.
Qed.

Lemma parts_fixed : forall ts, plain_parts (Tuple (FixedLen ts)) -> Forall plain_parts ts.
Proof. intros ts H. cbn in H. apply Forall_of_map in H. exact H. Qed.

Lemma keeps_step : forall meet sub, keeps meet -> keeps (meet_step equal meet sub).
Proof.
  intros meet sub K t1 t2 m E P1 P2 v H1 H2.
  assert (FA : forall ts t, and_then (collect (fun s => meet s t) ts) (fun ts => Tuple (FixedLen ts)) = Some (Some m) -> Forall plain_parts ts -> plain_parts t ->
    has (Tuple (FixedLen ts)) v -> has (Tuple (ArbitraryLen t)) v -> has m v).
  { intros ts t F Q1 Q2 V1 V2. apply and_then_found in F as (ms & F & ->). apply collected in F. apply fixed_iff in V1 as (xs & Vx & V1). apply arbitrary_iff in V2 as (ys & Vy & V2).
    rewrite <- (one_tuple v xs ys Vx Vy) in V2. apply fixed_iff. exists xs. split; [exact Vx|]. exact (keeps_each meet K ts t ms xs F Q1 Q2 V1 V2). }
  assert (Sm : match sub t1 t2 with
      | Some true => Some (Some t1)
      | Some false => match sub t2 t1 with Some true => Some (Some t2) | Some false => Some None | None => None end
      | None => None end = Some (Some m) -> has m v).
  { intros F. destruct (sub t1 t2) as [[|]|]; [injection F as <-; exact H1| |discriminate F]. destruct (sub t2 t1) as [[|]|]; [injection F as <-; exact H2|discriminate F|discriminate F]. }
  unfold meet_step in E.
  destruct t1 as [| | |c gs|c gs|l| |a|us|us|x|x n'|n|n|s1]; try (destruct P1; fail);
    (destruct t2 as [| | |c2 gs2|c2 gs2|l2| |a2|us2|us2|x2|x2 m2|n2|n2|s2]; try (destruct P2; fail); try exact (Sm E)).
  destruct a as [ts1|t1|w1]; [| |destruct P1]; (destruct a2 as [ts2|t2|w2]; [| |destruct P2]); cbn [meet_args] in E; try apply parts_fixed in P1; try apply parts_fixed in P2.
  - destruct (Nat.eqb_spec (length ts1) (length ts2)) as [L|_]; cbn [negb] in E; [|discriminate E]. apply and_then_found in E as (ms & E & ->). apply collected in E.
    apply fixed_iff in H1 as (xs & Vx & H1), H2 as (ys & Vy & H2). rewrite <- (one_tuple v xs ys Vx Vy) in H2. apply fixed_iff. exists xs. split; [exact Vx|]. exact (keeps_pairs meet K ts1 ts2 ms xs E P1 P2 H1 H2).
  - exact (FA ts1 t2 E P1 P2 H1 H2).
  - exact (FA ts2 t1 E P2 P1 H2 H1).
  - apply and_then_found in E as (mm & E & ->). apply arbitrary_iff in H1 as (xs & Vx & H1), H2 as (ys & Vy & H2). rewrite <- (one_tuple v xs ys Vx Vy) in H2. apply arbitrary_iff. exists xs. split; [exact Vx|].
    change (Forall (has t1) xs) in H1. change (Forall (has t2) xs) in H2. change (Forall (has mm) xs). rewrite Forall_forall in *. intros y Hy. exact (K t1 t2 mm E P1 P2 y (H1 y Hy) (H2 y Hy)).
Qed.

Theorem common_sub_type_keeps : forall fuel, keeps (common_sub_type p equal fuel).
Proof. intros fuel. induction fuel as [|fuel IH]; [intros t1 t2 m E; discriminate E|]. cbn [common_sub_type]. apply keeps_step. exact IH. Qed.
End Exact.
End Values.

(** ** Which type it is *)
Section Which.
Variables (p : program) (equal : type -> type -> bool) (su : type -> type -> type).

Definition plain_class (x : N) : Prop := variances p x = [] /\ promote_to p x = None.

Lemma first_none : forall {A} (f : A -> attempt) l, Forall (fun x => f x = Some None) l -> first_of f l = Some None.
Proof. intros A f l F. induction F as [|x l E F IH]; cbn; [reflexivity|]. rewrite E. exact IH. Qed.

Lemma first_at : forall {A} (f : A -> attempt) l x r t, Forall (fun x => f x = Some None) l -> f x = Some (Some t) -> first_of f (l ++ x :: r) = Some (Some t).
Proof. intros A f l x r t F H. induction F as [|y l E F IH]; cbn; [rewrite H; reflexivity|]. rewrite E. exact IH. Qed.

Lemma one_step : forall n t1 t2, common_base_type p equal su (S n) t1 t2 =
  join_step p equal su (common_base_type_internal p equal su n [(t1, t2)]) (common_sub_type p equal n) (simple_same_type p n) (promoted p n) t1 t2.
Proof. reflexivity. Qed.

Notation instances := (map (fun x => Class x [])).

Lemma plain_mro : forall c cs, bases p c = instances cs -> mro p (Class c []) = instances (c :: cs ++ [object p]).
Proof. intros c cs E. unfold mro, behind. rewrite E, map_map. cbn. rewrite map_app. reflexivity. Qed.

Lemma plain_pair : forall join meet same fuel c1 c2, plain_class c1 -> plain_class c2 ->
  common_base_class p join meet same (promoted p (S fuel)) c1 [] c2 [] = if c1 =? c2 then Some (Some (Class c1 [])) else Some None.
Proof.
  intros join meet same fuel c1 c2 [V1 P1] [V2 P2]. unfold common_base_class, common_base_class_basic. destruct (c1 =? c2) eqn:E; cbn [negb].
  - rewrite V1. reflexivity.
  - cbn [or_try promoted]. rewrite P1, P2. reflexivity.
Qed.

Theorem first_common_within : forall previous fuel c cs d ds l e r, bases p c = instances cs -> bases p d = instances ds -> is_protocol p c = false -> is_protocol p d = false ->
  Forall plain_class (c :: cs ++ [object p]) -> Forall plain_class (d :: ds ++ [object p]) ->
  c :: cs ++ [object p] = l ++ e :: r -> Forall (fun x => ~ In x (d :: ds ++ [object p])) l -> In e (d :: ds ++ [object p]) ->
  is_cycle equal previous (Class c []) (Class d []) = false ->
  common_base_type_internal p equal su (S (S fuel)) previous (Class c []) (Class d []) = Some (Class e []).
Proof.
  intros previous fuel c cs d ds l e r Bc Bd Pc Pd Fc Fd El Hl He Cy.
  change (common_base_type_internal p equal su (S (S fuel)) previous (Class c []) (Class d [])) with
    (if is_cycle equal previous (Class c []) (Class d []) then Some (Class (object p) [])
     else join_step p equal su (common_base_type_internal p equal su (S fuel) ((Class c [], Class d []) :: previous)) (common_sub_type p equal (S fuel)) (simple_same_type p (S fuel)) (promoted p (S fuel)) (Class c []) (Class d [])).
  rewrite Cy. unfold join_step. cbn [check_both_sides or_try]. rewrite (plain_mro c cs Bc), (plain_mro d ds Bd), El, map_app. change (instances (e :: r)) with (Class e [] :: instances r).
  set (join := common_base_type_internal p equal su (S fuel) _). set (meet := common_sub_type p equal (S fuel)). set (same := simple_same_type p (S fuel)).
  rewrite Forall_forall in Fc, Fd. rewrite El in Fc.
  assert (Pe : forall x y, In x (l ++ e :: r) -> In y (d :: ds ++ [object p]) -> join_entries p equal su join meet same (promoted p (S fuel)) (Class c []) (Class d []) (Class x []) (Class y []) = if x =? y then Some (Some (Class x [])) else Some None).
  { intros x y Hx Hy. unfold join_entries, is_protocol_type. rewrite Pc, Pd, andb_false_r, (plain_pair _ _ _ _ _ _ (Fc x Hx) (Fd y Hy)). destruct (x =? y); reflexivity. }
  rewrite (first_at _ (instances l) (Class e []) (instances r) (Class e [])); [reflexivity| |].
  - apply Forall_forall. intros t Ht. apply in_map_iff in Ht as (x & <- & Hx). apply first_none. apply Forall_forall. intros s Hs. apply in_map_iff in Hs as (y & <- & Hy).
    rewrite Pe; [|apply in_or_app; left; exact Hx|exact Hy]. destruct (N.eqb_spec x y) as [->|_]; [|reflexivity]. rewrite Forall_forall in Hl. destruct (Hl y Hx Hy).
  - assert (Ie : In e (l ++ e :: r)) by (apply in_or_app; right; left; reflexivity).
    assert (G : forall m, (forall y, In y m -> In y (d :: ds ++ [object p])) -> In e m -> first_of (join_entries p equal su join meet same (promoted p (S fuel)) (Class c []) (Class d []) (Class e [])) (instances m) = Some (Some (Class e []))).
    { intros m. induction m as [|y m IHm]; intros Hm Hi; [destruct Hi|]. cbn [map first_of]. rewrite (Pe e y Ie (Hm y (or_introl eq_refl))). destruct (N.eqb_spec e y) as [->|Ne]; [reflexivity|].
      apply IHm; [intros z Hz; exact (Hm z (or_intror Hz))|]. destruct Hi as [Hi|Hi]; [destruct (Ne (eq_sym Hi))|exact Hi]. }
    apply G; [intros y Hy; exact Hy|exact He].
Qed.

Theorem first_common : forall fuel c cs d ds l e r, bases p c = instances cs -> bases p d = instances ds -> is_protocol p c = false -> is_protocol p d = false ->
  Forall plain_class (c :: cs ++ [object p]) -> Forall plain_class (d :: ds ++ [object p]) ->
  c :: cs ++ [object p] = l ++ e :: r -> Forall (fun x => ~ In x (d :: ds ++ [object p])) l -> In e (d :: ds ++ [object p]) ->
  common_base_type p equal su (S (S fuel)) (Class c []) (Class d []) = Some (Class e []).
Proof. intros fuel c cs d ds l e r Bc Bd Pc Pd Fc Fd El Hl He. exact (first_common_within [] fuel c cs d ds l e r Bc Bd Pc Pd Fc Fd El Hl He eq_refl). Qed.

Theorem promotion : forall fuel c d, c <> d -> promote_to p c = Some d -> promote_to p d = None -> is_protocol p c = false -> is_protocol p d = false ->
  common_base_type p equal su (S (S fuel)) (Class c []) (Class d []) = Some (Class d []) /\
  common_base_type p equal su (S (S fuel)) (Class d []) (Class c []) = Some (Class d []).
Proof.
  intros fuel c d Ne Pc Pd Qc Qd. rewrite ?one_step. unfold join_step. cbn [check_both_sides or_try]. unfold mro. cbn [first_of]. unfold join_entries, is_protocol_type, common_base_class, common_base_class_basic.
  rewrite Qc, Qd, !andb_false_r. cbn [orb promoted]. rewrite Pc, Pd, N.eqb_refl. destruct (N.eqb_spec c d) as [E|_]; [destruct (Ne E)|]. destruct (N.eqb_spec d c) as [E|_]; [destruct (Ne (eq_sym E))|]. split; reflexivity.
Qed.

(** Instances of the same class *)
Lemma covariant_args : forall join meet same vs gs1 gs2, Forall (eq Covariant) vs -> collect (join_argument join meet same) (zip3 gs1 gs2 vs) = Some None -> False.
Proof.
  intros join meet same vs. induction vs as [|v vs IH]; intros [|g1 gs1] [|g2 gs2] F E; cbn in E; try discriminate E. inversion F; subst. cbn in E. destruct (join g1 g2); cbn in E; [|discriminate E].
  match type of E with match ?x with _ => _ end = _ => destruct x as [[]|] eqn:C end; try discriminate E. exact (IH gs1 gs2 H2 C).
Qed.

Theorem same_class : forall fuel c gs1 gs2 t, Forall (eq Covariant) (variances p c) -> c <> object p -> common_base_type p equal su fuel (Class c gs1) (Class c gs2) = Some t -> exists gs, t = Class c gs.
Proof.
  intros [|fuel] c gs1 gs2 t F Ne E; [discriminate E|]. rewrite one_step in E. unfold join_step in E. cbn [check_both_sides or_try] in E. unfold mro in E. cbn [first_of] in E.
  unfold join_entries at 1 in E. unfold is_object at 1 in E. destruct (N.eqb_spec c (object p)) as [X|_]; [destruct (Ne X)|]. cbn [andb] in E.
  assert (H : forall join meet same promote, match common_base_class p join meet same promote c gs1 c gs2 with Some (Some s) => exists gs, s = Class c gs | Some None => False | None => True end).
  { intros join meet same promote. unfold common_base_class, common_base_class_basic. rewrite N.eqb_refl. cbn [negb]. destruct (variances p c) as [|v vs] eqn:Ev; [exists gs1; reflexivity|]. rewrite <- Ev in *.
    destruct (collect (join_argument join meet same) (zip3 gs1 gs2 (variances p c))) as [[ts|]|] eqn:C; [exists ts; reflexivity|destruct (covariant_args _ _ _ _ _ _ F C)|exact Logic.I]. }
  match type of E with context [common_base_class p ?j ?m ?s ?q c gs1 c gs2] => specialize (H j m s q); destruct (common_base_class p j m s q c gs1 c gs2) as [[s'|]|] end; cbn in E; [|destruct H|discriminate E].
  injection E as <-. exact H.
Qed.

(** Tuples *)
Lemma pairs_length : forall join ts us rs, join_pairs join ts us = Some rs -> length ts = length us -> length rs = length ts.
Proof.
  intros join ts. induction ts as [|t ts IH]; intros [|u us] rs E L; cbn in *; try lia; [injection E as <-; reflexivity|]. destruct (join t u); [|discriminate E]. destruct (join_pairs join ts us) as [rs'|] eqn:J; [|discriminate E].
  injection E as <-. cbn. f_equal. apply (IH us rs' J). lia.
Qed.

Theorem tuples : forall fuel a1 a2 t, common_base_type p equal su fuel (Tuple a1) (Tuple a2) = Some t ->
  exists a, t = Tuple a /\ forall ts1 ts2, a1 = FixedLen ts1 -> a2 = FixedLen ts2 -> length ts1 = length ts2 -> exists ts, a = FixedLen ts /\ length ts = length ts1.
Proof.
  intros [|fuel] a1 a2 t E; [discriminate E|]. rewrite one_step in E. unfold join_step in E. cbn [check_both_sides or_try] in E. unfold mro in E. cbn [first_of] in E.
  unfold join_entries at 1, common_base_type_for_non_class in E.
  match type of E with context [join_args p equal su ?j a1 a2] => set (join := j) in *; destruct (join_args p equal su join a1 a2) as [r|] eqn:J end; cbn in E; [|discriminate E]. injection E as <-.
  unfold join_args in J. destruct (equal (Tuple a1) (Tuple a2)).
  { injection J as <-. exists a1. split; [reflexivity|]. intros ts1 ts2 -> _ _. exists ts1. auto. }
  destruct (is_any_args a1) eqn:A1; [injection J as <-; exists a1; split; [reflexivity|intros ts1 ts2 -> _ _; exists ts1; auto]|].
  destruct (is_any_args a2) eqn:A2; [injection J as <-; exists a2; split; [reflexivity|intros ts1 ts2 _ -> L; exists ts2; auto]|].
  assert (O : forall o : option type, option_map (fun t => Tuple (ArbitraryLen t)) o = Some r -> (forall ts1 ts2, a1 = FixedLen ts1 -> a2 = FixedLen ts2 -> length ts1 <> length ts2) ->
    exists a, r = Tuple a /\ forall ts1 ts2, a1 = FixedLen ts1 -> a2 = FixedLen ts2 -> length ts1 = length ts2 -> exists ts, a = FixedLen ts /\ length ts = length ts1).
  { intros [s|] H N; cbn in H; [|discriminate H]. injection H as <-. exists (ArbitraryLen s). split; [reflexivity|]. intros ts1 ts2 X1 X2 L. destruct (N ts1 ts2 X1 X2 L). }
  destruct a1 as [ts1|t1|w1], a2 as [ts2|t2|w2]; try (apply (O _ J); intros ? ? X1 X2; discriminate X1 || discriminate X2).
  - destruct (Nat.eqb_spec (length ts1) (length ts2)) as [L|L].
    + destruct (join_pairs join ts1 ts2) as [rs|] eqn:Jp; cbn in J; [|discriminate J]. injection J as <-. exists (FixedLen rs). split; [reflexivity|]. intros us1 us2 X1 _ _. injection X1 as <-.
      exists rs. split; [reflexivity|exact (pairs_length _ _ _ _ Jp L)].
    + apply (O _ J). intros us1 us2 X1 X2. injection X1 as <-. injection X2 as <-. exact L.
  - destruct (_ && _) eqn:B in J; [|apply (O _ J); intros ? ? X1; discriminate X1]. injection J as <-. eexists. split; [reflexivity|]. intros ? ? X1. discriminate X1.
Qed.
(** Literals *)
Lemma literals_differ : forall fuel l1 l2, l1 <> l2 -> simple_same_type p (S fuel) (Literal l1) (Literal l2) = Some false.
Proof.
  intros fuel l1 l2 D. assert (E : same_literal l1 l2 = false).
  { destruct (same_literal l1 l2) eqn:E; [|reflexivity]. destruct D. destruct l1, l2; cbn in E; try discriminate E; [apply andb_prop in E as [E1 E2]; apply N.eqb_eq in E1; apply eqb_prop in E2; subst; reflexivity|apply eqb_prop in E; subst; reflexivity| |]; apply N.eqb_eq in E; subst; reflexivity. }
  unfold simple_same_type, run. fold run. cbn. rewrite E. reflexivity.
Qed.

Theorem literals : forall l1 l2, l1 <> l2 -> fallback p l1 = fallback p l2 -> variances p (fallback p l1) = [] -> fallback p l1 <> object p ->
  (forall b, In b (bases p (fallback p l1)) -> exists d gs, b = Class d gs) ->
  forall fuel, common_base_type p equal su (S (S (S fuel))) (Literal l1) (Literal l2) = Some (Class (fallback p l1) []).
Proof.
  intros l1 l2 D E V Ne B fuel. rewrite one_step. unfold join_step. cbn [check_both_sides or_try]. unfold mro, behind. rewrite <- E.
  set (join := common_base_type_internal p equal su (S (S fuel)) _). set (meet := common_sub_type p equal (S (S fuel))). set (promote := promoted p (S (S fuel))).
  set (c := fallback p l1) in *. set (rest := Class c [] :: map (substitute []) (bases p c)).
  assert (First : first_of (join_entries p equal su join meet (simple_same_type p (S (S fuel))) promote (Literal l1) (Literal l2) (Literal l1)) (Literal l2 :: rest ++ [Class (object p) []]) = Some None).
  { apply first_none. constructor.
    - unfold join_entries, common_base_type_for_non_class. rewrite (literals_differ _ l1 l2 D). reflexivity.
    - apply Forall_forall. intros x Hx. assert (X : exists d gs, x = Class d gs).
      { apply in_app_or in Hx as [[<-|Hx]|[<-|[]]]; [eauto| |eauto]. apply in_map_iff in Hx as (b & <- & Hb). destruct (B b Hb) as (d & gs & ->). cbn. eauto. }
      destruct X as (d & gs & ->). reflexivity. }
  assert (Cons : forall {A} (f : A -> attempt) x l, first_of f (x :: l) = or_try (f x) (first_of f l)) by (intros A f x l; cbn; destruct (f x) as [[]|]; reflexivity).
  cbn [app]. rewrite (Cons _ _ (Literal l1)). fold rest. change (Class c [] :: map (substitute []) (bases p c) ++ [Class (object p) []]) with (rest ++ [Class (object p) []]).
  rewrite First. cbn [or_try]. unfold rest at 1. cbn [app first_of]. unfold rest at 1. cbn [app first_of].
  unfold join_entries at 1. unfold join_entries at 1. unfold common_base_class, common_base_class_basic. rewrite N.eqb_refl. cbn [negb]. rewrite V. cbn [or_try].
  unfold is_object. destruct (N.eqb_spec c (object p)) as [X|_]; [destruct (Ne X)|]. reflexivity.
Qed.
End Which.
