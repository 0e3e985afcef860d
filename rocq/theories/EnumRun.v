(** The members found and the run of the body. *)
From Coq Require Import Ascii String List Bool NArith Lia PeanoNat.
From Verif Require Import EnumModel EnumSpec Enum.
Import ListNotations.
Open Scope list_scope.

Lemma mem_iff : forall n l, mem n l = true <-> In n l.
Proof.
  intros n l. unfold mem. rewrite existsb_exists. split.
  - intros (m & Hin & Hs). apply same_iff in Hs. subst. exact Hin.
  - intro H. exists n. split; [exact H | apply same_refl].
Qed.

Lemma get_put : forall st k o k', get (put st k o) k' = if same k k' then Some o else get st k'.
Proof. intros st k o k'. unfold get, put. cbn [namespace find fst]. destruct (same k k'); reflexivity. Qed.

Lemma bound_iff : forall l n, bound l n = true <-> exists s, In s l /\ name_of s = n.
Proof.
  intros l n. unfold bound. rewrite existsb_exists. split.
  - intros (s & Hin & Hs). exists s. split; [exact Hin | apply same_iff; exact Hs].
  - intros (s & Hin & Hs). exists s. split; [exact Hin | apply same_iff; exact Hs].
Qed.

Section Found.
Variable minor : N.
Notation gather := (gather minor).

Lemma gather_app : forall b1 b2 e, gather e (b1 ++ b2) = gather e b1 ++ gather (e ++ b1) b2.
Proof.
  induction b1 as [| s b1 IH]; intros b2 e.
  - rewrite app_nil_r. reflexivity.
  - cbn [app EnumModel.gather]. rewrite IH, <- !app_assoc. reflexivity.
Qed.

Lemma gather_snoc : forall d s,
  gather [] (d ++ [s]) = gather [] d ++ (if excluded (name_of s) || bound d (name_of s) then [] else [(name_of s, judge minor d s)]).
Proof.
  intros d s. rewrite gather_app. cbn [EnumModel.gather app]. rewrite app_nil_r. reflexivity.
Qed.

Definition targets_of (found : list (name * verdict)) : list name := map snd (aliases_of found).

Lemma members_app : forall g h, members_of (g ++ h) = members_of g ++ members_of h.
Proof. intros g h. apply flat_map_app. Qed.
Lemma aliases_app : forall g h, aliases_of (g ++ h) = aliases_of g ++ aliases_of h.
Proof. intros g h. apply flat_map_app. Qed.

Lemma members_in : forall g n, In n (members_of g) <-> In (n, IsMember) g.
Proof.
  intros g n. unfold members_of. rewrite in_flat_map. split.
  - intros ([m v] & Hin & H). cbn [fst snd] in H. destruct v; [| destruct H | destruct H].
    destruct H as [-> | []]. exact Hin.
  - intro H. exists (n, IsMember). split; [exact H | left; reflexivity].
Qed.
Lemma aliases_in : forall g n t, In (n, t) (aliases_of g) <-> In (n, IsAlias t) g.
Proof.
  intros g n t. unfold aliases_of. rewrite in_flat_map. split.
  - intros ([m v] & Hin & H). cbn [fst snd] in H. destruct v as [| u |]; [destruct H | | destruct H].
    destruct H as [[= -> ->] | []]. exact Hin.
  - intro H. exists (n, IsAlias t). split; [exact H | left; reflexivity].
Qed.

Lemma member_named_spec : forall g n,
  member_named g n = if mem n (members_of g) then Some n else None.
Proof.
  intros g n. unfold member_named, mem. induction (members_of g) as [| m l IH]; [reflexivity |].
  cbn [find existsb]. destruct (same m n) eqn:E; cbn [orb].
  - apply same_iff in E. subst. reflexivity.
  - exact IH.
Qed.

Lemma member_named_some : forall g n m, member_named g n = Some m -> m = n /\ In (n, IsMember) g.
Proof.
  intros g n m H. rewrite member_named_spec in H. destruct (mem n (members_of g)) eqn:E; [| discriminate].
  injection H as <-. split; [reflexivity |]. apply members_in, mem_iff, E.
Qed.

Lemma member_named_other : forall g n v m, m <> n -> member_named (g ++ [(n, v)]) m = member_named g m.
Proof.
  intros g n v m Hne. rewrite !member_named_spec, members_app. unfold mem. rewrite existsb_app.
  assert (H : existsb (fun k => same k m) (members_of [(n, v)]) = false).
  { destruct v; cbn; try reflexivity. rewrite (proj2 (same_false n m)) by congruence. reflexivity. }
  rewrite H, orb_false_r. reflexivity.
Qed.

Lemma find_alias_app : forall g l1 l2 n,
  find_alias g (l1 ++ l2) n = match find_alias g l1 n with Some m => Some m | None => find_alias g l2 n end.
Proof.
  intros g l1 l2 n. induction l1 as [| [a t] l1 IH]; [reflexivity |].
  cbn [app find_alias]. destruct (same a n); [| exact IH].
  destruct (member_named g t); [reflexivity | exact IH].
Qed.

Lemma find_alias_none : forall g l n, ~ In n (map fst l) -> find_alias g l n = None.
Proof.
  intros g l n H. induction l as [| [a t] l IH]; [reflexivity |].
  cbn [find_alias]. cbn [map fst In] in H.
  rewrite (proj2 (same_false a n)) by (intro E; apply H; left; exact E).
  apply IH. intro Hin. apply H. right. exact Hin.
Qed.

Lemma find_alias_some : forall g l n m, find_alias g l n = Some m -> exists t, In (n, t) l /\ member_named g t = Some m.
Proof.
  intros g l n m H. induction l as [| [a t] l IH]; [discriminate |].
  cbn [find_alias] in H. destruct (same a n) eqn:E.
  - apply same_iff in E. subst a. destruct (member_named g t) as [m' |] eqn:Em.
    + injection H as ->. exists t. split; [left; reflexivity | exact Em].
    + destruct (IH H) as (u & Hin & Hu). exists u. split; [right; exact Hin | exact Hu].
  - destruct (IH H) as (u & Hin & Hu). exists u. split; [right; exact Hin | exact Hu].
Qed.

Lemma find_alias_other : forall g n v l m,
  ~ In n (map snd l) -> find_alias (g ++ [(n, v)]) l m = find_alias g l m.
Proof.
  intros g n v l m H. induction l as [| [a t] l IH]; [reflexivity |].
  cbn [map snd In] in H. cbn [find_alias].
  rewrite member_named_other by (intro E; apply H; left; exact E).
  rewrite IH by (intro Hin; apply H; right; exact Hin). reflexivity.
Qed.

Lemma look_other : forall g n v m,
  m <> n -> ~ In n (targets_of g) -> look (g ++ [(n, v)]) m = look g m.
Proof.
  intros g n v m Hne Ht. unfold look. rewrite (member_named_other g n v m Hne).
  destruct (member_named g m); [reflexivity |].
  rewrite aliases_app, find_alias_app, (find_alias_other g n v _ m Ht).
  destruct (find_alias g (aliases_of g) m); [reflexivity |].
  apply find_alias_none. destruct v; cbn; try (intros []; fail).
  intros [E | []]. congruence.
Qed.

Lemma not_alias : forall g n, ~ In n (map fst g) -> ~ In n (map fst (aliases_of g)).
Proof.
  intros g n H Hin. apply H. apply in_map_iff in Hin. destruct Hin as ([a t] & <- & Hin).
  apply aliases_in in Hin. apply in_map_iff. exists (a, IsAlias t). split; [reflexivity | exact Hin].
Qed.

Lemma look_new : forall g n v,
  ~ In n (map fst g) -> ~ In n (targets_of g) ->
  look (g ++ [(n, v)]) n =
  match v with IsMember => Some n | NoMember => None | IsAlias t => if same t n then None else member_named g t end.
Proof.
  intros g n v Hn Ht. unfold look. rewrite member_named_spec, members_app.
  assert (Hm : mem n (members_of g) = false).
  { destruct (mem n (members_of g)) eqn:E; [| reflexivity]. exfalso. apply Hn.
    apply mem_iff, members_in in E. apply in_map_iff. exists (n, IsMember). split; [reflexivity | exact E]. }
  unfold mem in *. rewrite existsb_app, Hm. cbn [orb].
  rewrite aliases_app, find_alias_app, (find_alias_other g n v _ n Ht).
  rewrite (find_alias_none g _ n (not_alias g n Hn)).
  destruct v as [| t |]; cbn [members_of aliases_of flat_map snd fst app existsb find_alias].
  - rewrite same_refl. reflexivity.
  - rewrite same_refl. destruct (same t n) eqn:E.
    + apply same_iff in E. subst t. rewrite member_named_spec, members_app. unfold mem. rewrite existsb_app, Hm. reflexivity.
    + rewrite member_named_other by (apply same_false; exact E). destruct (member_named g t); reflexivity.
  - reflexivity.
Qed.

Lemma look_some : forall g n m, look g n = Some m ->
  In (m, IsMember) g /\ (m = n \/ In (n, IsAlias m) g).
Proof.
  intros g n m H. unfold look in H. destruct (member_named g n) as [k |] eqn:E.
  - injection H as <-. apply member_named_some in E. destruct E as [-> E]. split; [exact E | left; reflexivity].
  - apply find_alias_some in H. destruct H as (t & Hin & Ht). apply member_named_some in Ht.
    destruct Ht as [-> Ht]. split; [exact Ht |]. right. apply aliases_in. exact Hin.
Qed.

Lemma look_member : forall g n, In (n, IsMember) g -> look g n = Some n.
Proof.
  intros g n H. unfold look. rewrite member_named_spec.
  rewrite (proj2 (mem_iff _ _) (proj2 (members_in _ _) H)). reflexivity.
Qed.

Lemma look_named : forall g n, look g n <> None -> In n (map fst g).
Proof.
  intros g n H. destruct (look g n) as [m |] eqn:E; [| congruence].
  apply look_some in E. destruct E as [H1 [-> | H2]]; apply in_map_iff; eexists; split; try eassumption; reflexivity.
Qed.

(** The names found are those bound, with a statement for each. *)
Lemma gather_in : forall d n v, In (n, v) (gather [] d) ->
  excluded n = false /\ exists s earlier later, d = earlier ++ s :: later /\ name_of s = n
    /\ bound earlier n = false /\ v = judge minor earlier s.
Proof.
  intro d. induction d as [| s d IH] using rev_ind; intros n v H; [destruct H |].
  rewrite gather_snoc in H. apply in_app_iff in H. destruct H as [H | H].
  - destruct (IH n v H) as (He & s0 & e & l & -> & Hn & Hb & Hv). split; [exact He |].
    exists s0, e, (l ++ [s]). rewrite <- app_assoc. split; [reflexivity |]. repeat (split; [assumption |]). assumption.
  - destruct (excluded (name_of s)) eqn:He; [destruct H |]. destruct (bound d (name_of s)) eqn:Hb; [destruct H |].
    cbn [orb] in H. destruct H as [[= <- <-] | []]. split; [exact He |].
    exists s, d, []. split; [reflexivity |]. split; [reflexivity |]. split; [exact Hb | reflexivity].
Qed.

Lemma gather_bound : forall d n, In n (map fst (gather [] d)) -> excluded n = false /\ bound d n = true.
Proof.
  intros d n H. apply in_map_iff in H. destruct H as ([m v] & <- & H).
  apply gather_in in H. destruct H as (He & s & e & l & -> & Hn & _). split; [exact He |].
  apply bound_iff. exists s. split; [apply in_or_app; right; left; reflexivity | exact Hn].
Qed.

Lemma gather_complete : forall d n, excluded n = false -> bound d n = true -> In n (map fst (gather [] d)).
Proof.
  intro d. induction d as [| s d IH] using rev_ind; intros n He Hb; [discriminate |].
  rewrite gather_snoc, map_app, in_app_iff. unfold bound in Hb. rewrite existsb_app in Hb.
  apply orb_true_iff in Hb. destruct Hb as [Hb | Hb]; [left; apply IH; assumption |].
  cbn [existsb] in Hb. rewrite orb_false_r in Hb. apply same_iff in Hb. subst n. rewrite He. cbn [orb].
  destruct (bound d (name_of s)) eqn:E; [left; apply IH; assumption | right; left; reflexivity].
Qed.

Lemma gather_targets : forall d n t, In (n, IsAlias t) (gather [] d) ->
  bound d t = true /\ In (Assign n (Name t)) d.
Proof.
  intros d n t H. apply gather_in in H. destruct H as (_ & s & e & l & -> & Hn & _ & Hv).
  destruct s as [k ex | k | k ds v | k ds v | k o | ks]; cbn [judge] in Hv; try discriminate.
  - destruct ex as [v | c ex | m | o]; cbn [assignment] in Hv; try discriminate.
    + destruct (knows_nonmember minor); [destruct c |]; discriminate.
    + destruct (bound e m) eqn:Hb; [| discriminate]. injection Hv as ->. cbn [name_of] in Hn. subst k.
      split.
      * apply bound_iff. apply bound_iff in Hb. destruct Hb as (s & Hin & Hs). exists s. split; [| exact Hs].
        apply in_or_app. left. exact Hin.
      * apply in_or_app. right. left. reflexivity.
  - destruct (decorated_with_member minor ds); discriminate.
  - destruct (decorated_with_nonmember minor ds); discriminate.
Qed.

Lemma unbound_no_target : forall d n, bound d n = false -> ~ In n (targets_of (gather [] d)).
Proof.
  intros d n Hb H. unfold targets_of in H. apply in_map_iff in H. destruct H as ([a t] & E & H).
  cbn [snd] in E. subst t. apply aliases_in, gather_targets in H. destruct H as [H _]. congruence.
Qed.
Lemma unbound_not_found : forall d n, bound d n = false -> ~ In n (map fst (gather [] d)).
Proof. intros d n Hb H. apply gather_bound in H. destruct H as [_ H]. congruence. Qed.
End Found.

Section Run.
Variable minor : N.
Variable cls : name.
Variable outside : name -> option object.
Hypothesis proper : proper_class cls.

Notation gather := (gather minor).
Notation execute := (execute minor cls outside).
Notation setitem := (setitem minor cls).
Notation evaluate := (evaluate minor cls outside).
Notation decorate := (decorate minor).
Notation mangle := (mangle cls).
Notation regular := (regular cls).
Notation target := (target minor).

Definition real (s : statement) : bool := match s with Declare _ | Ignore _ => false | _ => true end.

Definition evaluated (st : state) (s : statement) : option object :=
  match s with
  | Assign _ e => evaluate st e
  | Function _ ds v => decorate ds (Descriptor v)
  | Class _ ds v => decorate ds (Nested v)
  | Bind _ o => Some o
  | Declare _ | Ignore _ => None
  end.

Lemma execute_real : forall st s, real s = true ->
  execute st s = match evaluated st s with Some o => setitem st (mangle (name_of s)) o | None => None end.
Proof. intros st s H. destruct s; try discriminate; reflexivity. Qed.

Lemma setitem_special : forall st k o st',
  special cls k = true -> setitem st k o = Some st' -> st' = put st k o.
Proof.
  intros st k o st' Hs H. unfold EnumSpec.setitem in H. unfold special in Hs.
  destruct (is_private cls k); [congruence |]. cbn [orb] in Hs.
  destruct (is_sunder k); [destruct (mem k known_sunder); congruence |]. cbn [orb] in Hs.
  rewrite Hs in H. congruence.
Qed.

Lemma setitem_ordinary : forall st k o,
  special cls k = false -> ignored st = [] ->
  setitem st k o =
  if mem k (member_names st) then None
  else match o with
       | NonmemberOf v => Some (put st k v)
       | Descriptor _ => Some (put st k o)
       | Nested _ => if (minor <? 13)%N then add_member st k o else Some (put st k o)
       | MemberOf v => add_member st k v
       | Plain _ => add_member st k o
       end.
Proof.
  intros st k o Hs Hi. unfold EnumSpec.setitem. unfold special in Hs.
  apply orb_false_iff in Hs. destruct Hs as [Hs H3]. apply orb_false_iff in Hs. destruct Hs as [H1 H2].
  rewrite H1, H2, H3, Hi. reflexivity.
Qed.

Definition is_some {A} (o : option A) : bool := match o with Some _ => true | None => false end.

(** What can be a member, and what it is then *)
Definition accepts (o : object) : option object :=
  match o with
  | Plain _ => Some o
  | Nested _ => if (minor <? 13)%N then Some o else None
  | MemberOf v => Some v
  | _ => None
  end.
Definition kept (o : object) : object := match o with NonmemberOf v => v | _ => o end.

Lemma setitem_cases : forall st k o,
  special cls k = false -> ignored st = [] ->
  setitem st k o =
  if mem k (member_names st) then None
  else match accepts o with Some v => add_member st k v | None => Some (put st k (kept o)) end.
Proof.
  intros st k o Hs Hi. rewrite (setitem_ordinary st k o Hs Hi).
  destruct (mem k (member_names st)); [reflexivity |].
  destruct o; cbn [accepts kept]; try reflexivity. destruct (minor <? 13)%N; reflexivity.
Qed.

Lemma first_class_without : forall ds c, ~ In (Known c) ds -> first_class ds <> Some (Some c).
Proof.
  induction ds as [| d ds IH]; intros c H; [discriminate |]. cbn [first_class].
  destruct d as [k | o | o].
  - intros [= ->]. apply H. left. reflexivity.
  - discriminate.
  - apply IH. intro Hin. apply H. right. exact Hin.
Qed.

Lemma knows : (11 <= minor)%N -> knows_nonmember minor = true.
Proof. intro recent. unfold knows_nonmember. apply N.leb_le. exact recent. Qed.

Lemma call_some : forall c o v o', call minor c o v = Some o' ->
  o' = match c with Member => MemberOf o | Nonmember => NonmemberOf o | Builtin => Descriptor v end
  /\ (c = Builtin \/ knows_nonmember minor = true).
Proof.
  intros c o v o' H. unfold call in H. unfold knows_nonmember.
  destruct c; destruct (11 <=? minor)%N; try discriminate; injection H as <-; (split; [reflexivity |]); auto.
Qed.

Record invariant (d : list statement) (st : state) : Prop := Invariant
  { inv_regular : forall s, In s d -> regular (name_of s);
    inv_ignored : ignored st = [];
    inv_names : member_names st = map fst (filter (fun x => is_some (look (gather [] d) (fst x))) (gather [] d));
    inv_bound : forall n, regular n ->
      (get st (mangle n) <> None <-> exists s, In s d /\ real s = true /\ name_of s = n);
    inv_targets : forall n, regular n -> excluded n = false -> bound d n = true ->
      (forall s, In s d -> name_of s = n -> target s) ->
      exists o, get st n = Some o
        /\ match look (gather [] d) n with
           | Some _ => accepts o = Some o
           | None => exists v, o = Descriptor v
           end;
    inv_values : forall n m, look (gather [] d) n = Some m -> get st n = get st m;
    inv_once : forall n, look (gather [] d) n <> None ->
      length (filter (fun s => real s && same (name_of s) n) d) = 1%nat }.

Lemma invariant_start : invariant [] (mk_state [] [] []).
Proof.
  constructor.
  - intros s [].
  - reflexivity.
  - reflexivity.
  - intros n _. split; [intro H; exfalso; apply H; reflexivity | intros (s & [] & _)].
  - intros n _ _ H. discriminate.
  - intros n m H. discriminate.
  - intros n H. exfalso. apply H. reflexivity.
Qed.

(** A name that is found is a member for Python. *)
Lemma found_in : forall d st n, invariant d st -> (In n (member_names st) <-> look (gather [] d) n <> None).
Proof.
  intros d st n Inv. rewrite (inv_names d st Inv). rewrite in_map_iff. split.
  - intros ([m v] & <- & H). apply filter_In in H. destruct H as [_ H]. cbn [fst] in *.
    destruct (look (gather [] d) m); discriminate.
  - intro H. pose proof (look_named _ _ H) as Hin. apply in_map_iff in Hin.
    destruct Hin as ([m v] & <- & Hin). exists (m, v). split; [reflexivity |].
    apply filter_In. split; [exact Hin |]. cbn [fst] in *.
    destruct (look (gather [] d) m); [reflexivity | congruence].
Qed.

Lemma found_regular : forall d st n, invariant d st -> look (gather [] d) n <> None ->
  regular n /\ excluded n = false /\ bound d n = true.
Proof.
  intros d st n Inv H. apply look_named, gather_bound in H. destruct H as [He Hb].
  split; [| split; assumption]. apply bound_iff in Hb. destruct Hb as (s & Hin & <-).
  apply (inv_regular d st Inv s Hin).
Qed.

Lemma target_value : forall st s o, target s -> evaluated st s = Some o ->
  accepts o = Some o \/ exists v, o = Descriptor v.
Proof.
  intros st s o Ht He. destruct s as [k e | k | k ds v | k ds v | k g | ks]; cbn [EnumSpec.target] in Ht; try contradiction.
  - destruct e as [v | c e | m | g]; cbn [evaluated EnumSpec.evaluate] in He; try contradiction.
    + injection He as <-. right. exists v. reflexivity.
    + destruct c; try contradiction. destruct (evaluate st e); [| discriminate].
      apply call_some in He. destruct He as [-> _]. right. eexists. reflexivity.
    + destruct g; try contradiction. injection He as <-. left. reflexivity.
  - cbn [evaluated] in He. destruct ds as [| [c | g | g] ds]; cbn [descriptor_decorators] in Ht.
    + injection He as <-. right. eexists. reflexivity.
    + destruct c; try contradiction. cbn [EnumSpec.decorate] in He. destruct (decorate ds (Descriptor v)); [| discriminate].
      apply call_some in He. destruct He as [-> _]. right. eexists. reflexivity.
    + destruct g; try contradiction. cbn [EnumSpec.decorate] in He. destruct (decorate ds (Descriptor v)); [| discriminate].
      injection He as <-. right. eexists. reflexivity.
    + destruct g; try contradiction. cbn [EnumSpec.decorate] in He. destruct (decorate ds (Descriptor v)); [| discriminate].
      injection He as <-. right. eexists. reflexivity.
  - destruct ds; [| contradiction]. cbn in He. injection He as <-. left. cbn [accepts].
    apply N.ltb_lt in Ht. rewrite Ht. reflexivity.
  - destruct g; try contradiction. cbn in He. injection He as <-. left. reflexivity.
Qed.

(** What the checker finds of a first binding is what Python makes of it. *)
Lemma judged : forall d st s o,
  invariant d st -> (forall n, In n (names s) -> regular n) -> tame_statement minor cls outside d s ->
  real s = true -> bound d (name_of s) = false -> evaluated st s = Some o ->
  match look (gather [] d ++ [(name_of s, judge minor d s)]) (name_of s) with
  | Some m => exists v, accepts o = Some v /\ (m = name_of s \/ In (m, IsMember) (gather [] d) /\ get st m = Some v)
  | None => accepts o = None
  end.
Proof.
  intros d st s o Inv Hreg [Hdecl Ht] Hreal Hb He.
  rewrite (look_new (gather [] d) (name_of s) (judge minor d s)
             (unbound_not_found minor d _ Hb) (unbound_no_target minor d _ Hb)).
  destruct s as [k e | k | k ds v | k ds v | k g | ks]; cbn [judge name_of] in *; try discriminate.
  - cbn [evaluated] in He. destruct e as [v | c e | m | g]; cbn [assignment EnumSpec.evaluate tame_value] in *.
    + injection He as <-. reflexivity.
    + rewrite (knows Ht). destruct (evaluate st e) as [o' |]; [| discriminate].
      apply call_some in He. destruct He as [-> _]. destruct c; cbn [accepts]; try reflexivity.
      exists o'. split; [reflexivity | left; reflexivity].
    + assert (Hm : regular m) by (apply Hreg; right; left; reflexivity).
      destruct Ht as [Ht1 Ht2]. destruct (bound d m) eqn:Hbm.
      * assert (Hne : same m k = false).
        { apply same_false. intros ->. congruence. }
        rewrite Hne.
        assert (Hx : excluded m = false).
        { apply bound_iff in Hbm. destruct Hbm as (s & Hin & Hs). destruct (Ht1 s Hin Hs) as [_ Hsp].
          rewrite (regular_special cls m proper Hm) in Hsp. exact Hsp. }
        destruct (inv_targets d st Inv m Hm Hx Hbm) as (o' & Ho' & Hl).
        { intros s Hin Hs. apply (Ht1 s Hin Hs). }
        rewrite (regular_unmangled cls m proper Hm Hx), Ho' in He. injection He as <-.
        assert (Hlook : look (gather [] d) m = member_named (gather [] d) m).
        { unfold look. destruct (member_named (gather [] d) m); [reflexivity |].
          apply find_alias_none. intro Hin. apply in_map_iff in Hin. destruct Hin as ([a t] & E & Hin).
          cbn [fst] in E. subst a. apply aliases_in, gather_targets in Hin. destruct Hin as [_ Hin].
          destruct (Ht1 _ Hin eq_refl) as [[] _]. }
        rewrite Hlook in Hl. destruct (member_named (gather [] d) m) as [t |] eqn:Em.
        -- apply member_named_some in Em. destruct Em as [-> Em]. exists o'. split; [exact Hl |].
           right. split; [exact Em | exact Ho'].
        -- destruct Hl as (v & ->). reflexivity.
      * destruct (get st (mangle m)) as [o' |] eqn:Hg.
        -- exfalso. assert (Hne : get st (mangle m) <> None) by congruence.
           apply (inv_bound d st Inv m Hm) in Hne. destruct Hne as (s & Hin & _ & Hs).
           assert (bound d m = true) by (apply bound_iff; exists s; split; assumption). congruence.
        -- destruct Ht2 as (v & Hv).
           { intros s Hin Hs. assert (bound d m = true) by (apply bound_iff; exists s; split; assumption). congruence. }
           rewrite Hv in He. injection He as <-. exists (Plain v). split; [reflexivity | left; reflexivity].
    + destruct g; try contradiction. injection He as <-. eexists. split; [reflexivity | left; reflexivity].
  - cbn [evaluated] in He. unfold decorated_with_member.
    destruct ds as [| [c | g | g] ds]; cbn [tame_function descriptor_decorators first_class EnumSpec.decorate] in *.
    + injection He as <-. rewrite andb_false_r. reflexivity.
    + destruct (decorate ds (Descriptor v)) as [o' |]; [| discriminate].
      apply call_some in He. destruct He as [-> [-> | Hk]]; [rewrite andb_false_r; reflexivity | rewrite Hk].
      destruct c; try reflexivity.
      exists o'. split; [reflexivity | left; reflexivity].
    + destruct g; try contradiction. destruct (decorate ds (Descriptor v)); [| discriminate]. injection He as <-.
      rewrite andb_false_r. reflexivity.
    + destruct g; try contradiction. destruct (decorate ds (Descriptor v)); [| discriminate]. injection He as <-.
      pose proof (first_class_without ds Member Ht) as Hf.
      destruct (first_class ds) as [[[| |] |] |]; try congruence; rewrite andb_false_r; reflexivity.
  - cbn [evaluated] in He. unfold decorated_with_nonmember.
    destruct ds as [| [c | g | g] ds]; cbn [tame_class first_class EnumSpec.decorate] in *.
    + injection He as <-. cbn [accepts]. apply N.ltb_lt in Ht. rewrite Ht, andb_false_r.
      eexists. split; [reflexivity | left; reflexivity].
    + destruct (decorate ds (Nested v)) as [o' |]; [| discriminate].
      apply call_some in He. destruct He as [-> [-> | Hk]]; [contradiction | rewrite Hk].
      destruct c; try contradiction; try reflexivity.
      exists o'. split; [reflexivity | left; reflexivity].
    + destruct g; try contradiction. destruct (decorate ds (Nested v)); [| discriminate]. injection He as <-.
      rewrite andb_false_r. eexists. split; [reflexivity | left; reflexivity].
    + destruct (decorate ds (Nested v)); [| discriminate]. injection He as <-.
      assert (Hf : ~ In (Known Nonmember) ds /\ accepts g = Some g).
      { destruct g; try contradiction.
        - split; [exact Ht | reflexivity].
        - destruct Ht as [Hlt Ht]. split; [exact Ht |]. cbn [accepts]. apply N.ltb_lt in Hlt. rewrite Hlt. reflexivity. }
      destruct Hf as [Hf Ha]. pose proof (first_class_without ds Nonmember Hf) as Hc. rewrite Ha.
      destruct (first_class ds) as [[[| |] |] |];
        try congruence; rewrite andb_false_r; exists g; (split; [reflexivity | left; reflexivity]).
  - destruct g; try contradiction. cbn in He. injection He as <-. eexists. split; [reflexivity | left; reflexivity].
Qed.

Lemma filter_snoc : forall (f : statement -> bool) d s,
  length (filter f (d ++ [s])) = (length (filter f d) + if f s then 1 else 0)%nat.
Proof. intros f d s. rewrite filter_app, app_length. cbn [filter]. destruct (f s); reflexivity. Qed.

Lemma in_snoc : forall (d : list statement) s x, In x (d ++ [s]) <-> In x d \/ x = s.
Proof. intros d s x. rewrite in_app_iff. cbn [In]. split; intros [H | H]; auto. destruct H as [H | []]; auto. Qed.

(** A step that leaves the names found as they are *)
Lemma step_kept : forall d st s st',
  invariant d st -> regular (name_of s) ->
  gather [] (d ++ [s]) = gather [] d ->
  member_names st' = member_names st -> ignored st' = [] ->
  (forall n, regular n -> n <> name_of s -> get st' (mangle n) = get st (mangle n)) ->
  (get st' (mangle (name_of s)) <> None <-> real s = true \/ get st (mangle (name_of s)) <> None) ->
  (real s = false -> get st' (mangle (name_of s)) = get st (mangle (name_of s))) ->
  (real s = true -> look (gather [] d) (name_of s) = None) ->
  (real s = true -> excluded (name_of s) = false -> target s -> exists v, get st' (name_of s) = Some (Descriptor v)) ->
  invariant (d ++ [s]) st'.
Proof.
  intros d st s st' Inv Hs Hg Hm Hi Hother Hself Hstay Hnone Htarget.
  assert (Hget : forall n, regular n -> excluded n = false -> n <> name_of s -> get st' n = get st n).
  { intros n Hn Hx Hne. pose proof (Hother n Hn Hne) as H.
    rewrite (regular_unmangled cls n proper Hn Hx) in H. exact H. }
  assert (Hlook : forall n m, look (gather [] d) n = Some m -> get st' n = get st n).
  { intros n m Hl. assert (Hn : look (gather [] d) n <> None) by congruence.
    destruct (found_regular d st n Inv Hn) as (Hr & Hx & _).
    destruct (name_dec n (name_of s)) as [-> | Hne]; [| apply Hget; assumption].
    destruct (real s) eqn:Er; [rewrite (Hnone eq_refl) in Hn; congruence |].
    pose proof (Hstay eq_refl) as H. rewrite (regular_unmangled cls _ proper Hr Hx) in H. exact H. }
  constructor.
  - intros x Hx. apply in_snoc in Hx. destruct Hx as [Hx | ->]; [apply (inv_regular d st Inv x Hx) | exact Hs].
  - exact Hi.
  - rewrite Hg, Hm. apply (inv_names d st Inv).
  - intros n Hn. destruct (name_dec n (name_of s)) as [-> | Hne].
    + rewrite Hself. split.
      * intros [H | H].
        -- exists s. split; [apply in_snoc; right; reflexivity | split; [exact H | reflexivity]].
        -- apply (inv_bound d st Inv _ Hn) in H. destruct H as (x & Hx & Hr & E). exists x.
           split; [apply in_snoc; left; exact Hx | split; assumption].
      * intros (x & Hx & Hr & E). apply in_snoc in Hx. destruct Hx as [Hx | ->]; [right | left; exact Hr].
        apply (inv_bound d st Inv _ Hn). exists x. split; [exact Hx | split; assumption].
    + rewrite (Hother n Hn Hne), (inv_bound d st Inv n Hn). split; intros (x & Hx & Hr & E).
      * exists x. split; [apply in_snoc; left; exact Hx | split; assumption].
      * apply in_snoc in Hx. destruct Hx as [Hx | ->]; [| congruence]. exists x. split; [exact Hx | split; assumption].
  - intros n Hn Hx Hb Hall. rewrite Hg. destruct (name_dec n (name_of s)) as [-> | Hne].
    + destruct (real s) eqn:Er.
      * destruct (Htarget eq_refl Hx) as (v & Hv).
        { apply Hall; [apply in_snoc; right |]; reflexivity. }
        exists (Descriptor v). split; [exact Hv |]. rewrite (Hnone eq_refl). exists v. reflexivity.
      * exfalso. specialize (Hall s (proj2 (in_snoc d s s) (or_intror eq_refl)) eq_refl).
        destruct s; cbn in Er, Hall; try discriminate; contradiction.
    + rewrite (Hget n Hn Hx Hne). apply (inv_targets d st Inv n Hn Hx).
      * unfold bound in Hb. rewrite existsb_app in Hb. apply orb_true_iff in Hb. destruct Hb as [Hb | Hb]; [exact Hb |].
        cbn [existsb] in Hb. rewrite orb_false_r in Hb. apply same_iff in Hb. congruence.
      * intros x Hin E. apply Hall; [apply in_snoc; left; exact Hin | exact E].
  - intros n m Hl. rewrite Hg in Hl.
    destruct (look_some _ _ _ Hl) as [Hm' _]. apply look_member in Hm'.
    rewrite (Hlook n m Hl), (Hlook m m Hm'). apply (inv_values d st Inv n m Hl).
  - intros n Hl. rewrite Hg in Hl. rewrite filter_snoc, (inv_once d st Inv n Hl).
    destruct (real s) eqn:Er; [| reflexivity]. destruct (same (name_of s) n) eqn:E; [| reflexivity].
    apply same_iff in E. subst n. rewrite (Hnone eq_refl) in Hl. congruence.
Qed.

Lemma get_put_other : forall st k o n, regular n -> regular k -> n <> k ->
  get (put st (mangle k) o) (mangle n) = get st (mangle n).
Proof.
  intros st k o n Hn Hk Hne. rewrite get_put. rewrite (proj2 (same_false _ _)); [reflexivity |].
  intro E. apply Hne. symmetry. apply (mangle_injective cls k n proper Hk Hn E).
Qed.

(** A new name *)
Lemma step_new : forall d st s st' v,
  invariant d st -> regular (name_of s) -> excluded (name_of s) = false -> bound d (name_of s) = false ->
  v = judge minor d s ->
  ignored st' = [] ->
  (forall n, regular n -> n <> name_of s -> get st' (mangle n) = get st (mangle n)) ->
  (get st' (mangle (name_of s)) <> None <-> real s = true) ->
  match look (gather [] d ++ [(name_of s, v)]) (name_of s) with
  | Some m => member_names st' = member_names st ++ [name_of s] /\ real s = true
      /\ (m = name_of s \/ In (m, IsMember) (gather [] d) /\ get st' (name_of s) = get st m)
      /\ (target s -> exists o, get st' (name_of s) = Some o /\ accepts o = Some o)
  | None => member_names st' = member_names st
      /\ (target s -> exists w, get st' (name_of s) = Some (Descriptor w))
  end ->
  invariant (d ++ [s]) st'.
Proof.
  intros d st s st' v Inv Hs Hx Hb Hv Hi Hother Hself Hcase.
  assert (Hg : gather [] (d ++ [s]) = gather [] d ++ [(name_of s, v)]).
  { rewrite gather_snoc, Hx, Hb, Hv. reflexivity. }
  assert (Hget : forall n, regular n -> excluded n = false -> n <> name_of s -> get st' n = get st n).
  { intros n Hn Hxn Hne. pose proof (Hother n Hn Hne) as H.
    rewrite (regular_unmangled cls n proper Hn Hxn) in H. exact H. }
  assert (Hlo : forall n, n <> name_of s -> look (gather [] (d ++ [s])) n = look (gather [] d) n).
  { intros n Hne. rewrite Hg. apply look_other; [exact Hne | apply unbound_no_target; exact Hb]. }
  assert (Hfresh : ~ In (name_of s) (map fst (gather [] d))) by (apply unbound_not_found; exact Hb).
  assert (Hstable : forall n m, look (gather [] d) n = Some m -> n <> name_of s /\ get st' n = get st n).
  { intros n m Hl. assert (Hn : look (gather [] d) n <> None) by congruence.
    destruct (found_regular d st n Inv Hn) as (Hr & Hxn & Hbn).
    assert (n <> name_of s) by (intros ->; congruence). split; [assumption |]. apply Hget; assumption. }
  constructor.
  - intros x Hin. apply in_snoc in Hin. destruct Hin as [Hin | ->]; [apply (inv_regular d st Inv x Hin) | exact Hs].
  - exact Hi.
  - transitivity (map fst (filter (fun x => is_some (look (gather [] (d ++ [s])) (fst x))) (gather [] d ++ [(name_of s, v)]))).
    2: { rewrite Hg. reflexivity. }
    rewrite filter_app, map_app. cbn [filter fst].
    assert (Hf : filter (fun x => is_some (look (gather [] (d ++ [s])) (fst x))) (gather [] d)
               = filter (fun x => is_some (look (gather [] d) (fst x))) (gather [] d)).
    { apply filter_ext_in. intros [n w] Hin. cbn [fst]. rewrite Hlo; [reflexivity |].
      intros ->. apply Hfresh. apply in_map_iff. exists (name_of s, w). split; [reflexivity | exact Hin]. }
    rewrite Hf, <- (inv_names d st Inv). rewrite <- Hg in Hcase.
    destruct (look (gather [] (d ++ [s])) (name_of s)) as [m |]; cbn [is_some map fst].
    + destruct Hcase as [H _]. exact H.
    + rewrite app_nil_r. destruct Hcase as [H _]. exact H.
  - intros n Hn. destruct (name_dec n (name_of s)) as [-> | Hne].
    + rewrite Hself. split.
      * intro H. exists s. split; [apply in_snoc; right; reflexivity | split; [exact H | reflexivity]].
      * intros (x & Hin & Hr & E). apply in_snoc in Hin. destruct Hin as [Hin | ->]; [| exact Hr].
        exfalso. assert (bound d (name_of s) = true) by (apply bound_iff; exists x; split; assumption). congruence.
    + rewrite (Hother n Hn Hne), (inv_bound d st Inv n Hn). split; intros (x & Hin & Hr & E).
      * exists x. split; [apply in_snoc; left; exact Hin | split; assumption].
      * apply in_snoc in Hin. destruct Hin as [Hin | ->]; [| congruence]. exists x. split; [exact Hin | split; assumption].
  - intros n Hn Hxn Hbn Hall. destruct (name_dec n (name_of s)) as [-> | Hne].
    + assert (Ht : target s) by (apply Hall; [apply in_snoc; right |]; reflexivity).
      rewrite <- Hg in Hcase. destruct (look (gather [] (d ++ [s])) (name_of s)) as [m |].
      * destruct Hcase as (_ & _ & _ & H). destruct (H Ht) as (o & Ho & Ha). exists o. split; assumption.
      * destruct Hcase as (_ & H). destruct (H Ht) as (w & Hw). exists (Descriptor w).
        split; [exact Hw | exists w; reflexivity].
    + rewrite (Hget n Hn Hxn Hne), (Hlo n Hne). apply (inv_targets d st Inv n Hn Hxn).
      * unfold bound in Hbn. rewrite existsb_app in Hbn. apply orb_true_iff in Hbn. destruct Hbn as [H | H]; [exact H |].
        cbn [existsb] in H. rewrite orb_false_r in H. apply same_iff in H. congruence.
      * intros x Hin E. apply Hall; [apply in_snoc; left; exact Hin | exact E].
  - intros n m Hl. destruct (name_dec n (name_of s)) as [-> | Hne].
    + rewrite <- Hg in Hcase. rewrite Hl in Hcase. destruct Hcase as (_ & _ & [-> | (Hm & E)] & _); [reflexivity |].
      apply look_member in Hm. destruct (Hstable m m Hm) as [_ Hst]. rewrite Hst. exact E.
    + rewrite (Hlo n Hne) in Hl. destruct (look_some _ _ _ Hl) as [Hm _]. apply look_member in Hm.
      destruct (Hstable n m Hl) as [_ ->]. destruct (Hstable m m Hm) as [_ ->].
      apply (inv_values d st Inv n m Hl).
  - intros n Hl. rewrite filter_snoc. destruct (name_dec n (name_of s)) as [-> | Hne].
    + rewrite <- Hg in Hcase. destruct (look (gather [] (d ++ [s])) (name_of s)) as [m |]; [| congruence].
      destruct Hcase as (_ & Hr & _). rewrite Hr, same_refl. cbn [andb].
      assert (H0 : filter (fun x => real x && same (name_of x) (name_of s)) d = []).
      { destruct (filter (fun x => real x && same (name_of x) (name_of s)) d) as [| x l] eqn:E; [reflexivity |].
        exfalso. assert (Hin : In x (filter (fun x => real x && same (name_of x) (name_of s)) d)) by (rewrite E; left; reflexivity).
        apply filter_In in Hin. destruct Hin as [Hin H]. apply andb_true_iff in H. destruct H as [_ H].
        apply same_iff in H. assert (bound d (name_of s) = true) by (apply bound_iff; exists x; split; assumption). congruence. }
      rewrite H0. reflexivity.
    + rewrite (Hlo n Hne) in Hl. rewrite (inv_once d st Inv n Hl).
      rewrite (proj2 (same_false (name_of s) n)) by congruence. rewrite andb_false_r. reflexivity.
Qed.

Lemma step : forall d st s st',
  invariant d st -> (forall ns, s <> Ignore ns) -> (forall n, In n (names s) -> regular n) ->
  (special cls (mangle (name_of s)) = false -> tame_statement minor cls outside d s) ->
  execute st s = Some st' -> invariant (d ++ [s]) st'.
Proof.
  intros d st s st' Inv Hign Hreg Htame Hex.
  assert (Hs : regular (name_of s)) by (apply Hreg; left; reflexivity).
  assert (Hsp : special cls (mangle (name_of s)) = excluded (name_of s)) by (apply regular_special; assumption).
  destruct (real s) eqn:Er.
  2: { destruct s as [k e | k | k ds v | k ds v | k g | ks]; cbn in Er; try discriminate; [| exfalso; apply (Hign ks); reflexivity].
       cbn in Hex. injection Hex as <-. cbn [name_of] in *.
       destruct (excluded k || bound d k) eqn:E.
       - apply (step_kept d st); cbn [name_of real]; try assumption; try reflexivity; try discriminate.
         + rewrite gather_snoc. cbn [name_of]. rewrite E. apply app_nil_r.
         + apply (inv_ignored d st Inv).
         + split; [intro H; right; exact H | intros [H | H]; [discriminate | exact H]].
       - apply orb_false_iff in E. destruct E as [Hx Hb].
         apply (step_new d st (Declare k) st NoMember); cbn [name_of real]; try assumption; try reflexivity.
         + apply (inv_ignored d st Inv).
         + split; [| discriminate]. intro H. exfalso. apply (inv_bound d st Inv k Hs) in H.
           destruct H as (x & Hin & _ & E). assert (bound d k = true) by (apply bound_iff; exists x; split; assumption). congruence.
         + rewrite (look_new _ k NoMember (unbound_not_found minor d k Hb) (unbound_no_target minor d k Hb)).
           split; [reflexivity | intros []]. }
  rewrite (execute_real st s Er) in Hex. destruct (evaluated st s) as [o |] eqn:He; [| discriminate].
  destruct (excluded (name_of s)) eqn:Hx.
  - apply (setitem_special _ _ _ _ Hsp) in Hex. subst st'.
    assert (Hl : look (gather [] d) (name_of s) = None).
    { destruct (look (gather [] d) (name_of s)) eqn:E; [| reflexivity]. exfalso.
      assert (H : look (gather [] d) (name_of s) <> None) by congruence.
      destruct (found_regular d st _ Inv H) as (_ & H2 & _). congruence. }
    apply (step_kept d st); try assumption; try reflexivity; try discriminate.
    + rewrite gather_snoc, Hx. apply app_nil_r.
    + apply (inv_ignored d st Inv).
    + intros n Hn Hne. apply get_put_other; assumption.
    + rewrite get_put, same_refl. split; [intros _; left; exact Er | discriminate].
    + congruence.
    + intros _. exact Hl.
    + congruence.
  - specialize (Htame Hsp). pose proof (regular_unmangled cls _ proper Hs Hx) as Hmg.
    rewrite (setitem_cases st _ o Hsp (inv_ignored d st Inv)), Hmg in Hex.
    destruct (mem (name_of s) (member_names st)) eqn:Hmem; [discriminate |].
    assert (Hl : look (gather [] d) (name_of s) = None).
    { destruct (look (gather [] d) (name_of s)) eqn:E; [| reflexivity]. exfalso.
      assert (H : In (name_of s) (member_names st)) by (apply (found_in d st _ Inv); congruence).
      apply mem_iff in H. congruence. }
    destruct (bound d (name_of s)) eqn:Hb.
    + assert (Hgot : get st (name_of s) <> None).
      { rewrite <- Hmg. apply (inv_bound d st Inv _ Hs). apply bound_iff in Hb. destruct Hb as (x & Hin & E).
        exists x. split; [exact Hin |]. split; [| exact E]. destruct x; try reflexivity; exfalso.
        - destruct Htame as [Hd _]. cbn [name_of] in E. subst n. destruct s; try discriminate; apply Hd; exact Hin.
        - cbn [name_of] in E. rewrite <- E in Hx. vm_compute in Hx. discriminate. }
      assert (Hput : accepts o = None /\ st' = put st (name_of s) (kept o)).
      { destruct (accepts o) as [v |]; [| split; [reflexivity | congruence]]. exfalso.
        unfold add_member in Hex. destruct (get st (name_of s)); [discriminate | congruence]. }
      destruct Hput as [Hacc ->].
      apply (step_kept d st); try assumption; try reflexivity; try discriminate.
      * rewrite gather_snoc, Hx, Hb. apply app_nil_r.
      * apply (inv_ignored d st Inv).
      * intros n Hn Hne. rewrite <- Hmg. apply get_put_other; assumption.
      * rewrite Hmg, get_put, same_refl. split; [intros _; left; exact Er | discriminate].
      * congruence.
      * intros _. exact Hl.
      * intros _ _ Ht. rewrite get_put, same_refl. destruct (target_value st s o Ht He) as [Ha | (v & ->)]; [congruence |].
        exists v. reflexivity.
    + pose proof (judged d st s o Inv Hreg Htame Er Hb He) as Hj.
      assert (Hnone : get st (name_of s) = None).
      { destruct (get st (name_of s)) eqn:Hg; [| reflexivity]. exfalso.
        assert (H : get st (mangle (name_of s)) <> None) by (rewrite Hmg; congruence).
        apply (inv_bound d st Inv _ Hs) in H. destruct H as (x & Hin & _ & E).
        assert (bound d (name_of s) = true) by (apply bound_iff; exists x; split; assumption). congruence. }
      assert (Hst : ignored st' = [] /\ exists w,
                get st' (name_of s) = Some w
                /\ (forall n, regular n -> n <> name_of s -> get st' (mangle n) = get st (mangle n))
                /\ match accepts o with
                   | Some v => w = v /\ member_names st' = member_names st ++ [name_of s]
                   | None => w = kept o /\ member_names st' = member_names st
                   end).
      { destruct (accepts o) as [v |].
        - unfold add_member in Hex. rewrite Hnone in Hex. injection Hex as <-. split; [apply (inv_ignored d st Inv) |].
          exists v. change (get (mk_state ((name_of s, v) :: namespace st) (member_names st ++ [name_of s]) (ignored st)))
            with (get (put st (name_of s) v)).
          split; [rewrite get_put, same_refl; reflexivity |].
          split; [| split; reflexivity].
          intros n Hn Hne. rewrite <- Hmg. apply get_put_other; assumption.
        - injection Hex as <-. split; [apply (inv_ignored d st Inv) |]. exists (kept o).
          split; [rewrite get_put, same_refl; reflexivity |].
          split; [| split; reflexivity]. intros n Hn Hne. rewrite <- Hmg. apply get_put_other; assumption. }
      destruct Hst as (Hi & w & Hw & Hother & Hcase).
      apply (step_new d st s st' (judge minor d s)); try assumption; try reflexivity.
      * rewrite Hmg, Hw. split; [intros _; exact Er | discriminate].
      * destruct (look (gather [] d ++ [(name_of s, judge minor d s)]) (name_of s)) as [m |].
        -- destruct Hj as (v & Ha & Hor). rewrite Ha in Hcase. destruct Hcase as [-> Hmn].
           split; [exact Hmn |]. split; [exact Er |]. split.
           ++ destruct Hor as [-> | (H1 & H2)]; [left; reflexivity | right]. split; [exact H1 |]. congruence.
           ++ intro Ht. exists v. split; [exact Hw |].
              destruct (target_value st s o Ht He) as [Hacc | (u & ->)]; [| discriminate]. congruence.
        -- rewrite Hj in Hcase. destruct Hcase as [-> Hmn]. split; [exact Hmn |].
           intro Ht. destruct (target_value st s o Ht He) as [Hacc | (u & ->)]; [congruence |]. exists u. exact Hw.
Qed.

Lemma run_snoc : forall body st s,
  run minor cls outside st (body ++ [s]) =
  match run minor cls outside st body with Some st' => execute st' s | None => None end.
Proof.
  induction body as [| x body IH]; intros st s; cbn [app run].
  - destruct (execute st s); reflexivity.
  - destruct (execute st x); [apply IH | reflexivity].
Qed.

Theorem run_invariant : forall body st,
  tame minor cls outside body -> run minor cls outside (mk_state [] [] []) body = Some st -> invariant body st.
Proof.
  intro body. induction body as [| s body IH] using rev_ind; intros st (Hi & Hr & Ht) H.
  - cbn in H. injection H as <-. apply invariant_start.
  - rewrite run_snoc in H. destruct (run minor cls outside (mk_state [] [] []) body) as [st0 |] eqn:E; [| discriminate].
    assert (Inv : invariant body st0).
    { apply IH; [| reflexivity]. split; [| split].
      - intros ns Hin. apply (Hi ns). apply in_snoc. left. exact Hin.
      - intros x n Hx. apply Hr. apply in_snoc. left. exact Hx.
      - intros e x l -> Hsp. apply (Ht e x (l ++ [s])); [rewrite <- app_assoc; reflexivity | exact Hsp]. }
    apply (step body st0 s st Inv).
    + intros ns ->. apply (Hi ns). apply in_snoc. right. reflexivity.
    + intros n Hn. apply (Hr s n); [apply in_snoc; right; reflexivity | exact Hn].
    + apply (Ht body s []). reflexivity.
    + exact H.
Qed.
End Run.
