(** Flow analysis is right about tame programs: joining frames loses nothing, and each statement does to the frames what it does to the store. *)
From Coq Require Import List NArith ZArith Bool Lia.
From Verif Require Import FlowModel FlowSpec FlowTame.
Import ListNotations.

Lemma index_eqb_eq : forall a b, index_eqb a b = true <-> a = b.
Proof.
  intros [i|s] [j|t]; cbn [index_eqb]; split; intros H; try discriminate.
  - apply Z.eqb_eq in H. now rewrite H.
  - injection H as H. now apply Z.eqb_eq.
  - apply N.eqb_eq in H. now rewrite H.
  - injection H as H. now apply N.eqb_eq.
Qed.

Lemma equals_eq : forall a b, equals a b = true <-> a = b.
Proof.
  induction a as [n|a IH n|a IH i]; intros [m|b m|b j]; cbn [equals]; split; intros H; try discriminate.
  - apply N.eqb_eq in H. now rewrite H.
  - injection H as H. now apply N.eqb_eq.
  - apply andb_true_iff in H as [H1 H2]. apply IH in H1. apply N.eqb_eq in H2. now rewrite H1, H2.
  - injection H as H1 H2. apply andb_true_iff. split; [now apply IH|now apply N.eqb_eq].
  - apply andb_true_iff in H as [H1 H2]. apply IH in H1. apply index_eqb_eq in H2. now rewrite H1, H2.
  - injection H as H1 H2. apply andb_true_iff. split; [now apply IH|now apply index_eqb_eq].
Qed.

Lemma equals_refl : forall k, equals k k = true.
Proof. intros k. now apply equals_eq. Qed.

Lemma equals_neq : forall a b, equals a b = false <-> a <> b.
Proof.
  intros a b. split.
  - intros H E. apply equals_eq in E. congruence.
  - intros H. destruct (equals a b) eqn:E; [|reflexivity]. apply equals_eq in E. contradiction.
Qed.

Lemma equals_sym : forall a b, equals a b = equals b a.
Proof.
  intros a b. destruct (equals a b) eqn:E.
  - apply equals_eq in E. subst b. symmetry. apply equals_refl.
  - symmetry. apply equals_neq. apply equals_neq in E. congruence.
Qed.

Lemma key_dec : forall a b : key, a = b \/ a <> b.
Proof. intros a b. destruct (equals a b) eqn:E; [left; now apply equals_eq|right; now apply equals_neq]. Qed.

Lemma is_child_of_below : forall k s, is_child_of k s = true <-> below k s.
Proof.
  induction k as [n|k IH n|k IH i]; intros s; cbn [is_child_of]; split; intros H.
  - discriminate.
  - inversion H.
  - apply orb_true_iff in H as [H|H].
    + apply equals_eq in H. subst s. constructor.
    + constructor. now apply IH.
  - apply orb_true_iff. inversion H as [k0 n0 E1 E2| |k0 s0 n0 Hb E1 E2|]; subst.
    + left. apply equals_refl.
    + right. now apply IH.
  - apply orb_true_iff in H as [H|H].
    + apply equals_eq in H. subst s. constructor.
    + constructor. now apply IH.
  - apply orb_true_iff. inversion H as [|k0 n0 E1 E2| |k0 s0 n0 Hb E1 E2]; subst.
    + left. apply equals_refl.
    + right. now apply IH.
Qed.

Section Frames.
Variables (type value : Type).
Variables (never : type) (simplified_union : type -> type -> type) (common_sub_type : type -> type -> option type).
Variables (declared : key -> type) (has : type -> value -> Prop).
Hypothesis has_union : forall t1 t2 v, has t1 v \/ has t2 v -> has (simplified_union t1 t2) v.
Hypothesis has_common : forall t1 t2 t v, common_sub_type t1 t2 = Some t -> has t1 v -> has t2 v -> has t v.
Hypothesis has_disjoint : forall t1 t2 v, common_sub_type t1 t2 = None -> has t1 v -> ~ has t2 v.
Variables (tracked : key -> Prop) (params : list N).

Notation entry := (entry type).
Notation frame := (frame type).
Notation state := (state type).
Notation union_of_refs := (union_of_refs type simplified_union).
Notation merge_with_ancestor := (merge_with_ancestor type simplified_union).
Notation within := (within type value has).
Notation fits := (fits type value declared has).
Notation allows := (allows type value declared has tracked).
Notation isolated := (isolated tracked).
Notation find_entry := (find_entry type).
Notation lookup := (lookup type).

Definition keys (es : list entry) : list key := map (e_key _) es.

(** * Entries *)
Lemma find_key : forall k es e, find_entry k es = Some e -> In e es /\ e_key _ e = k.
Proof.
  intros k es e H. apply find_some in H as [H1 H2]. split; [exact H1|now apply equals_eq].
Qed.

Lemma find_in_keys : forall k es, In k (keys es) <-> find_entry k es <> None.
Proof.
  intros k es. induction es as [|e es IH]; cbn [keys map find_entry find].
  - split; [intros []|congruence].
  - unfold find_entry in *. cbn [find]. destruct (equals (e_key _ e) k) eqn:E.
    + split; [congruence|]. intros _. left. now apply equals_eq.
    + rewrite <- IH. apply equals_neq in E. split; [intros [F|F]; [contradiction|exact F]|now right].
Qed.

Lemma find_in : forall es e, NoDup (keys es) -> In e es -> find_entry (e_key _ e) es = Some e.
Proof.
  induction es as [|x es IH]; intros e Hn Hi; [destruct Hi|].
  cbn [keys map] in Hn. inversion Hn as [|y l H1 H2 E]; subst. unfold find_entry. cbn [find].
  destruct Hi as [->|Hi].
  - now rewrite equals_refl.
  - destruct (equals (e_key _ x) (e_key _ e)) eqn:E.
    + apply equals_eq in E. exfalso. apply H1. rewrite E. now apply in_map.
    + now apply IH.
Qed.

Lemma find_put : forall new es k,
  find_entry k (put _ new es) = if equals (e_key _ new) k then Some new else find_entry k es.
Proof.
  intros new es k. induction es as [|e es IH]; unfold find_entry in *; cbn [put find].
  - reflexivity.
  - destruct (equals (e_key _ e) (e_key _ new)) eqn:E.
    + apply equals_eq in E. cbn [find]. rewrite E. destruct (equals (e_key _ new) k); reflexivity.
    + cbn [find]. rewrite IH. destruct (equals (e_key _ e) k) eqn:F; [|reflexivity].
      apply equals_eq in F. subst k. now rewrite equals_sym, E.
Qed.

Lemma keys_put : forall new es, incl (keys (put _ new es)) (e_key _ new :: keys es).
Proof.
  intros new es. induction es as [|e es IH]; cbn [put keys map].
  - apply incl_refl.
  - destruct (equals (e_key _ e) (e_key _ new)) eqn:E; cbn [keys map]; intros k H.
    + destruct H as [H|H]; [now left|right; now right].
    + destruct H as [H|H]; [right; now left|]. apply IH in H as [H|H]; [now left|right; now right].
Qed.

Lemma nodup_put : forall new es, NoDup (keys es) -> NoDup (keys (put _ new es)).
Proof.
  intros new es. induction es as [|e es IH]; cbn [put keys map]; intros H.
  - constructor; [intros []|constructor].
  - inversion H as [|x l H1 H2 E]; subst. destruct (equals (e_key _ e) (e_key _ new)) eqn:E; cbn [keys map].
    + apply equals_eq in E. rewrite <- E. now constructor.
    + constructor; [|now apply IH]. intros F. apply keys_put in F as [F|F].
      * apply equals_neq in E. congruence.
      * contradiction.
Qed.

Lemma in_put : forall (new : entry) es e, In e (put _ new es) -> e = new \/ In e es.
Proof.
  intros new es e. induction es as [|x es IH]; cbn [put].
  - intros [H|[]]. now left.
  - destruct (equals (e_key _ x) (e_key _ new)); intros [H|H].
    + now left.
    + right. now right.
    + right. now left.
    + apply IH in H as [H|H]; [now left|right; now right].
Qed.

Lemma find_app_one : forall es e k,
  find_entry k (es ++ [e]) = match find_entry k es with Some x => Some x | None => if equals (e_key _ e) k then Some e else None end.
Proof.
  intros es e k. induction es as [|x es IH]; unfold find_entry in *; cbn [find app]; [reflexivity|].
  destruct (equals (e_key _ x) k); [reflexivity|exact IH].
Qed.

Lemma nodup_app_one : forall es e, NoDup (keys es) -> ~ In (e_key _ e) (keys es) -> NoDup (keys (es ++ [e])).
Proof.
  intros es e. unfold keys. rewrite map_app. induction (map (e_key _) es) as [|k ks IH]; cbn [app map]; intros H N.
  - constructor; [intros []|constructor].
  - inversion H as [|x l H1 H2 E]; subst. constructor.
    + intros F. apply in_app_or in F as [F|[F|[]]]; [contradiction|]. apply N. left. now symmetry.
    + apply IH; [exact H2|]. intros F. apply N. now right.
Qed.

Lemma nodup_filter : forall (p : entry -> bool) es, NoDup (keys es) -> NoDup (keys (filter p es)).
Proof.
  intros p es. induction es as [|e es IH]; cbn [filter keys map]; intros H; [constructor|].
  inversion H as [|x l H1 H2 E]; subst. destruct (p e); [|now apply IH].
  cbn [keys map]. constructor; [|now apply IH]. intros F. apply H1. unfold keys in *. apply in_map_iff in F as [x [F1 F2]].
  rewrite <- F1. apply filter_In in F2 as [F2 _]. now apply in_map.
Qed.

Lemma find_filter : forall (p : entry -> bool) es k, NoDup (keys es) ->
  find_entry k (filter p es) = match find_entry k es with Some e => if p e then Some e else None | None => None end.
Proof.
  intros p es k. induction es as [|e es IH]; cbn [filter]; intros H; [reflexivity|].
  inversion H as [|x l H1 H2 E]; subst. specialize (IH H2). unfold find_entry in *. cbn [find].
  destruct (p e) eqn:P.
  - cbn [find]. destruct (equals (e_key _ e) k) eqn:F; [now rewrite P|exact IH].
  - rewrite IH. destruct (equals (e_key _ e) k) eqn:F; [|reflexivity]. rewrite P.
    apply equals_eq in F. subst k. destruct (find (fun x => equals (e_key _ x) (e_key _ e)) es) as [x|] eqn:G; [|reflexivity].
    exfalso. apply H1. apply find_in_keys. unfold find_entry. rewrite G. discriminate.
Qed.

(** * What entries allow *)
Definition typed (k : key) (v : option value) : Prop := within (declared k) v.

Lemma within_none : forall t, within t None.
Proof. intros t w H. discriminate. Qed.

Lemma fits_union : forall e o v, e_key _ e = e_key _ o -> typed (e_key _ e) v -> fits e v \/ fits o v -> fits (union_of_refs e o) v.
Proof.
  intros e o v Hk Ht H. unfold fits, FlowTame.fits, union_of_refs, FlowModel.union_of_refs in *.
  destruct e as [k a m d], o as [k' a' m' d']. cbn [e_key e_kind e_modifies e_deleted] in *. subst k'.
  destruct d, d'; cbn [andb] in *.
  - destruct H as [H|H]; exact H.
  - destruct H as [->|H]; [apply within_none|exact H].
  - destruct H as [H| ->]; [exact H|apply within_none].
  - destruct a as [t|], a' as [t'|]; cbn [simplified]; try exact Ht.
    intros w ->. apply has_union. destruct H as [H|H]; [left|right]; now apply H.
Qed.

Lemma fits_with_declaration : forall e v, e_deleted _ e = false -> typed (e_key _ e) v -> fits (with_declaration _ e) v.
Proof. intros e v H Ht. unfold fits, FlowTame.fits, with_declaration. cbn [e_deleted e_kind e_key]. now rewrite H. Qed.

Lemma allows_lookup : forall fs k v e, allows fs k v -> lookup fs k = Some e -> fits e v /\ e_key _ e = k.
Proof.
  induction fs as [|f fs IH]; intros k v e H L; cbn [FlowModel.lookup] in L; [discriminate|].
  cbn [FlowTame.allows] in H. destruct (find_entry k (f_entries _ f)) as [x|] eqn:F.
  - injection L as ->. destruct H as [H _]. split; [exact H|]. now apply find_key in F.
  - now apply IH.
Qed.

Lemma lookup_key : forall fs k e, lookup fs k = Some e -> e_key _ e = k.
Proof.
  induction fs as [|f fs IH]; intros k e L; cbn [FlowModel.lookup] in L; [discriminate|].
  destruct (find_entry k (f_entries _ f)) as [x|] eqn:F; [|now apply IH].
  injection L as ->. now apply find_key in F.
Qed.

Lemma merge_key : forall fs e, e_key _ (merge_with_ancestor fs e) = e_key _ e.
Proof.
  intros fs e. unfold FlowModel.merge_with_ancestor. destruct (lookup fs (e_key _ e)) as [a|] eqn:L; [|reflexivity].
  cbn [FlowModel.union_of_refs e_key]. now apply lookup_key in L.
Qed.

Lemma merge_modifies : forall fs e, e_modifies _ e = true -> e_modifies _ (merge_with_ancestor fs e) = true.
Proof.
  intros fs e H. unfold FlowModel.merge_with_ancestor. destruct (lookup fs (e_key _ e)) as [a|]; cbn [FlowModel.union_of_refs with_declaration e_modifies].
  - rewrite H. apply orb_true_r.
  - exact H.
Qed.

Lemma merge_deleted : forall fs e, e_deleted _ (merge_with_ancestor fs e) = true -> e_deleted _ e = true.
Proof.
  intros fs e. unfold FlowModel.merge_with_ancestor.
  destruct (lookup fs (e_key _ e)) as [a|]; cbn [FlowModel.union_of_refs with_declaration e_deleted]; [|now intros H].
  intros H. now apply andb_true_iff in H as [_ H].
Qed.

(** The base frame knows the names that may be deleted *)
Definition deletable (k : key) : Prop := exists n, In n params /\ k = Name n.
Definition known (fs : list frame) : Prop := forall k, deletable k -> lookup fs k <> None.

Definition entry_ok (e : entry) : Prop := tracked (e_key _ e) /\ (e_deleted _ e = true -> deletable (e_key _ e)).

Lemma merge_fits : forall fs e v, known fs -> entry_ok e -> typed (e_key _ e) v -> fits e v \/ allows fs (e_key _ e) v ->
  fits (merge_with_ancestor fs e) v.
Proof.
  intros fs e v K [_ Hd] Ht H. unfold FlowModel.merge_with_ancestor. destruct (lookup fs (e_key _ e)) as [a|] eqn:L.
  - pose proof (lookup_key _ _ _ L) as E. apply fits_union; [exact E|now rewrite E|].
    destruct H as [H|H]; [now right|left]. now apply (allows_lookup _ _ _ _ H).
  - apply fits_with_declaration; [|exact Ht]. destruct (e_deleted _ e) eqn:D; [|reflexivity].
    exfalso. now apply (K (e_key _ e) (Hd eq_refl)).
Qed.

(** * Frames that are well formed *)
Definition entries_ok (es : list entry) : Prop := NoDup (keys es) /\ Forall entry_ok es.

Fixpoint stack_ok (fs : list frame) : Prop :=
  match fs with
  | [] => False
  | f :: fs =>
      entries_ok (f_entries _ f) /\
      match fs with [] => forall k, deletable k -> find_entry k (f_entries _ f) <> None | _ => stack_ok fs end
  end.

Lemma stack_entries : forall f fs, stack_ok (f :: fs) -> entries_ok (f_entries _ f).
Proof. intros f fs [H _]. exact H. Qed.

Lemma stack_known : forall fs, stack_ok fs -> known fs.
Proof.
  induction fs as [|f fs IH]; intros H k D; [destruct H|].
  cbn [FlowModel.lookup]. destruct (find_entry k (f_entries _ f)) as [e|] eqn:F; [discriminate|].
  destruct H as [_ H]. destruct fs as [|g fs].
  - exfalso. now apply (H k D).
  - now apply IH.
Qed.

Lemma stack_push : forall f fs, stack_ok fs -> entries_ok (f_entries _ f) -> stack_ok (f :: fs).
Proof. intros f fs H He. destruct fs as [|g fs]; [destruct H|]. now split. Qed.

(** Replacing the entries of the innermost frame keeps the stack well formed *)
Lemma stack_replace : forall f fs es u, stack_ok (f :: fs) -> entries_ok es ->
  (fs = [] -> forall k, deletable k -> find_entry k es <> None) -> stack_ok (Frame _ es u :: fs).
Proof.
  intros f fs es u [_ H] He Hd. split; [exact He|]. destruct fs as [|g fs]; [now apply Hd|exact H].
Qed.

Lemma entry_in : forall es e, entries_ok es -> In e es -> entry_ok e.
Proof. intros es e [_ H] Hi. rewrite Forall_forall in H. now apply H. Qed.

Lemma entry_found : forall es k e, entries_ok es -> find_entry k es = Some e -> entry_ok e /\ tracked k.
Proof.
  intros es k e H F. apply find_key in F as [F1 F2]. pose proof (entry_in _ _ H F1) as Ho. split; [exact Ho|].
  destruct Ho as [Ho _]. now rewrite <- F2.
Qed.

Lemma isolated_child : forall k k', isolated k -> tracked k' -> is_child_of k' k = false /\ is_child_of k k' = false.
Proof.
  intros k k' H T. destruct (H k' T) as [H1 H2]. split.
  - destruct (is_child_of k' k) eqn:E; [|reflexivity]. apply is_child_of_below in E. contradiction.
  - destruct (is_child_of k k') eqn:E; [|reflexivity]. apply is_child_of_below in E. contradiction.
Qed.

Lemma allows_cons : forall f fs k v,
  allows (f :: fs) k v <->
  match find_entry k (f_entries _ f) with
  | Some e => fits e v /\ ((e_modifies _ e = true /\ isolated k) \/ allows fs k v)
  | None => allows fs k v
  end.
Proof. reflexivity. Qed.

(** Below the innermost frame, things are as before, unless the key was assigned *)
Lemma allows_tail : forall f fs k v, allows (f :: fs) k v ->
  (exists e, find_entry k (f_entries _ f) = Some e /\ fits e v /\ e_modifies _ e = true /\ isolated k) \/ allows fs k v.
Proof.
  intros f fs k v H. rewrite allows_cons in H. destruct (find_entry k (f_entries _ f)) as [e|] eqn:F; [|now right].
  destruct H as [H1 [[H2 H3]|H2]]; [left|now right]. exists e. exact (conj eq_refl (conj H1 (conj H2 H3))).
Qed.

Lemma allows_tail_child : forall f fs k k' v, tracked k' -> is_child_of k k' = true -> allows (f :: fs) k v -> allows fs k v.
Proof.
  intros f fs k k' v T C H. apply allows_tail in H as [[e [_ [_ [_ H]]]]|H]; [|exact H].
  destruct (isolated_child _ _ H T) as [_ F]. congruence.
Qed.

Lemma allows_untracked : forall fs k v, stack_ok fs -> ~ tracked k -> typed k v -> allows fs k v.
Proof.
  induction fs as [|f fs IH]; intros k v H N Ht; [destruct H|]. rewrite allows_cons.
  destruct (find_entry k (f_entries _ f)) as [e|] eqn:F.
  - exfalso. apply N. destruct H as [H _]. now apply (entry_found _ _ _ H F).
  - destruct H as [_ H]. destruct fs as [|g fs]; [exact Ht|]. now apply IH.
Qed.

(** An entry for the key may be put in the innermost frame *)
Definition supports (fs : list frame) (e : entry) (v : option value) : Prop :=
  fits e v /\ ((e_modifies _ e = true /\ isolated (e_key _ e)) \/ allows fs (e_key _ e) v).

Lemma supports_allows : forall es u fs e v, find_entry (e_key _ e) es = Some e -> supports fs e v -> allows (Frame _ es u :: fs) (e_key _ e) v.
Proof. intros es u fs e v F H. rewrite allows_cons. cbn [f_entries]. now rewrite F. Qed.

Lemma supports_merge : forall fs st e v, known st -> entry_ok e -> typed (e_key _ e) v -> e_modifies _ e = true ->
  fits e v \/ allows st (e_key _ e) v -> isolated (e_key _ e) \/ allows fs (e_key _ e) v -> supports fs (merge_with_ancestor st e) v.
Proof.
  intros fs st e v K He Ht M H Hi. split; rewrite ?merge_key.
  - now apply merge_fits.
  - destruct Hi as [Hi|Hi]; [left|now right]. split; [now apply merge_modifies|exact Hi].
Qed.

Lemma union_key : forall e o, e_key _ (union_of_refs e o) = e_key _ e.
Proof. reflexivity. Qed.

Lemma supports_union : forall fs e o v, e_key _ e = e_key _ o -> typed (e_key _ e) v -> fits e v \/ fits o v ->
  ((e_modifies _ e = true \/ e_modifies _ o = true) /\ isolated (e_key _ e)) \/ allows fs (e_key _ e) v ->
  supports fs (union_of_refs e o) v.
Proof.
  intros fs e o v E Ht H Hi. split.
  - now apply fits_union.
  - rewrite union_key. destruct Hi as [[M Hi]|Hi]; [left|now right]. split; [|exact Hi].
    cbn [FlowModel.union_of_refs e_modifies]. destruct M as [-> | ->]; [reflexivity|apply orb_true_r].
Qed.

Lemma union_ok : forall e o, entry_ok e -> entry_ok (union_of_refs e o).
Proof.
  intros e o [H1 H2]. split; cbn [FlowModel.union_of_refs e_key e_deleted]; [exact H1|].
  intros H. apply andb_true_iff in H as [H _]. now apply H2.
Qed.

Lemma merge_ok : forall fs e, entry_ok e -> entry_ok (merge_with_ancestor fs e).
Proof.
  intros fs e [H1 H2]. split; rewrite merge_key; [exact H1|]. intros H. now apply H2, (merge_deleted fs).
Qed.

Lemma filter_ok : forall p es, entries_ok es -> entries_ok (filter p es).
Proof.
  intros p es [H1 H2]. split; [now apply nodup_filter|]. apply Forall_forall. intros e H. apply filter_In in H as [H _].
  rewrite Forall_forall in H2. now apply H2.
Qed.

Lemma put_ok : forall new es, entries_ok es -> entry_ok new -> entries_ok (put _ new es).
Proof.
  intros new es [H1 H2] Hn. split; [now apply nodup_put|]. apply Forall_forall. intros e H.
  apply in_put in H as [->|H]; [exact Hn|]. rewrite Forall_forall in H2. now apply H2.
Qed.

Lemma find_invalidate : forall es k k', entries_ok es ->
  find_entry k (invalidate_child_entries _ es k') = if is_child_of k k' then None else find_entry k es.
Proof.
  intros es k k' [H _]. unfold invalidate_child_entries. rewrite find_filter by exact H.
  destruct (find_entry k es) as [e|] eqn:F; [|now destruct (is_child_of k k')].
  destruct (find_key _ _ _ F) as [_ ->]. now destruct (is_child_of k k').
Qed.

Lemma deletable_child : forall k k', deletable k -> is_child_of k k' = false.
Proof. intros k k' [n [_ ->]]. reflexivity. Qed.

(** * What is recorded for [try] *)
Notation record_in_try := (record_in_try type simplified_union).
Notation overwrite_entry := (overwrite_entry type simplified_union).
Notation add_union := (add_union type simplified_union).

Lemma find_add_union : forall new es k,
  find_entry k (add_union new es) =
  if equals (e_key _ new) k then Some (match find_entry k es with Some e => union_of_refs e new | None => new end) else find_entry k es.
Proof.
  intros new es k. induction es as [|e es IH]; unfold find_entry in *; cbn [FlowModel.add_union find].
  - destruct (equals (e_key _ new) k); reflexivity.
  - destruct (equals (e_key _ e) (e_key _ new)) eqn:E.
    + apply equals_eq in E. cbn [find FlowModel.union_of_refs e_key]. rewrite E. destruct (equals (e_key _ new) k); reflexivity.
    + cbn [find]. rewrite IH. destruct (equals (e_key _ e) k) eqn:F; [|reflexivity].
      apply equals_eq in F. subst k. now rewrite equals_sym, E.
Qed.

Lemma in_add_union : forall new es e, In e (add_union new es) ->
  e = new \/ In e es \/ exists x, In x es /\ e_key _ x = e_key _ new /\ e = union_of_refs x new.
Proof.
  intros new es e. induction es as [|x es IH]; cbn [FlowModel.add_union].
  - intros [H|[]]. now left.
  - destruct (equals (e_key _ x) (e_key _ new)) eqn:E; intros [H|H].
    + right. right. exists x. apply equals_eq in E. split; [now left|]. split; [exact E|now symmetry].
    + right. left. now right.
    + right. left. now left.
    + destruct (IH H) as [H1|[H1|[y [H1 H2]]]]; [now left|right; left; now right|].
      right. right. exists y. split; [now right|exact H2].
Qed.

Lemma keys_add_union : forall new es, incl (keys (add_union new es)) (e_key _ new :: keys es).
Proof.
  intros new es. induction es as [|e es IH]; cbn [FlowModel.add_union keys map].
  - apply incl_refl.
  - destruct (equals (e_key _ e) (e_key _ new)) eqn:E; cbn [keys map]; intros k H.
    + destruct H as [H|H]; [right; now left|right; now right].
    + destruct H as [H|H]; [right; now left|]. apply IH in H as [H|H]; [now left|right; now right].
Qed.

Lemma nodup_add_union : forall new es, NoDup (keys es) -> NoDup (keys (add_union new es)).
Proof.
  intros new es. induction es as [|e es IH]; cbn [FlowModel.add_union keys map]; intros H.
  - constructor; [intros []|constructor].
  - inversion H as [|x l H1 H2 E]; subst. destruct (equals (e_key _ e) (e_key _ new)) eqn:E; cbn [keys map].
    + now constructor.
    + constructor; [|now apply IH]. intros F. apply keys_add_union in F as [F|F].
      * apply equals_neq in E. congruence.
      * contradiction.
Qed.

(** The entries kept for a [try]; all of them are assignments *)
Definition try_ok (es : list entry) : Prop := entries_ok es /\ forall e, In e es -> e_modifies _ e = true.

Lemma record_ok : forall fs es new, try_ok es -> entry_ok new -> e_modifies _ new = true -> try_ok (record_in_try fs new es).
Proof.
  intros fs es new [Hes Hm] Hn M. unfold FlowModel.record_in_try. cbv zeta.
  pose proof (filter_ok (fun e => negb (is_child_of (e_key _ e) (e_key _ new))) es Hes) as H1.
  assert (H2 : forall e, In e (invalidate_child_entries _ es (e_key _ new)) -> e_modifies _ e = true).
  { intros e H. apply filter_In in H as [H _]. now apply Hm. }
  fold (invalidate_child_entries _ es (e_key _ new)) in H1.
  destruct (existsb _ _); [now split|]. pose proof (merge_ok fs new Hn) as Ho. pose proof (merge_modifies fs new M) as Mo.
  destruct H1 as [H3 H4]. split; [split; [now apply nodup_add_union|]|].
  - apply Forall_forall. intros e H. rewrite Forall_forall in H4.
    apply in_add_union in H as [->|[H|[x [H [E ->]]]]]; [exact Ho|now apply H4|]. now apply union_ok, H4.
  - intros e H. apply in_add_union in H as [->|[H|[x [H [E ->]]]]]; [exact Mo|now apply H2|].
    cbn [FlowModel.union_of_refs e_modifies]. rewrite (H2 x H). reflexivity.
Qed.

(** A value that a list of entries says is possible *)
Definition possible (es : list entry) (k : key) (v : option value) : Prop := exists e, find_entry k es = Some e /\ fits e v.

(** The other list of entries says that more is possible *)
Definition wider (es es' : list entry) : Prop := forall k v, isolated k -> typed k v -> possible es k v -> possible es' k v.

Lemma wider_refl : forall es, wider es es.
Proof. intros es k v _ _ H. exact H. Qed.

Lemma wider_trans : forall a b c, wider a b -> wider b c -> wider a c.
Proof. intros a b c H1 H2 k v Hi Ht H. apply H2; [exact Hi|exact Ht|]. now apply H1. Qed.

Lemma record_wider : forall fs es new, try_ok es -> entry_ok new -> wider es (record_in_try fs new es).
Proof.
  intros fs es new [Hes _] Hn k v Hi Ht [e [F H]]. unfold FlowModel.record_in_try. cbv zeta.
  destruct (isolated_child _ _ Hi (proj1 Hn)) as [_ C]. destruct (find_key _ _ _ F) as [_ K].
  assert (F' : find_entry k (invalidate_child_entries _ es (e_key _ new)) = Some e) by (rewrite find_invalidate by exact Hes; now rewrite C).
  destruct (existsb _ _); [exists e; now split|]. unfold possible. rewrite find_add_union, merge_key.
  destruct (equals (e_key _ new) k) eqn:E; [|exists e; now split].
  rewrite F'. eexists. split; [reflexivity|]. apply equals_eq in E.
  apply fits_union; [rewrite merge_key; congruence|now rewrite K|now left].
Qed.

Lemma record_possible : forall fs es new v, known fs -> try_ok es -> entry_ok new -> isolated (e_key _ new) ->
  typed (e_key _ new) v -> fits new v -> possible (record_in_try fs new es) (e_key _ new) v.
Proof.
  intros fs es new v K [Hes _] Hn Hi Ht H. unfold FlowModel.record_in_try. cbv zeta.
  destruct (existsb _ _) eqn:X.
  - exfalso. apply existsb_exists in X as [e [X1 X2]]. apply filter_In in X1 as [X1 _].
    pose proof (entry_in _ _ Hes X1) as [T _]. destruct (isolated_child _ _ Hi T) as [_ C]. congruence.
  - unfold possible. rewrite find_add_union, merge_key, equals_refl.
    eexists. split; [reflexivity|].
    assert (M : fits (merge_with_ancestor fs new) v) by (apply merge_fits; [exact K|exact Hn|exact Ht|now left]).
    destruct (find_entry (e_key _ new) (invalidate_child_entries _ es (e_key _ new))) as [e|] eqn:F; [|exact M].
    destruct (find_key _ _ _ F) as [_ E]. apply fits_union; [now rewrite merge_key|now rewrite E|now right].
Qed.

(** * Overwriting an entry *)
Lemma overwrite_frames : forall new st f fs, frames _ st = f :: fs -> stack_ok (f :: fs) -> entry_ok new ->
  exists es, frames _ (overwrite_entry new st) = Frame _ es (f_unreachable _ f) :: fs /\ stack_ok (Frame _ es (f_unreachable _ f) :: fs) /\
    forall k, find_entry k es = if equals (e_key _ new) k then Some new else if is_child_of k (e_key _ new) then None else find_entry k (f_entries _ f).
Proof.
  intros new st f fs E Hs Hn. unfold FlowModel.overwrite_entry. rewrite E. cbn [frames].
  pose proof (stack_entries _ _ Hs) as He.
  assert (Hf : forall k, find_entry k (put _ new (invalidate_child_entries _ (f_entries _ f) (e_key _ new))) =
     if equals (e_key _ new) k then Some new else if is_child_of k (e_key _ new) then None else find_entry k (f_entries _ f)).
  { intros k. rewrite find_put. destruct (equals (e_key _ new) k); [reflexivity|]. now apply find_invalidate. }
  eexists. split; [reflexivity|]. split; [|exact Hf]. apply stack_replace with f; [exact Hs| |].
  - apply put_ok; [|exact Hn]. now apply filter_ok.
  - intros -> k D. rewrite Hf. destruct (equals (e_key _ new) k); [discriminate|]. rewrite (deletable_child _ _ D).
    destruct Hs as [_ Hs]. now apply Hs.
Qed.

Lemma overwrite_other : forall new st f fs k v, frames _ st = f :: fs -> stack_ok (f :: fs) -> entry_ok new ->
  k <> e_key _ new -> allows (f :: fs) k v -> allows (frames _ (overwrite_entry new st)) k v.
Proof.
  intros new st f fs k v E Hs Hn Hk H. destruct (overwrite_frames new st f fs E Hs Hn) as [es [-> [_ Hf]]].
  rewrite allows_cons. cbn [f_entries]. rewrite Hf. destruct (equals (e_key _ new) k) eqn:F; [apply equals_eq in F; congruence|].
  destruct (is_child_of k (e_key _ new)) eqn:C; [|exact H].
  now apply (allows_tail_child f fs k (e_key _ new) v (proj1 Hn)).
Qed.

Lemma overwrite_same : forall new st f fs v, frames _ st = f :: fs -> stack_ok (f :: fs) -> entry_ok new ->
  supports fs new v -> allows (frames _ (overwrite_entry new st)) (e_key _ new) v.
Proof.
  intros new st f fs v E Hs Hn H. destruct (overwrite_frames new st f fs E Hs Hn) as [es [-> [_ Hf]]].
  apply supports_allows; [|exact H]. rewrite Hf. now rewrite equals_refl.
Qed.

(** * Taking entries out *)
Definition handled (e : entry) : entry := Entry _ (e_key _ e) (e_kind _ e) false (e_deleted _ e).

Lemma take_spec : forall k es,
  match take _ k es with
  | None => find_entry k es = None
  | Some (o, es') => find_entry k es = Some o /\ keys es' = keys es /\ (Forall entry_ok es -> Forall entry_ok es') /\
      forall k', find_entry k' es' = if equals k k' then Some (handled o) else find_entry k' es
  end.
Proof.
  intros k es. induction es as [|e es IH]; cbn [take]; [reflexivity|].
  unfold find_entry in *. cbn [find]. rewrite (equals_sym (e_key _ e) k). destruct (equals k (e_key _ e)) eqn:E.
  - apply equals_eq in E. repeat split.
    + intros H. constructor; [|now apply Forall_inv_tail in H]. apply Forall_inv in H as [H1 H2]. now split.
    + intros k'. unfold handled. cbn [find e_key]. rewrite <- E. now destruct (equals k k').
  - destruct (take _ k es) as [[o es']|]; cbn [option_map fst snd]; [|exact IH].
    destruct IH as [IH1 [IH2 [IH3 IH4]]]. repeat split.
    + exact IH1.
    + cbn [keys map]. unfold keys in IH2. now rewrite IH2.
    + intros H. constructor; [now apply Forall_inv in H|]. apply IH3. now apply Forall_inv_tail in H.
    + intros k'. cbn [find]. rewrite IH4. destruct (equals (e_key _ e) k') eqn:F; [|reflexivity].
      apply equals_eq in F. subst k'. now rewrite E.
Qed.

Lemma take_ok : forall k es o es', entries_ok es -> take _ k es = Some (o, es') -> entries_ok es'.
Proof.
  intros k es o es' [H1 H2] E. pose proof (take_spec k es) as T. rewrite E in T. destruct T as [_ [T2 [T3 _]]].
  split; [now rewrite T2|now apply T3].
Qed.

Lemma fits_handled : forall e v, fits (handled e) v <-> fits e v.
Proof. reflexivity. Qed.

(** * Joining branches *)
Notation merge_assignments := (merge_assignments type simplified_union).

Definition joined (e o : entry) : entry := if e_modifies _ o then union_of_refs e o else union_of_refs o e.

Lemma joined_key : forall e o, e_key _ e = e_key _ o -> e_key _ (joined e o) = e_key _ e.
Proof. intros e o E. unfold joined. destruct (e_modifies _ o); cbn [FlowModel.union_of_refs e_key]; congruence. Qed.

Lemma joined_ok : forall e o, entry_ok e -> entry_ok o -> entry_ok (joined e o).
Proof. intros e o He Ho. unfold joined. destruct (e_modifies _ o); now apply union_ok. Qed.

Lemma joined_modifies : forall e o, e_modifies _ e = true -> e_modifies _ (joined e o) = true.
Proof.
  intros e o H. unfold joined. destruct (e_modifies _ o) eqn:M; cbn [FlowModel.union_of_refs e_modifies]; rewrite H; [reflexivity|apply orb_true_r].
Qed.

Lemma joined_fits : forall e o v, e_key _ e = e_key _ o -> typed (e_key _ e) v -> fits e v \/ fits o v -> fits (joined e o) v.
Proof.
  intros e o v E Ht H. unfold joined. destruct (e_modifies _ o).
  - now apply fits_union.
  - apply fits_union; [now symmetry|now rewrite <- E|]. destruct H as [H|H]; [now right|now left].
Qed.

(** What joining does to one state: only the innermost frame and the entries of [try] statements change *)
Definition evolved (st st' : state) : Prop :=
  (exists es, frames _ st' = match frames _ st with f :: fs => Frame _ es (f_unreachable _ f) :: fs | [] => [] end) /\
  stack_ok (frames _ st') /\ Forall try_ok (tries _ st') /\ Forall2 wider (tries _ st) (tries _ st') /\
  loop _ st' = loop _ st /\ reports _ st' = reports _ st.

Definition sound_state (st : state) : Prop := stack_ok (frames _ st) /\ Forall try_ok (tries _ st).

Lemma forall2_wider_refl : forall ts, Forall2 wider ts ts.
Proof. induction ts as [|t ts IH]; constructor; [apply wider_refl|exact IH]. Qed.

Lemma forall2_wider_trans : forall a b c, Forall2 wider a b -> Forall2 wider b c -> Forall2 wider a c.
Proof.
  intros a b c H. revert c. induction H as [|x y a b H1 H2 IH]; intros c H.
  - exact H.
  - inversion H as [|y0 z b0 c0 H3 H4 E1 E2]; subst. constructor; [now apply wider_trans with y|now apply IH].
Qed.

Lemma evolved_refl : forall st, sound_state st -> evolved st st.
Proof.
  intros st [H1 H2]. split; [|split; [exact H1|split; [exact H2|split; [apply forall2_wider_refl|split; reflexivity]]]].
  destruct (frames _ st) as [|[es u] fs]; [destruct H1|]. now exists es.
Qed.

Lemma evolved_trans : forall a b c, evolved a b -> evolved b c -> evolved a c.
Proof.
  intros a b c [[es1 A1] [A2 [A3 [A4 [A5 A6]]]]] [[es2 B1] [B2 [B3 [B4 [B5 B6]]]]].
  split; [|split; [exact B2|split; [exact B3|split; [now apply forall2_wider_trans with (tries _ b)|split; congruence]]]].
  exists es2. rewrite B1, A1. destruct (frames _ a) as [|f fs]; reflexivity.
Qed.

Lemma evolved_sound : forall a b, evolved a b -> sound_state b.
Proof. intros a b [_ [H1 [H2 _]]]. now split. Qed.

Lemma overwrite_evolved : forall new st, sound_state st -> entry_ok new -> e_modifies _ new = true -> evolved st (overwrite_entry new st).
Proof.
  intros new st [H1 H2] Hn M. destruct (frames _ st) as [|f fs] eqn:E; [destruct H1|].
  destruct (overwrite_frames new st f fs E H1 Hn) as [es [F1 [F2 _]]].
  split; [|split; [|split; [|split; [|split; reflexivity]]]].
  - exists es. rewrite F1, E. reflexivity.
  - now rewrite F1.
  - unfold FlowModel.overwrite_entry. cbn [tries]. apply Forall_forall. intros t H. apply in_map_iff in H as [t0 [<- H]].
    rewrite Forall_forall in H2. apply record_ok; [now apply H2|exact Hn|exact M].
  - unfold FlowModel.overwrite_entry. cbn [tries]. induction H2 as [|t ts Ht H2 IH]; cbn [map]; constructor; [|exact IH].
    now apply record_wider.
Qed.

(** * Joining two branches *)
Lemma stack_some : forall st, sound_state st -> exists g fs, frames _ st = g :: fs /\ stack_ok (g :: fs).
Proof.
  intros st [H _]. destruct (frames _ st) as [|g fs] eqn:E; [destruct H|]. exists g, fs. now split.
Qed.

Definition merge_step (e : entry) (other : list entry) (st : state) : list entry * state :=
  if e_modifies _ e
  then
    match take _ (e_key _ e) other with
    | Some (o, other) => (other, overwrite_entry (joined e o) st)
    | None => (other, overwrite_entry (merge_with_ancestor (frames _ st) e) st)
    end
  else (other, st).

Lemma merge_assignments_cons : forall e first other st,
  merge_assignments (e :: first) other st = merge_assignments first (fst (merge_step e other st)) (snd (merge_step e other st)).
Proof.
  intros e first other st. cbn [FlowModel.merge_assignments]. unfold merge_step, joined.
  destruct (e_modifies _ e); [|reflexivity]. destruct (take _ (e_key _ e) other) as [[o other']|]; reflexivity.
Qed.

Lemma step_evolved : forall e other st, sound_state st -> entry_ok e -> entries_ok other ->
  evolved st (snd (merge_step e other st)) /\ entries_ok (fst (merge_step e other st)).
Proof.
  intros e other st Hs He Ho. unfold merge_step. destruct (e_modifies _ e) eqn:M; [|split; [now apply evolved_refl|exact Ho]].
  pose proof (take_spec (e_key _ e) other) as T. destruct (take _ (e_key _ e) other) as [[o other']|] eqn:E; cbn [fst snd].
  - destruct T as [T1 _]. destruct (find_key _ _ _ T1) as [T2 T3]. split; [|now apply (take_ok _ _ _ _ Ho E)].
    apply overwrite_evolved; [exact Hs| |now apply joined_modifies]. apply joined_ok; [exact He|]. now apply (entry_in other).
  - split; [|exact Ho]. apply overwrite_evolved; [exact Hs|now apply merge_ok|now apply merge_modifies].
Qed.

Lemma step_other : forall e other st k,
  find_entry k (fst (merge_step e other st)) =
  if e_modifies _ e && equals (e_key _ e) k then option_map handled (find_entry k other) else find_entry k other.
Proof.
  intros e other st k. unfold merge_step. destruct (e_modifies _ e); [|reflexivity]. cbn [andb].
  pose proof (take_spec (e_key _ e) other) as T. destruct (take _ (e_key _ e) other) as [[o other']|]; cbn [fst].
  - destruct T as [T1 [_ [_ T2]]]. rewrite T2. destruct (equals (e_key _ e) k) eqn:E; [|reflexivity].
    apply equals_eq in E. subst k. now rewrite T1.
  - destruct (equals (e_key _ e) k) eqn:E; [|reflexivity]. apply equals_eq in E. subst k. now rewrite T.
Qed.

Lemma step_away : forall e other st k v, sound_state st -> entry_ok e -> entries_ok other -> e_modifies _ e = false \/ e_key _ e <> k ->
  allows (frames _ st) k v -> allows (frames _ (snd (merge_step e other st))) k v.
Proof.
  intros e other st k v Hs He Ho Hk H. unfold merge_step. destruct (e_modifies _ e) eqn:M; [|exact H].
  destruct Hk as [Hk|Hk]; [discriminate|]. destruct (stack_some st Hs) as [g [fs [E Hst]]]. rewrite E in H.
  pose proof (take_spec (e_key _ e) other) as T. destruct (take _ (e_key _ e) other) as [[o other']|]; cbn [snd].
  - destruct T as [T1 _]. destruct (find_key _ _ _ T1) as [T2 T3].
    apply overwrite_other with g fs; [exact E|exact Hst| |rewrite joined_key; congruence|exact H].
    apply joined_ok; [exact He|]. now apply (entry_in other).
  - apply overwrite_other with g fs; [exact E|exact Hst|now apply merge_ok|rewrite merge_key; congruence|exact H].
Qed.

Lemma step_here : forall e other st v, sound_state st -> entry_ok e -> entries_ok other -> e_modifies _ e = true -> typed (e_key _ e) v ->
  (fits e v \/ match find_entry (e_key _ e) other with Some o => fits o v | None => allows (frames _ st) (e_key _ e) v end) ->
  isolated (e_key _ e) \/ allows (frames _ st) (e_key _ e) v ->
  allows (frames _ (snd (merge_step e other st))) (e_key _ e) v.
Proof.
  intros e other st v Hs He Ho M Ht H Hi. unfold merge_step. rewrite M.
  destruct (stack_some st Hs) as [g [fs [E Hst]]].
  assert (Hi' : isolated (e_key _ e) \/ allows fs (e_key _ e) v).
  { destruct Hi as [Hi|Hi]; [now left|]. rewrite E in Hi. apply allows_tail in Hi as [[x [_ [_ [_ Hi]]]]|Hi]; [now left|now right]. }
  pose proof (take_spec (e_key _ e) other) as T. destruct (take _ (e_key _ e) other) as [[o other']|]; cbn [snd].
  - destruct T as [T1 _]. rewrite T1 in H. destruct (find_key _ _ _ T1) as [T2 T3].
    rewrite <- (joined_key e o) by congruence.
    apply overwrite_same with g fs; [exact E|exact Hst|apply joined_ok; [exact He|now apply (entry_in other)]|].
    split; [apply joined_fits; [congruence|exact Ht|exact H]|]. rewrite joined_key by congruence.
    destruct Hi' as [Hi'|Hi']; [left|now right]. split; [now apply joined_modifies|exact Hi'].
  - rewrite T in H. rewrite <- (merge_key (frames _ st) e).
    apply overwrite_same with g fs; [exact E|exact Hst|now apply merge_ok|].
    apply supports_merge; [|exact He|exact Ht|exact M|exact H|exact Hi']. rewrite E. now apply stack_known.
Qed.

Lemma merge_assignments_evolved : forall first other st, sound_state st -> Forall entry_ok first -> entries_ok other ->
  evolved st (snd (merge_assignments first other st)) /\ entries_ok (fst (merge_assignments first other st)).
Proof.
  induction first as [|e first IH]; intros other st Hs Hf Ho.
  - cbn [FlowModel.merge_assignments fst snd]. split; [now apply evolved_refl|exact Ho].
  - rewrite merge_assignments_cons. pose proof (Forall_inv Hf) as He. pose proof (Forall_inv_tail Hf) as Hf'.
    destruct (step_evolved e other st Hs He Ho) as [E1 E2].
    destruct (IH _ _ (evolved_sound _ _ E1) Hf' E2) as [E3 E4]. split; [now apply evolved_trans with (snd (merge_step e other st))|exact E4].
Qed.

Lemma merge_assignments_other : forall first other st k, NoDup (keys first) ->
  find_entry k (fst (merge_assignments first other st)) =
  match find_entry k first with
  | Some e => if e_modifies _ e then option_map handled (find_entry k other) else find_entry k other
  | None => find_entry k other
  end.
Proof.
  induction first as [|e first IH]; intros other st k Hn; [reflexivity|].
  cbn [keys map] in Hn. inversion Hn as [|x l Hn1 Hn2 E1]; subst.
  rewrite merge_assignments_cons, IH by exact Hn2. rewrite step_other.
  change (find_entry k (e :: first)) with (if equals (e_key _ e) k then Some e else find_entry k first).

  destruct (equals (e_key _ e) k) eqn:E.
  - apply equals_eq in E. subst k. destruct (find_entry (e_key _ e) first) as [x|] eqn:F.
    + exfalso. apply Hn1. apply find_in_keys. congruence.
    + now destruct (e_modifies _ e).
  - rewrite andb_false_r. reflexivity.
Qed.

Lemma merge_assignments_keep : forall first other st k v, sound_state st -> Forall entry_ok first -> entries_ok other -> typed k v ->
  allows (frames _ st) k v ->
  (forall e, In e first -> e_key _ e = k -> e_modifies _ e = true -> forall o, find_entry k other = Some o -> fits e v \/ fits o v) ->
  allows (frames _ (snd (merge_assignments first other st))) k v.
Proof.
  induction first as [|e first IH]; intros other st k v Hs Hf Ho Ht H Hx; [exact H|].
  rewrite merge_assignments_cons. pose proof (Forall_inv Hf) as He. pose proof (Forall_inv_tail Hf) as Hf'.
  destruct (step_evolved e other st Hs He Ho) as [E1 E2].
  apply IH; [now apply (evolved_sound st)|exact Hf'|exact E2|exact Ht| |].
  - destruct (e_modifies _ e) eqn:M; [|apply step_away; [exact Hs|exact He|exact Ho|now left|exact H]].
    destruct (key_dec (e_key _ e) k) as [K|K]; [|apply step_away; [exact Hs|exact He|exact Ho|now right|exact H]].
    subst k. apply step_here; [exact Hs|exact He|exact Ho|exact M|exact Ht| |now right].
    destruct (find_entry (e_key _ e) other) as [o|] eqn:F; [|now right].
    apply (Hx e); [now left|reflexivity|exact M|reflexivity].
  - intros x Hi K M o F. rewrite step_other in F. destruct (e_modifies _ e && equals (e_key _ e) k).
    + destruct (find_entry k other) as [o'|] eqn:F'; [|discriminate]. cbn [option_map] in F. injection F as <-. change (fits x v \/ fits o' v).
      apply (Hx x); [now right|exact K|exact M|reflexivity].
    + apply (Hx x); [now right|exact K|exact M|exact F].
Qed.

Lemma merge_assignments_new : forall first other st k v e, sound_state st -> entries_ok first -> entries_ok other -> typed k v ->
  find_entry k first = Some e -> e_modifies _ e = true -> isolated k ->
  fits e v \/ (exists o, find_entry k other = Some o /\ fits o v) ->
  allows (frames _ (snd (merge_assignments first other st))) k v.
Proof.
  induction first as [|x first IH]; intros other st k v e Hs [Hn Hf] Ho Ht F M Hi H; [discriminate|].
  rewrite merge_assignments_cons. pose proof (Forall_inv Hf) as He. pose proof (Forall_inv_tail Hf) as Hf'.
  cbn [keys map] in Hn. inversion Hn as [|y l Hn1 Hn2 E0]; subst.
  destruct (step_evolved x other st Hs He Ho) as [E1 E2].
  unfold find_entry in F. cbn [find] in F. destruct (equals (e_key _ x) k) eqn:K.
  - injection F as ->. apply equals_eq in K. subst k.
    apply merge_assignments_keep; [now apply (evolved_sound st)|exact Hf'|exact E2|exact Ht| |].
    + apply step_here; [exact Hs|exact He|exact Ho|exact M|exact Ht| |now left].
      destruct H as [H|[o [H1 H2]]]; [now left|right]. now rewrite H1.
    + intros y Hy K. exfalso. apply Hn1. rewrite <- K. now apply in_map.
  - apply IH with e; [now apply (evolved_sound st)|now split|exact E2|exact Ht|exact F|exact M|exact Hi|].
    rewrite step_other, K, andb_false_r. exact H.
Qed.

(** * Overwriting many entries *)
Notation overwrite_entries := (overwrite_entries type).
Notation put_modifying := (put_modifying type).

Definition invalidated (new es : list entry) : list entry := fold_left (fun es e => invalidate_child_entries _ es (e_key _ e)) new es.
Definition all_put (possibly : bool) (new es : list entry) : list entry := fold_left (fun es e => put_modifying possibly e es) new es.

Lemma invalidated_ok : forall new es, entries_ok es -> entries_ok (invalidated new es).
Proof. induction new as [|e new IH]; intros es H; [exact H|]. apply IH. now apply filter_ok. Qed.

Lemma find_invalidated : forall new es k, entries_ok es ->
  find_entry k (invalidated new es) = if existsb (fun e => is_child_of k (e_key _ e)) new then None else find_entry k es.
Proof.
  induction new as [|e new IH]; intros es k H; [reflexivity|].
  change (invalidated (e :: new) es) with (invalidated new (invalidate_child_entries _ es (e_key _ e))).
  rewrite IH by now apply filter_ok. rewrite find_invalidate by exact H. cbn [existsb].
  destruct (is_child_of k (e_key _ e)), (existsb (fun e => is_child_of k (e_key _ e)) new); reflexivity.
Qed.

Definition put_on (possibly : bool) (new : entry) (x : option entry) : entry :=
  match x with
  | Some e => Entry _ (e_key _ new) (e_kind _ new) (e_modifies _ new || (e_modifies _ e || possibly)) (e_deleted _ new)
  | None => new
  end.

Lemma find_put_modifying : forall possibly new es k,
  find_entry k (put_modifying possibly new es) = if equals (e_key _ new) k then Some (put_on possibly new (find_entry k es)) else find_entry k es.
Proof.
  intros possibly new es k. induction es as [|e es IH]; unfold find_entry in *; cbn [FlowModel.put_modifying find].
  - now destruct (equals (e_key _ new) k).
  - destruct (equals (e_key _ e) (e_key _ new)) eqn:E.
    + apply equals_eq in E. cbn [find e_key]. rewrite E. destruct (equals (e_key _ new) k); reflexivity.
    + cbn [find]. rewrite IH. destruct (equals (e_key _ e) k) eqn:F; [|reflexivity].
      apply equals_eq in F. subst k. now rewrite equals_sym, E.
Qed.

Lemma put_modifying_ok : forall possibly new es, entries_ok es -> entry_ok new -> entries_ok (put_modifying possibly new es).
Proof.
  intros possibly new es [H1 H2] Hn.
  assert (Hk : keys (put_modifying possibly new es) = keys (put _ new es)).
  { unfold keys. clear. induction es as [|e es IH]; cbn [FlowModel.put_modifying put map]; [reflexivity|].
    destruct (equals (e_key _ e) (e_key _ new)); cbn [map e_key]; [reflexivity|now rewrite IH]. }
  split; [rewrite Hk; now apply nodup_put|]. clear H1 Hk. induction H2 as [|e es He H2 IH]; cbn [FlowModel.put_modifying].
  - constructor; [exact Hn|constructor].
  - destruct (equals (e_key _ e) (e_key _ new)); constructor; [exact Hn|exact H2|exact He|exact IH].
Qed.

Lemma all_put_ok : forall possibly new es, entries_ok es -> Forall entry_ok new -> entries_ok (all_put possibly new es).
Proof.
  intros possibly new. induction new as [|e new IH]; intros es H Hn; [exact H|].
  apply IH; [|now apply Forall_inv_tail in Hn]. apply put_modifying_ok; [exact H|now apply Forall_inv in Hn].
Qed.

Lemma find_all_put : forall possibly new es k, NoDup (keys new) ->
  find_entry k (all_put possibly new es) =
  match find_entry k new with Some e => Some (put_on possibly e (find_entry k es)) | None => find_entry k es end.
Proof.
  intros possibly new. induction new as [|e new IH]; intros es k Hn; [reflexivity|].
  cbn [keys map] in Hn. inversion Hn as [|x l Hn1 Hn2 E1]; subst.
  change (all_put possibly (e :: new) es) with (all_put possibly new (put_modifying possibly e es)). rewrite IH by exact Hn2.
  rewrite find_put_modifying. change (find_entry k (e :: new)) with (if equals (e_key _ e) k then Some e else find_entry k new). destruct (equals (e_key _ e) k) eqn:E; [|reflexivity].
  apply equals_eq in E. subst k. destruct (find_entry (e_key _ e) new) as [x|] eqn:F; [|reflexivity].
  exfalso. apply Hn1. apply find_in_keys. congruence.
Qed.

Lemma overwrite_entries_frames : forall new possibly st g fs, frames _ st = g :: fs ->
  frames _ (overwrite_entries new possibly st) = Frame _ (all_put possibly new (invalidated new (f_entries _ g))) (f_unreachable _ g) :: fs.
Proof. intros new possibly st g fs E. unfold FlowModel.overwrite_entries. now rewrite E. Qed.

Lemma overwrite_entries_evolved : forall new possibly st, sound_state st -> entries_ok new -> evolved st (overwrite_entries new possibly st).
Proof.
  intros new possibly st Hs [Hn Hf]. destruct (stack_some st Hs) as [g [fs [E Hst]]].
  pose proof (overwrite_entries_frames new possibly st g fs E) as F.
  pose proof (stack_entries _ _ Hst) as Hg. pose proof (invalidated_ok new _ Hg) as Hi.
  split; [|split; [|split; [|split; [|split]]]].
  - rewrite F, E. eexists. reflexivity.
  - rewrite F. apply stack_replace with g; [exact Hst|now apply all_put_ok|]. intros -> k D.
    rewrite find_all_put by exact Hn. destruct (find_entry k new); [discriminate|]. rewrite find_invalidated by exact Hg.
    replace (existsb (fun e => is_child_of k (e_key _ e)) new) with false.
    + destruct Hst as [_ Hst]. now apply Hst.
    + clear -D. induction new as [|e new IH]; [reflexivity|]. cbn [existsb]. rewrite (deletable_child _ _ D). exact IH.
  - unfold FlowModel.overwrite_entries. rewrite E. apply Hs.
  - unfold FlowModel.overwrite_entries. rewrite E. apply forall2_wider_refl.
  - unfold FlowModel.overwrite_entries. now rewrite E.
  - unfold FlowModel.overwrite_entries. now rewrite E.
Qed.

Lemma overwrite_entries_allows : forall new possibly st u k v, sound_state st -> entries_ok new ->
  allows (Frame _ new u :: frames _ st) k v -> allows (frames _ (overwrite_entries new possibly st)) k v.
Proof.
  intros new possibly st u k v Hs Hn H. destruct (stack_some st Hs) as [g [fs [E Hst]]].
  rewrite (overwrite_entries_frames new possibly st g fs E). rewrite E in H.
  pose proof (stack_entries _ _ Hst) as Hg.
  rewrite allows_cons. cbn [f_entries]. rewrite find_all_put by apply Hn. rewrite find_invalidated by exact Hg.
  assert (C : existsb (fun e => is_child_of k (e_key _ e)) new = true -> allows (g :: fs) k v -> allows fs k v).
  { intros C Hk. apply existsb_exists in C as [e [C1 C2]]. apply (allows_tail_child g fs k (e_key _ e)); [|exact C2|exact Hk].
    apply (entry_in new e Hn C1). }
  rewrite allows_cons in H. cbn [f_entries] in H. destruct (find_entry k new) as [e|] eqn:F.
  - destruct H as [H1 H2]. split.
    + unfold put_on. destruct (if existsb _ _ then _ else _); exact H1.
    + destruct H2 as [[M Hi]|H2].
      * left. split; [|exact Hi]. unfold put_on. destruct (if existsb _ _ then _ else _); [cbn [e_modifies]; now rewrite M|exact M].
      * destruct (existsb (fun e0 => is_child_of k (e_key _ e0)) new) eqn:X; [right; now apply C|].
        apply allows_tail in H2 as [[x [G1 [_ [G3 G4]]]]|H2]; [|now right].
        left. split; [|exact G4]. rewrite G1. cbn [put_on e_modifies]. rewrite G3. now rewrite orb_true_r.
  - destruct (existsb (fun e0 => is_child_of k (e_key _ e0)) new) eqn:X; [now apply C|exact H].
Qed.

(** * [merge_conditional] *)
Notation merge_conditional := (merge_conditional type simplified_union).
Notation is_unreachable := (is_unreachable type).
Notation mark_unreachable := (mark_unreachable type).

(** Like [evolved], but the end may be unreachable *)
Definition changed (st st' : state) : Prop :=
  tl (frames _ st') = tl (frames _ st) /\ stack_ok (frames _ st') /\ Forall try_ok (tries _ st') /\ Forall2 wider (tries _ st) (tries _ st') /\
  loop _ st' = loop _ st /\ reports _ st' = reports _ st.

Lemma evolved_changed : forall a b, evolved a b -> changed a b.
Proof.
  intros a b [[es A1] [A2 [A3 [A4 [A5 A6]]]]].
  split; [|exact (conj A2 (conj A3 (conj A4 (conj A5 A6))))]. rewrite A1. destruct (frames _ a); reflexivity.
Qed.

Lemma evolved_unreachable : forall a b, evolved a b -> is_unreachable b = is_unreachable a.
Proof.
  intros a b [[es A1] _]. unfold FlowModel.is_unreachable. rewrite A1. destruct (frames _ a); reflexivity.
Qed.

Lemma changed_trans : forall a b c, changed a b -> changed b c -> changed a c.
Proof.
  intros a b c [A1 [A2 [A3 [A4 [A5 A6]]]]] [B1 [B2 [B3 [B4 [B5 B6]]]]].
  split; [congruence|split; [exact B2|split; [exact B3|split; [now apply forall2_wider_trans with (tries _ b)|split; congruence]]]].
Qed.

Lemma mark_changed : forall st, sound_state st -> changed st (mark_unreachable st).
Proof.
  intros st Hs. destruct (stack_some st Hs) as [g [fs [E Hst]]]. unfold FlowModel.mark_unreachable. rewrite E.
  unfold changed. cbn [set_frames frames tries loop reports]. rewrite E.
  split; [reflexivity|split; [|split; [apply Hs|split; [apply forall2_wider_refl|split; reflexivity]]]].
  apply stack_replace with g; [exact Hst|now apply stack_entries in Hst|]. intros ->. now destruct Hst as [_ Hst].
Qed.

Lemma merge_conditional_changed : forall t f st, sound_state st -> entries_ok (f_entries _ t) -> entries_ok (f_entries _ f) ->
  changed st (merge_conditional t f st).
Proof.
  intros t f st Hs Ht Hf. unfold FlowModel.merge_conditional. destruct (f_unreachable _ f || f_unreachable _ t).
  - destruct (negb (f_unreachable _ f)); [now apply evolved_changed, overwrite_entries_evolved|].
    destruct (negb (f_unreachable _ t)); [now apply evolved_changed, overwrite_entries_evolved|now apply mark_changed].
  - destruct (merge_assignments (f_entries _ t) (f_entries _ f) st) as [falses st1] eqn:E.
    destruct (merge_assignments_evolved (f_entries _ t) (f_entries _ f) st Hs (proj2 Ht) Hf) as [E1 E2]. rewrite E in E1, E2. cbn [fst snd] in E1, E2.
    apply changed_trans with st1; [now apply evolved_changed|]. apply evolved_changed.
    apply merge_assignments_evolved; [now apply (evolved_sound st)|apply E2|exact Ht].
Qed.

Lemma merge_conditional_reachable : forall t f st, sound_state st -> entries_ok (f_entries _ t) -> entries_ok (f_entries _ f) ->
  f_unreachable _ t = false \/ f_unreachable _ f = false -> is_unreachable (merge_conditional t f st) = is_unreachable st.
Proof.
  intros t f st Hs Ht Hf H. unfold FlowModel.merge_conditional.
  destruct (f_unreachable _ t), (f_unreachable _ f); cbn [orb negb].
  - destruct H; discriminate.
  - apply evolved_unreachable. now apply overwrite_entries_evolved.
  - apply evolved_unreachable. now apply overwrite_entries_evolved.
  - destruct (merge_assignments (f_entries _ t) (f_entries _ f) st) as [falses st1] eqn:E.
    destruct (merge_assignments_evolved (f_entries _ t) (f_entries _ f) st Hs (proj2 Ht) Hf) as [E1 E2]. rewrite E in E1, E2. cbn [fst snd] in E1, E2.
    rewrite <- (evolved_unreachable st st1 E1). apply evolved_unreachable.
    apply merge_assignments_evolved; [now apply (evolved_sound st)|apply E2|exact Ht].
Qed.

Lemma frame_eta : forall (f : frame), Frame _ (f_entries _ f) (f_unreachable _ f) = f.
Proof. now intros [es u]. Qed.

Lemma merge_conditional_true : forall t f st k v, sound_state st -> entries_ok (f_entries _ t) -> entries_ok (f_entries _ f) ->
  f_unreachable _ t = false -> typed k v -> allows (t :: frames _ st) k v -> allows (frames _ (merge_conditional t f st)) k v.
Proof.
  intros t f st k v Hs Ht Hf U Hv H. unfold FlowModel.merge_conditional. rewrite U, orb_false_r. cbn [negb].
  destruct (f_unreachable _ f) eqn:Uf; cbn [negb].
  - apply overwrite_entries_allows with false; [exact Hs|exact Ht|]. rewrite <- U, frame_eta. exact H.
  - destruct (merge_assignments (f_entries _ t) (f_entries _ f) st) as [falses st1] eqn:E.
    destruct (merge_assignments_evolved (f_entries _ t) (f_entries _ f) st Hs (proj2 Ht) Hf) as [E1 E2].
    pose proof (merge_assignments_other (f_entries _ t) (f_entries _ f) st k (proj1 Ht)) as F. rewrite E in E1, E2, F. cbn [fst snd] in E1, E2, F.
    pose proof (evolved_sound _ _ E1) as Hs1.
    assert (Hk : forall e, find_entry k (f_entries _ t) = Some e -> fits e v).
    { intros e Fe. rewrite allows_cons, Fe in H. now destruct H. }
    apply merge_assignments_keep; [exact Hs1|apply E2|exact Ht|exact Hv| |].
    + change st1 with (snd (falses, st1)). rewrite <- E. apply allows_tail in H as [[e [H1 [H2 [H3 H4]]]]|H].
      * apply merge_assignments_new with e; [exact Hs|exact Ht|exact Hf|exact Hv|exact H1|exact H3|exact H4|now left].
      * apply merge_assignments_keep; [exact Hs|apply Ht|exact Hf|exact Hv|exact H|]. intros e Hi K M o _. left. apply Hk.
        rewrite <- K. apply find_in; [apply Ht|exact Hi].
    + intros o _ _ _ e Fe. right. now apply Hk.
Qed.

Lemma merge_conditional_false : forall t f st k v, sound_state st -> entries_ok (f_entries _ t) -> entries_ok (f_entries _ f) ->
  f_unreachable _ f = false -> typed k v -> allows (f :: frames _ st) k v -> allows (frames _ (merge_conditional t f st)) k v.
Proof.
  intros t f st k v Hs Ht Hf U Hv H. unfold FlowModel.merge_conditional. rewrite U. cbn [negb orb].
  destruct (f_unreachable _ t) eqn:Uf.
  - apply overwrite_entries_allows with false; [exact Hs|exact Hf|]. rewrite <- U, frame_eta. exact H.
  - destruct (merge_assignments (f_entries _ t) (f_entries _ f) st) as [falses st1] eqn:E.
    destruct (merge_assignments_evolved (f_entries _ t) (f_entries _ f) st Hs (proj2 Ht) Hf) as [E1 E2].
    pose proof (merge_assignments_other (f_entries _ t) (f_entries _ f) st k (proj1 Ht)) as F. rewrite E in E1, E2, F. cbn [fst snd] in E1, E2, F.
    pose proof (evolved_sound _ _ E1) as Hs1.
    assert (Hk : forall o, find_entry k (f_entries _ f) = Some o -> fits o v).
    { intros o Fo. rewrite allows_cons, Fo in H. now destruct H. }
    assert (Hk' : forall o, find_entry k falses = Some o -> fits o v).
    { intros o Fo. rewrite Fo in F. destruct (find_entry k (f_entries _ f)) as [x|].
      - specialize (Hk x eq_refl). destruct (find_entry k (f_entries _ t)) as [e|]; [destruct (e_modifies _ e)|];
          cbn [option_map] in F; injection F as ->; exact Hk.
      - destruct (find_entry k (f_entries _ t)) as [e|]; [destruct (e_modifies _ e)|]; discriminate. }
    assert (Hx : forall o, In o falses -> e_key _ o = k -> fits o v).
    { intros o Hi K. apply Hk'. rewrite <- K. apply find_in; [apply E2|exact Hi]. }
    assert (D : allows (frames _ st1) k v \/ exists o, find_entry k falses = Some o /\ e_modifies _ o = true /\ isolated k).
    { apply allows_tail in H as [[o [H1 [H2 [H3 H4]]]]|H].
      - destruct (find_entry k (f_entries _ t)) as [e|] eqn:Fe.
        + destruct (e_modifies _ e) eqn:M.
          * left. change st1 with (snd (falses, st1)). rewrite <- E.
            apply merge_assignments_new with e; [exact Hs|exact Ht|exact Hf|exact Hv|exact Fe|exact M|exact H4|].
            right. exists o. now split.
          * right. exists o. now rewrite F.
        + right. exists o. now rewrite F.
      - left. change st1 with (snd (falses, st1)). rewrite <- E.
        apply merge_assignments_keep; [exact Hs|apply Ht|exact Hf|exact Hv|exact H|]. intros e _ _ _ o Fo. right. now apply Hk. }
    destruct D as [D|[o [D1 [D2 D3]]]].
    + apply merge_assignments_keep; [exact Hs1|apply E2|exact Ht|exact Hv|exact D|]. intros o Hi K M e _. left. now apply Hx.
    + apply merge_assignments_new with o; [exact Hs1|exact E2|exact Ht|exact Hv|exact D1|exact D2|exact D3|].
      left. now apply Hk'.
Qed.

(** * [merge_or] *)
Notation or_first := (or_first type simplified_union).
Notation or_second := (or_second type simplified_union).
Notation or_add := (or_add type simplified_union).
Notation merge_or := (merge_or type simplified_union).

Definition first_step (fs : list frame) (optional : bool) (x : entry) (ys new : list entry) : list entry * list entry :=
  match take _ (e_key _ x) ys with
  | Some (y, ys) => (ys, new ++ [union_of_refs x y])
  | None => (ys, if e_modifies _ x then if optional then new ++ [x] else or_add fs x new else new)
  end.

Lemma or_first_cons : forall fs optional x xs ys new,
  or_first fs optional (x :: xs) ys new = or_first fs optional xs (fst (first_step fs optional x ys new)) (snd (first_step fs optional x ys new)).
Proof.
  intros fs optional x xs ys new. cbn [FlowModel.or_first]. unfold first_step.
  destruct (take _ (e_key _ x) ys) as [[y ys']|]; reflexivity.
Qed.

Definition second_step (fs : list frame) (y : entry) (new : list entry) : list entry :=
  if e_modifies _ y && negb (existsb (fun e => is_child_of (e_key _ y) (e_key _ e)) new) then or_add fs y new else new.

Lemma or_second_cons : forall fs y ys new, or_second fs (y :: ys) new = or_second fs ys (second_step fs y new).
Proof. reflexivity. Qed.

Lemma keys_or_add : forall fs e new, incl (keys (or_add fs e new)) (e_key _ e :: keys new).
Proof.
  intros fs e new k H. unfold FlowModel.or_add, keys in H. rewrite map_app in H. apply in_app_or in H as [H|[H|[]]].
  - right. apply in_map_iff in H as [x [<- H]]. apply filter_In in H as [H _]. now apply in_map.
  - left. now rewrite merge_key in H.
Qed.

Lemma in_or_add : forall fs e new x, In x (or_add fs e new) -> In x new \/ x = merge_with_ancestor fs e.
Proof.
  intros fs e new x H. unfold FlowModel.or_add in H. apply in_app_or in H as [H|[H|[]]]; [left|right; now symmetry].
  now apply filter_In in H as [H _].
Qed.

Lemma app_ok : forall es e, entries_ok es -> entry_ok e -> ~ In (e_key _ e) (keys es) -> entries_ok (es ++ [e]).
Proof.
  intros es e [H1 H2] He N. split; [now apply nodup_app_one|]. apply Forall_app. split; [exact H2|]. constructor; [exact He|constructor].
Qed.

Lemma or_add_ok : forall fs e new, entries_ok new -> entry_ok e -> ~ In (e_key _ e) (keys new) -> entries_ok (or_add fs e new).
Proof.
  intros fs e new H He N. unfold FlowModel.or_add. apply app_ok; [now apply filter_ok|now apply merge_ok|].
  rewrite merge_key. intros F. apply N. unfold keys in F. apply in_map_iff in F as [x [<- F]]. apply filter_In in F as [F _]. now apply in_map.
Qed.

Lemma keys_app_one : forall (es : list entry) e, keys (es ++ [e]) = keys es ++ [e_key _ e].
Proof. intros es e. unfold keys. now rewrite map_app. Qed.

Lemma first_step_keys : forall fs optional x ys new, incl (keys (snd (first_step fs optional x ys new))) (e_key _ x :: keys new).
Proof.
  intros fs optional x ys new. unfold first_step. destruct (take _ (e_key _ x) ys) as [[y ys']|]; cbn [snd].
  - rewrite keys_app_one. intros k H. apply in_app_or in H as [H|[H|[]]]; [now right|now left].
  - destruct (e_modifies _ x); [|now apply incl_tl, incl_refl]. destruct optional; [|apply keys_or_add].
    rewrite keys_app_one. intros k H. apply in_app_or in H as [H|[H|[]]]; [now right|now left].
Qed.

Lemma first_step_ok : forall fs optional x ys new, entry_ok x -> entries_ok ys -> entries_ok new -> ~ In (e_key _ x) (keys new) ->
  entries_ok (fst (first_step fs optional x ys new)) /\ entries_ok (snd (first_step fs optional x ys new)).
Proof.
  intros fs optional x ys new Hx Hy Hn N. unfold first_step. pose proof (take_ok (e_key _ x) ys) as T.
  destruct (take _ (e_key _ x) ys) as [[y ys']|]; cbn [fst snd].
  - split; [now apply (T y ys' Hy)|]. apply app_ok; [exact Hn|now apply union_ok|exact N].
  - split; [exact Hy|]. destruct (e_modifies _ x); [|exact Hn]. destruct optional; [now apply app_ok|now apply or_add_ok].
Qed.

Lemma or_first_ok : forall fs optional xs ys new, entries_ok xs -> entries_ok ys -> entries_ok new ->
  (forall k, In k (keys new) -> ~ In k (keys xs)) ->
  entries_ok (fst (or_first fs optional xs ys new)) /\ entries_ok (snd (or_first fs optional xs ys new)) /\
  incl (keys (snd (or_first fs optional xs ys new))) (keys xs ++ keys new).
Proof.
  intros fs optional. induction xs as [|x xs IH]; intros ys new [Hx1 Hx2] Hy Hn D.
  - cbn [FlowModel.or_first fst snd keys map app]. exact (conj Hy (conj Hn (incl_refl _))).
  - rewrite or_first_cons. cbn [keys map] in Hx1. inversion Hx1 as [|a l N1 N2 E]; subst.
    assert (Hd : ~ In (e_key _ x) (keys new)) by (intros F; apply (D _ F); now left).
    destruct (first_step_ok fs optional x ys new (Forall_inv Hx2) Hy Hn Hd) as [S1 S2].
    pose proof (first_step_keys fs optional x ys new) as S3.
    destruct (IH (fst (first_step fs optional x ys new)) (snd (first_step fs optional x ys new))) as [I1 [I2 I3]];
      [split; [exact N2|now apply Forall_inv_tail in Hx2]|exact S1|exact S2| |].
    + intros k H F. apply S3 in H as [H|H]; [subst k; contradiction|]. apply (D k H). now right.
    + split; [exact I1|split; [exact I2|]]. intros k H. apply I3 in H. apply in_app_or in H as [H|H].
      * right. apply in_or_app. now left.
      * apply S3 in H as [H|H]; [left; exact H|right; apply in_or_app; now right].
Qed.

Lemma first_step_ys : forall fs optional x ys new k,
  find_entry k (fst (first_step fs optional x ys new)) = if equals (e_key _ x) k then option_map handled (find_entry k ys) else find_entry k ys.
Proof.
  intros fs optional x ys new k. unfold first_step. pose proof (take_spec (e_key _ x) ys) as T.
  destruct (take _ (e_key _ x) ys) as [[y ys']|]; cbn [fst].
  - destruct T as [T1 [_ [_ T2]]]. rewrite T2. destruct (equals (e_key _ x) k) eqn:E; [|reflexivity].
    apply equals_eq in E. subst k. now rewrite T1.
  - destruct (equals (e_key _ x) k) eqn:E; [|reflexivity]. apply equals_eq in E. subst k. now rewrite T.
Qed.

Lemma or_first_ys : forall fs optional xs ys new k, NoDup (keys xs) ->
  find_entry k (fst (or_first fs optional xs ys new)) =
  match find_entry k xs with Some _ => option_map handled (find_entry k ys) | None => find_entry k ys end.
Proof.
  intros fs optional. induction xs as [|x xs IH]; intros ys new k Hn; [reflexivity|].
  cbn [keys map] in Hn. inversion Hn as [|a l N1 N2 E0]; subst. rewrite or_first_cons, IH by exact N2. rewrite first_step_ys.
  change (find_entry k (x :: xs)) with (if equals (e_key _ x) k then Some x else find_entry k xs).
  destruct (equals (e_key _ x) k) eqn:E; [|reflexivity]. apply equals_eq in E. subst k.
  destruct (find_entry (e_key _ x) xs) as [e|] eqn:F; [|reflexivity]. exfalso. apply N1. apply find_in_keys. congruence.
Qed.

(** All entries for the key are good ones *)
Definition good (fs : list frame) (k : key) (v : option value) (es : list entry) : Prop :=
  forall e, In e es -> e_key _ e = k -> supports fs e v.

Definition said (fs : list frame) (k : key) (v : option value) (es : list entry) : Prop :=
  match find_entry k es with Some e => supports fs e v | None => allows fs k v end.

Lemma said_allows : forall fs k v es u, said fs k v es <-> allows (Frame _ es u :: fs) k v.
Proof.
  intros fs k v es u. rewrite allows_cons. cbn [f_entries]. unfold said, supports.
  destruct (find_entry k es) as [e|] eqn:F; [|reflexivity]. apply find_key in F as [_ F]. now rewrite F.
Qed.

Lemma said_settled : forall fs k v es, said fs k v es -> isolated k \/ allows fs k v.
Proof.
  intros fs k v es H. unfold said in H. destruct (find_entry k es) as [e|] eqn:F; [|now right].
  apply find_key in F as [_ F]. destruct H as [_ H]. rewrite F in H. destruct H as [[_ H]|H]; [now left|now right].
Qed.

(** An entry of one frame, with the values of either *)
Lemma first_step_good : forall fs optional x ys new k v, known fs -> entry_ok x -> typed k v -> e_key _ x = k ->
  (optional = true -> e_modifies _ x = false) -> supports fs x v \/ said fs k v ys -> good fs k v new ->
  good fs k v (snd (first_step fs optional x ys new)).
Proof.
  intros fs optional x ys new k v K Hx Ht E Ho H Hn. unfold first_step.
  pose proof (take_spec (e_key _ x) ys) as T. destruct (take _ (e_key _ x) ys) as [[y ys']|]; cbn [snd].
  - destruct T as [T1 _]. destruct (find_key _ _ _ T1) as [T2 T3]. intros e Hi Ek. apply in_app_or in Hi as [Hi|[Hi|[]]]; [now apply Hn|].
    subst e. unfold said in H. rewrite <- E in H, Ht. rewrite T1 in H. unfold supports in H. rewrite T3 in H.
    apply supports_union; [now symmetry|exact Ht| |].
    + destruct H as [[H _]|[H _]]; [now left|now right].
    + destruct H as [[_ [[H1 H2]|H]]|[_ [[H1 H2]|H]]]; [left; split; [now left|exact H2]|now right|left; split; [now right|exact H2]|now right].
  - destruct (e_modifies _ x) eqn:M; [|exact Hn]. destruct optional; [now specialize (Ho eq_refl)|].
    intros e Hi Ek. apply in_or_add in Hi as [Hi|Hi]; [now apply Hn|]. subst e.
    unfold said in H. rewrite <- E in H, Ht. rewrite T in H.
    apply supports_merge; [exact K|exact Hx|exact Ht|exact M| |].
    + destruct H as [[H _]|H]; [now left|now right].
    + destruct H as [[_ [[_ H]|H]]|H]; [now left|now right|now right].
Qed.

Lemma first_step_good_other : forall fs optional x ys new k v, e_key _ x <> k -> good fs k v new ->
  good fs k v (snd (first_step fs optional x ys new)).
Proof.
  intros fs optional x ys new k v E Hn e Hi Ek. unfold first_step in Hi.
  destruct (take _ (e_key _ x) ys) as [[y ys']|]; cbn [snd] in Hi.
  - apply in_app_or in Hi as [Hi|[Hi|[]]]; [now apply Hn|]. subst e. now rewrite union_key in Ek.
  - destruct (e_modifies _ x); [|now apply Hn]. destruct optional.
    + apply in_app_or in Hi as [Hi|[Hi|[]]]; [now apply Hn|]. subst e. contradiction.
    + apply in_or_add in Hi as [Hi|Hi]; [now apply Hn|]. subst e. now rewrite merge_key in Ek.
Qed.

Lemma or_first_good : forall fs optional xs ys new k v, known fs -> entries_ok xs -> typed k v ->
  (optional = true -> forall x, In x xs -> e_modifies _ x = false) ->
  said fs k v xs \/ said fs k v ys -> good fs k v new -> good fs k v (snd (or_first fs optional xs ys new)).
Proof.
  intros fs optional. induction xs as [|x xs IH]; intros ys new k v K [Hx1 Hx2] Ht Ho H Hn; [exact Hn|].
  rewrite or_first_cons. cbn [keys map] in Hx1. inversion Hx1 as [|a l N1 N2 E0]; subst.
  assert (Ho' : optional = true -> forall z, In z xs -> e_modifies _ z = false) by (intros O z Hz; apply (Ho O); now right).
  destruct (key_dec (e_key _ x) k) as [E|E].
  - (** the rest of the list is not about the key *)
    assert (G : good fs k v (snd (first_step fs optional x ys new))).
    { apply first_step_good; [exact K|now apply Forall_inv in Hx2|exact Ht|exact E|intros O; apply (Ho O); now left| |exact Hn].
      destruct H as [H|H]; [left|now right]. unfold said in H. 
      change (find_entry k (x :: xs)) with (if equals (e_key _ x) k then Some x else find_entry k xs) in H.
      subst k. now rewrite equals_refl in H. }
    clear -N1 E G. revert N1 G. generalize (fst (first_step fs optional x ys new)), (snd (first_step fs optional x ys new)).
    induction xs as [|z xs IH]; intros ys' new' N1 G; [exact G|]. rewrite or_first_cons. apply IH.
    + intros F. apply N1. now right.
    + apply first_step_good_other; [|exact G]. intros F. apply N1. left. congruence.
  - apply IH; [exact K|split; [exact N2|now apply Forall_inv_tail in Hx2]|exact Ht|exact Ho'| |now apply first_step_good_other].
    destruct H as [H|H]; [left|right].
    + unfold said in *. change (find_entry k (x :: xs)) with (if equals (e_key _ x) k then Some x else find_entry k xs) in H.
      apply equals_neq in E. now rewrite E in H.
    + unfold said in *. rewrite first_step_ys. apply equals_neq in E. now rewrite E.
Qed.

Lemma or_second_ok : forall fs ys new, entries_ok ys -> entries_ok new ->
  (forall y, In y ys -> e_modifies _ y = true -> ~ In (e_key _ y) (keys new)) -> entries_ok (or_second fs ys new).
Proof.
  intros fs. induction ys as [|y ys IH]; intros new [Hy1 Hy2] Hn D; [exact Hn|]. rewrite or_second_cons.
  cbn [keys map] in Hy1. inversion Hy1 as [|a l N1 N2 E0]; subst.
  apply IH; [split; [exact N2|now apply Forall_inv_tail in Hy2]| |].
  - unfold second_step. destruct (e_modifies _ y) eqn:M; [|exact Hn]. cbn [andb]. destruct (existsb _ _); [exact Hn|].
    apply or_add_ok; [exact Hn|now apply Forall_inv in Hy2|]. apply D; [now left|exact M].
  - intros z Hz M F. unfold second_step in F. destruct (_ && _).
    + apply keys_or_add in F as [F|F]; [|now apply (D z (or_intror Hz) M)]. apply N1. rewrite F. now apply in_map.
    + now apply (D z (or_intror Hz) M).
Qed.

Lemma or_second_good : forall fs ys new k v, known fs -> entries_ok ys -> typed k v ->
  (forall y, In y ys -> e_key _ y = k -> e_modifies _ y = true -> fits y v \/ allows fs k v) -> isolated k \/ allows fs k v ->
  good fs k v new -> good fs k v (or_second fs ys new).
Proof.
  intros fs. induction ys as [|y ys IH]; intros new k v K [Hy1 Hy2] Ht H Hi Hn; [exact Hn|]. rewrite or_second_cons.
  cbn [keys map] in Hy1. inversion Hy1 as [|a l N1 N2 E0]; subst.
  apply IH; [exact K|split; [exact N2|now apply Forall_inv_tail in Hy2]|exact Ht| |exact Hi|].
  - intros z Hz. apply H. now right.
  - unfold second_step. destruct (e_modifies _ y) eqn:M; [|exact Hn]. cbn [andb]. destruct (existsb _ _); [exact Hn|].
    intros e He Ek. apply in_or_add in He as [He|He]; [now apply Hn|]. subst e. rewrite merge_key in Ek. subst k.
    apply supports_merge; [exact K|now apply Forall_inv in Hy2|exact Ht|exact M| |exact Hi].
    apply H; [now left|reflexivity|exact M].
Qed.

(** Keys that have nothing to do with others stay *)
Lemma or_add_stays : forall fs e new k, isolated k -> entry_ok e -> In k (keys new) -> In k (keys (or_add fs e new)).
Proof.
  intros fs e new k Hi He H. unfold FlowModel.or_add. rewrite keys_app_one. apply in_or_app. left.
  unfold keys in *. apply in_map_iff in H as [x [<- H]]. apply in_map. apply filter_In. split; [exact H|].
  destruct (isolated_child _ _ Hi (proj1 He)) as [_ ->]. reflexivity.
Qed.

Lemma or_add_there : forall fs e new, In (e_key _ e) (keys (or_add fs e new)).
Proof. intros fs e new. unfold FlowModel.or_add. rewrite keys_app_one. apply in_or_app. right. left. now rewrite merge_key. Qed.

Lemma first_step_stays : forall fs optional x ys new k, isolated k -> entry_ok x -> In k (keys new) ->
  In k (keys (snd (first_step fs optional x ys new))).
Proof.
  intros fs optional x ys new k Hi Hx H. unfold first_step. destruct (take _ (e_key _ x) ys) as [[y ys']|]; cbn [snd].
  - rewrite keys_app_one. apply in_or_app. now left.
  - destruct (e_modifies _ x); [|exact H]. destruct optional; [rewrite keys_app_one; apply in_or_app; now left|now apply or_add_stays].
Qed.

Lemma first_step_there : forall fs optional x ys new,
  e_modifies _ x = true \/ find_entry (e_key _ x) ys <> None -> In (e_key _ x) (keys (snd (first_step fs optional x ys new))).
Proof.
  intros fs optional x ys new H. unfold first_step. pose proof (take_spec (e_key _ x) ys) as T.
  destruct (take _ (e_key _ x) ys) as [[y ys']|]; cbn [snd].
  - rewrite keys_app_one. apply in_or_app. right. now left.
  - destruct H as [H|H]; [|contradiction]. rewrite H. destruct optional; [rewrite keys_app_one; apply in_or_app; right; now left|apply or_add_there].
Qed.

Lemma or_first_stays : forall fs optional xs ys new k, isolated k -> Forall entry_ok xs -> In k (keys new) ->
  In k (keys (snd (or_first fs optional xs ys new))).
Proof.
  intros fs optional. induction xs as [|x xs IH]; intros ys new k Hi Hx H; [exact H|]. rewrite or_first_cons.
  apply IH; [exact Hi|now apply Forall_inv_tail in Hx|]. apply first_step_stays; [exact Hi|now apply Forall_inv in Hx|exact H].
Qed.

Lemma or_first_there : forall fs optional xs ys new k e, isolated k -> Forall entry_ok xs -> find_entry k xs = Some e ->
  e_modifies _ e = true \/ find_entry k ys <> None -> In k (keys (snd (or_first fs optional xs ys new))).
Proof.
  intros fs optional. induction xs as [|x xs IH]; intros ys new k e Hi Hx F H; [discriminate|]. rewrite or_first_cons.
  change (find_entry k (x :: xs)) with (if equals (e_key _ x) k then Some x else find_entry k xs) in F.
  destruct (equals (e_key _ x) k) eqn:E.
  - injection F as ->. apply equals_eq in E. subst k. apply or_first_stays; [exact Hi|now apply Forall_inv_tail in Hx|].
    now apply first_step_there.
  - apply IH with e; [exact Hi|now apply Forall_inv_tail in Hx|exact F|]. now rewrite first_step_ys, E.
Qed.

Lemma second_step_stays : forall fs y new k, isolated k -> entry_ok y -> In k (keys new) -> In k (keys (second_step fs y new)).
Proof.
  intros fs y new k Hi Hy H. unfold second_step. destruct (_ && _); [now apply or_add_stays|exact H].
Qed.

Lemma or_second_stays : forall fs ys new k, isolated k -> Forall entry_ok ys -> In k (keys new) -> In k (keys (or_second fs ys new)).
Proof.
  intros fs. induction ys as [|y ys IH]; intros new k Hi Hy H; [exact H|]. rewrite or_second_cons.
  apply IH; [exact Hi|now apply Forall_inv_tail in Hy|]. apply second_step_stays; [exact Hi|now apply Forall_inv in Hy|exact H].
Qed.

Lemma second_step_ok : forall fs y new, Forall entry_ok new -> entry_ok y -> Forall entry_ok (second_step fs y new).
Proof.
  intros fs y new Hn Hy. unfold second_step. destruct (_ && _); [|exact Hn]. apply Forall_forall. intros e H. rewrite Forall_forall in Hn.
  apply in_or_add in H as [H|H]; [now apply Hn|]. subst e. now apply merge_ok.
Qed.

Lemma or_second_there : forall fs ys new k y, isolated k -> Forall entry_ok ys -> Forall entry_ok new -> find_entry k ys = Some y ->
  e_modifies _ y = true -> In k (keys (or_second fs ys new)).
Proof.
  intros fs. induction ys as [|z ys IH]; intros new k y Hi Hy Hn F M; [discriminate|]. rewrite or_second_cons.
  change (find_entry k (z :: ys)) with (if equals (e_key _ z) k then Some z else find_entry k ys) in F.
  destruct (equals (e_key _ z) k) eqn:E.
  - injection F as ->. apply equals_eq in E. subst k. apply or_second_stays; [exact Hi|now apply Forall_inv_tail in Hy|].
    unfold second_step. rewrite M. cbn [andb].
    destruct (existsb (fun e => is_child_of (e_key _ y) (e_key _ e)) new) eqn:X; [|apply or_add_there].
    exfalso. apply existsb_exists in X as [e [X1 X2]]. rewrite Forall_forall in Hn.
    destruct (isolated_child _ _ Hi (proj1 (Hn e X1))) as [_ C]. congruence.
  - apply IH with y; [exact Hi|now apply Forall_inv_tail in Hy| |exact F|exact M]. apply second_step_ok; [exact Hn|now apply Forall_inv in Hy].
Qed.

Lemma good_allows : forall fs k v es u, good fs k v es -> In k (keys es) \/ allows fs k v -> allows (Frame _ es u :: fs) k v.
Proof.
  intros fs k v es u H D. apply said_allows. unfold said. destruct (find_entry k es) as [e|] eqn:F.
  - apply find_key in F as [F1 F2]. now apply H.
  - destruct D as [D|D]; [|exact D]. apply find_in_keys in D. contradiction.
Qed.

Lemma said_modifies : forall fs k v es, said fs k v es ->
  (exists e, find_entry k es = Some e /\ e_modifies _ e = true /\ isolated k) \/ allows fs k v.
Proof.
  intros fs k v es H. unfold said in H. destruct (find_entry k es) as [e|] eqn:F; [|now right].
  destruct (find_key _ _ _ F) as [_ E]. destruct H as [_ [[H1 H2]|H]]; [left|right].
  - exists e. rewrite E in H2. exact (conj eq_refl (conj H1 H2)).
  - now rewrite <- E.
Qed.

Lemma merge_or_ok : forall fs x y optional, entries_ok (f_entries _ x) -> entries_ok (f_entries _ y) ->
  entries_ok (f_entries _ (merge_or fs x y optional)).
Proof.
  intros fs x y optional Hx Hy. unfold FlowModel.merge_or. destruct (f_unreachable _ x); [exact Hy|]. destruct (f_unreachable _ y); [exact Hx|].
  assert (N : entries_ok []) by (split; constructor).
  destruct (or_first_ok fs optional _ _ [] Hx Hy N (fun k F _ => match F with end)) as [O1 [O2 O3]].
  pose proof (fun k => or_first_ys fs optional _ (f_entries _ y) [] k (proj1 Hx)) as O4.
  destruct (or_first fs optional (f_entries _ x) (f_entries _ y) []) as [ys new]. cbn [fst snd f_entries] in *.
  apply or_second_ok; [exact O1|exact O2|]. intros z Hz M F. apply O3 in F. rewrite app_nil_r in F. apply find_in_keys in F.
  pose proof (find_in ys z (proj1 O1) Hz) as G. rewrite O4 in G. destruct (find_entry (e_key _ z) (f_entries _ x)); [|contradiction].
  destruct (find_entry (e_key _ z) (f_entries _ y)); [|discriminate]. cbn [option_map] in G. injection G as <-. discriminate.
Qed.

Lemma merge_or_allows : forall fs x y optional k v, known fs -> entries_ok (f_entries _ x) -> entries_ok (f_entries _ y) -> typed k v ->
  (optional = true -> forall e, In e (f_entries _ x) -> e_modifies _ e = false) ->
  (f_unreachable _ x = false /\ allows (x :: fs) k v) \/ (f_unreachable _ y = false /\ allows (y :: fs) k v) ->
  f_unreachable _ (merge_or fs x y optional) = false /\ allows (merge_or fs x y optional :: fs) k v.
Proof.
  intros fs x y optional k v K Hx Hy Ht Ho H. unfold FlowModel.merge_or.
  destruct (f_unreachable _ x) eqn:Ux; [destruct H as [[H _]|H]; [discriminate|exact H]|].
  destruct (f_unreachable _ y) eqn:Uy; [destruct H as [[_ H]|[H _]]; [now split|discriminate]|].
  assert (H' : said fs k v (f_entries _ x) \/ said fs k v (f_entries _ y)).
  { destruct H as [[_ H]|[_ H]]; [left|right]; apply (said_allows fs k v _ false); [rewrite <- Ux|rewrite <- Uy]; now rewrite frame_eta. }
  clear H. assert (W : isolated k \/ allows fs k v) by (destruct H' as [H|H]; now apply said_settled in H).
  assert (N : entries_ok []) by (split; constructor).
  destruct (or_first_ok fs optional _ _ [] Hx Hy N (fun k F _ => match F with end)) as [O1 [O2 O3]].
  pose proof (or_first_ys fs optional _ (f_entries _ y) [] k (proj1 Hx)) as O4.
  assert (G : good fs k v []) by (intros e []).
  pose proof (or_first_good fs optional _ (f_entries _ y) [] k v K Hx Ht Ho H' G) as O5.
  pose proof (fun e Hi F => or_first_there fs optional _ (f_entries _ y) [] k e Hi (proj2 Hx) F) as O6.
  destruct (or_first fs optional (f_entries _ x) (f_entries _ y) []) as [ys new]. cbn [fst snd f_entries] in *.
  split; [reflexivity|]. apply good_allows.
  - apply or_second_good; [exact K|exact O1|exact Ht| |exact W|exact O5].
    intros z Hz E M. pose proof (find_in ys z (proj1 O1) Hz) as F. rewrite E, O4 in F. unfold said in H'.
    destruct (find_entry k (f_entries _ x)) as [e|].
    + destruct (find_entry k (f_entries _ y)) as [o|]; [|discriminate]. cbn [option_map] in F. injection F as <-. discriminate.
    + rewrite F in H'. destruct H' as [H'|[H' _]]; [now right|now left].
  - destruct H' as [H'|H'].
    + apply said_modifies in H' as [[e [F [M Hi]]]|H']; [left|now right].
      apply or_second_stays; [exact Hi|apply O1|]. apply (O6 e Hi F). now left.
    + apply said_modifies in H' as [[e [F [M Hi]]]|H']; [left|now right].
      destruct (find_entry k (f_entries _ x)) as [z|] eqn:Fx.
      * apply or_second_stays; [exact Hi|apply O1|]. apply (O6 z Hi eq_refl). right. congruence.
      * apply or_second_there with e; [exact Hi|apply O1|apply O2|now rewrite O4|exact M].
Qed.

(** The entries that are no assignments come from entries of both frames that are none *)
Lemma or_first_tests : forall fs optional xs ys new e, NoDup (keys xs) -> In e (snd (or_first fs optional xs ys new)) -> e_modifies _ e = false ->
  In e new \/ (exists x, In x xs /\ e_key _ x = e_key _ e /\ e_modifies _ x = false) /\
              (exists y, find_entry (e_key _ e) ys = Some y /\ e_modifies _ y = false).
Proof.
  intros fs optional. induction xs as [|x xs IH]; intros ys new e Hn H M; [now left|]. rewrite or_first_cons in H.
  cbn [keys map] in Hn. inversion Hn as [|a l N1 N2 E0]; subst. apply IH in H; [|exact N2|exact M].
  destruct H as [H|[[z [H1 [H2 H3]]] [y [H4 H5]]]].
  - unfold first_step in H. pose proof (take_spec (e_key _ x) ys) as T. destruct (take _ (e_key _ x) ys) as [[y ys']|]; cbn [snd] in H.
    + apply in_app_or in H as [H|[H|[]]]; [now left|right]. subst e. cbn [FlowModel.union_of_refs e_modifies] in M.
      apply orb_false_iff in M as [M1 M2]. rewrite union_key. split.
      * exists x. split; [now left|now split].
      * exists y. destruct T as [T _]. now split.
    + destruct (e_modifies _ x) eqn:Mx; [|now left]. destruct optional.
      * apply in_app_or in H as [H|[H|[]]]; [now left|]. subst e. congruence.
      * apply in_or_add in H as [H|H]; [now left|]. subst e. rewrite merge_modifies in M by exact Mx. discriminate.
  - right. split; [exists z; split; [now right|now split]|]. rewrite first_step_ys in H4. exists y.
    destruct (equals (e_key _ x) (e_key _ e)) eqn:E; [|now split]. exfalso. apply equals_eq in E. apply N1. rewrite E, <- H2. now apply in_map.
Qed.

Lemma or_second_tests : forall fs ys new e, In e (or_second fs ys new) -> e_modifies _ e = false -> In e new.
Proof.
  intros fs. induction ys as [|y ys IH]; intros new e H M; [exact H|]. rewrite or_second_cons in H. apply IH in H; [|exact M].
  unfold second_step in H. destruct (e_modifies _ y) eqn:My; [|exact H]. cbn [andb] in H. destruct (negb _); [|exact H].
  apply in_or_add in H as [H|H]; [exact H|]. subst e. rewrite merge_modifies in M by exact My. discriminate.
Qed.

Lemma merge_or_tests : forall fs x y optional e, entries_ok (f_entries _ x) ->
  In e (f_entries _ (merge_or fs x y optional)) -> e_modifies _ e = false ->
  (f_unreachable _ x = false -> exists e', In e' (f_entries _ x) /\ e_key _ e' = e_key _ e /\ e_modifies _ e' = false) /\
  (f_unreachable _ y = false -> exists e', In e' (f_entries _ y) /\ e_key _ e' = e_key _ e /\ e_modifies _ e' = false).
Proof.
  intros fs x y optional e Hx H M. unfold FlowModel.merge_or in H. destruct (f_unreachable _ x).
  - split; [discriminate|]. intros _. exists e. now repeat split.
  - destruct (f_unreachable _ y).
    + split; [|discriminate]. intros _. exists e. now repeat split.
    + pose proof (fun e => or_first_tests fs optional _ (f_entries _ y) [] e (proj1 Hx)) as T.
      destruct (or_first fs optional (f_entries _ x) (f_entries _ y) []) as [ys new]. cbn [f_entries snd] in *.
      apply or_second_tests in H; [|exact M]. destruct (T e H M) as [[]|[T1 [z [T2 T3]]]]. split; intros _; [exact T1|].
      apply find_key in T2 as [T2 T4]. exists z. now repeat split.
Qed.

Lemma merge_or_plain : forall fs x y optional, entries_ok (f_entries _ x) ->
  (forall e, In e (f_entries _ x) -> e_modifies _ e = false) -> (forall e, In e (f_entries _ y) -> e_modifies _ e = false) ->
  forall e, In e (f_entries _ (merge_or fs x y optional)) -> e_modifies _ e = false.
Proof.
  intros fs x y optional Hk Hx Hy e H. unfold FlowModel.merge_or in H. destruct (f_unreachable _ x); [now apply Hy|].
  destruct (f_unreachable _ y); [now apply Hx|].
  assert (F1 : forall xs ys new, (forall e, In e xs -> e_modifies _ e = false) -> (forall e, In e ys -> e_modifies _ e = false) ->
     (forall e, In e new -> e_modifies _ e = false) -> (forall e, In e (fst (or_first fs optional xs ys new)) -> e_modifies _ e = false) /\
     (forall e, In e (snd (or_first fs optional xs ys new)) -> e_modifies _ e = false)).
  { induction xs as [|z xs IH]; intros ys new H1 H2 H3; [split; [exact H2|exact H3]|]. rewrite or_first_cons.
    pose proof (H1 z (or_introl eq_refl)) as Mz. apply IH.
    - intros a Ha. apply H1. now right.
    - unfold first_step. pose proof (take_spec (e_key _ z) ys) as T.
      assert (T' : forall o ys', take _ (e_key _ z) ys = Some (o, ys') -> forall a, In a ys' -> e_modifies _ a = false).
      { clear -H2. induction ys as [|b ys IH]; intros o ys' E a Ha; [discriminate|]. cbn [take] in E.
        destruct (equals (e_key _ z) (e_key _ b)).
        - injection E as E1 E2. subst o ys'. destruct Ha as [Ha|Ha]; [subst a; reflexivity|apply H2; now right].
        - destruct (take _ (e_key _ z) ys) as [[o' ys'']|]; [|discriminate]. cbn [option_map fst snd] in E. injection E as E1 E2. subst o ys'.
          destruct Ha as [Ha|Ha]; [subst a; apply H2; now left|]. apply (IH (fun c Hc => H2 c (or_intror Hc)) o' ys'' eq_refl a Ha). }
      destruct (take _ (e_key _ z) ys) as [[o ys']|]; cbn [fst]; [now apply (T' o ys')|exact H2].
    - unfold first_step. pose proof (take_spec (e_key _ z) ys) as T. destruct (take _ (e_key _ z) ys) as [[o ys']|]; cbn [snd].
      + intros a Ha. apply in_app_or in Ha as [Ha|[Ha|[]]]; [now apply H3|]. subst a. cbn [FlowModel.union_of_refs e_modifies].
        rewrite Mz. destruct T as [T _]. apply find_key in T as [T _]. now rewrite (H2 o T).
      + rewrite Mz. exact H3. }
  destruct (F1 (f_entries _ x) (f_entries _ y) [] Hx Hy (fun a F => match F with end)) as [G1 G2].
  destruct (or_first fs optional (f_entries _ x) (f_entries _ y) []) as [ys new]. cbn [f_entries fst snd] in *.
  apply G2. clear -H G1. revert new H. induction ys as [|y ys IH]; intros new H; [exact H|].
  rewrite or_second_cons in H. unfold second_step in H. rewrite (G1 y (or_introl eq_refl)) in H. cbn [andb] in H.
  apply IH; [|exact H]. intros a Ha. apply G1. now right.
Qed.

(** * [merge_and] *)
Notation common := (common type common_sub_type).
Notation and_entry := (and_entry type never common_sub_type).
Notation and_entries := (and_entries type never common_sub_type).
Notation merge_and := (merge_and type never common_sub_type).

Definition and_on (y : entry) (x : option entry) : entry :=
  match x with
  | None => y
  | Some x =>
      if e_modifies _ y then y
      else Entry _ (e_key _ x) (match common (e_kind _ x) (e_kind _ y) with Some t => t | None => Of _ never end) (e_modifies _ x) (e_deleted _ x)
  end.

Definition clash (y : entry) (x : option entry) : bool :=
  match x with
  | None => false
  | Some x => negb (e_modifies _ y) && match common (e_kind _ x) (e_kind _ y) with Some _ => false | None => true end
  end.

Lemma and_entry_spec : forall y xs,
  (forall k, find_entry k (fst (and_entry y xs)) = if equals (e_key _ y) k then Some (and_on y (find_entry k xs)) else find_entry k xs) /\
  snd (and_entry y xs) = clash y (find_entry (e_key _ y) xs) /\ keys (fst (and_entry y xs)) = keys (put _ y xs).
Proof.
  intros y xs. induction xs as [|x xs [IH1 [IH2 IH3]]].
  - cbn [FlowModel.and_entry fst snd]. split; [|now split]. intros k. unfold find_entry. cbn [find]. now destruct (equals (e_key _ y) k).
  - cbn [FlowModel.and_entry put]. unfold find_entry in *. cbn [find].
    destruct (equals (e_key _ x) (e_key _ y)) eqn:E.
    + apply equals_eq in E. split; [|split].
      * intros k. destruct (equals (e_key _ y) k) eqn:K; rewrite E, K; cbn [and_on].
        -- destruct (e_modifies _ y); [cbn [fst find]; now rewrite K|].
           destruct (common (e_kind _ x) (e_kind _ y)) as [t|]; cbn [fst find e_key]; now rewrite ?E, K.
        -- destruct (e_modifies _ y); [cbn [fst find]; now rewrite K|].
           destruct (common (e_kind _ x) (e_kind _ y)) as [t|]; cbn [fst find e_key]; now rewrite ?E, K.
      * cbn [clash]. destruct (e_modifies _ y); [reflexivity|]. now destruct (common (e_kind _ x) (e_kind _ y)).
      * destruct (e_modifies _ y); [reflexivity|].
        destruct (common (e_kind _ x) (e_kind _ y)) as [t|]; cbn [fst keys map e_key]; now rewrite E.
    + destruct (and_entry y xs) as [xs' u]. cbn [fst snd] in *. split; [|split; [exact IH2|]].
      * intros k. cbn [find]. rewrite IH1. destruct (equals (e_key _ x) k) eqn:F; [|reflexivity].
        apply equals_eq in F. subst k. now rewrite equals_sym, E.
      * cbn [keys map]. unfold keys in IH3. now rewrite IH3.
Qed.

Lemma and_entry_ok : forall y xs, entries_ok xs -> entry_ok y -> entries_ok (fst (and_entry y xs)).
Proof.
  intros y xs [H1 H2] Hy. destruct (and_entry_spec y xs) as [_ [_ S3]]. split; [rewrite S3; now apply nodup_put|]. clear H1 S3.
  induction H2 as [|x xs Hx H2 IH]; cbn [FlowModel.and_entry].
  - cbn [fst]. constructor; [exact Hy|constructor].
  - destruct (equals (e_key _ x) (e_key _ y)).
    + destruct (e_modifies _ y); [cbn [fst]; now constructor|].
      destruct (common (e_kind _ x) (e_kind _ y)); cbn [fst]; constructor; [exact Hx|exact H2|exact Hx|exact H2].
    + destruct (and_entry y xs) as [xs' u]. cbn [fst] in *. now constructor.
Qed.

Lemma and_entries_spec : forall ys xs, NoDup (keys ys) ->
  (forall k, find_entry k (fst (and_entries ys xs)) =
     match find_entry k ys with Some y => Some (and_on y (find_entry k xs)) | None => find_entry k xs end) /\
  (snd (and_entries ys xs) = true -> exists k y, find_entry k ys = Some y /\ clash y (find_entry k xs) = true).
Proof.
  induction ys as [|y ys IH]; intros xs Hn.
  - split; [reflexivity|discriminate].
  - cbn [keys map] in Hn. inversion Hn as [|a l N1 N2 E0]; subst. cbn [FlowModel.and_entries].
    destruct (and_entry_spec y xs) as [S1 [S2 _]]. destruct (and_entry y xs) as [xs' u] eqn:E. cbn [fst snd] in S1, S2.
    destruct (IH xs' N2) as [IH1 IH2]. destruct (and_entries ys xs') as [xs'' u'] eqn:E'. cbn [fst snd] in *.
    assert (Hy : find_entry (e_key _ y) ys = None).
    { destruct (find_entry (e_key _ y) ys) eqn:F; [|reflexivity]. exfalso. apply N1. apply find_in_keys. congruence. }
    split.
    + intros k. rewrite IH1, S1. change (find_entry k (y :: ys)) with (if equals (e_key _ y) k then Some y else find_entry k ys).
      destruct (equals (e_key _ y) k) eqn:K; [|reflexivity]. apply equals_eq in K. subst k. now rewrite Hy.
    + intros U. apply orb_true_iff in U as [U|U].
      * exists (e_key _ y), y. rewrite U in S2. split; [|now symmetry].
        change (find_entry (e_key _ y) (y :: ys)) with (if equals (e_key _ y) (e_key _ y) then Some y else find_entry (e_key _ y) ys).
        now rewrite equals_refl.
      * destruct (IH2 U) as [k [z [F1 F2]]]. exists k, z. rewrite S1 in F2.
        change (find_entry k (y :: ys)) with (if equals (e_key _ y) k then Some y else find_entry k ys).
        destruct (equals (e_key _ y) k) eqn:K; [|now split]. apply equals_eq in K. subst k. congruence.
Qed.

Lemma and_entries_ok : forall ys xs, entries_ok xs -> Forall entry_ok ys -> entries_ok (fst (and_entries ys xs)).
Proof.
  induction ys as [|y ys IH]; intros xs H Hy; [exact H|]. cbn [FlowModel.and_entries].
  pose proof (and_entry_ok y xs H (Forall_inv Hy)) as H1. destruct (and_entry y xs) as [xs' u]. cbn [fst] in H1.
  pose proof (IH xs' H1 (Forall_inv_tail Hy)) as H2. destruct (and_entries ys xs') as [xs'' u']. exact H2.
Qed.

Lemma merge_and_ok : forall x y, entries_ok (f_entries _ x) -> entries_ok (f_entries _ y) -> entries_ok (f_entries _ (merge_and x y)).
Proof.
  intros x y Hx Hy. unfold FlowModel.merge_and. destruct (f_unreachable _ x); [exact Hx|]. destruct (f_unreachable _ y); [exact Hy|].
  pose proof (and_entries_ok (f_entries _ y) (f_entries _ x) Hx (proj2 Hy)) as H.
  destruct (and_entries (f_entries _ y) (f_entries _ x)) as [es u]. exact H.
Qed.

Definition kind_type (k : key) (a : kind type) : type := match a with Of _ t => t | Declaration _ => declared k end.

Lemma fits_within : forall e v, fits e v -> within (kind_type (e_key _ e) (e_kind _ e)) v.
Proof.
  intros e v H. unfold fits, FlowTame.fits in H. destruct (e_deleted _ e); [subst v; apply within_none|exact H].
Qed.

Lemma common_within : forall k a b c v, common a b = Some c -> within (kind_type k a) v -> within (kind_type k b) v -> within (kind_type k c) v.
Proof.
  intros k a b c v E Ha Hb. destruct a as [t1|], b as [t2|]; cbn [FlowModel.common] in E.
  - destruct (common_sub_type t1 t2) as [t|] eqn:F; [|discriminate]. cbn [option_map] in E. injection E as <-.
    intros w Hw. apply (has_common t1 t2 t w F); [now apply Ha|now apply Hb].
  - injection E as <-. exact Ha.
  - injection E as <-. exact Hb.
  - injection E as <-. exact Hb.
Qed.

Lemma common_none : forall k a b w, common a b = None -> within (kind_type k a) (Some w) -> within (kind_type k b) (Some w) -> False.
Proof.
  intros k a b w E Ha Hb. destruct a as [t1|], b as [t2|]; cbn [FlowModel.common] in E; try discriminate.
  destruct (common_sub_type t1 t2) as [t|] eqn:F; [discriminate|].
  apply (has_disjoint t1 t2 w F); [now apply Ha|now apply Hb].
Qed.

Lemma and_on_fits : forall x y v, e_key _ x = e_key _ y -> fits x v -> fits y v -> fits (and_on y (Some x)) v.
Proof.
  intros x y v E Hx Hy. cbn [and_on]. destruct (e_modifies _ y); [exact Hy|].
  pose proof (fits_within x v Hx) as Wx. pose proof (fits_within y v Hy) as Wy. rewrite <- E in Wy.
  unfold fits, FlowTame.fits. cbn [e_deleted e_kind e_key]. destruct (e_deleted _ x) eqn:D.
  - unfold fits, FlowTame.fits in Hx. now rewrite D in Hx.
  - destruct (common (e_kind _ x) (e_kind _ y)) as [c|] eqn:C; [exact (common_within _ _ _ _ _ C Wx Wy)|].
    intros w ->. exfalso. exact (common_none _ _ _ _ C Wx Wy).
Qed.

Lemma merge_and_allows : forall fs x y k v, entries_ok (f_entries _ y) -> f_unreachable _ x = false -> f_unreachable _ y = false ->
  allows (y :: x :: fs) k v -> allows (merge_and x y :: fs) k v.
Proof.
  intros fs x y k v [Hn _] Ux Uy H. unfold FlowModel.merge_and. rewrite Ux, Uy.
  destruct (and_entries_spec (f_entries _ y) (f_entries _ x) Hn) as [Hf _].
  destruct (and_entries (f_entries _ y) (f_entries _ x)) as [es u]. cbn [fst] in Hf. specialize (Hf k).
  rewrite allows_cons. cbn [f_entries]. rewrite Hf. rewrite allows_cons in H.
  destruct (find_entry k (f_entries _ y)) as [e|] eqn:Fy.
  - destruct H as [H1 H2]. destruct (find_entry k (f_entries _ x)) as [d|] eqn:Fx.
    + destruct (find_key _ _ _ Fy) as [_ Ky]. destruct (find_key _ _ _ Fx) as [_ Kx].
      destruct (e_modifies _ e) eqn:M.
      * cbn [and_on]. rewrite M. split; [exact H1|]. destruct H2 as [[_ H2]|H2]; [left; now split|].
        rewrite allows_cons, Fx in H2. destruct H2 as [_ [[_ H2]|H2]]; [left; now split|now right].
      * destruct H2 as [[H2 _]|H2]; [discriminate|]. rewrite allows_cons, Fx in H2. destruct H2 as [H2 H3].
        split; [apply and_on_fits; [congruence|exact H2|exact H1]|]. cbn [and_on]. rewrite M. cbn [e_modifies]. exact H3.
    + cbn [and_on]. split; [exact H1|]. destruct H2 as [H2|H2]; [now left|right]. rewrite allows_cons, Fx in H2. exact H2.
  - rewrite allows_cons in H. exact H.
Qed.

Lemma merge_and_reachable : forall fs x y (s : key -> option value), entries_ok (f_entries _ y) -> f_unreachable _ x = false -> f_unreachable _ y = false ->
  (forall k, allows (y :: x :: fs) k (s k)) -> (forall e, In e (f_entries _ y) -> e_modifies _ e = false -> s (e_key _ e) <> None) ->
  f_unreachable _ (merge_and x y) = false.
Proof.
  intros fs x y s [Hn _] Ux Uy H B. unfold FlowModel.merge_and. rewrite Ux, Uy.
  destruct (and_entries_spec (f_entries _ y) (f_entries _ x) Hn) as [_ Hf].
  destruct (and_entries (f_entries _ y) (f_entries _ x)) as [es u]. cbn [snd f_unreachable] in *.
  destruct u; [|reflexivity]. exfalso. destruct (Hf eq_refl) as [k [e [F1 F2]]]. unfold clash in F2.
  destruct (find_entry k (f_entries _ x)) as [d|] eqn:Fx; [|discriminate]. apply andb_true_iff in F2 as [F2 F3].
  apply negb_true_iff in F2. destruct (common (e_kind _ d) (e_kind _ e)) as [c|] eqn:C; [discriminate|].
  destruct (find_key _ _ _ F1) as [F4 F5]. destruct (find_key _ _ _ Fx) as [_ F6]. specialize (B e F4 F2). rewrite F5 in B.
  specialize (H k). rewrite allows_cons, F1 in H. destruct H as [H1 [[H2 _]|H2]]; [congruence|].
  rewrite allows_cons, Fx in H2. destruct H2 as [H2 _]. destruct (s k) as [w|]; [|contradiction].
  apply (common_none k _ _ w C); [rewrite <- F6|rewrite <- F5]; now apply fits_within.
Qed.

Lemma merge_and_tests : forall x y e, entries_ok (f_entries _ x) -> entries_ok (f_entries _ y) ->
  In e (f_entries _ (merge_and x y)) -> e_modifies _ e = false ->
  exists e', (In e' (f_entries _ x) \/ In e' (f_entries _ y)) /\ e_key _ e' = e_key _ e /\ e_modifies _ e' = false.
Proof.
  intros x y e Hx Hy H M. unfold FlowModel.merge_and in H.
  destruct (f_unreachable _ x); [exists e; split; [now left|now split]|]. destruct (f_unreachable _ y); [exists e; split; [now right|now split]|].
  destruct (and_entries_spec (f_entries _ y) (f_entries _ x) (proj1 Hy)) as [Hf _].
  pose proof (and_entries_ok (f_entries _ y) (f_entries _ x) Hx (proj2 Hy)) as Ho.
  destruct (and_entries (f_entries _ y) (f_entries _ x)) as [es u]. cbn [fst f_entries] in *.
  pose proof (find_in es e (proj1 Ho) H) as F. rewrite Hf in F.
  destruct (find_entry (e_key _ e) (f_entries _ y)) as [a|] eqn:Fy.
  - injection F as F. destruct (find_key _ _ _ Fy) as [Fy1 Fy2].
    destruct (find_entry (e_key _ e) (f_entries _ x)) as [d|] eqn:Fx; cbn [and_on] in F.
    + destruct (e_modifies _ a) eqn:Ma; [congruence|]. exists a. split; [now right|now split].
    + subst a. exists e. split; [now right|now split].
  - destruct (find_key _ _ _ F) as [F1 _]. exists e. split; [now left|now split].
Qed.

Lemma merge_and_plain : forall x y, (forall e, In e (f_entries _ x) -> e_modifies _ e = false) -> (forall e, In e (f_entries _ y) -> e_modifies _ e = false) ->
  forall e, In e (f_entries _ (merge_and x y)) -> e_modifies _ e = false.
Proof.
  intros x y Hx Hy. unfold FlowModel.merge_and. destruct (f_unreachable _ x); [exact Hx|]. destruct (f_unreachable _ y); [exact Hy|].
  revert Hx Hy. generalize (f_entries _ y) as ys, (f_entries _ x) as xs. induction ys as [|y0 ys IH]; intros xs Hx Hy; [exact Hx|].
  cbn [FlowModel.and_entries].
  assert (A : forall e, In e (fst (and_entry y0 xs)) -> e_modifies _ e = false).
  { pose proof (Hy y0 (or_introl eq_refl)) as M. clear IH. induction xs as [|x0 xs IHx]; cbn [FlowModel.and_entry fst].
    - intros e [H|[]]. now subst e.
    - destruct (equals (e_key _ x0) (e_key _ y0)).
      + rewrite M. pose proof (Hx x0 (or_introl eq_refl)) as Mx.
        destruct (common (e_kind _ x0) (e_kind _ y0)); cbn [fst]; intros e [H|H];
          [subst e; exact Mx|apply Hx; now right|subst e; exact Mx|apply Hx; now right].
      + specialize (IHx (fun e H => Hx e (or_intror H))). destruct (and_entry y0 xs) as [xs' u]. cbn [fst] in *.
        intros e [H|H]; [subst e; apply Hx; now left|now apply IHx]. }
  destruct (and_entry y0 xs) as [xs' u]. cbn [fst] in A. specialize (IH xs' A (fun e H => Hy e (or_intror H))).
  destruct (and_entries ys xs') as [xs'' u']. exact IH.
Qed.

(** * Frames for [break] and [continue] *)
Notation add_missing := (add_missing type).
Notation merge_frames_for_index := (merge_frames_for_index type).

Lemma add_missing_spec : forall f result, entries_ok result -> Forall entry_ok (f_entries _ f) ->
  entries_ok (add_missing result f) /\
  forall k, find_entry k (add_missing result f) = match find_entry k result with Some e => Some e | None => find_entry k (f_entries _ f) end.
Proof.
  intros [es u]. unfold FlowModel.add_missing. cbn [f_entries]. induction es as [|e es IH]; intros result Hr He; cbn [fold_left].
  - split; [exact Hr|]. intros k. now destruct (find_entry k result).
  - set (r1 := match find_entry (e_key _ e) result with None => result ++ [e] | Some _ => result end).
    assert (H1 : entries_ok r1 /\ forall k, find_entry k r1 = match find_entry k result with Some x => Some x | None => if equals (e_key _ e) k then Some e else None end).
    { unfold r1. destruct (find_entry (e_key _ e) result) as [x|] eqn:F.
      - split; [exact Hr|]. intros k. destruct (find_entry k result) eqn:G; [reflexivity|].
        destruct (equals (e_key _ e) k) eqn:K; [|reflexivity]. apply equals_eq in K. subst k. congruence.
      - split; [|intros k; apply find_app_one]. apply app_ok; [exact Hr|now apply Forall_inv in He|]. intros G. apply find_in_keys in G. contradiction. }
    destruct H1 as [H1 H2]. destruct (IH r1 H1 (Forall_inv_tail He)) as [I1 I2]. split; [exact I1|]. intros k. rewrite I2, H2.
    change (find_entry k (e :: es)) with (if equals (e_key _ e) k then Some e else find_entry k es).
    destruct (find_entry k result); [reflexivity|]. now destruct (equals (e_key _ e) k).
Qed.

Lemma fold_missing_spec : forall fs result, entries_ok result -> Forall (fun f => Forall entry_ok (f_entries _ f)) fs ->
  entries_ok (fold_left add_missing fs result) /\
  forall k, find_entry k (fold_left add_missing fs result) = match find_entry k result with Some e => Some e | None => lookup fs k end.
Proof.
  induction fs as [|f fs IH]; intros result Hr Hf; cbn [fold_left FlowModel.lookup].
  - split; [exact Hr|]. intros k. now destruct (find_entry k result).
  - destruct (add_missing_spec f result Hr (Forall_inv Hf)) as [A1 A2]. destruct (IH _ A1 (Forall_inv_tail Hf)) as [B1 B2].
    split; [exact B1|]. intros k. rewrite B2, A2. destruct (find_entry k result); [reflexivity|]. now destruct (find_entry k (f_entries _ f)).
Qed.

Lemma stack_forall : forall fs, stack_ok fs -> Forall (fun f => Forall entry_ok (f_entries _ f)) fs.
Proof.
  induction fs as [|f fs IH]; intros H; [constructor|]. destruct H as [H1 H2]. constructor; [apply H1|].
  destruct fs as [|g fs]; [constructor|now apply IH].
Qed.

Lemma index_ok : forall fs i, stack_ok fs -> entries_ok (f_entries _ (merge_frames_for_index fs i)).
Proof.
  intros fs i H. unfold FlowModel.merge_frames_for_index. cbn [f_entries].
  apply fold_missing_spec; [split; constructor|]. apply stack_forall in H. rewrite Forall_forall in *. intros f Hf. apply H.
  rewrite <- (firstn_skipn (length fs - i) fs). apply in_or_app. now left.
Qed.

Lemma allows_app : forall top base k v, allows (top ++ base) k v -> isolated k \/ allows base k v.
Proof.
  induction top as [|f top IH]; intros base k v H; [now right|]. cbn [app] in H.
  apply allows_tail in H as [[e [_ [_ [_ H]]]]|H]; [now left|now apply IH].
Qed.

Lemma allows_tests : forall top base k v, (forall f e, In f top -> In e (f_entries _ f) -> e_key _ e = k -> e_modifies _ e = false) ->
  allows (top ++ base) k v -> allows base k v.
Proof.
  induction top as [|f top IH]; intros base k v Ht H; [exact H|]. cbn [app] in H. apply IH.
  - intros g e Hg. apply Ht. now right.
  - apply allows_tail in H as [[e [H1 [_ [H2 _]]]]|H]; [|exact H]. apply find_key in H1 as [H1 H3].
    rewrite (Ht f e (or_introl eq_refl) H1 H3) in H2. discriminate.
Qed.

Lemma allows_top : forall top base k v,
  (forall e, lookup top k = Some e -> e_modifies _ e = false ->
   forall f e', In f top -> In e' (f_entries _ f) -> e_key _ e' = k -> e_modifies _ e' = false) ->
  allows (top ++ base) k v ->
  match lookup top k with Some e => fits e v /\ ((e_modifies _ e = true /\ isolated k) \/ allows base k v) | None => allows base k v end.
Proof.
  induction top as [|f top IH]; intros base k v Hf H; [exact H|]. cbn [app] in H. rewrite allows_cons in H.
  cbn [FlowModel.lookup] in *. destruct (find_entry k (f_entries _ f)) as [e|] eqn:F.
  - destruct H as [H1 H2]. split; [exact H1|]. destruct H2 as [H2|H2]; [now left|]. destruct (e_modifies _ e) eqn:M.
    + apply allows_app in H2 as [H2|H2]; [left; now split|now right].
    + right. apply (allows_tests top); [|exact H2]. intros g e' Hg. apply (Hf e eq_refl M). now right.
  - apply IH; [|exact H]. intros e E M g e' Hg. apply (Hf e E M). now right.
Qed.

Lemma index_allows : forall fs i k v, stack_ok fs -> flat type (firstn (length fs - i) fs) -> allows fs k v ->
  allows (merge_frames_for_index fs i :: skipn (length fs - i) fs) k v.
Proof.
  intros fs i k v Hs Hf H. rewrite allows_cons. unfold FlowModel.merge_frames_for_index. cbn [f_entries].
  assert (Ht : Forall (fun f => Forall entry_ok (f_entries _ f)) (firstn (length fs - i) fs)).
  { apply stack_forall in Hs. rewrite Forall_forall in *. intros f Hi. apply Hs.
    rewrite <- (firstn_skipn (length fs - i) fs). apply in_or_app. now left. }
  assert (N : entries_ok []) by (split; constructor).
  destruct (fold_missing_spec _ [] N Ht) as [_ F]. rewrite F. cbn [FlowModel.find_entry find].
  apply allows_top.
  - intros e E M. exact (Hf k e E M).
  - now rewrite firstn_skipn.
Qed.

(** * Conditions *)
Variables (test : Type) (error : type) (is_never is_any any_in none_in could_be_a_literal : type -> bool).
Variables (remove_none avoid_implicit_literal : type -> type) (union : type -> type -> type).
Variables (split : test -> type -> option (type * type)) (truthiness : test) (explicit_any : key -> bool) (passes : test -> value -> bool).
Hypothesis has_never : forall t v, is_never t = true -> ~ has t v.
Hypothesis has_split : forall g t a b v, split g t = Some (a, b) -> has t v -> has (if passes g v then a else b) v.
Hypothesis has_widened : forall t v, has t v -> has (avoid_implicit_literal t) v.
Hypothesis has_any : forall t t' v, is_any t = true -> has (union t' t) v.

Notation cond := (cond type test).
Notation stmt := (stmt type test).
Notation store := (store value).
Notation well_typed := (well_typed type value declared has).
Notation updated := (updated type value declared has).
Notation assigned := (assigned type value declared has).
Notation holds := (holds type test value truthiness declared has passes).
Notation runs := (runs type test value truthiness declared has passes).
Notation tries_to := (tries_to type test value truthiness declared has passes).
Notation right := (right type value has).
Notation assign := (assign type is_any any_in none_in could_be_a_literal remove_none avoid_implicit_literal union simplified_union declared explicit_any).
Notation walrus_guards := (walrus_guards type test is_never is_any any_in none_in could_be_a_literal remove_none avoid_implicit_literal union
                             simplified_union split truthiness declared explicit_any).
Notation guards := (guards type test error never is_never is_any any_in none_in could_be_a_literal remove_none avoid_implicit_literal union
                      simplified_union common_sub_type split truthiness declared explicit_any).
Notation analyse := (analyse type test error never is_never is_any any_in none_in could_be_a_literal remove_none avoid_implicit_literal union
                       simplified_union common_sub_type split truthiness declared explicit_any).
Notation removing := (removing type is_any any_in none_in could_be_a_literal avoid_implicit_literal declared explicit_any).
Notation outermost := (outermost type).
Notation tame_assign := (tame_assign type is_any any_in none_in could_be_a_literal remove_none avoid_implicit_literal union simplified_union declared
                           explicit_any tracked params).
Notation tame_walruses := (tame_walruses type is_any any_in none_in could_be_a_literal remove_none avoid_implicit_literal union simplified_union declared
                           explicit_any tracked params).
Notation plain := (plain type test).
Notation tame_cond := (tame_cond type test value error never is_never is_any any_in none_in could_be_a_literal remove_none avoid_implicit_literal union
                       simplified_union common_sub_type split truthiness declared explicit_any has tracked params).
Notation tame := (tame type test value error never is_never is_any any_in none_in could_be_a_literal remove_none avoid_implicit_literal union
                       simplified_union common_sub_type split truthiness declared explicit_any has tracked params).
Notation look_at := (look_at type declared).
Notation type_of := (type_of type error declared).
Notation push := (push type).
Notation pop := (pop type).
Notation new_conditional := (new_conditional type).
Notation new_unreachable := (new_unreachable type).

Definition allowed (fs : list frame) (s : store) : Prop := forall k, allows fs k (s k).

Lemma well_typed_typed : forall s k, well_typed s -> typed k (s k).
Proof. intros s k H w E. now apply H. Qed.

(** ** What a [try] around it makes of an execution *)
Definition ghost : Type := list (list frame * list entry).

Definition covered (ts : list (list entry)) (g : ghost) : Prop := Forall2 (fun t p => wider t (snd p)) ts g.
Definition ghosts_ok (g : ghost) : Prop := Forall (fun p => stack_ok (fst p)) g.
Definition intact (g : ghost) (s : store) : Prop :=
  Forall (fun p => forall k, allows (fst p) k (s k) \/ (isolated k /\ possible (snd p) k (s k))) g.

Lemma covered_wider : forall ts ts' g, Forall2 wider ts ts' -> covered ts' g -> covered ts g.
Proof.
  intros ts ts' g H. revert g. induction H as [|t t' ts ts' H1 H2 IH]; intros g H.
  - exact H.
  - inversion H as [|a p b g' H3 H4 E1 E2]; subst. constructor; [now apply wider_trans with t'|now apply IH].
Qed.

Lemma overwrite_sound : forall new st g fs s s', frames _ st = g :: fs -> stack_ok (g :: fs) -> entry_ok new -> e_modifies _ new = true ->
  isolated (e_key _ new) \/ fs = [] -> allowed (g :: fs) s -> fits new (s' (e_key _ new)) -> updated s (e_key _ new) (s' (e_key _ new)) s' ->
  allowed (frames _ (overwrite_entry new st)) s'.
Proof.
  intros new st g fs s s' E Hs Hn M Hi H Hv [_ [U2 U3]] k.
  destruct (key_dec k (e_key _ new)) as [K|K].
  - subst k. apply overwrite_same with g fs; [exact E|exact Hs|exact Hn|]. split; [exact Hv|].
    destruct Hi as [Hi|Hi]; [left; now split|right]. rewrite Hi. now apply well_typed_typed.
  - destruct (is_child_of k (e_key _ new)) eqn:C.
    + destruct (overwrite_frames new st g fs E Hs Hn) as [es [F1 [F2 F3]]]. rewrite F1. rewrite allows_cons. cbn [f_entries].
      rewrite F3, C. replace (equals (e_key _ new) k) with false by (symmetry; apply equals_neq; congruence).
      destruct Hi as [Hi|Hi].
      * destruct fs as [|f fs]; [now apply well_typed_typed|]. destruct Hs as [_ Hs]. apply allows_untracked; [exact Hs| |now apply well_typed_typed].
        intros T. destruct (isolated_child _ _ Hi T) as [C' _]. congruence.
      * rewrite Hi. now apply well_typed_typed.
    + rewrite U2; [|exact K|]. 2:{ intros B. apply is_child_of_below in B. congruence. }
      apply overwrite_other with g fs; [exact E|exact Hs|exact Hn|exact K|apply H].
Qed.

Lemma overwrite_intact : forall new st s s' g, sound_state st -> entry_ok new ->
  isolated (e_key _ new) \/ tries _ st = [] -> fits new (s' (e_key _ new)) -> updated s (e_key _ new) (s' (e_key _ new)) s' ->
  ghosts_ok g -> covered (tries _ (overwrite_entry new st)) g -> intact g s -> intact g s'.
Proof.
  intros new st s s' g [Hs Ht] Hn Hi Hv [_ [U2 U3]] Hg Hc H.
  assert (K : known (frames _ st)) by now apply stack_known.
  unfold FlowModel.overwrite_entry in Hc. cbn [tries] in Hc. revert g Hg Hc H. destruct Hi as [Hi|Hi].
  - induction Ht as [|t ts Ht Hts IH]; intros g Hg Hc H; cbn [map] in Hc.
    + inversion Hc as [E|]; subst. constructor.
    + inversion Hc as [|a p b g' H1 H2 E1 E2]; subst.
      constructor; [|now apply IH; [apply Forall_inv_tail in Hg|exact H2|apply Forall_inv_tail in H]].
      apply Forall_inv in Hg. apply Forall_inv in H. intros k. destruct (key_dec k (e_key _ new)) as [E|E].
      * subst k. right. split; [exact Hi|]. apply H1; [exact Hi|now apply well_typed_typed|].
        apply record_possible; [exact K|exact Ht|exact Hn|exact Hi|now apply well_typed_typed|exact Hv].
      * destruct (is_child_of k (e_key _ new)) eqn:C.
        -- left. apply allows_untracked; [exact Hg| |now apply well_typed_typed].
           intros T. destruct (isolated_child _ _ Hi T) as [C' _]. congruence.
        -- rewrite U2; [apply H|exact E|]. intros B. apply is_child_of_below in B. congruence.
  - intros g Hg Hc H. rewrite Hi in Hc. cbn [map] in Hc. inversion Hc as [E|]; subst. constructor.
Qed.

(** ** Assignments *)
Definition assigned_type (k : key) (t : type) : type := if could_be_a_literal (declared k) then t else avoid_implicit_literal t.

Lemma has_assigned_type : forall k t v, has t v -> has (assigned_type k t) v.
Proof. intros k t v H. unfold assigned_type. destruct (could_be_a_literal (declared k)); [exact H|now apply has_widened]. Qed.

Lemma assign_saves : forall k t st, removing k t = false ->
  exists t', assign k t st = overwrite_entry (Entry _ k (Of _ t') true false) st /\ forall v, has t v -> has t' v.
Proof.
  intros k t st R. unfold FlowModel.assign, narrow_or_widen_internal, FlowTame.removing in *. fold (assigned_type k t) in *.
  cbv zeta in R. apply orb_false_iff in R as [R1 R2]. rewrite R1.
  destruct (is_any (assigned_type k t)) eqn:A; destruct (any_in (declared k)) eqn:I; cbn [andb negb] in *.
  - exists (assigned_type k t). split; [reflexivity|]. intros v. apply has_assigned_type.
  - destruct (none_in (declared k)); [|discriminate]. eexists. split; [reflexivity|]. intros v _. now apply has_any.
  - exists (assigned_type k t). split; [reflexivity|]. intros v. apply has_assigned_type.
  - exists (assigned_type k t). split; [reflexivity|]. intros v. apply has_assigned_type.
Qed.

Lemma saved_ok : forall k t, tracked k -> entry_ok (Entry _ k (Of _ t) true false).
Proof. intros k t T. split; [exact T|]. discriminate. Qed.

Lemma filter_evolved : forall st p g fs, sound_state st -> frames _ st = g :: fs -> (forall e, deletable (e_key _ e) -> p e = true) ->
  evolved st (set_frames _ (Frame _ (filter p (f_entries _ g)) (f_unreachable _ g) :: fs) st).
Proof.
  intros st p g fs Hs E Hp. destruct (stack_some st Hs) as [g' [fs' [E' Hst]]]. rewrite E in E'. injection E' as <- <-.
  pose proof (stack_entries _ _ Hst) as Hg.
  split; [|split; [|split; [apply Hs|split; [apply forall2_wider_refl|split; reflexivity]]]]; cbn [set_frames frames].
  - rewrite E. eexists. reflexivity.
  - apply stack_replace with g; [exact Hst|now apply filter_ok|]. intros -> k D. rewrite find_filter by apply Hg.
    destruct Hst as [_ Hst]. specialize (Hst k D). destruct (find_entry k (f_entries _ g)) as [e|] eqn:F; [|exact Hst].
    destruct (find_key _ _ _ F) as [_ <-]. rewrite (Hp e D). discriminate.
Qed.

Lemma filter_filter : forall A (p q : A -> bool) l, filter p (filter q l) = filter (fun x => q x && p x) l.
Proof.
  intros A p q l. induction l as [|x l IH]; [reflexivity|]. cbn [filter]. destruct (q x); cbn [filter andb]; [|exact IH].
  destruct (p x); now rewrite IH.
Qed.

Lemma assign_evolved : forall k t st, sound_state st -> tracked k -> (removing k t = true -> ~ deletable k) -> evolved st (assign k t st).
Proof.
  intros k t st Hs T D. destruct (removing k t) eqn:R.
  - specialize (D eq_refl). unfold FlowModel.assign, narrow_or_widen_internal, FlowTame.removing in *. fold (assigned_type k t) in *.
    cbv zeta in R. destruct (stack_some st Hs) as [g [fs [E Hst]]].
    assert (Hp : forall e, deletable (e_key type e) -> equals (e_key type e) k = false).
    { intros e He. apply equals_neq. intros F. apply D. now rewrite <- F. }
    destruct (explicit_any k).
    + unfold remove_key. rewrite E. unfold invalidate_child_entries. rewrite filter_filter. apply filter_evolved; [exact Hs|exact E|].
      intros e He. cbv beta. rewrite (Hp e He), (deletable_child _ _ He). reflexivity.
    + cbn [orb] in R. apply andb_true_iff in R as [R R2]. rewrite R. apply negb_true_iff in R2. rewrite R2.
      unfold remove_key_if_modifies_ancestors. rewrite E. apply filter_evolved; [exact Hs|exact E|].
      intros e He. cbv beta. rewrite (Hp e He). apply orb_true_r.
  - destruct (assign_saves k t st R) as [t' [-> _]]. apply overwrite_evolved; [exact Hs|now apply saved_ok|reflexivity].
Qed.

Lemma tame_assign_evolved : forall k t st, sound_state st -> tame_assign k t st -> evolved st (assign k t st).
Proof.
  intros k t st Hs [T [_ R]]. apply assign_evolved; [exact Hs|exact T|]. intros E [n [Hn ->]]. destruct (R E) as [_ [_ [H _]]].
  apply H. now exists n.
Qed.

Lemma outermost_single : forall st g fs, outermost st -> frames _ st = g :: fs -> fs = [].
Proof. intros st g fs [H _] E. rewrite E in H. cbn [length] in H. destruct fs; [reflexivity|discriminate]. Qed.

Lemma assign_sound : forall k t st s v s', sound_state st -> tame_assign k t st -> allowed (frames _ st) s -> has t v -> updated s k (Some v) s' ->
  allowed (frames _ (assign k t st)) s'.
Proof.
  intros k t st s v s' Hs Ha H Hv U. destruct (stack_some st Hs) as [g [fs [E Hst]]]. rewrite E in H.
  destruct Ha as [T [Hi R]]. destruct (removing k t) eqn:Rk.
  - destruct (R eq_refl) as [Ho [Hk [Hd Hl]]]. pose proof (outermost_single st g fs Ho E) as Hfs. subst fs.
    destruct U as [U1 [U2 U3]]. intros k'.
    assert (Hst' : evolved st (assign k t st)).
    { apply assign_evolved; [exact Hs|exact T|]. intros _ [n [Hn ->]]. apply Hd. now exists n. }
    destruct Hst' as [[es F] [F1 _]]. rewrite E in F. destruct (key_dec k' k) as [K|K].
    + subst k'. rewrite F in Hl |- *. cbn [FlowModel.lookup f_entries] in Hl. rewrite allows_cons. cbn [f_entries].
      destruct (find_entry k es); [discriminate|]. now apply well_typed_typed.
    + destruct (is_child_of k' k) eqn:C.
      * apply allows_untracked; [exact F1| |now apply well_typed_typed]. intros T'. destruct (isolated_child _ _ Hk T') as [C' _]. congruence.
      * rewrite U2; [|exact K|]. 2:{ intros B. apply is_child_of_below in B. congruence. }
        assert (Hf : find_entry k' es = find_entry k' (f_entries _ g)).
        { pose proof (stack_entries _ _ Hst) as Hg.
          unfold FlowModel.assign, narrow_or_widen_internal, FlowTame.removing in *. fold (assigned_type k t) in *. cbv zeta in Rk.
          assert (Hp : forall e, find_entry k' (f_entries _ g) = Some e -> equals (e_key type e) k = false).
          { intros e He. apply equals_neq. intros Ek. apply find_key in He as [_ He]. congruence. }
          destruct (explicit_any k).
          - unfold remove_key in F. rewrite E in F. cbn [set_frames frames] in F. injection F as F. rewrite <- F.
            unfold invalidate_child_entries. rewrite filter_filter, find_filter by apply Hg.
            destruct (find_entry k' (f_entries _ g)) as [e|] eqn:Fe; [|reflexivity]. rewrite (Hp e eq_refl).
            destruct (find_key _ _ _ Fe) as [_ ->]. now rewrite C.
          - cbn [orb] in Rk. apply andb_true_iff in Rk as [R1 R2]. rewrite R1 in F. apply negb_true_iff in R2. rewrite R2 in F.
            unfold remove_key_if_modifies_ancestors in F. rewrite E in F. cbn [set_frames frames] in F. injection F as F. rewrite <- F.
            rewrite find_filter by apply Hg.
            destruct (find_entry k' (f_entries _ g)) as [e|] eqn:Fe; [|reflexivity]. rewrite (Hp e eq_refl). cbn [negb]. now rewrite orb_true_r. }
        rewrite F. rewrite allows_cons. cbn [f_entries]. rewrite Hf. specialize (H k'). now rewrite allows_cons in H.
  - destruct (assign_saves k t st Rk) as [t' [-> Ht']].
    assert (Ev : s' k = Some v) by apply U. rewrite <- Ev in U.
    apply (overwrite_sound (Entry _ k (Of _ t') true false) st g fs s s' E Hst); [now apply saved_ok|reflexivity| |exact H| |exact U].
    + destruct Hi as [Hi|Hi]; [now left|right]. now apply (outermost_single st g fs).
    + cbn [e_key]. rewrite Ev. unfold fits, FlowTame.fits. cbn [e_deleted e_kind]. intros w Ew. injection Ew as <-. now apply Ht'.
Qed.

Lemma assign_intact : forall k t st s v s' g, sound_state st -> tame_assign k t st -> has t v -> updated s k (Some v) s' ->
  ghosts_ok g -> covered (tries _ (assign k t st)) g -> intact g s -> intact g s'.
Proof.
  intros k t st s v s' g Hs Ha Hv U Hg Hc H. pose proof (tame_assign_evolved k t st Hs Ha) as [_ [_ [_ [W _]]]].
  destruct Ha as [T [Hi R]].
  assert (O : outermost st -> intact g s').
  { intros [_ O]. rewrite O in W. assert (Z : tries _ (assign k t st) = []) by (inversion W; reflexivity).
    rewrite Z in Hc. inversion Hc as [E'|]; subst. constructor. }
  destruct (removing k t) eqn:Rk; [apply O, R, eq_refl|]. destruct Hi as [Hi|Hi]; [|now apply O].
  destruct (assign_saves k t st Rk) as [t' [E Ht']]. rewrite E in Hc.
  assert (Ev : s' k = Some v) by apply U. rewrite <- Ev in U.
  apply (overwrite_intact (Entry _ k (Of _ t') true false) st s s' g Hs); [now apply saved_ok|now left| |exact U|exact Hg|exact Hc|exact H].
  cbn [e_key]. rewrite Ev. unfold fits, FlowTame.fits. cbn [e_deleted e_kind]. intros w Ew. injection Ew as <-. now apply Ht'.
Qed.

(** ** Frames are put on the stack and taken off *)
Lemma empty_ok : entries_ok [].
Proof. split; constructor. Qed.

Lemma push_sound : forall f st, sound_state st -> entries_ok (f_entries _ f) -> sound_state (push f st).
Proof. intros f st [H1 H2] Hf. split; [now apply stack_push|exact H2]. Qed.

Lemma pop_evolved : forall f st st', sound_state st -> evolved (push f st) st' -> evolved st (snd (pop st')) /\ frames _ (snd (pop st')) = frames _ st.
Proof.
  intros f st st' Hs [[es E1] [E2 [E3 [E4 [E5 E6]]]]]. unfold FlowModel.push in *. cbn [set_frames frames] in E1.
  unfold FlowModel.pop. rewrite E1. cbn [snd set_frames frames]. split; [|reflexivity].
  split; [|split; [apply Hs|split; [exact E3|split; [exact E4|split; [exact E5|exact E6]]]]]. cbn [set_frames frames].
  destruct (frames _ st) as [|[es' u] fs]; [now exists es|now exists es'].
Qed.

(** ** Walruses *)
Definition walrus_state (k : key) (t' : type) (st : state) : state :=
  State _ (frames _ st) (map (record_in_try (new_conditional :: frames _ st) (Entry _ k (Of _ t') true false)) (tries _ st)) (loop _ st) (reports _ st).

Lemma walrus_form : forall k t st, removing k t = false ->
  exists t', (forall v, has t v -> has t' v) /\
    walrus_guards k t st =
    match split truthiness t with
    | Some (a, b) => (Frame _ [Entry _ k (Of _ a) true false] (is_never a), Frame _ [Entry _ k (Of _ b) false false] (is_never b), walrus_state k t' st)
    | None => (Frame _ [Entry _ k (Of _ t') true false] false, Frame _ [Entry _ k (Of _ t') true false] false, walrus_state k t' st)
    end.
Proof.
  intros k t st R. destruct (assign_saves k t (push new_conditional st) R) as [t' [E Ht']]. exists t'. split; [exact Ht'|].
  unfold FlowModel.walrus_guards. rewrite E. unfold FlowModel.overwrite_entry, FlowModel.push, FlowModel.pop. cbn [set_frames frames tries loop reports].
  unfold FlowModel.new_conditional. cbn [f_entries invalidate_child_entries filter put f_unreachable].
  destruct (split truthiness t) as [[a b]|]; [|reflexivity].
  unfold from_type_without_entry, FlowModel.new_conditional, FlowModel.new_unreachable, frame_overwrite_entry, new_entry.
  destruct (is_never a), (is_never b); reflexivity.
Qed.

Lemma walrus_evolved : forall k t' st, sound_state st -> tracked k -> evolved st (walrus_state k t' st) /\ frames _ (walrus_state k t' st) = frames _ st.
Proof.
  intros k t' st Hs T.
  assert (Hp : sound_state (push new_conditional st)) by (apply push_sound; [exact Hs|exact empty_ok]).
  pose proof (overwrite_evolved (Entry _ k (Of _ t') true false) _ Hp (saved_ok k t' T) eq_refl) as E.
  exact (pop_evolved new_conditional st _ Hs E).
Qed.

Lemma walrus_intact : forall k t' st s v s' g, sound_state st -> tracked k -> isolated k -> has t' v -> updated s k (Some v) s' ->
  ghosts_ok g -> covered (tries _ (walrus_state k t' st)) g -> intact g s -> intact g s'.
Proof.
  intros k t' st s v s' g Hs T Hi Hv U Hg Hc H.
  assert (Hp : sound_state (push new_conditional st)) by (apply push_sound; [exact Hs|exact empty_ok]).
  assert (Ev : s' k = Some v) by apply U. rewrite <- Ev in U.
  apply (overwrite_intact (Entry _ k (Of _ t') true false) (push new_conditional st) s s' g Hp);
    [now apply saved_ok|now left| |exact U|exact Hg|exact Hc|exact H].
  cbn [e_key]. rewrite Ev. unfold fits, FlowTame.fits. cbn [e_deleted e_kind]. intros w Ew. injection Ew as <-. exact Hv.
Qed.

Lemma one_ok : forall e, entry_ok e -> entries_ok [e].
Proof. intros e H. split; [constructor; [intros []|constructor]|constructor; [exact H|constructor]]. Qed.

(** ** What conditions do to the state *)
Definition guards_fine (calls : bool) (c : cond) (st : state) : Prop :=
  let '(t, f, st1) := guards c st in
  entries_ok (f_entries _ t) /\ entries_ok (f_entries _ f) /\ evolved st st1 /\ (calls = false -> frames _ st1 = frames _ st).

Lemma walruses_evolved : forall ws st, sound_state st -> tame_walruses ws st ->
  evolved st (fold_left (fun st w => assign (fst w) (snd w) st) ws st).
Proof.
  induction ws as [|[k t] ws IH]; intros st Hs H; [now apply evolved_refl|]. destruct H as [H1 H2]. cbn [fold_left fst snd].
  pose proof (tame_assign_evolved k t st Hs H1) as E. apply evolved_trans with (assign k t st); [exact E|].
  apply IH; [now apply (evolved_sound st)|exact H2].
Qed.

Lemma from_type_ok : forall k t, tracked k -> entries_ok (f_entries _ (from_type type is_never k t)).
Proof.
  intros k t T. unfold from_type. destruct (is_never t); [exact empty_ok|]. apply one_ok. split; [exact T|discriminate].
Qed.

Lemma from_type_without_ok : forall t, entries_ok (f_entries _ (from_type_without_entry type is_never t)).
Proof. intros t. unfold from_type_without_entry. destruct (is_never t); exact empty_ok. Qed.

Lemma guards_structure : forall c calls st, sound_state st -> tame_cond calls c st -> guards_fine calls c st.
Proof.
  induction c as [g k|ws t|k t|c IH|a IHa b IHb|a IHa b IHb]; intros calls st Hs H; unfold guards_fine; cbn [FlowModel.guards FlowTame.tame_cond] in *.
  - destruct (split g (type_of st k)) as [[x y]|].
    + split; [now apply from_type_ok|split; [now apply from_type_ok|split; [now apply evolved_refl|reflexivity]]].
    + split; [exact empty_ok|split; [exact empty_ok|split; [now apply evolved_refl|reflexivity]]].
  - destruct H as [H1 H2]. pose proof (walruses_evolved ws st Hs H2) as E.
    assert (F : calls = false -> frames _ (fold_left (fun st w => assign (fst w) (snd w) st) ws st) = frames _ st).
    { intros C. destruct H1 as [H1|H1]; [congruence|]. now rewrite H1. }
    destruct (split truthiness t) as [[x y]|].
    + split; [apply from_type_without_ok|split; [apply from_type_without_ok|split; [exact E|exact F]]].
    + split; [exact empty_ok|split; [exact empty_ok|split; [exact E|exact F]]].
  - destruct H as [T [Hi [R _]]]. destruct (walrus_form k t st R) as [t' [_ E]]. rewrite E.
    destruct (walrus_evolved k t' st Hs T) as [W1 W2].
    destruct (split truthiness t) as [[x y]|]; (split; [|split; [|split; [exact W1|intros _; exact W2]]]); apply one_ok; split;
      try exact T; discriminate.
  - specialize (IH calls st Hs H). unfold guards_fine in IH. destruct (guards c st) as [[t f] st1].
    destruct IH as [I1 [I2 [I3 I4]]]. exact (conj I2 (conj I1 (conj I3 I4))).
  - destruct H as [_ [Ha Hb]]. specialize (IHa false st Hs Ha). unfold guards_fine in IHa. destruct (guards a st) as [[lt lf] st1].
    destruct IHa as [A1 [A2 [A3 A4]]]. specialize (A4 eq_refl). destruct (f_unreachable _ lt) eqn:U.
    + split; [|split; [|split; [exact A3|intros _; exact A4]]].
      * apply merge_and_ok; [exact A1|exact empty_ok].
      * apply merge_or_ok; [exact A2|exact empty_ok].
    + specialize (Hb eq_refl). pose proof (evolved_sound _ _ A3) as Hs1.
      pose proof (push_sound lt st1 Hs1 A1) as Hp. specialize (IHb false _ Hp Hb). unfold guards_fine in IHb.
      destruct (guards b (push lt st1)) as [[rt rf] st2]. destruct IHb as [B1 [B2 [B3 B4]]]. specialize (B4 eq_refl).
      destruct (pop_evolved lt st1 st2 Hs1 B3) as [P1 P2]. unfold FlowModel.pop in *. rewrite B4 in *. cbn [FlowModel.push set_frames frames snd] in *.
      split; [now apply merge_and_ok|split; [now apply merge_or_ok|split; [|intros _; congruence]]].
      now apply evolved_trans with st1.
  - destruct H as [_ [Ha Hb]]. specialize (IHa false st Hs Ha). unfold guards_fine in IHa. destruct (guards a st) as [[lt lf] st1].
    destruct IHa as [A1 [A2 [A3 A4]]]. specialize (A4 eq_refl). destruct (f_unreachable _ lf) eqn:U.
    + split; [|split; [|split; [exact A3|intros _; exact A4]]].
      * apply merge_or_ok; [exact A1|exact empty_ok].
      * apply merge_and_ok; [exact A2|exact empty_ok].
    + specialize (Hb eq_refl). pose proof (evolved_sound _ _ A3) as Hs1.
      pose proof (push_sound lf st1 Hs1 A2) as Hp. specialize (IHb false _ Hp Hb). unfold guards_fine in IHb.
      destruct (guards b (push lf st1)) as [[rt rf] st2]. destruct IHb as [B1 [B2 [B3 B4]]]. specialize (B4 eq_refl).
      destruct (pop_evolved lf st1 st2 Hs1 B3) as [P1 P2]. unfold FlowModel.pop in *. rewrite B4 in *. cbn [FlowModel.push set_frames frames snd] in *.
      split; [now apply merge_or_ok|split; [now apply merge_and_ok|split; [|intros _; congruence]]].
      now apply evolved_trans with st1.
Qed.

(** Conditions without assignments make entries that are none *)
Definition tests_only (f : frame) : Prop := forall e, In e (f_entries _ f) -> e_modifies _ e = false.

Lemma nothing_only : tests_only new_conditional.
Proof. intros e []. Qed.

Lemma tests_and : forall x y, tests_only x -> tests_only y -> tests_only (merge_and x y).
Proof. intros x y Hx Hy. exact (merge_and_plain x y Hx Hy). Qed.

Lemma tests_or : forall fs x y optional, entries_ok (f_entries _ x) -> tests_only x -> tests_only y -> tests_only (merge_or fs x y optional).
Proof. intros fs x y optional Hk Hx Hy. exact (merge_or_plain fs x y optional Hk Hx Hy). Qed.

Lemma guards_plain : forall c calls st, sound_state st -> tame_cond calls c st -> plain c ->
  let '(t, f, _) := guards c st in tests_only t /\ tests_only f.
Proof.
  induction c as [g k|ws t|k t|c IH|a IHa b IHb|a IHa b IHb]; intros calls st Hs H P; cbn [FlowModel.guards FlowTame.tame_cond FlowTame.plain] in *.
  - assert (F : forall t, tests_only (from_type type is_never k t)).
    { intros t e He. unfold from_type in He. destruct (is_never t); [destruct He|]. destruct He as [He|[]]. now subst e. }
    destruct (split g (type_of st k)) as [[x y]|]; [split; apply F|split; exact nothing_only].
  - assert (F : forall t, tests_only (from_type_without_entry type is_never t)).
    { intros t' e He. unfold from_type_without_entry in He. destruct (is_never t'); destruct He. }
    destruct (split truthiness t) as [[x y]|]; [split; apply F|split; exact nothing_only].
  - destruct P.
  - specialize (IH calls st Hs H P). destruct (guards c st) as [[t f] st1]. destruct IH as [I1 I2]. now split.
  - destruct H as [_ [Ha Hb]]. destruct P as [Pa Pb]. pose proof (guards_structure a false st Hs Ha) as Ga. unfold guards_fine in Ga.
    specialize (IHa false st Hs Ha Pa). destruct (guards a st) as [[lt lf] st1]. destruct IHa as [A1 A2]. destruct Ga as [G1 [G2 [G3 G4]]].
    destruct (f_unreachable _ lt) eqn:U.
    + split; [apply tests_and; [exact A1|exact nothing_only]|apply tests_or; [exact G2|exact A2|exact nothing_only]].
    + specialize (Hb eq_refl). pose proof (push_sound lt st1 (evolved_sound _ _ G3) G1) as Hp.
      specialize (IHb false _ Hp Hb Pb). pose proof (guards_structure b false _ Hp Hb) as Gb. unfold guards_fine in Gb.
      destruct (guards b (push lt st1)) as [[rt rf] st2]. destruct IHb as [B1 B2]. destruct Gb as [_ [_ [_ G5]]]. specialize (G5 eq_refl).
      unfold FlowModel.pop. rewrite G5. cbn [FlowModel.push set_frames frames].
      split; [now apply tests_and|now apply tests_or].
  - destruct H as [_ [Ha Hb]]. destruct P as [Pa Pb]. pose proof (guards_structure a false st Hs Ha) as Ga. unfold guards_fine in Ga.
    specialize (IHa false st Hs Ha Pa). destruct (guards a st) as [[lt lf] st1]. destruct IHa as [A1 A2]. destruct Ga as [G1 [G2 [G3 G4]]].
    destruct (f_unreachable _ lf) eqn:U.
    + split; [apply tests_or; [exact G1|exact A1|exact nothing_only]|apply tests_and; [exact A2|exact nothing_only]].
    + specialize (Hb eq_refl). pose proof (push_sound lf st1 (evolved_sound _ _ G3) G2) as Hp.
      specialize (IHb false _ Hp Hb Pb). pose proof (guards_structure b false _ Hp Hb) as Gb. unfold guards_fine in Gb.
      destruct (guards b (push lf st1)) as [[rt rf] st2]. destruct IHb as [B1 B2]. destruct Gb as [_ [_ [_ G5]]]. specialize (G5 eq_refl).
      unfold FlowModel.pop. rewrite G5. cbn [FlowModel.push set_frames frames].
      split; [now apply tests_or|now apply tests_and].
Qed.

(** ** Conditions *)
Lemma allowed_look : forall st s k v, allowed (frames _ st) s -> well_typed s -> s k = Some v -> exists t, look_at st k = Revealed _ t /\ has t v.
Proof.
  intros st s k v H Hw E. unfold FlowModel.look_at. destruct (lookup (frames _ st) k) as [e|] eqn:L.
  - specialize (H k). destruct (allows_lookup _ _ _ _ H L) as [F K]. unfold fits, FlowTame.fits in F. destruct (e_deleted _ e).
    + congruence.
    + rewrite K in F. destruct (e_kind _ e) as [t|]; eexists; (split; [reflexivity|now apply F]).
  - eexists. split; [reflexivity|]. now apply Hw.
Qed.

Lemma allowed_type_of : forall st s k v, allowed (frames _ st) s -> well_typed s -> s k = Some v -> has (type_of st k) v.
Proof.
  intros st s k v H Hw E. destruct (allowed_look st s k v H Hw E) as [t [L Ht]]. unfold FlowModel.type_of. now rewrite L.
Qed.

Lemma walruses_sound : forall ws s s', assigned ws s s' -> forall st ws' g, sound_state st -> tame_walruses (ws ++ ws') st -> well_typed s ->
  allowed (frames _ st) s -> ghosts_ok g -> covered (tries _ (fold_left (fun st w => assign (fst w) (snd w) st) (ws ++ ws') st)) g -> intact g s ->
  well_typed s' /\ intact g s' /\ allowed (frames _ (fold_left (fun st w => assign (fst w) (snd w) st) ws st)) s'.
Proof.
  intros ws s s' H. induction H as [s|k t v ws s s1 s2 Hv U H IH]; intros st ws' g Hs Ht Hw Ha Hg Hc Hi.
  - exact (conj Hw (conj Hi Ha)).
  - cbn [app FlowTame.tame_walruses fold_left fst snd] in *. destruct Ht as [T1 T2].
    pose proof (tame_assign_evolved k t st Hs T1) as E. pose proof (evolved_sound _ _ E) as Hs1.
    apply IH with ws'; [exact Hs1|exact T2|apply U|now apply (assign_sound k t st s v)|exact Hg|exact Hc|].
    apply (assign_intact k t st s v s1 g Hs T1 Hv U Hg); [|exact Hi].
    apply covered_wider with (tries _ (fold_left (fun st w => assign (fst w) (snd w) st) (ws ++ ws') (assign k t st))); [|exact Hc].
    now destruct (walruses_evolved (ws ++ ws') _ Hs1 T2) as [_ [_ [_ [W _]]]].
Qed.

Lemma allows_nothing : forall fs u k v, allows (Frame _ [] u :: fs) k v <-> allows fs k v.
Proof. intros fs u k v. rewrite allows_cons. reflexivity. Qed.

Lemma allows_one : forall fs u e k v, allows fs k v -> (e_key _ e = k -> fits e v) -> allows (Frame _ [e] u :: fs) k v.
Proof.
  intros fs u e k v H Hf. rewrite allows_cons. unfold find_entry. cbn [f_entries find].
  destruct (equals (e_key _ e) k) eqn:K; [|exact H]. apply equals_eq in K. split; [now apply Hf|now right].
Qed.

Lemma allows_drop : forall f l fs k v, tests_only l -> allows (f :: l :: fs) k v -> allows (f :: fs) k v.
Proof.
  intros f l fs k v Hl H.
  assert (D : allows (l :: fs) k v -> allows fs k v).
  { intros H'. apply allows_tail in H' as [[e [F [_ [M _]]]]|H']; [|exact H']. apply find_key in F as [F _]. rewrite (Hl e F) in M. discriminate. }
  rewrite allows_cons in H. rewrite allows_cons. destruct (find_entry k (f_entries _ f)) as [e|]; [|now apply D].
  destruct H as [H1 [H2|H2]]; (split; [exact H1|]); [now left|right; now apply D].
Qed.

(** The result of a condition *)
Definition result (f : frame) (fs : list frame) (s : store) : Prop :=
  f_unreachable _ f = false /\ allowed (f :: fs) s /\ (forall e, In e (f_entries _ f) -> e_modifies _ e = false -> s (e_key _ e) <> None).

Definition keeps (s s' : store) : Prop := forall k, tracked k -> s k <> None -> s' k <> None.

Definition guards_right (calls : bool) (c : cond) (st : state) (g : ghost) (s : store) (r : option bool) (s' : store) : Prop :=
  let '(t, f, st1) := guards c st in
  covered (tries _ st1) g ->
  well_typed s' /\ intact g s' /\ (calls = false -> keeps s s') /\
  match r with None => True | Some r => result (if r then t else f) (frames _ st1) s' end.

Lemma result_nothing : forall fs s, allowed fs s -> result new_conditional fs s.
Proof.
  intros fs s H. split; [reflexivity|split]; [|intros e []]. intros k. apply allows_nothing. apply H.
Qed.

Lemma result_without : forall t fs s v, has t v -> allowed fs s -> result (from_type_without_entry type is_never t) fs s.
Proof.
  intros t fs s v Hv H. unfold from_type_without_entry. destruct (is_never t) eqn:N; [exfalso; now apply (has_never t v N)|now apply result_nothing].
Qed.

Lemma result_or : forall x y fs s, known fs -> well_typed s -> entries_ok (f_entries _ x) -> entries_ok (f_entries _ y) -> tests_only x ->
  result x fs s \/ result y fs s -> result (merge_or fs x y true) fs s.
Proof.
  intros x y fs s K Hw Hx Hy Ho H.
  assert (M : forall k, f_unreachable _ (merge_or fs x y true) = false /\ allows (merge_or fs x y true :: fs) k (s k)).
  { intros k. apply merge_or_allows; [exact K|exact Hx|exact Hy|now apply well_typed_typed|intros _; exact Ho|].
    destruct H as [[H1 [H2 _]]|[H1 [H2 _]]]; [left|right]; (split; [exact H1|apply H2]). }
  split; [apply (M (Name 0%N))|split; [intros k; apply M|]].
  intros e He Me. destruct (merge_or_tests fs x y true e Hx He Me) as [T1 T2].
  destruct H as [[H1 [_ H2]]|[H1 [_ H2]]].
  - destruct (T1 H1) as [e' [E1 [E2 E3]]]. rewrite <- E2. now apply H2.
  - destruct (T2 H1) as [e' [E1 [E2 E3]]]. rewrite <- E2. now apply H2.
Qed.

Lemma result_and : forall x y fs s s', entries_ok (f_entries _ x) -> entries_ok (f_entries _ y) ->
  result x fs s -> keeps s s' -> result y (x :: fs) s' -> result (merge_and x y) fs s'.
Proof.
  intros x y fs s s' Hx Hy [X1 [X2 X3]] Hk [Y1 [Y2 Y3]]. split; [|split].
  - apply (merge_and_reachable fs x y s' Hy X1 Y1 Y2 Y3).
  - intros k. now apply merge_and_allows.
  - intros e He Me. destruct (merge_and_tests x y e Hx Hy He Me) as [e' [[E1|E1] [E2 E3]]]; rewrite <- E2.
    + apply Hk; [|now apply X3]. now apply (entry_in _ e' Hx).
    + now apply Y3.
Qed.

Lemma result_drop : forall f l fs s, tests_only l -> result f (l :: fs) s -> result f fs s.
Proof.
  intros f l fs s Hl [H1 [H2 H3]]. split; [exact H1|split; [|exact H3]]. intros k. apply allows_drop with l; [exact Hl|apply H2].
Qed.

Lemma guards_sound : forall c s r s', holds c s r s' -> forall calls st g, sound_state st -> tame_cond calls c st -> well_typed s ->
  allowed (frames _ st) s -> ghosts_ok g -> intact g s -> guards_right calls c st g s r s'.
Proof.
  intros c s r s' H.
  induction H as [c s|t k v s Ev|ws t v s s' Has Hv|ws ws' t s s' Has|k t v s s' Hv U|k t v s s' Hv U|c s r s' H IH
                 |a b s r s' Hr H IH|a b s s1 r s2 H1 IH1 H2 IH2|a b s r s' Hr H IH|a b s s1 r s2 H1 IH1 H2 IH2];
    intros calls st g Hs Ht Hw Ha Hg Hi; unfold guards_right.
  - destruct (guards c st) as [[t f] st1]. intros _. split; [exact Hw|split; [exact Hi|split; [intros _ k _ E; exact E|trivial]]].
  - cbn [FlowModel.guards FlowTame.tame_cond] in *. pose proof (allowed_type_of st s k v Ha Hw Ev) as Hv.
    destruct (split t (type_of st k)) as [[x y]|] eqn:E; intros _;
      (split; [exact Hw|split; [exact Hi|split; [intros _ k' _ F; exact F|]]]).
    + pose proof (has_split _ _ _ _ _ E Hv) as Hx.
      assert (G : forall z, has z v -> result (from_type type is_never k z) (frames _ st) s).
      { intros z Hz. unfold from_type. destruct (is_never z) eqn:N; [exfalso; now apply (has_never z v N)|].
        split; [reflexivity|split].
        - intros k'. apply allows_one; [apply Ha|]. cbn [new_entry e_key]. intros <-. rewrite Ev.
          unfold fits, FlowTame.fits. cbn [new_entry e_deleted e_kind]. intros w Ew. injection Ew as <-. exact Hz.
        - intros e [He|[]] _. subst e. cbn [new_entry e_key]. congruence. }
      destruct (passes t v); now apply G.
    + destruct (passes t v); now apply result_nothing.
  - cbn [FlowModel.guards FlowTame.tame_cond] in *. destruct Ht as [T1 T2].
    assert (W : covered (tries _ (fold_left (fun st w => assign (fst w) (snd w) st) ws st)) g ->
       well_typed s' /\ intact g s' /\ allowed (frames _ (fold_left (fun st w => assign (fst w) (snd w) st) ws st)) s').
    { intros Hc. apply (walruses_sound ws s s' Has st [] g Hs); rewrite ?app_nil_r; assumption. }
    assert (Kp : calls = false -> keeps s s').
    { intros C. destruct T1 as [T1|T1]; [congruence|]. subst ws. inversion Has; subst. intros k' _ F. exact F. }
    destruct (split truthiness t) as [[x y]|] eqn:E; intros Hc; destruct (W Hc) as [W1 [W2 W3]];
      (split; [exact W1|split; [exact W2|split; [exact Kp|]]]).
    + pose proof (has_split _ _ _ _ _ E Hv) as Hx. destruct (passes truthiness v); now apply result_without with v.
    + destruct (passes truthiness v); now apply result_nothing.
  - cbn [FlowModel.guards FlowTame.tame_cond] in *. destruct Ht as [T1 T2].
    assert (W : covered (tries _ (fold_left (fun st w => assign (fst w) (snd w) st) (ws ++ ws') st)) g -> well_typed s' /\ intact g s').
    { intros Hc. destruct (walruses_sound ws s s' Has st ws' g Hs T2 Hw Ha Hg Hc Hi) as [W1 [W2 _]]. now split. }
    assert (Kp : calls = false -> keeps s s').
    { intros C. destruct T1 as [T1|T1]; [congruence|]. apply app_eq_nil in T1 as [T1 _]. subst ws. inversion Has; subst. intros k' _ F. exact F. }
    destruct (split truthiness t) as [[x y]|] eqn:E; intros Hc; destruct (W Hc) as [W1 W2];
      exact (conj W1 (conj W2 (conj Kp Logic.I))).
  - cbn [FlowModel.guards FlowTame.tame_cond] in *. destruct Ht as [T [Is [R Hx]]].
    destruct (walrus_form k t st R) as [t' [Ht' E]]. rewrite E.
    assert (Ev : s' k = Some v) by apply U.
    assert (Kp : keeps s s').
    { intros k' T' F. destruct (key_dec k' k) as [K|K]; [subst k'; congruence|]. destruct U as [_ [U2 _]].
      rewrite U2; [exact F|exact K|]. now apply Is. }
    assert (A : forall k', k' <> k -> allows (frames _ st) k' (s' k')).
    { intros k' K. destruct U as [_ [U2 U3]]. destruct (is_child_of k' k) eqn:C.
      - apply allows_untracked; [apply Hs| |now apply well_typed_typed]. intros T'. destruct (isolated_child _ _ Is T') as [C' _]. congruence.
      - rewrite U2; [apply Ha|exact K|]. intros B. apply is_child_of_below in B. congruence. }
    assert (W : covered (tries _ (walrus_state k t' st)) g -> well_typed s' /\ intact g s').
    { intros Hc. split; [apply U|]. apply (walrus_intact k t' st s v s' g Hs T Is (Ht' v Hv) U Hg Hc Hi). }
    assert (M : forall z u, has z v -> u = false -> result (Frame _ [Entry _ k (Of _ z) true false] u) (frames _ st) s').
    { intros z u Hz Hu. split; [exact Hu|split; [|intros e [He|[]] M; subst e; discriminate]].
      intros k'. rewrite allows_cons. unfold find_entry. cbn [f_entries find e_key]. destruct (equals k k') eqn:K.
      - apply equals_eq in K. subst k'. split; [|left; now split]. rewrite Ev. unfold fits, FlowTame.fits. cbn [e_deleted e_kind].
        intros w Ew. injection Ew as <-. exact Hz.
      - apply A. apply equals_neq in K. congruence. }
    destruct (split truthiness t) as [[x y]|] eqn:Es; intros Hc; destruct (W Hc) as [W1 W2];
      (split; [exact W1|split; [exact W2|split; [intros _; exact Kp|]]]).
    + pose proof (has_split _ _ _ _ _ Es Hv) as Hz. destruct (passes truthiness v).
      * apply M; [exact Hz|]. destruct (is_never x) eqn:N; [exfalso; now apply (has_never x v N)|reflexivity].
      * destruct Hx as [Hx|Hx]; [discriminate|].
        split; [cbn [f_unreachable]; destruct (is_never y) eqn:N; [exfalso; now apply (has_never y v N)|reflexivity]|split].
        -- intros k'. destruct (key_dec k' k) as [K|K].
           ++ subst k'. apply allows_one.
              ** rewrite Ev. apply Hx; [exact Hv|]. destruct U as [U1 [_ U3]]. now apply U3.
              ** intros _. rewrite Ev. unfold fits, FlowTame.fits. cbn [e_deleted e_kind]. intros w Ew. injection Ew as <-. exact Hz.
           ++ apply allows_one; [now apply A|]. cbn [e_key]. congruence.
        -- intros e [He|[]] _. subst e. cbn [e_key]. congruence.
    + destruct (passes truthiness v); (apply M; [now apply Ht'|reflexivity]).
  - cbn [FlowModel.guards FlowTame.tame_cond] in *. destruct Ht as [T [Is [R Hx]]].
    destruct (walrus_form k t st R) as [t' [Ht' E]]. rewrite E.
    assert (Kp : keeps s s').
    { intros k' T' F. destruct (key_dec k' k) as [K|K]; [subst k'; destruct U as [U1 _]; congruence|]. destruct U as [_ [U2 _]].
      rewrite U2; [exact F|exact K|]. now apply Is. }
    assert (W : covered (tries _ (walrus_state k t' st)) g -> well_typed s' /\ intact g s').
    { intros Hc. split; [apply U|]. apply (walrus_intact k t' st s v s' g Hs T Is (Ht' v Hv) U Hg Hc Hi). }
    destruct (split truthiness t) as [[x y]|] eqn:Es; intros Hc; destruct (W Hc) as [W1 W2];
      exact (conj W1 (conj W2 (conj (fun _ => Kp) Logic.I))).
  - cbn [FlowModel.guards FlowTame.tame_cond] in *. specialize (IH calls st g Hs Ht Hw Ha Hg Hi). unfold guards_right in IH.
    destruct (guards c st) as [[t f] st1]. intros Hc. destruct (IH Hc) as [I1 [I2 [I3 I4]]].
    split; [exact I1|split; [exact I2|split; [exact I3|]]]. destruct r as [[|]|]; exact I4.
  - cbn [FlowModel.guards FlowTame.tame_cond] in *. destruct Ht as [P [Ta Tb]].
    pose proof (guards_structure a false st Hs Ta) as Ga. pose proof (guards_plain a false st Hs Ta P) as Gp.
    specialize (IH false st g Hs Ta Hw Ha Hg Hi). unfold guards_right, guards_fine in *.
    destruct (guards a st) as [[lt lf] st1]. destruct Ga as [G1 [G2 [G3 G4]]]. specialize (G4 eq_refl).
    pose proof (evolved_sound _ _ G3) as Hs1. pose proof (stack_known _ (proj1 Hs1)) as K1. destruct Gp as [P1 P2].
    destruct (f_unreachable _ lt) eqn:Ul.
    + intros Hc. destruct (IH Hc) as [I1 [I2 [I3 I4]]]. split; [exact I1|split; [exact I2|split; [intros _; now apply I3|]]].
      destruct r as [[|]|]; [congruence| |trivial]. apply result_or; [exact K1|exact I1|exact G2|exact empty_ok|exact P2|now left].
    + pose proof (push_sound lt st1 Hs1 G1) as Hp. specialize (Tb eq_refl). pose proof (guards_structure b false _ Hp Tb) as Gb.
      unfold guards_fine in Gb. destruct (guards b (push lt st1)) as [[rt rf] st2]. destruct Gb as [B1 [B2 [B3 B4]]]. specialize (B4 eq_refl).
      destruct (pop_evolved lt st1 st2 Hs1 B3) as [[_ [_ [_ [Q1 _]]]] Q2].
      unfold FlowModel.pop in *. rewrite B4 in *. cbn [FlowModel.push set_frames frames snd tries] in *.
      intros Hc. destruct (IH (covered_wider _ _ _ Q1 Hc)) as [I1 [I2 [I3 I4]]].
      split; [exact I1|split; [exact I2|split; [intros _; now apply I3|]]].
      destruct r as [[|]|]; [congruence| |trivial]. apply result_or; [exact K1|exact I1|exact G2|exact B2|exact P2|now left].
  - cbn [FlowModel.guards FlowTame.tame_cond] in *. destruct Ht as [P [Ta Tb]].
    pose proof (guards_structure a false st Hs Ta) as Ga. pose proof (guards_plain a false st Hs Ta P) as Gp.
    specialize (IH1 false st g Hs Ta Hw Ha Hg Hi). unfold guards_right, guards_fine in *.
    destruct (guards a st) as [[lt lf] st1]. destruct Ga as [G1 [G2 [G3 G4]]]. specialize (G4 eq_refl).
    pose proof (evolved_sound _ _ G3) as Hs1. pose proof (stack_known _ (proj1 Hs1)) as K1. destruct Gp as [P1 P2].
    destruct (f_unreachable _ lt) eqn:Ul.
    + intros Hc. destruct (IH1 Hc) as [_ [_ [_ [I4 _]]]]. congruence.
    + pose proof (push_sound lt st1 Hs1 G1) as Hp. specialize (Tb eq_refl). pose proof (guards_structure b false _ Hp Tb) as Gb.
      specialize (IH2 false (push lt st1) g Hp Tb).
      unfold guards_fine in Gb. destruct (guards b (push lt st1)) as [[rt rf] st2]. destruct Gb as [B1 [B2 [B3 B4]]]. specialize (B4 eq_refl).
      destruct (pop_evolved lt st1 st2 Hs1 B3) as [[_ [_ [_ [Q1 _]]]] Q2].
      unfold FlowModel.pop in *. rewrite B4 in *. cbn [FlowModel.push set_frames frames snd tries] in *.
      intros Hc. destruct (IH1 (covered_wider _ _ _ Q1 Hc)) as [I1 [I2 [I3 I4]]]. specialize (I3 eq_refl).
      destruct (IH2 I1 (proj1 (proj2 I4)) Hg I2 Hc) as [J1 [J2 [J3 J4]]]. specialize (J3 eq_refl).
      split; [exact J1|split; [exact J2|split; [intros _ k Tk F; apply J3; [exact Tk|now apply I3]|]]].
      destruct r as [[|]|]; [| |trivial].
      * now apply result_and with s1.
      * apply result_or; [exact K1|exact J1|exact G2|exact B2|exact P2|]. right. now apply result_drop with lt.
  - cbn [FlowModel.guards FlowTame.tame_cond] in *. destruct Ht as [P [Ta Tb]].
    pose proof (guards_structure a false st Hs Ta) as Ga. pose proof (guards_plain a false st Hs Ta P) as Gp.
    specialize (IH false st g Hs Ta Hw Ha Hg Hi). unfold guards_right, guards_fine in *.
    destruct (guards a st) as [[lt lf] st1]. destruct Ga as [G1 [G2 [G3 G4]]]. specialize (G4 eq_refl).
    pose proof (evolved_sound _ _ G3) as Hs1. pose proof (stack_known _ (proj1 Hs1)) as K1. destruct Gp as [P1 P2].
    destruct (f_unreachable _ lf) eqn:Ul.
    + intros Hc. destruct (IH Hc) as [I1 [I2 [I3 I4]]]. split; [exact I1|split; [exact I2|split; [intros _; now apply I3|]]].
      destruct r as [[|]|]; [|congruence|trivial]. apply result_or; [exact K1|exact I1|exact G1|exact empty_ok|exact P1|now left].
    + pose proof (push_sound lf st1 Hs1 G2) as Hp. specialize (Tb eq_refl). pose proof (guards_structure b false _ Hp Tb) as Gb.
      unfold guards_fine in Gb. destruct (guards b (push lf st1)) as [[rt rf] st2]. destruct Gb as [B1 [B2 [B3 B4]]]. specialize (B4 eq_refl).
      destruct (pop_evolved lf st1 st2 Hs1 B3) as [[_ [_ [_ [Q1 _]]]] Q2].
      unfold FlowModel.pop in *. rewrite B4 in *. cbn [FlowModel.push set_frames frames snd tries] in *.
      intros Hc. destruct (IH (covered_wider _ _ _ Q1 Hc)) as [I1 [I2 [I3 I4]]].
      split; [exact I1|split; [exact I2|split; [intros _; now apply I3|]]].
      destruct r as [[|]|]; [|congruence|trivial]. apply result_or; [exact K1|exact I1|exact G1|exact B1|exact P1|now left].
  - cbn [FlowModel.guards FlowTame.tame_cond] in *. destruct Ht as [P [Ta Tb]].
    pose proof (guards_structure a false st Hs Ta) as Ga. pose proof (guards_plain a false st Hs Ta P) as Gp.
    specialize (IH1 false st g Hs Ta Hw Ha Hg Hi). unfold guards_right, guards_fine in *.
    destruct (guards a st) as [[lt lf] st1]. destruct Ga as [G1 [G2 [G3 G4]]]. specialize (G4 eq_refl).
    pose proof (evolved_sound _ _ G3) as Hs1. pose proof (stack_known _ (proj1 Hs1)) as K1. destruct Gp as [P1 P2].
    destruct (f_unreachable _ lf) eqn:Ul.
    + intros Hc. destruct (IH1 Hc) as [_ [_ [_ [I4 _]]]]. congruence.
    + pose proof (push_sound lf st1 Hs1 G2) as Hp. specialize (Tb eq_refl). pose proof (guards_structure b false _ Hp Tb) as Gb.
      specialize (IH2 false (push lf st1) g Hp Tb).
      unfold guards_fine in Gb. destruct (guards b (push lf st1)) as [[rt rf] st2]. destruct Gb as [B1 [B2 [B3 B4]]]. specialize (B4 eq_refl).
      destruct (pop_evolved lf st1 st2 Hs1 B3) as [[_ [_ [_ [Q1 _]]]] Q2].
      unfold FlowModel.pop in *. rewrite B4 in *. cbn [FlowModel.push set_frames frames snd tries] in *.
      intros Hc. destruct (IH1 (covered_wider _ _ _ Q1 Hc)) as [I1 [I2 [I3 I4]]]. specialize (I3 eq_refl).
      destruct (IH2 I1 (proj1 (proj2 I4)) Hg I2 Hc) as [J1 [J2 [J3 J4]]]. specialize (J3 eq_refl).
      split; [exact J1|split; [exact J2|split; [intros _ k Tk F; apply J3; [exact Tk|now apply I3]|]]].
      destruct r as [[|]|]; [| |trivial].
      * apply result_or; [exact K1|exact J1|exact G1|exact B1|exact P1|]. right. now apply result_drop with lf.
      * now apply result_and with s1.
Qed.

(** * Statements: what they do to the state *)
Definition frame_ok (f : frame) : Prop := entries_ok (f_entries _ f) /\ f_unreachable _ f = false.
Definition details_ok (l : loop_details type) : Prop := Forall frame_ok (l_breaks _ l) /\ Forall frame_ok (l_continues _ l).
Definition loop_ok (n : nat) (o : option (loop_details type)) : Prop :=
  match o with None => True | Some l => (1 <= l_index _ l < n)%nat /\ details_ok l end.

Definition wf (st : state) : Prop := sound_state st /\ loop_ok (length (frames _ st)) (loop _ st).

Definition loop_grows (a b : option (loop_details type)) : Prop :=
  match a, b with
  | None, None => True
  | Some l, Some l' => l_index _ l' = l_index _ l /\ incl (l_breaks _ l) (l_breaks _ l') /\ incl (l_continues _ l) (l_continues _ l')
  | _, _ => False
  end.

Definition after (st st' : state) : Prop :=
  tl (frames _ st') = tl (frames _ st) /\ wf st' /\ Forall2 wider (tries _ st) (tries _ st') /\
  loop_grows (loop _ st) (loop _ st') /\ incl (reports _ st) (reports _ st').

Lemma loop_grows_refl : forall o, loop_grows o o.
Proof. intros [l|]; [|exact Logic.I]. cbn [loop_grows]. exact (conj eq_refl (conj (incl_refl _) (incl_refl _))). Qed.

Lemma loop_grows_trans : forall a b c, loop_grows a b -> loop_grows b c -> loop_grows a c.
Proof.
  intros [a|] [b|] [c|] H1 H2; cbn [loop_grows] in *; try contradiction; [|exact Logic.I].
  destruct H1 as [A1 [A2 A3]], H2 as [B1 [B2 B3]]. split; [congruence|]. split; [now apply incl_tran with (l_breaks _ b)|now apply incl_tran with (l_continues _ b)].
Qed.

Lemma after_refl : forall st, wf st -> after st st.
Proof.
  intros st H. exact (conj eq_refl (conj H (conj (forall2_wider_refl _) (conj (loop_grows_refl _) (incl_refl _))))).
Qed.

Lemma after_trans : forall a b c, after a b -> after b c -> after a c.
Proof.
  intros a b c [A1 [A2 [A3 [A4 A5]]]] [B1 [B2 [B3 [B4 B5]]]].
  split; [congruence|split; [exact B2|split; [now apply forall2_wider_trans with (tries _ b)|split]]].
  - now apply loop_grows_trans with (loop _ b).
  - now apply incl_tran with (reports _ b).
Qed.

Lemma after_wf : forall a b, after a b -> wf b.
Proof. intros a b [_ [H _]]. exact H. Qed.

Lemma after_sound : forall a b, after a b -> sound_state b.
Proof. intros a b H. now apply after_wf in H as [H _]. Qed.

Lemma after_tries : forall a b, after a b -> Forall2 wider (tries _ a) (tries _ b).
Proof. intros a b [_ [_ [H _]]]. exact H. Qed.

Lemma after_reports : forall a b, after a b -> incl (reports _ a) (reports _ b).
Proof. intros a b [_ [_ [_ [_ H]]]]. exact H. Qed.

Lemma frames_length : forall st st', sound_state st -> sound_state st' -> tl (frames _ st') = tl (frames _ st) -> length (frames _ st') = length (frames _ st).
Proof.
  intros st st' H1 H2 E. destruct (stack_some st H1) as [g [fs [E1 _]]]. destruct (stack_some st' H2) as [g' [fs' [E2 _]]].
  rewrite E1, E2 in *. cbn [tl length] in *. now rewrite E.
Qed.

Lemma changed_after : forall st st', wf st -> changed st st' -> after st st'.
Proof.
  intros st st' [H1 H2] [C1 [C2 [C3 [C4 [C5 C6]]]]].
  assert (Hs : sound_state st') by now split.
  split; [exact C1|split; [split; [exact Hs|]|split; [exact C4|split]]].
  - rewrite C5, (frames_length st st' H1 Hs C1). exact H2.
  - rewrite C5. apply loop_grows_refl.
  - rewrite C6. apply incl_refl.
Qed.

Lemma evolved_after : forall st st', wf st -> evolved st st' -> after st st'.
Proof. intros st st' H E. apply changed_after; [exact H|now apply evolved_changed]. Qed.

Lemma push_wf : forall f st, wf st -> entries_ok (f_entries _ f) -> wf (push f st).
Proof.
  intros f st [H1 H2] Hf. split; [now apply push_sound|]. unfold FlowModel.push. cbn [set_frames frames loop length].
  destruct (loop _ st) as [l|]; [|exact Logic.I]. cbn [loop_ok] in *. split; [lia|apply H2].
Qed.

Lemma pop_after : forall f st st', wf st -> after (push f st) st' ->
  exists f', pop st' = (f', snd (pop st')) /\ frames _ st' = f' :: frames _ st /\ entries_ok (f_entries _ f') /\
    after st (snd (pop st')) /\ frames _ (snd (pop st')) = frames _ st.
Proof.
  intros f st st' [H1 H2] [A1 [[[A2 A2'] A3] [A4 [A5 A6]]]]. unfold FlowModel.push in *. cbn [set_frames frames tl tries loop reports] in *.
  destruct (frames _ st') as [|f' fs'] eqn:E; [destruct A2|]. cbn [tl] in A1. subst fs'. exists f'.
  unfold FlowModel.pop. rewrite E. cbn [snd set_frames frames]. split; [reflexivity|split; [reflexivity|split; [apply A2|split; [|reflexivity]]]].
  split; [reflexivity|split; [split|split; [exact A4|split; [exact A5|exact A6]]]]; cbn [set_frames frames tries loop].
  - split; [apply H1|exact A2'].
  - destruct (loop _ st) as [l|], (loop _ st') as [l'|]; cbn [loop_grows loop_ok] in *; try contradiction; [|exact Logic.I].
    destruct A5 as [-> _]. destruct H2 as [H2 _]. destruct A3 as [_ A3]. split; [exact H2|exact A3].
Qed.

(** ** Loops *)
Notation enter_loop := (enter_loop type).
Notation leave_loop := (leave_loop type).
Notation loop_exit := (loop_exit type never simplified_union common_sub_type).
Notation finish_loop := (finish_loop type simplified_union).

Lemma enter_loop_wf : forall f st, wf st -> entries_ok (f_entries _ f) -> wf (enter_loop f st).
Proof.
  intros f st [H1 H2] Hf. split.
  - apply (push_sound f st H1 Hf).
  - unfold FlowModel.enter_loop. cbn [frames loop length loop_ok l_index]. destruct (stack_some st H1) as [g [fs [-> _]]]. cbn [length].
    split; [lia|]. split; constructor.
Qed.

Lemma leave_loop_after : forall f st st', wf st -> after (enter_loop f st) st' ->
  exists f' l st'', leave_loop (loop _ st) st' = (f', l, st'') /\ frames _ st' = f' :: frames _ st /\ entries_ok (f_entries _ f') /\
    loop _ st' = Some l /\ details_ok l /\ l_index _ l = length (frames _ st) /\
    after st st'' /\ frames _ st'' = frames _ st /\ tries _ st'' = tries _ st' /\ reports _ st'' = reports _ st'.
Proof.
  intros f st st' [H1 H2] [A1 [[[A2 A2'] A3] [A4 [A5 A6]]]]. unfold FlowModel.enter_loop in *. cbn [frames tl tries loop reports] in *.
  destruct (frames _ st') as [|f' fs'] eqn:E; [destruct A2|]. cbn [tl] in A1. subst fs'.
  destruct (loop _ st') as [l|] eqn:El; [|contradiction]. cbn [loop_grows l_index] in A5. cbn [loop_ok] in A3.
  exists f', l. eexists. unfold FlowModel.leave_loop, FlowModel.pop. rewrite E. cbn [set_frames frames tries loop reports]. rewrite El.
  split; [reflexivity|]. split; [reflexivity|]. split; [apply A2|]. split; [reflexivity|]. split; [apply A3|]. split; [apply A5|].
  split; [|split; [reflexivity|split; reflexivity]].
  split; [reflexivity|split; [split|split; [exact A4|split]]]; cbn [frames tries loop reports].
  - split; [apply H1|exact A2'].
  - exact H2.
  - apply loop_grows_refl.
  - exact A6.
Qed.

Lemma fold_or_ok : forall fs l f, entries_ok (f_entries _ f) -> Forall frame_ok l ->
  entries_ok (f_entries _ (fold_left (fun after b => merge_or fs after b false) l f)).
Proof.
  intros fs l. induction l as [|b l IH]; intros f Hf Hl; [exact Hf|]. cbn [fold_left]. apply IH; [|now apply Forall_inv_tail in Hl].
  apply merge_or_ok; [exact Hf|apply (Forall_inv Hl)].
Qed.

Lemma loop_exit_ok : forall conditional f a l st, entries_ok (f_entries _ f) -> entries_ok (f_entries _ a) -> details_ok l ->
  entries_ok (f_entries _ (loop_exit conditional f a l st)).
Proof.
  intros conditional f a l st Hf Ha [_ Hl]. unfold FlowModel.loop_exit. cbv zeta.
  pose proof (fold_or_ok (frames _ st) _ a Ha Hl) as Hx. apply merge_or_ok; [exact Hf|]. destruct conditional; [now apply merge_and_ok|exact Hx].
Qed.

Lemma finish_loop_after : forall body exit l st, wf st -> entries_ok (f_entries _ exit) -> details_ok l ->
  after (push exit st) (body (push exit st)) -> after (snd (pop (body (push exit st)))) (finish_loop body exit l st) /\ after st (finish_loop body exit l st).
Proof.
  intros body exit l st H He Hl Ha. unfold FlowModel.finish_loop.
  destruct (pop_after exit st _ H Ha) as [f' [P1 [P2 [P3 [P4 P5]]]]]. rewrite P1.
  assert (E : after (snd (pop (body (push exit st))))
     (merge_conditional (fold_left (fun after b => merge_or (frames _ (snd (pop (body (push exit st))))) after b false) (l_breaks _ l) f')
        new_unreachable (snd (pop (body (push exit st)))))).
  { apply changed_after; [now apply (after_wf st)|]. apply merge_conditional_changed; [now apply (after_sound st)| |exact empty_ok].
    apply fold_or_ok; [exact P3|apply Hl]. }
  split; [exact E|now apply after_trans with (snd (pop (body (push exit st))))].
Qed.

(** ** [try] *)
Notation enter_try := (enter_try type).
Notation leave_try := (leave_try type).

Lemma enter_try_wf : forall st, wf st -> wf (enter_try st).
Proof.
  intros st [[H1 H1'] H2]. split; [|exact H2]. split; [exact H1|]. unfold FlowModel.enter_try. cbn [tries].
  constructor; [split; [exact empty_ok|intros e []]|exact H1'].
Qed.

Lemma leave_try_after : forall st st', wf st -> after (push new_conditional (enter_try st)) st' ->
  exists f' caught st'', pop st' = (f', snd (pop st')) /\ leave_try (snd (pop st')) = (caught, st'') /\ frames _ st' = f' :: frames _ st /\
    entries_ok (f_entries _ f') /\ try_ok caught /\ tries _ st' = caught :: tries _ st'' /\ after st st'' /\ frames _ st'' = frames _ st /\
    loop _ st'' = loop _ st' /\ reports _ st'' = reports _ st'.
Proof.
  intros st st' H Ha. destruct (pop_after new_conditional (enter_try st) st' (enter_try_wf st H) Ha) as [f' [P1 [P2 [P3 [P4 P5]]]]].
  destruct P4 as [Q1 [[[Q2 Q2'] Q3] [Q4 [Q5 Q6]]]].
  assert (T : tries _ (snd (pop st')) = tries _ st') by (unfold FlowModel.pop; destruct (frames _ st'); reflexivity).
  assert (L : loop _ (snd (pop st')) = loop _ st') by (unfold FlowModel.pop; destruct (frames _ st'); reflexivity).
  assert (R : reports _ (snd (pop st')) = reports _ st') by (unfold FlowModel.pop; destruct (frames _ st'); reflexivity).
  unfold FlowModel.enter_try in Q4, Q5, Q6, P5, Q1. cbn [tries loop reports frames] in *.
  destruct (tries _ (snd (pop st'))) as [|caught ts] eqn:Et; [inversion Q4|].
  exists f', caught. eexists. split; [exact P1|]. unfold FlowModel.leave_try. rewrite Et. split; [reflexivity|].
  split; [exact P2|]. split; [exact P3|]. split; [now apply Forall_inv in Q2'|]. split; [now rewrite <- T|].
  cbn [frames loop reports tries]. split; [|split; [exact P5|split; [exact L|exact R]]].
  split; [|split; [split|split; [|split; [exact Q5|exact Q6]]]]; cbn [frames tries loop reports].
  - now rewrite P5.
  - split; [exact Q2|now apply Forall_inv_tail in Q2'].
  - exact Q3.
  - inversion Q4; assumption.
Qed.

(** ** Induction over statements *)
Definition given {A : Type} (P : A -> Prop) (o : option A) : Prop := match o with None => True | Some a => P a end.

Fixpoint stmt_induction (P : stmt -> Prop) (Hskip : P (SSkip _ _)) (Hreveal : forall l k, P (SReveal _ _ l k)) (Hassign : forall k s, P (SAssign _ _ k s))
  (Hdel : forall k, P (SDel _ _ k)) (Hseq : forall a b, P a -> P b -> P (SSeq _ _ a b))
  (Hif : forall c a elif b, P a -> P b -> P (SIf _ _ c a elif b)) (Hwhile : forall c a b, P a -> P b -> P (SWhile _ _ c a b))
  (Hfor : forall k t a b, P a -> P b -> P (SFor _ _ k t a b)) (Hbreak : P (SBreak _ _)) (Hcontinue : P (SContinue _ _)) (Hreturn : P (SReturn _ _))
  (Hraise : P (SRaise _ _)) (Hassert : forall c, P (SAssert _ _ c))
  (Htry : forall a hs o f, P a -> Forall P hs -> given P o -> P f -> P (STry _ _ a hs o f))
  (Hwith : forall a, P a -> P (SWith _ _ a)) (s : stmt) {struct s} : P s :=
  let IH := stmt_induction P Hskip Hreveal Hassign Hdel Hseq Hif Hwhile Hfor Hbreak Hcontinue Hreturn Hraise Hassert Htry Hwith in
  match s as s' return P s' with
  | SSkip _ _ => Hskip
  | SReveal _ _ l k => Hreveal l k
  | SAssign _ _ k s => Hassign k s
  | SDel _ _ k => Hdel k
  | SSeq _ _ a b => Hseq a b (IH a) (IH b)
  | SIf _ _ c a elif b => Hif c a elif b (IH a) (IH b)
  | SWhile _ _ c a b => Hwhile c a b (IH a) (IH b)
  | SFor _ _ k t a b => Hfor k t a b (IH a) (IH b)
  | SBreak _ _ => Hbreak
  | SContinue _ _ => Hcontinue
  | SReturn _ _ => Hreturn
  | SRaise _ _ => Hraise
  | SAssert _ _ c => Hassert c
  | STry _ _ a hs o f =>
      Htry a hs o f (IH a)
        ((fix all (hs : list stmt) : Forall P hs :=
            match hs with [] => Forall_nil P | h :: hs => Forall_cons h (IH h) (all hs) end) hs)
        (match o as o' return given P o' with None => Logic.I | Some b => IH b end) (IH f)
  | SWith _ _ a => Hwith a (IH a)
  end.

Definition fine (s : stmt) : Prop := forall st, wf st -> tame s st -> after st (analyse s st).

Lemma block_after : forall s st, fine s -> wf st -> tame_block _ (tame s) st -> after st (block _ (analyse s) st).
Proof.
  intros s st F H T. unfold block. unfold tame_block in T. destruct (is_unreachable st); [now apply after_refl|]. apply F; [exact H|now apply T].
Qed.

(** What handling exceptions does, and what is asked for then *)
Definition handle (caught : list entry) (acc : frame * state) (h : stmt) : frame * state :=
  let '(a, st) := acc in
  let '(f, st) := pop (block _ (analyse h) (push (Frame _ caught false) st)) in
  (merge_or (frames _ st) f a false, st).

Definition tame_handle (caught : list entry) (acc : Prop * state) (h : stmt) : Prop * state :=
  let '(p, st) := acc in
  (p /\ tame_block _ (tame h) (push (Frame _ caught false) st), snd (pop (block _ (analyse h) (push (Frame _ caught false) st)))).

Lemma tame_handle_prop : forall caught hs acc, fst (fold_left (tame_handle caught) hs acc) -> fst acc.
Proof.
  intros caught hs. induction hs as [|h hs IH]; intros [p st] H; [exact H|]. cbn [fold_left] in H. apply IH in H. cbn [tame_handle fst] in *. now destruct H.
Qed.

Lemma handlers_after : forall caught hs, Forall fine hs -> entries_ok caught -> forall a st (p : Prop), entries_ok (f_entries _ a) -> wf st ->
  fst (fold_left (tame_handle caught) hs (p, st)) ->
  entries_ok (f_entries _ (fst (fold_left (handle caught) hs (a, st)))) /\ after st (snd (fold_left (handle caught) hs (a, st))) /\
  frames _ (snd (fold_left (handle caught) hs (a, st))) = frames _ st /\
  snd (fold_left (tame_handle caught) hs (p, st)) = snd (fold_left (handle caught) hs (a, st)).
Proof.
  intros caught hs F Hc. induction F as [|h hs Fh F IH]; intros a st p Ha H T.
  - cbn [fold_left fst snd]. exact (conj Ha (conj (after_refl st H) (conj eq_refl eq_refl))).
  - cbn [fold_left] in *. unfold tame_handle in T at 2. unfold tame_handle at 2.
    pose proof (tame_handle_prop _ _ _ T) as [_ T1].
    pose proof (push_wf (Frame _ caught false) st H Hc) as Hp.
    pose proof (block_after h _ Fh Hp T1) as B.
    destruct (pop_after _ _ _ H B) as [f' [P1 [P2 [P3 [P4 P5]]]]].
    assert (E : handle caught (a, st) h =
                (merge_or (frames _ (snd (pop (block _ (analyse h) (push (Frame _ caught false) st))))) f' a false,
                 snd (pop (block _ (analyse h) (push (Frame _ caught false) st))))) by (unfold handle; now rewrite P1).
    rewrite E.
    destruct (IH (merge_or (frames _ (snd (pop (block _ (analyse h) (push (Frame _ caught false) st))))) f' a false) _ _
                 (merge_or_ok _ f' a false P3 Ha) (after_wf _ _ P4) T) as [I1 [I2 [I3 I4]]].
    split; [exact I1|split; [now apply after_trans with (snd (pop (block _ (analyse h) (push (Frame _ caught false) st))))|split; [congruence|exact I4]]].
Qed.

Lemma mark_after : forall st, wf st -> after st (mark_unreachable st).
Proof. intros st H. apply changed_after; [exact H|]. apply mark_changed, H. Qed.

(** [finally] without anything in it *)
Definition empty_finally (st : state) : state :=
  let old_unreachable := is_unreachable st in
  let st := match frames _ st with [] => st | f :: fs => set_frames _ (Frame _ (f_entries _ f) false :: fs) st end in
  let st := block _ (analyse (SSkip _ _)) st in
  if old_unreachable then mark_unreachable st else st.

Lemma empty_finally_eq : forall st, empty_finally st = st.
Proof.
  intros [fs ts l r]. unfold empty_finally, FlowModel.is_unreachable, block, FlowModel.mark_unreachable. cbn [frames].
  destruct fs as [|[es u] fs]; [reflexivity|]. cbn [f_entries f_unreachable set_frames frames tries loop reports FlowModel.is_unreachable FlowModel.analyse].
  now destruct u.
Qed.

Lemma jump_frame_ok : forall st i, wf st -> frame_ok (merge_frames_for_index (frames _ st) i).
Proof. intros st i [[H _] _]. split; [now apply index_ok|reflexivity]. Qed.

Lemma break_after : forall st, wf st -> after st (break_stmt _ st).
Proof.
  intros st H. unfold break_stmt. destruct (loop _ st) as [l|] eqn:E; [|now apply after_refl].
  set (st1 := State _ (frames _ st) (tries _ st) (Some (Loop _ (l_breaks _ l ++ [merge_frames_for_index (frames _ st) (l_index _ l)]) (l_continues _ l) (l_index _ l))) (reports _ st)).
  assert (A : after st st1).
  { destruct H as [H1 H2]. rewrite E in H2. destruct H2 as [H2 [H3 H4]].
    split; [reflexivity|split; [split; [exact H1|]|split; [apply forall2_wider_refl|split; [|apply incl_refl]]]].
    - cbn [st1 frames loop loop_ok l_index]. split; [exact H2|]. split; [|exact H4]. cbn [l_breaks]. apply Forall_app. split; [exact H3|].
      constructor; [|constructor]. split; [apply index_ok, H1|reflexivity].
    - rewrite E. cbn [st1 loop loop_grows l_index l_breaks l_continues]. split; [reflexivity|split; [|apply incl_refl]]. apply incl_appl, incl_refl. }
  apply after_trans with st1; [exact A|]. apply mark_after. now apply (after_wf st).
Qed.

Lemma continue_after : forall st, wf st -> after st (continue_stmt _ st).
Proof.
  intros st H. unfold continue_stmt. destruct (loop _ st) as [l|] eqn:E; [|now apply after_refl].
  set (st1 := State _ (frames _ st) (tries _ st) (Some (Loop _ (l_breaks _ l) (l_continues _ l ++ [merge_frames_for_index (frames _ st) (l_index _ l)]) (l_index _ l))) (reports _ st)).
  assert (A : after st st1).
  { destruct H as [H1 H2]. rewrite E in H2. destruct H2 as [H2 [H3 H4]].
    split; [reflexivity|split; [split; [exact H1|]|split; [apply forall2_wider_refl|split; [|apply incl_refl]]]].
    - cbn [st1 frames loop loop_ok l_index]. split; [exact H2|]. split; [exact H3|]. cbn [l_continues]. apply Forall_app. split; [exact H4|].
      constructor; [|constructor]. split; [apply index_ok, H1|reflexivity].
    - rewrite E. cbn [st1 loop loop_grows l_index l_breaks l_continues]. split; [reflexivity|split; [apply incl_refl|]]. apply incl_appl, incl_refl. }
  apply after_trans with st1; [exact A|]. apply mark_after. now apply (after_wf st).
Qed.

Lemma for_assign : forall k t f st, wf st -> entries_ok (f_entries _ f) -> tracked k -> isolated k -> removing k t = false ->
  tame_assign k t (enter_loop f st) /\ after (enter_loop f st) (assign k t (enter_loop f st)).
Proof.
  intros k t f st H Hf T Hi R. pose proof (enter_loop_wf f st H Hf) as He.
  assert (Ta : tame_assign k t (enter_loop f st)) by (split; [exact T|split; [now left|intros E; congruence]]).
  split; [exact Ta|]. apply evolved_after; [exact He|]. apply tame_assign_evolved; [apply He|exact Ta].
Qed.

Lemma overwrite_frame_after : forall f st, wf st -> entries_ok (f_entries _ f) -> after st (overwrite_frame _ f st).
Proof.
  intros f st H Hf. unfold overwrite_frame. cbv zeta.
  assert (A : after st (overwrite_entries (f_entries _ f) false st)) by (apply evolved_after; [exact H|apply overwrite_entries_evolved; [apply H|exact Hf]]).
  destruct (f_unreachable _ f); [|exact A]. apply after_trans with (overwrite_entries (f_entries _ f) false st); [exact A|].
  apply mark_after. now apply (after_wf st).
Qed.

Lemma if_parts : forall c a (elif : bool) b st, fine a -> fine b -> wf st -> tame (SIf _ _ c a elif b) st ->
  exists t f st1 t' st2 f' st3,
    guards c st = (t, f, st1) /\ entries_ok (f_entries _ t) /\ entries_ok (f_entries _ f) /\ evolved st st1 /\
    tame_block _ (tame a) (push t st1) /\ wf (push t st1) /\
    pop (block _ (analyse a) (push t st1)) = (t', st2) /\ after (push t st1) (block _ (analyse a) (push t st1)) /\
    frames _ (block _ (analyse a) (push t st1)) = t' :: frames _ st1 /\ entries_ok (f_entries _ t') /\ after st1 st2 /\ frames _ st2 = frames _ st1 /\
    (if elif then tame b else tame_block _ (tame b)) (push f st2) /\ wf (push f st2) /\
    pop ((if elif then analyse b else block _ (analyse b)) (push f st2)) = (f', st3) /\
    after (push f st2) ((if elif then analyse b else block _ (analyse b)) (push f st2)) /\
    frames _ ((if elif then analyse b else block _ (analyse b)) (push f st2)) = f' :: frames _ st2 /\ entries_ok (f_entries _ f') /\
    after st2 st3 /\ frames _ st3 = frames _ st2 /\ wf st3 /\
    analyse (SIf _ _ c a elif b) st = merge_conditional t' f' st3 /\ changed st3 (merge_conditional t' f' st3).
Proof.
  intros c a elif b st Fa Fb H T. cbn [FlowTame.tame FlowModel.analyse] in *. destruct T as [Tc T].
  pose proof (guards_structure c true st (proj1 H) Tc) as G. unfold guards_fine in G.
  destruct (guards c st) as [[t f] st1]. destruct G as [G1 [G2 [G3 _]]].
  pose proof (evolved_after st st1 H G3) as A1. pose proof (after_wf _ _ A1) as H1.
  destruct T as [Ta Tb]. cbv zeta in Tb. pose proof (push_wf t st1 H1 G1) as Hp. pose proof (block_after a _ Fa Hp Ta) as Ba.
  destruct (pop_after t st1 _ H1 Ba) as [t' [P1 [P2 [P3 [P4 P5]]]]].
  pose proof (after_wf _ _ P4) as H2. pose proof (push_wf f _ H2 G2) as Hq.
  assert (Bb : after (push f (snd (pop (block _ (analyse a) (push t st1)))))
     ((if elif then analyse b else block _ (analyse b)) (push f (snd (pop (block _ (analyse a) (push t st1))))))).
  { destruct elif; [now apply Fb|now apply block_after]. }
  destruct (pop_after f _ _ H2 Bb) as [f' [Q1 [Q2 [Q3 [Q4 Q5]]]]].
  exists t, f, st1, t'. eexists. exists f'. eexists.
  split; [reflexivity|]. split; [exact G1|]. split; [exact G2|]. split; [exact G3|]. split; [exact Ta|]. split; [exact Hp|]. split; [exact P1|].
  split; [exact Ba|]. split; [exact P2|]. split; [exact P3|]. split; [exact P4|]. split; [exact P5|]. split; [exact Tb|]. split; [exact Hq|].
  split; [exact Q1|]. split; [exact Bb|]. split; [exact Q2|]. split; [exact Q3|]. split; [exact Q4|]. split; [exact Q5|].
  split; [now apply after_wf in Q4|]. split; [now rewrite P1, Q1|]. apply merge_conditional_changed; [now apply after_sound in Q4|exact P3|exact Q3].
Qed.

Lemma loop_parts : forall body orelse conditional f start st1 inside, fine body -> fine orelse -> wf st1 -> entries_ok (f_entries _ f) ->
  after (enter_loop start st1) inside -> tame_block _ (tame body) inside ->
  (let '(a, l, st) := leave_loop (loop _ st1) (block _ (analyse body) inside) in
   reachable_stable _ _ declared has tracked (frames _ st) a /\ Forall (stable _ _ declared has tracked (frames _ st)) (l_continues _ l) /\
   tame_block _ (tame orelse) (push (loop_exit conditional f a l st) st)) ->
  exists a l st3 f' st4,
    after inside (block _ (analyse body) inside) /\
    leave_loop (loop _ st1) (block _ (analyse body) inside) = (a, l, st3) /\ frames _ (block _ (analyse body) inside) = a :: frames _ st1 /\
    entries_ok (f_entries _ a) /\ loop _ (block _ (analyse body) inside) = Some l /\ details_ok l /\ l_index _ l = length (frames _ st1) /\
    after st1 st3 /\ frames _ st3 = frames _ st1 /\ tries _ st3 = tries _ (block _ (analyse body) inside) /\
    reports _ st3 = reports _ (block _ (analyse body) inside) /\
    reachable_stable _ _ declared has tracked (frames _ st3) a /\ Forall (stable _ _ declared has tracked (frames _ st3)) (l_continues _ l) /\
    tame_block _ (tame orelse) (push (loop_exit conditional f a l st3) st3) /\ wf (push (loop_exit conditional f a l st3) st3) /\
    after (push (loop_exit conditional f a l st3) st3) (block _ (analyse orelse) (push (loop_exit conditional f a l st3) st3)) /\
    pop (block _ (analyse orelse) (push (loop_exit conditional f a l st3) st3)) = (f', st4) /\
    frames _ (block _ (analyse orelse) (push (loop_exit conditional f a l st3) st3)) = f' :: frames _ st3 /\
    entries_ok (f_entries _ f') /\ after st3 st4 /\ frames _ st4 = frames _ st3 /\
    after st4 (finish_loop (block _ (analyse orelse)) (loop_exit conditional f a l st3) l st3) /\
    finish_loop (block _ (analyse orelse)) (loop_exit conditional f a l st3) l st3 =
      merge_conditional (fold_left (fun after b => merge_or (frames _ st4) after b false) (l_breaks _ l) f') new_unreachable st4.
Proof.
  intros body orelse conditional f start st1 inside Fb Fo H Hf Hi Tb T.
  pose proof (block_after body inside Fb (after_wf _ _ Hi) Tb) as Bb.
  destruct (leave_loop_after start st1 _ H (after_trans _ _ _ Hi Bb)) as [a [l [st3 [L1 [L2 [L3 [L4 [L5 [L6 [L7 [L8 [L9 L10]]]]]]]]]]]].
  rewrite L1 in T. destruct T as [T1 [T2 T3]].
  pose proof (after_wf _ _ L7) as H3.
  pose proof (loop_exit_ok conditional f a l st3 Hf L3 L5) as He.
  pose proof (push_wf _ st3 H3 He) as Hp. pose proof (block_after orelse _ Fo Hp T3) as Bo.
  destruct (pop_after _ st3 _ H3 Bo) as [f' [P1 [P2 [P3 [P4 P5]]]]].
  destruct (finish_loop_after _ _ l st3 H3 He L5 Bo) as [F1 F2].
  exists a, l, st3, f'. eexists. split; [exact Bb|]. split; [exact L1|]. split; [exact L2|]. split; [exact L3|]. split; [exact L4|].
  split; [exact L5|]. split; [exact L6|]. split; [exact L7|]. split; [exact L8|]. split; [exact L9|]. split; [exact L10|].
  split; [exact T1|]. split; [exact T2|]. split; [exact T3|]. split; [exact Hp|]. split; [exact Bo|]. split; [exact P1|]. split; [exact P2|].
  split; [exact P3|]. split; [exact P4|]. split; [exact P5|]. split; [exact F1|]. unfold FlowModel.finish_loop. now rewrite P1.
Qed.

Definition after_ok (try_frame : frame) (orelse : option stmt) (st : state) : frame * state :=
  match orelse with
  | None => (merge_or (frames _ st) try_frame new_unreachable false, st)
  | Some orelse =>
      let else_frame := if f_unreachable _ try_frame then new_unreachable else new_conditional in
      let '(f, st) := pop (block _ (analyse orelse) (push else_frame (push try_frame st))) in
      let after_ok := merge_or (frames _ st) new_unreachable f false in
      let '(_, st) := pop st in (after_ok, st)
  end.

Definition tame_else (try_frame : frame) (orelse : option stmt) (st : state) : Prop :=
  match orelse with
  | None => True
  | Some orelse =>
      reachable_stable _ _ declared has tracked (frames _ st) try_frame /\
      tame_block _ (tame orelse) (push (if f_unreachable _ try_frame then new_unreachable else new_conditional) (push try_frame st))
  end.

Lemma else_ok : forall try_frame orelse st, given fine orelse -> wf st -> entries_ok (f_entries _ try_frame) -> tame_else try_frame orelse st ->
  entries_ok (f_entries _ (fst (after_ok try_frame orelse st))) /\ after st (snd (after_ok try_frame orelse st)) /\
  frames _ (snd (after_ok try_frame orelse st)) = frames _ st.
Proof.
  intros try_frame [s|] st F H Ht T; unfold after_ok.
  - cbn [given tame_else] in F, T. destruct T as [_ T]. cbv zeta.
    set (ef := if f_unreachable _ try_frame then new_unreachable else new_conditional) in *.
    assert (He : entries_ok (f_entries _ ef)) by (unfold ef; destruct (f_unreachable _ try_frame); exact empty_ok).
    pose proof (push_wf _ _ H Ht) as H1. pose proof (push_wf ef _ H1 He) as H2. pose proof (block_after s _ F H2 T) as B.
    destruct (pop_after ef _ _ H1 B) as [f' [P1 [P2 [P3 [P4 P5]]]]]. rewrite P1.
    destruct (pop_after try_frame st _ H P4) as [g [Q1 [Q2 [Q3 [Q4 Q5]]]]]. rewrite Q1. cbn [fst snd].
    split; [|split; [exact Q4|exact Q5]]. apply merge_or_ok; [exact empty_ok|exact P3].
  - cbn [fst snd]. split; [|split; [now apply after_refl|reflexivity]]. apply merge_or_ok; [exact Ht|exact empty_ok].
Qed.

Lemma try_parts : forall body hs orelse finally st, fine body -> Forall fine hs -> given fine orelse -> wf st ->
  tame (STry _ _ body hs orelse finally) st ->
  exists tf caught st2 ae st3 ok st4,
    tame_block _ (tame body) (push new_conditional (enter_try st)) /\
    after (push new_conditional (enter_try st)) (block _ (analyse body) (push new_conditional (enter_try st))) /\
    frames _ (block _ (analyse body) (push new_conditional (enter_try st))) = tf :: frames _ st /\ entries_ok (f_entries _ tf) /\ try_ok caught /\
    tries _ (block _ (analyse body) (push new_conditional (enter_try st))) = caught :: tries _ st2 /\ after st st2 /\ frames _ st2 = frames _ st /\
    loop _ st2 = loop _ (block _ (analyse body) (push new_conditional (enter_try st))) /\
    reports _ st2 = reports _ (block _ (analyse body) (push new_conditional (enter_try st))) /\
    covers _ _ declared has tracked (frames _ st2) caught /\
    fst (fold_left (tame_handle caught) hs (True, st2)) /\
    fold_left (handle caught) hs (new_unreachable, st2) = (ae, st3) /\ entries_ok (f_entries _ ae) /\ after st2 st3 /\ frames _ st3 = frames _ st2 /\
    tame_else tf orelse st3 /\
    after_ok tf orelse st3 = (ok, st4) /\ entries_ok (f_entries _ ok) /\ after st3 st4 /\ frames _ st4 = frames _ st3 /\
    analyse (STry _ _ body hs orelse finally) st = merge_conditional ok ae st4 /\ changed st4 (merge_conditional ok ae st4).
Proof.
  intros body hs orelse finally st Fb Fh Fo H T. cbn [FlowTame.tame] in T. destruct T as [-> [Tb T]].
  set (p := push new_conditional (enter_try st)) in *.
  assert (Hp : wf p) by (apply push_wf; [now apply enter_try_wf|exact empty_ok]).
  pose proof (block_after body p Fb Hp Tb) as Bb.
  destruct (leave_try_after st _ H Bb) as [tf [caught [st2 [P1 [P2 [P3 [P4 [P5 [P6 [P7 [P8 [P9 P10]]]]]]]]]]]].
  rewrite P1 in T. rewrite P2 in T. destruct T as [Tc T].
  change (fold_left _ hs (True, st2)) with (fold_left (tame_handle caught) hs (True, st2)) in T.
  destruct (fold_left (tame_handle caught) hs (True, st2)) as [th st3'] eqn:Eh. destruct T as [Th To].
  assert (Th' : fst (fold_left (tame_handle caught) hs (True, st2))) by now rewrite Eh.
  destruct (handlers_after caught hs Fh (proj1 P5) new_unreachable st2 True empty_ok (after_wf _ _ P7) Th') as [I1 [I2 [I3 I4]]].
  rewrite Eh in I4. cbn [snd] in I4. subst st3'.
  destruct (fold_left (handle caught) hs (new_unreachable, st2)) as [ae st3] eqn:Ea. cbn [fst snd] in *.
  change (tame_else tf orelse st3) in To.
  destruct (else_ok tf orelse st3 Fo (after_wf _ _ I2) P4 To) as [E1 [E2 E3]].
  destruct (after_ok tf orelse st3) as [ok st4] eqn:Ee. cbn [fst snd] in *.
  exists tf, caught, st2, ae, st3, ok, st4.
  split; [exact Tb|]. split; [exact Bb|]. split; [exact P3|]. split; [exact P4|]. split; [exact P5|]. split; [exact P6|]. split; [exact P7|].
  split; [exact P8|]. split; [exact P9|]. split; [exact P10|]. split; [exact Tc|]. split; [now rewrite Eh|]. split; [exact Ea|]. split; [exact I1|]. split; [exact I2|].
  split; [exact I3|]. split; [exact To|]. split; [exact Ee|]. split; [exact E1|]. split; [exact E2|]. split; [exact E3|]. split.
  - cbn [FlowModel.analyse]. fold p. rewrite P1, P2.
    change (fold_left _ hs (new_unreachable, st2)) with (fold_left (handle caught) hs (new_unreachable, st2)). rewrite Ea.
    match goal with |- context [match ?m with pair _ _ => _ end] => change m with (after_ok tf orelse st3) end. rewrite Ee.
    exact (empty_finally_eq (merge_conditional ok ae st4)).
  - apply merge_conditional_changed; [now apply after_sound in E2|exact E1|exact I1].
Qed.

Lemma with_parts : forall body st, fine body -> wf st -> tame (SWith _ _ body) st ->
  exists tf caught st2,
    tame_block _ (tame body) (push new_conditional (enter_try st)) /\
    after (push new_conditional (enter_try st)) (block _ (analyse body) (push new_conditional (enter_try st))) /\
    frames _ (block _ (analyse body) (push new_conditional (enter_try st))) = tf :: frames _ st /\ entries_ok (f_entries _ tf) /\ try_ok caught /\
    tries _ (block _ (analyse body) (push new_conditional (enter_try st))) = caught :: tries _ st2 /\ after st st2 /\ frames _ st2 = frames _ st /\
    loop _ st2 = loop _ (block _ (analyse body) (push new_conditional (enter_try st))) /\
    reports _ st2 = reports _ (block _ (analyse body) (push new_conditional (enter_try st))) /\
    covers _ _ declared has tracked (frames _ st2) caught /\
    analyse (SWith _ _ body) st = overwrite_entries caught false st2 /\ evolved st2 (overwrite_entries caught false st2).
Proof.
  intros body st Fb H T. cbn [FlowTame.tame] in T. destruct T as [Tb T].
  set (p := push new_conditional (enter_try st)) in *.
  assert (Hp : wf p) by (apply push_wf; [now apply enter_try_wf|exact empty_ok]).
  pose proof (block_after body p Fb Hp Tb) as Bb.
  destruct (leave_try_after st _ H Bb) as [tf [caught [st2 [P1 [P2 [P3 [P4 [P5 [P6 [P7 [P8 [P9 P10]]]]]]]]]]]].
  rewrite P1 in T. rewrite P2 in T. exists tf, caught, st2.
  split; [exact Tb|]. split; [exact Bb|]. split; [exact P3|]. split; [exact P4|]. split; [exact P5|]. split; [exact P6|]. split; [exact P7|].
  split; [exact P8|]. split; [exact P9|]. split; [exact P10|]. split; [exact T|]. split; [cbn [FlowModel.analyse]; fold p; now rewrite P1, P2|].
  apply overwrite_entries_evolved; [now apply after_sound in P7|apply P5].
Qed.

Lemma while_parts : forall c body orelse st, wf st -> tame (SWhile _ _ c body orelse) st ->
  exists t f st1, guards c st = (t, f, st1) /\ entries_ok (f_entries _ t) /\ entries_ok (f_entries _ f) /\ evolved st st1 /\ frames _ st1 = frames _ st /\
    tame_cond false c st /\
    after (enter_loop t st1) (enter_loop t st1) /\ tame_block _ (tame body) (enter_loop t st1) /\
    (let '(a, l, st) := leave_loop (loop _ st1) (block _ (analyse body) (enter_loop t st1)) in
     reachable_stable _ _ declared has tracked (frames _ st) a /\ Forall (stable _ _ declared has tracked (frames _ st)) (l_continues _ l) /\
     tame_block _ (tame orelse) (push (loop_exit true f a l st) st)).
Proof.
  intros c body orelse st H T. cbn [FlowTame.tame] in T. destruct T as [Tc T].
  pose proof (guards_structure c false st (proj1 H) Tc) as G. unfold guards_fine in G.
  destruct (guards c st) as [[t f] st1]. destruct G as [G1 [G2 [G3 G4]]].
  pose proof (after_wf _ _ (evolved_after st st1 H G3)) as H1. destruct T as [T1 T2].
  exists t, f, st1. split; [reflexivity|]. split; [exact G1|]. split; [exact G2|]. split; [exact G3|]. split; [now apply G4|]. split; [exact Tc|].
  split; [apply after_refl; now apply enter_loop_wf|]. split; [exact T1|exact T2].
Qed.

Lemma delete_after : forall k st, wf st -> tame (SDel _ _ k) st -> evolved st (analyse (SDel _ _ k) st).
Proof.
  intros k st H [D [T _]]. cbn [FlowModel.analyse]. unfold delete_name. apply overwrite_evolved; [apply H| |reflexivity].
  split; [exact T|]. intros _. exact D.
Qed.

Lemma reveal_after : forall l k st, wf st -> after st (analyse (SReveal _ _ l k) st).
Proof.
  intros l k st H. cbn [FlowModel.analyse].
  split; [reflexivity|split; [exact H|split; [apply forall2_wider_refl|split; [apply loop_grows_refl|]]]]. cbn [reports]. apply incl_appl, incl_refl.
Qed.

Lemma assert_after : forall c st, wf st -> tame (SAssert _ _ c) st ->
  exists t f st1, guards c st = (t, f, st1) /\ entries_ok (f_entries _ t) /\ evolved st st1 /\
    analyse (SAssert _ _ c) st = overwrite_frame _ t st1 /\ after st1 (overwrite_frame _ t st1).
Proof.
  intros c st H T. cbn [FlowTame.tame FlowModel.analyse] in *.
  pose proof (guards_structure c true st (proj1 H) T) as G. unfold guards_fine in G.
  destruct (guards c st) as [[t f] st1]. destruct G as [G1 [G2 [G3 _]]]. exists t, f, st1.
  split; [reflexivity|]. split; [exact G1|]. split; [exact G3|]. split; [reflexivity|]. apply overwrite_frame_after; [|exact G1].
  exact (after_wf _ _ (evolved_after st st1 H G3)).
Qed.

Theorem analyse_after : forall s, fine s.
Proof.
  apply stmt_induction.
  - intros st H T. now apply after_refl.
  - intros l k st H T. now apply reveal_after.
  - intros k e st H T. cbn [FlowModel.analyse FlowTame.tame] in *. apply evolved_after; [exact H|]. apply tame_assign_evolved; [apply H|exact T].
  - intros k st H T. apply evolved_after; [exact H|now apply delete_after].
  - intros a b IHa IHb st H T. cbn [FlowModel.analyse FlowTame.tame] in *. destruct T as [Ta Tb].
    pose proof (block_after a st IHa H Ta) as A. apply after_trans with (block _ (analyse a) st); [exact A|].
    apply block_after; [exact IHb|now apply after_wf in A|exact Tb].
  - intros c a elif b IHa IHb st H T.
    destruct (if_parts c a elif b st IHa IHb H T) as
      [t [f [st1 [t' [st2 [f' [st3 [_ [_ [_ [G [_ [_ [_ [_ [_ [_ [A2 [_ [_ [_ [_ [_ [_ [_ [A3 [_ [H3 [E C]]]]]]]]]]]]]]]]]]]]]]]]]]]]].
    rewrite E. apply after_trans with st1; [now apply evolved_after|]. apply after_trans with st2; [exact A2|].
    apply after_trans with st3; [exact A3|]. now apply changed_after.
  - intros c body orelse IHb IHo st H T.
    destruct (while_parts c body orelse st H T) as [t [f [st1 [EG [G1 [G2 [G3 [_ [_ [W1 [W2 W3]]]]]]]]]]].
    pose proof (evolved_after _ _ H G3) as A1.
    destruct (loop_parts body orelse true f t st1 _ IHb IHo (after_wf _ _ A1) G2 W1 W2 W3) as
      [a [l [st3 [f' [st4 [_ [L1 [_ [_ [_ [_ [_ [L7 [_ [_ [_ [_ [_ [_ [_ [_ [_ [_ [_ [L8 [_ [L9 _]]]]]]]]]]]]]]]]]]]]]]]]]]].
    cbn [FlowModel.analyse]. rewrite EG, L1. apply after_trans with st1; [exact A1|]. apply after_trans with st3; [exact L7|].
    now apply after_trans with st4.
  - intros k t body orelse IHb IHo st H T. cbn [FlowTame.tame] in T. destruct T as [T1 [T2 [T3 [T4 T5]]]].
    destruct (for_assign k t new_conditional st H empty_ok T1 T2 T3) as [_ A].
    destruct (loop_parts body orelse false new_conditional new_conditional st _ IHb IHo H empty_ok A T4 T5) as
      [a [l [st3 [f' [st4 [_ [L1 [_ [_ [_ [_ [_ [L7 [_ [_ [_ [_ [_ [_ [_ [_ [_ [_ [_ [L8 [_ [L9 _]]]]]]]]]]]]]]]]]]]]]]]]]]].
    cbn [FlowModel.analyse]. rewrite L1. apply after_trans with st3; [exact L7|]. now apply after_trans with st4.
  - intros st H T. now apply break_after.
  - intros st H T. now apply continue_after.
  - intros st H T. now apply mark_after.
  - intros st H T. now apply mark_after.
  - intros c st H T. destruct (assert_after c st H T) as [t [f [st1 [_ [_ [G [-> A]]]]]]].
    apply after_trans with st1; [now apply evolved_after|exact A].
  - intros body hs orelse finally IHb IHh IHo _ st H T.
    destruct (try_parts body hs orelse finally st IHb IHh IHo H T) as
      [tf [caught [st2 [ae [st3 [ok [st4 [_ [_ [_ [_ [_ [_ [A2 [_ [_ [_ [_ [_ [_ [_ [A3 [_ [_ [_ [_ [A4 [_ [E C]]]]]]]]]]]]]]]]]]]]]]]]]]]]].
    rewrite E. apply after_trans with st2; [exact A2|]. apply after_trans with st3; [exact A3|]. apply after_trans with st4; [exact A4|].
    apply changed_after; [now apply after_wf in A4|exact C].
  - intros body IHb st H T.
    destruct (with_parts body st IHb H T) as [tf [caught [st2 [_ [_ [_ [_ [_ [_ [A2 [_ [_ [_ [_ [E C]]]]]]]]]]]]]]].
    rewrite E. apply after_trans with st2; [exact A2|]. apply evolved_after; [now apply after_wf in A2|exact C].
Qed.

(** * Statements: what is known afterwards is right *)
Definition base (i : nat) (fs : list frame) : list frame := skipn (length fs - i) fs.

Definition jumps (select : loop_details type -> list frame) (st : state) (s : store) : Prop :=
  exists l b, loop _ st = Some l /\ In b (select l) /\ allowed (b :: base (l_index _ l) (tl (frames _ st))) s.

Definition ends (st : state) (o : outcome) (s : store) : Prop :=
  match o with
  | Normal => is_unreachable st = false /\ allowed (frames _ st) s
  | Break => jumps (l_breaks _) st s
  | Continue => jumps (l_continues _) st s
  | Return | Raise => True
  end.

Lemma base_cons : forall i f fs, (i <= length fs)%nat -> base i (f :: fs) = base i fs.
Proof. intros i f fs H. unfold base. cbn [length]. rewrite Nat.sub_succ_l by exact H. reflexivity. Qed.

Lemma base_all : forall fs, base (length fs) fs = fs.
Proof. intros fs. unfold base. now rewrite Nat.sub_diag. Qed.

Lemma jumps_after : forall select st1 st2 s, (forall l l', loop_grows (Some l) (Some l') -> incl (select l) (select l')) ->
  after st1 st2 -> jumps select st1 s -> jumps select st2 s.
Proof.
  intros select st1 st2 s Hs [A1 [_ [_ [A4 _]]]] [l [b [E1 [E2 E3]]]]. rewrite E1 in A4. destruct (loop _ st2) as [l'|] eqn:El; [|contradiction].
  exists l', b. split; [exact El|]. split; [now apply (Hs l l')|]. cbn [loop_grows] in A4. destruct A4 as [-> _]. now rewrite A1.
Qed.

Lemma ends_after : forall o st1 st2 s, o <> Normal -> after st1 st2 -> ends st1 o s -> ends st2 o s.
Proof.
  intros o st1 st2 s Ho A H. destruct o; cbn [ends] in *; [congruence| | |exact Logic.I|exact Logic.I].
  - apply jumps_after with st1; [|exact A|exact H]. intros l l' [_ [E _]]. exact E.
  - apply jumps_after with st1; [|exact A|exact H]. intros l l' [_ [_ E]]. exact E.
Qed.

Lemma jumps_down : forall select st1 st2 s, wf st2 -> loop _ st2 = loop _ st1 -> tl (frames _ st1) = frames _ st2 ->
  jumps select st1 s -> jumps select st2 s.
Proof.
  intros select st1 st2 s [H1 H2] El Ef [l [b [E1 [E2 E3]]]]. rewrite El, E1 in H2. cbn [loop_ok] in H2.
  exists l, b. split; [congruence|]. split; [exact E2|]. rewrite Ef in E3. destruct (stack_some st2 H1) as [g [fs [E _]]]. rewrite E in *. cbn [tl length] in *.
  rewrite base_cons in E3 by lia. exact E3.
Qed.

Lemma ends_down : forall o st1 st2 s, o <> Normal -> wf st2 -> loop _ st2 = loop _ st1 -> tl (frames _ st1) = frames _ st2 -> ends st1 o s -> ends st2 o s.
Proof.
  intros o st1 st2 s Ho Hw El Ef H. destruct o; cbn [ends] in *; [congruence| | |exact Logic.I|exact Logic.I]; now apply jumps_down with st1.
Qed.

Lemma pop_same : forall st f st', pop st = (f, st') -> tries _ st' = tries _ st /\ loop _ st' = loop _ st /\ reports _ st' = reports _ st.
Proof.
  intros st f st' H. unfold FlowModel.pop in H. destruct (frames _ st); injection H as _ <-; now repeat split.
Qed.

Lemma right_incl : forall r r' ev, incl r r' -> right r ev -> right r' ev.
Proof. intros r r' ev Hi H l v Hv. destruct (H l v Hv) as [t [E1 E2]]. exists t. split; [now apply Hi|exact E2]. Qed.

Lemma right_app : forall r e1 e2, right r e1 -> right r e2 -> right r (e1 ++ e2).
Proof. intros r e1 e2 H1 H2 l v Hv. apply in_app_or in Hv as [Hv|Hv]; [now apply H1|now apply H2]. Qed.

Lemma right_nil : forall r, right r [].
Proof. intros r l v []. Qed.

Lemma after_covered : forall st1 st2 g, after st1 st2 -> covered (tries _ st2) g -> covered (tries _ st1) g.
Proof. intros st1 st2 g A H. apply covered_wider with (tries _ st2); [now apply after_tries|exact H]. Qed.

Definition reached (f : frame) (fs : list frame) (s : store) : Prop := f_unreachable _ f = false /\ allowed (f :: fs) s.

Lemma or_reached : forall fs x y s, known fs -> well_typed s -> entries_ok (f_entries _ x) -> entries_ok (f_entries _ y) ->
  reached x fs s \/ reached y fs s -> reached (merge_or fs x y false) fs s.
Proof.
  intros fs x y s K Hw Hx Hy H.
  assert (G : forall k, f_unreachable _ (merge_or fs x y false) = false /\ allows (merge_or fs x y false :: fs) k (s k)).
  { intros k. apply merge_or_allows; [exact K|exact Hx|exact Hy|now apply well_typed_typed|discriminate|].
    destruct H as [[U A]|[U A]]; [left|right]; (split; [exact U|apply A]). }
  split; [apply (G (Name 0%N))|]. intros k. apply G.
Qed.

Lemma fold_or_reached : forall fs l f s, known fs -> well_typed s -> entries_ok (f_entries _ f) -> Forall frame_ok l ->
  reached f fs s \/ (exists b, In b l /\ allowed (b :: fs) s) ->
  reached (fold_left (fun after b => merge_or fs after b false) l f) fs s.
Proof.
  intros fs l. induction l as [|b l IH]; intros f s K Hw Hf Hl H; cbn [fold_left].
  - destruct H as [H|[b [[] _]]]. exact H.
  - pose proof (Forall_inv Hl) as [Hb Ub]. apply IH; [exact K|exact Hw|now apply merge_or_ok|now apply Forall_inv_tail in Hl|].
    destruct H as [H|[c [[<-|H1] H2]]].
    + left. apply or_reached; [exact K|exact Hw|exact Hf|exact Hb|now left].
    + left. apply or_reached; [exact K|exact Hw|exact Hf|exact Hb|right; now split].
    + right. exists c. now split.
Qed.

Lemma merged_reached : forall t f st s, sound_state st -> is_unreachable st = false -> well_typed s -> entries_ok (f_entries _ t) -> entries_ok (f_entries _ f) ->
  reached t (frames _ st) s \/ reached f (frames _ st) s -> ends (merge_conditional t f st) Normal s.
Proof.
  intros t f st s Hs Hu Hw Ht Hf H. cbn [ends]. split.
  - rewrite merge_conditional_reachable; [exact Hu|exact Hs|exact Ht|exact Hf|]. destruct H as [[H _]|[H _]]; [now left|now right].
  - intros k. destruct H as [[U H]|[U H]].
    + apply merge_conditional_true; [exact Hs|exact Ht|exact Hf|exact U|now apply well_typed_typed|apply H].
    + apply merge_conditional_false; [exact Hs|exact Ht|exact Hf|exact U|now apply well_typed_typed|apply H].
Qed.

Lemma stable_allows : forall fs f k v, stable _ _ declared has tracked fs f -> typed k v -> allows (f :: fs) k v -> allows fs k v.
Proof.
  intros fs f k v Hst Ht H. rewrite allows_cons in H. destruct (find_entry k (f_entries _ f)) as [e|] eqn:F; [|exact H].
  destruct H as [H1 [[H2 _]|H2]]; [|exact H2]. apply find_key in F as [F K]. subst k. now apply (Hst e).
Qed.

Lemma stable_allowed : forall fs f s, stable _ _ declared has tracked fs f -> well_typed s -> allowed (f :: fs) s -> allowed fs s.
Proof. intros fs f s Hst Hw H k. apply stable_allows with f; [exact Hst|now apply well_typed_typed|apply H]. Qed.

Lemma unreachable_frames : forall st st', frames _ st' = frames _ st -> is_unreachable st' = is_unreachable st.
Proof. intros st st' E. unfold FlowModel.is_unreachable. now rewrite E. Qed.

Definition shown (a : stmt) (s : store) (ev : list (N * value)) (o : outcome) (s' : store) : Prop := forall st g,
  wf st -> tame a st -> is_unreachable st = false -> well_typed s -> allowed (frames _ st) s -> ghosts_ok g -> intact g s ->
  covered (tries _ (analyse a st)) g ->
  well_typed s' /\ intact g s' /\ right (reports _ (analyse a st)) ev /\ ends (analyse a st) o s'.

Lemma block_reachable : forall a st, is_unreachable st = false -> block _ (analyse a) st = analyse a st.
Proof. intros a st H. unfold block. now rewrite H. Qed.

Lemma shown_branch : forall a s ev o s' f st f' st' g, shown a s ev o s' -> wf st -> entries_ok (f_entries _ f) -> tame_block _ (tame a) (push f st) ->
  well_typed s -> reached f (frames _ st) s -> ghosts_ok g -> intact g s ->
  pop (block _ (analyse a) (push f st)) = (f', st') -> covered (tries _ st') g ->
  well_typed s' /\ intact g s' /\ right (reports _ st') ev /\ (o = Normal -> reached f' (frames _ st) s') /\ (o <> Normal -> ends st' o s').
Proof.
  intros a s ev o s' f st f' st' g G Hst Hf T Hw [U Ha] Hg Hi P Hc.
  assert (Up : is_unreachable (push f st) = false) by exact U.
  pose proof (push_wf f st Hst Hf) as Hp.
  pose proof (block_after a _ (analyse_after a) Hp T) as B. destruct (pop_after f st _ Hst B) as [f'' [P1 [P2 [P3 [P4 P5]]]]].
  rewrite P in P1. injection P1 as <-. rewrite P in P4, P5. cbn [snd] in P4, P5. clear B P3.
  destruct (pop_same _ _ _ P) as [S1 [S2 S3]]. rewrite (block_reachable a _ Up) in *.
  rewrite S1 in Hc. destruct (G (push f st) g Hp (T Up) Up Hw Ha Hg Hi Hc) as [R1 [R2 [R3 R4]]].
  split; [exact R1|]. split; [exact R2|]. split; [now rewrite S3|]. split.
  - intros ->. cbn [ends] in R4. destruct R4 as [R4 R5]. unfold FlowModel.is_unreachable in R4. rewrite P2 in R4, R5. split; [exact R4|exact R5].
  - intros Ho. apply ends_down with (analyse a (push f st)); [exact Ho|now apply after_wf in P4|exact S2|now rewrite P2, P5|exact R4].
Qed.

(** ** Loops *)
Lemma back_allowed : forall st1 inside a l (o : outcome) s, frames _ inside = a :: frames _ st1 -> loop _ inside = Some l ->
  l_index _ l = length (frames _ st1) -> reachable_stable _ _ declared has tracked (frames _ st1) a ->
  Forall (stable _ _ declared has tracked (frames _ st1)) (l_continues _ l) -> well_typed s -> o = Normal \/ o = Continue -> ends inside o s -> allowed (frames _ st1) s.
Proof.
  intros st1 inside a l o s Ef El Ei Hs Hc Hw Ho H. destruct Ho as [-> | ->]; cbn [ends] in H.
  - destruct H as [U H]. unfold FlowModel.is_unreachable in U. rewrite Ef in U, H. apply stable_allowed with a; [now apply Hs|exact Hw|exact H].
  - destruct H as [l' [b [E1 [E2 E3]]]]. rewrite El in E1. injection E1 as <-. rewrite Ef, Ei in E3. cbn [tl] in E3. rewrite base_all in E3.
    apply stable_allowed with b; [|exact Hw|exact E3]. rewrite Forall_forall in Hc. now apply Hc.
Qed.

Lemma break_reached : forall st1 inside a l f s, frames _ inside = a :: frames _ st1 -> loop _ inside = Some l ->
  l_index _ l = length (frames _ st1) -> details_ok l -> entries_ok (f_entries _ f) -> known (frames _ st1) -> well_typed s -> ends inside Break s ->
  reached (fold_left (fun after b => merge_or (frames _ st1) after b false) (l_breaks _ l) f) (frames _ st1) s.
Proof.
  intros st1 inside a l f s Ef El Ei Hl Hf K Hw H. cbn [ends] in H. destruct H as [l' [b [E1 [E2 E3]]]]. rewrite El in E1. injection E1 as <-.
  rewrite Ef, Ei in E3. cbn [tl] in E3. rewrite base_all in E3.
  apply fold_or_reached; [exact K|exact Hw|exact Hf|apply Hl|]. right. exists b. now split.
Qed.

Lemma exit_reached : forall conditional f a l st s, known (frames _ st) -> well_typed s -> entries_ok (f_entries _ f) -> entries_ok (f_entries _ a) ->
  details_ok l -> reached f (frames _ st) s -> reached (loop_exit conditional f a l st) (frames _ st) s.
Proof.
  intros conditional f a l st s K Hw Hf Ha Hl H. unfold FlowModel.loop_exit. cbv zeta. apply or_reached; [exact K|exact Hw|exact Hf| |now left].
  pose proof (fold_or_ok (frames _ st) _ a Ha (proj2 Hl)) as Hx. destruct conditional; [now apply merge_and_ok|exact Hx].
Qed.

(** ** [try] *)
Lemma caught_allowed : forall caught S0 s u, try_ok caught -> covers _ _ declared has tracked S0 caught -> well_typed s ->
  (forall k, allows S0 k (s k) \/ (isolated k /\ possible caught k (s k))) -> allowed (Frame _ caught u :: S0) s.
Proof.
  intros caught S0 s u [Hok Hm] Hc Hw H k. rewrite allows_cons. cbn [f_entries]. destruct (H k) as [A|[A1 [e [A2 A3]]]].
  - destruct (find_entry k caught) as [e|] eqn:F; [|exact A]. apply find_key in F as [F K].
    split; [|now right]. apply (Hc e F (s k)); rewrite K; [now apply well_typed_typed|exact A].
  - rewrite A2. split; [exact A3|left]. split; [|exact A1]. apply Hm. now apply find_key in A2.
Qed.

Lemma shown_try_body : forall body s ev o s' st g tf caught st2, shown body s ev o s' -> wf st ->
  tame_block _ (tame body) (push new_conditional (enter_try st)) ->
  after (push new_conditional (enter_try st)) (block _ (analyse body) (push new_conditional (enter_try st))) ->
  frames _ (block _ (analyse body) (push new_conditional (enter_try st))) = tf :: frames _ st -> try_ok caught ->
  tries _ (block _ (analyse body) (push new_conditional (enter_try st))) = caught :: tries _ st2 -> after st st2 -> frames _ st2 = frames _ st ->
  loop _ st2 = loop _ (block _ (analyse body) (push new_conditional (enter_try st))) ->
  reports _ st2 = reports _ (block _ (analyse body) (push new_conditional (enter_try st))) ->
  covers _ _ declared has tracked (frames _ st2) caught ->
  well_typed s -> allowed (frames _ st) s -> ghosts_ok g -> intact g s -> covered (tries _ st2) g ->
  well_typed s' /\ intact g s' /\ right (reports _ st2) ev /\ (o = Normal -> reached tf (frames _ st) s') /\ (o <> Normal -> ends st2 o s') /\
  allowed (Frame _ caught false :: frames _ st) s'.
Proof.
  intros body s ev o s' st g tf caught st2 G H T B Ef Hok Et A2 Ef2 El Er Hc Hw Ha Hg Hi Hcov.
  set (p := push new_conditional (enter_try st)) in *.
  assert (U : is_unreachable p = false) by reflexivity.
  assert (Hp : wf p) by (apply push_wf; [now apply enter_try_wf|exact empty_ok]).
  rewrite (block_reachable body p U) in *.
  assert (Hap : allowed (frames _ p) s) by (intros k; apply allows_nothing, Ha).
  assert (Hgp : ghosts_ok ((frames _ st, caught) :: g)) by (constructor; [apply H|exact Hg]).
  assert (Hip : intact ((frames _ st, caught) :: g) s) by (constructor; [intros k; left; apply Ha|exact Hi]).
  assert (Hcp : covered (tries _ (analyse body p)) ((frames _ st, caught) :: g)) by (rewrite Et; constructor; [apply wider_refl|exact Hcov]).
  destruct (G p _ Hp (T U) U Hw Hap Hgp Hip Hcp) as [R1 [R2 [R3 R4]]].
  pose proof (Forall_inv R2) as R5. apply Forall_inv_tail in R2. cbn [fst snd] in R5.
  split; [exact R1|]. split; [exact R2|]. split; [now rewrite Er|]. split; [|split].
  - intros ->. cbn [ends] in R4. destruct R4 as [R6 R7]. unfold FlowModel.is_unreachable in R6. rewrite Ef in R6, R7. now split.
  - intros Ho. apply ends_down with (analyse body p); [exact Ho|now apply after_wf in A2|exact El|now rewrite Ef, Ef2|exact R4].
  - rewrite Ef2 in Hc. now apply caught_allowed.
Qed.

Lemma handlers_keep : forall caught hs a st (p : Prop) s, entries_ok caught -> entries_ok (f_entries _ a) -> wf st ->
  fst (fold_left (tame_handle caught) hs (p, st)) -> well_typed s -> reached a (frames _ st) s ->
  reached (fst (fold_left (handle caught) hs (a, st))) (frames _ st) s.
Proof.
  intros caught hs. induction hs as [|h hs IH]; intros a st p s Hc Ha H T Hw R; [exact R|]. cbn [fold_left] in *.
  unfold tame_handle in T at 2. pose proof (tame_handle_prop _ _ _ T) as [_ T1].
  pose proof (block_after h _ (analyse_after h) (push_wf (Frame _ caught false) st H Hc) T1) as B.
  destruct (pop_after _ _ _ H B) as [f' [P1 [P2 [P3 [P4 P5]]]]].
  assert (E : handle caught (a, st) h =
              (merge_or (frames _ (snd (pop (block _ (analyse h) (push (Frame _ caught false) st))))) f' a false,
               snd (pop (block _ (analyse h) (push (Frame _ caught false) st))))) by (unfold handle; now rewrite P1).
  rewrite E. rewrite <- P5. apply IH with (4 := T).
  - exact Hc.
  - now apply merge_or_ok.
  - now apply after_wf in P4.
  - exact Hw.
  - apply or_reached; [|exact Hw|exact P3|exact Ha|right; now rewrite P5]. apply stack_known. rewrite P5. apply H.
Qed.

Lemma handlers_sound : forall caught h s ev o s' g, shown h s ev o s' -> entries_ok caught -> well_typed s -> ghosts_ok g -> intact g s ->
  forall hs a st (p : Prop), In h hs -> entries_ok (f_entries _ a) -> wf st -> fst (fold_left (tame_handle caught) hs (p, st)) ->
  allowed (Frame _ caught false :: frames _ st) s ->
  covered (tries _ (snd (fold_left (handle caught) hs (a, st)))) g ->
  well_typed s' /\ intact g s' /\ right (reports _ (snd (fold_left (handle caught) hs (a, st)))) ev /\
  (o = Normal -> reached (fst (fold_left (handle caught) hs (a, st))) (frames _ st) s') /\
  (o <> Normal -> ends (snd (fold_left (handle caught) hs (a, st))) o s').
Proof.
  intros caught h s ev o s' g G Hc Hw Hg Hi hs. induction hs as [|h0 hs IH]; intros a st p Hin Ha H T Hal Hcov; [destruct Hin|].
  cbn [fold_left] in *. unfold tame_handle in T at 2. pose proof (tame_handle_prop _ _ _ T) as [_ T1].
  pose proof (block_after h0 _ (analyse_after h0) (push_wf (Frame _ caught false) st H Hc) T1) as B.
  destruct (pop_after _ _ _ H B) as [f' [P1 [P2 [P3 [P4 P5]]]]].
  assert (E : handle caught (a, st) h0 =
              (merge_or (frames _ (snd (pop (block _ (analyse h0) (push (Frame _ caught false) st))))) f' a false,
               snd (pop (block _ (analyse h0) (push (Frame _ caught false) st))))) by (unfold handle; now rewrite P1).
  rewrite E in *.
  set (st' := snd (pop (block _ (analyse h0) (push (Frame _ caught false) st)))) in *.
  pose proof (after_wf _ _ P4) as H'.
  assert (Hm : entries_ok (f_entries _ (merge_or (frames _ st') f' a false))) by now apply merge_or_ok.
  destruct Hin as [<-|Hin].
  - assert (F : Forall fine hs) by (rewrite Forall_forall; intros x _; apply analyse_after).
    destruct (handlers_after caught hs F Hc _ st' _ Hm H' T) as [I1 [I2 [I3 I4]]].
    destruct (shown_branch h0 s ev o s' (Frame _ caught false) st f' st' g G H Hc T1 Hw (conj eq_refl Hal) Hg Hi P1 (after_covered _ _ _ I2 Hcov))
      as [R1 [R2 [R3 [R4 R5]]]].
    split; [exact R1|]. split; [exact R2|]. split; [apply right_incl with (reports _ st'); [now apply after_reports|exact R3]|]. split.
    + intros Ho. rewrite <- P5. apply (handlers_keep caught hs _ st' _ s' Hc Hm H' T R1).
      apply or_reached; [apply stack_known, H'|exact R1|exact P3|exact Ha|left; rewrite P5; now apply R4].
    + intros Ho. apply ends_after with st'; [exact Ho|exact I2|now apply R5].
  - rewrite <- P5. rewrite <- P5 in Hal. now apply (IH _ st' _ Hin Hm H' T).
Qed.

Scheme runs_minimality := Minimality for FlowSpec.runs Sort Prop
  with tries_minimality := Minimality for FlowSpec.tries_to Sort Prop.

Definition shown_try (body : stmt) (hs : list stmt) (orelse : option stmt) (s : store) (ev : list (N * value)) (o : outcome) (s' : store) : Prop :=
  shown (STry _ _ body hs orelse (SSkip _ _)) s ev o s'.

Lemma shown_raise : forall a s, shown a s [] Raise s.
Proof. intros a s st g H T U Hw Ha Hg Hi Hc. exact (conj Hw (conj Hi (conj (right_nil _) Logic.I))). Qed.

Lemma shown_reveal : forall l k v s, s k = Some v -> shown (SReveal _ _ l k) s [(l, v)] Normal s.
Proof.
  intros l k v s E st g H T U Hw Ha Hg Hi Hc. split; [exact Hw|]. split; [exact Hi|]. cbn [FlowModel.analyse reports]. split.
  - intros l' v' [Hv|[]]. injection Hv as <- <-. destruct (allowed_look st s k v Ha Hw E) as [t [E1 E2]]. exists t. split; [|exact E2].
    apply in_or_app. right. left. now rewrite E1.
  - split; [exact U|exact Ha].
Qed.

Lemma shown_assign : forall k e v s s', evaluates type value has e s v -> updated s k (Some v) s' -> shown (SAssign _ _ k e) s [] Normal s'.
Proof.
  intros k e v s s' Hv Hu st g H T U Hw Ha Hg Hi Hc. cbn [FlowModel.analyse FlowTame.tame] in *.
  assert (Ht : has (source_type type error declared e st) v).
  { inversion Hv as [t x w E|k0 x w E]; subst; cbn [source_type]; [exact E|]. now apply (allowed_type_of st s). }
  pose proof (tame_assign_evolved k _ st (proj1 H) T) as Ev.
  split; [apply Hu|]. split; [now apply (assign_intact k _ st s v s' g (proj1 H) T)|]. split; [apply right_nil|].
  cbn [ends]. split; [now rewrite (evolved_unreachable _ _ Ev)|]. now apply (assign_sound k _ st s v s' (proj1 H) T).
Qed.

Lemma shown_del : forall k s s', updated s k None s' -> shown (SDel _ _ k) s [] Normal s'.
Proof.
  intros k s s' Hu st g H T U Hw Ha Hg Hi Hc. pose proof (delete_after k st H T) as Ev. cbn [FlowModel.analyse FlowTame.tame] in *. unfold delete_name in *.
  destruct T as [D [T O]]. set (new := Entry type k (Of type error) true true) in *.
  assert (Hn : entry_ok new) by (split; [exact T|intros _; exact D]).
  assert (Hf : fits new (s' (e_key _ new))) by (exact (proj1 Hu)).
  assert (Hup : updated s (e_key _ new) (s' (e_key _ new)) s') by (cbn [new e_key]; rewrite (proj1 Hu); exact Hu).
  split; [apply Hu|]. split; [|split; [apply right_nil|]].
  - apply (overwrite_intact new st s s' g (proj1 H) Hn); [|exact Hf|exact Hup|exact Hg|exact Hc|exact Hi]. destruct O as [O|[_ O]]; [now left|now right].
  - cbn [ends]. split; [now rewrite (evolved_unreachable _ _ Ev)|].
    destruct (stack_some st (proj1 H)) as [f [fs [E Hst]]]. rewrite E in Ha.
    apply (overwrite_sound new st f fs s s' E Hst Hn eq_refl); [|exact Ha|exact Hf|exact Hup].
    destruct O as [O|O]; [now left|right; now apply (outermost_single st f fs)].
Qed.

Lemma shown_seq : forall a b s e1 s1 e2 o s2, shown a s e1 Normal s1 -> shown b s1 e2 o s2 -> shown (SSeq _ _ a b) s (e1 ++ e2) o s2.
Proof.
  intros a b s e1 s1 e2 o s2 Ga Gb st g H T U Hw Ha Hg Hi Hc. cbn [FlowModel.analyse FlowTame.tame] in *. destruct T as [Ta Tb].
  pose proof (block_after a st (analyse_after a) H Ta) as A1. pose proof (after_wf _ _ A1) as H1.
  pose proof (block_after b _ (analyse_after b) H1 Tb) as A2.
  rewrite (block_reachable a st U) in *.
  destruct (Ga st g H (Ta U) U Hw Ha Hg Hi (after_covered _ _ _ A2 Hc)) as [R1 [R2 [R3 [R4 R5]]]].
  rewrite (block_reachable b _ R4) in *.
  destruct (Gb _ g H1 (Tb R4) R4 R1 R5 Hg R2 Hc) as [Q1 [Q2 [Q3 Q4]]].
  split; [exact Q1|]. split; [exact Q2|]. split; [|exact Q4]. apply right_app; [|exact Q3]. apply right_incl with (2 := R3). now apply after_reports.
Qed.

Lemma shown_seq_out : forall a b s e o s1, o <> Normal -> shown a s e o s1 -> shown (SSeq _ _ a b) s e o s1.
Proof.
  intros a b s e o s1 Ho Ga st g H T U Hw Ha Hg Hi Hc. cbn [FlowModel.analyse FlowTame.tame] in *. destruct T as [Ta Tb].
  pose proof (block_after a st (analyse_after a) H Ta) as A1. pose proof (after_wf _ _ A1) as H1.
  pose proof (block_after b _ (analyse_after b) H1 Tb) as A2.
  rewrite (block_reachable a st U) in *.
  destruct (Ga st g H (Ta U) U Hw Ha Hg Hi (after_covered _ _ _ A2 Hc)) as [R1 [R2 [R3 R4]]].
  split; [exact R1|]. split; [exact R2|]. split; [apply right_incl with (2 := R3); now apply after_reports|]. now apply ends_after with (analyse a st).
Qed.

(** What holds after a condition *)
Lemma cond_shown : forall calls c s r s1 st g t f st1, holds c s r s1 -> wf st -> tame_cond calls c st -> well_typed s -> allowed (frames _ st) s ->
  ghosts_ok g -> intact g s -> guards c st = (t, f, st1) -> covered (tries _ st1) g ->
  well_typed s1 /\ intact g s1 /\ match r with None => True | Some r => reached (if r then t else f) (frames _ st1) s1 end.
Proof.
  intros calls c s r s1 st g t f st1 Hh H T Hw Ha Hg Hi E Hc.
  pose proof (guards_sound c s r s1 Hh calls st g (proj1 H) T Hw Ha Hg Hi) as G. unfold guards_right in G. rewrite E in G.
  destruct (G Hc) as [R1 [R2 [_ R4]]]. split; [exact R1|]. split; [exact R2|]. destruct r as [r|]; [|exact Logic.I]. destruct R4 as [R4 [R5 _]]. now split.
Qed.

Lemma if_tame_cond : forall c a (elif : bool) b st, tame (SIf _ _ c a elif b) st -> tame_cond true c st.
Proof. intros c a elif b st T. cbn [FlowTame.tame] in T. apply T. Qed.

Lemma shown_if : forall c a (elif : bool) b s (r : bool) s1 e o s2, holds c s (Some r) s1 -> shown (if r then a else b) s1 e o s2 ->
  shown (SIf _ _ c a elif b) s e o s2.
Proof.
  intros c a elif b s r s1 e o s2 Hh G st g H T U Hw Ha Hg Hi Hc. pose proof (if_tame_cond _ _ _ _ _ T) as Tc.
  destruct (if_parts c a elif b st (analyse_after a) (analyse_after b) H T) as
    [t [f [st1 [t' [st2 [f' [st3 [EG [Kt [Kf [G3 [Ta [_ [Pa [_ [Fa [Kt' [A2 [E2 [Tb [_ [Pb [_ [Fb [Kf' [A3 [E3 [H3 [E C]]]]]]]]]]]]]]]]]]]]]]]]]]]]].
  rewrite E in *. pose proof (changed_after _ _ H3 C) as A4. pose proof (evolved_after _ _ H G3) as A1. pose proof (after_wf _ _ A1) as H1.
  pose proof (after_wf _ _ A2) as H2.
  pose proof (after_covered _ _ _ A4 Hc) as Hc3. pose proof (after_covered _ _ _ A3 Hc3) as Hc2. pose proof (after_covered _ _ _ A2 Hc2) as Hc1.
  destruct (cond_shown true c s (Some r) s1 st g t f st1 Hh H Tc Hw Ha Hg Hi EG Hc1) as [W1 [W2 W3]].
  assert (U3 : is_unreachable st3 = false).
  { rewrite (unreachable_frames st1 st3) by congruence. now rewrite (evolved_unreachable _ _ G3). }
  destruct r.
  - destruct (shown_branch a s1 e o s2 t st1 t' st2 g G H1 Kt Ta W1 W3 Hg W2 Pa Hc2) as [R1 [R2 [R3 [R4 R5]]]].
    split; [exact R1|]. split; [exact R2|]. split.
    + apply right_incl with (2 := R3). apply incl_tran with (reports _ st3); now apply after_reports.
    + destruct o; [|apply ends_after with (2 := A4); [discriminate|apply ends_after with (2 := A3); [discriminate|now apply R5]]..].
      apply merged_reached; [apply H3|exact U3|exact R1|exact Kt'|exact Kf'|left; rewrite E3, E2; now apply R4].
  - assert (Eb : (if elif then analyse b else block _ (analyse b)) (push f st2) = block _ (analyse b) (push f st2)).
    { destruct elif; [|reflexivity]. symmetry. apply block_reachable. apply W3. }
    assert (Tb' : tame_block _ (tame b) (push f st2)) by (destruct elif; [intros _; exact Tb|exact Tb]).
    rewrite Eb in Pb. rewrite <- E2 in W3.
    destruct (shown_branch b s1 e o s2 f st2 f' st3 g G H2 Kf Tb' W1 W3 Hg W2 Pb Hc3) as [R1 [R2 [R3 [R4 R5]]]].
    split; [exact R1|]. split; [exact R2|]. split.
    + apply right_incl with (2 := R3). now apply after_reports.
    + destruct o; [|apply ends_after with (2 := A4); [discriminate|now apply R5]..].
      apply merged_reached; [apply H3|exact U3|exact R1|exact Kt'|exact Kf'|right; rewrite E3; now apply R4].
Qed.

Lemma shown_if_raise : forall c a (elif : bool) b s s1, holds c s None s1 -> shown (SIf _ _ c a elif b) s [] Raise s1.
Proof.
  intros c a elif b s s1 Hh st g H T U Hw Ha Hg Hi Hc. pose proof (if_tame_cond _ _ _ _ _ T) as Tc.
  destruct (if_parts c a elif b st (analyse_after a) (analyse_after b) H T) as
    [t [f [st1 [t' [st2 [f' [st3 [EG [Kt [Kf [G3 [Ta [_ [Pa [_ [Fa [Kt' [A2 [E2 [Tb [_ [Pb [_ [Fb [Kf' [A3 [E3 [H3 [E C]]]]]]]]]]]]]]]]]]]]]]]]]]]]].
  rewrite E in *. pose proof (changed_after _ _ H3 C) as A4.
  pose proof (after_covered _ _ _ A4 Hc) as Hc3. pose proof (after_covered _ _ _ A3 Hc3) as Hc2. pose proof (after_covered _ _ _ A2 Hc2) as Hc1.
  destruct (cond_shown true c s None s1 st g t f st1 Hh H Tc Hw Ha Hg Hi EG Hc1) as [W1 [W2 _]].
  exact (conj W1 (conj W2 (conj (right_nil _) Logic.I))).
Qed.

Lemma shown_assert : forall c s (r : option bool) s1, holds c s r s1 ->
  shown (SAssert _ _ c) s [] (match r with Some true => Normal | _ => Raise end) s1.
Proof.
  intros c s r s1 Hh st g H T U Hw Ha Hg Hi Hc.
  destruct (assert_after c st H T) as [t [f [st1 [EG [Kt [G3 [E A]]]]]]]. rewrite E in *. cbn [FlowTame.tame] in T.
  destruct (cond_shown true c s r s1 st g t f st1 Hh H T Hw Ha Hg Hi EG (after_covered _ _ _ A Hc)) as [W1 [W2 W3]].
  split; [exact W1|]. split; [exact W2|]. split; [apply right_nil|].
  destruct r as [[|]|]; [|exact Logic.I..]. destruct W3 as [W3 W4]. cbn [ends]. unfold overwrite_frame. cbv zeta. rewrite W3.
  pose proof (after_sound _ _ (evolved_after _ _ H G3)) as S1.
  split.
  - rewrite (evolved_unreachable _ _ (overwrite_entries_evolved _ false st1 S1 Kt)). now rewrite (evolved_unreachable _ _ G3).
  - intros k. apply overwrite_entries_allows with (f_unreachable _ t); [exact S1|exact Kt|]. rewrite frame_eta. apply W4.
Qed.

Lemma shown_jump : forall st s, wf st -> tame_jump _ st -> allowed (frames _ st) s ->
  exists l, loop _ st = Some l /\ allowed (merge_frames_for_index (frames _ st) (l_index _ l) :: base (l_index _ l) (tl (frames _ st))) s.
Proof.
  intros st s [H1 H2] T Ha. unfold tame_jump in T. destruct (loop _ st) as [l|]; [|destruct T]. exists l. split; [reflexivity|].
  cbn [loop_ok] in H2. destruct (stack_some st H1) as [g [fs [E Hst]]]. rewrite E in *. cbn [tl length] in *.
  rewrite <- (base_cons _ g fs) by lia. intros k. now apply index_allows.
Qed.

Lemma shown_break : forall s, shown (SBreak _ _) s [] Break s.
Proof.
  intros s st g H T U Hw Ha Hg Hi Hc. split; [exact Hw|]. split; [exact Hi|]. split; [apply right_nil|].
  cbn [FlowModel.analyse FlowTame.tame ends] in *. destruct (shown_jump st s H T Ha) as [l [El Hl]].
  unfold break_stmt. rewrite El. unfold FlowModel.mark_unreachable. cbn [frames].
  destruct (stack_some st (proj1 H)) as [f [fs [E _]]]. rewrite E in *. eexists. eexists. cbn [set_frames loop frames tl] in *.
  split; [reflexivity|]. cbn [l_breaks l_index]. split; [apply in_or_app; right; left; reflexivity|exact Hl].
Qed.

Lemma shown_continue : forall s, shown (SContinue _ _) s [] Continue s.
Proof.
  intros s st g H T U Hw Ha Hg Hi Hc. split; [exact Hw|]. split; [exact Hi|]. split; [apply right_nil|].
  cbn [FlowModel.analyse FlowTame.tame ends] in *. destruct (shown_jump st s H T Ha) as [l [El Hl]].
  unfold continue_stmt. rewrite El. unfold FlowModel.mark_unreachable. cbn [frames].
  destruct (stack_some st (proj1 H)) as [f [fs [E _]]]. rewrite E in *. eexists. eexists. cbn [set_frames loop frames tl] in *.
  split; [reflexivity|]. cbn [l_continues l_index]. split; [apply in_or_app; right; left; reflexivity|exact Hl].
Qed.

(** A pass through the body of a loop, and the end of a loop; [final] is the state after the loop *)
Definition passed (body : stmt) (st1 inside final : state) : Prop :=
  forall s ev o s' g, shown body s ev o s' -> is_unreachable inside = false -> well_typed s -> allowed (frames _ inside) s -> ghosts_ok g -> intact g s ->
  covered (tries _ final) g ->
  well_typed s' /\ intact g s' /\ right (reports _ final) ev /\
  (o = Normal \/ o = Continue -> allowed (frames _ st1) s') /\ (o = Break -> ends final Normal s').

Definition left (orelse : stmt) (f : frame) (st1 final : state) : Prop :=
  forall s ev o s' g, shown orelse s ev o s' -> well_typed s -> reached f (frames _ st1) s -> ghosts_ok g -> intact g s ->
  covered (tries _ final) g ->
  well_typed s' /\ intact g s' /\ right (reports _ final) ev /\ ends final o s'.

Lemma loop_sound : forall body orelse (conditional : bool) f start st1 inside, wf st1 -> is_unreachable st1 = false -> entries_ok (f_entries _ f) ->
  after (enter_loop start st1) inside -> tame_block _ (tame body) inside ->
  (let '(a, l, st) := leave_loop (loop _ st1) (block _ (analyse body) inside) in
   reachable_stable _ _ declared has tracked (frames _ st) a /\ Forall (stable _ _ declared has tracked (frames _ st)) (l_continues _ l) /\
   tame_block _ (tame orelse) (push (loop_exit conditional f a l st) st)) ->
  exists a l st3,
    leave_loop (loop _ st1) (block _ (analyse body) inside) = (a, l, st3) /\
    after st1 (finish_loop (block _ (analyse orelse)) (loop_exit conditional f a l st3) l st3) /\
    passed body st1 inside (finish_loop (block _ (analyse orelse)) (loop_exit conditional f a l st3) l st3) /\
    left orelse f st1 (finish_loop (block _ (analyse orelse)) (loop_exit conditional f a l st3) l st3).
Proof.
  intros body orelse conditional f start st1 inside H U Hf Hi T T'.
  destruct (loop_parts body orelse conditional f start st1 inside (analyse_after body) (analyse_after orelse) H Hf Hi T T') as
    [a [l [st3 [f' [st4 [Bb [L1 [L2 [L3 [L4 [L5 [L6 [L7 [L8 [L9 [L10 [T1 [T2 [T3 [Hp [Bo [P1 [P2 [P3 [P4 [P5 [F1 F2]]]]]]]]]]]]]]]]]]]]]]]]]]].
  exists a, l, st3. split; [exact L1|]. rewrite F2 in *.
  set (final := merge_conditional _ _ _) in *.
  assert (A3 : after st3 final) by now apply after_trans with st4.
  assert (K4 : known (frames _ st4)) by (rewrite P5, L8; apply stack_known, H).
  assert (E4 : frames _ st4 = frames _ st1) by congruence.
  assert (U4 : is_unreachable st4 = false) by (rewrite (unreachable_frames st1 st4); [exact U|exact E4]).
  assert (Hfold : entries_ok (f_entries _ (fold_left (fun after b => merge_or (frames _ st4) after b false) (l_breaks _ l) f')))
    by (apply fold_or_ok; [exact P3|apply L5]).
  split; [now apply after_trans with st3|]. split.
  - intros s ev o s' g G Ui Hw Ha Hg Hin Hc. pose proof (after_covered _ _ _ A3 Hc) as Hc3. rewrite L9 in Hc3.
    rewrite (block_reachable body inside Ui) in *.
    destruct (G inside g (after_wf _ _ Hi) (T Ui) Ui Hw Ha Hg Hin Hc3) as [R1 [R2 [R3 R4]]].
    split; [exact R1|]. split; [exact R2|]. split; [|split].
    + rewrite <- L10 in R3. apply right_incl with (2 := R3). now apply after_reports.
    + intros Ho. rewrite L8 in T1, T2. exact (back_allowed st1 _ a l o s' L2 L4 L6 T1 T2 R1 Ho R4).
    + intros ->. apply merged_reached; [now apply after_sound in P4|exact U4|exact R1|exact Hfold|exact empty_ok|left].
      rewrite E4 in *. exact (break_reached st1 _ a l f' s' L2 L4 L6 L5 P3 K4 R1 R4).
  - intros s ev o s' g G Hw Hr Hg Hin Hc. pose proof (after_covered _ _ _ F1 Hc) as Hc4.
    rewrite <- L8 in Hr. pose proof (exit_reached conditional f a l st3 s (eq_ind _ known K4 _ P5) Hw Hf L3 L5 Hr) as Hx.
    destruct (shown_branch orelse s ev o s' _ st3 f' st4 g G (after_wf _ _ L7) (loop_exit_ok conditional f a l st3 Hf L3 L5) T3 Hw Hx Hg Hin P1 Hc4)
      as [R1 [R2 [R3 [R4 R5]]]].
    split; [exact R1|]. split; [exact R2|]. split; [apply right_incl with (2 := R3); now apply after_reports|].
    destruct o; [|apply ends_after with (2 := F1); [discriminate|now apply R5]..].
    apply merged_reached; [now apply after_sound in P4|exact U4|exact R1|exact Hfold|exact empty_ok|left].
    apply fold_or_reached; [exact K4|exact R1|exact P3|apply L5|left]. rewrite P5. now apply R4.
Qed.

(** The parts of a [while] loop *)
Definition while_ok (c : cond) (body orelse : stmt) (st : state) : Prop :=
  exists t f st1, guards c st = (t, f, st1) /\ frames _ st1 = frames _ st /\ tame_cond false c st /\
    after st1 (analyse (SWhile _ _ c body orelse) st) /\
    passed body st1 (enter_loop t st1) (analyse (SWhile _ _ c body orelse) st) /\ left orelse f st1 (analyse (SWhile _ _ c body orelse) st).

Lemma while_sound : forall c body orelse st, wf st -> is_unreachable st = false -> tame (SWhile _ _ c body orelse) st -> while_ok c body orelse st.
Proof.
  intros c body orelse st H U T.
  destruct (while_parts c body orelse st H T) as [t [f [st1 [EG [G1 [G2 [G3 [G4 [Tc [W1 [W2 W3]]]]]]]]]]].
  assert (U1 : is_unreachable st1 = false) by now rewrite (evolved_unreachable _ _ G3).
  destruct (loop_sound body orelse true f t st1 _ (after_wf _ _ (evolved_after _ _ H G3)) U1 G2 W1 W2 W3) as [a [l [st3 [L1 [L2 [L3 L4]]]]]].
  exists t, f, st1. cbn [FlowModel.analyse]. rewrite EG, L1.
  exact (conj eq_refl (conj G4 (conj Tc (conj L2 (conj L3 L4))))).
Qed.

Definition for_ok (k : key) (t : type) (body orelse : stmt) (st : state) : Prop :=
  tame_assign k t (enter_loop new_conditional st) /\
  after (assign k t (enter_loop new_conditional st)) (assign k t (enter_loop new_conditional st)) /\
  is_unreachable (assign k t (enter_loop new_conditional st)) = false /\
  Forall2 wider (tries _ (assign k t (enter_loop new_conditional st))) (tries _ (analyse (SFor _ _ k t body orelse) st)) /\
  passed body st (assign k t (enter_loop new_conditional st)) (analyse (SFor _ _ k t body orelse) st) /\
  left orelse new_conditional st (analyse (SFor _ _ k t body orelse) st).

Lemma for_sound : forall k t body orelse st, wf st -> is_unreachable st = false -> tame (SFor _ _ k t body orelse) st -> for_ok k t body orelse st.
Proof.
  intros k t body orelse st H U T. cbn [FlowTame.tame] in T. destruct T as [T1 [T2 [T3 [T4 T5]]]].
  destruct (for_assign k t new_conditional st H empty_ok T1 T2 T3) as [Ta A].
  pose proof (after_wf _ _ A) as Hi.
  assert (Ui : is_unreachable (assign k t (enter_loop new_conditional st)) = false).
  { rewrite (evolved_unreachable (enter_loop new_conditional st)); [reflexivity|]. apply tame_assign_evolved; [|exact Ta].
    apply (enter_loop_wf new_conditional st H empty_ok). }
  destruct (loop_sound body orelse false new_conditional new_conditional st _ H U empty_ok A T4 T5) as [a [l [st3 [L1 [L2 [L3 L4]]]]]].
  unfold for_ok. cbn [FlowModel.analyse]. rewrite L1.
  split; [exact Ta|]. split; [now apply after_refl|]. split; [exact Ui|]. split; [|split; [exact L3|exact L4]].
  destruct (loop_parts body orelse false new_conditional new_conditional st _ (analyse_after body) (analyse_after orelse) H empty_ok A T4 T5) as
    [a' [l' [st3' [f' [st4 [Bb [L1' [_ [_ [_ [_ [_ [_ [_ [L9 [_ [_ [_ [_ [_ [_ [_ [_ [_ [P4 [_ [F1 _]]]]]]]]]]]]]]]]]]]]]]]]]]].
  rewrite L1 in L1'. injection L1' as <- <- <-.
  apply forall2_wider_trans with (tries _ st3); [rewrite L9; now apply after_tries|]. now apply after_tries, (after_trans _ _ _ P4).
Qed.

Lemma shown_while_raise : forall c body orelse s s1, holds c s None s1 -> shown (SWhile _ _ c body orelse) s [] Raise s1.
Proof.
  intros c body orelse s s1 Hh st g H T U Hw Ha Hg Hi Hc.
  destruct (while_sound c body orelse st H U T) as [t [f [st1 [EG [E1 [Tc [A [P L]]]]]]]].
  destruct (cond_shown false c s None s1 st g t f st1 Hh H Tc Hw Ha Hg Hi EG (after_covered _ _ _ A Hc)) as [W1 [W2 _]].
  exact (conj W1 (conj W2 (conj (right_nil _) Logic.I))).
Qed.

Lemma shown_while_end : forall c body orelse s s1 e o s2, holds c s (Some false) s1 -> shown orelse s1 e o s2 -> shown (SWhile _ _ c body orelse) s e o s2.
Proof.
  intros c body orelse s s1 e o s2 Hh G st g H T U Hw Ha Hg Hi Hc.
  destruct (while_sound c body orelse st H U T) as [t [f [st1 [EG [E1 [Tc [A [P L]]]]]]]].
  destruct (cond_shown false c s (Some false) s1 st g t f st1 Hh H Tc Hw Ha Hg Hi EG (after_covered _ _ _ A Hc)) as [W1 [W2 W3]].
  exact (L s1 e o s2 g G W1 W3 Hg W2 Hc).
Qed.

Lemma while_pass : forall c body orelse s s1 e o s2 st g, holds c s (Some true) s1 -> shown body s1 e o s2 -> wf st -> tame (SWhile _ _ c body orelse) st ->
  is_unreachable st = false -> well_typed s -> allowed (frames _ st) s -> ghosts_ok g -> intact g s ->
  covered (tries _ (analyse (SWhile _ _ c body orelse) st)) g ->
  well_typed s2 /\ intact g s2 /\ right (reports _ (analyse (SWhile _ _ c body orelse) st)) e /\
  (o = Normal \/ o = Continue -> allowed (frames _ st) s2) /\ (o = Break -> ends (analyse (SWhile _ _ c body orelse) st) Normal s2).
Proof.
  intros c body orelse s s1 e o s2 st g Hh G H T U Hw Ha Hg Hi Hc.
  destruct (while_sound c body orelse st H U T) as [t [f [st1 [EG [E1 [Tc [A [P L]]]]]]]].
  destruct (cond_shown false c s (Some true) s1 st g t f st1 Hh H Tc Hw Ha Hg Hi EG (after_covered _ _ _ A Hc)) as [W1 [W2 [W3 W4]]].
  rewrite <- E1. exact (P s1 e o s2 g G W3 W1 W4 Hg W2 Hc).
Qed.

Lemma shown_while_again : forall c body orelse s s1 e1 o1 s2 e2 o2 s3, holds c s (Some true) s1 -> shown body s1 e1 o1 s2 -> o1 = Normal \/ o1 = Continue ->
  shown (SWhile _ _ c body orelse) s2 e2 o2 s3 -> shown (SWhile _ _ c body orelse) s (e1 ++ e2) o2 s3.
Proof.
  intros c body orelse s s1 e1 o1 s2 e2 o2 s3 Hh G Ho G2 st g H T U Hw Ha Hg Hi Hc.
  destruct (while_pass c body orelse s s1 e1 o1 s2 st g Hh G H T U Hw Ha Hg Hi Hc) as [R1 [R2 [R3 [R4 _]]]].
  destruct (G2 st g H T U R1 (R4 Ho) Hg R2 Hc) as [Q1 [Q2 [Q3 Q4]]].
  split; [exact Q1|]. split; [exact Q2|]. split; [now apply right_app|exact Q4].
Qed.

Lemma shown_while_break : forall c body orelse s s1 e s2, holds c s (Some true) s1 -> shown body s1 e Break s2 -> shown (SWhile _ _ c body orelse) s e Normal s2.
Proof.
  intros c body orelse s s1 e s2 Hh G st g H T U Hw Ha Hg Hi Hc.
  destruct (while_pass c body orelse s s1 e Break s2 st g Hh G H T U Hw Ha Hg Hi Hc) as [R1 [R2 [R3 [_ R5]]]].
  exact (conj R1 (conj R2 (conj R3 (R5 eq_refl)))).
Qed.

Lemma ends_out : forall o st s, o = Return \/ o = Raise -> ends st o s.
Proof. intros o st s [-> | ->]; exact Logic.I. Qed.

Lemma shown_while_out : forall c body orelse s s1 e o s2, holds c s (Some true) s1 -> shown body s1 e o s2 -> o = Return \/ o = Raise ->
  shown (SWhile _ _ c body orelse) s e o s2.
Proof.
  intros c body orelse s s1 e o s2 Hh G Ho st g H T U Hw Ha Hg Hi Hc.
  destruct (while_pass c body orelse s s1 e o s2 st g Hh G H T U Hw Ha Hg Hi Hc) as [R1 [R2 [R3 _]]].
  exact (conj R1 (conj R2 (conj R3 (ends_out _ _ _ Ho)))).
Qed.

Lemma shown_for_end : forall k t body orelse s e o s2, shown orelse s e o s2 -> shown (SFor _ _ k t body orelse) s e o s2.
Proof.
  intros k t body orelse s e o s2 G st g H T U Hw Ha Hg Hi Hc.
  destruct (for_sound k t body orelse st H U T) as [Ta [A [Ui [Wt [P L]]]]].
  apply (L s e o s2 g G Hw); [|exact Hg|exact Hi|exact Hc]. split; [reflexivity|]. intros k'. apply allows_nothing, Ha.
Qed.

Lemma for_pass : forall k t body orelse s v s1 e o s2 st g, has t v -> updated s k (Some v) s1 -> shown body s1 e o s2 -> wf st ->
  tame (SFor _ _ k t body orelse) st ->
  is_unreachable st = false -> well_typed s -> allowed (frames _ st) s -> ghosts_ok g -> intact g s ->
  covered (tries _ (analyse (SFor _ _ k t body orelse) st)) g ->
  well_typed s2 /\ intact g s2 /\ right (reports _ (analyse (SFor _ _ k t body orelse) st)) e /\
  (o = Normal \/ o = Continue -> allowed (frames _ st) s2) /\ (o = Break -> ends (analyse (SFor _ _ k t body orelse) st) Normal s2).
Proof.
  intros k t body orelse s v s1 e o s2 st g Hv Hu G H T U Hw Ha Hg Hi Hc.
  destruct (for_sound k t body orelse st H U T) as [Ta [A [Ui [Wt [P L]]]]].
  pose proof (proj1 (enter_loop_wf new_conditional st H empty_ok)) as He.
  assert (Hal : allowed (frames _ (enter_loop new_conditional st)) s) by (intros k'; apply allows_nothing, Ha).
  apply (P s1 e o s2 g G Ui); [apply Hu| |exact Hg| |exact Hc].
  - exact (assign_sound k t _ s v s1 He Ta Hal Hv Hu).
  - exact (assign_intact k t _ s v s1 g He Ta Hv Hu Hg (covered_wider _ _ _ Wt Hc) Hi).
Qed.

Lemma shown_for_again : forall k t body orelse s v s1 e1 o1 s2 e2 o2 s3, has t v -> updated s k (Some v) s1 -> shown body s1 e1 o1 s2 ->
  o1 = Normal \/ o1 = Continue -> shown (SFor _ _ k t body orelse) s2 e2 o2 s3 -> shown (SFor _ _ k t body orelse) s (e1 ++ e2) o2 s3.
Proof.
  intros k t body orelse s v s1 e1 o1 s2 e2 o2 s3 Hv Hu G Ho G2 st g H T U Hw Ha Hg Hi Hc.
  destruct (for_pass k t body orelse s v s1 e1 o1 s2 st g Hv Hu G H T U Hw Ha Hg Hi Hc) as [R1 [R2 [R3 [R4 _]]]].
  destruct (G2 st g H T U R1 (R4 Ho) Hg R2 Hc) as [Q1 [Q2 [Q3 Q4]]].
  split; [exact Q1|]. split; [exact Q2|]. split; [now apply right_app|exact Q4].
Qed.

Lemma shown_for_break : forall k t body orelse s v s1 e s2, has t v -> updated s k (Some v) s1 -> shown body s1 e Break s2 ->
  shown (SFor _ _ k t body orelse) s e Normal s2.
Proof.
  intros k t body orelse s v s1 e s2 Hv Hu G st g H T U Hw Ha Hg Hi Hc.
  destruct (for_pass k t body orelse s v s1 e Break s2 st g Hv Hu G H T U Hw Ha Hg Hi Hc) as [R1 [R2 [R3 [_ R5]]]].
  exact (conj R1 (conj R2 (conj R3 (R5 eq_refl)))).
Qed.

Lemma shown_for_out : forall k t body orelse s v s1 e o s2, has t v -> updated s k (Some v) s1 -> shown body s1 e o s2 -> o = Return \/ o = Raise ->
  shown (SFor _ _ k t body orelse) s e o s2.
Proof.
  intros k t body orelse s v s1 e o s2 Hv Hu G Ho st g H T U Hw Ha Hg Hi Hc.
  destruct (for_pass k t body orelse s v s1 e o s2 st g Hv Hu G H T U Hw Ha Hg Hi Hc) as [R1 [R2 [R3 _]]].
  exact (conj R1 (conj R2 (conj R3 (ends_out _ _ _ Ho)))).
Qed.

(** ** [with] *)
Lemma shown_with_body : forall body s e o s1 st g, shown body s e o s1 -> wf st -> tame (SWith _ _ body) st -> is_unreachable st = false ->
  well_typed s -> allowed (frames _ st) s -> ghosts_ok g -> intact g s -> covered (tries _ (analyse (SWith _ _ body) st)) g ->
  well_typed s1 /\ intact g s1 /\ right (reports _ (analyse (SWith _ _ body) st)) e /\ ends (analyse (SWith _ _ body) st) Normal s1 /\
  ends (analyse (SWith _ _ body) st) o s1.
Proof.
  intros body s e o s1 st g G H T U Hw Ha Hg Hi Hc.
  destruct (with_parts body st (analyse_after body) H T) as
    [tf [caught [st2 [Tb [Bb [P3 [P4 [P5 [P6 [P7 [P8 [P9 [P10 [Tc [E C]]]]]]]]]]]]]]].
  rewrite E in *. pose proof (after_wf _ _ P7) as H2. pose proof (evolved_after _ _ H2 C) as A.
  destruct (shown_try_body body s e o s1 st g tf caught st2 G H Tb Bb P3 P5 P6 P7 P8 P9 P10 Tc Hw Ha Hg Hi (after_covered _ _ _ A Hc))
    as [R1 [R2 [R3 [R4 [R5 R6]]]]].
  assert (N : ends (overwrite_entries caught false st2) Normal s1).
  { cbn [ends]. split.
    - rewrite (evolved_unreachable _ _ C), (unreachable_frames st st2 P8). exact U.
    - intros k. apply overwrite_entries_allows with false; [apply H2|apply P5|]. rewrite P8. apply R6. }
  split; [exact R1|]. split; [exact R2|]. split; [apply right_incl with (2 := R3); now apply after_reports|]. split; [exact N|].
  destruct o; [exact N|apply ends_after with (2 := A); [discriminate|now apply R5]..].
Qed.

Lemma shown_with : forall body s e o s1, shown body s e o s1 -> shown (SWith _ _ body) s e o s1.
Proof.
  intros body s e o s1 G st g H T U Hw Ha Hg Hi Hc.
  destruct (shown_with_body body s e o s1 st g G H T U Hw Ha Hg Hi Hc) as [R1 [R2 [R3 [_ R5]]]]. exact (conj R1 (conj R2 (conj R3 R5))).
Qed.

Lemma shown_with_suppressed : forall body s e s1, shown body s e Raise s1 -> shown (SWith _ _ body) s e Normal s1.
Proof.
  intros body s e s1 G st g H T U Hw Ha Hg Hi Hc.
  destruct (shown_with_body body s e Raise s1 st g G H T U Hw Ha Hg Hi Hc) as [R1 [R2 [R3 [R4 _]]]]. exact (conj R1 (conj R2 (conj R3 R4))).
Qed.

(** ** [try] *)
Lemma fine_all : forall hs, Forall fine hs.
Proof. intros hs. rewrite Forall_forall. intros x _. apply analyse_after. Qed.

Lemma fine_given : forall o, given fine o.
Proof. intros [s|]; [apply analyse_after|exact Logic.I]. Qed.

Definition try_context (body : stmt) (hs : list stmt) (orelse : option stmt) (st : state) (s : store) (g : ghost) : Prop :=
  wf st /\ tame (STry _ _ body hs orelse (SSkip _ _)) st /\ is_unreachable st = false /\ well_typed s /\ allowed (frames _ st) s /\ ghosts_ok g /\
  intact g s /\ covered (tries _ (analyse (STry _ _ body hs orelse (SSkip _ _)) st)) g.

(** After the [try] block: [st2] is the state then *)
Lemma try_body : forall body hs orelse st s g e o s1, try_context body hs orelse st s g -> shown body s e o s1 ->
  exists tf caught st2 ae st3 ok st4,
    wf st2 /\ wf st3 /\ wf st4 /\ after st2 st3 /\ after st3 st4 /\ after st4 (merge_conditional ok ae st4) /\
    frames _ st2 = frames _ st /\ frames _ st3 = frames _ st /\ frames _ st4 = frames _ st /\ is_unreachable st4 = false /\
    entries_ok (f_entries _ tf) /\ entries_ok (f_entries _ ae) /\ entries_ok (f_entries _ ok) /\ try_ok caught /\
    fst (fold_left (tame_handle caught) hs (True, st2)) /\
    fold_left (handle caught) hs (new_unreachable, st2) = (ae, st3) /\
    tame_else tf orelse st3 /\ after_ok tf orelse st3 = (ok, st4) /\
    analyse (STry _ _ body hs orelse (SSkip _ _)) st = merge_conditional ok ae st4 /\
    covered (tries _ st4) g /\ covered (tries _ st3) g /\
    well_typed s1 /\ intact g s1 /\ right (reports _ st2) e /\ (o = Normal -> reached tf (frames _ st) s1) /\ (o <> Normal -> ends st2 o s1) /\
    allowed (Frame _ caught false :: frames _ st) s1.
Proof.
  intros body hs orelse st s g e o s1 [H [T [U [Hw [Ha [Hg [Hi Hc]]]]]]] G.
  destruct (try_parts body hs orelse (SSkip _ _) st (analyse_after body) (fine_all hs) (fine_given orelse) H T) as
    [tf [caught [st2 [ae [st3 [ok [st4 [Tb [Bb [P3 [P4 [P5 [P6 [P7 [P8 [P9 [P10 [Tc [Th [Ea [I1 [I2 [I3 [Te [Ee [E1 [E2 [E3 [E C]]]]]]]]]]]]]]]]]]]]]]]]]]]]].
  rewrite E in Hc. pose proof (after_wf _ _ P7) as H2. pose proof (after_wf _ _ I2) as H3. pose proof (after_wf _ _ E2) as H4.
  pose proof (changed_after _ _ H4 C) as A4. pose proof (after_covered _ _ _ A4 Hc) as C4. pose proof (after_covered _ _ _ E2 C4) as C3.
  pose proof (after_covered _ _ _ I2 C3) as C2.
  pose proof (shown_try_body body s e o s1 st g tf caught st2 G H Tb Bb P3 P5 P6 P7 P8 P9 P10 Tc Hw Ha Hg Hi C2) as R.
  exists tf, caught, st2, ae, st3, ok, st4.
  split; [exact H2|]. split; [exact H3|]. split; [exact H4|]. split; [exact I2|]. split; [exact E2|]. split; [exact A4|]. split; [exact P8|].
  split; [congruence|]. split; [congruence|]. split; [rewrite (unreachable_frames st st4) by congruence; exact U|]. split; [exact P4|]. split; [exact I1|].
  split; [exact E1|]. split; [exact P5|]. split; [exact Th|]. split; [exact Ea|]. split; [exact Te|]. split; [exact Ee|]. split; [exact E|].
  split; [exact C4|]. split; [exact C3|]. exact R.
Qed.

Lemma shown_try_ok : forall body hs s e s1, shown body s e Normal s1 -> shown_try body hs None s e Normal s1.
Proof.
  intros body hs s e s1 G st g H T U Hw Ha Hg Hi Hc.
  destruct (try_body body hs None st s g e Normal s1 (conj H (conj T (conj U (conj Hw (conj Ha (conj Hg (conj Hi Hc))))))) G) as
    [tf [caught [st2 [ae [st3 [ok [st4 [H2 [H3 [H4 [A2 [A3 [A4 [F2 [F3 [F4 [U4 [K1 [K2 [K3 [K4 [Th [Eh [Te [Ee [E [C4 [C3 [R1 [R2 [R3 [R4 [R5 R6]]]]]]]]]]]]]]]]]]]]]]]]]]]]]]]]].
  rewrite E in *. split; [exact R1|]. split; [exact R2|]. split.
  - apply right_incl with (2 := R3). apply incl_tran with (reports _ st3); [now apply after_reports|]. apply incl_tran with (reports _ st4); now apply after_reports.
  - apply merged_reached; [apply H4|exact U4|exact R1|exact K3|exact K2|left]. rewrite F4.
    cbn [after_ok] in Ee. injection Ee as <- <-. rewrite F3. apply or_reached; [apply stack_known, H|exact R1|exact K1|exact empty_ok|left; now apply R4].
Qed.

Lemma shown_try_out : forall body hs orelse s e o s1, o <> Normal -> shown body s e o s1 -> shown_try body hs orelse s e o s1.
Proof.
  intros body hs orelse s e o s1 Ho G st g H T U Hw Ha Hg Hi Hc.
  destruct (try_body body hs orelse st s g e o s1 (conj H (conj T (conj U (conj Hw (conj Ha (conj Hg (conj Hi Hc))))))) G) as
    [tf [caught [st2 [ae [st3 [ok [st4 [H2 [H3 [H4 [A2 [A3 [A4 [F2 [F3 [F4 [U4 [K1 [K2 [K3 [K4 [Th [Eh [Te [Ee [E [C4 [C3 [R1 [R2 [R3 [R4 [R5 R6]]]]]]]]]]]]]]]]]]]]]]]]]]]]]]]]].
  rewrite E in *. assert (A : after st2 (merge_conditional ok ae st4)) by (apply after_trans with st3; [exact A2|now apply after_trans with st4]).
  split; [exact R1|]. split; [exact R2|]. split; [apply right_incl with (2 := R3); now apply after_reports|].
  apply ends_after with (2 := A); [exact Ho|now apply R5].
Qed.

Lemma shown_try_caught : forall body hs h orelse s e1 s1 e2 o s2, shown body s e1 Raise s1 -> In h hs -> shown h s1 e2 o s2 ->
  shown_try body hs orelse s (e1 ++ e2) o s2.
Proof.
  intros body hs h orelse s e1 s1 e2 o s2 G Hin G2 st g H T U Hw Ha Hg Hi Hc.
  destruct (try_body body hs orelse st s g e1 Raise s1 (conj H (conj T (conj U (conj Hw (conj Ha (conj Hg (conj Hi Hc))))))) G) as
    [tf [caught [st2 [ae [st3 [ok [st4 [H2 [H3 [H4 [A2 [A3 [A4 [F2 [F3 [F4 [U4 [K1 [K2 [K3 [K4 [Th [Eh [Te [Ee [E [C4 [C3 [R1 [R2 [R3 [R4 [R5 R6]]]]]]]]]]]]]]]]]]]]]]]]]]]]]]]]].
  rewrite E in *. assert (A : after st3 (merge_conditional ok ae st4)) by now apply after_trans with st4.
  rewrite <- F2 in R6. assert (Hcov : covered (tries _ (snd (fold_left (handle caught) hs (new_unreachable, st2)))) g) by (rewrite Eh; exact C3).
  destruct (handlers_sound caught h s1 e2 o s2 g G2 (proj1 K4) R1 Hg R2 hs new_unreachable st2 True Hin empty_ok H2 Th R6 Hcov)
    as [Q1 [Q2 [Q3 [Q4 Q5]]]].
  rewrite Eh in Q3, Q4, Q5. cbn [fst snd] in Q3, Q4, Q5.
  split; [exact Q1|]. split; [exact Q2|]. split.
  - apply right_app.
    + apply right_incl with (2 := R3). apply incl_tran with (reports _ st3); now apply after_reports.
    + apply right_incl with (2 := Q3). now apply after_reports.
  - destruct o; [|apply ends_after with (2 := A); [discriminate|now apply Q5]..].
    apply merged_reached; [apply H4|exact U4|exact Q1|exact K3|exact K2|right]. rewrite F4, <- F2. now apply Q4.
Qed.

Lemma allowed_top : forall f fs1 fs2 s, (forall k, allows fs1 k (s k) -> allows fs2 k (s k)) -> allowed (f :: fs1) s -> allowed (f :: fs2) s.
Proof.
  intros f fs1 fs2 s Hk H k. specialize (H k). rewrite allows_cons in *. destruct (find_entry k (f_entries _ f)) as [e|]; [|now apply Hk].
  destruct H as [H1 [H2|H2]]; (split; [exact H1|]); [now left|right; now apply Hk].
Qed.

Lemma shown_try_else : forall body hs b s e1 s1 e2 o s2, shown body s e1 Normal s1 -> shown b s1 e2 o s2 -> shown_try body hs (Some b) s (e1 ++ e2) o s2.
Proof.
  intros body hs b s e1 s1 e2 o s2 G G2 st g H T U Hw Ha Hg Hi Hc.
  destruct (try_body body hs (Some b) st s g e1 Normal s1 (conj H (conj T (conj U (conj Hw (conj Ha (conj Hg (conj Hi Hc))))))) G) as
    [tf [caught [st2 [ae [st3 [ok [st4 [H2 [H3 [H4 [A2 [A3 [A4 [F2 [F3 [F4 [U4 [K1 [K2 [K3 [K4 [Th [Eh [Te [Ee [E [C4 [C3 [R1 [R2 [R3 [R4 [R5 R6]]]]]]]]]]]]]]]]]]]]]]]]]]]]]]]]].
  rewrite E in *. destruct (R4 eq_refl) as [Ut At]. cbn [tame_else after_ok] in Te, Ee. rewrite Ut in Te, Ee. destruct Te as [Ts Te]. cbv zeta in Ee.
  pose proof (push_wf tf st3 H3 K1) as Hp.
  destruct (pop (block _ (analyse b) (push new_conditional (push tf st3)))) as [f' st5] eqn:Pb.
  pose proof (block_after b _ (analyse_after b) (push_wf new_conditional _ Hp empty_ok) Te) as B.
  destruct (pop_after new_conditional _ _ Hp B) as [f'' [P1 [P2 [P3 [P4 P5]]]]]. rewrite Pb in P1, P4, P5. injection P1 as <-. cbn [snd] in P4, P5.
  destruct (pop_after tf st3 st5 H3 P4) as [tf' [Q1 [Q2 [Q3 [Q4 Q5]]]]]. rewrite Q1 in Ee. injection Ee as <- <-.
  destruct (pop_same _ _ _ Q1) as [S1 [S2 S3]].
  assert (Hr : reached new_conditional (frames _ (push tf st3)) s1).
  { split; [reflexivity|]. intros k. apply allows_nothing. change (frames _ (push tf st3)) with (tf :: frames _ st3). rewrite F3. apply At. }
  assert (C5 : covered (tries _ st5) g) by (rewrite <- S1; exact C4).
  destruct (shown_branch b s1 e2 o s2 new_conditional (push tf st3) f' st5 g G2 Hp empty_ok Te R1 Hr Hg R2 Pb C5) as [W1 [W2 [W3 [W4 W5]]]].
  split; [exact W1|]. split; [exact W2|]. split.
  - apply right_app.
    + apply right_incl with (2 := R3). apply incl_tran with (reports _ st3); [now apply after_reports|].
      apply incl_tran with (reports _ (snd (pop st5))); now apply after_reports.
    + rewrite <- S3 in W3. apply right_incl with (2 := W3). now apply after_reports.
  - destruct o; [|apply ends_after with (2 := A4); [discriminate|apply ends_down with st5;
        [discriminate|exact H4|exact S2|rewrite Q2; cbn [tl]; now rewrite Q5|apply W5; discriminate]]..].
    apply merged_reached; [apply H4|exact U4|exact W1|exact K3|exact K2|left].
    destruct (W4 eq_refl) as [V1 V2]. rewrite F4, <- F3.
    assert (Em : merge_or (frames _ st5) new_unreachable f' false = f') by reflexivity. rewrite Em. split; [exact V1|].
    apply allowed_top with (tf :: frames _ st3); [|exact V2]. intros k Hk.
    apply stable_allows with tf; [now apply Ts|now apply well_typed_typed|exact Hk].
Qed.

Lemma shown_try_finally : forall body hs orelse finally s e1 o1 s1 e2 o2 s2, shown_try body hs orelse s e1 o1 s1 -> runs finally s1 e2 o2 s2 ->
  shown (STry _ _ body hs orelse finally) s (e1 ++ e2) (after_finally o1 o2) s2.
Proof.
  intros body hs orelse finally s e1 o1 s1 e2 o2 s2 G Hr st g H T U Hw Ha Hg Hi Hc.
  assert (Ef : finally = SSkip _ _) by (cbn [FlowTame.tame] in T; apply T). subst finally.
  destruct (G st g H T U Hw Ha Hg Hi Hc) as [R1 [R2 [R3 R4]]].
  assert (E : (e2 = [] /\ s2 = s1) /\ (o2 = Normal \/ o2 = Raise)).
  { inversion Hr; subst; (split; [now split|]); [now right|now left]. }
  destruct E as [[-> ->] Ho]. rewrite app_nil_r. split; [exact R1|]. split; [exact R2|]. split; [exact R3|].
  destruct Ho as [-> | ->]; [exact R4|exact Logic.I].
Qed.

Theorem runs_shown : forall a s ev o s', runs a s ev o s' -> shown a s ev o s'.
Proof.
  apply (runs_minimality type test value truthiness declared has passes shown shown_try).
  - intros a s. apply shown_raise.
  - intros s st g H T U Hw Ha Hg Hi Hc. exact (conj Hw (conj Hi (conj (right_nil _) (conj U Ha)))).
  - intros l k v s E. now apply shown_reveal.
  - intros k e v s s' Hv Hu. now apply shown_assign with v.
  - intros k s s' _ Hu. now apply shown_del.
  - intros a b s e1 s1 e2 o s2 _ Ga _ Gb. now apply shown_seq with s1.
  - intros a b s e o s1 Ho _ Ga. now apply shown_seq_out.
  - intros c a elif b s r s1 e o s2 Hh _ G. now apply shown_if with r s1.
  - intros c a elif b s s1 Hh. now apply shown_if_raise.
  - intros c body orelse s s1 Hh. now apply shown_while_raise.
  - intros c body orelse s s1 e o s2 Hh _ G. now apply shown_while_end with s1.
  - intros c body orelse s s1 e1 o1 s2 e2 o2 s3 Hh _ G Ho _ G2. now apply shown_while_again with s1 o1 s2.
  - intros c body orelse s s1 e s2 Hh _ G. now apply shown_while_break with s1.
  - intros c body orelse s s1 e o s2 Hh _ G Ho. now apply shown_while_out with s1.
  - intros k t body orelse s e o s2 _ G. now apply shown_for_end.
  - intros k t body orelse s v s1 e1 o1 s2 e2 o2 s3 Hv Hu _ G Ho _ G2. now apply shown_for_again with v s1 o1 s2.
  - intros k t body orelse s v s1 e s2 Hv Hu _ G. now apply shown_for_break with v s1.
  - intros k t body orelse s v s1 e o s2 Hv Hu _ G Ho. now apply shown_for_out with v s1.
  - intros s. apply shown_break.
  - intros s. apply shown_continue.
  - intros s st g H T U Hw Ha Hg Hi Hc. exact (conj Hw (conj Hi (conj (right_nil _) Logic.I))).
  - intros c s r s1 Hh. now apply shown_assert.
  - intros body hs orelse finally s e1 o1 s1 e2 o2 s2 _ G Hr _. now apply shown_try_finally with s1.
  - intros body s e o s1 _ G. now apply shown_with.
  - intros body s e s1 _ G. now apply shown_with_suppressed.
  - intros body hs s e s1 _ G. now apply shown_try_ok.
  - intros body hs b s e1 s1 e2 o s2 _ G _ G2. now apply shown_try_else with s1.
  - intros body hs orelse s e o s1 Ho _ G. now apply shown_try_out.
  - intros body hs h orelse s e1 s1 e2 o s2 _ G Hin _ G2. now apply shown_try_caught with h s1.
Qed.

(** ** Functions *)
Lemma start_wf : NoDup params -> (forall n, In n params -> tracked (Name n)) -> wf (start type params).
Proof.
  intros Hn Ht. split; [split|exact Logic.I]; cbn [start frames tries].
  - assert (Ek : keys (map (fun n => Entry type (Name n) (Declaration _) true false) params) = map Name params).
    { unfold keys. rewrite map_map. reflexivity. }
    assert (Hk : entries_ok (map (fun n => Entry type (Name n) (Declaration _) true false) params)).
    { split.
      - rewrite Ek. clear Ek Ht. induction Hn as [|n l Hi Hn IH]; cbn [map]; constructor; [|exact IH].
        intros F. apply in_map_iff in F as [m [Em F]]. injection Em as ->. now apply Hi.
      - rewrite Forall_forall. intros e He. apply in_map_iff in He as [n [<- Hin]]. split; [now apply Ht|discriminate]. }
    split; [exact Hk|]. intros k [n [Hin ->]]. apply find_in_keys. cbn [f_entries]. rewrite Ek. now apply in_map.
  - constructor.
Qed.

Theorem function_right : forall body s ev o s', NoDup params -> (forall n, In n params -> tracked (Name n)) ->
  tame body (start type params) -> well_typed s -> runs body s ev o s' -> right (function type test error never is_never is_any any_in none_in
    could_be_a_literal remove_none avoid_implicit_literal union simplified_union common_sub_type split truthiness declared explicit_any params body) ev.
Proof.
  intros body s ev o s' Hn Ht T Hw Hr.
  assert (Ha : allowed (frames _ (start type params)) s).
  { intros k. cbn [start frames]. rewrite allows_cons. cbn [f_entries].
    destruct (find_entry k _) as [e|] eqn:F; [|now apply well_typed_typed].
    apply find_key in F as [F <-]. apply in_map_iff in F as [n [<- _]]. cbn [e_key e_modifies]. split; [|right; now apply well_typed_typed].
    unfold fits. cbn [e_deleted e_kind e_key]. now apply well_typed_typed. }
  destruct (runs_shown body s ev o s' Hr (start type params) [] (start_wf Hn Ht) T eq_refl Hw Ha (Forall_nil _) (Forall_nil _)) as [_ [_ [R _]]].
  - pose proof (after_tries _ _ (analyse_after body _ (start_wf Hn Ht) T)) as A. cbn [start tries] in A. inversion A. constructor.
  - exact R.
Qed.
End Frames.
