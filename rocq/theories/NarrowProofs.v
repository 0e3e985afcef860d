(** Proofs about the unions that are built, and about [len] *)
From Coq Require Import List NArith ZArith Bool Lia Permutation.
From Verif Require Import TupleModel TupleSpec SubtypeModel SubtypeSpec SubtypeProofs NarrowModel NarrowSpec.
Import ListNotations.
Open Scope N_scope.

(** ** Equality of types *)
Section TypeInd.
Variable P : type -> Prop.
Hypothesis Hany : P Any.
Hypothesis Hnone : P NoneType.
Hypothesis Hnever : P Never.
Hypothesis Hclass : forall c gs, Forall P gs -> P (Class c gs).
Hypothesis Hdata : forall c gs, Forall P gs -> P (Dataclass c gs).
Hypothesis Hlit : forall l, P (Literal l).
Hypothesis Hls : P LiteralString.
Hypothesis Hfixed : forall ts, Forall P ts -> P (Tuple (FixedLen ts)).
Hypothesis Harb : forall t, P t -> P (Tuple (ArbitraryLen t)).
Hypothesis Htvt : forall b n a, Forall P b -> Forall P a -> P (Tuple (WithUnpack (mk_unpack b (TypeVarTuple n) a))).
Hypothesis Hmany : forall b t a, Forall P b -> P t -> Forall P a -> P (Tuple (WithUnpack (mk_unpack b (Many t) a))).
Hypothesis Hunion : forall ts, Forall P ts -> P (Union ts).
Hypothesis Hinter : forall ts, Forall P ts -> P (Intersection ts).
Hypothesis Henum : forall e, P (Enum e).
Hypothesis Hmember : forall e m, P (EnumMember e m).
Hypothesis Hnew : forall n, P (NewType n).
Hypothesis Hvar : forall n, P (TypeVar n).
Hypothesis Htype : forall t, P t -> P (TypeOf t).

Fixpoint type_rect' (t : type) : P t :=
  let fix all (ts : list type) : Forall P ts :=
    match ts with [] => Forall_nil P | t :: ts => Forall_cons t (type_rect' t) (all ts) end in
  match t with
  | Any => Hany | NoneType => Hnone | Never => Hnever | LiteralString => Hls
  | Class c gs => Hclass c gs (all gs)
  | Dataclass c gs => Hdata c gs (all gs)
  | Literal l => Hlit l
  | Tuple (FixedLen ts) => Hfixed ts (all ts)
  | Tuple (ArbitraryLen t) => Harb t (type_rect' t)
  | Tuple (WithUnpack (mk_unpack b (TypeVarTuple n) a)) => Htvt b n a (all b) (all a)
  | Tuple (WithUnpack (mk_unpack b (Many t) a)) => Hmany b t a (all b) (type_rect' t) (all a)
  | Union ts => Hunion ts (all ts)
  | Intersection ts => Hinter ts (all ts)
  | Enum e => Henum e
  | EnumMember e m => Hmember e m
  | NewType n => Hnew n
  | TypeVar n => Hvar n
  | TypeOf t => Htype t (type_rect' t)
  end.
End TypeInd.

Lemma same_list_eq : forall l m, Forall (fun t => forall u, same t u = true -> t = u) l -> same_list same l m = true -> l = m.
Proof.
  induction l as [|x l IH]; intros [|y m] H E; cbn [same_list] in E; try discriminate; [reflexivity|].
  apply andb_prop in E as [E1 E2]. rewrite (Forall_inv H y E1). now rewrite (IH m (Forall_inv_tail H) E2).
Qed.

Lemma same_literal_eq : forall l m, same_literal l m = true -> l = m.
Proof.
  intros [n s|b|s|s] [n' s'|b'|s'|s'] E; cbn [same_literal] in E; try discriminate.
  - apply andb_prop in E as [E1 E2]. apply N.eqb_eq in E1. apply eqb_prop in E2. congruence.
  - apply eqb_prop in E. congruence.
  - apply N.eqb_eq in E. congruence.
  - apply N.eqb_eq in E. congruence.
Qed.

Lemma same_eq : forall t u, same t u = true -> t = u.
Proof.
  induction t using type_rect'; intros u E.
  1-3, 7: destruct u; cbn [same] in E; try discriminate; reflexivity.
  - destruct u; cbn [same] in E; try discriminate. apply andb_prop in E as [E1 E2]. apply N.eqb_eq in E1 as ->. now rewrite (same_list_eq _ _ H E2).
  - destruct u; cbn [same] in E; try discriminate. apply andb_prop in E as [E1 E2]. apply N.eqb_eq in E1 as ->. now rewrite (same_list_eq _ _ H E2).
  - destruct u; cbn [same] in E; try discriminate. now rewrite (same_literal_eq _ _ E).
  - destruct u as [| | | | | | |[]| | | | | | |]; cbn [same same_args] in E; try discriminate. now rewrite (same_list_eq _ _ H E).
  - destruct u as [| | | | | | |[]| | | | | | |]; cbn [same same_args] in E; try discriminate. now rewrite (IHt _ E).
  - destruct u as [| | | | | | |[| |[b' [] a']]| | | | | | |]; cbn [same same_args same_unpack] in E; try discriminate.
    + apply andb_prop in E as [E E3]. apply andb_prop in E as [E1 E2]. apply N.eqb_eq in E2 as ->.
      now rewrite (same_list_eq _ _ H E1), (same_list_eq _ _ H0 E3).
    + rewrite andb_false_r in E. discriminate.
  - destruct u as [| | | | | | |[| |[b' [] a']]| | | | | | |]; cbn [same same_args same_unpack] in E; try discriminate.
    + rewrite andb_false_r in E. discriminate.
    + apply andb_prop in E as [E E3]. apply andb_prop in E as [E1 E2]. rewrite (IHt _ E2).
      now rewrite (same_list_eq _ _ H E1), (same_list_eq _ _ H0 E3).
  - destruct u; cbn [same] in E; try discriminate. now rewrite (same_list_eq _ _ H E).
  - destruct u; cbn [same] in E; try discriminate. now rewrite (same_list_eq _ _ H E).
  - destruct u; cbn [same] in E; try discriminate. apply N.eqb_eq in E as ->. reflexivity.
  - destruct u; cbn [same] in E; try discriminate. apply andb_prop in E as [E1 E2]. apply N.eqb_eq in E1 as ->. apply N.eqb_eq in E2 as ->. reflexivity.
  - destruct u; cbn [same] in E; try discriminate. apply N.eqb_eq in E as ->. reflexivity.
  - destruct u; cbn [same] in E; try discriminate. apply N.eqb_eq in E as ->. reflexivity.
  - destruct u; cbn [same] in E; try discriminate. now rewrite (IHt _ E).
Qed.

Lemma same_list_refl : forall l, Forall (fun t => same t t = true) l -> same_list same l l = true.
Proof. induction 1 as [|x l H _ IH]; cbn [same_list]; [reflexivity|]. now rewrite H, IH. Qed.

Lemma same_literal_refl : forall l, same_literal l l = true.
Proof. intros [n s|b|s|s]; cbn [same_literal]; rewrite ?N.eqb_refl, ?eqb_reflx; reflexivity. Qed.

Lemma same_refl : forall t, same t t = true.
Proof.
  induction t using type_rect'; cbn [same same_args same_unpack]; rewrite ?N.eqb_refl, ?same_list_refl, ?same_literal_refl, ?IHt by assumption; reflexivity.
Qed.

Lemma same_iff : forall t u, same t u = true <-> t = u.
Proof. intros t u. split; [apply same_eq|]. intros <-. apply same_refl. Qed.

(** ** Unions *)
Lemma insert_perm : forall t ts, Permutation (insert t ts) (t :: ts).
Proof.
  intros t ts. induction ts as [|u ts IH]; cbn [insert]; [reflexivity|].
  destruct (priority t <=? priority u); [reflexivity|]. rewrite IH. constructor.
Qed.

Lemma sort_perm : forall ts, Permutation (sort_for_priority ts) ts.
Proof. induction ts as [|t ts IH]; cbn [sort_for_priority]; [reflexivity|]. rewrite insert_perm. now constructor. Qed.

Lemma mem_in : forall t ts, mem t ts = true -> In t ts.
Proof. intros t ts H. apply existsb_exists in H as [u [H1 H2]]. now apply same_eq in H2 as <-. Qed.

Section Has.
Context {V : Type}.
Variables (w : world V) (env : N -> V -> Prop).
Notation has := (has w env).

Lemma has_union : forall ts v, has (Union ts) v <-> exists t, In t ts /\ has t v.
Proof.
  intros ts v. cbn [SubtypeSpec.has]. rewrite Exists_exists. split.
  - intros [s [H1 H2]]. apply in_map_iff in H1 as [t [<- H1]]. now exists t.
  - intros [t [H1 H2]]. exists (has t). split; [now apply in_map|exact H2].
Qed.

Lemma has_parts : forall t v, has t v <-> exists u, In u (parts t) /\ has u v.
Proof.
  intros t v.
  assert (One : parts t = [t] -> has t v <-> exists u, In u (parts t) /\ has u v).
  { intros ->. split; [intros H; exists t; split; [now left|exact H]|]. intros [u [[<-|[]] H]]. exact H. }
  destruct t; try (apply One; reflexivity).
  - split; [intros []|]. intros [u [[] _]].
  - apply has_union.
Qed.

Lemma has_sorted : forall ts v, has (Union (sort_for_priority ts)) v <-> has (Union ts) v.
Proof.
  intros ts v. rewrite !has_union. split; intros [t [H1 H2]]; exists t; (split; [|exact H2]).
  - now apply (Permutation_in _ (sort_perm ts)).
  - now apply (Permutation_in _ (Permutation_sym (sort_perm ts))).
Qed.

Lemma has_app : forall ts us v, has (Union (ts ++ us)) v <-> has (Union ts) v \/ has (Union us) v.
Proof.
  intros ts us v. rewrite !has_union. split.
  - intros [t [H1 H2]]. apply in_app_or in H1 as [H1|H1]; [left|right]; now exists t.
  - intros [[t [H1 H2]]|[t [H1 H2]]]; exists t; (split; [|exact H2]); apply in_or_app; auto.
Qed.

Lemma has_single : forall t v, has (Union [t]) v <-> has t v.
Proof. intros t v. rewrite has_union. split; [intros [u [[<-|[]] H]]; exact H|]. intros H. exists t. split; [now left|exact H]. Qed.

Lemma has_push : forall ts t v, has (Union (push ts t)) v <-> has (Union ts) v \/ has t v.
Proof.
  intros ts t v. unfold push. destruct (mem t ts) eqn:E.
  - apply mem_in in E. split; [now left|]. intros [H|H]; [exact H|]. apply has_union. now exists t.
  - now rewrite has_app, has_single.
Qed.

Lemma has_push_all : forall us ts v, has (Union (fold_left push us ts)) v <-> has (Union ts) v \/ has (Union us) v.
Proof.
  induction us as [|u us IH]; intros ts v; cbn [fold_left].
  - split; [now left|]. intros [H|H]; [exact H|]. apply has_union in H as [t [[] _]].
  - rewrite IH, has_push. change (u :: us) with ([u] ++ us). rewrite has_app, has_single. tauto.
Qed.

Lemma has_join : forall t u v, has (join t u) v <-> has t v \/ has u v.
Proof.
  intros t u v.
  assert (Pair : t <> Never -> has (match u with
      | Union us => if mem t us then Union us else Union (sort_for_priority (us ++ [t]))
      | _ => if same t u || is_never u then t else Union (sort_for_priority [t; u])
      end) v <-> has t v \/ has u v).
  { intros Ht.
    assert (Two : has (if same t u || is_never u then t else Union (sort_for_priority [t; u])) v <-> has t v \/ has u v).
    { destruct (same t u || is_never u) eqn:E.
      - apply orb_prop in E as [E|E].
        + apply same_eq in E as <-. tauto.
        + destruct u; try discriminate. cbn [SubtypeSpec.has]. tauto.
      - rewrite has_sorted. change [t; u] with ([t] ++ [u]). now rewrite has_app, !has_single. }
    destruct u; try exact Two. destruct (mem t ts) eqn:E.
    - apply mem_in in E. split; [now right|]. intros [H|H]; [|exact H]. apply has_union. now exists t.
    - rewrite has_sorted, has_app, has_single. tauto. }
  destruct t; try (apply Pair; discriminate).
  - cbn [join SubtypeSpec.has]. tauto.
  - cbn [join]. rewrite has_sorted. destruct u; try apply has_push.
    + cbn [SubtypeSpec.has]. tauto.
    + apply has_push_all.
Qed.

Lemma has_join_all : forall ts t v, has (fold_left join ts t) v <-> has t v \/ exists u, In u ts /\ has u v.
Proof.
  induction ts as [|u ts IH]; intros t v; cbn [fold_left].
  - split; [now left|]. intros [H|[u [[] _]]]. exact H.
  - rewrite IH, has_join. split.
    + intros [[H|H]|[x [H1 H2]]]; [now left| |]; right; [exists u|exists x]; (split; [|assumption]); [now left|now right].
    + intros [H|[x [[<-|H1] H2]]]; [now left; left|now left; right|]. right. now exists x.
Qed.

Lemma has_retained : forall keep t v, has (retain_in_union keep t) v <-> exists u, In u (parts t) /\ keep u = true /\ has u v.
Proof.
  intros keep t v.
  assert (One : parts t = [t] -> has (if keep t then t else Never) v <-> exists u, In u (parts t) /\ keep u = true /\ has u v).
  { intros ->. destruct (keep t) eqn:E.
    - split; [intros H; exists t; auto using in_eq|]. intros [u [[<-|[]] [_ H]]]. exact H.
    - split; [intros []|]. intros [u [[<-|[]] [H _]]]. congruence. }
  destruct t; try (apply One; reflexivity).
  - split; [intros []|]. intros [u [[] _]].
  - cbn [retain_in_union parts]. transitivity (has (Union (filter keep ts)) v).
    + destruct (filter keep ts) as [|a [|b l]].
      * cbn [from_union_entries]. split; [intros []|]. intros H. now apply has_union in H as [t [[] _]].
      * cbn [from_union_entries]. symmetry. apply has_single.
      * apply has_sorted.
    + rewrite has_union. split.
      * intros [t [H1 H2]]. apply filter_In in H1 as [H1 H3]. now exists t.
      * intros [t [H1 [H2 H3]]]. exists t. split; [now apply filter_In|exact H3].
Qed.
End Has.
