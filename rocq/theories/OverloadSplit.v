(** The members of a type have the values of the type. *)
From Coq Require Import List NArith Arith Bool Lia.
From Verif Require Import OverloadTypes OverloadValues.
Import ListNotations.

Section Induction.
Variable P : type -> Prop.
Hypothesis P_class : forall n, P (Class n).
Hypothesis P_bool : P Bool.
Hypothesis P_literal : forall b, P (BoolLiteral b).
Hypothesis P_enum : forall e n, P (Enum e n).
Hypothesis P_member : forall e n i, P (EnumMember e n i).
Hypothesis P_union : forall u us, P u -> Forall P us -> P (Union u us).
Hypothesis P_type : forall t, P t -> P (TypeOf t).
Hypothesis P_tuple : forall l, Forall P l -> P (Tuple l).
Hypothesis P_any : P Any.
Hypothesis P_never : P Never.
Fixpoint type_induction (t : type) : P t :=
  let all := fix all (l : list type) : Forall P l :=
    match l with [] => Forall_nil _ | x :: l => Forall_cons _ (type_induction x) (all l) end in
  match t with
  | Class n => P_class n | Bool => P_bool | BoolLiteral b => P_literal b | Enum e n => P_enum e n
  | EnumMember e n i => P_member e n i | Union u us => P_union u us (type_induction u) (all us)
  | TypeOf t => P_type t (type_induction t) | Tuple l => P_tuple l (all l) | Any => P_any | Never => P_never
  end.
End Induction.

(** ** Copies of a list one behind the other *)
Lemma nth_copies : forall A (l : list A) n x, l <> [] -> x < n * length l -> nth_error (concat (repeat l n)) x = nth_error l (x mod length l).
Proof.
  intros A l n; induction n as [|n IH]; intros x Hl Hx; [cbn in Hx; lia|].
  assert (Hlen : length l <> 0) by (destruct l; [congruence|discriminate]).
  cbn [repeat concat]. destruct (Nat.lt_ge_cases x (length l)) as [H|H].
  - rewrite nth_error_app1 by exact H. rewrite Nat.mod_small by exact H. reflexivity.
  - rewrite nth_error_app2 by exact H. rewrite IH; [|exact Hl|cbn in Hx; lia].
    replace (x mod length l) with ((x - length l) mod length l); [reflexivity|].
    replace x with ((x - length l) + 1 * length l) at 2 by lia. rewrite Nat.mod_add by exact Hlen. reflexivity.
Qed.
Lemma copies_length : forall A (l : list A) n, length (concat (repeat l n)) = n * length l.
Proof. intros A l n; induction n as [|n IH]; [reflexivity|]. cbn. rewrite app_length, IH. reflexivity. Qed.
Lemma in_copies : forall A (l : list A) n x, In x (concat (repeat l n)) -> In x l.
Proof. intros A l n x; induction n as [|n IH]; [intros []|]. cbn. rewrite in_app_iff. intros [H|H]; auto. Qed.

Lemma nth_error_combine : forall A B (l : list A) (k : list B) x a b, nth_error l x = Some a -> nth_error k x = Some b ->
  nth_error (combine l k) x = Some (a, b).
Proof.
  intros A B l; induction l as [|y l IH]; intros k x a b; [destruct x; discriminate|]. destruct k as [|z k]; [destruct x; discriminate|].
  destruct x as [|x]; cbn; [intros [= ->] [= ->]; reflexivity|]. apply IH.
Qed.

(** Two numbers without a common divisor: all pairs of remainders occur. *)
Lemma remainders : forall m u i j, Nat.gcd m u = 1 -> i < m -> j < u -> exists x, x < m * u /\ x mod m = i /\ x mod u = j.
Proof.
  intros m u i j Hg Hi Hj.
  destruct (Nat.gcd_bezout_pos m u ltac:(lia)) as [a [b Hab]]. rewrite Hg in Hab.
  set (y := i + a * m * (j + (u * i - i))).
  exists (y mod (m * u)). split; [apply Nat.mod_upper_bound; nia|].
  assert (Hy : forall k, k <> 0 -> (exists q, m * u = k * q) -> (y mod (m * u)) mod k = y mod k).
  { intros k Hk [q Hq]. pose proof (Nat.div_mod y (m * u) ltac:(nia)) as D.
    rewrite D at 2. replace (m * u * (y / (m * u)) + y mod (m * u)) with (y mod (m * u) + (q * (y / (m * u))) * k) by (rewrite Hq; nia).
    rewrite Nat.mod_add by exact Hk. reflexivity. }
  split.
  - rewrite Hy by (try lia; exists u; lia). unfold y. replace (i + a * m * (j + (u * i - i))) with (i + (a * (j + (u * i - i))) * m) by lia.
    rewrite Nat.mod_add by lia. apply Nat.mod_small; exact Hi.
  - rewrite Hy by (try lia; exists m; lia). unfold y. rewrite Hab.
    replace (i + (1 + b * u) * (j + (u * i - i))) with (j + (i + b * (j + (u * i - i))) * u) by nia.
    rewrite Nat.mod_add by lia. apply Nat.mod_small; exact Hj.
Qed.

Lemma coprime_product : forall a b c, Nat.gcd a c = 1 -> Nat.gcd b c = 1 -> Nat.gcd (a * b) c = 1.
Proof.
  intros a b c Ha Hb. set (g := Nat.gcd (a * b) c).
  assert (Hgc : Nat.divide g c) by apply Nat.gcd_divide_r.
  assert (Hgab : Nat.divide g (a * b)) by apply Nat.gcd_divide_l.
  assert (Hga : Nat.gcd g a = 1).
  { apply Nat.divide_1_r. rewrite <- Ha. apply Nat.gcd_greatest; [apply Nat.gcd_divide_r|].
    eapply Nat.divide_trans; [apply Nat.gcd_divide_l|exact Hgc]. }
  pose proof (Nat.gauss _ _ _ Hgab Hga) as Hgb.
  apply Nat.divide_1_r. rewrite <- Hb. apply Nat.gcd_greatest; assumption.
Qed.

(** ** One more item *)
Lemma add_item_length : forall t o new res, add_item t o new = Some res ->
  length res = match o with Some us => length us | None => 1 end * length new.
Proof.
  intros t [us|] new res; unfold add_item.
  - destruct (MAX_MATERIALIZATIONS <? length us * length new); [discriminate|]. intros [= <-].
    rewrite map_length, combine_length, !copies_length. lia.
  - intros [= <-]. rewrite map_length. lia.
Qed.

Definition picks (i : type * option (list type)) (c : type) : Prop :=
  match snd i with Some us => In c us | None => c = fst i end.

Lemma add_item_only : forall t o new res l, add_item t o new = Some res -> In l res ->
  exists k c, In k new /\ picks (t, o) c /\ l = k ++ [c].
Proof.
  intros t [us|] new res l; unfold add_item, picks; cbn [fst snd].
  - destruct (MAX_MATERIALIZATIONS <? length us * length new); [discriminate|]. intros [= <-] H.
    apply in_map_iff in H. destruct H as [[k c] [<- H]]. exists k, c.
    split; [|split; [|reflexivity]].
    + apply in_combine_l in H. exact (in_copies _ _ _ _ H).
    + apply in_combine_r in H. exact (in_copies _ _ _ _ H).
  - intros [= <-] H. apply in_map_iff in H. destruct H as [k [<- H]]. exists k, t. auto.
Qed.

Lemma add_item_all : forall t o new res k c, add_item t o new = Some res -> In k new -> picks (t, o) c ->
  (forall us, o = Some us -> Nat.gcd (length new) (length us) = 1) -> In (k ++ [c]) res.
Proof.
  intros t [us|] new res k c; unfold add_item, picks; cbn [fst snd].
  - destruct (MAX_MATERIALIZATIONS <? length us * length new); [discriminate|]. intros [= <-] Hk Hc Hg.
    specialize (Hg us eq_refl). apply In_nth_error in Hk. destruct Hk as [i Hi]. apply In_nth_error in Hc. destruct Hc as [j Hj].
    assert (Hil : i < length new) by (apply nth_error_Some; rewrite Hi; discriminate).
    assert (Hjl : j < length us) by (apply nth_error_Some; rewrite Hj; discriminate).
    destruct (remainders _ _ _ _ Hg Hil Hjl) as [x [Hx [Hxi Hxj]]].
    apply in_map_iff. exists (k, c). split; [reflexivity|]. apply (nth_error_In _ x). apply nth_error_combine.
    + rewrite nth_copies; [rewrite Hxi; exact Hi| |lia]. intros ->; cbn in Hil; lia.
    + rewrite nth_copies; [rewrite Hxj; exact Hj| |lia]. intros ->; cbn in Hjl; lia.
  - intros [= <-] Hk -> _. apply in_map_iff. exists k. auto.
Qed.

(** ** All items *)
Lemma add_items_only : forall items new res l, add_items items new = Some res -> In l res ->
  exists k c, In k new /\ Forall2 picks items c /\ l = k ++ c.
Proof.
  intros items; induction items as [|[t o] items IH]; intros new res l; cbn [add_items].
  - intros [= <-] H. exists l, []. rewrite app_nil_r. auto.
  - destruct (add_item t o new) as [new'|] eqn:E; [|discriminate]. intros Hr Hl.
    destruct (IH _ _ _ Hr Hl) as [k [c [Hk [Hc ->]]]]. destruct (add_item_only _ _ _ _ _ E Hk) as [k0 [c0 [Hk0 [Hc0 ->]]]].
    exists k0, (c0 :: c). split; [exact Hk0|]. split; [constructor; assumption|]. rewrite <- app_assoc. reflexivity.
Qed.

Definition coprime_items (n : nat) (items : list (type * option (list type))) : Prop :=
  (forall t us, In (t, Some us) items -> Nat.gcd n (length us) = 1) /\
  (forall i j t u us vs, i < j -> nth_error items i = Some (t, Some us) -> nth_error items j = Some (u, Some vs) ->
     Nat.gcd (length us) (length vs) = 1).

Lemma add_items_all : forall items new res k c, add_items items new = Some res -> In k new -> Forall2 picks items c ->
  coprime_items (length new) items -> In (k ++ c) res.
Proof.
  intros items; induction items as [|[t o] items IH]; intros new res k c; cbn [add_items].
  - intros [= <-] Hk Hc _. inversion Hc. rewrite app_nil_r. exact Hk.
  - destruct (add_item t o new) as [new'|] eqn:E; [|discriminate]. intros Hr Hk Hc [Hg1 Hg2].
    inversion Hc as [|x y l1 l2 Hp Hc']; subst. replace (k ++ y :: l2) with ((k ++ [y]) ++ l2) by (rewrite <- app_assoc; reflexivity).
    apply (IH new'); [exact Hr| |exact Hc'|].
    + apply (add_item_all t o new); [exact E|exact Hk|exact Hp|]. intros us ->. apply (Hg1 t us); left; reflexivity.
    + split.
      * intros u vs Hin. rewrite (add_item_length _ _ _ _ E). destruct o as [us|].
        -- apply coprime_product; [|apply (Hg1 u vs); right; exact Hin]. apply In_nth_error in Hin. destruct Hin as [j Hj].
           apply (Hg2 0 (S j) t u us vs); [lia|reflexivity|exact Hj].
        -- rewrite Nat.mul_1_l. apply (Hg1 u vs); right; exact Hin.
      * intros i j t0 u us vs Hij Hi Hj. apply (Hg2 (S i) (S j) t0 u us vs); [lia|exact Hi|exact Hj].
Qed.

(** ** Values *)
Section Values.
Variable instance : N -> value -> Prop.
Variable class_object : nat -> type -> value -> Prop.
Notation has := (has instance class_object).
Notation value_of := (value_of instance class_object).

Lemma has_union : forall d u us v, has d (Union u us) v <-> exists x, In x (u :: us) /\ has d x v.
Proof.
  intros d u us v; cbn. assert (H : (fix any (l : list type) : Prop := match l with [] => False | x :: l => has d x v \/ any l end) us <-> exists x, In x us /\ has d x v).
  { induction us as [|x us IH]; [split; [intros []|intros [x [[] _]]]|]. rewrite IH. split.
    - intros [H|[y [Hy H]]]; [exists x; split; [left; reflexivity|exact H]|exists y; split; [right; exact Hy|exact H]].
    - intros [y [[->|Hy] H]]; [left; exact H|right; exists y; auto]. }
  rewrite H. split.
  - intros [Hu|[x [Hx Hv]]]; [exists u; auto|exists x; auto].
  - intros [x [[->|Hx] Hv]]; [left; exact Hv|right; exists x; auto].
Qed.

Lemma has_tuple : forall ts v, value_of (Tuple ts) v <-> exists l, v = TupleValue l /\ Forall2 value_of ts l.
Proof.
  intros ts v; unfold OverloadValues.value_of; cbn.
  assert (H : forall l, (fix all2 (ts : list type) (l : list value) : Prop :=
                   match ts, l with [], [] => True | t :: ts, v :: l => has 0 t v /\ all2 ts l | _, _ => False end) ts l <-> Forall2 (has 0) ts l).
  { induction ts as [|t ts IH]; intros [|x l].
    - split; [intros _; constructor|intros _; exact I].
    - split; [intros []|intros H; inversion H].
    - split; [intros []|intros H; inversion H].
    - split.
      + intros [A B]. constructor; [exact A|]. apply IH; exact B.
      + intros H; inversion H; subst; split; [assumption|]. apply IH; assumption. }
  split; intros [l [-> Hl]]; exists l; (split; [reflexivity|]); apply H; exact Hl.
Qed.

Lemma union_members : forall t d us v, maybe_union_like t = Some us -> (has d t v <-> exists u, In u us /\ has d u v).
Proof.
  intros t; induction t as [| | | | |u us|t IH| | |]; intros d l v; try discriminate.
  - intros [= <-]. apply has_union.
  - cbn. destruct (maybe_union_like t) as [k|] eqn:E; [|discriminate]. intros [= <-]. rewrite (IH (S d) k v eq_refl). split.
    + intros [u [Hu Hv]]. exists (TypeOf u). split; [apply in_map; exact Hu|exact Hv].
    + intros [u [Hu Hv]]. apply in_map_iff in Hu. destruct Hu as [x [<- Hx]]. exists x. auto.
Qed.

Lemma regular_items : forall l, regular (Tuple l) <-> Forall regular l /\
  forall i j t u us vs, i < j -> nth_error l i = Some t -> nth_error l j = Some u ->
        maybe_union_like_with_materializations t = Some us -> maybe_union_like_with_materializations u = Some vs ->
        Nat.gcd (length us) (length vs) = 1.
Proof.
  intros l; cbn [regular].
  assert (H : (fix all (l : list type) : Prop := match l with [] => True | x :: l => regular x /\ all l end) l <-> Forall regular l).
  { induction l as [|x l IH]; [split; [intros _; constructor|intros _; exact I]|]. split.
    - intros [A B]. constructor; [exact A|]. apply IH; exact B.
    - intros H; inversion H; subst; split; [assumption|]. apply IH; assumption. }
  rewrite H. reflexivity.
Qed.

Lemma combine_map : forall A B (f : A -> B) l, combine l (map f l) = map (fun x => (x, f x)) l.
Proof. intros A B f l; induction l as [|x l IH]; [reflexivity|]. cbn; rewrite IH; reflexivity. Qed.

Notation split := maybe_union_like_with_materializations.

Lemma split_tuple_inv : forall items us, split_tuple items (map split items) = Some us ->
  exists new, add_items (map (fun x => (x, split x)) items) [[]] = Some new /\ us = map Tuple new /\ 1 < length new.
Proof.
  intros items us; unfold split_tuple. destruct (forallb is_none (map split items)); [discriminate|].
  rewrite combine_map. destruct (add_items _ [[]]) as [new|]; [|discriminate].
  destruct (length new <=? 1) eqn:E; [discriminate|]. intros [= <-]. exists new. apply Nat.leb_gt in E. auto.
Qed.

Definition covered (t : type) : Prop := forall us, split t = Some us ->
  (forall u v, In u us -> value_of u v -> value_of t v) /\
  (regular t -> forall v, value_of t v -> exists u, In u us /\ value_of u v).

Lemma covered_union : forall t us, maybe_union_like t = Some us -> covered t.
Proof.
  intros t us E us' H. assert (Hs : split t = Some us) by (destruct t; try discriminate E; cbn in *; try exact E; rewrite E; reflexivity).
  rewrite Hs in H. injection H as <-. split.
  - intros u v Hu Hv. apply (union_members _ _ _ _ E). exists u; auto.
  - intros _ v Hv. apply (union_members _ _ _ _ E); exact Hv.
Qed.

Lemma picks_in : forall l c vs, Forall covered l -> Forall2 picks (map (fun x => (x, split x)) l) c -> Forall2 value_of c vs -> Forall2 value_of l vs.
Proof.
  intros l; induction l as [|x l IH]; intros c vs Hl Hc Hv.
  - inversion Hc; subst. exact Hv.
  - inversion Hc as [|a b l1 l2 Hp Hc']; subst. inversion Hv as [|a' b' l1' l2' Hv1 Hv2]; subst. inversion Hl as [|z zs Hx Hl']; subst.
    constructor; [|apply (IH l2); assumption]. unfold picks in Hp; cbn [fst snd] in Hp. destruct (split x) as [us|] eqn:E.
    + apply (proj1 (Hx us E) b); assumption.
    + subst b; exact Hv1.
Qed.

Lemma picks_exist : forall l vs, Forall covered l -> Forall regular l -> Forall2 value_of l vs ->
  exists c, Forall2 picks (map (fun x => (x, split x)) l) c /\ Forall2 value_of c vs.
Proof.
  intros l; induction l as [|x l IH]; intros vs Hl Hr Hv; inversion Hv as [|a b l1 l2 Hv1 Hv2]; subst.
  - exists []. split; constructor.
  - inversion Hl as [|z zs Hx Hl']; subst. inversion Hr as [|z zs Hrx Hr']; subst.
    destruct (IH _ Hl' Hr' Hv2) as [c [Hc Hcv]]. destruct (split x) as [us|] eqn:E.
    + destruct (proj2 (Hx us E) Hrx _ Hv1) as [u [Hu Huv]]. exists (u :: c). cbn [map]. rewrite E. split; constructor; auto.
    + exists (x :: c). cbn [map]. rewrite E. split; constructor; auto. reflexivity.
Qed.

(** The members of a type have no other values, and all of them if no combinations are missed. *)
Lemma all_covered : forall t, covered t.
Proof.
  intros t; induction t as [n| |b|e n|e n i|u us _ _|t _|l IH| |] using type_induction.
  - intros us; discriminate.
  - intros us [= <-]. split.
    + intros u v [<-|[<-|[]]] Hv; cbn in Hv |- *; eexists; exact Hv.
    + intros _ v [b ->]. destruct b; [exists (BoolLiteral true)|exists (BoolLiteral false)]; (split; [cbn; auto|]); exact eq_refl.
  - intros us; discriminate.
  - intros us H. change ((if (n <? MAX_MATERIALIZATIONS) && (1 <? n) then Some (map (EnumMember e n) (seq 0 n)) else None) = Some us) in H. destruct ((n <? MAX_MATERIALIZATIONS) && (1 <? n)); [|discriminate H]. injection H as <-. split.
    + intros u v Hu Hv. apply in_map_iff in Hu. destruct Hu as [i [<- Hi]]. cbn in Hv. destruct Hv as [Hv ->]. exists i; auto.
    + intros _ v [i [Hi ->]]. exists (EnumMember e n i). split; [|split; [exact Hi|reflexivity]]. apply in_map, in_seq; lia.
  - intros us; discriminate.
  - exact (covered_union (Union u us) (u :: us) eq_refl).
  - destruct (maybe_union_like (TypeOf t)) as [us|] eqn:E; [exact (covered_union _ _ E)|].
    intros us. change (split (TypeOf t)) with (match maybe_union_like (TypeOf t) with Some us => Some us | None => None end). rewrite E. discriminate.
  - intros us H. change (split (Tuple l)) with (split_tuple l (map split l)) in H.
    destruct (split_tuple_inv _ _ H) as [new [Hn [-> _]]]. split.
    + intros u v Hu Hv. apply in_map_iff in Hu. destruct Hu as [c [<- Hc]].
      destruct (add_items_only _ _ _ _ Hn Hc) as [k [c' [Hk [Hp ->]]]]. destruct Hk as [<-|[]].
      apply has_tuple in Hv. destruct Hv as [vs [-> Hv]]. apply has_tuple. exists vs. split; [reflexivity|].
      exact (picks_in _ _ _ IH Hp Hv).
    + intros Hr v Hv. apply regular_items in Hr. destruct Hr as [Hr Hg]. apply has_tuple in Hv. destruct Hv as [vs [-> Hv]].
      destruct (picks_exist _ _ IH Hr Hv) as [c [Hc Hcv]]. exists (Tuple c). split; [|apply has_tuple; exists vs; auto].
      apply in_map. change c with ([] ++ c). apply (add_items_all _ [[]] _ [] c Hn); [left; reflexivity|exact Hc|]. split.
      * intros t us _. reflexivity.
      * intros i j t u us' vs' Hij Hi Hj. rewrite nth_error_map in Hi, Hj.
        destruct (nth_error l i) as [x|] eqn:Ex; [|discriminate Hi]. destruct (nth_error l j) as [y|] eqn:Ey; [|discriminate Hj].
        injection Hi as <- Hi. injection Hj as <- Hj. exact (Hg i j x y us' vs' Hij Ex Ey Hi Hj).
  - intros us; discriminate.
  - intros us; discriminate.
Qed.

End Values.

(** ** No Any appears *)
Lemma static_all : forall l, (fix all (l : list type) : Prop := match l with [] => True | x :: l => static x /\ all l end) l <-> Forall static l.
Proof.
  induction l as [|x l IH]; [split; [intros _; constructor|intros _; exact I]|]. split.
  - intros [A B]. constructor; [exact A|]. apply IH; exact B.
  - intros H; inversion H; subst; split; [assumption|]. apply IH; assumption.
Qed.

Lemma static_union_members : forall t us, maybe_union_like t = Some us -> static t -> Forall static us.
Proof.
  intros t; induction t as [| | | | |u us|t IH| | |]; intros l; try discriminate.
  - intros [= <-] [A B]. constructor; [exact A|]. apply static_all; exact B.
  - cbn. destruct (maybe_union_like t) as [k|]; [|discriminate]. intros [= <-] Hs. specialize (IH k eq_refl Hs).
    apply Forall_forall. intros x Hx. apply in_map_iff in Hx. destruct Hx as [y [<- Hy]]. rewrite Forall_forall in IH. exact (IH y Hy).
Qed.

Lemma static_members : forall t us, maybe_union_like_with_materializations t = Some us -> static t -> Forall static us.
Proof.
  intros t; induction t as [n| |b|e n|e n i|u us _ _|t _|l IH| |] using type_induction; intros us' H Hs; try discriminate H.
  - injection H as <-. repeat constructor.
  - change ((if (n <? MAX_MATERIALIZATIONS) && (1 <? n) then Some (map (EnumMember e n) (seq 0 n)) else None) = Some us') in H. destruct ((n <? MAX_MATERIALIZATIONS) && (1 <? n)); [|discriminate H]. injection H as <-.
    apply Forall_forall. intros x Hx. apply in_map_iff in Hx. destruct Hx as [y [<- Hy]]. exact I.
  - exact (static_union_members (Union u us) us' H Hs).
  - change (match maybe_union_like (TypeOf t) with Some us => Some us | None => None end = Some us') in H.
    destruct (maybe_union_like (TypeOf t)) as [us|] eqn:E; [|discriminate H]. injection H as <-. exact (static_union_members _ _ E Hs).
  - change (split_tuple l (map maybe_union_like_with_materializations l) = Some us') in H.
    destruct (split_tuple_inv _ _ H) as [new [Hn [-> _]]]. apply Forall_forall. intros x Hx. apply in_map_iff in Hx. destruct Hx as [c [<- Hc]].
    destruct (add_items_only _ _ _ _ Hn Hc) as [k [c' [Hk [Hp ->]]]]. destruct Hk as [<-|[]]. cbn [app] in *.
    cbn [static] in Hs |- *. apply static_all. apply static_all in Hs. clear H Hn Hc new.
    revert c' Hp; induction l as [|y l IHl]; intros c' Hp; inversion Hp as [|a b l1 l2 Hpb Hp']; subst; [constructor|].
    inversion Hs as [|z zs Hy Hs']; subst. inversion IH as [|z zs Hiy IH']; subst. constructor; [|apply IHl; assumption].
    unfold picks in Hpb; cbn [fst snd] in Hpb. destruct (maybe_union_like_with_materializations y) as [us|].
    + specialize (Hiy us eq_refl Hy). rewrite Forall_forall in Hiy. exact (Hiy b Hpb).
    + subst b; exact Hy.
Qed.

(** There is at least one member. *)
Lemma members_nonempty : forall t us, maybe_union_like_with_materializations t = Some us -> us <> [].
Proof.
  assert (HU : forall t us, maybe_union_like t = Some us -> us <> []).
  { intros t; induction t as [| | | | |u us|t IH| | |]; intros l; try discriminate.
    - intros [= <-]; discriminate.
    - cbn. destruct (maybe_union_like t) as [k|]; [|discriminate]. intros [= <-] Hk. apply map_eq_nil in Hk. exact (IH k eq_refl Hk). }
  intros t us H. destruct t as [n| |b|e n|e n i|u l|t|l| |]; try discriminate H.
  - injection H as <-; discriminate.
  - change ((if (n <? MAX_MATERIALIZATIONS) && (1 <? n) then Some (map (EnumMember e n) (seq 0 n)) else None) = Some us) in H. destruct ((n <? MAX_MATERIALIZATIONS) && (1 <? n)) eqn:E; [|discriminate H]. injection H as <-.
    apply andb_prop in E. destruct E as [_ E]. apply Nat.ltb_lt in E. destruct n; [lia|discriminate].
  - exact (HU (Union u l) us H).
  - change (match maybe_union_like (TypeOf t) with Some us => Some us | None => None end = Some us) in H.
    destruct (maybe_union_like (TypeOf t)) as [k|] eqn:E; [|discriminate H]. injection H as <-. exact (HU _ _ E).
  - change (split_tuple l (map maybe_union_like_with_materializations l) = Some us) in H.
    destruct (split_tuple_inv _ _ H) as [new [_ [-> Hn]]]. destruct new; [cbn in Hn; lia|discriminate].
Qed.
