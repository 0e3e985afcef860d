(** C17 and C18: navigation in syntax trees, for all trees and nodes. *)
From Coq Require Import List Arith NArith Bool Lia Sorting.Sorted.
From Verif Require Import TreeModel TreeSpec TreeProofs.
Import ListNotations.

(** ** C17 *)

(** Every place in the array is exactly one node of the tree, with its type and position. *)
Theorem C17_nodes : forall t y, y < length (array t) ->
  exists p s n, subtree t p = Some s /\ index t p = y /\ (forall q, is_node t q -> index t q = y -> q = p) /\
    nth_error (array t) y = Some n /\ type_ n = type_of s /\ start_index n = start_of s /\ end_ n = end_of s.
Proof.
  intros t y H. unfold array in H. rewrite flatten_length in H. destruct (index_onto t y H) as (p & s & Hp & I). destruct (node_at _ _ _ Hp) as (n & N & _ & T & S & E).
  exists p, s, n. split; [exact Hp|]. split; [exact I|]. split; [|rewrite <- I; auto].
  intros q Nq Iq. apply (index_inj t); [exact Nq|unfold is_node; congruence|congruence].
Qed.

Theorem C17_parent : forall t p k, proper t -> is_node t (p ++ [k]) -> parent (array t) (index t (p ++ [k])) = Some (index t p).
Proof. intros t p k P N. unfold is_node in N. destruct (subtree t (p ++ [k])) as [c|] eqn:E; [|contradiction]. exact (parent_spec t p k c P E). Qed.

Theorem C17_root : forall t, parent (array t) (index t []) = None /\ next_sibling (array t) (index t []) = None /\
  previous_sibling (array t) (index t []) = None /\ previous_leaf (array t) (index t []) = None.
Proof. intros t. split; [reflexivity|]. split; [apply root_next|]. split; reflexivity. Qed.

Theorem C17_next_sibling : forall t p k, is_node t (p ++ [k]) ->
  (is_node t (p ++ [S k]) -> next_sibling (array t) (index t (p ++ [k])) = Some (index t (p ++ [S k]))) /\
  (~ is_node t (p ++ [S k]) -> next_sibling (array t) (index t (p ++ [k])) = None).
Proof.
  intros t p k N. unfold is_node in *. destruct (subtree t (p ++ [k])) as [c|] eqn:E; [|contradiction]. rewrite (next_sibling_spec t p k c E).
  destruct (subtree t (p ++ [S k])) as [d|]; split; intros H; try reflexivity; try contradiction. exfalso. apply H. discriminate.
Qed.

Theorem C17_previous_sibling : forall t p k, is_node t (p ++ [k]) ->
  previous_sibling (array t) (index t (p ++ [k])) = match k with 0 => None | S j => Some (index t (p ++ [j])) end.
Proof.
  intros t p k N. unfold is_node in *. destruct (subtree t (p ++ [k])) as [c|] eqn:E; [|contradiction]. destruct k as [|k]; [exact (previous_first t p c E)|exact (previous_spec t p k c E)].
Qed.

Theorem C17_children : forall t p s, proper t -> subtree t p = Some s ->
  children (array t) (index t p) =
    Some (match s with Leaf _ _ _ => [] | Node _ _ _ cs => map (fun k => index t (p ++ [k])) (seq 0 (length cs)) end).
Proof. intros t p [ty st l|ty st l cs] P H; [exact (children_leaf t p ty st l P H)|exact (children_spec t p ty st l cs P H)]. Qed.

(** The nearest leaf on the left, [None] if there is none. *)
Theorem C17_previous_leaf : forall t p, proper t -> is_node t p -> match previous_leaf (array t) (index t p) with
  | Some i => exists q, i = index t q /\ leaf_at t q /\ left_of q p /\ forall q', leaf_at t q' -> left_of q' p -> q' = q \/ left_of q' q
  | None => forall q, leaf_at t q -> ~ left_of q p
  end.
Proof. exact previous_leaf_spec. Qed.

(** The nearest leaf after the beginning of the node: for a leaf the nearest on the right, otherwise the first leaf in it. *)
Theorem C17_next_leaf : forall t p, proper t -> is_node t p -> match next_leaf (array t) (index t p) with
  | Some i => exists q, i = index t q /\ leaf_at t q /\ precedes p q /\ forall q', leaf_at t q' -> precedes p q' -> q' = q \/ left_of q q'
  | None => forall q, leaf_at t q -> ~ precedes p q
  end.
Proof. exact next_leaf_spec. Qed.

Theorem C17_last_leaf : forall t p s, proper t -> subtree t p = Some s ->
  exists r, last_leaf_in_subtree (array t) (index t p) = Some (index t (p ++ r)) /\ leaf_at t (p ++ r) /\
    forall r', leaf_at t (p ++ r') -> r' = r \/ left_of (p ++ r') (p ++ r).
Proof.
  intros t p s P H. destruct (last_leaf_spec (length (array t)) t p s P H) as (r & E & L & I).
  { unfold array. rewrite flatten_length. assert (B := index_bound _ _ _ H). lia. }
  exists r. split; [exact E|]. split; [exact L|]. intros r' L'. destruct (path_compare (p ++ r') (p ++ r)) as [C|[C|C]].
  - left. apply app_inv_head in C. exact C.
  - right. destruct C as [C|C]; [exact C|]. exfalso. exact (leaf_not_around _ _ _ L' (leaf_node _ _ L) C).
  - exfalso. apply (precedes_index t) in C; try (apply leaf_node; assumption). destruct L' as (ty & st & l & E'). assert (B := E'). rewrite subtree_app, H in B.
    apply index_bound in B. rewrite (index_app _ _ _ _ H) in C, I. rewrite (index_app _ _ _ _ H) in C. cbn [size] in B. lia.
Qed.

(** ** C18 *)

(** What the positions of two nodes say, if the first is before the second in the array. *)
Definition ordered (n m : node) : Prop := start_index n <= start_index m /\ (is_leaf n = true -> end_ n <= start_index m).
Definition between (lo hi : nat) (n : node) : Prop := lo <= start_index n /\ start_index n <= hi /\ end_ n <= hi.

Lemma sorted_app : forall a b mid, StronglySorted ordered a -> StronglySorted ordered b ->
  Forall (fun n => start_index n <= mid /\ end_ n <= mid) a -> Forall (fun n => mid <= start_index n) b -> StronglySorted ordered (a ++ b).
Proof.
  intros a b mid Sa Sb Fa Fb. induction Sa as [|x a Sa IH Hx]; [exact Sb|]. inversion Fa as [|? ? [X1 X2] Fa']; subst. cbn [app]. constructor; [apply IH; exact Fa'|].
  apply Forall_app. split; [exact Hx|]. apply Forall_forall. intros m M. rewrite Forall_forall in Fb. assert (B := Fb m M). split; [lia|]. intros _. lia.
Qed.

Scheme placed_mut := Induction for placed Sort Prop with placed_all_mut := Induction for placed_all Sort Prop.

Lemma placed_flat : forall lo t hi, placed lo t hi -> proper t -> lo <= hi /\ forall b, StronglySorted ordered (flatten b t) /\ Forall (between lo hi) (flatten b t).
Proof.
  intros lo t hi H. induction H as [lo ty s l L|lo ty s l cs L H IH|lo|lo c mid r hi H1 IH1 H2 IH2] using placed_mut with
    (P0 := fun lo cs hi _ => Forall proper cs -> lo <= hi /\ StronglySorted ordered (flat_children cs) /\ Forall (between lo hi) (flat_children cs)).
  - intros P. split; [lia|]. intros b. cbn. split; [repeat constructor|]. constructor; [|constructor]. unfold between, end_. cbn. lia.
  - intros P. assert (P' := P). inversion P' as [|? ? ? ? T Ne F]; subst. destruct (IH F) as (Le & So & Fo). split; [lia|]. intros b. rewrite flatten_node. split.
    + constructor; [exact So|]. apply Forall_forall. intros m M. rewrite Forall_forall in Fo. destruct (Fo m M) as (A & _). split; [exact A|].
      rewrite (proper_node_not_leaf _ _ _ _ _ P). discriminate.
    + constructor; [unfold between, end_; cbn; lia|]. apply Forall_forall. intros m M. rewrite Forall_forall in Fo. destruct (Fo m M) as (A & B & C). unfold between. lia.
  - intros _. split; [lia|]. split; constructor.
  - intros F. inversion F; subst. destruct IH1 as (L1 & X1); [assumption|]. destruct IH2 as (L2 & S2 & F2); [assumption|]. split; [lia|]. cbn [flat_children].
    destruct (X1 (match r with [] => true | _ => false end)) as [S1 F1]. split.
    + apply (sorted_app _ _ mid); try assumption.
      * apply Forall_forall. intros n N. rewrite Forall_forall in F1. destruct (F1 n N) as (_ & A & B). auto.
      * apply Forall_forall. intros n N. rewrite Forall_forall in F2. apply (F2 n N).
    + apply Forall_app. split; apply Forall_forall; intros n N.
      * rewrite Forall_forall in F1. destruct (F1 n N) as (A & B & C). unfold between. lia.
      * rewrite Forall_forall in F2. destruct (F2 n N) as (A & B & C). unfold between. lia.
Qed.

Lemma sorted_nth : forall l, StronglySorted ordered l -> forall y z n m, y < z -> nth_error l y = Some n -> nth_error l z = Some m -> ordered n m.
Proof.
  intros l S. induction S as [|x l S IH H]; intros y z n m L Hy Hz; [destruct y; discriminate|]. destruct z as [|z]; [lia|]. cbn in Hz. destruct y as [|y].
  - injection Hy as <-. rewrite Forall_forall in H. apply H. apply nth_error_In in Hz. exact Hz.
  - apply (IH y z); [lia|exact Hy|exact Hz].
Qed.

Lemma partition_spec : forall l pos, StronglySorted ordered l -> forall y n, nth_error l y = Some n -> (y < partition_point l pos <-> start_index n <= pos).
Proof.
  intros l pos S. induction S as [|x l S IH H]; intros y n N; [destruct y; discriminate|]. cbn [partition_point]. destruct (Nat.leb_spec (start_index x) pos) as [L|L].
  - destruct y as [|y]; [injection N as <-; split; lia|]. cbn in N. assert (A := IH y n N). split; intros B; [apply A; lia|apply A in B; lia].
  - split; [lia|]. intros B. destruct y as [|y]; [injection N as <-; lia|]. cbn in N. rewrite Forall_forall in H. destruct (H n (nth_error_In _ _ N)) as [C _]. lia.
Qed.

Definition leaf_start (t : tree) (q : list nat) : nat := match subtree t q with Some s => start_of s | None => 0 end.
Definition leaf_end (t : tree) (q : list nat) : nat := match subtree t q with Some s => end_of s | None => 0 end.

(** A leaf is always found, and it is the right one: the last that touches the position; else the one before which the
    position is (in the white space or in a comment); else, after all of them, the last. *)
Theorem C18_leaf_by_position : forall t hi pos, proper t -> placed 0 t hi -> exists q,
  leaf_by_position (array t) pos = Some (index t q) /\ leaf_at t q /\
  (leaf_start t q <= pos <= leaf_end t q /\ (forall q', leaf_at t q' -> left_of q q' -> pos < leaf_start t q') \/
   pos < leaf_start t q /\ (forall q', leaf_at t q' -> left_of q' q -> leaf_end t q' < pos) \/
   leaf_end t q < pos /\ (forall q', leaf_at t q' -> ~ left_of q q')).
Proof.
  intros t hi pos P Pl. destruct (placed_flat 0 t hi Pl P) as [_ X]. destruct (X true) as [So _]. fold (array t) in So. clear X.
  assert (At : forall q, leaf_at t q -> exists n, nth_error (array t) (index t q) = Some n /\ is_leaf n = true /\ start_index n = leaf_start t q /\ end_ n = leaf_end t q).
  { intros q Lq. destruct (proj1 (leaf_iff t q P (leaf_node _ _ Lq)) Lq) as (n & N & Ln). exists n. split; [exact N|]. split; [exact Ln|].
    destruct Lq as (ty & st & l & E). destruct (node_at _ _ _ E) as (m & M & _ & _ & A & B). rewrite N in M. injection M as <-. unfold leaf_start, leaf_end. rewrite E. auto. }
  unfold leaf_by_position. assert (H := last_leaf_before_spec (firstn (partition_point (array t) pos) (array t)) 0).
  destruct (last_leaf_before (firstn (partition_point (array t) pos) (array t)) 0) as [i|].
  - destruct H as (y & n & -> & N & Ln & After). assert (Y : y < partition_point (array t) pos).
    { assert (A : y < length (firstn (partition_point (array t) pos) (array t))) by (apply nth_error_Some; congruence). rewrite firstn_length in A. lia. }
    rewrite nth_firstn in N by exact Y. cbn [Nat.add]. rewrite N. destruct (find_leaf t y n P N Ln) as (q & Lq & Iq). destruct (At q Lq) as (n' & N' & _ & St & En).
    rewrite Iq, N in N'. injection N' as <-. assert (Sp := proj1 (partition_spec _ pos So y n N) Y).
    (* leaves on the right start after the position *)
    assert (Right : forall q', leaf_at t q' -> left_of q q' -> pos < leaf_start t q').
    { intros q' Lq' Lo. destruct (At q' Lq') as (m & M & Lm & Sm & _). assert (I' := left_index _ _ _ Lo (leaf_node _ _ Lq) (leaf_node _ _ Lq')).
      destruct (le_lt_dec (leaf_start t q') pos) as [C|C]; [|exact C]. exfalso. assert (K := proj2 (partition_spec _ pos So _ m M) ltac:(lia)).
      assert (Z : is_leaf m = false) by (apply (After (index t q')); [lia|rewrite nth_firstn by exact K; exact M]). congruence. }
    destruct (Nat.ltb_spec (end_ n) pos) as [C|C].
    + rewrite <- Iq. assert (Nx := next_leaf_spec t q P (leaf_node _ _ Lq)). destruct (next_leaf (array t) (index t q)) as [j|].
      * destruct Nx as (q2 & -> & L2 & Pre & Min). exists q2. split; [reflexivity|]. split; [exact L2|]. right. left.
        assert (Lo : left_of q q2) by (destruct Pre as [Z|Z]; [exact Z|exfalso; exact (leaf_not_around _ _ _ Lq (leaf_node _ _ L2) Z)]).
        split; [exact (Right q2 L2 Lo)|]. intros q' L' Lo'. destruct (path_compare q' q) as [->|[D|D]].
        -- lia.
        -- apply (precedes_index t) in D; try (apply leaf_node; assumption). destruct (At q' L') as (m & M & Lm & _ & Em). rewrite Iq in D.
           destruct (sorted_nth _ So _ _ _ _ D M N) as [_ Z]. assert (Z' := Z Lm). unfold end_ in C. lia.
        -- exfalso. destruct (Min q' L' D) as [->|Z].
           ++ assert (W := left_index _ _ _ Lo' (leaf_node _ _ L') (leaf_node _ _ L')). lia.
           ++ assert (W := left_index _ _ _ Lo' (leaf_node _ _ L') (leaf_node _ _ L2)). assert (W' := left_index _ _ _ Z (leaf_node _ _ L2) (leaf_node _ _ L')). lia.
      * exists q. split; [reflexivity|]. split; [exact Lq|]. right. right. split; [lia|]. intros q' L' Lo. exact (Nx q' L' (or_introl Lo)).
    + exists q. split; [congruence|]. split; [exact Lq|]. left. split; [lia|exact Right].
  - (* before the first leaf *)
    assert (F := first_leaf_spec (array t) 0). destruct (first_leaf (array t) 0) as [j|].
    + destruct F as (y & n & -> & N & Ln & Before). destruct (find_leaf t y n P N Ln) as (q & Lq & Iq). exists q. split; [cbn; congruence|]. split; [exact Lq|]. right. left.
      destruct (At q Lq) as (n' & N' & _ & St & _). rewrite Iq, N in N'. injection N' as <-. split.
      * destruct (le_lt_dec (leaf_start t q) pos) as [C|C]; [|exact C]. exfalso. assert (K := proj2 (partition_spec _ pos So y n N) ltac:(lia)).
        assert (Z : is_leaf n = false) by (apply (H y); rewrite nth_firstn by exact K; exact N). congruence.
      * intros q' L' Lo. exfalso. assert (W := left_index _ _ _ Lo (leaf_node _ _ L') (leaf_node _ _ Lq)). destruct (At q' L') as (m & M & Lm & _).
        assert (Z := Before (index t q') m ltac:(lia) M). congruence.
    + exfalso. destruct (last_leaf_spec (length (array t)) t [] t P eq_refl) as (r & _ & Lr & _); [unfold array; rewrite flatten_length; lia|].
      cbn [app] in Lr. destruct (At r Lr) as (m & M & Lm & _). assert (Z := F _ m M). congruence.
Qed.

(** ** A tree: [x = 1] with a comment before it, and an end marker. *)
Definition sample : tree :=
  Node 32768 0 10 [ Node 32769 4 6 [ Node 32770 4 5 [Leaf 1 4 1; Leaf 2 6 1; Leaf 3 8 1]; Leaf 4 9 1 ]; Leaf 5 10 0 ].

Example sample_proper : proper sample.
Proof. repeat (first [constructor | discriminate | lia]). Qed.
Example sample_placed : placed 0 sample 10.
Proof.
  apply (placed_node 0 32768 0 10); [lia|]. apply (placed_more _ _ 10); [apply (placed_node 0 32769 4 6); [lia|]|apply (placed_more _ _ 10); [apply (placed_leaf 10 5 10 0); lia|constructor]].
  apply (placed_more _ _ 9); [apply (placed_node 4 32770 4 5); [lia|]|apply (placed_more _ _ 10); [apply (placed_leaf 9 4 9 1); lia|constructor]].
  apply (placed_more _ _ 5); [apply (placed_leaf 4 1 4 1); lia|]. apply (placed_more _ _ 7); [apply (placed_leaf 5 2 6 1); lia|].
  apply (placed_more _ _ 9); [apply (placed_leaf 7 3 8 1); lia|constructor].
Qed.
Example sample_offsets : map next_node_offset (array sample) = [0; 6; 4; 1; 1; 0; 0; 0].
Proof. reflexivity. Qed.
Example sample_parents : map (parent (array sample)) (seq 0 8) = [None; Some 0; Some 1; Some 2; Some 2; Some 2; Some 1; Some 0].
Proof. reflexivity. Qed.
Example sample_positions : map (leaf_by_position (array sample)) (seq 0 13) =
  map Some [3; 3; 3; 3; 3; 3; 4; 4; 5; 6; 7; 7; 7].
Proof. reflexivity. Qed.
Example sample_children : children (array sample) 1 = Some [2; 6] /\ last_leaf_in_subtree (array sample) 1 = Some 6 /\ next_leaf (array sample) 1 = Some 3.
Proof. repeat split. Qed.

Print Assumptions C17_nodes.
Print Assumptions C17_parent.
Print Assumptions C17_root.
Print Assumptions C17_next_sibling.
Print Assumptions C17_previous_sibling.
Print Assumptions C17_children.
Print Assumptions C17_previous_leaf.
Print Assumptions C17_next_leaf.
Print Assumptions C17_last_leaf.
Print Assumptions C18_leaf_by_position.
