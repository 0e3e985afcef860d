(** Proofs about trees and their arrays. *)
From Coq Require Import List Arith NArith Bool Lia.
From Verif Require Import TreeModel TreeSpec.
Import ListNotations.

Lemma tree_ind' : forall P : tree -> Prop,
  (forall ty s l, P (Leaf ty s l)) -> (forall ty s l cs, Forall P cs -> P (Node ty s l cs)) -> forall t, P t.
Proof.
  intros P HL HN. fix F 1. intros [ty s l|ty s l cs]; [apply HL|]. apply HN. induction cs as [|c cs IH]; constructor; [apply F|exact IH].
Qed.

Fixpoint flat_children (cs : list tree) : list node :=
  match cs with
  | [] => []
  | c :: r => flatten (match r with [] => true | _ :: _ => false end) c ++ flat_children r
  end.
Definition sizes (cs : list tree) : nat := list_sum (map size cs).

Lemma flatten_node : forall b ty s l cs, flatten b (Node ty s l cs) = mk_node (if b then 0 else S (sizes cs)) ty s l :: flat_children cs.
Proof. reflexivity. Qed.

Lemma sizes_cons : forall c cs, sizes (c :: cs) = size c + sizes cs.
Proof. reflexivity. Qed.
Lemma sizes_app : forall a b, sizes (a ++ b) = sizes a + sizes b.
Proof. intros a b. unfold sizes. rewrite map_app, list_sum_app. reflexivity. Qed.

Lemma size_pos : forall t, 1 <= size t.
Proof. intros []; cbn; lia. Qed.

Lemma flatten_length : forall t b, length (flatten b t) = size t.
Proof.
  intros t. induction t as [ty s l|ty s l cs IH] using tree_ind'; intros b; [reflexivity|].
  rewrite flatten_node. cbn [length size]. f_equal. fold (sizes cs). induction IH as [|c cs Hc _ IHcs]; [reflexivity|].
  cbn [flat_children]. rewrite app_length, Hc, IHcs, sizes_cons. reflexivity.
Qed.

Lemma flat_children_length : forall cs, length (flat_children cs) = sizes cs.
Proof. induction cs as [|c cs IH]; [reflexivity|]. cbn [flat_children]. rewrite app_length, flatten_length, IH. reflexivity. Qed.

(** All the children but the last. *)
Fixpoint flat_init (cs : list tree) : list node :=
  match cs with [] => [] | c :: r => flatten false c ++ flat_init r end.

Lemma flat_init_length : forall cs, length (flat_init cs) = sizes cs.
Proof. induction cs as [|c cs IH]; [reflexivity|]. cbn [flat_init]. rewrite app_length, flatten_length, IH. reflexivity. Qed.

Lemma flat_init_snoc : forall cs c, flat_init (cs ++ [c]) = flat_init cs ++ flatten false c.
Proof. induction cs as [|d cs IH]; intros c; cbn [flat_init app]; [apply app_nil_r|]. rewrite IH, app_assoc. reflexivity. Qed.

Lemma flat_split : forall a c b, flat_children (a ++ c :: b) = flat_init a ++ flatten (match b with [] => true | _ => false end) c ++ flat_children b.
Proof.
  induction a as [|d a IH]; intros c b; [reflexivity|]. cbn [flat_children flat_init app]. rewrite <- app_assoc, IH.
  destruct (a ++ c :: b) eqn:E; [destruct a; discriminate|reflexivity].
Qed.

Lemma head_of : forall t b, exists n, nth_error (flatten b t) 0 = Some n /\ next_node_offset n = (if b then 0 else size t) /\
  type_ n = type_of t /\ start_index n = start_of t /\ end_ n = end_of t /\ exists r, flatten b t = n :: r.
Proof.
  intros [ty s l|ty s l cs] b; (eexists; split; [reflexivity|]); cbn; (repeat apply conj; try reflexivity); try (destruct b; reflexivity); eexists; reflexivity.
Qed.

(** Offsets stay inside, except the one of the node itself. *)
Lemma interior : forall t b r n, nth_error (flatten b t) (S r) = Some n -> S r + next_node_offset n < size t.
Proof.
  intros t. induction t as [ty s l|ty s l cs IH] using tree_ind'; intros b r n H.
  - cbn in H. destruct r; discriminate.
  - rewrite flatten_node in H. cbn [nth_error size] in *. fold (sizes cs). cut (r + next_node_offset n < sizes cs); [lia|]. clear b.
    revert r H. induction IH as [|c cs Hc _ IHcs]; intros r H; [destruct r; discriminate|]. cbn [flat_children] in H. rewrite sizes_cons.
    destruct (lt_dec r (size c)) as [L|L].
    + rewrite nth_error_app1 in H by (rewrite flatten_length; exact L). destruct r as [|r].
      * destruct (head_of c (match cs with [] => true | _ => false end)) as (h & Hh & O & _). rewrite Hh in H. injection H as <-. rewrite O. assert (S' := size_pos c).
        destruct cs as [|d cs]; [lia|]. rewrite sizes_cons. assert (P := size_pos d). lia.
      * assert (A := Hc _ _ _ H). lia.
    + rewrite nth_error_app2 in H by (rewrite flatten_length; lia). rewrite flatten_length in H. assert (A := IHcs _ H). lia.
Qed.

(** The last node is a leaf. *)
Lemma last_is_leaf : forall t, proper t -> forall b n, nth_error (flatten b t) (size t - 1) = Some n -> is_leaf n = true.
Proof.
  intros t. induction t as [ty s l|ty s l cs IH] using tree_ind'; intros P b n H.
  - cbn in H. injection H as <-. inversion P; subst. unfold is_leaf. apply N.ltb_lt. assumption.
  - inversion P as [|? ? ? ? T N F]; subst. destruct (exists_last N) as (a & c & ->). rewrite flatten_node, flat_split in H. cbn [size] in H. fold (sizes (a ++ [c])) in H.
    rewrite sizes_app, sizes_cons in H. change (sizes []) with 0 in H. assert (S' := size_pos c).
    replace (S (sizes a + (size c + 0)) - 1) with (S (sizes a + (size c - 1))) in H by lia. cbn [nth_error] in H.
    rewrite nth_error_app2 in H by (rewrite flat_init_length; lia). rewrite flat_init_length in H. replace (sizes a + (size c - 1) - sizes a) with (size c - 1) in H by lia.
    rewrite nth_error_app1 in H by (rewrite flatten_length; lia).
    rewrite Forall_app in IH, F. destruct IH as [_ IH], F as [_ F]. inversion IH; subst. inversion F; subst. eauto.
Qed.

(** ** Subtrees in the array *)
Fixpoint lastness (b : bool) (t : tree) (p : list nat) : bool :=
  match p with
  | [] => b
  | k :: p =>
      match t with
      | Leaf _ _ _ => b
      | Node _ _ _ cs => match nth_error cs k with Some c => lastness (S k =? length cs) c p | None => b end
      end
  end.

Lemma nth_split' : forall {A} (l : list A) k x, nth_error l k = Some x -> l = firstn k l ++ x :: skipn (S k) l /\ length (firstn k l) = k.
Proof.
  intros A l k x H. assert (L : k < length l) by (apply nth_error_Some; congruence). split.
  - rewrite <- (firstn_skipn k l) at 1. f_equal. revert k H L. induction l as [|y l IH]; intros [|k] H L; cbn in *; try discriminate; [congruence|]. apply IH; [exact H|lia].
  - apply firstn_length_le. lia.
Qed.

Lemma decompose : forall p t b s, subtree t p = Some s ->
  exists pre post, flatten b t = pre ++ flatten (lastness b t p) s ++ post /\ length pre = index t p.
Proof.
  induction p as [|k p IH]; intros t b s H.
  - injection H as ->. exists [], []. rewrite app_nil_r. split; reflexivity.
  - cbn [subtree] in H. destruct t as [|ty st l cs]; [discriminate|]. destruct (nth_error cs k) as [c|] eqn:E; [|discriminate].
    destruct (nth_split' cs k c E) as [Sp Len]. cbn [lastness index]. rewrite E. destruct (IH c (S k =? length cs) s H) as (pre & post & D & L).
    exists (mk_node (if b then 0 else S (sizes cs)) ty st l :: flat_init (firstn k cs) ++ pre), (post ++ flat_children (skipn (S k) cs)).
    split.
    + rewrite flatten_node. rewrite Sp at 2. rewrite flat_split.
      replace (match skipn (S k) cs with [] => true | _ => false end) with (S k =? length cs).
      * rewrite D, <- !app_assoc. cbn [app]. rewrite <- !app_assoc. reflexivity.
      * assert (Q := skipn_length (S k) cs). assert (k < length cs) by (apply nth_error_Some; congruence). destruct (skipn (S k) cs) eqn:Z; cbn [length] in Q.
        -- apply Nat.eqb_eq. lia.
        -- apply Nat.eqb_neq. lia.
    + cbn [length]. rewrite app_length, flat_init_length, L. unfold sizes. lia.
Qed.

Lemma node_at : forall t p s, subtree t p = Some s ->
  exists n, nth_error (array t) (index t p) = Some n /\ next_node_offset n = (if lastness true t p then 0 else size s) /\
    type_ n = type_of s /\ start_index n = start_of s /\ end_ n = end_of s.
Proof.
  intros t p s H. destruct (decompose p t true s H) as (pre & post & D & L). destruct (head_of s (lastness true t p)) as (n & _ & O & T & St & En & r & F).
  exists n. split; [|auto]. unfold array. rewrite D, <- L, nth_error_app2, Nat.sub_diag by lia. rewrite F. reflexivity.
Qed.

Lemma index_bound : forall p t s, subtree t p = Some s -> index t p + size s <= size t.
Proof.
  intros p t s H. destruct (decompose p t true s H) as (pre & post & D & L). assert (Q := flatten_length t true). rewrite D, !app_length, flatten_length in Q. lia.
Qed.

Lemma subtree_app : forall p q t, subtree t (p ++ q) = match subtree t p with Some s => subtree s q | None => None end.
Proof.
  induction p as [|k p IH]; intros q t; [reflexivity|]. cbn [app subtree]. destruct t as [|ty st l cs]; [reflexivity|]. destruct (nth_error cs k); [apply IH|reflexivity].
Qed.

Lemma index_app : forall p q t s, subtree t p = Some s -> index t (p ++ q) = index t p + index s q.
Proof.
  induction p as [|k p IH]; intros q t s H; [injection H as ->; reflexivity|]. cbn [app subtree index] in *. destruct t as [|ty st l cs]; [discriminate|].
  destruct (nth_error cs k) as [c|]; [|discriminate]. rewrite (IH q c s H). lia.
Qed.

Lemma lastness_app : forall p k t b ty st l cs c, subtree t p = Some (Node ty st l cs) -> nth_error cs k = Some c ->
  lastness b t (p ++ [k]) = (S k =? length cs).
Proof.
  induction p as [|j p IH]; intros k t b ty st l cs c H E.
  - injection H as ->. cbn. rewrite E. reflexivity.
  - cbn [app subtree lastness] in *. destruct t as [|ty' st' l' cs']; [discriminate|]. destruct (nth_error cs' j) as [d|]; [|discriminate].
    apply (IH k d _ _ _ _ _ _ H E).
Qed.

Lemma subtree_proper : forall p t s, proper t -> subtree t p = Some s -> proper s.
Proof.
  induction p as [|k p IH]; intros t s P H; [injection H as <-; exact P|]. cbn [subtree] in H. destruct t as [|ty st l cs]; [discriminate|].
  destruct (nth_error cs k) as [c|] eqn:E; [|discriminate]. inversion P as [|? ? ? ? _ _ F]; subst. apply (IH c s); [|exact H].
  rewrite Forall_forall in F. apply F. apply nth_error_In in E. exact E.
Qed.

(** Shape of the array around a child. *)
Lemma around_child : forall t p ty st l cs k c, subtree t p = Some (Node ty st l cs) -> nth_error cs k = Some c ->
  subtree t (p ++ [k]) = Some c /\
  index t (p ++ [k]) = index t p + 1 + sizes (firstn k cs) /\
  exists pre post, array t = pre ++ (mk_node (if lastness true t p then 0 else S (sizes cs)) ty st l :: flat_init (firstn k cs)) ++
      flatten (S k =? length cs) c ++ post /\ length pre = index t p.
Proof.
  intros t p ty st l cs k c H E. split; [rewrite subtree_app, H; cbn; rewrite E; reflexivity|]. split.
  - rewrite (index_app _ _ _ _ H). cbn [index]. rewrite E. cbn. fold (sizes (firstn k cs)). lia.
  - destruct (decompose p t true _ H) as (pre & post & D & L). destruct (nth_split' cs k c E) as [Sp Len].
    exists pre, (flat_children (skipn (S k) cs) ++ post). split; [|exact L]. unfold array. rewrite D, flatten_node. rewrite Sp at 2. rewrite flat_split.
    replace (match skipn (S k) cs with [] => true | _ => false end) with (S k =? length cs).
    + cbn [app]. rewrite <- !app_assoc. reflexivity.
    + assert (Q := skipn_length (S k) cs). assert (k < length cs) by (apply nth_error_Some; congruence). destruct (skipn (S k) cs) eqn:Z; cbn [length] in Q.
      * apply Nat.eqb_eq. lia.
      * apply Nat.eqb_neq. lia.
Qed.

(** ** Parents *)
Lemma parent_subtree : forall t, proper t -> forall back x i,
  parent_ (rev (flatten false t) ++ back) x (S i) i = parent_ back x (S (i + size t)) (i + size t).
Proof.
  intros t P back x i. destruct (head_of t false) as (h & _ & Oh & _ & _ & _ & r & F). rewrite F. cbn [rev]. rewrite <- app_assoc. cbn [app].
  assert (Len := flatten_length t false). rewrite F in Len. cbn [length] in Len.
  (* the inner nodes *)
  assert (G : forall w j, (forall k n, nth_error w k = Some n -> next_node_offset n < S j + k - i /\ (S j + k = S i -> is_leaf n = true)) -> i <= j ->
     parent_ (w ++ h :: back) x (S j) i = parent_ (h :: back) x (S j + length w) i).
  { induction w as [|n w IH]; intros j Hw Hj; [cbn [app length]; f_equal; lia|]. cbn [length]. replace (S j + S (length w)) with (S (S j) + length w) by lia.
    rewrite <- IH; [|intros k m Hk; destruct (Hw (S k) m Hk) as [Om Lm]; split; [lia|intros E; lia]|lia]. cbn [app parent_].
    destruct (Hw 0 n eq_refl) as [On Ln]. rewrite !Nat.add_0_r in *.
    assert (A : ((S j <? next_node_offset n) || ((next_node_offset n =? 0) && (S j =? i + 1))) && negb (is_leaf n) = false).
    { destruct (Nat.ltb_spec (S j) (next_node_offset n)); [lia|]. cbn [orb]. destruct (Nat.eqb_spec (S j) (i + 1)) as [E|E]; [|rewrite andb_false_r; reflexivity].
      rewrite Ln by lia. rewrite andb_false_r. reflexivity. }
    rewrite A. assert (B : i + next_node_offset n =? S j = false) by (apply Nat.eqb_neq; lia). rewrite B. reflexivity. }
  assert (Rr : forall k n, nth_error (rev r) k = Some n -> next_node_offset n < S i + k - i /\ (S i + k = S i -> is_leaf n = true)).
  { intros k n H. assert (K : k < length r) by (rewrite <- rev_length; apply nth_error_Some; congruence).
    assert (H' : nth_error r (length r - S k) = Some n).
    { rewrite <- (rev_involutive r) at 1. rewrite <- (rev_length r). clear -H. revert k H. generalize (rev r). intros w k H.
      assert (L : k < length w) by (apply nth_error_Some; congruence).
      apply nth_error_split in H. destruct H as (a & b & -> & <-). rewrite rev_app_distr. cbn [rev]. rewrite <- app_assoc, app_length. cbn [length].
      rewrite nth_error_app2 by (rewrite rev_length; lia). rewrite rev_length. replace (length a + S (length b) - S (length a) - length b) with 0 by lia. reflexivity. }
    assert (H2 : nth_error (flatten false t) (S (length r - S k)) = Some n) by (rewrite F; exact H'). split.
    - assert (I := interior _ _ _ _ H2). lia.
    - intros E. apply (last_is_leaf t P false). rewrite <- H2. f_equal. lia. }
  rewrite (G (rev r) i Rr (le_n i)), rev_length. cbn [parent_].
  assert (A : ((S i + length r <? next_node_offset h) || ((next_node_offset h =? 0) && (S i + length r =? i + 1))) && negb (is_leaf h) = false).
  { rewrite Oh. assert (S' := size_pos t). destruct (Nat.ltb_spec (S i + length r) (size t)); [lia|]. destruct (Nat.eqb_spec (size t) 0); [lia|]. reflexivity. }
  rewrite A. assert (B : i + next_node_offset h =? S i + length r = true) by (apply Nat.eqb_eq; lia). rewrite B. f_equal; lia.
Qed.

Lemma parent_siblings : forall cs, Forall proper cs -> forall back x i,
  parent_ (rev (flat_init cs) ++ back) x (S i) i = parent_ back x (S (i + sizes cs)) (i + sizes cs).
Proof.
  intros cs. induction cs as [|c cs IH] using rev_ind; intros F back x i; [cbn; f_equal; lia|].
  rewrite flat_init_snoc, rev_app_distr, <- app_assoc. rewrite Forall_app in F. destruct F as [F1 F2]. inversion F2; subst.
  rewrite parent_subtree by assumption. rewrite IH by exact F1. rewrite sizes_app, sizes_cons. change (sizes []) with 0. f_equal; lia.
Qed.

Lemma proper_node_not_leaf : forall o ty st l cs, proper (Node ty st l cs) -> is_leaf (mk_node o ty st l) = false.
Proof. intros o ty st l cs P. inversion P; subst. unfold is_leaf. cbn. apply N.ltb_ge. assumption. Qed.

Lemma sizes_firstn_lt : forall cs k c, nth_error cs k = Some c -> sizes (firstn k cs) + size c <= sizes cs.
Proof. intros cs k c H. destruct (nth_split' cs k c H) as [E _]. rewrite E at 2. rewrite sizes_app, sizes_cons. lia. Qed.

Lemma child_exists : forall t p k c, subtree t (p ++ [k]) = Some c -> exists ty st l cs, subtree t p = Some (Node ty st l cs) /\ nth_error cs k = Some c.
Proof.
  intros t p k c H. rewrite subtree_app in H. destruct (subtree t p) as [[|ty st l cs]|] eqn:E; try discriminate. cbn in H.
  destruct (nth_error cs k) eqn:K; [|discriminate]. injection H as ->. eauto 6.
Qed.

Lemma parent_spec : forall t p k c, proper t -> subtree t (p ++ [k]) = Some c -> parent (array t) (index t (p ++ [k])) = Some (index t p).
Proof.
  intros t p k c P H. destruct (child_exists _ _ _ _ H) as (ty & st & l & cs & Hp & E). destruct (around_child _ _ _ _ _ _ _ _ Hp E) as (_ & I & pre & post & A & L).
  assert (Pp := subtree_proper _ _ _ P Hp). unfold parent. rewrite I, A, app_assoc.
  rewrite firstn_app. set (h := mk_node (if lastness true t p then 0 else S (sizes cs)) ty st l) in *.
  assert (Len : length (pre ++ h :: flat_init (firstn k cs)) = index t p + 1 + sizes (firstn k cs)) by (rewrite app_length; cbn [length]; rewrite flat_init_length; lia).
  rewrite Len, Nat.sub_diag, firstn_O, app_nil_r, firstn_all2 by lia. rewrite rev_app_distr. cbn [rev]. rewrite <- !app_assoc.
  assert (Fp : Forall proper (firstn k cs)).
  { inversion Pp as [|? ? ? ? _ _ F]; subst. rewrite <- (firstn_skipn k cs), Forall_app in F. apply F. }
  rewrite (parent_siblings _ Fp). cbn [app parent_]. assert (Z := sizes_firstn_lt _ _ _ E). assert (S' := size_pos c).
  unfold h at 3. rewrite (proper_node_not_leaf _ _ _ _ _ Pp). cbn [negb]. rewrite andb_true_r. unfold h. cbn [next_node_offset].
  assert (B : (S (0 + sizes (firstn k cs)) <? (if lastness true t p then 0 else S (sizes cs))) || (((if lastness true t p then 0 else S (sizes cs)) =? 0) && (S (0 + sizes (firstn k cs)) =? 0 + sizes (firstn k cs) + 1)) = true).
  { destruct (lastness true t p).
    - apply orb_true_iff. right. apply andb_true_intro. split; apply Nat.eqb_eq; lia.
    - apply orb_true_iff. left. apply Nat.ltb_lt. lia. }
  rewrite B. f_equal. lia.
Qed.

(** ** Siblings *)
Lemma next_sibling_spec : forall t p k c, subtree t (p ++ [k]) = Some c ->
  next_sibling (array t) (index t (p ++ [k])) = match subtree t (p ++ [S k]) with Some _ => Some (index t (p ++ [S k])) | None => None end.
Proof.
  intros t p k c H. destruct (child_exists _ _ _ _ H) as (ty & st & l & cs & Hp & E). destruct (around_child _ _ _ _ _ _ _ _ Hp E) as (_ & I & _).
  unfold next_sibling. destruct (node_at _ _ _ H) as (n & N & O & _). rewrite N, O, (lastness_app _ _ _ _ _ _ _ _ _ Hp E), subtree_app, Hp. cbn [subtree].
  assert (K : k < length cs) by (apply nth_error_Some; congruence). destruct (Nat.eqb_spec (S k) (length cs)) as [Q|Q].
  - cbn [Nat.eqb]. assert (Z : nth_error cs (S k) = None) by (apply nth_error_None; lia). rewrite Z. reflexivity.
  - assert (S' := size_pos c). destruct (Nat.eqb_spec (size c) 0); [lia|]. destruct (nth_error cs (S k)) as [d|] eqn:D; [|apply nth_error_None in D; lia].
    destruct (around_child _ _ _ _ _ _ _ _ Hp D) as (_ & I' & _). rewrite I', I. f_equal.
    replace (firstn (S k) cs) with (firstn k cs ++ [c]).
    + rewrite sizes_app, sizes_cons. change (sizes []) with 0. lia.
    + clear -E. revert cs E. induction k as [|k IH]; intros [|x cs] E; try discriminate; cbn in *; [congruence|]. f_equal. apply IH. exact E.
Qed.

Lemma root_next : forall t, next_sibling (array t) 0 = None.
Proof. intros [|]; reflexivity. Qed.

Lemma previous_walk_none : forall back x i, (forall j n, nth_error back j = Some n -> next_node_offset n <> i + j) -> previous_sibling_ back x i = None.
Proof.
  induction back as [|n back IH]; intros x i H; [reflexivity|]. cbn [previous_sibling_]. assert (A := H 0 n eq_refl). rewrite Nat.add_0_r in A.
  destruct (Nat.eqb_spec (next_node_offset n) i); [contradiction|]. destruct (i <? next_node_offset n); [reflexivity|]. apply IH. intros j m Hj.
  assert (B := H (S j) m Hj). lia.
Qed.

Lemma nth_error_rev : forall {A} (w : list A) k n, nth_error (rev w) k = Some n -> k < length w /\ nth_error w (length w - S k) = Some n.
Proof.
  intros A w k n H. assert (K : k < length w) by (rewrite <- rev_length; apply nth_error_Some; congruence). split; [exact K|].
  rewrite <- (rev_involutive w) at 1. rewrite <- (rev_length w). clear K. revert k H. generalize (rev w). clear w. intros w k H.
  apply nth_error_split in H. destruct H as (a & b & -> & <-). rewrite rev_app_distr. cbn [rev]. rewrite <- app_assoc, app_length. cbn [length].
  rewrite nth_error_app2 by (rewrite rev_length; lia). rewrite rev_length. replace (length a + S (length b) - S (length a) - length b) with 0 by lia. reflexivity.
Qed.

(** Nobody points at the first child. *)
Lemma no_target : forall p t b c, subtree t (p ++ [0]) = Some c -> forall y n, y < index t (p ++ [0]) -> nth_error (flatten b t) y = Some n ->
  y + next_node_offset n <> index t (p ++ [0]).
Proof.
  induction p as [|k p IH]; intros t b c H y n Hy N.
  - cbn [app subtree index] in *. destruct t as [|ty st l [|d cs]]; [discriminate|discriminate|]. cbn in Hy. assert (y = 0) as -> by lia.
    cbn in N. injection N as <-. cbn. assert (S' := size_pos d). destruct b; cbn; lia.
  - assert (B := index_bound _ _ _ H). assert (Sc := size_pos c). cbn [app subtree index] in *. destruct t as [|ty st l cs]; [discriminate|].
    destruct (nth_error cs k) as [d|] eqn:E; [|discriminate]. fold (sizes (firstn k cs)) in *.
    assert (Pos : 0 < index d (p ++ [0])) by (destruct p; cbn [app index] in *; destruct d; cbn in H |- *; try discriminate; lia).
    destruct y as [|y].
    + cbn in N. injection N as <-. cbn [next_node_offset size] in *. fold (sizes cs) in *. destruct b; lia.
    + rewrite flatten_node in N. cbn [nth_error] in N. destruct (nth_split' cs k d E) as [Sp Len]. rewrite Sp, flat_split in N.
      destruct (lt_dec y (sizes (firstn k cs))) as [L|L].
      * rewrite nth_error_app1 in N by (rewrite flat_init_length; exact L).
        assert (G : forall cs y n, nth_error (flat_init cs) y = Some n -> y + next_node_offset n <= sizes cs).
        { clear. induction cs as [|c cs IH]; intros y n H; [destruct y; discriminate|]. cbn [flat_init] in H. rewrite sizes_cons. destruct (lt_dec y (size c)) as [L|L].
          - rewrite nth_error_app1 in H by (rewrite flatten_length; exact L). destruct y as [|y].
            + destruct (head_of c false) as (h & Hh & O & _). rewrite Hh in H. injection H as <-. lia.
            + assert (A := interior _ _ _ _ H). lia.
          - rewrite nth_error_app2 in H by (rewrite flatten_length; lia). rewrite flatten_length in H. assert (A := IH _ _ H). lia. }
        assert (A := G _ _ _ N). lia.
      * rewrite nth_error_app2 in N by (rewrite flat_init_length; lia). rewrite flat_init_length in N.
        assert (Hd : y - sizes (firstn k cs) < index d (p ++ [0])) by lia.
        assert (B' := index_bound _ _ _ H). rewrite nth_error_app1 in N by (rewrite flatten_length; lia).
        assert (A := IH d _ c H _ _ Hd N). lia.
Qed.

Lemma previous_first : forall t p c, subtree t (p ++ [0]) = Some c -> previous_sibling (array t) (index t (p ++ [0])) = None.
Proof.
  intros t p c H. apply previous_walk_none. intros j n N. apply nth_error_rev in N. destruct N as [J N]. assert (B := index_bound _ _ _ H).
  rewrite firstn_length_le in J, N by (unfold array; rewrite flatten_length; assert (S' := size_pos c); lia).
  assert (N' : nth_error (flatten true t) (index t (p ++ [0]) - S j) = Some n).
  { unfold array in N. rewrite <- (firstn_skipn (index t (p ++ [0])) (flatten true t)). rewrite nth_error_app1; [exact N|]. apply nth_error_Some. congruence. }
  assert (Y : index t (p ++ [0]) - S j < index t (p ++ [0])) by lia. assert (A := no_target p t true c H _ _ Y N'). lia.
Qed.

Lemma previous_spec : forall t p k c, subtree t (p ++ [S k]) = Some c -> previous_sibling (array t) (index t (p ++ [S k])) = Some (index t (p ++ [k])).
Proof.
  intros t p k c H. destruct (child_exists _ _ _ _ H) as (ty & st & l & cs & Hp & E). destruct (around_child _ _ _ _ _ _ _ _ Hp E) as (_ & I & pre & post & A & L).
  assert (exists d, nth_error cs k = Some d) as [d D].
  { destruct (nth_error cs k) eqn:D; [eauto|]. apply nth_error_None in D. assert (S k < length cs) by (apply nth_error_Some; congruence). lia. }
  destruct (around_child _ _ _ _ _ _ _ _ Hp D) as (_ & I' & _).
  assert (Fs : firstn (S k) cs = firstn k cs ++ [d]).
  { clear -D. revert cs D. induction k as [|k IH]; intros [|x cs] D; try discriminate; cbn in *; [congruence|]. f_equal. apply IH. exact D. }
  rewrite Fs, flat_init_snoc in A. rewrite Fs, sizes_app, sizes_cons in I. change (sizes []) with 0 in I.
  unfold previous_sibling. rewrite I, A. set (h := mk_node _ ty st l) in *. rewrite app_assoc.
  rewrite firstn_app. assert (Len : length (pre ++ h :: flat_init (firstn k cs) ++ flatten false d) = index t p + 1 + (sizes (firstn k cs) + (size d + 0))).
  { rewrite app_length. cbn [length]. rewrite app_length, flat_init_length, flatten_length. lia. }
  rewrite Len, Nat.sub_diag, firstn_O, app_nil_r, firstn_all2 by lia.
  assert (E2 : rev (pre ++ h :: flat_init (firstn k cs) ++ flatten false d) = rev (flatten false d) ++ rev (flat_init (firstn k cs)) ++ h :: rev pre).
  { rewrite rev_app_distr. cbn [rev]. rewrite rev_app_distr, <- !app_assoc. reflexivity. }
  rewrite E2. generalize (rev (flat_init (firstn k cs)) ++ h :: rev pre). intros back.
  destruct (head_of d false) as (g & _ & Og & _ & _ & _ & r & F). rewrite F. cbn [rev]. rewrite <- app_assoc. cbn [app].
  assert (Ld := flatten_length d false). rewrite F in Ld. cbn [length] in Ld.
  assert (G : forall w i y, (forall j n, nth_error w j = Some n -> next_node_offset n < i + j) -> previous_sibling_ (w ++ g :: back) y i = previous_sibling_ (g :: back) y (i + length w)).
  { induction w as [|n w IH]; intros i y Hw; [cbn [app length]; f_equal; lia|]. assert (W := Hw 0 n eq_refl). cbn [app length]. cbn [previous_sibling_].
    destruct (Nat.eqb_spec (next_node_offset n) i); [lia|]. destruct (Nat.ltb_spec i (next_node_offset n)); [lia|].
    rewrite IH; [cbn [previous_sibling_]; replace (S i + length w) with (i + S (length w)) by lia; reflexivity|]. intros j m Hj. assert (X := Hw (S j) m Hj). lia. }
  rewrite G.
  - rewrite rev_length. cbn [previous_sibling_]. rewrite Og. destruct (Nat.eqb_spec (size d) (1 + length r)); [|lia]. f_equal. lia.
  - intros j n N. apply nth_error_rev in N. destruct N as [J N]. assert (N2 : nth_error (flatten false d) (S (length r - S j)) = Some n) by (rewrite F; exact N).
    assert (Q := interior _ _ _ _ N2). lia.
Qed.

(** ** Children *)
Lemma sizes_count : forall cs, length cs <= sizes cs.
Proof. induction cs as [|c cs IH]; [cbn; lia|]. rewrite sizes_cons. cbn [length]. assert (S' := size_pos c). lia. Qed.

Lemma siblings_spec : forall t p ty st l cs, subtree t p = Some (Node ty st l cs) -> forall m k fuel, k + S m = length cs -> m < fuel ->
  siblings fuel (array t) (index t (p ++ [k])) = Some (map (fun j => index t (p ++ [j])) (seq k (S m))).
Proof.
  intros t p ty st l cs Hp. induction m as [|m IH]; intros k fuel K F; (destruct fuel as [|fuel]; [lia|]); cbn [siblings];
    (destruct (nth_error cs k) as [c|] eqn:E; [|apply nth_error_None in E; lia]);
    destruct (around_child _ _ _ _ _ _ _ _ Hp E) as (Hk & _); destruct (node_at _ _ _ Hk) as (n & N & O & _); rewrite N, O, (lastness_app _ _ _ _ _ _ _ _ _ Hp E).
  - destruct (Nat.eqb_spec (S k) (length cs)); [|lia]. reflexivity.
  - destruct (Nat.eqb_spec (S k) (length cs)); [lia|]. assert (S' := size_pos c). destruct (Nat.eqb_spec (size c) 0); [lia|].
    assert (Nx := next_sibling_spec _ _ _ _ Hk). unfold next_sibling in Nx. rewrite N, O, (lastness_app _ _ _ _ _ _ _ _ _ Hp E) in Nx.
    destruct (Nat.eqb_spec (S k) (length cs)); [lia|]. destruct (Nat.eqb_spec (size c) 0); [lia|].
    destruct (subtree t (p ++ [S k])) as [d|] eqn:D; [|discriminate]. injection Nx as Nx. rewrite Nx, (IH (S k) fuel) by lia. reflexivity.
Qed.

Lemma leaf_index : forall t p s, subtree t p = Some s -> proper t -> exists n, nth_error (array t) (index t p) = Some n /\
  is_leaf n = match s with Leaf _ _ _ => true | Node _ _ _ _ => false end.
Proof.
  intros t p s H P. destruct (node_at _ _ _ H) as (n & N & _ & T & _). exists n. split; [exact N|]. unfold is_leaf. rewrite T.
  assert (Ps := subtree_proper _ _ _ P H). destruct s; inversion Ps; subst; cbn [type_of]; [apply N.ltb_lt|apply N.ltb_ge]; assumption.
Qed.

Lemma children_spec : forall t p ty st l cs, proper t -> subtree t p = Some (Node ty st l cs) ->
  children (array t) (index t p) = Some (map (fun j => index t (p ++ [j])) (seq 0 (length cs))).
Proof.
  intros t p ty st l cs P H. unfold children. destruct (leaf_index _ _ _ H P) as (n & N & Ln). rewrite N, Ln.
  assert (Ps := subtree_proper _ _ _ P H). inversion Ps as [|? ? ? ? _ Ne _]; subst. destruct cs as [|c cs]; [contradiction|].
  assert (I : index t (p ++ [0]) = S (index t p)) by (rewrite (index_app _ _ _ _ H); cbn; lia). rewrite <- I.
  rewrite (siblings_spec _ _ _ _ _ _ H (length cs) 0); [reflexivity|reflexivity|]. unfold array. rewrite flatten_length. assert (B := index_bound _ _ _ H). cbn [size] in B.
  fold (sizes (c :: cs)) in B. assert (C := sizes_count (c :: cs)). cbn [length] in C. lia.
Qed.

Lemma children_leaf : forall t p ty st l, proper t -> subtree t p = Some (Leaf ty st l) -> children (array t) (index t p) = Some [].
Proof. intros t p ty st l P H. unfold children. destruct (leaf_index _ _ _ H P) as (n & N & Ln). rewrite N, Ln. reflexivity. Qed.

(** ** Every place in the array is one node *)
Lemma sizes_locate : forall cs y, y < sizes cs -> exists k c, nth_error cs k = Some c /\ sizes (firstn k cs) <= y < sizes (firstn k cs) + size c.
Proof.
  induction cs as [|c cs IH]; intros y H; [cbn in H; lia|]. rewrite sizes_cons in H. destruct (lt_dec y (size c)) as [L|L].
  - exists 0, c. cbn. split; [reflexivity|]. unfold sizes. cbn. lia.
  - destruct (IH (y - size c)) as (k & d & E & B); [lia|]. exists (S k), d. split; [exact E|]. cbn [firstn]. rewrite sizes_cons. lia.
Qed.

Lemma index_onto : forall t y, y < size t -> exists p s, subtree t p = Some s /\ index t p = y.
Proof.
  intros t. induction t as [ty s l|ty s l cs IH] using tree_ind'; intros y H; (destruct y as [|y]; [exists []; eexists; split; reflexivity|]); [cbn in H; lia|].
  cbn [size] in H. fold (sizes cs) in H. destruct (sizes_locate cs y) as (k & c & E & B); [lia|].
  rewrite Forall_forall in IH. destruct (IH c (nth_error_In _ _ E) (y - sizes (firstn k cs))) as (p & s' & Sp & Ip); [lia|].
  exists (k :: p), s'. cbn [subtree index]. rewrite E. split; [exact Sp|]. fold (sizes (firstn k cs)). lia.
Qed.

(** Two nodes are the same, or one is before or around the other. *)
Lemma path_compare : forall p q : list nat, p = q \/ precedes p q \/ precedes q p.
Proof.
  induction p as [|i p IH]; intros [|j q]; [left; reflexivity| | |].
  - right. left. right. exists j, q. reflexivity.
  - right. right. right. exists i, p. reflexivity.
  - destruct (lt_eq_lt_dec i j) as [[L| ->]|L].
    + right. left. left. exists [], i, j, p, q. auto.
    + assert (C : forall a b, precedes a b -> precedes (j :: a) (j :: b)).
      { intros a b [(r & x & y & a' & b' & -> & -> & L)|(k & r & ->)]; [left; exists (j :: r), x, y, a', b'; auto|right; exists k, r; reflexivity]. }
      destruct (IH q) as [->|[H|H]]; auto.
    + right. right. left. exists [], j, i, q, p. auto.
Qed.

Lemma below_index : forall t p q, below q p -> is_node t q -> index t p < index t q.
Proof.
  intros t p q (k & r & ->) N. unfold is_node in N. rewrite subtree_app in N. destruct (subtree t p) as [s|] eqn:E; [|contradiction].
  rewrite (index_app _ _ _ _ E). destruct s; cbn [subtree index] in *; [contradiction|lia].
Qed.

Lemma left_index : forall t p q, left_of p q -> is_node t p -> is_node t q -> index t p < index t q.
Proof.
  intros t p q (r & i & j & p' & q' & -> & -> & L) Np Nq. unfold is_node in *. rewrite subtree_app in Np, Nq. destruct (subtree t r) as [s|] eqn:E; [|contradiction].
  rewrite !(index_app _ _ _ _ E). destruct s as [|ty st l cs]; cbn [subtree index] in *; [contradiction|].
  destruct (nth_error cs i) as [c|] eqn:Ei; [|contradiction]. destruct (nth_error cs j) as [d|] eqn:Ej; [|contradiction].
  destruct (subtree c p') as [s'|] eqn:Sc; [|contradiction]. assert (B := index_bound _ _ _ Sc). assert (S' := size_pos s').
  assert (M : sizes (firstn i cs) + size c <= sizes (firstn j cs)).
  { rewrite <- (sizes_firstn_lt (firstn j cs) i c); [rewrite firstn_firstn, Nat.min_l by lia; reflexivity|].
    rewrite <- Ei. rewrite <- (firstn_skipn j cs) at 2. rewrite nth_error_app1; [reflexivity|]. rewrite firstn_length_le; [lia|].
    assert (j < length cs) by (apply nth_error_Some; congruence). lia. }
  fold (sizes (firstn i cs)) (sizes (firstn j cs)). lia.
Qed.

Lemma precedes_index : forall t p q, is_node t p -> is_node t q -> (precedes p q <-> index t p < index t q).
Proof.
  intros t p q Np Nq. assert (F : forall a b, is_node t a -> is_node t b -> precedes a b -> index t a < index t b).
  { intros a b Na Nb [H|H]; [apply left_index; assumption|apply below_index; assumption]. }
  split; [apply F; assumption|]. intros H. destruct (path_compare p q) as [->|[C|C]]; [lia|exact C|]. assert (X := F _ _ Nq Np C). lia.
Qed.

Lemma index_inj : forall t p q, is_node t p -> is_node t q -> index t p = index t q -> p = q.
Proof.
  intros t p q Np Nq E. destruct (path_compare p q) as [C|[C|C]]; [exact C| |]; apply (precedes_index t) in C; try assumption; lia.
Qed.

(** ** Leaves *)
Lemma last_leaf_before_spec : forall nodes i, match last_leaf_before nodes i with
  | Some j => exists y n, j = i + y /\ nth_error nodes y = Some n /\ is_leaf n = true /\ forall z m, y < z -> nth_error nodes z = Some m -> is_leaf m = false
  | None => forall z m, nth_error nodes z = Some m -> is_leaf m = false
  end.
Proof.
  induction nodes as [|n nodes IH]; intros i; cbn [last_leaf_before]; [intros [|z] m H; discriminate|]. assert (H := IH (S i)).
  destruct (last_leaf_before nodes (S i)) as [j|].
  - destruct H as (y & m & -> & N & Lm & After). exists (S y), m. split; [lia|]. split; [exact N|]. split; [exact Lm|].
    intros [|z] m' Hz Nz; [lia|]. apply (After z); [lia|exact Nz].
  - destruct (is_leaf n) eqn:Ln.
    + exists 0, n. split; [lia|]. split; [reflexivity|]. split; [exact Ln|]. intros [|z] m Hz Nz; [lia|]. exact (H z m Nz).
    + intros [|z] m Nz; [injection Nz as <-; exact Ln|exact (H z m Nz)].
Qed.

Lemma first_leaf_spec : forall nodes i, match first_leaf nodes i with
  | Some j => exists y n, j = i + y /\ nth_error nodes y = Some n /\ is_leaf n = true /\ forall z m, z < y -> nth_error nodes z = Some m -> is_leaf m = false
  | None => forall z m, nth_error nodes z = Some m -> is_leaf m = false
  end.
Proof.
  induction nodes as [|n nodes IH]; intros i; cbn [first_leaf]; [intros [|z] m H; discriminate|]. destruct (is_leaf n) eqn:Ln.
  - exists 0, n. split; [lia|]. split; [reflexivity|]. split; [exact Ln|]. intros z m Hz; lia.
  - assert (H := IH (S i)). destruct (first_leaf nodes (S i)) as [j|].
    + destruct H as (y & m & -> & N & Lm & Before). exists (S y), m. split; [lia|]. split; [exact N|]. split; [exact Lm|].
      intros [|z] m' Hz Nz; [injection Nz as <-; exact Ln|]. apply (Before z); [lia|exact Nz].
    + intros [|z] m Nz; [injection Nz as <-; exact Ln|exact (H z m Nz)].
Qed.

Lemma nth_firstn : forall {A} (l : list A) x z, z < x -> nth_error (firstn x l) z = nth_error l z.
Proof. intros A l. induction l as [|a l IH]; intros [|x] [|z] H; try lia; try reflexivity. cbn. apply IH. lia. Qed.
Lemma nth_skipn : forall {A} (l : list A) x z, nth_error (skipn x l) z = nth_error l (x + z).
Proof. intros A l. induction l as [|a l IH]; intros [|x] z; try reflexivity; cbn; [destruct z; reflexivity|apply IH]. Qed.

Lemma leaf_iff : forall t p, proper t -> is_node t p -> (leaf_at t p <-> exists n, nth_error (array t) (index t p) = Some n /\ is_leaf n = true).
Proof.
  intros t p P N. unfold is_node in N. destruct (subtree t p) as [s|] eqn:E; [|contradiction]. destruct (leaf_index _ _ _ E P) as (n & Hn & Ln). split.
  - intros (ty & st & l & Q). rewrite E in Q. injection Q as ->. eauto.
  - intros (m & Hm & Lm). rewrite Hn in Hm. injection Hm as <-. rewrite Ln in Lm. destruct s; [|discriminate]. unfold leaf_at. rewrite E. eauto.
Qed.

Lemma leaf_node : forall t p, leaf_at t p -> is_node t p.
Proof. intros t p (ty & st & l & E). unfold is_node. congruence. Qed.

Lemma find_leaf : forall t y n, proper t -> nth_error (array t) y = Some n -> is_leaf n = true -> exists q, leaf_at t q /\ index t q = y.
Proof.
  intros t y n P N L. assert (B : y < size t) by (rewrite <- (flatten_length t true); apply nth_error_Some; unfold array in N; congruence).
  destruct (index_onto t y B) as (q & s & Sq & Iq). exists q. split; [|exact Iq]. apply (leaf_iff t q P); [unfold is_node; congruence|]. rewrite Iq. eauto.
Qed.

Lemma leaf_not_around : forall t p q, leaf_at t p -> is_node t q -> ~ below q p.
Proof. intros t p q (ty & st & l & E) N (k & r & ->). apply N. rewrite subtree_app, E. reflexivity. Qed.

Lemma previous_leaf_spec : forall t p, proper t -> is_node t p -> match previous_leaf (array t) (index t p) with
  | Some i => exists q, i = index t q /\ leaf_at t q /\ left_of q p /\ forall q', leaf_at t q' -> left_of q' p -> q' = q \/ left_of q' q
  | None => forall q, leaf_at t q -> ~ left_of q p
  end.
Proof.
  intros t p P N. unfold previous_leaf. assert (H := last_leaf_before_spec (firstn (index t p) (array t)) 0).
  destruct (last_leaf_before (firstn (index t p) (array t)) 0) as [i|].
  - destruct H as (y & n & -> & Hn & Ln & After). assert (Y : y < index t p).
    { assert (A : y < length (firstn (index t p) (array t))) by (apply nth_error_Some; congruence). rewrite firstn_length in A. lia. }
    rewrite nth_firstn in Hn by exact Y. destruct (find_leaf t y n P Hn Ln) as (q & Lq & Iq). exists q. split; [exact (eq_sym Iq)|]. split; [exact Lq|].
    assert (Nq := leaf_node _ _ Lq). split.
    + assert (A : precedes q p) by (apply (precedes_index t); [exact Nq|exact N|lia]). destruct A as [A|A]; [exact A|]. exfalso. exact (leaf_not_around _ _ _ Lq N A).
    + intros q' Lq' Left. assert (Nq' := leaf_node _ _ Lq'). assert (I' := left_index _ _ _ Left Nq' N).
      destruct (path_compare q' q) as [C|[C|C]]; [left; exact C| |].
      * right. destruct C as [C|C]; [exact C|]. exfalso. exact (leaf_not_around _ _ _ Lq' Nq C).
      * exfalso. apply (precedes_index t) in C; [|assumption|assumption]. destruct (proj1 (leaf_iff t q' P Nq') Lq') as (m & Hm & Lm).
        assert (X : is_leaf m = false) by (apply (After (index t q')); [lia|rewrite nth_firstn by exact I'; exact Hm]). congruence.
  - intros q Lq Left. assert (Nq := leaf_node _ _ Lq). assert (I' := left_index _ _ _ Left Nq N). destruct (proj1 (leaf_iff t q P Nq) Lq) as (m & Hm & Lm).
    assert (X : is_leaf m = false) by (apply (H (index t q)); rewrite nth_firstn by exact I'; exact Hm). congruence.
Qed.

Lemma next_leaf_spec : forall t p, proper t -> is_node t p -> match next_leaf (array t) (index t p) with
  | Some i => exists q, i = index t q /\ leaf_at t q /\ precedes p q /\ forall q', leaf_at t q' -> precedes p q' -> q' = q \/ left_of q q'
  | None => forall q, leaf_at t q -> ~ precedes p q
  end.
Proof.
  intros t p P N. unfold next_leaf. assert (H := first_leaf_spec (skipn (S (index t p)) (array t)) (S (index t p))).
  destruct (first_leaf (skipn (S (index t p)) (array t)) (S (index t p))) as [i|].
  - destruct H as (y & n & -> & Hn & Ln & Before). rewrite nth_skipn in Hn. destruct (find_leaf t _ n P Hn Ln) as (q & Lq & Iq). exists q. split; [exact (eq_sym Iq)|]. split; [exact Lq|].
    assert (Nq := leaf_node _ _ Lq). split; [apply (precedes_index t); [exact N|exact Nq|lia]|].
    intros q' Lq' Pre. assert (Nq' := leaf_node _ _ Lq'). assert (I' := proj1 (precedes_index t p q' N Nq') Pre).
    destruct (path_compare q' q) as [C|[C|C]]; [left; exact C| |].
    + exfalso. apply (precedes_index t) in C; [|assumption|assumption]. destruct (proj1 (leaf_iff t q' P Nq') Lq') as (m & Hm & Lm).
      assert (X : is_leaf m = false) by (apply (Before (index t q' - S (index t p))); [lia|rewrite nth_skipn; rewrite <- Hm; f_equal; lia]). congruence.
    + right. destruct C as [C|C]; [exact C|]. exfalso. exact (leaf_not_around _ _ _ Lq Nq' C).
  - intros q Lq Pre. assert (Nq := leaf_node _ _ Lq). assert (I' := proj1 (precedes_index t p q N Nq) Pre). destruct (proj1 (leaf_iff t q P Nq) Lq) as (m & Hm & Lm).
    assert (X : is_leaf m = false) by (apply (H (index t q - S (index t p))); rewrite nth_skipn; rewrite <- Hm; f_equal; lia). congruence.
Qed.

(** The last leaf of a subtree: always the last child. *)
Lemma last_leaf_spec : forall fuel t p s, proper t -> subtree t p = Some s -> size s <= fuel ->
  exists r, last_leaf_ fuel (array t) (index t p) = Some (index t (p ++ r)) /\ leaf_at t (p ++ r) /\ index t (p ++ r) = index t p + size s - 1.
Proof.
  induction fuel as [|fuel IH]; intros t p s P H F; [assert (S' := size_pos s); lia|]. cbn [last_leaf_]. destruct (leaf_index _ _ _ H P) as (n & N & Ln). rewrite N, Ln.
  destruct s as [ty st l|ty st l cs].
  - exists []. rewrite app_nil_r. split; [reflexivity|]. split; [unfold leaf_at; eauto|]. cbn. lia.
  - rewrite (children_spec _ _ _ _ _ _ P H). assert (Ps := subtree_proper _ _ _ P H). inversion Ps as [|? ? ? ? _ Ne _]; subst.
    destruct (exists_last Ne) as (a & c & ->). rewrite app_length. cbn [length]. rewrite seq_app, map_app, rev_app_distr. cbn [seq map rev app].
    assert (E : nth_error (a ++ [c]) (0 + length a) = Some c) by (rewrite nth_error_app2, Nat.sub_diag by lia; reflexivity).
    destruct (around_child _ _ _ _ _ _ _ _ H E) as (Hk & Ik & _). cbn [Nat.add] in *.
    cbn [size] in *. fold (sizes (a ++ [c])) in *. rewrite sizes_app, sizes_cons in *. change (sizes []) with 0 in *.
    destruct (IH t (p ++ [length a]) c P Hk) as (r & X & Lr & Ir); [lia|]. rewrite <- app_assoc in X, Lr, Ir. cbn [app] in X, Lr, Ir.
    exists (length a :: r). split; [exact X|]. split; [exact Lr|]. rewrite Ir, Ik, firstn_app, Nat.sub_diag, firstn_O, app_nil_r, firstn_all. lia.
Qed.
