(** C17, continued: [search], which all the iterations over names use. *)
From Coq Require Import List Arith NArith Bool Lia Sorting.Sorted.
From Verif Require Import TreeModel TreeSpec TreeProofs TreeProps.
Import ListNotations.

(** What should be found in a tree: the nodes with one of the types that start before [limit], in the order of the text; with
    [avoid] not the ones below a node that was found. *)
Fixpoint found (types : list N) (avoid : bool) (limit : nat) (t : tree) : list (list nat) :=
  let here := existsb (N.eqb (type_of t)) types && (start_of t <? limit) in
  (if here then [[]] else []) ++
  if here && avoid then []
  else match t with
       | Leaf _ _ _ => []
       | Node _ _ _ cs =>
           (fix go (k : nat) (cs : list tree) : list (list nat) :=
              match cs with
              | [] => []
              | c :: r => map (cons k) (found types avoid limit c) ++ go (S k) r
              end) 0 cs
       end.

Section Search.
Variables (types : list N) (avoid : bool) (limit : nat).
Notation found := (found types avoid limit).

Fixpoint found_children (k : nat) (cs : list tree) : list (list nat) :=
  match cs with
  | [] => []
  | c :: r => map (cons k) (found c) ++ found_children (S k) r
  end.

Lemma found_node : forall ty s l cs, found (Node ty s l cs) =
  let here := existsb (N.eqb ty) types && (s <? limit) in (if here then [[]] else []) ++ if here && avoid then [] else found_children 0 cs.
Proof. reflexivity. Qed.

Definition matching (n : node) : bool := existsb (N.eqb (type_ n)) types.

(** The search as a relation, on the array of a tree. *)
Inductive finds (t : tree) : nat -> list nat -> Prop :=
| finds_end x n : nth_error (array t) x = Some n -> limit <= start_index n -> finds t x []
| finds_skip x n l : nth_error (array t) x = Some n -> start_index n < limit -> matching n = false -> finds t (S x) l -> finds t x l
| finds_here p s n l : subtree t p = Some s -> nth_error (array t) (index t p) = Some n -> start_index n < limit -> matching n = true ->
    finds t (if avoid then index t p + size s else S (index t p)) l -> finds t (index t p) (index t p :: l).

Lemma finds_search : forall t x l, proper t -> finds t x l -> forall fuel, length (array t) <= fuel + x -> x < length (array t) ->
  search_all (S fuel) (array t) limit types avoid x = Some l.
Proof.
  intros t x l P H. induction H as [x n N L|x n l N L M H IH|p s n l Sp N L M H IH]; intros fuel F X.
  - cbn [search_all]. assert (E : skipn x (array t) = n :: skipn (S x) (array t)).
    { destruct (nth_split' _ _ _ N) as [E Len]. rewrite E at 1. rewrite skipn_app, Len, skipn_all2, Nat.sub_diag by lia. reflexivity. }
    rewrite E. cbn [search_from]. apply Nat.leb_le in L. rewrite L. reflexivity.
  - assert (X' : S x < length (array t)).
    { inversion H; subst; try (apply nth_error_Some; congruence). }
    rewrite <- (IH fuel) by lia. cbn [search_all]. assert (E : skipn x (array t) = n :: skipn (S x) (array t)).
    { destruct (nth_split' _ _ _ N) as [E Len]. rewrite E at 1. rewrite skipn_app, Len, skipn_all2, Nat.sub_diag by lia. reflexivity. }
    rewrite E. cbn [search_from]. unfold matching in M. rewrite M. destruct (Nat.leb_spec limit (start_index n)); [lia|]. reflexivity.
  - set (y := if avoid then index t p + size s else S (index t p)) in *. assert (X' : y < length (array t)).
    { inversion H; subst; try (apply nth_error_Some; congruence). }
    assert (Y : index t p < y) by (unfold y; assert (S' := size_pos s); destruct avoid; lia).
    destruct fuel as [|fuel]; [lia|]. change (search_all (S (S fuel)) (array t) limit types avoid (index t p)) with
      (match search_from (skipn (index t p) (array t)) limit types (index t p) with
      | None => None
      | Some None => Some []
      | Some (Some found) =>
          match (if avoid then
              match nth_error (array t) found with
              | None => None
              | Some n => if next_node_offset n =? 0 then option_map S (last_leaf_in_subtree (array t) found) else Some (found + next_node_offset n)
              end
            else Some (S found)) with
          | None => None
          | Some next => option_map (cons found) (search_all (S fuel) (array t) limit types avoid next)
          end
      end).
    assert (E : skipn (index t p) (array t) = n :: skipn (S (index t p)) (array t)).
    { destruct (nth_split' _ _ _ N) as [E Len]. rewrite E at 1. rewrite skipn_app, Len, skipn_all2, Nat.sub_diag by lia. reflexivity. }
    rewrite E. cbn [search_from]. unfold matching in M. rewrite M. destruct (Nat.leb_spec limit (start_index n)); [lia|].
    assert (Nx : (if avoid then match nth_error (array t) (index t p) with
              | None => None
              | Some n => if next_node_offset n =? 0 then option_map S (last_leaf_in_subtree (array t) (index t p)) else Some (index t p + next_node_offset n)
              end else Some (S (index t p))) = Some y).
    { unfold y. destruct avoid; [|reflexivity]. rewrite N. destruct (node_at _ _ _ Sp) as (n' & N' & O & _). rewrite N in N'. injection N' as <-. rewrite O.
      assert (S' := size_pos s). destruct (lastness true t p).
      - cbn [Nat.eqb]. unfold last_leaf_in_subtree. destruct (last_leaf_spec (length (array t)) t p s P Sp) as (r & Er & _ & Ir).
        + unfold array. rewrite flatten_length. assert (B := index_bound _ _ _ Sp). lia.
        + rewrite Er, Ir. cbn [option_map]. f_equal. lia.
      - destruct (Nat.eqb_spec (size s) 0); [lia|]. reflexivity. }
    rewrite Nx, (IH fuel) by lia. reflexivity.
Qed.

(** A place where the search stops, outside of the found nodes. *)
Definition stops (t : tree) (y : nat) : Prop :=
  exists n, nth_error (array t) y = Some n /\ limit <= start_index n /\
    (avoid = true -> forall p s, subtree t p = Some s -> existsb (N.eqb (type_of s)) types = true -> start_of s < limit -> ~ index t p < y < index t p + size s).

Lemma found_nothing : forall s, proper s -> (forall b n, In n (flatten b s) -> limit <= start_index n) -> found s = [].
Proof.
  intros s. induction s as [ty st l|ty st l cs IH] using tree_ind'; intros P H.
  - cbn [TreeSearchProps.found type_of start_of]. assert (A := H true (mk_node 0 ty st l) (or_introl eq_refl)). cbn in A. destruct (Nat.ltb_spec st limit); [lia|]. rewrite andb_false_r. reflexivity.
  - rewrite found_node. assert (A : limit <= st) by (apply (H true (mk_node 0 ty st l)); rewrite flatten_node; left; reflexivity). cbn zeta.
    destruct (Nat.ltb_spec st limit); [lia|]. rewrite andb_false_r. cbn [andb app]. inversion P as [|? ? ? ? _ _ F]; subst.
    assert (H' : forall c, In c cs -> forall b n, In n (flatten b c) -> limit <= start_index n).
    { intros c Ic b n In_. apply in_split in Ic. destruct Ic as (u & v & ->). destruct (head_of c b) as (h & _ & _ & _ & Sh & _ & r & Fr). rewrite Fr in In_.
      set (b' := match v with [] => true | _ => false end). destruct (head_of c b') as (h' & _ & _ & _ & Sh' & _ & r' & Fr').
      assert (G : forall m, In m (flatten b' c) -> limit <= start_index m).
      { intros m Im. apply (H true). rewrite flatten_node, flat_split. right. apply in_or_app. right. apply in_or_app. left. exact Im. }
      destruct In_ as [<-|In_]; [rewrite Sh, <- Sh'; apply G; rewrite Fr'; left; reflexivity|]. apply G. rewrite Fr'. right.
      replace r' with r; [exact In_|]. clear -Fr Fr'. destruct c; cbn in Fr, Fr'; congruence. }
    clear H A P. generalize 0. induction IH as [|c cs Hc _ IHcs]; intros k; [reflexivity|]. cbn [found_children]. inversion F; subst.
    rewrite Hc; [|assumption|apply H'; left; reflexivity]. cbn [map app]. apply IHcs; [assumption|]. intros d Id. apply H'. right. exact Id.
Qed.

Lemma skipn_next : forall {A} k (l : list A) x r, skipn k l = x :: r -> skipn (S k) l = r.
Proof. intros A. induction k as [|k IH]; intros [|y l] x r H; try discriminate; cbn in *; [congruence|]. exact (IH _ _ _ H). Qed.

Lemma sizes_next : forall cs k c, nth_error cs k = Some c -> sizes (firstn (S k) cs) = sizes (firstn k cs) + size c.
Proof.
  intros cs. induction cs as [|x cs IH]; intros [|k] c E; try discriminate; cbn [nth_error] in E.
  - injection E as ->. cbn [firstn]. rewrite sizes_cons. change (sizes []) with 0. lia.
  - change (firstn (S (S k)) (x :: cs)) with (x :: firstn (S k) cs). change (firstn (S k) (x :: cs)) with (x :: firstn k cs). rewrite !sizes_cons, (IH _ _ E). lia.
Qed.

Lemma part_of : forall t p s b n, subtree t p = Some s -> In n (flatten b s) -> exists y m, index t p <= y < index t p + size s /\ nth_error (array t) y = Some m /\
  start_index m = start_index n.
Proof.
  intros t p s b n H I. destruct (decompose p t true s H) as (pre & post & D & L). apply In_nth_error in I. destruct I as [k K].
  assert (B : k < size s) by (rewrite <- (flatten_length s b); apply nth_error_Some; congruence).
  destruct (nth_error (flatten (lastness true t p) s) k) as [m|] eqn:M; [|apply nth_error_None in M; rewrite flatten_length in M; lia].
  exists (index t p + k), m. split; [lia|]. split.
  - unfold array. rewrite D, nth_error_app2 by lia. replace (index t p + k - length pre) with k by lia. rewrite nth_error_app1 by (rewrite flatten_length; exact B). exact M.
  - destruct s as [ty st l|ty st l cs]; [destruct k; [|cbn in B; lia]; cbn in K, M; injection K as <-; injection M as <-; reflexivity|].
    rewrite flatten_node in K, M. destruct k; cbn in K, M; [injection K as <-; injection M as <-; reflexivity|congruence].
Qed.

Section Tree.
Variables (t : tree) (hi : nat).
Hypothesis proper_t : proper t.
Hypothesis placed_t : placed 0 t hi.

Lemma array_sorted : StronglySorted ordered (array t).
Proof. destruct (placed_flat 0 t hi placed_t proper_t) as [_ X]. apply (X true). Qed.

Lemma late : forall y z n m, y <= z -> nth_error (array t) y = Some n -> nth_error (array t) z = Some m -> limit <= start_index n -> limit <= start_index m.
Proof.
  intros y z n m L N M H. destruct (Nat.eq_dec y z) as [->|D]; [congruence|]. assert (A : ordered n m) by (apply (sorted_nth _ array_sorted y z); [lia|exact N|exact M]). destruct A as [A _]. lia.
Qed.

Lemma finds_late : forall x l y n, finds t x l -> y <= x -> nth_error (array t) y = Some n -> limit <= start_index n -> l = [].
Proof.
  intros x l y n H L N S'. inversion H as [? m M Lm|? m l' M Lm|p s m l' Sp M Lm]; subst; [reflexivity| |]; assert (A := late _ _ _ _ L N M S'); lia.
Qed.

(** After a subtree the search goes on, or it has stopped in it. *)
Definition continues (a b : nat) (l : list nat) : Prop := finds t b l \/ (l = [] /\ exists y, a <= y < b /\ stops t y).

Lemma finds_subtree : forall s p l, subtree t p = Some s -> continues (index t p) (index t p + size s) l ->
  finds t (index t p) (map (fun q => index t (p ++ q)) (found s) ++ l).
Proof.
  intros s. induction s as [ty st len|ty st len cs IH] using tree_ind'; intros p l Hp C.
  - destruct (node_at _ _ _ Hp) as (n & N & _ & Ty & St & _). cbn [type_of start_of size] in *. cbn [TreeSearchProps.found type_of start_of].
    destruct (Nat.ltb_spec st limit) as [L|L].
    + assert (C' : finds t (S (index t p)) l).
      { replace (S (index t p)) with (index t p + 1) by lia. destruct C as [C|(-> & y & Y & m & M & Lm & _)]; [exact C|]. exfalso. assert (y = index t p) as -> by lia.
        rewrite N in M. injection M as <-. lia. }
      destruct (existsb (N.eqb ty) types) eqn:E; cbn [andb app].
      * destruct avoid eqn:Av; cbn [map app]; rewrite app_nil_r;
          (apply (finds_here t p (Leaf ty st len) n); [exact Hp|exact N|lia|unfold matching; rewrite Ty; exact E|rewrite Av; cbn [size]; try rewrite Nat.add_1_r; exact C']).
      * cbn [map app]. apply (finds_skip _ _ n); [exact N|lia|unfold matching; rewrite Ty; exact E|exact C'].
    + rewrite andb_false_r. cbn [andb app map].
      assert (l = []) as ->. { destruct C as [C|(-> & _)]; [|reflexivity]. apply (finds_late _ _ (index t p) n C); [lia|exact N|lia]. }
      apply (finds_end _ _ n); [exact N|lia].
  - destruct (node_at _ _ _ Hp) as (n & N & _ & Ty & St & _). cbn [type_of start_of] in *. rewrite found_node. cbn zeta.
    assert (Ps := subtree_proper _ _ _ proper_t Hp). assert (Fp : Forall proper cs) by (inversion Ps; assumption).
    destruct (Nat.ltb_spec st limit) as [L|L].
    2:{ rewrite andb_false_r. cbn [andb app].
      assert (Z : found_children 0 cs = []).
      { assert (Q := found_nothing (Node ty st len cs) Ps). rewrite found_node in Q. cbn zeta in Q. destruct (Nat.ltb_spec st limit); [lia|]. rewrite andb_false_r in Q. cbn [andb app] in Q.
        apply Q. intros b m Im. destruct (part_of _ _ _ _ _ Hp Im) as (y & m' & Y & M & E). rewrite <- E. apply (late (index t p) y n m'); [lia|exact N|exact M|lia]. }
      rewrite Z. cbn [map app]. assert (l = []) as ->. { destruct C as [C|(-> & _)]; [|reflexivity]. apply (finds_late _ _ (index t p) n C); [lia|exact N|lia]. }
      apply (finds_end _ _ n); [exact N|lia]. }
    rewrite andb_true_r. cbn [size] in C. fold (sizes cs) in C.
    (* the children *)
    assert (Ch : forall r k z, skipn k cs = r -> z = index t p + 1 + sizes (firstn k cs) -> continues z (z + sizes r) l ->
        finds t z (map (fun q => index t (p ++ q)) (found_children k r) ++ l) \/ (r = [] /\ finds t z l)).
    { induction r as [|c r IHr]; intros k z Sk Ez Cz.
      - right. split; [reflexivity|]. destruct Cz as [Cz|(-> & y & Y & _)]; [|change (sizes []) with 0 in Y; lia]. change (sizes []) with 0 in Cz. rewrite Nat.add_0_r in Cz. exact Cz.
      - left. assert (E : nth_error cs k = Some c) by (rewrite <- (Nat.add_0_r k), <- nth_skipn, Sk; reflexivity).
        destruct (around_child _ _ _ _ _ _ _ _ Hp E) as (Hk & Ik & _). rewrite sizes_cons in Cz.
        assert (Sk' : skipn (S k) cs = r) by (apply skipn_next with (x := c); exact Sk).
        assert (Fk : sizes (firstn (S k) cs) = sizes (firstn k cs) + size c) by (apply sizes_next; exact E).
        cbn [found_children]. rewrite map_app, map_map, <- app_assoc.
        rewrite (map_ext (fun q => index t (p ++ k :: q)) (fun q => index t ((p ++ [k]) ++ q))) by (intros q; rewrite <- app_assoc; reflexivity).
        rewrite Ez, <- Ik. rewrite Forall_forall in IH. apply (IH c (nth_error_In _ _ E) (p ++ [k]) _ Hk).
        (* after the child *)
        assert (R : continues (z + size c) (z + size c + sizes r) l -> finds t (index t (p ++ [k]) + size c) (map (fun q => index t (p ++ q)) (found_children (S k) r) ++ l)).
        { intros Cr. assert (Z : z + size c = index t p + 1 + sizes (firstn (S k) cs)) by lia. destruct (IHr (S k) (z + size c) Sk' Z Cr) as [Q|[-> Q]].
          - rewrite Ik, <- Ez. exact Q.
          - cbn [found_children map app]. rewrite Ik, <- Ez. exact Q. }
        destruct Cz as [Cz|(-> & y & Y & St')].
        + left. apply R. left. replace (z + size c + sizes r) with (z + (size c + sizes r)) by lia. exact Cz.
        + destruct (lt_dec y (z + size c)) as [Ly|Ly].
          * right. split; [|exists y; split; [lia|exact St']]. destruct St' as (m & M & Lm & _). rewrite app_nil_r.
            assert (G : forall r' k', (forall d, In d r' -> exists j, k <= j /\ S j < length cs + 1 /\ nth_error cs (S j) = Some d) -> found_children k' r' = []).
            { intros r'. clear IHr R. induction r' as [|d r' IHr]; intros k' Hr; [reflexivity|]. cbn [found_children]. rewrite IHr by (intros e Ie; apply Hr; right; exact Ie). rewrite app_nil_r.
              destruct (Hr d (or_introl eq_refl)) as (j & Kj & _ & Ej). destruct (around_child _ _ _ _ _ _ _ _ Hp Ej) as (Hj & Ij & _).
              rewrite found_nothing; [reflexivity| |].
              - rewrite Forall_forall in Fp. apply Fp. exact (nth_error_In _ _ Ej).
              - intros b e Ie. destruct (part_of _ _ _ _ _ Hj Ie) as (w & e' & W & We & Eq). rewrite <- Eq. apply (late y w m e'); [|exact M|exact We|exact Lm].
                assert (Mono : sizes (firstn (S k) cs) <= sizes (firstn (S j) cs)).
                { rewrite <- (firstn_skipn (S k) (firstn (S j) cs)), sizes_app, firstn_firstn, Nat.min_l by lia. lia. }
                lia. }
            rewrite G; [reflexivity|]. intros d Id. rewrite <- Sk' in Id. apply In_nth_error in Id. destruct Id as [j Ej]. rewrite nth_skipn in Ej.
            exists (k + j). split; [lia|]. split; [|exact Ej]. assert (S k + j < length cs) by (apply nth_error_Some; congruence). lia.
          * left. apply R. right. split; [reflexivity|]. exists y. split; [lia|exact St']. }
    destruct (existsb (N.eqb ty) types) eqn:E; cbn [andb app].
    + cbn [map]. rewrite app_nil_r. destruct avoid eqn:Av.
      * apply (finds_here t p (Node ty st len cs) n); [exact Hp|exact N|lia|unfold matching; rewrite Ty; exact E|]. rewrite Av. cbn [size]. fold (sizes cs).
        destruct C as [C|(-> & y & Y & m & M & Lm & Out)]; [exact C|]. exfalso. destruct (Nat.eq_dec y (index t p)) as [->|D]; [rewrite N in M; injection M as <-; lia|].
        apply (Out Av p _ Hp E L). cbn [size]. fold (sizes cs). lia.
      * cbn [app]. apply (finds_here t p (Node ty st len cs) n); [exact Hp|exact N|lia|unfold matching; rewrite Ty; exact E|]. rewrite Av.
        assert (Z : S (index t p) = index t p + 1 + sizes (firstn 0 cs)) by (cbn; lia).
        destruct (Ch cs 0 _ eq_refl Z) as [Q|[-> Q]].
        -- replace (S (index t p) + sizes cs) with (index t p + S (sizes cs)) by lia. destruct C as [C|(-> & y & Y & St')]; [left; exact C|right; split; [reflexivity|]].
           exists y. split; [|exact St']. destruct (Nat.eq_dec y (index t p)) as [->|D]; [|lia]. destruct St' as (m & M & Lm & _). rewrite N in M. injection M as <-. lia.
        -- exact Q.
        -- exact Q.
    + apply (finds_skip _ _ n); [exact N|lia|unfold matching; rewrite Ty; exact E|].
      assert (Z : S (index t p) = index t p + 1 + sizes (firstn 0 cs)) by (cbn; lia).
      destruct (Ch cs 0 _ eq_refl Z) as [Q|[-> Q]].
      * replace (S (index t p) + sizes cs) with (index t p + S (sizes cs)) by lia. destruct C as [C|(-> & y & Y & St')]; [left; exact C|right; split; [reflexivity|]].
        exists y. split; [|exact St']. destruct (Nat.eq_dec y (index t p)) as [->|D]; [|lia]. destruct St' as (m & M & Lm & _). rewrite N in M. injection M as <-. lia.
      * exact Q.
      * exact Q.
Qed.
End Tree.
End Search.

(** In a tree that ends with an empty leaf (the end marker), every search finds exactly the nodes of the subtree with one
    of the types, except empty ones at its very end; with [avoid] only the outermost.  The end marker must not be below
    a node that is searched for (it is a child of the root). *)
Theorem C17_search : forall t hi p s types avoid e, proper t -> placed 0 t hi -> subtree t p = Some s -> ~ leaf_at t p ->
  leaf_at t e -> leaf_start t e = hi -> (forall q, leaf_at t q -> q = e \/ left_of q e) ->
  (forall q r, subtree t q = Some r -> existsb (N.eqb (type_of r)) types = true -> ~ below e q) ->
  search (array t) (index t p) types avoid = Some (map (fun q => index t (p ++ q)) (found types avoid (end_of s) s)).
Proof.
  intros t hi p s types avoid e P Pl Hp Nl Le Se Last Out. unfold search. destruct (leaf_index _ _ _ Hp P) as (n & N & Ln). rewrite N, Ln.
  destruct s as [ty st l|ty st l cs]; [exfalso; apply Nl; unfold leaf_at; eauto|]. destruct (node_at _ _ _ Hp) as (n' & N' & _ & _ & _ & En). rewrite N in N'. injection N' as <-.
  rewrite En. set (s := Node ty st l cs) in *. destruct (placed_flat 0 t hi Pl P) as [_ X]. destruct (X true) as [_ Fb]. fold (array t) in Fb. rewrite Forall_forall in Fb.
  assert (Hi : end_of s <= hi) by (rewrite <- En; apply (Fb n (nth_error_In _ _ N))).
  destruct Le as (te & se & le & Ee). unfold leaf_start in Se. rewrite Ee in Se. cbn in Se. subst se.
  destruct (node_at _ _ _ Ee) as (m & M & _ & _ & Sm & _). cbn [start_of] in Sm. assert (Nn := index_bound _ _ _ Hp). assert (Ne := index_bound _ _ _ Ee). cbn [size] in Ne.
  apply (finds_search types avoid (end_of s)).
  - exact P.
  - rewrite <- (app_nil_r (map _ _)). apply (finds_subtree types avoid (end_of s) t hi P Pl s p [] Hp).
    assert (St : stops types avoid (end_of s) t (index t e)).
    { exists m. split; [exact M|]. split; [lia|]. intros _ q r Hq Eq _ [A B]. apply (Out q r Hq Eq).
      assert (C : precedes q e) by (apply (precedes_index t); [unfold is_node; congruence|unfold is_node; congruence|exact A]).
      destruct C as [(w & i & j & q' & e' & -> & -> & Lij)|C]; [|exact C]. exfalso.
      (* to the right of q, so after its end *)
      assert (Nq : is_node t (w ++ i :: q')) by (unfold is_node; congruence). assert (Nee : is_node t (w ++ j :: e')) by (unfold is_node; congruence).
      unfold is_node in *. rewrite subtree_app in Hq, Ee. destruct (subtree t w) as [sw|] eqn:Ew; [|discriminate]. rewrite !(index_app _ _ _ _ Ew) in A, B.
      destruct sw as [|tw stw lw csw]; [discriminate|]. cbn [subtree index] in *. destruct (nth_error csw i) as [ci|] eqn:Ei; [|discriminate]. destruct (nth_error csw j) as [cj|] eqn:Ej; [|discriminate].
      assert (Bi := index_bound _ _ _ Hq).
      assert (Mo : sizes (firstn i csw) + size ci <= sizes (firstn j csw)).
      { rewrite <- (sizes_firstn_lt (firstn j csw) i ci); [rewrite firstn_firstn, Nat.min_l by lia; reflexivity|].
        rewrite <- Ei. rewrite <- (firstn_skipn j csw) at 2. rewrite nth_error_app1; [reflexivity|]. rewrite firstn_length_le; [lia|].
        assert (j < length csw) by (apply nth_error_Some; congruence). lia. }
      fold (sizes (firstn i csw)) (sizes (firstn j csw)) in *. lia. }
    destruct (lt_dec (index t e) (index t p + size s)) as [L|L].
    + right. split; [reflexivity|]. exists (index t e). split; [|exact St]. split; [|exact L].
      destruct (last_leaf_spec (size s) t p s P Hp (le_n _)) as (r & _ & Lr & Ir). destruct (Last _ Lr) as [Q|Q].
      * rewrite <- Q, Ir. assert (S' := size_pos s). lia.
      * apply (left_index t) in Q; [|apply leaf_node; exact Lr|unfold is_node; congruence]. assert (S' := size_pos s). lia.
    + left. assert (Lt : index t p + size s < length (array t)) by (unfold array; rewrite flatten_length; lia).
      destruct (nth_error (array t) (index t p + size s)) as [k|] eqn:K; [|apply nth_error_None in K; lia].
      apply (finds_end _ _ _ _ _ k); [exact K|].
      (* the node after the subtree starts after its last leaf *)
      destruct (last_leaf_spec (size s) t p s P Hp (le_n _)) as (r & _ & Lr & Ir). destruct (proj1 (leaf_iff t _ P (leaf_node _ _ Lr)) Lr) as (k' & K' & Lk').
      assert (S' := size_pos s). destruct (sorted_nth _ (array_sorted t hi P Pl) (index t (p ++ r)) (index t p + size s) k' k) as [_ A]; [lia|exact K'|exact K|].
      assert (A' := A Lk'). assert (End : end_ k' = end_of s); [|lia].
      clear -Pl Hp Lr Ir K' P. destruct (placed_flat 0 t hi Pl P) as [_ _].
      assert (G : forall p t lo hi s, placed lo t hi -> subtree t p = Some s -> exists lo', placed lo' s (end_of s)).
      { clear. induction p as [|k p IH]; intros t lo hi s Pl H.
        - injection H as <-. exists lo. destruct Pl; [apply placed_leaf|apply placed_node]; assumption.
        - cbn [subtree] in H. destruct t as [|ty st l cs]; [discriminate|]. inversion Pl as [|? ? ? ? ? L A]; subst. destruct (nth_error cs k) as [c|] eqn:E; [|discriminate].
          assert (Q : forall cs a b, placed_all a cs b -> forall k c, nth_error cs k = Some c -> exists x y, placed x c y).
          { clear. intros cs a b A. induction A as [|lo c mid r hi H _ IH]; intros [|k] d E; try discriminate; [injection E as <-; eauto|eauto]. }
          destruct (Q _ _ _ A _ _ E) as (x & y & Pc). exact (IH c x y s Pc H). }
      destruct (G p t 0 hi s Pl Hp) as [lo Ps].
      (* the last leaf of a tree ends where the tree ends *)
      assert (W : forall lo s hi, placed lo s hi -> proper s -> forall b m, nth_error (flatten b s) (size s - 1) = Some m -> end_ m = hi).
      { clear. intros lo s hi H. induction H as [lo ty s l L|lo ty s l cs L H IH|lo|lo c mid r hi H1 IH1 H2 IH2] using placed_mut with
          (P0 := fun lo cs hi _ => Forall proper cs -> cs <> [] -> forall m, nth_error (flat_children cs) (sizes cs - 1) = Some m -> end_ m = hi).
        - intros _ b m M. cbn in M. injection M as <-. reflexivity.
        - intros P b m M. inversion P as [|? ? ? ? _ Ne F]; subst. apply IH; [exact F|exact Ne|]. rewrite flatten_node in M. cbn [size] in M. fold (sizes cs) in M.
          assert (C := sizes_count cs). assert (0 < length cs) by (destruct cs; [contradiction|cbn; lia]). replace (S (sizes cs) - 1) with (S (sizes cs - 1)) in M by lia. exact M.
        - intros _ Ne. contradiction.
        - intros F _ m M. inversion F; subst. cbn [flat_children] in M. rewrite sizes_cons in M. destruct r as [|d r].
          + change (sizes []) with 0 in M. rewrite Nat.add_0_r in M. cbn [flat_children] in M. rewrite app_nil_r in M. inversion H2; subst. exact (IH1 ltac:(assumption) true m M).
          + assert (C := sizes_count (d :: r)). cbn [length] in C. assert (S' := size_pos c). rewrite nth_error_app2 in M by (rewrite flatten_length; lia). rewrite flatten_length in M.
            apply IH2; [assumption|discriminate|]. rewrite <- M. f_equal. lia. }
      destruct (decompose p t true s Hp) as (pre & post & D & L). apply (W lo s _ Ps (subtree_proper _ _ _ P Hp) (lastness true t p)).
      assert (S' := size_pos s). unfold array in K'. rewrite D, Ir, nth_error_app2 in K' by lia. replace (index t p + size s - 1 - length pre) with (size s - 1) in K' by lia.
      rewrite nth_error_app1 in K' by (rewrite flatten_length; lia). exact K'.
  - lia.
  - unfold array. rewrite flatten_length. assert (S' := size_pos s). lia.
Qed.

Example sample_search : search (array sample) 0 [1%N; 3%N] false = Some [3; 5] /\ search (array sample) 2 [2%N] true = Some [4].
Proof. split; reflexivity. Qed.
(** The hypotheses hold for [sample]; a search for inner nodes, with and without their descendants. *)
Example sample_search_nodes : search (array sample) 0 [32769%N; 32770%N; 1%N] false = Some [1; 2; 3] /\ search (array sample) 0 [32769%N; 32770%N; 1%N] true = Some [1] /\
  found [32769%N; 32770%N; 1%N] false 10 sample = [[0]; [0; 0]; [0; 0; 0]] /\ leaf_at sample [1] /\ leaf_start sample [1] = 10.
Proof. repeat apply conj; try reflexivity. exists 5%N, 10, 0. reflexivity. Qed.

Print Assumptions C17_search.
