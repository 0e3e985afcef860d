(** C34: selection ranges. *)
From Coq Require Import List Arith NArith Bool Lia Sorting.Sorted.
From Verif Require Import TreeModel TreeSpec TreeProofs TreeProps SelectModel.
Import ListNotations.

(** A range is strictly within another one. *)
Definition inside (a b : nat * nat) : Prop := fst b <= fst a /\ snd a <= snd b /\ a <> b.
Definition contains (position : nat) (r : nat * nat) : Prop := fst r <= position <= snd r.

(** Every statement starts on a line of its own, as far as its parent goes: the parent starts at the very beginning, or
    there is a newline character between its start and that of the statement. *)
Definition own_lines (is_stmt : N -> bool) (code : list N) (t : tree) : Prop :=
  forall p k s c, subtree t p = Some s -> subtree t (p ++ [k]) = Some c -> is_stmt (type_of c) = true ->
    start_of s = 0 \/ exists i, start_of s <= i < start_of c /\ nth_error code i = Some 10%N.

Lemma child_nested : forall p t lo hi k s c, placed lo t hi -> proper t -> subtree t p = Some s -> subtree t (p ++ [k]) = Some c ->
  start_of s <= start_of c /\ end_of c <= end_of s /\ start_of c <= end_of c.
Proof.
  induction p as [|j p IH]; intros t lo hi k s c Pl P Hs Hc.
  - injection Hs as <-. cbn [app subtree] in Hc. destruct t as [|ty st l cs]; [discriminate|]. destruct (nth_error cs k) as [d|] eqn:E; [|discriminate]. injection Hc as ->.
    inversion Pl as [|? ? ? ? ? L A]; subst. inversion P as [|? ? ? ? _ _ F]; subst. cbn [start_of end_of]. clear Pl P L lo. remember (st + l) as hi eqn:Eh. clear Eh l.
    assert (G : forall a cs hi, placed_all a cs hi -> Forall proper cs -> forall k c, nth_error cs k = Some c -> a <= hi /\ a <= start_of c /\ end_of c <= hi /\ start_of c <= end_of c).
    { clear. intros a cs hi A. induction A as [lo|lo d mid r hi H A IH]; intros F k c E; [destruct k; discriminate|]. inversion F; subst.
      assert (Hd : lo <= start_of d /\ end_of d = mid /\ start_of d <= end_of d) by (inversion H; subst; cbn [start_of end_of]; lia).
      assert (M : mid <= hi). { destruct r as [|e r]; [inversion A; lia|]. destruct (IH ltac:(assumption) 0 e eq_refl) as (M & _). exact M. }
      destruct k as [|k]; [injection E as <-; lia|]. destruct (IH ltac:(assumption) k c E) as (X & Y & Z & W). lia. }
    destruct (G _ _ _ A F k c E) as (_ & X & Y & Z). lia.
  - cbn [app subtree] in Hs, Hc. destruct t as [|ty st l cs]; [discriminate|]. destruct (nth_error cs j) as [d|] eqn:E; [|discriminate].
    inversion Pl as [|? ? ? ? ? L A]; subst. inversion P as [|? ? ? ? _ _ F]; subst. rewrite Forall_forall in F.
    assert (Q : forall a cs b, placed_all a cs b -> forall k c, nth_error cs k = Some c -> exists x y, placed x c y).
    { clear. intros cs a b A. induction A as [|lo c mid r hi H _ IH]; intros [|k] d E; try discriminate; [injection E as <-; eauto|eauto]. }
    destruct (Q _ _ _ A _ _ E) as (x & y & Pd). exact (IH d x y k s c Pd (F d (nth_error_In _ _ E)) Hs Hc).
Qed.

Lemma depth_bound : forall p t s, subtree t p = Some s -> length p <= index t p.
Proof.
  induction p as [|k p IH]; intros t s H; [apply Nat.le_0_l|]. cbn [subtree] in H. destruct t as [|ty st l cs]; [discriminate|]. cbn [index length]. destruct (nth_error cs k) as [c|] eqn:E; [|discriminate].
  assert (A := IH c s H). lia.
Qed.

Lemma rfind_some : forall bs i, rfind_newline bs = Some i -> i < length bs /\ nth_error bs i = Some 10%N /\ forall j, i < j -> nth_error bs j <> Some 10%N.
Proof.
  induction bs as [|b r IH]; intros i H; [discriminate|]. cbn [rfind_newline] in H. destruct (rfind_newline r) as [k|] eqn:E.
  - injection H as <-. destruct (IH k eq_refl) as (A & B & C). cbn [length nth_error]. split; [lia|]. split; [exact B|]. intros [|j] L; [lia|]. apply C. lia.
  - destruct (N.eqb_spec b 10); [|discriminate]. injection H as <-. subst b. cbn [length nth_error]. split; [lia|]. split; [reflexivity|]. intros [|j] L; [lia|]. cbn [nth_error].
    clear -E. revert j. induction r as [|c r IH]; intros j; [destruct j; discriminate|]. cbn [rfind_newline] in E. destruct (rfind_newline r); [discriminate|].
    destruct (N.eqb_spec c 10); [discriminate|]. destruct j; cbn [nth_error]; [congruence|]. apply IH. reflexivity.
Qed.
Lemma rfind_none : forall bs, rfind_newline bs = None -> forall j, nth_error bs j <> Some 10%N.
Proof.
  induction bs as [|c r IH]; intros E j; [destruct j; discriminate|]. cbn [rfind_newline] in E. destruct (rfind_newline r); [discriminate|].
  destruct (N.eqb_spec c 10); [discriminate|]. destruct j; cbn [nth_error]; [congruence|]. apply IH. reflexivity.
Qed.

Section Select.
Variables (is_stmt is_keyword hidden : N -> bool) (code : list N).
Variables (t : tree) (hi : nat).
Hypothesis proper_t : proper t.
Hypothesis placed_t : placed 0 t hi.
Hypothesis lines_t : own_lines is_stmt code t.
Hypothesis root_start : start_of t = 0.
Hypothesis root_shown : hidden (type_of t) = false.

Definition raw (s : tree) : nat * nat := (start_of s, end_of s).
Definition within (a b : nat * nat) : Prop := fst b <= fst a /\ snd a <= snd b.

(** The range given for a node. *)
Definition shown (s : tree) (r : nat * nat) : Prop := snd r = end_of s /\ fst r <= start_of s /\ (is_stmt (type_of s) = false -> fst r = start_of s).

Lemma ranges_spec : forall p s fuel previous, subtree t p = Some s -> length p < fuel ->
  (forall r, previous = Some r -> within r (raw s)) ->
  exists l, ranges is_stmt hidden code fuel (array t) (Some (index t p)) previous = Some l /\
    StronglySorted inside l /\ (forall r q, previous = Some r -> In q l -> inside r q) /\
    (forall q, In q l -> within (raw s) q) /\
    (l = [] -> previous = Some (raw t)) /\ (l <> [] -> last l (0, 0) = raw t) /\
    (forall q x d, p = q ++ x -> subtree t q = Some d -> hidden (type_of d) = false -> exists r, shown d r /\ (In r l \/ previous = Some r)).
Proof.
  intros p. induction p as [|k p IH] using rev_ind; intros s fuel previous Hs Fu Pr.
  - injection Hs as <-. destruct fuel as [|fuel]; [cbn in Fu; lia|]. destruct (node_at t [] t eq_refl) as (n & N & _ & Ty & St & En). cbn [ranges]. rewrite N.
    change (index t []) with 0. change (parent (array t) 0) with (@None nat). rewrite Ty, root_shown.
    set (same := match previous with Some p => _ | None => _ end). destruct same eqn:Sm; unfold same in Sm.
    + exists []. destruct previous as [[a b]|]; [|discriminate]. cbn [fst snd] in Sm. apply andb_true_iff in Sm. destruct Sm as [A B]. apply Nat.eqb_eq in A, B.
      assert (E : (a, b) = raw t) by (unfold raw; f_equal; congruence). destruct fuel; (split; [reflexivity|]); (split; [constructor|]);
        (split; [intros ? ? _ []|]); (split; [intros ? []|]); (split; [intros _; congruence|]); (split; [congruence|]);
        intros q x d Eq Hd _; symmetry in Eq; apply app_eq_nil in Eq; destruct Eq as [-> ->]; injection Hd as <-; exists (a, b); rewrite E; (split; [unfold shown, raw; cbn; auto|right; reflexivity]).
    + set (start := if is_stmt (type_of t) then _ else _).
      assert (Es : start = start_of t) by (unfold start; destruct (is_stmt (type_of t)); [rewrite St, root_start; reflexivity|exact St]).
      exists [(start, end_ n)]. split; [destruct fuel; reflexivity|]. rewrite Es, En. split; [repeat constructor|]. split.
      { intros r q -> [<-|[]]. destruct (Pr r eq_refl) as [A B]. split; [exact A|]. split; [exact B|]. intros ->. cbn [fst snd] in Sm. rewrite St, En, !Nat.eqb_refl in Sm. discriminate. }
      split; [intros q [<-|[]]; split; cbn; lia|]. split; [discriminate|]. split; [reflexivity|].
      intros q x d Eq Hd _; symmetry in Eq; apply app_eq_nil in Eq; destruct Eq as [-> ->]; injection Hd as <-. exists (start_of t, end_of t). split; [unfold shown; cbn; auto|left; left; reflexivity].
  - destruct (child_exists _ _ _ _ Hs) as (ty & st & len & cs & Hu & _). set (u := Node ty st len cs) in *.
    destruct (child_nested p t 0 hi k u s placed_t proper_t Hu Hs) as (Nl & Nr & _).
    destruct fuel as [|fuel]; [lia|]. rewrite app_length in Fu. cbn [length] in Fu.
    destruct (node_at _ _ _ Hs) as (n & N & _ & Ty & St & En). cbn [ranges]. rewrite N, (parent_spec t p k s proper_t Hs), Ty, St, En. cbn [fst snd].
    set (same := match previous with Some p => _ | None => _ end).
    assert (Up : forall r, previous = Some r -> within r (raw u)). { intros r Er. destruct (Pr r Er) as [A B]. unfold within, raw in *. cbn [fst snd] in *. lia. }
    (* nothing given for this node *)
    assert (Skip : forall l, (ranges is_stmt hidden code fuel (array t) (Some (index t p)) previous = Some l /\
        StronglySorted inside l /\ (forall r q, previous = Some r -> In q l -> inside r q) /\ (forall q, In q l -> within (raw u) q) /\
        (l = [] -> previous = Some (raw t)) /\ (l <> [] -> last l (0, 0) = raw t) /\
        (forall q x d, p = q ++ x -> subtree t q = Some d -> hidden (type_of d) = false -> exists r, shown d r /\ (In r l \/ previous = Some r))) ->
      (hidden (type_of s) = false -> exists r, shown s r /\ (In r l \/ previous = Some r)) ->
      ranges is_stmt hidden code fuel (array t) (Some (index t p)) previous = Some l /\
      StronglySorted inside l /\ (forall r q, previous = Some r -> In q l -> inside r q) /\ (forall q, In q l -> within (raw s) q) /\
        (l = [] -> previous = Some (raw t)) /\ (l <> [] -> last l (0, 0) = raw t) /\
        (forall q x d, p ++ [k] = q ++ x -> subtree t q = Some d -> hidden (type_of d) = false -> exists r, shown d r /\ (In r l \/ previous = Some r))).
    { intros l (A & B & C & D & E & F & G) Own. repeat (split; [assumption|]). split.
      - intros q Iq. destruct (D q Iq) as [X Y]. unfold within, raw in *. cbn [fst snd] in *. lia.
      - repeat (split; [assumption|]). intros q x d Eq Hd Sh. destruct x as [|y x _] using rev_ind.
        + rewrite app_nil_r in Eq. subst q. rewrite Hs in Hd. injection Hd as <-. exact (Own Sh).
        + rewrite app_assoc in Eq. apply app_inj_tail in Eq. destruct Eq as [-> _]. exact (G q x d eq_refl Hd Sh). }
    destruct same eqn:Sm; unfold same in Sm.
    + destruct (IH u fuel previous Hu ltac:(lia) Up) as [l Hl]. exists l. apply (Skip l Hl). intros _. exists (raw s). split; [unfold shown, raw; cbn; auto|right].
      destruct previous as [[a b]|]; [|discriminate]. cbn [fst snd] in Sm. apply andb_true_iff in Sm. destruct Sm as [A B]. apply Nat.eqb_eq in A, B. unfold raw. congruence.
    + destruct (hidden (type_of s)) eqn:Hi.
      * destruct (IH u fuel previous Hu ltac:(lia) Up) as [l Hl]. exists l. apply (Skip l Hl). congruence.
      * set (start := if is_stmt (type_of s) then _ else _).
        assert (Es : start_of u <= start <= start_of s /\ (is_stmt (type_of s) = false -> start = start_of s)).
        { unfold start. destruct (is_stmt (type_of s)) eqn:Is; [|split; [lia|reflexivity]]. split; [|discriminate].
          destruct (rfind_newline (firstn (start_of s) code)) as [i|] eqn:R; [|lia]. destruct (rfind_some _ _ R) as (A & B & C). rewrite firstn_length in A.
          destruct (lines_t p k u s Hu Hs Is) as [Z|(j & J & X)]; [lia|].
          destruct (le_lt_dec j i) as [L|L]; [lia|]. exfalso. apply (C j L). rewrite nth_firstn by lia. exact X. }
        clearbody start. destruct Es as [Es Eq].
        destruct (IH u fuel (Some (start, end_of s)) Hu ltac:(lia)) as (l & A & B & C & D & E & F & G).
        { intros r Er. injection Er as <-. unfold within, raw. cbn [fst snd]. lia. }
        exists ((start, end_of s) :: l). rewrite A. split; [reflexivity|]. split; [|split; [|split; [|split; [discriminate|split]]]].
        -- constructor; [exact B|]. rewrite Forall_forall. intros q Iq. exact (C _ q eq_refl Iq).
        -- intros r q Er Iq. assert (Ins : inside r (start, end_of s)).
           { destruct (Pr r Er) as [X Y]. unfold raw in *. cbn [fst snd] in *. split; [cbn; lia|]. split; [exact Y|]. intros ->. subst previous. cbn [fst snd] in Sm, X.
             assert (start = start_of s) by lia. subst start. rewrite !Nat.eqb_refl in Sm. discriminate. }
           destruct Iq as [<-|Iq]; [exact Ins|]. destruct (C _ q eq_refl Iq) as (X & Y & Z). destruct Ins as (X' & Y' & Z'). cbn [fst snd] in *. split; [lia|]. split; [lia|].
           intros ->. apply Z. destruct q as [a b]. cbn [fst snd] in *. f_equal; lia.
        -- intros q [<-|Iq]; [split; cbn; lia|]. destruct (D q Iq) as [X Y]. unfold within, raw in *. cbn [fst snd] in *. lia.
        -- intros _. destruct l as [|q l]; [|change (last (q :: l) (0, 0) = raw t); apply F; discriminate]. cbn. specialize (E eq_refl). congruence.
        -- intros q x d Eqx Hd Sh. destruct x as [|y x _] using rev_ind.
           ++ rewrite app_nil_r in Eqx. subst q. rewrite Hs in Hd. injection Hd as <-. exists (start, end_of s). split; [|left; left; reflexivity]. unfold shown. cbn [fst snd]. split; [reflexivity|]. split; [lia|exact Eq].
           ++ rewrite app_assoc in Eqx. apply app_inj_tail in Eqx. destruct Eqx as [-> _]. destruct (G q x d eq_refl Hd Sh) as (r & R1 & [R2|R2]); exists r; (split; [exact R1|]); left; [right; exact R2|left; congruence].
Qed.

(** The initial node touches the position. *)
Lemma initial_spec : forall position, position <= end_of t -> exists p s, initial_node is_keyword code (array t) position = Some (index t p) /\
  subtree t p = Some s /\ start_of s <= position <= end_of s.
Proof.
  intros position Bound. unfold initial_node. destruct (C18_leaf_by_position t hi position proper_t placed_t) as (q & -> & Lq & _).
  assert (Fin : forall p s, subtree t p = Some s -> exists p' s', match nth_error (array t) (index t p) with
      | Some n => if is_pos_in_node n position then Some (index t p) else node_includes_in_position (length (array t)) (array t) (index t p) position
      | None => None end = Some (index t p') /\ subtree t p' = Some s' /\ start_of s' <= position <= end_of s').
  { intros p s Hp. destruct (node_at _ _ _ Hp) as (n & N & _ & _ & St & En). rewrite N. unfold is_pos_in_node at 1. rewrite St, En.
    destruct (Nat.leb_spec (start_of s) position); [destruct (Nat.leb_spec position (end_of s)); [exists p, s; auto|]|]; cbn [andb].
    all: assert (Climb : forall p fuel s, length p < fuel -> subtree t p = Some s -> p <> [] -> exists p' s',
        node_includes_in_position fuel (array t) (index t p) position = Some (index t p') /\ subtree t p' = Some s' /\ start_of s' <= position <= end_of s').
    1,3: clear - proper_t Bound root_start; intros p; induction p as [|k p IH] using rev_ind; intros fuel s Fu Hp Ne; [contradiction|];
      destruct fuel as [|fuel]; [lia|]; rewrite app_length in Fu; cbn [length] in Fu; cbn [node_includes_in_position]; rewrite (parent_spec t p k s proper_t Hp);
      destruct (child_exists _ _ _ _ Hp) as (ty & st & len & cs & Hu & _); destruct (node_at _ _ _ Hu) as (m & M & _ & _ & Sm & Em); rewrite M; unfold is_pos_in_node; rewrite Sm, Em;
      destruct (Nat.leb_spec (start_of (Node ty st len cs)) position); [destruct (Nat.leb_spec position (end_of (Node ty st len cs))); [exists p, (Node ty st len cs); auto|]|]; cbn [andb];
      (destruct p as [|k' p' _] using rev_ind; [exfalso; injection Hu as Hu; rewrite Hu in *; lia|]; apply (IH fuel (Node ty st len cs)); [lia|exact Hu|intros E; apply app_eq_nil in E; destruct E as [_ E]; discriminate]).
    all: apply (Climb p _ s); [|exact Hp|intros ->; injection Hp as <-; lia]; assert (D := depth_bound _ _ _ Hp); assert (B := index_bound _ _ _ Hp); assert (S' := size_pos s);
      unfold array; rewrite flatten_length; lia. }
  destruct Lq as (ty & st & l & Eq). destruct (node_at _ _ _ Eq) as (n & N & _). rewrite N.
  destruct ((start_index n =? position) && (is_keyword (type_ n) || ends_with_newline code n)); [|exact (Fin q _ Eq)].
  assert (Pv := previous_leaf_spec t q proper_t). destruct (previous_leaf (array t) (index t q)) as [y|]; [|exact (Fin q _ Eq)].
  destruct Pv as (q' & -> & Lq' & _); [unfold is_node; congruence|]. destruct Lq' as (ty' & st' & l' & Eq'). destruct (node_at _ _ _ Eq') as (m & M & _). rewrite M.
  destruct (end_ m =? position); [|exact (Fin q _ Eq)]. exact (Fin q' _ Eq').
Qed.

(** For every position of the file: there are ranges, each contains the position and lies strictly within the following
    one, the last is the whole file.  For some node that touches the position all ancestors that are not hidden are offered. *)
Theorem selection_spec : forall position, position <= end_of t -> exists l, selection_ranges is_stmt is_keyword hidden code (array t) position = Some l /\
  l <> [] /\ Forall (contains position) l /\ StronglySorted inside l /\ last l (0, 0) = (0, end_of t) /\
  exists p s, subtree t p = Some s /\ start_of s <= position <= end_of s /\
    forall q x d, p = q ++ x -> subtree t q = Some d -> hidden (type_of d) = false -> exists r, shown d r /\ In r l.
Proof.
  intros position Bound. destruct (initial_spec position Bound) as (p & s & I & Hp & Pos). unfold selection_ranges. rewrite I.
  destruct (ranges_spec p s (length (array t)) None Hp) as (l & A & B & _ & D & E & F & G).
  - assert (D := depth_bound _ _ _ Hp). assert (X := index_bound _ _ _ Hp). assert (S' := size_pos s). unfold array. rewrite flatten_length. lia.
  - discriminate.
  - exists l. assert (Ne : l <> []) by (intros Z; specialize (E Z); discriminate). split; [exact A|]. split; [exact Ne|]. split; [|split; [exact B|split]].
    + rewrite Forall_forall. intros q Iq. destruct (D q Iq) as [X Y]. unfold raw in *. cbn [fst snd] in *. split; lia.
    + rewrite (F Ne). unfold raw. rewrite root_start. reflexivity.
    + exists p, s. split; [exact Hp|]. split; [exact Pos|]. intros q x d Eq Hd Sh. destruct (G q x d Eq Hd Sh) as (r & R & [Z|Z]); [eauto|discriminate].
Qed.
End Select.

Theorem C34_selection_ranges_grow_partial : forall is_stmt is_keyword hidden code t position, proper t -> placed 0 t (end_of t) -> own_lines is_stmt code t ->
  start_of t = 0 -> hidden (type_of t) = false -> position <= end_of t ->
  exists l, selection_ranges is_stmt is_keyword hidden code (array t) position = Some l /\
    l <> [] /\ Forall (contains position) l /\ StronglySorted inside l /\ last l (0, 0) = (0, end_of t) /\
    exists p s, subtree t p = Some s /\ start_of s <= position <= end_of s /\
      forall q x d, p = q ++ x -> subtree t q = Some d -> hidden (type_of d) = false ->
        exists r, In r l /\ snd r = end_of d /\ fst r <= start_of d /\ (is_stmt (type_of d) = false -> fst r = start_of d).
Proof.
  intros is_stmt is_keyword hidden code t position P Pl O S H B. destruct (selection_spec is_stmt is_keyword hidden code t (end_of t) P Pl O S H position B) as (l & A1 & A2 & A3 & A4 & A5 & p & s & A6 & A7 & A8).
  exists l. repeat (split; [assumption|]). exists p, s. repeat (split; [assumption|]). intros q x d Eq Hd Sh. destruct (A8 q x d Eq Hd Sh) as (r & R & I). exists r. split; [exact I|exact R].
Qed.

(** ** Concrete trees.  Types of leaves: 0 name, 1 and 2 keywords (as are the operators of the grammar), 3 newline, 4 indent, 5 dedent, 6 end marker; of nodes: 0 file, 1 stmt, 2 simple_stmts, 3 block, 4 if_stmt, 5 broken_scope
    (from 32768). *)
Definition ex_stmt (ty : N) : bool := N.eqb ty 32769.
Definition ex_keyword (ty : N) : bool := N.eqb ty 1 || N.eqb ty 2.
Definition ex_hidden (ty : N) : bool := existsb (N.eqb ty) [1; 2; 4; 5; 6; 32770; 32771]%N.

Definition stmt_y (at_ : nat) : tree := Node 32769 at_ 2 [Node 32770 at_ 2 [Leaf 0 at_ 1; Leaf 3 (at_ + 1) 1]].
Definition if_x (at_ body : nat) : tree :=
  Node 32769 at_ (body + 2 - at_) [Node 32772 at_ (body + 2 - at_)
    [Leaf 2 at_ 2; Leaf 0 (at_ + 3) 1; Leaf 1 (at_ + 4) 1; Node 32771 (at_ + 5) (body + 2 - (at_ + 5)) [Leaf 3 (at_ + 5) 1; Leaf 4 body 0; stmt_y body; Leaf 5 (body + 2) 0]]].

(** [if x:\n  y\n] *)
Definition if_code : list N := [105; 102; 32; 120; 58; 10; 32; 32; 121; 10]%N.
Definition if_tree : tree := Node 32768 0 10 [if_x 0 8; Leaf 6 10 0].
Example if_ranges : selection_ranges ex_stmt ex_keyword ex_hidden if_code (array if_tree) 8 = Some [(8, 9); (6, 10); (0, 10)] /\
  selection_ranges ex_stmt ex_keyword ex_hidden if_code (array if_tree) 7 = Some [(0, 10)] /\
  selection_ranges ex_stmt ex_keyword ex_hidden if_code (array if_tree) 4 = Some [(3, 4); (0, 10)].
Proof. repeat apply conj; vm_compute; reflexivity. Qed.

Ltac proper_tree := repeat (first [apply proper_leaf; reflexivity | apply proper_node; [discriminate|discriminate|] | apply Forall_cons | apply Forall_nil]).
Example if_meets : proper if_tree /\ placed 0 if_tree (end_of if_tree) /\ own_lines ex_stmt if_code if_tree /\ start_of if_tree = 0 /\ ex_hidden (type_of if_tree) = false.
Proof.
  repeat apply conj; try reflexivity.
  - proper_tree.
  - unfold if_tree, if_x, stmt_y. cbn [end_of Nat.add Nat.sub]. change 10 with (0 + 10) at 2.
    apply placed_node; [lia|]. change (0 + 10) with 10. eapply placed_more; [apply placed_node; [lia|]|].
    + eapply placed_more; [apply placed_node; [lia|]|apply placed_none].
      eapply placed_more; [apply placed_leaf; lia|]. eapply placed_more; [apply placed_leaf; lia|]. eapply placed_more; [apply placed_leaf; lia|].
      eapply placed_more; [apply placed_node; [lia|]|apply placed_none]. eapply placed_more; [apply placed_leaf; lia|]. eapply placed_more; [apply placed_leaf; lia|].
      eapply placed_more; [apply placed_node; [lia|]|].
      * eapply placed_more; [apply placed_node; [lia|]|apply placed_none]. eapply placed_more; [apply placed_leaf; lia|]. eapply placed_more; [apply placed_leaf; lia|]. apply placed_none.
      * eapply placed_more; [apply placed_leaf; lia|]. apply placed_none.
    + eapply placed_more; [apply placed_leaf; lia|]. apply placed_none.
  - intros p k s c Hs Hc Is.
    destruct p as [|a [|b [|d [|e [|f p]]]]]; cbn [app] in *.
    + injection Hs as <-. left. reflexivity.
    + destruct a as [|[|a]]; cbn in Hs; try (destruct a; discriminate); injection Hs as <-; left; reflexivity || (destruct k; discriminate).
    + destruct a as [|[|a]]; cbn in Hs; try (destruct a; discriminate); try discriminate. destruct b as [|b]; cbn in Hs; [injection Hs as <-; left; reflexivity|destruct b; discriminate].
    + destruct a as [|[|a]]; cbn in Hs; try (destruct a; discriminate); try discriminate. destruct b as [|b]; cbn in Hs; [|destruct b; discriminate].
      destruct d as [|[|[|[|d]]]]; cbn in Hs; try (destruct d; discriminate); injection Hs as <-; cbn in Hc; try discriminate.
      right. exists 5. destruct k as [|[|[|[|k]]]]; cbn in Hc; try (destruct k; discriminate); injection Hc as <-; cbn in Is; try discriminate. cbn. split; [lia|reflexivity].
    + exfalso. destruct a as [|[|a]]; cbn in Hc; try (destruct a; discriminate); try discriminate. destruct b as [|b]; cbn in Hc; [|destruct b; discriminate].
      destruct d as [|[|[|[|d]]]]; cbn in Hc; try (destruct d; discriminate); try discriminate.
      destruct e as [|[|[|[|e]]]]; cbn in Hc; try (destruct e; discriminate); try discriminate. destruct k as [|k]; cbn in Hc; [injection Hc as <-; discriminate|destruct k; discriminate].
    + exfalso. destruct a as [|[|a]]; cbn in Hc; try (destruct a; discriminate); try discriminate. destruct b as [|b]; cbn in Hc; [|destruct b; discriminate].
      destruct d as [|[|[|[|d]]]]; cbn in Hc; try (destruct d; discriminate); try discriminate.
      destruct e as [|[|[|[|e]]]]; cbn in Hc; try (destruct e; discriminate); try discriminate. destruct f as [|f]; cbn in Hc; [|destruct f; discriminate].
      destruct p as [|g p]; cbn in Hc.
      * destruct k as [|[|k]]; cbn in Hc; try (destruct k; discriminate); injection Hc as <-; discriminate.
      * destruct g as [|[|g]]; cbn in Hc; try (destruct g; discriminate); destruct p; discriminate.
Qed.

(** ** Where it is not so *)

(** [x\n    y\n]: an unexpected indentation, which the parser accepts as [broken_scope].  The range of the inner statement
    begins with its line, that of [broken_scope] with the text. *)
Definition indented_code : list N := [120; 10; 32; 32; 32; 32; 121; 10]%N.
Definition indented_tree : tree := Node 32768 0 8
  [stmt_y 0; Node 32769 6 2 [Node 32773 6 2 [Leaf 4 6 0; stmt_y 6; Leaf 5 8 0]]; Leaf 6 8 0].
Example indented_ranges : selection_ranges ex_stmt ex_keyword ex_hidden indented_code (array indented_tree) 6 = Some [(6, 7); (2, 8); (6, 8); (0, 8)].
Proof. vm_compute. reflexivity. Qed.
Lemma indented_proper : proper indented_tree. Proof. proper_tree. Qed.
Lemma indented_placed : placed 0 indented_tree 8.
Proof.
  unfold indented_tree, stmt_y. cbn [Nat.add]. change 8 with (0 + 8) at 3. apply placed_node; [lia|]. change (0 + 8) with 8.
  eapply placed_more; [apply placed_node; [lia|]|].
  - eapply placed_more; [apply placed_node; [lia|]|apply placed_none]. eapply placed_more; [apply placed_leaf; lia|]. eapply placed_more; [apply placed_leaf; lia|]. apply placed_none.
  - eapply placed_more; [apply placed_node; [lia|]|].
    + eapply placed_more; [apply placed_node; [lia|]|apply placed_none]. eapply placed_more; [apply placed_leaf; lia|]. eapply placed_more; [apply placed_node; [lia|]|].
      * eapply placed_more; [apply placed_node; [lia|]|apply placed_none]. eapply placed_more; [apply placed_leaf; lia|]. eapply placed_more; [apply placed_leaf; lia|]. apply placed_none.
      * eapply placed_more; [apply placed_leaf; lia|]. apply placed_none.
    + eapply placed_more; [apply placed_leaf; lia|]. apply placed_none.
Qed.

(** So the ranges do not grow in general. *)
Theorem C34_unexpected_indent_refuted : ~ forall code t position, proper t -> placed 0 t (end_of t) -> start_of t = 0 -> position <= end_of t ->
  length code = end_of t -> exists l, selection_ranges ex_stmt ex_keyword ex_hidden code (array t) position = Some l /\ StronglySorted inside l.
Proof.
  intros H. destruct (H indented_code indented_tree 6 indented_proper indented_placed eq_refl ltac:(cbn; lia) eq_refl) as (l & E & S).
  rewrite indented_ranges in E. injection E as <-. inversion S as [|? ? S2 _]; subst. inversion S2 as [|? ? _ F]; subst. inversion F as [|? ? I _]; subst. destruct I as [I _]. cbn in I. lia.
Qed.

(** [\nx\rif x:\r  y\r]: carriage returns end lines for the tokenizer, but not here. *)
Definition cr_code : list N := [10; 120; 13; 105; 102; 32; 120; 58; 13; 32; 32; 121; 13]%N.
Definition cr_tree : tree := Node 32768 0 13 [Node 32769 0 1 [Leaf 3 0 1]; stmt_y 1; if_x 3 11; Leaf 6 13 0].
Theorem C34_carriage_return_refuted : selection_ranges ex_stmt ex_keyword ex_hidden cr_code (array cr_tree) 11 = Some [(11, 12); (1, 13); (3, 13); (0, 13)].
Proof. vm_compute. reflexivity. Qed.

Print Assumptions C34_selection_ranges_grow_partial.
Print Assumptions C34_unexpected_indent_refuted.
