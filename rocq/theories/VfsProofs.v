(** Proofs about invalidation (C11). *)
From Coq Require Import List Bool Arith Lia.
From Verif Require Import VfsModel VfsSpec.
Import ListNotations.

Lemma set_nth_length : forall A i (v : A) l, length (set_nth i v l) = length l.
Proof. intros A i v l. revert i. induction l as [|x r IH]; intros [|i]; cbn; auto. Qed.

Lemma nth_set_nth : forall A i j (v d : A) l, i < length l -> nth j (set_nth i v l) d = if Nat.eqb j i then v else nth j l d.
Proof.
  intros A i j v d l. revert i j. induction l as [|x r IH]; intros i j H; [cbn in H; lia|].
  destruct i as [|i], j as [|j]; cbn in *; auto. apply IH. lia.
Qed.

Lemma nth_set_nth_other : forall A i j (v d : A) l, j <> i -> nth j (set_nth i v l) d = nth j l d.
Proof.
  intros A i j v d l. revert i j. induction l as [|x r IH]; intros i j H; destruct i as [|i], j as [|j]; cbn; auto; try lia.
Qed.

Lemma set_nth_out : forall A i (v : A) l, length l <= i -> set_nth i v l = l.
Proof. intros A i v l. revert i. induction l as [|x r IH]; intros [|i] H; cbn in *; auto; [lia|]. f_equal. apply IH. lia. Qed.

Definition inv_of (h : list entry) (e : nat) : invs := e_inv (get_entry h e).
Definition idx_of (h : list entry) (e : nat) : option nat := e_index (get_entry h e).

Lemma take_inv_fst : forall h e, fst (take_inv h e) = inv_of h e.
Proof. intros h e. unfold take_inv, inv_of. destruct (e_inv (get_entry h e)); reflexivity. Qed.

Lemma take_inv_idx : forall h e e', idx_of (snd (take_inv h e)) e' = idx_of h e'.
Proof.
  intros h e e'. unfold take_inv, idx_of. destruct (e_inv (get_entry h e)) as [|l] eqn:E; cbn; [reflexivity|].
  destruct (le_lt_dec (length h) e) as [H|H]; [rewrite set_nth_out; auto|].
  unfold get_entry at 1. rewrite nth_set_nth by exact H.
  destruct (Nat.eqb_spec e' e) as [->|]; reflexivity.
Qed.

Lemma take_inv_same : forall h e l, inv_of h e = InvSome l -> inv_of (snd (take_inv h e)) e = InvSome [].
Proof.
  intros h e l H. unfold take_inv, inv_of in *. rewrite H. cbn.
  destruct (le_lt_dec (length h) e) as [G|G].
  - rewrite set_nth_out by exact G. unfold get_entry. rewrite nth_overflow by exact G. reflexivity.
  - unfold get_entry. rewrite nth_set_nth by exact G. rewrite Nat.eqb_refl. reflexivity.
Qed.

Lemma take_inv_other : forall h e e', e' <> e -> get_entry (snd (take_inv h e)) e' = get_entry h e'.
Proof.
  intros h e e' H. unfold take_inv. destruct (e_inv (get_entry h e)); cbn; [reflexivity|].
  unfold get_entry. apply nth_set_nth_other. exact H.
Qed.

Lemma take_inv_length : forall h e, length (snd (take_inv h e)) = length h.
Proof. intros h e. unfold take_inv. destruct (e_inv (get_entry h e)); cbn; [reflexivity|]. apply set_nth_length. Qed.

Definition size (v : invs) : nat := match v with InvDb => 0 | InvSome l => length l end.

Lemma weight_set : forall h e x, e < length h ->
  weight (set_nth e x h) + size (inv_of h e) = weight h + size (e_inv x).
Proof.
  induction h as [|y r IH]; intros e x H; [cbn in H; lia|]. destruct e as [|e].
  - cbn [set_nth]. unfold weight, inv_of, get_entry, size. cbn [fold_right nth].
    destruct (e_inv x), (e_inv y); lia.
  - cbn [set_nth]. cbn [length] in H. specialize (IH e x). unfold weight, inv_of, get_entry, size in *. cbn [fold_right nth].
    assert (G : e < length r) by lia. specialize (IH G). lia.
Qed.

Lemma take_weight : forall h e, weight (snd (take_inv h e)) + size (inv_of h e) = weight h.
Proof.
  intros h e. unfold take_inv. destruct (e_inv (get_entry h e)) as [|l] eqn:E; cbn [snd].
  - unfold inv_of. rewrite E. cbn. lia.
  - destruct (le_lt_dec (length h) e) as [H|H].
    + rewrite set_nth_out by exact H. unfold inv_of, get_entry. rewrite nth_overflow by exact H. cbn. lia.
    + rewrite weight_set by exact H. cbn. lia.
Qed.

(** File [j] is registered as a dependent of file [i]; file [i] invalidates everything. *)
Definition registered (fs : list file) (h : list entry) (i j : nat) : Prop :=
  exists l, inv_of h (f_entry (get_file fs i)) = InvSome l /\ In j l.
Definition everything (fs : list file) (h : list entry) (i : nat) : Prop := inv_of h (f_entry (get_file fs i)) = InvDb.

(** The heap only lost registrations. *)
Definition shrunk (h h' : list entry) : Prop :=
  length h' = length h /\ (forall e, idx_of h' e = idx_of h e) /\
  (forall e, inv_of h' e = inv_of h e \/ (exists l, inv_of h e = InvSome l) /\ inv_of h' e = InvSome []).

Lemma shrunk_refl : forall h, shrunk h h.
Proof. intros h. repeat split; auto. Qed.

Lemma shrunk_trans : forall a b c, shrunk a b -> shrunk b c -> shrunk a c.
Proof.
  intros a b c [L1 [I1 H1]] [L2 [I2 H2]]. split; [congruence|]. split; [intro e; congruence|]. intro e.
  destruct (H2 e) as [E|[[l El] E]].
  - rewrite E. destruct (H1 e) as [F|F]; auto.
  - right. split; [|exact E]. destruct (H1 e) as [F|[F _]]; [|exact F]. exists l. congruence.
Qed.

Lemma take_shrunk : forall h e, shrunk h (snd (take_inv h e)).
Proof.
  intros h e. split; [apply take_inv_length|]. split; [intro; apply take_inv_idx|]. intro e'.
  destruct (Nat.eq_dec e' e) as [->|H].
  - destruct (inv_of h e) as [|l] eqn:E.
    + left. unfold take_inv. unfold inv_of in *. rewrite E. cbn. exact E.
    + right. split; [eauto|]. apply take_inv_same with (l := l). exact E.
  - left. unfold inv_of. rewrite take_inv_other by exact H. reflexivity.
Qed.

Lemma shrunk_registered : forall fs h h' i j, shrunk h h' -> registered fs h' i j -> registered fs h i j.
Proof.
  intros fs h h' i j [_ [_ S]] [l [E I]]. destruct (S (f_entry (get_file fs i))) as [F|[_ F]].
  - exists l. split; [congruence|exact I].
  - rewrite F in E. injection E as <-. destruct I.
Qed.

Lemma shrunk_everything : forall fs h h' i, shrunk h h' -> everything fs h' i -> everything fs h i.
Proof.
  intros fs h h' i [_ [_ S]] E. unfold everything in *. destruct (S (f_entry (get_file fs i))) as [F|[_ F]]; congruence.
Qed.

Lemma reach_mono : forall (R S : nat -> nat -> Prop) l m i,
  (forall a b, R a b -> S a b) -> (forall a, In a l -> reach S m a) -> reach R l i -> reach S m i.
Proof. intros R S l m i RS L H. induction H as [i H|i j _ IH H]; [auto|]. apply reach_step with i; auto. Qed.

Section Post.
  Variable fs : list file.
  Variable mem : list (path * nat).
  Variable ch : option nat.
  Notation ent i := (f_entry (get_file fs i)).

  (** The state after the files [l] were invalidated; [new] are the new events. *)
  Record post (l : list nat) (h : list entry) (db : bool) (h' : list entry) (new : list event) : Prop := {
    post_shrunk : shrunk h h';
    post_weight : weight h' <= weight h;
    post_sound : forall c i, In (Refs c i) new -> c = ch /\ reach (registered fs h) l i;
    post_all : db = false -> forall i, In i l -> In (Refs ch i) new;
    post_closed : db = false -> forall i, In (Refs ch i) new ->
      (exists m, inv_of h (ent i) = InvSome m /\ forall j, In j m -> In (Refs ch j) new) /\ inv_of h' (ent i) = InvSome [];
    post_same : db = false -> forall e, (forall i, In (Refs ch i) new -> ent i <> e) -> get_entry h' e = get_entry h e;
    post_notify : db = false -> forall p, In (Notify p) new <->
      exists i, In (Refs ch i) new /\ f_path (get_file fs i) = p /\ mem_find mem p <> None;
    post_db : db = true -> exists i, reach (registered fs h) l i /\ everything fs h i;
    post_db_notify : db = true -> forall p i, mem_find mem p = Some i -> In (Notify p) new }.

  Lemma post_nil : forall h, post [] h false h [].
  Proof.
    intros h. constructor; auto using shrunk_refl; try discriminate; cbn; try tauto.
    - intros _ p. split; [tauto|]. intros [i [[] _]].
  Qed.

  Lemma mem_find_in : forall p i, mem_find mem p = Some i -> In (p, i) mem.
  Proof.
    intros p i H. unfold mem_find in H. destruct (List.find _ mem) as [[q k]|] eqn:E; [|discriminate].
    injection H as ->. apply find_some in E. destruct E as [E F]. cbn in F. unfold path_eqb in F.
    destruct (list_eq_dec Nat.eq_dec q p) as [->|]; [exact E|discriminate].
  Qed.

  (** One file. *)
  Lemma post_one : forall i h m h2 new,
    inv_of h (ent i) = InvSome m ->
    post m (snd (take_inv h (ent i))) false h2 new ->
    post [i] h false h2
      (Refs ch i :: new ++ match mem_find mem (f_path (get_file fs i)) with Some _ => [Notify (f_path (get_file fs i))] | None => [] end).
  Proof.
    intros i h m h2 new Em P. destruct P as [Ps Pw Pso Pa Pc Psa Pn Pd _].
    set (h1 := snd (take_inv h (ent i))) in *. assert (S1 : shrunk h h1) by apply take_shrunk.
    set (fin := match mem_find mem (f_path (get_file fs i)) with Some _ => _ | None => _ end).
    assert (Fin : forall c j, ~ In (Refs c j) fin).
    { intros c j. unfold fin. destruct (mem_find _ _); cbn; intuition congruence. }
    assert (InR : forall c j, In (Refs c j) (Refs ch i :: new ++ fin) <-> (c = ch /\ j = i) \/ In (Refs c j) new).
    { intros c j. cbn [In]. rewrite in_app_iff. specialize (Fin c j). split; intros H.
      - destruct H as [H|[H|H]]; [left; split; congruence|right; exact H|tauto].
      - destruct H as [[-> ->]|H]; tauto. }
    constructor.
    - apply shrunk_trans with h1; assumption.
    - assert (W := take_weight h (ent i)). fold h1 in W. lia.
    - intros c j Hj. apply InR in Hj. destruct Hj as [[-> ->]|Hj].
      + split; [reflexivity|]. apply reach_in. left. reflexivity.
      + apply Pso in Hj. destruct Hj as [-> Hj]. split; [reflexivity|].
        apply (reach_mono (registered fs h1) (registered fs h) m [i]); [| |exact Hj].
        * intros a b. apply shrunk_registered. exact S1.
        * intros a Ha. apply reach_step with i; [apply reach_in; left; reflexivity|]. exists m. auto.
    - intros _ j [->|[]]. apply InR. left. auto.
    - intros _ j Hj. apply InR in Hj.
      assert (Cl : forall j, In (Refs ch j) new -> exists m0, inv_of h1 (ent j) = InvSome m0 /\ (forall j0, In j0 m0 -> In (Refs ch j0) new)).
      { intros j0 H0. apply (Pc eq_refl j0) in H0. exact (proj1 H0). }
      assert (E1 : inv_of h1 (ent i) = InvSome []) by (apply take_inv_same with m; exact Em).
      assert (All : forall j, In j m -> In (Refs ch j) (Refs ch i :: new ++ fin)).
      { intros j0 Hj0. apply InR. right. apply (Pa eq_refl). exact Hj0. }
      destruct (Nat.eq_dec (ent j) (ent i)) as [Ej|Ej].
      + split; [exists m; rewrite Ej; auto|]. rewrite Ej. destruct Ps as [_ [_ Ps]].
        destruct (Ps (ent i)) as [F|[_ F]]; congruence.
      + destruct Hj as [[_ ->]|Hj]; [congruence|]. destruct (Pc eq_refl j Hj) as [[m0 [Em0 H0]] H1]. split; [|exact H1].
        exists m0. split.
        * rewrite <- Em0. unfold inv_of, h1. rewrite take_inv_other by exact Ej. reflexivity.
        * intros j0 Hj0. apply InR. right. auto.
    - intros _ e He.
      rewrite (Psa eq_refl e) by (intros j Hj; apply He; apply InR; right; exact Hj).
      apply take_inv_other. intro Hc. apply (He i); [apply InR; left; auto|congruence].
    - intros _ p. cbn [In]. rewrite in_app_iff. split.
      + intros [H|[H|H]]; [discriminate| |].
        * apply (Pn eq_refl) in H. destruct H as [j [Hj Hp]]. exists j. split; [apply InR; right; exact Hj|exact Hp].
        * unfold fin in H. destruct (mem_find mem (f_path (get_file fs i))) as [k|] eqn:Ek; [|destruct H].
          destruct H as [H|[]]. injection H as <-. exists i. split; [apply InR; left; auto|]. split; [reflexivity|congruence].
      + intros [j [Hj [Hp Hm]]]. apply InR in Hj. destruct Hj as [[_ ->]|Hj].
        * right. right. unfold fin. rewrite Hp. destruct (mem_find mem p); [left; reflexivity|congruence].
        * right. left. apply (Pn eq_refl). exists j. auto.
    - discriminate.
    - discriminate.
  Qed.

  Lemma post_one_db : forall i h m h2 new,
    inv_of h (ent i) = InvSome m ->
    post m (snd (take_inv h (ent i))) true h2 new ->
    post [i] h true h2 (Refs ch i :: new).
  Proof.
    intros i h m h2 new Em P. destruct P as [Ps Pw Pso Pa Pc Psa Pn Pd Pdn].
    set (h1 := snd (take_inv h (ent i))) in *. assert (S1 : shrunk h h1) by apply take_shrunk.
    assert (R1 : forall j, reach (registered fs h1) m j -> reach (registered fs h) [i] j).
    { intros j Hj. apply (reach_mono (registered fs h1) (registered fs h) m [i]); [| |exact Hj].
      - intros a b. apply shrunk_registered. exact S1.
      - intros a Ha. apply reach_step with i; [apply reach_in; left; reflexivity|]. exists m. auto. }
    constructor; try discriminate.
    - apply shrunk_trans with h1; assumption.
    - assert (W := take_weight h (ent i)). fold h1 in W. lia.
    - intros c j [Hj|Hj].
      + injection Hj as <- <-. split; [reflexivity|]. apply reach_in. left. reflexivity.
      + apply Pso in Hj. destruct Hj as [-> Hj]. auto.
    - intros _. destruct (Pd eq_refl) as [j [Hj Ej]]. exists j. split; [auto|]. eapply shrunk_everything; eauto.
    - intros _ p k Hp. right. eapply Pdn; eauto.
  Qed.

  Lemma post_seq : forall l r h db h1 h2 new1 new2,
    post l h false h1 new1 -> post r h1 db h2 new2 -> post (l ++ r) h db h2 (new1 ++ new2).
  Proof.
    intros l r h db h1 h2 new1 new2 P Q.
    assert (Rl : forall j, reach (registered fs h) l j -> reach (registered fs h) (l ++ r) j).
    { intros j Hj. apply (reach_mono (registered fs h) (registered fs h) l (l ++ r)); auto.
      intros a Ha. apply reach_in. apply in_or_app. auto. }
    assert (Rr : forall j, reach (registered fs h1) r j -> reach (registered fs h) (l ++ r) j).
    { intros j Hj. apply (reach_mono (registered fs h1) (registered fs h) r (l ++ r)); [| |exact Hj].
      - intros a b. apply shrunk_registered. apply (post_shrunk _ _ _ _ _ P).
      - intros a Ha. apply reach_in. apply in_or_app. auto. }
    constructor.
    - eapply shrunk_trans; [apply (post_shrunk _ _ _ _ _ P)|apply (post_shrunk _ _ _ _ _ Q)].
    - assert (A := post_weight _ _ _ _ _ P). assert (B := post_weight _ _ _ _ _ Q). lia.
    - intros c i Hi. apply in_app_or in Hi. destruct Hi as [Hi|Hi].
      + apply (post_sound _ _ _ _ _ P) in Hi. destruct Hi; auto.
      + apply (post_sound _ _ _ _ _ Q) in Hi. destruct Hi; auto.
    - intros D i Hi. apply in_or_app. apply in_app_or in Hi. destruct Hi as [Hi|Hi].
      + left. apply (post_all _ _ _ _ _ P); auto.
      + right. apply (post_all _ _ _ _ _ Q); auto.
    - intros D i Hi.
      assert (Dec : (exists k, In (Refs ch k) new1 /\ ent k = ent i) \/ (forall k, In (Refs ch k) new1 -> ent k <> ent i)).
      { clear. induction new1 as [|ev n IH]; [right; intros k []|].
        destruct IH as [[k [A B]]|N]; [left; exists k; cbn; auto|].
        destruct ev as [c k|p].
        - destruct (Nat.eq_dec (ent k) (ent i)) as [E|E].
          + destruct c as [c|], ch as [d|].
            * destruct (Nat.eq_dec c d) as [->|F]; [left; exists k; cbn; auto|].
              right. intros k' [H|H]; [congruence|auto].
            * right. intros k' [H|H]; [congruence|auto].
            * right. intros k' [H|H]; [congruence|auto].
            * left. exists k. cbn. auto.
          + right. intros k' [H|H]; [injection H as _ <-; exact E|auto].
        - right. intros k' [H|H]; [discriminate|auto]. }
      destruct Dec as [[k [Hk Ek]]|N].
      + destruct (post_closed _ _ _ _ _ P eq_refl k Hk) as [[m [Em Hm]] E1]. rewrite Ek in Em, E1. split.
        * exists m. split; [exact Em|]. intros j Hj. apply in_or_app. left. auto.
        * destruct (post_shrunk _ _ _ _ _ Q) as [_ [_ S]]. destruct (S (ent i)) as [F|[_ F]]; congruence.
      + apply in_app_or in Hi. destruct Hi as [Hi|Hi]; [exfalso; apply (N i); auto|].
        destruct (post_closed _ _ _ _ _ Q D i Hi) as [[m [Em Hm]] E1]. split; [|exact E1].
        exists m. split.
        * unfold inv_of in *. rewrite (post_same _ _ _ _ _ P eq_refl (ent i)) in Em; [exact Em|exact N].
        * intros j Hj. apply in_or_app. right. auto.
    - intros D e He. rewrite (post_same _ _ _ _ _ Q D e) by (intros i Hi; apply He; apply in_or_app; auto).
      apply (post_same _ _ _ _ _ P eq_refl e). intros i Hi. apply He. apply in_or_app. auto.
    - intros D p. rewrite in_app_iff, (post_notify _ _ _ _ _ P eq_refl p), (post_notify _ _ _ _ _ Q D p). split.
      + intros [[i [A B]]|[i [A B]]]; exists i; (split; [apply in_or_app; auto|exact B]).
      + intros [i [A B]]. apply in_app_or in A. destruct A; [left|right]; exists i; auto.
    - intros D. destruct (post_db _ _ _ _ _ Q D) as [i [A B]]. exists i. split; [auto|].
      apply shrunk_everything with h1; [apply (post_shrunk _ _ _ _ _ P)|exact B].
    - intros D p i Hp. apply in_or_app. right. eapply (post_db_notify _ _ _ _ _ Q); eauto.
  Qed.

  Lemma post_weaken : forall l r h h1 new, post l h true h1 new -> post (l ++ r) h true h1 new.
  Proof.
    intros l r h h1 new P. destruct P as [Ps Pw Pso Pa Pc Psa Pn Pd Pdn].
    assert (Rl : forall j, reach (registered fs h) l j -> reach (registered fs h) (l ++ r) j).
    { intros j Hj. apply (reach_mono (registered fs h) (registered fs h) l (l ++ r)); auto.
      intros a Ha. apply reach_in. apply in_or_app. auto. }
    constructor; auto; try discriminate.
    - intros c i Hi. apply Pso in Hi. destruct Hi; auto.
    - intros _. destruct (Pd eq_refl) as [i [A B]]. exists i. auto.
  Qed.

  Definition invs_post (inv : invs) (h : list entry) (db : bool) (h' : list entry) (new : list event) : Prop :=
    match inv with
    | InvDb => db = true /\ h' = h /\ new = map (fun x => Notify (fst x)) mem
    | InvSome l => post l h db h' new
    end.

  Theorem invalidate_files_post : forall fuel inv h log,
    (match inv with InvSome (_ :: _) => weight h < fuel | _ => True end) ->
    exists db h' new, invalidate_files fs mem ch fuel inv h log = Some (db, h', log ++ new) /\ invs_post inv h db h' new.
  Proof.
    induction fuel as [|fuel IH]; intros inv h log W; destruct inv as [|l].
    - exists true, h, (map (fun x => Notify (fst x)) mem). cbn. auto.
    - destruct l as [|x l]; [|cbn in W; lia]. exists false, h, []. rewrite app_nil_r. cbn. split; [reflexivity|apply post_nil].
    - exists true, h, (map (fun x => Notify (fst x)) mem). cbn. auto.
    - cbn [invalidate_files invs_post].
      match goal with |- exists _ _ _, ?F l h log = _ /\ _ => set (each := F) end.
      assert (Each : forall l h log, l = [] \/ weight h < S fuel ->
        exists db h' new, each l h log = Some (db, h', log ++ new) /\ post l h db h' new).
      { clear l h log W. induction l as [|i r IHl]; intros h log W.
        - exists false, h, []. cbn. rewrite app_nil_r. split; [reflexivity|apply post_nil].
        - destruct W as [W|W]; [discriminate|]. cbn [each].
          assert (T1 := take_inv_fst h (ent i)). assert (T2 := take_weight h (ent i)).
          destruct (take_inv h (ent i)) as [taken h1] eqn:ET. cbn [fst snd] in T1, T2. subst taken.
          assert (Eh1 : h1 = snd (take_inv h (ent i))) by (rewrite ET; reflexivity).
          destruct (IH (inv_of h (ent i)) h1 (log ++ [Refs ch i])) as [db [h2 [new [E P]]]].
          { destruct (inv_of h (ent i)) as [|[|y m]] eqn:Em; auto. cbn in T2. lia. }
          rewrite E. destruct (inv_of h (ent i)) as [|m] eqn:Em; cbn [invs_post] in P.
          + destruct P as [-> [-> ->]].
            exists true, h1, (Refs ch i :: map (fun x => Notify (fst x)) mem). split.
            { rewrite <- app_assoc. reflexivity. }
            change (i :: r) with ([i] ++ r). apply post_weaken.
            assert (h1 = h) as -> by (subst h1; unfold take_inv; unfold inv_of in Em; rewrite Em; reflexivity).
            constructor; try discriminate.
            * apply shrunk_refl.
            * lia.
            * intros c j [H|H].
              -- injection H as <- <-. split; [reflexivity|]. apply reach_in. left. reflexivity.
              -- exfalso. apply in_map_iff in H. destruct H as [x [H _]]. discriminate.
            * intros _. exists i. split; [apply reach_in; left; reflexivity|exact Em].
            * intros _ p k Hp. right. apply in_map_iff. exists (p, k). split; [reflexivity|]. apply mem_find_in. exact Hp.
          + destruct db.
            * exists true, h2, (Refs ch i :: new). split; [rewrite <- app_assoc; reflexivity|].
              change (i :: r) with ([i] ++ r). apply post_weaken. apply post_one_db with m; [exact Em|]. rewrite <- Eh1. exact P.
            * rewrite Eh1 in P. assert (Q := post_one i h m h2 new Em P).
              set (fin := match mem_find mem (f_path (get_file fs i)) with Some _ => _ | None => _ end) in Q.
              assert (L : (match mem_find mem (f_path (get_file fs i)) with
                           | Some _ => ((log ++ [Refs ch i]) ++ new) ++ [Notify (f_path (get_file fs i))]
                           | None => (log ++ [Refs ch i]) ++ new end) = log ++ (Refs ch i :: new ++ fin)).
              { unfold fin. destruct (mem_find _ _); rewrite <- ?app_assoc; cbn [app]; [reflexivity|rewrite app_nil_r; reflexivity]. }
              rewrite L. destruct (IHl h2 (log ++ (Refs ch i :: new ++ fin))) as [db3 [h3 [new3 [E3 P3]]]].
              { right. assert (Hw := post_weight _ _ _ _ _ Q). lia. }
              exists db3, h3, ((Refs ch i :: new ++ fin) ++ new3). split.
              -- rewrite E3, <- app_assoc. reflexivity.
              -- change (i :: r) with ([i] ++ r). apply post_seq with h2; assumption. }
      apply Each. destruct l; auto.
  Qed.

  (** Whatever is reached was invalidated. *)
  Lemma post_complete : forall l h h' new i, post l h false h' new ->
    reach (registered fs h) l i -> In (Refs ch i) new.
  Proof.
    intros l h h' new i P H. induction H as [i H|i j _ IH [m [E H]]].
    - apply (post_all _ _ _ _ _ P); auto.
    - destruct (post_closed _ _ _ _ _ P eq_refl i IH) as [[m' [E' Hm]] _]. apply Hm. congruence.
  Qed.
End Post.

Lemma run_invalidate_post : forall s ch inv, exists db h new,
  run_invalidate s ch inv = Some (db, mk_vfs (v_tree s) h (v_files s) (v_mem s) (v_log s ++ new)) /\
  invs_post (v_files s) (v_mem s) ch inv (v_heap s) db h new.
Proof.
  intros s ch inv. unfold run_invalidate.
  destruct (invalidate_files_post (v_files s) (v_mem s) ch (S (weight (v_heap s))) inv (v_heap s) (v_log s)) as [db [h [new [E P]]]].
  { destruct inv as [|[|]]; auto. }
  rewrite E. exists db, h, new. auto.
Qed.

Lemma get_set_code_entry : forall fs i c j, f_entry (get_file (set_code fs i c) j) = f_entry (get_file fs j).
Proof.
  intros fs i c j. unfold set_code, get_file. destruct (le_lt_dec (length fs) i) as [H|H].
  - rewrite set_nth_out by exact H. reflexivity.
  - rewrite nth_set_nth by exact H. destruct (Nat.eqb_spec j i) as [->|]; reflexivity.
Qed.

Lemma get_set_code_path : forall fs i c j, f_path (get_file (set_code fs i c) j) = f_path (get_file fs j).
Proof.
  intros fs i c j. unfold set_code, get_file. destruct (le_lt_dec (length fs) i) as [H|H].
  - rewrite set_nth_out by exact H. reflexivity.
  - rewrite nth_set_nth by exact H. destruct (Nat.eqb_spec j i) as [->|]; reflexivity.
Qed.

Local Arguments get_file : simpl never.
Local Arguments get_entry : simpl never.
Local Arguments set_code : simpl never.

Lemma registered_set_code : forall fs i c h a b, registered (set_code fs i c) h a b <-> registered fs h a b.
Proof. intros. unfold registered. rewrite get_set_code_entry. tauto. Qed.

Lemma everything_set_code : forall fs i c h a, everything (set_code fs i c) h a <-> everything fs h a.
Proof. intros. unfold everything. rewrite get_set_code_entry. tauto. Qed.

Lemma depends_taken : forall fs h i m j, inv_of h (f_entry (get_file fs i)) = InvSome m ->
  (depends (registered fs h) i j <-> reach (registered fs (snd (take_inv h (f_entry (get_file fs i))))) m j).
Proof.
  intros fs h i m j E. set (e := f_entry (get_file fs i)) in *. split.
  - intros [k [[m' [E' K]] R]]. fold e in E'. assert (m' = m) by congruence. subst m'.
    induction R as [a [->|[]]|a b _ IH [l [El Ib]]]; [apply reach_in; exact K|].
    destruct (Nat.eq_dec (f_entry (get_file fs a)) e) as [Q|Q].
    + apply reach_in. rewrite Q in El. congruence.
    + apply reach_step with a; [exact IH|]. exists l. split; [|exact Ib]. unfold inv_of. rewrite take_inv_other by exact Q. exact El.
  - intros R. induction R as [a A|a b _ [k [K IH]] S].
    + exists a. split; [exists m; auto|apply reach_in; left; reflexivity].
    + exists k. split; [exact K|]. apply reach_step with a; [exact IH|]. eapply shrunk_registered; [apply take_shrunk|exact S].
Qed.

Theorem unload_post : forall s i, exists db s' new,
  invalidate_and_unload_file s i = Some (db, s') /\ v_log s' = v_log s ++ new /\
  (db = true <-> exists j, (j = i \/ depends (registered (v_files s) (v_heap s)) i j) /\ everything (v_files s) (v_heap s) j) /\
  (db = false ->
     (forall c j, In (Refs c j) new <-> c = Some i /\ depends (registered (v_files s) (v_heap s)) i j) /\
     (forall p, In (Notify p) new <-> exists j, depends (registered (v_files s) (v_heap s)) i j /\
                                               f_path (get_file (v_files s) j) = p /\ mem_find (v_mem s) p <> None) /\
     (forall j, j = i \/ depends (registered (v_files s) (v_heap s)) i j ->
        inv_of (v_heap s') (f_entry (get_file (v_files s) j)) = InvSome []) /\
     (forall e, (forall j, j = i \/ depends (registered (v_files s) (v_heap s)) i j -> f_entry (get_file (v_files s) j) <> e) ->
        get_entry (v_heap s') e = get_entry (v_heap s) e)) /\
  (db = true -> forall p k, mem_find (v_mem s) p = Some k -> In (Notify p) new).
Proof.
  intros s i. unfold invalidate_and_unload_file. rewrite get_set_code_entry.
  set (fs := v_files s). set (e := f_entry (get_file fs i)).
  assert (T1 := take_inv_fst (v_heap s) e). assert (T2 : take_inv (v_heap s) e = (inv_of (v_heap s) e, snd (take_inv (v_heap s) e))).
  { rewrite <- T1. destruct (take_inv (v_heap s) e); reflexivity. }
  rewrite T2. set (h1 := snd (take_inv (v_heap s) e)). clear T1 T2.
  destruct (run_invalidate_post (mk_vfs (v_tree s) h1 (set_code fs i None) (v_mem s) (v_log s)) (Some i) (inv_of (v_heap s) e)) as [db [h2 [new [E P]]]].
  cbn in E, P. rewrite E. exists db. eexists. exists new. split; [reflexivity|]. cbn. split; [reflexivity|].
  destruct (inv_of (v_heap s) e) as [|m] eqn:Em; cbn in P.
  - destruct P as [-> [-> ->]]. split; [|split; [discriminate|]].
    + split; [|reflexivity]. intros _. exists i. split; [left; reflexivity|exact Em].
    + intros _ p k H. apply in_map_iff. exists (p, k). split; [reflexivity|]. apply mem_find_in. exact H.
  - assert (D : forall j, depends (registered fs (v_heap s)) i j <-> reach (registered (set_code fs i None) h1) m j).
    { intros j. rewrite (depends_taken fs (v_heap s) i m j Em). fold e h1.
      split; apply reach_mono; intros a Ha; try (intros b Hb); try (apply reach_in; exact Ha);
        apply registered_set_code in Hb || apply (registered_set_code fs i None); auto;
        try (apply <- (registered_set_code fs i None); exact Hb). }
    assert (Sh : shrunk (v_heap s) h1) by apply take_shrunk.
    destruct db.
    + split; [|split; [discriminate|]].
      * split; [|reflexivity]. intros _. destruct (post_db _ _ _ _ _ _ _ _ P eq_refl) as [j [R Ev]]. exists j. split.
        -- right. apply D. exact R.
        -- apply everything_set_code in Ev. eapply shrunk_everything; eauto.
      * intros _. apply (post_db_notify _ _ _ _ _ _ _ _ P eq_refl).
    + assert (All : forall j, In (Refs (Some i) j) new <-> depends (registered fs (v_heap s)) i j).
      { intros j. rewrite D. split.
        - intros H. apply (post_sound _ _ _ _ _ _ _ _ P) in H. apply H.
        - apply (post_complete _ _ _ _ _ _ _ _ P). }
      split; [|split; [|discriminate]].
      * split; [discriminate|]. intros [j [[-> |J] Ev]].
        -- unfold everything in Ev. fold e in Ev. congruence.
        -- exfalso. apply All in J. destruct (post_closed _ _ _ _ _ _ _ _ P eq_refl j J) as [[m' [Em' _]] _].
           rewrite get_set_code_entry in Em'. unfold everything in Ev.
           destruct (Nat.eq_dec (f_entry (get_file fs j)) e) as [Q|Q]; [fold fs in Ev; rewrite Q in Ev; congruence|].
           unfold inv_of, h1 in *. rewrite take_inv_other in Em' by exact Q. congruence.
      * intros _. split; [|split; [|split]].
        -- intros c j. split.
           ++ intros H. destruct (post_sound _ _ _ _ _ _ _ _ P _ _ H) as [-> R]. split; [reflexivity|]. apply D. exact R.
           ++ intros [-> H]. apply All. exact H.
        -- intros p. rewrite (post_notify _ _ _ _ _ _ _ _ P eq_refl p). split; intros [j [A B]]; exists j.
           ++ rewrite get_set_code_path in B. split; [apply All; exact A|exact B].
           ++ rewrite get_set_code_path. split; [apply All; exact A|exact B].
        -- assert (E1 : inv_of h1 e = InvSome []) by (apply take_inv_same with m; exact Em).
           intros j [->|J].
           ++ fold e. destruct (post_shrunk _ _ _ _ _ _ _ _ P) as [_ [_ S]]. destruct (S e) as [Q|[_ Q]]; congruence.
           ++ apply All in J. destruct (post_closed _ _ _ _ _ _ _ _ P eq_refl j J) as [_ Q]. rewrite get_set_code_entry in Q. exact Q.
        -- intros e' H. rewrite (post_same _ _ _ _ _ _ _ _ P eq_refl e').
           ++ apply take_inv_other. intros ->. apply (H i); [left; reflexivity|reflexivity].
           ++ intros j J. rewrite get_set_code_entry. apply H. right. apply All. exact J.
Qed.
