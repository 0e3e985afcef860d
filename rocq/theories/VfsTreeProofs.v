(** Proofs about the tree and about open documents (C10). *)
From Coq Require Import List Bool Arith Lia.
From Verif Require Import VfsModel VfsSpec VfsProofs.
Import ListNotations.

(** ** Maps *)

Lemma find_remove : forall A n m (l : list (name * A)), find n (remove m l) = if Nat.eqb n m then None else find n l.
Proof.
  intros A n m l. unfold find, remove. induction l as [|[k v] r IH]; cbn; [destruct (Nat.eqb n m); reflexivity|].
  destruct (Nat.eqb_spec k m) as [->|H]; cbn.
  - rewrite IH. destruct (Nat.eqb_spec m n) as [->|H]; [rewrite Nat.eqb_refl; reflexivity|].
    destruct (Nat.eqb_spec n m); [congruence|reflexivity].
  - destruct (Nat.eqb_spec k n) as [->|G].
    + destruct (Nat.eqb_spec n m); [congruence|reflexivity].
    + exact IH.
Qed.

Lemma find_insert : forall A n m (v : A) l, find n (insert m v l) = if Nat.eqb n m then Some v else find n l.
Proof.
  intros A n m v l. unfold insert. unfold find at 1. cbn. destruct (Nat.eqb_spec m n) as [->|H].
  - rewrite Nat.eqb_refl. reflexivity.
  - fold (find n (remove m l)). rewrite find_remove. destruct (Nat.eqb_spec n m); [congruence|reflexivity].
Qed.

Lemma path_eqb_spec : forall a b, reflect (a = b) (path_eqb a b).
Proof. intros a b. unfold path_eqb. destruct (list_eq_dec Nat.eq_dec a b); constructor; auto. Qed.

Lemma mem_find_remove : forall m p q, mem_find (mem_remove m p) q = if path_eqb q p then None else mem_find m q.
Proof.
  intros m p q. unfold mem_find, mem_remove. induction m as [|[k v] r IH]; cbn; [destruct (path_eqb q p); reflexivity|].
  destruct (path_eqb_spec k p) as [->|H]; cbn.
  - rewrite IH. destruct (path_eqb_spec p q) as [->|H].
    + destruct (path_eqb_spec q q); [reflexivity|congruence].
    + destruct (path_eqb_spec q p); [congruence|reflexivity].
  - destruct (path_eqb_spec k q) as [->|G].
    + destruct (path_eqb_spec q p); [congruence|reflexivity].
    + exact IH.
Qed.

Lemma mem_find_insert : forall m p i q, mem_find (mem_insert m p i) q = if path_eqb q p then Some i else mem_find m q.
Proof.
  intros m p i q. unfold mem_insert. unfold mem_find at 1. cbn. destruct (path_eqb_spec p q) as [->|H].
  - destruct (path_eqb_spec q q); [reflexivity|congruence].
  - fold (mem_find (mem_remove m p) q). rewrite mem_find_remove. destruct (path_eqb_spec q p); [congruence|reflexivity].
Qed.

Definition keys_nodup (m : list (path * nat)) : Prop := NoDup (map fst m).

Lemma mem_remove_nodup : forall m p, keys_nodup m -> keys_nodup (mem_remove m p).
Proof.
  unfold keys_nodup, mem_remove. induction m as [|[k v] r IH]; intros p H; cbn; [constructor|].
  cbn in H. inversion H as [|? ? N D]; subst. destruct (path_eqb k p); cbn; [apply IH; exact D|].
  constructor; [|apply IH; exact D]. intro C. apply N. apply in_map_iff in C. destruct C as [x [E C]].
  apply filter_In in C. apply in_map_iff. exists x. tauto.
Qed.

Lemma mem_insert_nodup : forall m p i, keys_nodup m -> keys_nodup (mem_insert m p i).
Proof.
  intros m p i H. unfold keys_nodup, mem_insert. cbn. constructor; [|apply mem_remove_nodup; exact H].
  intro C. apply in_map_iff in C. destruct C as [x [E C]]. unfold mem_remove in C. apply filter_In in C. destruct C as [_ C].
  rewrite E in C. destruct (path_eqb_spec p p); [discriminate|congruence].
Qed.

Lemma mem_find_of_in : forall m p i, keys_nodup m -> In (p, i) m -> mem_find m p = Some i.
Proof.
  unfold keys_nodup, mem_find. induction m as [|[k v] r IH]; intros p i D H; [destruct H|]. cbn in *.
  inversion D as [|? ? N D']; subst. destruct H as [H|H].
  - injection H as -> ->. destruct (path_eqb_spec p p); [reflexivity|congruence].
  - destruct (path_eqb_spec k p) as [->|G]; [|apply IH; assumption].
    exfalso. apply N. apply in_map_iff. exists (p, i). auto.
Qed.

Lemma mem_path_some : forall m i p, keys_nodup m -> mem_path m i = Some p -> mem_find m p = Some i.
Proof.
  intros m i p D H. unfold mem_path in H. destruct (List.find _ m) as [[q j]|] eqn:E; [|discriminate]. injection H as ->.
  apply find_some in E. destruct E as [E F]. cbn in F. apply Nat.eqb_eq in F. subst j. apply mem_find_of_in; assumption.
Qed.

Lemma mem_path_none : forall m i p, mem_path m i = None -> mem_find m p <> Some i.
Proof.
  intros m i p H G. apply mem_find_in in G. unfold mem_path in H. destruct (List.find _ m) as [[q j]|] eqn:E; [discriminate|].
  apply (find_none _ _ E) in G. cbn in G. rewrite Nat.eqb_refl in G. discriminate.
Qed.

(** ** Looking up files in the part of the tree that was read *)

Fixpoint lookup (p : path) (es : list (name * node)) : option nat :=
  match p with
  | [] => None
  | [n] => match find n es with Some (NFile e) => Some e | _ => None end
  | n :: r => match find n es with Some (NDir (Some sub)) => lookup r sub | _ => None end
  end.

Lemma lookup_cons : forall n m r es, lookup (n :: m :: r) es = match find n es with Some (NDir (Some sub)) => lookup (m :: r) sub | _ => None end.
Proof. reflexivity. Qed.

Lemma lookup_nil_tree : forall p, lookup p [] = None.
Proof. intros [|n [|m r]]; reflexivity. Qed.

Definition bounded (t : list (name * node)) (h : list entry) : Prop := forall q e, lookup q t = Some e -> e < length h.
Definition injective (t : list (name * node)) : Prop := forall q1 q2 e, lookup q1 t = Some e -> lookup q2 t = Some e -> q1 = q2.

(** The tree and the heap grew; the new files are at paths with [N]. *)
Record grown (N : path -> Prop) (t : list (name * node)) (h : list entry) (t' : list (name * node)) (h' : list entry) : Prop := {
  g_len : length h <= length h';
  g_same : forall e, e < length h -> get_entry h' e = get_entry h e;
  g_keep : forall q e, lookup q t = Some e -> lookup q t' = Some e;
  g_new : forall q e, lookup q t' = Some e -> lookup q t = Some e \/ (length h <= e < length h' /\ idx_of h' e = None /\ N q);
  g_inj : forall q1 q2 e, length h <= e -> lookup q1 t' = Some e -> lookup q2 t' = Some e -> q1 = q2 }.

Lemma grown_bounded : forall N t h t' h', grown N t h t' h' -> bounded t h -> bounded t' h'.
Proof.
  intros N t h t' h' G B q e H. destruct (g_new _ _ _ _ _ G q e H) as [K|K]; [|lia]. apply B in K. assert (L := g_len _ _ _ _ _ G). lia.
Qed.

Lemma grown_injective : forall N t h t' h', grown N t h t' h' -> bounded t h -> injective t -> injective t'.
Proof.
  intros N t h t' h' G B I q1 q2 e H1 H2. destruct (g_new _ _ _ _ _ G q1 e H1) as [K1|K1].
  - destruct (g_new _ _ _ _ _ G q2 e H2) as [K2|K2]; [apply (I q1 q2 e); assumption|]. apply B in K1. lia.
  - apply (g_inj _ _ _ _ _ G q1 q2 e); [lia|assumption|assumption].
Qed.

Lemma grown_refl : forall N t h, bounded t h -> grown N t h t h.
Proof. intros N t h B. constructor; auto. intros q1 q2 e L H. apply B in H. lia. Qed.

Lemma grown_trans : forall N t h t1 h1 t2 h2, bounded t h -> grown N t h t1 h1 -> grown N t1 h1 t2 h2 -> grown N t h t2 h2.
Proof.
  intros N t h t1 h1 t2 h2 B G K. assert (L1 := g_len _ _ _ _ _ G). assert (L2 := g_len _ _ _ _ _ K).
  assert (B1 := grown_bounded _ _ _ _ _ G B). constructor.
  - lia.
  - intros e H. rewrite (g_same _ _ _ _ _ K) by lia. apply (g_same _ _ _ _ _ G). exact H.
  - intros q e H. apply (g_keep _ _ _ _ _ K). apply (g_keep _ _ _ _ _ G). exact H.
  - intros q e H. destruct (g_new _ _ _ _ _ K q e H) as [H1|[H1 [H2 H3]]].
    + destruct (g_new _ _ _ _ _ G q e H1) as [H2|[H2 [H3 H4]]]; [left; exact H2|]. right. split; [lia|]. split; [|exact H4].
      unfold idx_of in *. rewrite (g_same _ _ _ _ _ K) by lia. exact H3.
    + right. split; [lia|auto].
  - intros q1 q2 e L H1 H2.
    destruct (g_new _ _ _ _ _ K q1 e H1) as [K1|[K1 _]].
    + destruct (g_new _ _ _ _ _ K q2 e H2) as [K2|[K2 _]]; [apply (g_inj _ _ _ _ _ G q1 q2 e); assumption|]. apply B1 in K1. lia.
    + apply (g_inj _ _ _ _ _ K q1 q2 e); [lia|assumption|assumption].
Qed.

Lemma grown_weaken : forall (N M : path -> Prop) t h t' h', (forall q, N q -> M q) -> grown N t h t' h' -> grown M t h t' h'.
Proof.
  intros N M t h t' h' NM G. destruct G as [A B C D E]. constructor; auto. intros q e H.
  destruct (D q e H) as [K|[K1 [K2 K3]]]; auto.
Qed.

(** The entries of the directory with some name. *)
Definition sub_of (n : name) (es : list (name * node)) : list (name * node) :=
  match find n es with Some (NDir (Some sub)) => sub | _ => [] end.

Lemma lookup_sub : forall n m r es, lookup (n :: m :: r) es = lookup (m :: r) (sub_of n es).
Proof.
  intros n m r es. rewrite lookup_cons. unfold sub_of. destruct (find n es) as [[e|[sub|]|i]|]; rewrite ?lookup_nil_tree; reflexivity.
Qed.

Lemma bounded_sub : forall n es h, bounded es h -> bounded (sub_of n es) h.
Proof.
  intros n es h B q e H. destruct q as [|m r]; [discriminate|]. rewrite <- lookup_sub in H. apply B in H. exact H.
Qed.

Lemma grown_lift : forall (N M : path -> Prop) n es h sub h',
  bounded es h -> (forall e, find n es <> Some (NFile e)) ->
  (forall q, N q -> M (n :: q)) ->
  grown N (sub_of n es) h sub h' -> grown M es h (insert n (NDir (Some sub)) es) h'.
Proof.
  intros N M n es h sub h' B NF NM G.
  assert (Lk : forall q, lookup q (insert n (NDir (Some sub)) es) =
    match q with m :: k :: r => if Nat.eqb m n then lookup (k :: r) sub else lookup q es | [m] => if Nat.eqb m n then None else lookup q es | [] => None end).
  { intros [|m [|k r]]; [reflexivity| |].
    - cbn [lookup]. rewrite find_insert. destruct (Nat.eqb m n); reflexivity.
    - rewrite lookup_cons, find_insert. destruct (Nat.eqb_spec m n) as [->|H]; [reflexivity|]. rewrite lookup_cons. reflexivity. }
  constructor.
  - apply (g_len _ _ _ _ _ G).
  - apply (g_same _ _ _ _ _ G).
  - intros q e H. rewrite Lk. destruct q as [|m [|k r]]; [discriminate| |].
    + destruct (Nat.eqb_spec m n) as [->|E]; [|exact H]. cbn [lookup] in H. exfalso.
      destruct (find n es) as [[e'|x|x]|] eqn:F; try discriminate. apply (NF e'). reflexivity.
    + destruct (Nat.eqb_spec m n) as [->|E]; [|exact H]. apply (g_keep _ _ _ _ _ G). rewrite <- lookup_sub. exact H.
  - intros q e H. rewrite Lk in H. destruct q as [|m [|k r]]; [discriminate| |].
    + destruct (Nat.eqb_spec m n) as [->|E]; [discriminate|]. left. exact H.
    + destruct (Nat.eqb_spec m n) as [->|E]; [|left; exact H].
      destruct (g_new _ _ _ _ _ G _ _ H) as [K|[K1 [K2 K3]]]; [left; rewrite lookup_sub; exact K|].
      right. auto.
  - intros q1 q2 e L H1 H2. rewrite Lk in H1, H2.
    assert (Old : forall q, lookup q es = Some e -> False) by (intros q Hq; apply B in Hq; lia).
    destruct q1 as [|m1 [|k1 r1]]; [discriminate| |].
    { destruct (Nat.eqb m1 n); [discriminate|]. exfalso. eapply Old; eassumption. }
    destruct q2 as [|m2 [|k2 r2]]; [discriminate| |].
    { destruct (Nat.eqb m2 n); [discriminate|]. exfalso. eapply Old; eassumption. }
    destruct (Nat.eqb_spec m1 n) as [->|E1]; [|exfalso; eapply Old; eassumption].
    destruct (Nat.eqb_spec m2 n) as [->|E2]; [|exfalso; eapply Old; eassumption].
    f_equal. apply (g_inj _ _ _ _ _ G _ _ e); assumption.
Qed.

Section Ignored.
  Variable ignored : name -> bool.

  (** ** Reading directories *)

  Definition fresh_listing (es : list (name * disk)) (h : list entry) (l : list (name * node)) (h' : list entry) : Prop :=
    length h <= length h' /\ (forall e, e < length h -> get_entry h' e = get_entry h e) /\
    (forall e, length h <= e -> idx_of h' e = None) /\
    (forall n x, find n l = Some x -> (exists e, x = NFile e /\ length h <= e < length h') \/ x = NDir None) /\
    (forall n1 n2 e, find n1 l = Some (NFile e) -> find n2 l = Some (NFile e) -> n1 = n2) /\
    (forall n, ignored n = false -> match find n es with
       | Some (DFile _) => exists e, find n l = Some (NFile e)
       | Some (DDir _) => find n l = Some (NDir None)
       | None => find n l = None end) /\
    (forall n, ignored n = true -> find n l = None).

  Lemma find_cons : forall A n m (v : A) l, find n ((m, v) :: l) = if Nat.eqb m n then Some v else find n l.
  Proof. intros A n m v l. unfold find. cbn. destruct (Nat.eqb m n); reflexivity. Qed.

  Lemma list_dir_listing : forall es h l h', list_dir ignored es h = (l, h') -> fresh_listing es h l h'.
  Proof.
    induction es as [|[n d] r IH]; intros h l h' H; cbn in H.
    - injection H as <- <-. unfold fresh_listing. repeat split; auto.
      + intros e L. unfold idx_of, get_entry. rewrite nth_overflow by exact L. reflexivity.
      + discriminate.
      + discriminate.
    - destruct (ignored n) eqn:Ig.
      + destruct (IH h l h' H) as (A & B & C & D & E & F & G). unfold fresh_listing. repeat split; auto.
        intros m Hm. rewrite find_cons. destruct (Nat.eqb_spec n m) as [->|K]; [congruence|]. apply F. exact Hm.
      + destruct d as [c|ch].
        * destruct (list_dir ignored r _) as [l1 h1] eqn:E1. injection H as <- <-.
          destruct (IH _ _ _ E1) as (A & B & C & D & E & F & G). rewrite app_length in *. cbn [length] in *.
          assert (X : forall m x, find m ((n, NFile (length h)) :: l1) = Some x ->
            (m = n /\ x = NFile (length h)) \/ find m l1 = Some x).
          { intros m x Hx. rewrite find_cons in Hx. destruct (Nat.eqb_spec n m) as [->|K]; [left; split; congruence|auto]. }
          unfold fresh_listing. repeat split.
          -- lia.
          -- intros e L. rewrite B by lia. unfold get_entry. apply app_nth1. exact L.
          -- intros e L. destruct (Nat.eq_dec e (length h)) as [->|K]; [|apply C; lia].
             unfold idx_of. rewrite B by lia. unfold get_entry. rewrite app_nth2 by lia. rewrite Nat.sub_diag. reflexivity.
          -- intros m x Hx. apply X in Hx. destruct Hx as [[-> ->]|Hx].
             ++ left. exists (length h). split; [reflexivity|lia].
             ++ destruct (D m x Hx) as [[e [-> L]]| ->]; [left; exists e; split; [reflexivity|lia]|auto].
          -- intros n1 n2 e H1 H2. apply X in H1. apply X in H2.
             destruct H1 as [[-> E1']|H1], H2 as [[-> E2']|H2].
             ++ reflexivity.
             ++ injection E1' as ->. destruct (D _ _ H2) as [[e [Q L]]|Q]; [injection Q as <-; lia|discriminate].
             ++ injection E2' as ->. destruct (D _ _ H1) as [[e [Q L]]|Q]; [injection Q as <-; lia|discriminate].
             ++ apply (E n1 n2 e); assumption.
          -- intros m Hm. rewrite !find_cons. destruct (Nat.eqb_spec n m) as [->|K]; [eauto|]. apply F. exact Hm.
          -- intros m Hm. rewrite find_cons. destruct (Nat.eqb_spec n m) as [->|K]; [congruence|]. apply G. exact Hm.
        * destruct (list_dir ignored r _) as [l1 h1] eqn:E1. injection H as <- <-.
          destruct (IH _ _ _ E1) as (A & B & C & D & E & F & G).
          unfold fresh_listing. repeat split; auto.
          -- intros m x Hx. rewrite find_cons in Hx. destruct (Nat.eqb_spec n m) as [->|K]; [right; congruence|]. apply D with m. exact Hx.
          -- intros n1 n2 e H1 H2. rewrite find_cons in H1, H2.
             destruct (Nat.eqb_spec n n1); [discriminate|]. destruct (Nat.eqb_spec n n2); [discriminate|]. apply (E n1 n2 e); assumption.
          -- intros m Hm. rewrite !find_cons. destruct (Nat.eqb_spec n m) as [->|K]; [reflexivity|]. apply F. exact Hm.
          -- intros m Hm. rewrite find_cons. destruct (Nat.eqb_spec n m) as [->|K]; [congruence|]. apply G. exact Hm.
  Qed.

  (** The paths that are files on the disk. *)
  Definition on_disk (d : disk) (here : path) (q : path) : Prop := read_file d (here ++ q) <> None.

  Lemma disk_at_app : forall p q d, disk_at d (p ++ q) = match disk_at d p with Some x => disk_at x q | None => None end.
  Proof.
    induction p as [|n r IH]; intros q d; [reflexivity|]. cbn. destruct d as [c|es]; [reflexivity|].
    destruct (find n es); [apply IH|reflexivity].
  Qed.

  Lemma read_dir_grown : forall d p h l h', read_dir ignored d p h = (l, h') -> grown (on_disk d p) [] h l h'.
  Proof.
    intros d p h l h' H. unfold read_dir in H.
    destruct (disk_at d p) as [[c|es]|] eqn:Ed.
    - injection H as <- <-. apply grown_refl. intros q e. rewrite lookup_nil_tree. discriminate.
    - apply list_dir_listing in H. destruct H as (A & B & C & D & E & F & G).
      assert (Lk : forall q e, lookup q l = Some e -> exists n, q = [n] /\ find n l = Some (NFile e)).
      { intros [|n [|m r]] e Hq; [discriminate| |].
        - cbn in Hq. destruct (find n l) as [[e'|x|x]|] eqn:Fn; try discriminate. injection Hq as ->. eauto.
        - rewrite lookup_cons in Hq. destruct (find n l) as [x|] eqn:Fn; [|discriminate].
          destruct (D n x Fn) as [[e' [-> _]]| ->]; discriminate. }
      constructor; auto.
      + intros q e. rewrite lookup_nil_tree. discriminate.
      + intros q e Hq. right. destruct (Lk q e Hq) as [n [-> Hn]]. destruct (D _ _ Hn) as [[e' [Q L]]|Q]; [|discriminate].
        injection Q as <-. split; [exact L|]. split; [apply C; lia|].
        unfold on_disk, read_file. rewrite disk_at_app, Ed. cbn [disk_at].
        destruct (ignored n) eqn:Ig; [rewrite (G n Ig) in Hn; discriminate|]. specialize (F n Ig).
        destruct (find n es) as [[c|ch]|]; [discriminate| |]; rewrite F in Hn; discriminate.
      + intros q1 q2 e L H1 H2. destruct (Lk _ _ H1) as [n1 [-> Hn1]]. destruct (Lk _ _ H2) as [n2 [-> Hn2]].
        f_equal. apply (E n1 n2 e); assumption.
    - injection H as <- <-. apply grown_refl. intros q e. rewrite lookup_nil_tree. discriminate.
  Qed.

  Lemma dir_entries_grown : forall d p sub h l h' B,
    dir_entries ignored d p sub h = (l, h') ->
    bounded B h -> B = match sub with Some s => s | None => [] end ->
    grown (on_disk d p) B h l h'.
  Proof.
    intros d p sub h l h' B H Bd ->. destruct sub as [s|]; cbn in H.
    - injection H as <- <-. apply grown_refl. exact Bd.
    - apply read_dir_grown. exact H.
  Qed.

  Lemma app_cons_assoc : forall (here : path) n q, (here ++ [n]) ++ q = here ++ n :: q.
  Proof. intros. rewrite <- app_assoc. reflexivity. Qed.

  (** ** [ensure_file] *)
  Lemma grown_add_file : forall (N : path -> Prop) n es h, bounded es h -> N [n] ->
    (forall x, find n es = Some x -> exists i, x = NMissing i) ->
    grown N es h (insert n (NFile (length h)) es) (h ++ [mk_entry None (InvSome [])]).
  Proof.
    intros N n es h B Nn F.
    assert (Lk : forall q, lookup q (insert n (NFile (length h)) es) = match q with [m] => if Nat.eqb m n then Some (length h) else lookup q es
       | m :: _ => if Nat.eqb m n then None else lookup q es | [] => None end).
    { intros [|m [|k r]]; [reflexivity| |].
      - cbn [lookup]. rewrite find_insert. destruct (Nat.eqb m n); reflexivity.
      - rewrite !lookup_cons, find_insert. destruct (Nat.eqb m n); reflexivity. }
    assert (No : forall r, lookup (n :: r) es = None).
    { intros [|m r]; cbn; destruct (find n es) as [x|] eqn:E; try reflexivity; destruct (F x eq_refl) as [i ->]; reflexivity. }
    constructor; rewrite ?app_length; cbn [length].
    - lia.
    - intros e L. unfold get_entry. apply app_nth1. exact L.
    - intros q e H. rewrite Lk. destruct q as [|m r]; [discriminate|]. destruct (Nat.eqb_spec m n) as [->|K].
      + rewrite No in H. discriminate.
      + destruct r; exact H.
    - intros q e H. rewrite Lk in H. destruct q as [|m r]; [discriminate|]. destruct (Nat.eqb_spec m n) as [->|K].
      + destruct r; [|discriminate]. injection H as <-. right. split; [lia|]. split; [|exact Nn].
        unfold idx_of, get_entry. rewrite app_nth2 by lia. rewrite Nat.sub_diag. reflexivity.
      + left. destruct r; exact H.
    - intros q1 q2 e L H1 H2. rewrite Lk in H1, H2.
      assert (Old : forall q, lookup q es = Some e -> False) by (intros q Hq; apply B in Hq; lia).
      destruct q1 as [|m1 r1]; [discriminate|]. destruct q2 as [|m2 r2]; [discriminate|].
      destruct (Nat.eqb_spec m1 n) as [->|K1]; [|exfalso; destruct r1; eapply Old; eassumption].
      destruct (Nat.eqb_spec m2 n) as [->|K2]; [|exfalso; destruct r2; eapply Old; eassumption].
      destruct r1; [|discriminate]. destruct r2; [|discriminate]. reflexivity.
  Qed.

  Lemma lookup_insert_file : forall n e es, lookup [n] (insert n (NFile e) es) = Some e.
  Proof. intros. cbn. rewrite find_insert, Nat.eqb_refl. reflexivity. Qed.

  Lemma ensure_file_cons : forall d here n m r es h, ensure_file ignored d here (n :: m :: r) es h =
    match find n es with
    | Some (NDir sub) =>
        let (sub, h) := dir_entries ignored d (here ++ [n]) sub h in
        match ensure_file ignored d (here ++ [n]) (m :: r) sub h with
        | Some (sub, h, e, i) => Some (insert n (NDir (Some sub)) es, h, e, i)
        | None => None
        end
    | Some (NFile _) => None
    | missing =>
        let (sub, h) := read_dir ignored d (here ++ [n]) h in
        match ensure_file ignored d (here ++ [n]) (m :: r) sub h with
        | Some (sub, h, e, i) =>
            Some (insert n (NDir (Some sub)) es, h, e,
                  extend_inv i match missing with Some (NMissing i0) => i0 | _ => InvSome [] end)
        | None => None
        end
    end.
  Proof. reflexivity. Qed.

  Lemma search_path_cons : forall d here n m r es h, search_path ignored d here (n :: m :: r) es h =
    match find n es with
    | Some (NDir sub) =>
        let (sub, h) := dir_entries ignored d (here ++ [n]) sub h in
        let '(sub, h, e) := search_path ignored d (here ++ [n]) (m :: r) sub h in
        (insert n (NDir (Some sub)) es, h, e)
    | _ => (es, h, None)
    end.
  Proof. reflexivity. Qed.

  Lemma add_missing_cons : forall n m r i es h, add_missing (n :: m :: r) i es h =
    match find n es with
    | Some (NDir (Some sub)) => let (sub, h) := add_missing (m :: r) i sub h in (insert n (NDir (Some sub)) es, h)
    | _ => (es, h)
    end.
  Proof. reflexivity. Qed.

  Lemma replace_at_cons : forall d s full n m r es, replace_at ignored d s full (n :: m :: r) es =
    match find n es with
    | Some (NDir (Some sub)) =>
        let '(sub, h, old) := replace_at ignored d s full (m :: r) sub in (insert n (NDir (Some sub)) es, h, old)
    | _ => (es, v_heap s, None)
    end.
  Proof. reflexivity. Qed.

  Definition target_or_disk (d : disk) (here p : path) (q : path) : Prop := q = p \/ on_disk d here q.

  Lemma ensure_file_grown : forall d p here es h t h' e inv,
    ensure_file ignored d here p es h = Some (t, h', e, inv) -> bounded es h ->
    grown (target_or_disk d here p) es h t h' /\ lookup p t = Some e.
  Proof.
    intros d. induction p as [|n [|m r] IH]; intros here es h t h' e inv H B; [discriminate| |].
    - cbn in H. destruct (find n es) as [[e'|sub|i]|] eqn:F; [| discriminate | |].
      + injection H as <- <- <- <-. split; [apply grown_refl; exact B|]. cbn. rewrite F. reflexivity.
      + injection H as <- <- <- <-. split; [|apply lookup_insert_file].
        apply grown_add_file; [exact B|left; reflexivity|]. intros x Hx. rewrite F in Hx. injection Hx as <-. eauto.
      + injection H as <- <- <- <-. split; [|apply lookup_insert_file].
        apply grown_add_file; [exact B|left; reflexivity|]. intros x Hx. congruence.
    - assert (Main : forall sub sub1 h1 t' h'' e' inv',
        (match sub with Some s => s | None => [] end) = sub_of n es ->
        (forall e0, find n es <> Some (NFile e0)) ->
        dir_entries ignored d (here ++ [n]) sub h = (sub1, h1) ->
        ensure_file ignored d (here ++ [n]) (m :: r) sub1 h1 = Some (t', h'', e', inv') ->
        grown (target_or_disk d here (n :: m :: r)) es h (insert n (NDir (Some t')) es) h'' /\
        lookup (n :: m :: r) (insert n (NDir (Some t')) es) = Some e').
      { intros sub sub1 h1 t' h'' e' inv' Es NF Ed He.
        assert (Bs : bounded (sub_of n es) h) by (apply bounded_sub; exact B).
        assert (G1 := dir_entries_grown _ _ _ _ _ _ (sub_of n es) Ed Bs (eq_sym Es)).
        assert (B1 := grown_bounded _ _ _ _ _ G1 Bs).
        destruct (IH _ _ _ _ _ _ _ He B1) as [G2 L2]. split.
        - apply grown_lift with (N := target_or_disk d (here ++ [n]) (m :: r)); auto.
          + intros q [->|Hq]; [left; reflexivity|]. right. unfold on_disk in *. rewrite app_cons_assoc in Hq. exact Hq.
          + apply grown_trans with sub1 h1; [exact Bs| |exact G2]. apply grown_weaken with (on_disk d (here ++ [n])); [|exact G1].
            intros q Hq. right. exact Hq.
        - rewrite lookup_cons, find_insert, Nat.eqb_refl. exact L2. }
      rewrite ensure_file_cons in H. destruct (find n es) as [[e0|sub|i]|] eqn:F.
      + discriminate.
      + destruct (dir_entries ignored d (here ++ [n]) sub h) as [sub1 h1] eqn:Ed.
        destruct (ensure_file ignored d (here ++ [n]) (m :: r) sub1 h1) as [[[[t' h''] e'] inv']|] eqn:He; [|discriminate].
        injection H as <- <- <- <-. apply (Main sub sub1 h1 t' h'' e' inv'); auto.
        * unfold sub_of. rewrite F. destruct sub; reflexivity.
        * intros e0. congruence.
      + destruct (read_dir ignored d (here ++ [n]) h) as [sub1 h1] eqn:Ed.
        destruct (ensure_file ignored d (here ++ [n]) (m :: r) sub1 h1) as [[[[t' h''] e'] inv']|] eqn:He; [|discriminate].
        injection H as <- <- <- <-. apply (Main None sub1 h1 t' h'' e' inv'); auto.
        * unfold sub_of. rewrite F. reflexivity.
        * intros e0. congruence.
      + destruct (read_dir ignored d (here ++ [n]) h) as [sub1 h1] eqn:Ed.
        destruct (ensure_file ignored d (here ++ [n]) (m :: r) sub1 h1) as [[[[t' h''] e'] inv']|] eqn:He; [|discriminate].
        injection H as <- <- <- <-. apply (Main None sub1 h1 t' h'' e' inv'); auto.
        * unfold sub_of. rewrite F. reflexivity.
        * intros e0. congruence.
  Qed.

  (** ** [search_path] *)
  Lemma search_path_grown : forall d p here es h t h' e,
    search_path ignored d here p es h = (t, h', e) -> bounded es h ->
    grown (on_disk d here) es h t h' /\ lookup p t = e.
  Proof.
    intros d. induction p as [|n [|m r] IH]; intros here es h t h' e H B.
    - cbn in H. injection H as <- <- <-. split; [apply grown_refl; exact B|reflexivity].
    - cbn in H. injection H as <- <- <-. split; [apply grown_refl; exact B|]. reflexivity.
    - rewrite search_path_cons in H. destruct (find n es) as [[e0|sub|i]|] eqn:F.
      + injection H as <- <- <-. split; [apply grown_refl; exact B|]. rewrite lookup_cons, F. reflexivity.
      + destruct (dir_entries ignored d (here ++ [n]) sub h) as [sub1 h1] eqn:Ed.
        destruct (search_path ignored d (here ++ [n]) (m :: r) sub1 h1) as [[t' h''] e'] eqn:He.
        injection H as <- <- <-.
        assert (Bs : bounded (sub_of n es) h) by (apply bounded_sub; exact B).
        assert (G1 : grown (on_disk d (here ++ [n])) (sub_of n es) h sub1 h1).
        { apply dir_entries_grown with sub; auto. unfold sub_of. rewrite F. destruct sub; reflexivity. }
        destruct (IH _ _ _ _ _ _ He (grown_bounded _ _ _ _ _ G1 Bs)) as [G2 L2]. split.
        * apply grown_lift with (N := on_disk d (here ++ [n])); auto.
          -- intros e0. congruence.
          -- intros q Hq. unfold on_disk in *. rewrite app_cons_assoc in Hq. exact Hq.
          -- apply grown_trans with sub1 h1; assumption.
        * rewrite lookup_cons, find_insert, Nat.eqb_refl. exact L2.
      + injection H as <- <- <-. split; [apply grown_refl; exact B|]. rewrite lookup_cons, F. reflexivity.
      + injection H as <- <- <-. split; [apply grown_refl; exact B|]. rewrite lookup_cons, F. reflexivity.
  Qed.

  (** ** [unload_file] *)
  Lemma lookup_unload : forall p es q, lookup q (unload_file p es) = if path_eqb q p then None else lookup q es.
  Proof.
    induction p as [|n [|m r] IH]; intros es q.
    - cbn [unload_file]. destruct (path_eqb_spec q []) as [->|H]; reflexivity.
    - cbn [unload_file]. destruct (path_eqb_spec q [n]) as [->|H].
      + cbn. destruct (find n es) as [[e|s|i]|] eqn:F; rewrite ?find_remove, ?Nat.eqb_refl, ?F; reflexivity.
      + destruct (find n es) as [[e|s|i]|] eqn:F; try reflexivity.
        destruct q as [|k [|k' r']]; [reflexivity| |].
        * cbn. rewrite find_remove. destruct (Nat.eqb_spec k n); [congruence|reflexivity].
        * rewrite !lookup_cons, find_remove. destruct (Nat.eqb_spec k n) as [->|]; [rewrite F; reflexivity|reflexivity].
    - change (unload_file (n :: m :: r) es) with
        (match find n es with Some (NDir (Some sub)) => insert n (NDir (Some (unload_file (m :: r) sub))) es | _ => es end).
      assert (Same : (match find n es with Some (NDir (Some _)) => False | _ => True end) ->
                     lookup q es = if path_eqb q (n :: m :: r) then None else lookup q es).
      { intros K. destruct (path_eqb_spec q (n :: m :: r)) as [->|H]; [|reflexivity].
        rewrite lookup_cons. destruct (find n es) as [[e|[s|]|i]|]; try reflexivity. destruct K. }
      destruct (find n es) as [[e|[s|]|i]|] eqn:F; try (apply Same; exact I).
      destruct q as [|k [|k' r']]; [reflexivity| |].
      + cbn. rewrite find_insert. destruct (Nat.eqb_spec k n) as [->|H].
        * rewrite F. destruct (path_eqb_spec [n] (n :: m :: r)); reflexivity.
        * destruct (path_eqb_spec [k] (n :: m :: r)); [congruence|reflexivity].
      + rewrite !lookup_cons, find_insert. destruct (Nat.eqb_spec k n) as [->|H].
        * rewrite IH, F. destruct (path_eqb_spec (k' :: r') (m :: r)) as [E|E], (path_eqb_spec (n :: k' :: r') (n :: m :: r)) as [E'|E']; try reflexivity; congruence.
        * destruct (path_eqb_spec (k :: k' :: r') (n :: m :: r)); [congruence|reflexivity].
  Qed.

  (** ** [add_missing] *)
  Lemma idx_set_inv : forall h e v e', idx_of (set_nth e (mk_entry (e_index (get_entry h e)) v) h) e' = idx_of h e'.
  Proof.
    intros h e v e'. unfold idx_of, get_entry. destruct (le_lt_dec (length h) e) as [H|H]; [rewrite set_nth_out by exact H; reflexivity|].
    rewrite nth_set_nth by exact H. destruct (Nat.eqb_spec e' e) as [->|]; reflexivity.
  Qed.

  Lemma add_missing_same : forall p i es h t h', add_missing p i es h = (t, h') ->
    (forall q, lookup q t = lookup q es) /\ length h' = length h /\ (forall e, idx_of h' e = idx_of h e).
  Proof.
    induction p as [|n [|m r] IH]; intros i es h t h' H.
    - cbn in H. injection H as <- <-. auto.
    - cbn in H.
      assert (Ins : forall v, (match find n es with Some (NFile _) => False | Some (NDir _) => False | _ => True end) ->
                    forall q, lookup q (insert n (NMissing v) es) = lookup q es).
      { intros v K [|k [|k' r']]; [reflexivity| |].
        - cbn. rewrite find_insert. destruct (Nat.eqb_spec k n) as [->|]; [|reflexivity].
          destruct (find n es) as [[e|s|x]|]; try reflexivity; destruct K.
        - rewrite !lookup_cons, find_insert. destruct (Nat.eqb_spec k n) as [->|]; [|reflexivity].
          destruct (find n es) as [[e|s|x]|]; try reflexivity; destruct K. }
      destruct (find n es) as [[e|s|v]|] eqn:F; injection H as <- <-; auto.
      split; [reflexivity|]. split; [apply set_nth_length|]. intros e'. apply idx_set_inv.
    - rewrite add_missing_cons in H.
      destruct (find n es) as [[e|[s|]|v]|] eqn:F; try (injection H as <- <-; auto).
      destruct (add_missing (m :: r) i s h) as [s1 h1] eqn:E. injection H as <- <-.
      destruct (IH _ _ _ _ _ E) as (A & B & C). split; [|auto].
      intros [|k [|k' r']]; [reflexivity| |].
      + cbn. rewrite find_insert. destruct (Nat.eqb_spec k n) as [->|]; [rewrite F; reflexivity|reflexivity].
      + rewrite !lookup_cons, find_insert. destruct (Nat.eqb_spec k n) as [->|]; [rewrite F; apply A|reflexivity].
  Qed.

  (** ** [replace_at] *)
  Lemma walk_cons : forall k y r, fst (walk (NDir (Some ((k, y) :: r)))) = fst (walk y) ++ fst (walk (NDir (Some r))).
  Proof.
    intros k y r. cbn [walk]. destruct (walk y) as [a b].
    match goal with |- fst (let (_, _) := ?G in _) = _ => destruct G as [c d] end. reflexivity.
  Qed.

  Lemma walk_go : forall es n x, In (n, x) es -> forall e, In e (fst (walk x)) -> In e (fst (walk (NDir (Some es)))).
  Proof.
    induction es as [|[k y] r IH]; intros n x Hin e He; [destruct Hin|]. rewrite walk_cons. apply in_or_app.
    destruct Hin as [Hin|Hin].
    - injection Hin as -> ->. left. exact He.
    - right. apply (IH n x); assumption.
  Qed.

  Lemma find_in : forall A n (l : list (name * A)) v, find n l = Some v -> In (n, v) l.
  Proof.
    intros A n l v H. unfold find in H. destruct (List.find (fun p => Nat.eqb (fst p) n) l) as [[k w]|] eqn:E; [|discriminate]. injection H as ->.
    apply find_some in E. destruct E as [E F]. cbn in F. apply Nat.eqb_eq in F. subst k. exact E.
  Qed.

  Lemma lookup_walk : forall q es e n x, lookup (n :: q) es = Some e -> find n es = Some x -> In e (fst (walk x)).
  Proof.
    induction q as [|m r IH]; intros es e n x H F.
    - cbn in H. rewrite F in H. destruct x as [e'|s|i]; try discriminate. injection H as ->. left. reflexivity.
    - rewrite lookup_cons, F in H. destruct x as [e'|[s|]|i]; try discriminate.
      assert (exists y, find m s = Some y) as [y Fy].
      { destruct r as [|k r']; cbn in H; destruct (find m s) as [y|]; eauto; discriminate. }
      apply walk_go with m y; [apply find_in; exact Fy|]. apply (IH s e m y); assumption.
  Qed.

  Lemma read_entry_heap : forall d p n h x h', read_entry ignored d p n h = (x, h') ->
    (h' = h \/ h' = h ++ [mk_entry None (InvSome [])]) /\
    (forall e, x = Some (NFile e) -> e = length h /\ h' = h ++ [mk_entry None (InvSome [])]) /\
    (forall y, x = Some y -> (exists e, y = NFile e) \/ y = NDir None).
  Proof.
    intros d p n h x h' H. unfold read_entry in H.
    destruct (disk_at d p) as [[c|ch]|]; [destruct (ignored n)|destruct (ignored n)|]; injection H as <- <-.
    - split; [auto|]. split; discriminate.
    - split; [auto|]. split; [intros e E; injection E as <-; auto|]. intros y E. injection E as <-. eauto.
    - split; [auto|]. split; discriminate.
    - split; [auto|]. split; [discriminate|]. intros y E. injection E as <-. auto.
    - split; [auto|]. split; discriminate.
  Qed.

  Lemma replace_entry_spec : forall d s full n es t h' old,
    replace_entry ignored d s full n es = (t, h', old) ->
    (h' = v_heap s \/ h' = v_heap s ++ [mk_entry None (InvSome [])]) /\
    (forall q e, lookup q es = Some e -> lookup q t = Some e \/ exists x, old = Some x /\ In e (fst (walk x))) /\
    (forall q e, lookup q t = Some e -> lookup q es = Some e \/
       (q = [n] /\ e = length (v_heap s) /\ h' = v_heap s ++ [mk_entry None (InvSome [])])).
  Proof.
    intros d s full n es t h' old H. unfold replace_entry in H.
    destruct (unnecessary d full (find n es)); [injection H as <- <- <-; auto|].
    destruct (read_entry ignored d full n (v_heap s)) as [x h1] eqn:Er.
    apply read_entry_heap in Er. destruct Er as (Rh & Rf & Rn).
    assert (Ins : forall y, x = Some y -> forall q e, lookup q (insert n y es) = Some e ->
        lookup q es = Some e \/ (q = [n] /\ e = length (v_heap s) /\ h1 = v_heap s ++ [mk_entry None (InvSome [])])).
    { intros y Hy q e Hq. destruct q as [|k [|k' r]]; [discriminate| |].
      - cbn in Hq. rewrite find_insert in Hq. destruct (Nat.eqb_spec k n) as [->|Kn]; [|left; exact Hq].
        destruct y as [e'|z|z]; try discriminate. injection Hq as ->. right. split; [reflexivity|]. apply Rf. exact Hy.
      - rewrite lookup_cons, find_insert in Hq. destruct (Nat.eqb_spec k n) as [->|Kn]; [|left; rewrite lookup_cons; exact Hq].
        destruct (Rn y Hy) as [[e' ->]| ->]; discriminate. }
    assert (Out : forall y q e, lookup q es = Some e -> (forall o, find n es = Some o -> False) -> lookup q (insert n y es) = Some e).
    { intros y q e Hq K. destruct q as [|k [|k' r]]; [discriminate| |].
      - cbn in *. rewrite find_insert. destruct (Nat.eqb_spec k n) as [->|Kn]; [|exact Hq].
        exfalso. destruct (find n es) as [o|]; [apply (K o); reflexivity|discriminate].
      - rewrite lookup_cons in *. rewrite find_insert. destruct (Nat.eqb_spec k n) as [->|Kn]; [|exact Hq].
        exfalso. destruct (find n es) as [o|]; [apply (K o); reflexivity|discriminate]. }
    assert (Repl : forall (t' : list (name * node)) o, find n es = Some o ->
        (forall k, k <> n -> find k t' = find k es) ->
        forall q e, lookup q es = Some e -> lookup q t' = Some e \/ exists x0, Some o = Some x0 /\ In e (fst (walk x0))).
    { intros t' o Fo K q e Hq. destruct q as [|k q]; [discriminate|].
      destruct (Nat.eq_dec k n) as [->|Kn].
      - right. exists o. split; [reflexivity|]. apply (lookup_walk q es e n o); assumption.
      - left. destruct q as [|k' r]; cbn in *; rewrite K by exact Kn; exact Hq. }
    destruct x as [new|].
    - destruct (find n es) as [o|] eqn:F.
      + destruct (matches_current d s o new); injection H as <- <- <-.
        * auto.
        * split; [exact Rh|]. split; [|apply Ins; reflexivity]. apply Repl; [reflexivity|].
          intros k Hk. rewrite find_insert. destruct (Nat.eqb_spec k n); [congruence|reflexivity].
      + injection H as <- <- <-. split; [exact Rh|]. split; [|apply Ins; reflexivity].
        intros q e Hq. left. apply Out; [exact Hq|]. discriminate.
    - destruct (find n es) as [[e0|s0|i0]|] eqn:F; injection H as <- <- <-; auto.
      + split; [exact Rh|]. split.
        * apply Repl; [reflexivity|]. intros k Hk. rewrite find_remove. destruct (Nat.eqb_spec k n); [congruence|reflexivity].
        * intros q e Hq. left. destruct q as [|k [|k' r]]; [discriminate| |].
          -- cbn in *. rewrite find_remove in Hq. destruct (Nat.eqb_spec k n); [discriminate|exact Hq].
          -- rewrite lookup_cons in *. rewrite find_remove in Hq. destruct (Nat.eqb_spec k n); [discriminate|exact Hq].
      + split; [exact Rh|]. split.
        * apply Repl; [reflexivity|]. intros k Hk. rewrite find_remove. destruct (Nat.eqb_spec k n); [congruence|reflexivity].
        * intros q e Hq. left. destruct q as [|k [|k' r]]; [discriminate| |].
          -- cbn in *. rewrite find_remove in Hq. destruct (Nat.eqb_spec k n); [discriminate|exact Hq].
          -- rewrite lookup_cons in *. rewrite find_remove in Hq. destruct (Nat.eqb_spec k n); [discriminate|exact Hq].
  Qed.

  Lemma replace_at_spec : forall d s full p es t h' old,
    replace_at ignored d s full p es = (t, h', old) ->
    (h' = v_heap s \/ h' = v_heap s ++ [mk_entry None (InvSome [])]) /\
    (forall q e, lookup q es = Some e -> lookup q t = Some e \/ exists x, old = Some x /\ In e (fst (walk x))) /\
    (forall q e, lookup q t = Some e -> lookup q es = Some e \/
       (q = p /\ e = length (v_heap s) /\ h' = v_heap s ++ [mk_entry None (InvSome [])])).
  Proof.
    intros d s full. induction p as [|n [|m r] IH]; intros es t h' old H.
    - cbn in H. injection H as <- <- <-. auto.
    - cbn in H. apply replace_entry_spec in H. exact H.
    - rewrite replace_at_cons in H.
      destruct (find n es) as [[e0|[sub|]|i0]|] eqn:F; try (injection H as <- <- <-; auto).
      destruct (replace_at ignored d s full (m :: r) sub) as [[sub1 h1] old1] eqn:E. injection H as <- <- <-.
      destruct (IH _ _ _ _ E) as (A & B & C). split; [exact A|]. split.
      + intros [|k [|k' r']] e Hq; [discriminate| |].
        * left. cbn in *. rewrite find_insert. destruct (Nat.eqb_spec k n) as [->|]; [rewrite F in Hq; discriminate|exact Hq].
        * rewrite !lookup_cons in *. rewrite find_insert. destruct (Nat.eqb_spec k n) as [->|].
          -- rewrite F in Hq. apply B. exact Hq.
          -- left. exact Hq.
      + intros [|k [|k' r']] e Hq; [discriminate| |].
        * left. cbn in *. rewrite find_insert in Hq. destruct (Nat.eqb_spec k n) as [->|]; [discriminate|exact Hq].
        * rewrite !lookup_cons in *. rewrite find_insert in Hq. destruct (Nat.eqb_spec k n) as [->|].
          -- rewrite F. destruct (C _ _ Hq) as [K|[K1 [K2 K3]]]; [left; exact K|]. right. split; [congruence|auto].
          -- left. exact Hq.
  Qed.
End Ignored.
