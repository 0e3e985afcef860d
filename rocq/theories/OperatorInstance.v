(* Worlds given by tables, with decision procedures for what the theorems ask of
   a world, and calls that satisfy what they ask of a call. *)
From Coq Require Import String List Bool Arith PeanoNat Lia.
From Verif Require Import OperatorModel OperatorSpec Operator OperatorChecks.
Import ListNotations.

Fixpoint find_own (methods : list (nat * string * method)) (c : nat) (name : string)
    : option method :=
  match methods with
  | [] => None
  | (d, n, m) :: rest =>
      if Nat.eqb d c && String.eqb n name then Some m else find_own rest c name
  end.

Definition table_world (mros : list (list nat)) (methods : list (nat * string * method)) : world :=
  World (fun c => nth c mros [c]) (find_own methods).

Fixpoint subsequence (l k : list nat) : bool :=
  match l, k with
  | [], _ => true
  | _ :: _, [] => false
  | a :: l', b :: k' => if Nat.eqb a b then subsequence l' k' else subsequence l k'
  end.

Lemma subsequence_in : forall k l a, subsequence l k = true -> In a l -> In a k.
Proof.
  induction k as [| b k IH]; intros l a Hs Hin.
  - destruct l; [destruct Hin | discriminate].
  - destruct l as [| c l]; [destruct Hin |]. cbn [subsequence] in Hs.
    destruct (Nat.eqb_spec c b) as [-> | Hne].
    + destruct Hin as [<- | Hin]; [left; reflexivity |]. right. apply (IH l a Hs Hin).
    + right. apply (IH (c :: l) a Hs Hin).
Qed.

Lemma subsequence_before : forall k l a b,
  subsequence l k = true -> before l a b -> before k a b.
Proof.
  induction k as [| c k IH]; intros l a b Hs (p & q & r & ->).
  - destruct p; discriminate.
  - destruct p as [| d p]; cbn [app subsequence] in Hs.
    + destruct (Nat.eqb_spec a c) as [-> | Hne].
      * assert (Hin : In b k).
        { apply (subsequence_in k _ b Hs). apply in_or_app. right. left. reflexivity. }
        destruct (in_split b k Hin) as (q' & r' & ->). exists [], q', r'. reflexivity.
      * destruct (IH (a :: q ++ b :: r) a b Hs) as (p' & q' & r' & ->).
        { exists [], q, r. reflexivity. }
        exists (c :: p'), q', r'. reflexivity.
    + destruct (Nat.eqb_spec d c) as [-> | Hne].
      * destruct (IH (p ++ a :: q ++ b :: r) a b Hs) as (p' & q' & r' & ->).
        { exists p, q, r. reflexivity. }
        exists (c :: p'), q', r'. reflexivity.
      * destruct (IH (d :: p ++ a :: q ++ b :: r) a b Hs) as (p' & q' & r' & ->).
        { exists (d :: p), q, r. reflexivity. }
        exists (c :: p'), q', r'. reflexivity.
Qed.

Fixpoint once (l : list nat) : bool :=
  match l with [] => true | a :: l' => negb (existsb (Nat.eqb a) l') && once l' end.

Lemma once_NoDup : forall l, once l = true -> NoDup l.
Proof.
  induction l as [| a l IH]; intro H; [constructor |]. cbn [once] in H.
  apply andb_true_iff in H. destruct H as [H1 H2]. constructor; [| apply IH; exact H2].
  intro Hin. apply negb_true_iff in H1.
  assert (He : existsb (Nat.eqb a) l = true).
  { apply existsb_exists. exists a. split; [exact Hin | apply Nat.eqb_refl]. }
  congruence.
Qed.

Definition starts (c : nat) (l : list nat) : bool :=
  match l with a :: _ => Nat.eqb a c | [] => false end.

Definition linear_table (mros : list (list nat)) : bool :=
  forallb (fun c =>
    let l := nth c mros [c] in
    starts c l && once l && forallb (fun d => subsequence (nth d mros [d]) l) l)
    (seq 0 (List.length mros)).

Lemma out_of_table : forall (mros : list (list nat)) c,
  ~ c < List.length mros -> nth c mros [c] = [c].
Proof. intros mros c H. apply nth_overflow. lia. Qed.

Lemma linear_table_sound : forall mros methods,
  linear_table mros = true -> linear (table_world mros methods).
Proof.
  intros mros methods H. unfold linear_table in H. rewrite forallb_forall in H.
  assert (Hc : forall c, c < List.length mros ->
    starts c (nth c mros [c]) = true /\ once (nth c mros [c]) = true
    /\ forall d, In d (nth c mros [c]) -> subsequence (nth d mros [d]) (nth c mros [c]) = true).
  { intros c Hlt. specialize (H c). rewrite in_seq in H.
    specialize (H (conj (Nat.le_0_l c) Hlt)). cbv zeta in H.
    apply andb_true_iff in H. destruct H as [H H3]. apply andb_true_iff in H.
    destruct H as [H1 H2]. rewrite forallb_forall in H3. auto. }
  constructor; cbn [mro table_world].
  - intro c. destruct (lt_dec c (List.length mros)) as [Hlt | Hge].
    + destruct (Hc c Hlt) as (Hs & _). destruct (nth c mros [c]) as [| a l]; [discriminate |].
      cbn [starts] in Hs. apply Nat.eqb_eq in Hs. subst a. exists l. reflexivity.
    + rewrite out_of_table by exact Hge. exists []. reflexivity.
  - intro c. destruct (lt_dec c (List.length mros)) as [Hlt | Hge].
    + apply once_NoDup. apply (Hc c Hlt).
    + rewrite out_of_table by exact Hge. constructor; [intros [] | constructor].
  - intros c d a b Hd Hb. destruct (lt_dec c (List.length mros)) as [Hlt | Hge].
    + destruct (Hc c Hlt) as (_ & _ & Hs). apply (subsequence_before _ _ _ _ (Hs d Hd) Hb).
    + rewrite out_of_table in Hd by exact Hge. destruct Hd as [<- | []]. exact Hb.
Qed.

Definition single_table (mros : list (list nat)) : bool :=
  forallb (fun c =>
    let l := nth c mros [c] in
    forallb (fun a => forallb (fun b =>
      existsb (Nat.eqb b) (nth a mros [a]) || existsb (Nat.eqb a) (nth b mros [b])) l) l)
    (seq 0 (List.length mros)).

Lemma existsb_eqb : forall a l, existsb (Nat.eqb a) l = true -> In a l.
Proof.
  intros a l H. apply existsb_exists in H. destruct H as (b & Hin & Heq).
  apply Nat.eqb_eq in Heq. subst b. exact Hin.
Qed.

Lemma single_table_sound : forall mros methods,
  single_table mros = true -> single (table_world mros methods).
Proof.
  intros mros methods H c a b. unfold below. cbn [mro table_world]. intros Ha Hb.
  destruct (lt_dec c (List.length mros)) as [Hlt | Hge].
  - unfold single_table in H. rewrite forallb_forall in H. specialize (H c).
    rewrite in_seq in H. specialize (H (conj (Nat.le_0_l c) Hlt)). cbv zeta in H.
    rewrite forallb_forall in H. specialize (H a Ha). rewrite forallb_forall in H.
    specialize (H b Hb). apply orb_true_iff in H. destruct H as [H | H].
    + left. apply existsb_eqb. exact H.
    + right. apply existsb_eqb. exact H.
  - rewrite out_of_table in Ha, Hb by exact Hge. destruct Ha as [<- | []], Hb as [<- | []].
    left. rewrite out_of_table by exact Hge. left. reflexivity.
Qed.

Definition typed (t : ty) : bool := negb (existsb is_any t).

Lemma typed_sound : forall t, typed t = true -> ~ In Any t.
Proof.
  intros t H Hin. unfold typed in H. apply negb_true_iff in H.
  assert (He : existsb is_any t = true).
  { apply existsb_exists. exists Any. split; [exact Hin | reflexivity]. }
  congruence.
Qed.

Definition overrides_table (w : world) (size : nat) (name : string) : bool :=
  forallb (fun c => forallb (fun d =>
      match first_defined w (mro w d) name, first_defined w (mro w c) name with
      | Some (_, m), Some (_, m') =>
          typed (m_param m) && typed (m_return m')
          && ty_sub w (m_param m) (m_param m') && ty_sub w (m_return m') (m_return m)
      | Some _, None => false
      | None, _ => true
      end) (mro w c)) (seq 0 size).

Lemma overrides_table_sound : forall mros methods name,
  linear (table_world mros methods) ->
  overrides_table (table_world mros methods) (List.length mros) name = true ->
  overrides_fit (table_world mros methods) name.
Proof.
  intros mros methods name Hw H c d e m Hcd Hp.
  destruct (lt_dec c (List.length mros)) as [Hlt | Hge].
  - unfold overrides_table in H. rewrite forallb_forall in H. specialize (H c).
    rewrite in_seq in H. specialize (H (conj (Nat.le_0_l c) Hlt)).
    rewrite forallb_forall in H. specialize (H d Hcd).
    rewrite (proj1 (provides_iff _ _ _ _ _) Hp) in H.
    destruct (first_defined (table_world mros methods) (mro (table_world mros methods) c) name)
      as [[e' m'] |] eqn:Hf; [| discriminate].
    apply andb_true_iff in H. destruct H as [H H4]. apply andb_true_iff in H.
    destruct H as [H H3]. apply andb_true_iff in H. destruct H as [H1 H2].
    exists e', m'. split; [apply provides_iff; exact Hf |].
    split; apply ty_sub_covers; auto using typed_sound.
  - unfold below in Hcd. cbn [mro table_world] in Hcd. rewrite out_of_table in Hcd by exact Hge.
    destruct Hcd as [<- | []]. exists e, m. split; [exact Hp |].
    split; intros z Hz; exact Hz.
Qed.

(* A call that answers with the first class of its return type. *)
Definition first_call (w : world) (m : method) (self arg : nat) : option nat :=
  if in_type w (Inst arg) (m_param m) then
    match m_return m with Inst c :: _ => Some c | _ => Some 0 end
  else None.

Definition returns (methods : list (nat * string * method)) : bool :=
  forallb (fun e => match m_return (snd e) with [] => false | _ => true end) methods.

Lemma find_own_in : forall methods c name m,
  find_own methods c name = Some m -> exists d n, In (d, n, m) methods.
Proof.
  intros methods c name m. induction methods as [| ((d, n), m') methods IH]; cbn [find_own].
  - discriminate.
  - destruct (Nat.eqb d c && String.eqb n name).
    + intros [= ->]. exists d, n. left. reflexivity.
    + intro H. destruct (IH H) as (d' & n' & Hin). exists d', n'. right. exact Hin.
Qed.

Lemma first_call_honest : forall mros methods,
  linear (table_world mros methods) -> returns methods = true ->
  honest (table_world mros methods) nat (fun c => c) (first_call (table_world mros methods)).
Proof.
  intros mros methods Hw Hr d name m self arg Ho Hb. unfold first_call.
  rewrite (proj2 (in_type_belongs _ _ _) Hb).
  cbn [own table_world] in Ho. destruct (find_own_in _ _ _ _ Ho) as (d' & n' & Hin).
  unfold returns in Hr. rewrite forallb_forall in Hr. specialize (Hr _ Hin).
  cbn [snd] in Hr. destruct (m_return m) as [| [| c] t]; [discriminate | |].
  - exists 0. split; [reflexivity |]. left. left. reflexivity.
  - exists c. split; [reflexivity |]. right. exists c.
    split; [left; reflexivity | apply below_refl; exact Hw].
Qed.

Lemma first_call_declines : forall w, declines w nat (fun c => c) (first_call w).
Proof.
  intros w d name m self arg _ Hn. unfold first_call.
  destruct (in_type w (Inst arg) (m_param m)) eqn:Hi; [| reflexivity].
  exfalso. apply Hn. apply in_type_belongs. exact Hi.
Qed.
