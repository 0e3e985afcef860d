(** Regular expressions as the tokenizer uses them.  The regex crate itself is not
    modelled; what it is documented to compute is: an expression that begins with
    [^] matches at the start of the text, and of all matches the one is taken that
    a backtracking search finds first (alternatives from left to right, repetition
    as often as possible). *)
From Coq Require Import List NArith Arith Bool.
From Verif Require Import TextModel.
Import ListNotations.
Local Open Scope N_scope.

Inductive re : Type :=
| Eps                          (* the empty expression *)
| Cls (p : char -> bool)       (* one character of a class *)
| Cat (a b : re)
| Or (a b : re)                (* [a|b] *)
| Star (a : re).               (* [a*] *)

(** [a?]: greedy. *)
Definition Opt (a : re) : re := Or a Eps.
(** [a+]. *)
Definition Plus (a : re) : re := Cat a (Star a).

Fixpoint cats (l : list re) : re := match l with [] => Eps | [a] => a | a :: r => Cat a (cats r) end.

(** crates/parsa_python/src/tokenizer.rs:54-56 [or]. *)
Fixpoint or (l : list re) : re := match l with [] => Cls (fun _ => false) | [a] => a | a :: r => Or a (or r) end.

Definition one (c : char) : re := Cls (N.eqb c).
Definition lit (t : text) : re := cats (map one t).
Definition mem (c : char) (l : text) : bool := existsb (N.eqb c) l.
Definition any_of (l : text) : re := Cls (fun c => mem c l).
Definition none_of (l : text) : re := Cls (fun c => negb (mem c l)).
Definition range (a b c : char) : bool := (a <=? c) && (c <=? b).

(** The backtracking search: [matches r s k] runs [r] at the start of [s] and gives what
    is left to [k]; a repetition must use up characters to go on. *)
Fixpoint matches (r : re) : text -> (text -> option text) -> option text :=
  match r with
  | Eps => fun s k => k s
  | Cls p => fun s k => match s with c :: s' => if p c then k s' else None | [] => None end
  | Cat a b => fun s k => matches a s (fun s' => matches b s' k)
  | Or a b => fun s k => match matches a s k with Some x => Some x | None => matches b s k end
  | Star a => fun s k =>
      (fix star (n : nat) (s : text) : option text :=
         match n with
         | O => k s
         | S n =>
             match matches a s (fun s' => if (length s' <? length s)%nat then star n s' else None) with
             | Some x => Some x
             | None => k s
             end
         end) (length s) s
  end.

(** [Regex::find] for an expression that begins with [^]: the text matched. *)
Definition find (r : re) (s : text) : option text :=
  match matches r s Some with Some rest => Some (firstn (length s - length rest) s) | None => None end.

(** [Regex::find] for an expression without [^]: the byte offset of the end of the first match. *)
Fixpoint find_end (r : re) (s : text) : option nat :=
  match find r s with
  | Some m => Some (bytes m)
  | None => match s with [] => None | c :: s' => option_map (fun e => (utf8_len c + e)%nat) (find_end r s') end
  end.

(** The language of an expression. *)
Inductive lang : re -> text -> Prop :=
| lang_eps : lang Eps []
| lang_cls : forall p c, p c = true -> lang (Cls p) [c]
| lang_cat : forall a b x y, lang a x -> lang b y -> lang (Cat a b) (x ++ y)
| lang_left : forall a b x, lang a x -> lang (Or a b) x
| lang_right : forall a b x, lang b x -> lang (Or a b) x
| lang_stop : forall a, lang (Star a) []
| lang_more : forall a x y, lang a x -> lang (Star a) y -> lang (Star a) (x ++ y).

Lemma matches_sound : forall r s k x, matches r s k = Some x ->
  exists a s', s = a ++ s' /\ lang r a /\ k s' = Some x.
Proof.
  induction r as [|p|a IHa b IHb|a IHa b IHb|a IHa]; intros s k x H; cbn [matches] in H.
  - exists [], s. auto using lang_eps.
  - destruct s as [|c s']; [discriminate|]. destruct (p c) eqn:E; [|discriminate].
    exists [c], s'. auto using lang_cls.
  - apply IHa in H. destruct H as (u & s1 & -> & La & H).
    apply IHb in H. destruct H as (v & s2 & -> & Lb & H).
    exists (u ++ v), s2. rewrite app_assoc. auto using lang_cat.
  - destruct (matches a s k) as [y|] eqn:E.
    + injection H as <-. apply IHa in E. destruct E as (u & s1 & -> & La & H).
      exists u, s1. auto using lang_left.
    + apply IHb in H. destruct H as (u & s1 & -> & La & H). exists u, s1. auto using lang_right.
  - revert H. generalize (length s) at 1. intros n. revert s.
    induction n as [|n IHn]; intros s H.
    + exists [], s. auto using lang_stop.
    + destruct (matches a s _) as [y|] eqn:E in H.
      * injection H as <-. apply IHa in E. destruct E as (u & s1 & -> & La & H).
        destruct (length s1 <? length (u ++ s1))%nat; [|discriminate].
        apply IHn in H. destruct H as (v & s2 & -> & Lb & H).
        exists (u ++ v), s2. rewrite app_assoc. auto using lang_more.
      * exists [], s. auto using lang_stop.
Qed.

Lemma find_sound : forall r s m, find r s = Some m -> lang r m /\ exists s', s = m ++ s'.
Proof.
  intros r s m H. unfold find in H. destruct (matches r s Some) as [rest|] eqn:E; [|discriminate].
  injection H as <-. apply matches_sound in E. destruct E as (a & s' & -> & L & [= ->]).
  rewrite app_length, Nat.add_sub, firstn_app, firstn_all, Nat.sub_diag, app_nil_r. eauto.
Qed.

(** Whether the language contains the empty text. *)
Fixpoint nullable (r : re) : bool :=
  match r with
  | Eps => true
  | Cls _ => false
  | Cat a b => nullable a && nullable b
  | Or a b => nullable a || nullable b
  | Star _ => true
  end.

Lemma lang_nullable : forall r x, lang r x -> x = [] -> nullable r = true.
Proof.
  intros r x H. induction H; intros E; cbn [nullable]; auto.
  - discriminate.
  - apply app_eq_nil in E. destruct E as [-> ->]. rewrite IHlang1, IHlang2; auto.
  - rewrite IHlang; auto.
  - rewrite IHlang by auto. apply orb_true_r.
Qed.

Lemma find_nonempty : forall r s m, nullable r = false -> find r s = Some m -> m <> [].
Proof.
  intros r s m N H E. apply find_sound in H. destruct H as [L _].
  rewrite (lang_nullable _ _ L E) in N. discriminate.
Qed.

(** The search does not miss a match: when a prefix is in the language and the rest is accepted, something is found. *)
Lemma matches_complete : forall r a, lang r a -> forall s k, k s <> None -> matches r (a ++ s) k <> None.
Proof.
  intros r. induction r as [|p|a IHa b IHb|a IHa b IHb|a IHa]; intros x L s k K; cbn [matches].
  - inversion L; subst. exact K.
  - inversion L as [|p' c E| | | | |]; subst. cbn [app]. rewrite E. exact K.
  - inversion L; subst. rewrite <- app_assoc. apply IHa; auto.
  - destruct (matches a (x ++ s) k) as [y|] eqn:E; [discriminate|].
    inversion L as [| | |a' b' x' La|a' b' x' Lb| |]; subst; auto.
    exfalso. exact (IHa _ La s k K E).
  - assert (G : forall n x, lang (Star a) x -> (length (x ++ s) <= n)%nat ->
      (fix star (n : nat) (s : text) : option text :=
         match n with
         | O => k s
         | S n =>
             match matches a s (fun s' => if (length s' <? length s)%nat then star n s' else None) with
             | Some x => Some x
             | None => k s
             end
         end) n (x ++ s) <> None).
    2: { apply G; auto. }
    clear x L. induction n as [|n IHn]; intros x L Len.
    + destruct x as [|c x]; [exact K|cbn in Len; inversion Len].
    + match goal with |- match ?m with _ => _ end <> None => destruct m as [y|] eqn:E; [discriminate|] end.
      remember (Star a) as sa eqn:Esa. revert E Len. induction L; try discriminate; injection Esa as ->.
      * intros _ _. exact K.
      * intros E Len. destruct x as [|c x].
        { apply IHL2; auto. }
        exfalso. rewrite <- app_assoc in E.
        match type of E with matches a (?u ++ ?v) ?kk = None => refine (IHa _ L1 v kk _ E) end.
        assert (Hl : (length (y ++ s) <? length ((c :: x) ++ y ++ s))%nat = true).
        { apply Nat.ltb_lt. rewrite (app_length (c :: x)). cbn [length]. apply Nat.lt_add_pos_l. apply Nat.lt_0_succ. }
        rewrite Hl. apply IHn; [assumption|].
        apply Nat.ltb_lt in Hl. rewrite <- app_assoc in Len. apply Nat.lt_succ_r. eapply Nat.lt_le_trans; eassumption.
Qed.

Lemma find_complete : forall r a s, lang r a -> exists m, find r (a ++ s) = Some m.
Proof.
  intros r a s L. unfold find. destruct (matches r (a ++ s) Some) as [rest|] eqn:E; [eauto|].
  exfalso. exact (matches_complete r a L s Some ltac:(discriminate) E).
Qed.
