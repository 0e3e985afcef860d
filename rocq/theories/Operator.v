(* The proofs about binary operators. *)
From Coq Require Import String List Bool Arith PeanoNat Lia.
From Verif Require Import OperatorModel OperatorSpec.
Import ListNotations.

(* Attributes *)

Lemma first_defined_iff : forall w l name d m,
  first_defined w l name = Some (d, m) <->
  exists earlier later, l = earlier ++ d :: later /\ own w d name = Some m
    /\ forall e, In e earlier -> own w e name = None.
Proof.
  intros w l name d m. induction l as [| c l IH]; cbn [first_defined].
  - split; [discriminate |].
    intros (p & q & Heq & _). destruct p; discriminate.
  - destruct (own w c name) as [m' |] eqn:Ho.
    + split.
      * intros [= <- <-]. exists [], l. split; [reflexivity |]. split; [exact Ho |].
        intros e [].
      * intros (p & q & Heq & Hd & Hn). destruct p as [| a p].
        -- injection Heq as -> ->. congruence.
        -- injection Heq as -> ->. exfalso.
           specialize (Hn a (or_introl eq_refl)). congruence.
    + rewrite IH. split.
      * intros (p & q & -> & Hd & Hn). exists (c :: p), q.
        split; [reflexivity |]. split; [exact Hd |].
        intros e [<- | He]; auto.
      * intros (p & q & Heq & Hd & Hn). destruct p as [| a p].
        -- injection Heq as -> ->. congruence.
        -- injection Heq as -> ->. exists p, q. split; [reflexivity |].
           split; [exact Hd |]. intros e He. apply Hn. right. exact He.
Qed.

Lemma provides_iff : forall w c name d m,
  provides w c name d m <-> first_defined w (mro w c) name = Some (d, m).
Proof. intros. rewrite first_defined_iff. reflexivity. Qed.

Lemma lacks_iff : forall w c name,
  lacks w c name <-> first_defined w (mro w c) name = None.
Proof.
  intros w c name. unfold lacks. generalize (mro w c) as l. intro l.
  induction l as [| a l IH]; cbn [first_defined].
  - split; [reflexivity | intros _ d []].
  - destruct (own w a name) as [m |] eqn:Ho.
    + split; [| discriminate]. intro H. specialize (H a (or_introl eq_refl)). congruence.
    + rewrite <- IH. split.
      * intros H d Hd. apply H. right. exact Hd.
      * intros H d [<- | Hd]; auto.
Qed.

Lemma provides_unique : forall w c name d m d' m',
  provides w c name d m -> provides w c name d' m' -> d = d' /\ m = m'.
Proof.
  intros w c name d m d' m' H1 H2. apply provides_iff in H1, H2.
  rewrite H1 in H2. injection H2 as -> ->. split; reflexivity.
Qed.

Lemma provides_own : forall w c name d m, provides w c name d m -> own w d name = Some m.
Proof. intros w c name d m (p & q & _ & H & _). exact H. Qed.

Lemma provides_below : forall w c name d m, provides w c name d m -> below w c d.
Proof.
  intros w c name d m (p & q & Heq & _). unfold below. rewrite Heq.
  apply in_or_app. right. left. reflexivity.
Qed.

Lemma provides_or_lacks : forall w c name,
  (exists d m, provides w c name d m) \/ lacks w c name.
Proof.
  intros w c name. destruct (first_defined w (mro w c) name) as [[d m] |] eqn:Hf.
  - left. exists d, m. apply provides_iff. exact Hf.
  - right. apply lacks_iff. exact Hf.
Qed.

(* Types *)

Lemma sub_below : forall w c d, sub w (Inst c) (Inst d) = true <-> below w c d.
Proof.
  intros w c d. cbn [sub]. rewrite existsb_exists. split.
  - intros (e & He & Heq). apply Nat.eqb_eq in Heq. subst e. exact He.
  - intro H. exists d. split; [exact H | apply Nat.eqb_refl].
Qed.

Lemma in_type_belongs : forall w c t, in_type w (Inst c) t = true <-> belongs w c t.
Proof.
  intros w c t. unfold in_type. rewrite existsb_exists. split.
  - intros ([| d] & Hin & Hs).
    + left. exact Hin.
    + right. exists d. split; [exact Hin |]. apply sub_below. exact Hs.
  - intros [Hin | (d & Hin & Hb)].
    + exists Any. split; [exact Hin | reflexivity].
    + exists (Inst d). split; [exact Hin |]. apply sub_below. exact Hb.
Qed.

Lemma below_refl : forall w c, linear w -> below w c c.
Proof.
  intros w c Hw. destruct (linear_first w Hw c) as (rest & Heq).
  unfold below. rewrite Heq. left. reflexivity.
Qed.

Lemma before_in : forall l a b, before l a b -> In a l /\ In b l.
Proof.
  intros l a b (p & q & r & ->). split.
  - apply in_or_app. right. left. reflexivity.
  - apply in_or_app. right. right. apply in_or_app. right. left. reflexivity.
Qed.

Lemma below_trans : forall w a b c, linear w -> below w a b -> below w b c -> below w a c.
Proof.
  intros w a b c Hw Hab Hbc. destruct (Nat.eq_dec b c) as [-> | Hne]; [exact Hab |].
  assert (Hbef : before (mro w b) b c).
  { destruct (linear_first w Hw b) as (rest & Heq). unfold below in Hbc. rewrite Heq in *.
    destruct Hbc as [Hbc | Hbc]; [contradiction |].
    destruct (in_split c rest Hbc) as (q & r & ->).
    exists [], q, r. reflexivity. }
  apply (linear_order w Hw a b b c Hab) in Hbef. apply (proj2 (before_in _ _ _ Hbef)).
Qed.

Lemma below_antisym : forall w a b, linear w -> below w a b -> below w b a -> a = b.
Proof.
  intros w a b Hw Hab Hba. destruct (Nat.eq_dec a b) as [-> | Hne]; [reflexivity |].
  exfalso.
  assert (Hbef : before (mro w b) b a).
  { destruct (linear_first w Hw b) as (rest & Heq). unfold below in Hba. rewrite Heq in *.
    destruct Hba as [Hba | Hba]; [congruence |].
    destruct (in_split a rest Hba) as (q & r & ->).
    exists [], q, r. reflexivity. }
  apply (linear_order w Hw a b b a Hab) in Hbef.
  destruct Hbef as (p & q & r & Heq).
  destruct (linear_first w Hw a) as (rest & Hf).
  pose proof (linear_once w Hw a) as Hnd. rewrite Hf in *.
  destruct p as [| c p].
  - injection Heq as Heq _. congruence.
  - injection Heq as <- ->. inversion Hnd as [| ? ? Hni _]. apply Hni.
    apply in_or_app. right. right. apply in_or_app. right. left. reflexivity.
Qed.

Lemma split_unique : forall (p p' : list nat) d q q',
  NoDup (p ++ d :: q) -> p ++ d :: q = p' ++ d :: q' -> p = p'.
Proof.
  induction p as [| a p IH]; intros p' d q q' Hnd Heq; cbn [app] in *.
  - destruct p' as [| b p']; [reflexivity |]. exfalso.
    injection Heq as <- ->. apply NoDup_cons_iff in Hnd. destruct Hnd as [Hni _].
    apply Hni. apply in_or_app. right. left. reflexivity.
  - apply NoDup_cons_iff in Hnd. destruct Hnd as [Hni Hnd].
    destruct p' as [| b p']; cbn [app] in Heq; injection Heq as -> Heq.
    + exfalso. apply Hni. apply in_or_app. right. left. reflexivity.
    + f_equal. apply (IH p' d q q' Hnd Heq).
Qed.

(* A reverse method the right class inherits from a class above the left class is
   the reverse method of the left class too. *)
Lemma inherited : forall w l r name d m,
  linear w -> below w r l -> provides w r name d m -> below w l d -> provides w l name d m.
Proof.
  intros w l r name d m Hw Hrl (p & q & Heq & Ho & Hn) Hld.
  destruct (in_split d (mro w l) Hld) as (p' & q' & Heq').
  exists p', q'. split; [exact Heq' |]. split; [exact Ho |].
  intros e He. apply Hn.
  assert (Hbef : before (mro w l) e d).
  { destruct (in_split e p' He) as (p1 & p2 & ->).
    exists p1, p2, q'. rewrite Heq'. rewrite <- app_assoc. reflexivity. }
  apply (linear_order w Hw r l e d Hrl) in Hbef.
  destruct Hbef as (a & b & c & Heq2).
  pose proof (linear_once w Hw r) as Hnd. rewrite Heq in Heq2, Hnd.
  assert (Hp : p = a ++ e :: b).
  { apply (split_unique p (a ++ e :: b) d q c); [exact Hnd |].
    rewrite <- app_assoc. exact Heq2. }
  rewrite Hp. apply in_or_app. right. left. reflexivity.
Qed.

(* Evaluation is a function. *)

Section Runtime.

Variable w : world.
Variable value : Type.
Variable cls : value -> nat.
Variable call : method -> value -> value -> option value.

Notation asks := (asks w value cls call).
Notation right_first := (right_first w value cls).
Notation evaluates := (evaluates w value cls call).
Notation assigns := (assigns w value cls call).

Definition answer (self : value) (name : string) (arg : value) : option value :=
  match first_defined w (mro w (cls self)) name with
  | Some (_, m) => call m self arg
  | None => None
  end.

Lemma asks_iff : forall self name arg r, asks self name arg r <-> r = answer self name arg.
Proof.
  intros self name arg r. unfold answer. split.
  - intros [Hl | d m Hp].
    + apply lacks_iff in Hl. rewrite Hl. reflexivity.
    + apply provides_iff in Hp. rewrite Hp. reflexivity.
  - intros ->. destruct (first_defined w (mro w (cls self)) name) as [[d m] |] eqn:Hf.
    + apply (asks_method w value cls call self name arg d m). apply provides_iff. exact Hf.
    + apply asks_lacking. apply lacks_iff. exact Hf.
Qed.

Definition goes_first (k : kind) (rev : string) (l r : nat) : bool :=
  negb (Nat.eqb r l) && sub w (Inst r) (Inst l)
  && match k with
     | Ordering => true
     | Arithmetic =>
         match first_defined w (mro w r) rev, first_defined w (mro w l) rev with
         | Some (d, _), Some (e, _) => negb (Nat.eqb d e)
         | Some _, None => true
         | None, _ => false
         end
     end.

Lemma goes_first_iff : forall k rev x y,
  right_first k rev x y <-> goes_first k rev (cls x) (cls y) = true.
Proof.
  intros k rev x y. unfold OperatorSpec.right_first, goes_first.
  rewrite !andb_true_iff, negb_true_iff, Nat.eqb_neq, sub_below, <- and_assoc.
  apply and_iff_compat_l. destruct k; [| split; auto].
  split.
  - intros (d & m & Hy & Hx). pose proof (proj1 (provides_iff _ _ _ _ _) Hy) as Hfy.
    rewrite Hfy. destruct (first_defined w (mro w (cls x)) rev) as [[e m'] |] eqn:Hfx;
      [| reflexivity].
    apply negb_true_iff, Nat.eqb_neq. intros <-. apply Hx.
    apply provides_iff in Hfx. pose proof (provides_own _ _ _ _ _ Hfx) as Ho1.
    pose proof (provides_own _ _ _ _ _ Hy) as Ho2. rewrite Ho1 in Ho2.
    injection Ho2 as ->. exact Hfx.
  - intro H. destruct (first_defined w (mro w (cls y)) rev) as [[d m] |] eqn:Hfy;
      [| discriminate]. exists d, m. split; [apply provides_iff; exact Hfy |].
    intro Hx. apply provides_iff in Hx. rewrite Hx in H.
    rewrite Nat.eqb_refl in H. discriminate.
Qed.

Definition asks_both (k : kind) (l r : nat) : bool :=
  match k with Ordering => true | Arithmetic => negb (Nat.eqb l r) end.

Definition eval (k : kind) (name rev : string) (x y : value) : option value :=
  let a := answer x name y in
  let b := answer y rev x in
  if goes_first k rev (cls x) (cls y) then match b with Some v => Some v | None => a end
  else match a with
       | Some v => Some v
       | None => if asks_both k (cls x) (cls y) then b else None
       end.

Lemma asks_both_iff : forall k l r,
  asks_both k l r = true <-> k = Ordering \/ l <> r.
Proof.
  intros [|] l r; cbn [asks_both].
  - rewrite negb_true_iff, Nat.eqb_neq. split; [right; assumption |].
    intros [H | H]; [discriminate | exact H].
  - split; [left; reflexivity | reflexivity].
Qed.

Lemma evaluates_iff : forall k name rev x y r,
  evaluates k name rev x y r <-> r = eval k name rev x y.
Proof.
  intros k name rev x y r. unfold eval. split.
  - intros [v Hf Hb | r' Hf Hb Ha | v Hf Ha | r' Hf Ha Hk Hb | Hf Ha Hk Hc];
      rewrite goes_first_iff in Hf; rewrite asks_iff in Ha || idtac;
      rewrite ?asks_iff in *.
    + rewrite Hf, <- Hb. reflexivity.
    + rewrite Hf, <- Hb. exact Ha.
    + apply not_true_is_false in Hf. rewrite Hf, <- Ha. reflexivity.
    + apply not_true_is_false in Hf. rewrite Hf, <- Ha.
      apply asks_both_iff in Hk. rewrite Hk. exact Hb.
    + apply not_true_is_false in Hf. rewrite Hf, <- Ha, Hk, Hc. cbn [asks_both].
      rewrite Nat.eqb_refl. reflexivity.
  - destruct (goes_first k rev (cls x) (cls y)) eqn:Hf.
    + apply goes_first_iff in Hf. destruct (answer y rev x) as [v |] eqn:Hb.
      * intros ->. apply right_answers; [exact Hf | apply asks_iff; congruence].
      * intros ->. apply right_declines; [exact Hf | apply asks_iff; congruence |].
        apply asks_iff. reflexivity.
    + assert (Hn : ~ right_first k rev x y).
      { rewrite goes_first_iff, Hf. discriminate. }
      destruct (answer x name y) as [v |] eqn:Ha.
      * intros ->. apply left_answers; [exact Hn | apply asks_iff; congruence].
      * destruct (asks_both k (cls x) (cls y)) eqn:Hk.
        -- intros ->. apply left_declines; [exact Hn | apply asks_iff; congruence | |].
           ++ apply asks_both_iff. exact Hk.
           ++ apply asks_iff. reflexivity.
        -- intros ->. apply same_class_declines; [exact Hn | apply asks_iff; congruence | |].
           ++ destruct k; [reflexivity | discriminate].
           ++ destruct k; [| discriminate]. cbn [asks_both] in Hk.
              apply negb_false_iff, Nat.eqb_eq in Hk. exact Hk.
Qed.

Hypothesis keeps : honest w value cls call.
Hypothesis polite : declines w value cls call.

(* A call matches exactly when it answers. *)
Lemma run_answer : forall self name arg,
  match run w (look w (Inst (cls self)) name) (Inst (cls arg)) with
  | Some t => exists v, answer self name arg = Some v /\ belongs w (cls v) t
  | None => answer self name arg = None
  end.
Proof.
  intros self name arg. cbn [look]. unfold answer.
  destruct (first_defined w (mro w (cls self)) name) as [[d m] |] eqn:Hf;
    cbn [run]; [| reflexivity].
  apply provides_iff in Hf. apply provides_own in Hf.
  destruct (in_type w (Inst (cls arg)) (m_param m)) eqn:Hi.
  - apply in_type_belongs in Hi. destruct (keeps d name m self arg Hf Hi) as (v & Hc & Hv).
    exists v. split; assumption.
  - apply (polite d name m self arg Hf). rewrite <- in_type_belongs, Hi. discriminate.
Qed.

Definition kind_of (o : op_infos) : kind := if shortcut o then Arithmetic else Ordering.

(* The verdict about two instances. *)
Lemma operate_verdict : forall o x y,
  linear w ->
  match snd (operate w o (Inst (cls x)) (Inst (cls y))) with
  | [] => exists v, eval (kind_of o) (magic o) (reverse o) x y = Some v
  | _ => eval (kind_of o) (magic o) (reverse o) x y = None
  end.
Proof.
  intros o x y Hw. unfold operate. cbv zeta.
  pose proof (run_answer x (magic o) y) as HA.
  pose proof (run_answer y (reverse o) x) as HB.
  set (L := look w (Inst (cls x)) (magic o)) in *.
  set (R := look w (Inst (cls y)) (reverse o)) in *.
  unfold eval. unfold get_strategy. cbn [same_class].
  destruct (shortcut o && Nat.eqb (cls x) (cls y)) eqn:Hs.
  - apply andb_true_iff in Hs. destruct Hs as [Hsh Heq]. apply Nat.eqb_eq in Heq.
    unfold kind_of. rewrite Hsh. unfold goes_first. rewrite Heq, Nat.eqb_refl.
    cbn [negb andb asks_both]. rewrite Nat.eqb_refl. cbn [negb].
    destruct (run w L (Inst (cls y))) as [t |] eqn:Hr; cbn [snd].
    + destruct HA as (v & Hv & _). exists v. rewrite Hv. reflexivity.
    + rewrite HA. reflexivity.
  - assert (Hb : asks_both (kind_of o) (cls x) (cls y) = true).
    { unfold kind_of. destruct (shortcut o); [| reflexivity].
      cbn [asks_both]. cbn [andb] in Hs. rewrite Hs. reflexivity. }
    rewrite Hb.
    assert (Hboth : match or_else (run w L (Inst (cls y))) (run w R (Inst (cls x))) with
      | Some _ => exists v, (if goes_first (kind_of o) (reverse o) (cls x) (cls y)
          then match answer y (reverse o) x with Some v => Some v | None => answer x (magic o) y end
          else match answer x (magic o) y with Some v => Some v | None => answer y (reverse o) x end)
          = Some v
      | None => answer x (magic o) y = None /\ answer y (reverse o) x = None
      end).
    { destruct (run w L (Inst (cls y))) as [t |]; destruct (run w R (Inst (cls x))) as [t' |];
        cbn [or_else].
      - destruct HA as (v & -> & _), HB as (v' & -> & _).
        destruct (goes_first _ _ _ _); eauto.
      - destruct HA as (v & -> & _). rewrite HB. destruct (goes_first _ _ _ _); eauto.
      - destruct HB as (v & -> & _). rewrite HA. destruct (goes_first _ _ _ _); eauto.
      - split; assumption. }
    destruct (sub w (Inst (cls y)) (Inst (cls x)) && defined_apart L R).
    + destruct (run w L (Inst (cls y))) as [t |]; destruct (run w R (Inst (cls x))) as [t' |];
        cbn [or_else snd] in *; try exact Hboth.
      destruct Hboth as [-> ->]. destruct (goes_first _ _ _ _); reflexivity.
    + destruct (run w L (Inst (cls y))) as [t |]; destruct (run w R (Inst (cls x))) as [t' |];
        cbn [or_else snd] in *; try exact Hboth.
      destruct Hboth as [-> ->]. destruct (goes_first _ _ _ _); reflexivity.
Qed.

(* The checker and Python ask in the same order. *)
Definition agree (o : op_infos) (l r : nat) : Prop :=
  forall dl ml dr mr,
    provides w l (magic o) dl ml -> provides w r (reverse o) dr mr ->
    goes_first (kind_of o) (reverse o) l r
    = sub w (Inst r) (Inst l) && negb (Nat.eqb dl dr).

Lemma operate_result : forall o x y v,
  shortcut o = true /\ cls x = cls y \/ agree o (cls x) (cls y) ->
  eval (kind_of o) (magic o) (reverse o) x y = Some v ->
  belongs w (cls v) (fst (operate w o (Inst (cls x)) (Inst (cls y)))).
Proof.
  intros o x y v Hag Hev. unfold operate. cbv zeta.
  pose proof (run_answer x (magic o) y) as HA.
  pose proof (run_answer y (reverse o) x) as HB.
  remember (look w (Inst (cls x)) (magic o)) as L eqn:HL.
  remember (look w (Inst (cls y)) (reverse o)) as R eqn:HR.
  unfold eval in Hev. unfold get_strategy. cbn [same_class].
  destruct (shortcut o && Nat.eqb (cls x) (cls y)) eqn:Hs.
  - apply andb_true_iff in Hs. destruct Hs as [Hsh Heq]. apply Nat.eqb_eq in Heq.
    unfold kind_of in Hev. rewrite Hsh in Hev. unfold goes_first in Hev.
    rewrite Heq, Nat.eqb_refl in Hev.
    cbn [negb andb asks_both] in Hev. rewrite Nat.eqb_refl in Hev. cbn [negb] in Hev.
    destruct (run w L (Inst (cls y))) as [t |] eqn:Hr; cbn [fst].
    + destruct HA as (v' & Hv & Hb). rewrite Hv in Hev. injection Hev as <-. exact Hb.
    + rewrite HA in Hev. discriminate.
  - destruct Hag as [(Hsh & Heq) | Hag].
    { rewrite Hsh, Heq, Nat.eqb_refl in Hs. discriminate. }
    assert (Hb : asks_both (kind_of o) (cls x) (cls y) = true).
    { unfold kind_of. destruct (shortcut o); [| reflexivity].
      cbn [asks_both]. cbn [andb] in Hs. rewrite Hs. reflexivity. }
    rewrite Hb in Hev. clear Hb Hs.
    assert (Hsame : forall t t', run w L (Inst (cls y)) = Some t ->
      run w R (Inst (cls x)) = Some t' ->
      sub w (Inst (cls y)) (Inst (cls x)) && defined_apart L R
      = goes_first (kind_of o) (reverse o) (cls x) (cls y)).
    { intros t t' Ht Ht'. cbn [look] in HL, HR.
      destruct (first_defined w (mro w (cls x)) (magic o)) as [[dl ml] |] eqn:Hfl;
        [| subst L; discriminate].
      destruct (first_defined w (mro w (cls y)) (reverse o)) as [[dr mr] |] eqn:Hfr;
        [| subst R; discriminate].
      subst L R. cbn [defined_apart]. symmetry.
      apply (Hag dl ml dr mr); apply provides_iff; assumption. }
    destruct (run w L (Inst (cls y))) as [t |]; destruct (run w R (Inst (cls x))) as [t' |].
    + specialize (Hsame t t' eq_refl eq_refl). rewrite Hsame.
      destruct HA as (va & Ha & Hba), HB as (vb & Hbq & Hbb). rewrite Ha, Hbq in Hev.
      destruct (goes_first _ _ _ _); cbn [or_else fst]; injection Hev as <-; assumption.
    + destruct HA as (va & Ha & Hba). rewrite Ha, HB in Hev.
      assert (Hv : v = va) by (destruct (goes_first _ _ _ _); congruence). subst v.
      destruct (sub _ _ _ && _); cbn [or_else fst]; exact Hba.
    + destruct HB as (vb & Hbq & Hbb). rewrite HA, Hbq in Hev.
      assert (Hv : v = vb) by (destruct (goes_first _ _ _ _); congruence). subst v.
      destruct (sub _ _ _ && _); cbn [or_else fst]; exact Hbb.
    + rewrite HA, HB in Hev. destruct (goes_first _ _ _ _); discriminate.
Qed.

(* When they agree for arithmetic. *)
Lemma agree_arithmetic : forall o l r,
  linear w -> shortcut o = true -> l <> r ->
  (below w r l -> forall d m,
     provides w l (reverse o) d m -> provides w r (reverse o) d m ->
     forall dl ml, provides w l (magic o) dl ml -> dl = d) ->
  agree o l r.
Proof.
  intros o l r Hw Hsh Hne Hpair dl ml dr mr Hl Hr. unfold goes_first, kind_of. rewrite Hsh.
  destruct (Nat.eqb_spec r l) as [-> | _]; [congruence |]. cbn [negb andb].
  destruct (sub w (Inst r) (Inst l)) eqn:Hsub; [| reflexivity]. cbn [andb].
  apply sub_below in Hsub.
  pose proof (proj1 (provides_iff _ _ _ _ _) Hr) as Hfr. rewrite Hfr.
  destruct (first_defined w (mro w l) (reverse o)) as [[e me] |] eqn:Hfl.
  - apply provides_iff in Hfl.
    destruct (Nat.eqb_spec dr e) as [-> | Hn]; cbn [negb].
    + pose proof (inherited w l r _ e mr Hw Hsub Hr (provides_below _ _ _ _ _ Hfl)) as Hi.
      rewrite (Hpair Hsub e mr Hi Hr dl ml Hl). rewrite Nat.eqb_refl. reflexivity.
    + destruct (Nat.eqb_spec dl dr) as [-> | _]; [| reflexivity]. exfalso. apply Hn.
      pose proof (inherited w l r _ dr mr Hw Hsub Hr (provides_below _ _ _ _ _ Hl)) as Hi.
      apply (provides_unique _ _ _ _ _ _ _ Hi Hfl).
  - destruct (Nat.eqb_spec dl dr) as [-> | _]; [| reflexivity]. exfalso.
    pose proof (inherited w l r _ dr mr Hw Hsub Hr (provides_below _ _ _ _ _ Hl)) as Hi.
    apply provides_iff in Hi. rewrite Hi in Hfl. discriminate.
Qed.

Lemma agree_ordering : forall o l r,
  shortcut o = false ->
  (below w r l -> forall dl ml dr mr,
     provides w l (magic o) dl ml -> provides w r (reverse o) dr mr -> (dl = dr <-> l = r)) ->
  agree o l r.
Proof.
  intros o l r Hsh Hpair dl ml dr mr Hl Hr. unfold goes_first, kind_of. rewrite Hsh.
  rewrite andb_true_r. destruct (sub w (Inst r) (Inst l)) eqn:Hsub;
    [| rewrite andb_false_r; reflexivity].
  apply sub_below in Hsub. specialize (Hpair Hsub dl ml dr mr Hl Hr).
  rewrite andb_true_r. cbn [andb].
  destruct (Nat.eqb_spec dl dr) as [He | He], (Nat.eqb_spec r l) as [Hrl | Hrl];
    cbn [negb]; try reflexivity; exfalso.
  - apply Hrl. symmetry. apply Hpair. exact He.
  - apply He. apply Hpair. symmetry. exact Hrl.
Qed.

End Runtime.

(* Unions *)

Lemma operate_right_sorted : forall w o l right r,
  In (Inst r) right ->
  incl (fst (operate w o l (Inst r))) (fst (operate_right w o l (sort_for_priority right)))
  /\ incl (snd (operate w o l (Inst r))) (snd (operate_right w o l (sort_for_priority right))).
Proof.
  intros w o l right r Hin. unfold sort_for_priority.
  assert (Hf : In (Inst r) (filter (fun m => negb (is_any m)) right)).
  { apply filter_In. split; [exact Hin | reflexivity]. }
  assert (Hn : ~ In Any (filter (fun m => negb (is_any m)) right)).
  { rewrite filter_In. intros [_ H]. discriminate. }
  revert Hf Hn. generalize (filter (fun m => negb (is_any m)) right) as front.
  generalize (filter is_any right) as back. intros back front.
  induction front as [| [| c] front IH]; intros Hf Hn.
  - destruct Hf.
  - exfalso. apply Hn. left. reflexivity.
  - cbn [app operate_right].
    destruct (operate w o l (Inst c)) as [t is] eqn:Ho.
    destruct (operate_right w o l (front ++ back)) as [t' is'] eqn:Hr. cbn [fst snd] in *.
    destruct Hf as [[= ->] | Hf].
    + rewrite Ho. cbn [fst snd]. split; apply incl_appl, incl_refl.
    + destruct (IH Hf (fun H => Hn (or_intror H))) as [H1 H2].
      split; apply incl_appr; assumption.
Qed.

Lemma binary_member : forall w o left right l,
  In l left ->
  incl (fst (operate_right w o l right)) (fst (binary w o left right))
  /\ incl (snd (operate_right w o l right)) (snd (binary w o left right)).
Proof.
  intros w o left right l. induction left as [| a left IH]; [intros [] |].
  cbn [binary]. destruct (operate_right w o a right) as [t is] eqn:Ho.
  destruct (binary w o left right) as [t' is'] eqn:Hb. cbn [fst snd] in *.
  intros [-> | Hin].
  - rewrite Ho. cbn [fst snd]. split; apply incl_appl, incl_refl.
  - destruct (IH Hin) as [H1 H2]. split; apply incl_appr; assumption.
Qed.

Lemma operate_right_issue : forall w o l right i,
  In i (snd (operate_right w o l right)) ->
  exists r, In r right /\ In i (snd (operate w o l r)).
Proof.
  intros w o l right i. induction right as [| [| c] right IH]; cbn [operate_right].
  - intros [].
  - intros [].
  - destruct (operate w o l (Inst c)) as [t is] eqn:Ho.
    destruct (operate_right w o l right) as [t' is'] eqn:Hr. cbn [snd] in *.
    rewrite in_app_iff. intros [H | H].
    + exists (Inst c). rewrite Ho. split; [left; reflexivity | exact H].
    + destruct (IH H) as (r & Hin & Hi). exists r. split; [right; exact Hin | exact Hi].
Qed.

Lemma binary_issue : forall w o left right i,
  In i (snd (binary w o left right)) ->
  exists l r, In l left /\ In r right /\ In i (snd (operate w o l r)).
Proof.
  intros w o left right i. induction left as [| l left IH]; cbn [binary]; [intros [] |].
  destruct (operate_right w o l right) as [t is] eqn:Ho.
  destruct (binary w o left right) as [t' is'] eqn:Hb. cbn [snd] in *.
  rewrite in_app_iff. intros [H | H].
  - change is with (snd (t, is)) in H. rewrite <- Ho in H.
    destruct (operate_right_issue w o l right i H) as (r & Hr & Hi).
    exists l, r. split; [left; reflexivity | split; assumption].
  - destruct (IH H) as (l' & r & Hl & Hr & Hi).
    exists l', r. split; [right; exact Hl | split; assumption].
Qed.

(* An operand of type Any makes an operation that reports nothing and gives Any. *)
Lemma operate_any_left : forall w o r, operate w o Any r = ([Any], []).
Proof.
  intros w o r. unfold operate. cbv zeta. unfold get_strategy. cbn [look same_class].
  rewrite andb_false_r. cbn [defined_apart]. rewrite andb_false_r.
  unfold run at 1. cbn [any_method m_param m_return in_type existsb]. 
  destruct r; reflexivity.
Qed.

(* Which of the two issues it is. *)
Lemma operate_issue : forall w o l r i,
  In i (snd (operate w o l r)) ->
  i = UnsupportedLeft l /\ look w l (magic o) = None
    /\ (look w r (reverse o) = None \/ shortcut o = true /\ same_class l r = true)
  \/ i = Unsupported l r
    /\ (look w l (magic o) <> None
        \/ look w r (reverse o) <> None /\ (shortcut o = false \/ same_class l r = false)).
Proof.
  intros w o l r i. unfold operate. cbv zeta.
  destruct (get_strategy w o l r (look w l (magic o)) (look w r (reverse o))) eqn:Hst;
    match goal with |- In _ (snd match ?x with _ => _ end) -> _ => destruct x end;
    try solve [intros []];
    unfold get_strategy in Hst;
    destruct (shortcut o) eqn:Hsh, (same_class l r) eqn:Hsc; cbn [andb] in Hst;
    try (destruct (_ && _) in Hst; discriminate); try discriminate;
    destruct (look w l (magic o)) as [[dl ml] |], (look w r (reverse o)) as [[dr mr] |];
    cbn [is_none andb orb snd]; intro Hi; destruct Hi as [<- | []];
    solve [ left; split; [reflexivity | split; [reflexivity | auto]]
          | right; split; [reflexivity | left; discriminate]
          | right; split; [reflexivity | right; split; [discriminate | auto]] ].
Qed.
