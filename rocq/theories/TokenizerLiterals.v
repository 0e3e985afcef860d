(** The texts that the regular expressions of the tokenizer match are the literals of the language reference. *)
From Coq Require Import List NArith Arith Bool Lia.
From Verif Require Import TextModel TextProofs RegexModel TokenizerModel TokenizerSpec.
Import ListNotations.
Local Open Scope N_scope.

Lemma lang_Eps w : lang Eps w -> w = [].
Proof. intros H; inversion H; reflexivity. Qed.
Lemma lang_Cls p w : lang (Cls p) w -> exists c, w = [c] /\ p c = true.
Proof. intros H; inversion H; subst; eauto. Qed.
Lemma lang_Cat a b w : lang (Cat a b) w -> exists x y, w = x ++ y /\ lang a x /\ lang b y.
Proof. intros H; inversion H; subst; eauto. Qed.
Lemma lang_Or a b w : lang (Or a b) w -> lang a w \/ lang b w.
Proof. intros H; inversion H; subst; auto. Qed.
Lemma lang_Opt a w : lang (Opt a) w -> lang a w \/ w = [].
Proof. intros H; apply lang_Or in H; destruct H as [H|H]; [auto|right; apply lang_Eps; exact H]. Qed.
Lemma lang_one c w : lang (one c) w -> w = [c].
Proof. intros H; apply lang_Cls in H; destruct H as [d [-> H]]; apply N.eqb_eq in H; congruence. Qed.
Lemma mem_In c l : mem c l = true <-> In c l.
Proof.
  unfold mem. rewrite existsb_exists. split.
  - intros [x [Hx E]]. apply N.eqb_eq in E. subst x; exact Hx.
  - intros H. exists c. split; [exact H|apply N.eqb_refl].
Qed.
Lemma lang_any l w : lang (any_of l) w -> exists c, w = [c] /\ In c l.
Proof. intros H; apply lang_Cls in H; destruct H as [c [-> H]]. exists c. rewrite mem_In in H. auto. Qed.
Lemma lang_none l w : lang (none_of l) w -> exists c, w = [c] /\ ~ In c l.
Proof.
  intros H; apply lang_Cls in H; destruct H as [c [-> H]]. exists c. split; [reflexivity|]. rewrite <- mem_In.
  apply negb_true_iff in H. congruence.
Qed.
Lemma lang_star_cases a w : lang (Star a) w -> forall P : text -> Prop, P [] -> (forall x y, lang a x -> P y -> P (x ++ y)) -> P w.
Proof.
  intros H P P0 P1. remember (Star a) as r eqn:E. induction H; try discriminate E; [exact P0|].
  injection E as ->. apply P1; auto.
Qed.

Lemma range_spec a b c : range a b c = true <-> a <= c <= b.
Proof. unfold range. rewrite andb_true_iff, !N.leb_le. reflexivity. Qed.
Lemma digit_spec c : digit c = true <-> decimal c.
Proof. apply range_spec. Qed.

(** ** Numbers *)

(** More digits behind a digit *)
Lemma more_digits (p : char -> bool) (P : N -> Prop) : (forall c, p c = true -> P c) -> forall w, lang (Star (with_underscore p)) w ->
  forall d, P d -> digits P (d :: w).
Proof.
  intros Hp w H. apply (lang_star_cases _ _ H).
  - intros d Hd. constructor; exact Hd.
  - intros x y Hx IH d Hd. unfold with_underscore in Hx. apply lang_Cat in Hx. destruct Hx as [u [v [-> [Hu Hv]]]].
    apply lang_Cls in Hv. destruct Hv as [c [-> Hc]]. apply Hp in Hc. apply lang_Opt in Hu. destruct Hu as [Hu| ->].
    + apply lang_one in Hu. subst u. cbn. apply digits_underscore; [exact Hd|]. apply IH; exact Hc.
    + cbn. apply digits_more; [exact Hd|]. apply IH; exact Hc.
Qed.

Lemma prefixed_digits x (p : char -> bool) (P : N -> Prop) w : (forall c, p c = true -> P c) ->
  lang (cats [one 48; any_of [x; x - 32]; Plus (with_underscore p)]) w -> prefixed x P w.
Proof.
  intros Hp H. cbn [cats] in H. apply lang_Cat in H. destruct H as [a [b [-> [Ha Hb]]]]. apply lang_one in Ha. subst a.
  apply lang_Cat in Hb. destruct Hb as [a [b' [-> [Ha Hb]]]]. apply lang_any in Ha. destruct Ha as [c [-> Hc]].
  unfold Plus in Hb. apply lang_Cat in Hb. destruct Hb as [u [v [-> [Hu Hv]]]].
  unfold with_underscore in Hu. apply lang_Cat in Hu. destruct Hu as [u1 [u2 [-> [Hu1 Hu2]]]].
  apply lang_Cls in Hu2. destruct Hu2 as [d [-> Hd]]. apply Hp in Hd. pose proof (more_digits p P Hp v Hv d Hd) as Hm.
  exists c, (d :: v). split; [cbn in Hc; destruct Hc as [<-|[<-|[]]]; auto|]. split; [exact Hm|].
  apply lang_Opt in Hu1. destruct Hu1 as [Hu1| ->]; [apply lang_one in Hu1; subst u1; right|left]; reflexivity.
Qed.

Lemma DIGITS_spec w : lang DIGITS w -> digits decimal w.
Proof.
  intros H. apply lang_Cat in H. destruct H as [a [b [-> [Ha Hb]]]]. apply lang_Cls in Ha. destruct Ha as [d [-> Hd]].
  apply (more_digits digit decimal); [intros c Hc; apply digit_spec; exact Hc|exact Hb|apply digit_spec; exact Hd].
Qed.

Lemma DEC_spec w : lang DEC_NUMBER w -> integer w.
Proof.
  intros H. left. apply lang_Or in H. destruct H as [H|H]; apply lang_Cat in H; destruct H as [a [b [-> [Ha Hb]]]].
  - apply lang_one in Ha. subst a. cbn [app]. split.
    + apply (more_digits (N.eqb 48) decimal); [|exact Hb|unfold decimal; lia]. intros c Hc. apply N.eqb_eq in Hc. unfold decimal; lia.
    + left. constructor; [auto|]. apply (lang_star_cases _ _ Hb); [constructor|].
      intros x y Hx Hy. apply Forall_app. split; [|exact Hy]. unfold with_underscore in Hx.
      apply lang_Cat in Hx. destruct Hx as [u [v [-> [Hu Hv]]]].
      apply Forall_app. split.
      * apply lang_Opt in Hu. destruct Hu as [Hu| ->]; [|constructor]. apply lang_one in Hu. subst u. constructor; [auto|constructor].
      * apply lang_Cls in Hv. destruct Hv as [c [-> Hc]]. apply N.eqb_eq in Hc. constructor; [auto|constructor].
  - apply lang_Cls in Ha. destruct Ha as [d [-> Hd]]. apply range_spec in Hd. cbn [app]. split.
    + apply (more_digits digit decimal); [intros c Hc; apply digit_spec; exact Hc|exact Hb|unfold decimal; lia].
    + right. exists d, b. split; [reflexivity|exact Hd].
Qed.

Lemma INT_spec w : lang INT_NUMBER w -> integer w.
Proof.
  intros H. unfold INT_NUMBER in H. cbn [or] in H. apply lang_Or in H. destruct H as [H|H].
  - right; left. apply (prefixed_digits 120 hex_digit); [|exact H]. intros c Hc. unfold hex_digit in Hc.
    apply orb_prop in Hc. destruct Hc as [Hc|Hc]; [apply orb_prop in Hc; destruct Hc as [Hc|Hc]|].
    + left; apply digit_spec; exact Hc.
    + right; left; apply range_spec; exact Hc.
    + right; right; apply range_spec; exact Hc.
  - apply lang_Or in H. destruct H as [H|H].
    + right; right; right. apply (prefixed_digits 98 (range 48 49)); [|exact H]. intros c Hc. apply range_spec in Hc. unfold binary; lia.
    + apply lang_Or in H. destruct H as [H|H].
      * right; right; left. apply (prefixed_digits 111 (range 48 55)); [|exact H]. intros c Hc. apply range_spec; exact Hc.
      * apply DEC_spec; exact H.
Qed.

Lemma EXPONENT_spec w : lang EXPONENT w -> exponent w.
Proof.
  intros H. unfold EXPONENT in H. cbn [cats] in H. apply lang_Cat in H. destruct H as [a [b [-> [Ha Hb]]]].
  apply lang_any in Ha. destruct Ha as [e [-> He]]. apply lang_Cat in Hb. destruct Hb as [s [d [-> [Hs Hd]]]].
  exists e, s, d. split; [cbn in He; destruct He as [<-|[<-|[]]]; auto|]. split; [|split; [apply DIGITS_spec; exact Hd|reflexivity]].
  apply lang_Opt in Hs. destruct Hs as [Hs| ->]; [|auto]. apply lang_any in Hs. destruct Hs as [c [-> [<-|[<-|[]]]]]; auto.
Qed.

Lemma FLOAT_spec w : lang FLOAT_NUMBER w -> float w.
Proof.
  intros H. unfold FLOAT_NUMBER in H. cbn [or] in H. apply lang_Or in H. destruct H as [H|H].
  - unfold POINT_FLOAT in H. apply lang_Cat in H. destruct H as [a [b [-> [Ha Hb]]]].
    assert (Hf : fraction a).
    { cbn [or cats] in Ha. apply lang_Or in Ha. destruct Ha as [Ha|Ha].
      - apply lang_Cat in Ha. destruct Ha as [x [y [-> [Hx Hy]]]]. apply lang_Cat in Hy. destruct Hy as [u [v [-> [Hu Hv]]]].
        apply lang_one in Hu. subst u. apply DIGITS_spec in Hx. exists x, v. split; [reflexivity|]. split; [auto|]. split.
        + apply lang_Opt in Hv. destruct Hv as [Hv|Hv]; [right; apply DIGITS_spec; exact Hv|auto].
        + left. intros ->. inversion Hx.
      - apply lang_Cat in Ha. destruct Ha as [x [y [-> [Hx Hy]]]]. apply lang_one in Hx. subst x. apply DIGITS_spec in Hy.
        exists [], y. split; [reflexivity|]. split; [auto|]. split; [auto|]. right. intros ->. inversion Hy. }
    apply lang_Opt in Hb. destruct Hb as [Hb| ->].
    + right. exists a, b. split; [reflexivity|]. split; [auto|apply EXPONENT_spec; exact Hb].
    + left. rewrite app_nil_r. exact Hf.
  - apply lang_Cat in H. destruct H as [a [b [-> [Ha Hb]]]]. right. exists a, b. split; [reflexivity|].
    split; [right; apply DIGITS_spec; exact Ha|apply EXPONENT_spec; exact Hb].
Qed.

Lemma NUMBER_spec w : lang NUMBER w -> number w.
Proof.
  intros H. unfold NUMBER in H. cbn [or] in H. apply lang_Or in H. destruct H as [H|H].
  - unfold IMAG_NUMBER in H. apply lang_Cat in H. destruct H as [a [b [-> [Ha Hb]]]]. apply lang_any in Hb. destruct Hb as [j [-> Hj]].
    right; right. exists a, j. split; [reflexivity|]. split; [cbn in Hj; destruct Hj as [<-|[<-|[]]]; auto|].
    cbn [or] in Ha. apply lang_Or in Ha. destruct Ha as [Ha|Ha]; [left; apply DIGITS_spec; exact Ha|right; apply FLOAT_spec; exact Ha].
  - apply lang_Or in H. destruct H as [H|H]; [right; left; apply FLOAT_spec; exact H|left; apply INT_spec; exact H].
Qed.

(** ** Operators *)
(** Expressions without repetition, whose texts can be listed *)
Inductive small : Type := Nothing | Char (c : N) | Chars (l : text) | Then (a b : small) | Either (a b : small).
Fixpoint re_of (s : small) : re :=
  match s with
  | Nothing => Eps | Char c => one c | Chars l => any_of l
  | Then a b => Cat (re_of a) (re_of b) | Either a b => Or (re_of a) (re_of b)
  end.
Fixpoint texts_of (s : small) : list text :=
  match s with
  | Nothing => [[]]
  | Char c => [[c]]
  | Chars l => map (fun c => [c]) l
  | Then a b => flat_map (fun x => map (app x) (texts_of b)) (texts_of a)
  | Either a b => texts_of a ++ texts_of b
  end.
Lemma small_spec s : forall w, lang (re_of s) w -> In w (texts_of s).
Proof.
  induction s as [|c|l|a IHa b IHb|a IHa b IHb]; intros w H; cbn [re_of texts_of] in *.
  - apply lang_Eps in H. left; auto.
  - apply lang_one in H. left; auto.
  - apply lang_any in H. destruct H as [c [-> Hc]]. apply in_map_iff. exists c; auto.
  - apply lang_Cat in H. destruct H as [x [y [-> [Hx Hy]]]]. apply in_flat_map. exists x. split; [auto|]. apply in_map; auto.
  - apply in_or_app. apply lang_Or in H. destruct H; auto.
Qed.

Definition listed (l : list text) (w : text) : bool := existsb (fun x => if list_eq_dec N.eq_dec w x then true else false) l.
Lemma listed_In l w : listed l w = true -> In w l.
Proof. intros H. apply existsb_exists in H. destruct H as [x [Hx E]]. destruct (list_eq_dec N.eq_dec w x) as [->|]; [exact Hx|discriminate]. Qed.

Definition operator_small : small :=
  let eq := Either (Char 61) Nothing in
  Either (Then (Char 42) (Then (Char 42) eq)) (Either (Then (Char 62) (Then (Char 62) eq)) (Either (Then (Char 60) (Then (Char 60) eq))
  (Either (Then (Char 47) (Then (Char 47) eq)) (Either (Then (Char 45) (Char 62)) (Either (Then (Char 46) (Then (Char 46) (Char 46)))
  (Either (Then (Char 58) eq) (Either (Then (Chars [43; 45; 42; 47; 37; 38; 64; 96; 124; 94; 33; 61; 60; 62]) eq)
  (Either (Chars [91; 93; 40; 41; 123; 125]) (Chars [126; 59; 46; 44; 64]))))))))).

Lemma OPERATOR_spec w : lang OPERATOR w -> In w operators.
Proof.
  intros H. change OPERATOR with (re_of operator_small) in H. apply small_spec in H.
  assert (A : forallb (listed operators) (texts_of operator_small) = true) by (vm_compute; reflexivity).
  rewrite forallb_forall in A. apply listed_In. exact (A w H).
Qed.

(** ** Strings *)
Definition string_prefixes : small :=
  Either Nothing (Either (Chars [114; 82]) (Either (Chars [117; 85]) (Chars [116; 84]))).
Definition bytes_prefixes : small :=
  Either (Then (Chars [98; 66]) (Either (Chars [114; 82]) Nothing)) (Then (Chars [114; 82]) (Chars [98; 66])).
Definition fstring_starts : small :=
  Either (Then (Chars [70; 102]) (Either (Chars [82; 114]) Nothing)) (Then (Chars [82; 114]) (Chars [70; 102])).

Ltac each H := repeat (destruct H as [H|H]; [subst|]); [..|destruct H].
Lemma string_prefixes_spec p : lang (re_of string_prefixes) p -> string_prefix p.
Proof. intros H. apply small_spec in H. cbn in H. each H; [left; reflexivity|..]; right; eexists; (split; [reflexivity|]); unfold letter_of; cbn; auto. Qed.
Lemma bytes_prefixes_spec p : lang (re_of bytes_prefixes) p -> bytes_prefix p.
Proof.
  intros H. apply small_spec in H. cbn in H. unfold bytes_prefix, letter_of.
  each H; first [solve [exists 98; split; [auto|]; eauto 8]|exists 66; split; [right; reflexivity|]; eauto 8].
Qed.
Lemma fstring_starts_spec p : lang (re_of fstring_starts) p -> fstring_prefix p.
Proof.
  intros H. apply small_spec in H. cbn in H. unfold fstring_prefix, letter_of.
  each H; first [solve [exists 102; split; [auto|]; eauto 8]|exists 70; split; [right; reflexivity|]; eauto 8].
Qed.

Lemma short_string_spec q w : quote q -> lang (short_string q) w -> exists b, w = q :: b ++ [q] /\ short_body q b.
Proof.
  intros Hq H. unfold short_string in H. cbn [cats] in H. apply lang_Cat in H. destruct H as [a [b [-> [Ha Hb]]]]. apply lang_one in Ha. subst a.
  apply lang_Cat in Hb. destruct Hb as [b' [e [-> [Hb He]]]]. apply lang_one in He. subst e. exists b'. split; [reflexivity|].
  apply (lang_star_cases _ _ Hb); [constructor|]. intros x y Hx Hy. apply lang_Or in Hx. destruct Hx as [Hx|Hx].
  - apply lang_Cat in Hx. destruct Hx as [u [v [-> [Hu Hv]]]]. apply lang_one in Hu. subst u. cbn [or] in Hv. apply lang_Or in Hv.
    assert (Hn : forall e, lang NEWLINE e -> line_end e).
    { clear. intros e H. apply lang_Or in H. destruct H as [H|H].
      - apply lang_Cat in H. destruct H as [u [v [-> [Hu Hv]]]]. apply lang_one in Hu. subst u. apply lang_Opt in Hv.
        destruct Hv as [Hv| ->]; [apply lang_one in Hv; subst v|]; unfold line_end; auto.
      - apply lang_one in H. subst e. left; reflexivity. }
    destruct Hv as [Hv|Hv].
    + cbn [app]. apply short_continuation; [apply Hn; exact Hv|exact Hy].
    + apply lang_none in Hv. destruct Hv as [c [-> Hc]]. cbn [app]. destruct (N.eq_dec c 13) as [->|Hne].
      * change (92 :: 13 :: y) with (92 :: [13] ++ y). apply short_continuation; [right; left; reflexivity|exact Hy].
      * apply short_escape; [|exact Hy]. intros [->| ->]; [apply Hc; left; reflexivity|congruence].
  - apply lang_none in Hx. destruct Hx as [c [-> Hc]]. cbn [app]. cbn in Hc. apply short_char; [| | |exact Hy].
    + intros ->. apply Hc; auto.
    + intros ->. apply Hc; auto.
    + intros [->| ->]; apply Hc; auto.
Qed.

Lemma triple_string_spec q w : quote q -> lang (triple_string q) w ->
  w = [q; q; q] \/ exists b, w = q :: q :: q :: b ++ [q; q; q] /\ long_body q 0 b.
Proof.
  intros Hq H. unfold triple_string in H. cbv zeta in H. apply lang_Cat in H. destruct H as [a [b [-> [Ha Hb]]]].
  assert (Hl : forall e, lang (lit [q; q; q]) e -> e = [q; q; q]).
  { intros e He. cbn in He. apply lang_Cat in He. destruct He as [x [y [-> [Hx He]]]]. apply lang_Cat in He. destruct He as [y' [z [-> [Hy Hz]]]].
    apply lang_one in Hx, Hy, Hz. subst. reflexivity. }
  apply Hl in Ha. subst a. apply lang_Opt in Hb. destruct Hb as [Hb| ->]; [|left; reflexivity].
  apply lang_Cat in Hb. destruct Hb as [b' [e [-> [Hb He]]]]. apply Hl in He. subst e. right. exists b'. split; [reflexivity|].
  apply (lang_star_cases _ _ Hb); [constructor|]. intros x y Hx Hy. cbn [or] in Hx.
  assert (Hany : forall v n, lang (Cls (fun _ => true)) v -> long_body q n (92 :: v ++ y)).
  { intros v n Hv. apply lang_Cls in Hv. destruct Hv as [c [-> _]]. apply long_escape; exact Hy. }
  assert (Hother : forall v n, lang (none_of [q; 92]) v -> long_body q n (v ++ y)).
  { intros v n Hv. apply lang_none in Hv. destruct Hv as [c [-> Hc]]. cbn in Hc. apply long_char; [| |exact Hy]; intros ->; apply Hc; auto. }
  apply lang_Or in Hx. destruct Hx as [Hx|Hx].
  { apply lang_Cat in Hx. destruct Hx as [u [v [-> [Hu Hv]]]]. apply lang_one in Hu. subst u. apply Hany; exact Hv. }
  apply lang_Or in Hx. destruct Hx as [Hx|Hx].
  { apply lang_Cat in Hx. destruct Hx as [u [v [-> [Hu Hv]]]]. apply lang_one in Hu. subst u. cbn [app].
    apply long_quote; [lia|]. apply Hother; exact Hv. }
  apply lang_Or in Hx. destruct Hx as [Hx|Hx].
  { cbn [cats] in Hx. apply lang_Cat in Hx. destruct Hx as [u [v [-> [Hu Hv]]]]. apply lang_one in Hu. subst u. cbn [app].
    apply lang_Cat in Hv. destruct Hv as [u [v' [-> [Hu Hv]]]]. apply lang_one in Hu. subst u. cbn [app].
    apply long_quote; [lia|]. apply Hany; exact Hv. }
  apply lang_Or in Hx. destruct Hx as [Hx|Hx].
  { cbn [cats] in Hx. apply lang_Cat in Hx. destruct Hx as [u [v [-> [Hu Hv]]]]. apply lang_one in Hu. subst u. cbn [app].
    apply lang_Cat in Hv. destruct Hv as [u [v' [-> [Hu Hv]]]]. apply lang_one in Hu. subst u. cbn [app].
    apply long_quote; [lia|]. apply long_quote; [lia|]. apply Hother; exact Hv. }
  apply lang_Or in Hx. destruct Hx as [Hx|Hx].
  { cbn [cats] in Hx. apply lang_Cat in Hx. destruct Hx as [u [v [-> [Hu Hv]]]]. apply lang_one in Hu. subst u. cbn [app].
    apply lang_Cat in Hv. destruct Hv as [u [v' [-> [Hu Hv]]]]. apply lang_one in Hu. subst u. cbn [app].
    apply lang_Cat in Hv. destruct Hv as [u [v'' [-> [Hu Hv]]]]. apply lang_one in Hu. subst u. cbn [app].
    apply long_quote; [lia|]. apply long_quote; [lia|]. apply Hany; exact Hv. }
  apply Hother; exact Hx.
Qed.

Lemma all_strings_spec prefixes (P : text -> Prop) w : (forall p, lang (or prefixes) p -> P p) -> lang (all_string_regexes prefixes) w ->
  exists p q, P p /\ quote q /\
    (w = p ++ [q; q; q] \/ (exists b, w = p ++ q :: q :: q :: b ++ [q; q; q] /\ long_body q 0 b) \/ (exists b, w = p ++ q :: b ++ [q] /\ short_body q b)).
Proof.
  intros HP H. unfold all_string_regexes in H. apply lang_Cat in H. destruct H as [p [s [-> [Hp Hs]]]]. apply HP in Hp.
  cbn [or] in Hs.
  assert (Q39 : quote 39) by (left; reflexivity). assert (Q34 : quote 34) by (right; reflexivity).
  apply lang_Or in Hs. destruct Hs as [Hs|Hs].
  { apply (triple_string_spec _ _ Q39) in Hs. exists p, 39. split; [exact Hp|]. split; [exact Q39|]. destruct Hs as [->|[b [-> Hb]]]; eauto. }
  apply lang_Or in Hs. destruct Hs as [Hs|Hs].
  { apply (triple_string_spec _ _ Q34) in Hs. exists p, 34. split; [exact Hp|]. split; [exact Q34|]. destruct Hs as [->|[b [-> Hb]]]; eauto. }
  apply lang_Or in Hs. destruct Hs as [Hs|Hs].
  { apply (short_string_spec _ _ Q39) in Hs. exists p, 39. split; [exact Hp|]. split; [exact Q39|]. destruct Hs as [b [-> Hb]]; eauto. }
  { apply (short_string_spec _ _ Q34) in Hs. exists p, 34. split; [exact Hp|]. split; [exact Q34|]. destruct Hs as [b [-> Hb]]; eauto. }
Qed.

(** A prefix: at most two letters *)
Definition prefix_like (p : text) : Prop := (length p <= 2)%nat /\ Forall (fun c => 65 <= c <= 122) p.
Lemma string_prefix_like p : string_prefix p -> prefix_like p.
Proof.
  unfold string_prefix, letter_of. intros [->|[c [-> Hc]]]; (split; [cbn; lia|]); constructor; [lia|constructor].
Qed.
Lemma bytes_prefix_like p : bytes_prefix p -> prefix_like p.
Proof.
  unfold bytes_prefix, letter_of. intros [b [Hb [->|[r [Hr [->| ->]]]]]]; (split; [cbn; lia|]); repeat (constructor; [lia|]); constructor.
Qed.

Lemma bytes_prefix_like_len p : prefix_like p -> (bytes p <= 2)%nat.
Proof.
  intros [Hl Hp]. enough (bytes p = length p) by lia. clear Hl. induction Hp as [|c p Hc Hp IH]; [reflexivity|]. cbn [bytes length]. rewrite IH.
  unfold utf8_len. destruct (c <? 128) eqn:E; [reflexivity|]. apply N.ltb_ge in E. lia.
Qed.

Lemma contains_cons p c t : contains p (c :: t) = starts_with p (c :: t) || contains p t.
Proof. reflexivity. Qed.
Lemma contains_app p t a : starts_with t a = true -> contains t (p ++ a) = true.
Proof.
  intros H. induction p as [|c p IH].
  - cbn [app]. destruct a as [|x a]; [|rewrite contains_cons, H; reflexivity]. unfold contains. rewrite H. reflexivity.
  - cbn [app]. rewrite contains_cons, IH. apply orb_true_r.
Qed.
Lemma contains_prefix p q t : Forall (fun c => c <> q) p -> contains [q; q; q] (p ++ t) = contains [q; q; q] t.
Proof.
  intros H. induction H as [|c p Hc H IH]; [reflexivity|]. cbn [app]. rewrite contains_cons, IH. cbn [starts_with].
  destruct (N.eqb_spec q c) as [->|_]; [congruence|reflexivity].
Qed.

Lemma short_contains q b : quote q -> short_body q b -> contains [q; q; q] (b ++ [q]) = false /\ starts_with [q; q] (b ++ [q]) = false.
Proof.
  intros Hq H. assert (Hq92 : (q =? 92) = false) by (destruct Hq as [->| ->]; reflexivity).
  assert (Hqn : forall c, newline c -> (q =? c) = false) by (intros c [->| ->]; destruct Hq as [->| ->]; reflexivity).
  induction H as [|c w Hcq Hc92 Hcn H IH|c w Hcn H IH|e w He H IH]; cbn [app].
  - split; [|cbn; rewrite N.eqb_refl; reflexivity]. unfold contains. cbn. rewrite N.eqb_refl. reflexivity.
  - assert (E : (q =? c) = false) by (apply N.eqb_neq; congruence). rewrite contains_cons. cbn [starts_with]. rewrite E. cbn [andb orb]. split; [apply IH|reflexivity].
  - rewrite !contains_cons. cbn [starts_with]. rewrite Hq92. cbn [andb orb]. split; [|reflexivity].
    destruct IH as [IH1 IH2]. cbn [starts_with] in IH2. rewrite IH1, orb_false_r. 
    destruct (q =? c); [|reflexivity]. exact IH2.
  - destruct He as [->|[->| ->]]; cbn [app]; rewrite !contains_cons; cbn [starts_with]; rewrite Hq92, ?(Hqn 10), ?(Hqn 13) by (unfold newline; auto);
      cbn [andb orb]; (split; [apply IH|reflexivity]).
Qed.

Lemma ends_with_last c t d : ends_with c (t ++ [d]) = (c =? d).
Proof. unfold ends_with. rewrite rev_app_distr. reflexivity. Qed.

(** What begins like a string is one, or the quotes that would begin a triple-quoted one. *)
Lemma unterminated_spec p q w : prefix_like p -> quote q ->
  (w = p ++ [q; q; q] \/ (exists b, w = p ++ q :: q :: q :: b ++ [q; q; q] /\ long_body q 0 b) \/ (exists b, w = p ++ q :: b ++ [q] /\ short_body q b)) ->
  if unterminated w then w = p ++ [q; q; q]
  else (exists b, w = p ++ q :: b ++ [q] /\ short_body q b) \/ exists b, w = p ++ q :: q :: q :: b ++ [q; q; q] /\ long_body q 0 b.
Proof.
  intros Hp Hq H. destruct (unterminated w) eqn:E.
  - destruct H as [->|[[b [-> Hb]]|[b [-> Hb]]]]; [reflexivity| |]; exfalso; unfold unterminated in E; apply andb_prop in E; destruct E as [E1 E2].
    + apply Nat.leb_le in E1. rewrite bytes_app in E1. cbn [bytes] in E1. rewrite bytes_app in E1. cbn [bytes] in E1.
      assert (1 <= utf8_len q)%nat by (unfold utf8_len; destruct (q <? 128); [|destruct (q <? 2048); [|destruct (q <? 65536)]]; lia). lia.
    + assert (Hpre : forall x, quote x -> Forall (fun c => c <> x) p).
      { intros x Hx. destruct Hp as [_ Hp]. eapply Forall_impl; [|exact Hp]. cbn. intros c Hc ->. destruct Hx as [->| ->]; lia. }
      assert (C : contains [q; q; q] (p ++ q :: b ++ [q]) = false).
      { rewrite contains_prefix by (apply Hpre; exact Hq). rewrite contains_cons. destruct (short_contains q b Hq Hb) as [C1 C2].
        rewrite C1, orb_false_r. cbn [starts_with]. rewrite N.eqb_refl. exact C2. }
      assert (L : forall x, ends_with x (p ++ q :: b ++ [q]) = (x =? q)).
      { intros x. replace (p ++ q :: b ++ [q]) with ((p ++ q :: b) ++ [q]) by (rewrite <- app_assoc; reflexivity). apply ends_with_last. }
      rewrite !L in E2. destruct Hq as [->| ->]; rewrite C in E2; cbn in E2; rewrite ?andb_false_r in E2; discriminate.
  - destruct H as [->|[H|H]]; [|right; exact H|left; exact H]. exfalso. unfold unterminated in E.
    assert (B : (bytes (p ++ [q; q; q]) <=? 5)%nat = true).
    { apply Nat.leb_le. rewrite bytes_app. pose proof (bytes_prefix_like_len p Hp). destruct Hq as [->| ->]; cbn [bytes]; cbn; lia. }
    rewrite B in E. cbn [andb] in E.
    assert (L : forall x, ends_with x (p ++ [q; q; q]) = (x =? q)).
    { intros x. replace (p ++ [q; q; q]) with ((p ++ [q; q]) ++ [q]) by (rewrite <- app_assoc; reflexivity). apply ends_with_last. }
    rewrite !L in E. assert (C : contains [q; q; q] (p ++ [q; q; q]) = true) by (apply contains_app; cbn; rewrite !N.eqb_refl; reflexivity).
    destruct Hq as [->| ->]; rewrite C in E; cbn in E; [discriminate|rewrite orb_true_r in E; discriminate].
Qed.

Lemma STRING_spec w : lang STRING w -> if unterminated w then only_opened w else literal string_prefix w.
Proof.
  intros H. unfold STRING in H. apply (all_strings_spec _ string_prefix) in H; [|intros p Hp; apply string_prefixes_spec; exact Hp].
  destruct H as [p [q [Hp [Hq H]]]]. pose proof (unterminated_spec p q w (string_prefix_like p Hp) Hq H) as U. destruct (unterminated w).
  - exists p, q. auto.
  - exists p, q. auto.
Qed.
Lemma BYTES_spec w : lang BYTES w -> if unterminated w then only_opened w else literal bytes_prefix w.
Proof.
  intros H. unfold BYTES in H. apply (all_strings_spec _ bytes_prefix) in H; [|intros p Hp; apply bytes_prefixes_spec; exact Hp].
  destruct H as [p [q [Hp [Hq H]]]]. pose proof (unterminated_spec p q w (bytes_prefix_like p Hp) Hq H) as U. destruct (unterminated w).
  - exists p, q. auto.
  - exists p, q. auto.
Qed.
Lemma F_STRING_START_spec w : lang F_STRING_START w -> exists p q, fstring_prefix p /\ quote q /\ (w = p ++ [q] \/ w = p ++ [q; q; q]).
Proof.
  intros H. unfold F_STRING_START in H. apply lang_Cat in H. destruct H as [p [s [-> [Hp Hs]]]]. apply fstring_starts_spec in Hp.
  cbn [or] in Hs. unfold quote.
  assert (S3 : forall q e, lang (lit [q; q; q]) e -> e = [q; q; q]).
  { intros q e He. cbn in He. apply lang_Cat in He. destruct He as [x [y [-> [Hx He]]]]. apply lang_Cat in He. destruct He as [y' [z [-> [Hy Hz]]]].
    apply lang_one in Hx, Hy, Hz. subst. reflexivity. }
  apply lang_Or in Hs. destruct Hs as [Hs|Hs]; [apply S3 in Hs; subst s; exists p, 34; auto|].
  apply lang_Or in Hs. destruct Hs as [Hs|Hs]; [apply S3 in Hs; subst s; exists p, 39; auto|].
  apply lang_Or in Hs. destruct Hs as [Hs|Hs]; apply lang_one in Hs; subst s; [exists p, 39|exists p, 34]; auto.
Qed.

Lemma literal_nonempty prefix : ~ literal prefix [].
Proof. intros [p [q [_ [_ [[b [E _]]|[b [E _]]]]]]]; destruct p; discriminate. Qed.
Lemma number_nonempty : ~ number [].
Proof.
  assert (D : forall p, ~ digits p []) by (intros p H; inversion H).
  assert (F : ~ fraction []) by (intros [a [b [E _]]]; destruct a; discriminate).
  intros [[[H _]|[H|[H|H]]]|[H|H]].
  - exact (D _ H).
  - destruct H as [c [r [_ [_ [E|E]]]]]; discriminate.
  - destruct H as [c [r [_ [_ [E|E]]]]]; discriminate.
  - destruct H as [c [r [_ [_ [E|E]]]]]; discriminate.
  - destruct H as [H|[a [e [E [_ [x [sg [d [_ [_ [_ He]]]]]]]]]]]; [exact (F H)|]. subst e. destruct a; discriminate.
  - destruct H as [a [j [E _]]]. destruct a; discriminate.
Qed.
