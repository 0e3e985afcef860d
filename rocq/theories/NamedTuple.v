(** * Proofs about the fields of named tuples *)
From Coq Require Import NArith List Bool Arith String Decimal DecimalNat Lia.
From Verif Require Import NamedTupleModel NamedTupleSpec.
Import ListNotations.
Open Scope string_scope.
Open Scope list_scope.
Open Scope nat_scope.

Lemma text_eqb_eq : forall a b, text_eqb a b = true <-> a = b.
Proof.
  induction a as [|x a IH]; intros [|y b]; cbn [text_eqb]; try (split; [reflexivity||discriminate|reflexivity||discriminate]).
  rewrite andb_true_iff, N.eqb_eq, IH. split; [intros [-> ->]; reflexivity|intros [= -> ->]; auto].
Qed.
Lemma mem_In : forall t l, mem t l = true <-> In t l.
Proof.
  intros t l. unfold mem. rewrite existsb_exists. split; [intros (x & H & E); apply text_eqb_eq in E; subst x; exact H|intros H; exists t; split; [exact H|apply text_eqb_eq; reflexivity]].
Qed.
Lemma text_dec : forall a b : text, {a = b} + {a <> b}.
Proof. apply list_eq_dec. apply N.eq_dec. Qed.

(** ** Numbers *)
Lemma digits_numeral : forall d, digits d = numeral d.
Proof. induction d as [|d IH|d IH|d IH|d IH|d IH|d IH|d IH|d IH|d IH|d IH]; cbn [digits numeral]; rewrite ?IH; reflexivity. Qed.
Lemma digits_inj : forall a b, digits a = digits b -> a = b.
Proof. induction a as [|d IH|d IH|d IH|d IH|d IH|d IH|d IH|d IH|d IH|d IH]; intros [|b|b|b|b|b|b|b|b|b|b]; cbn [digits]; intros [=]; try reflexivity; f_equal; apply IH; assumption. Qed.
Lemma format_number_inj : forall i j, format_number i = format_number j -> i = j.
Proof. intros i j H. apply digits_inj in H. apply Unsigned.to_uint_inj in H. exact H. Qed.
Lemma digits_range : forall d c, In c (digits d) -> (48 <= c <= 57)%N.
Proof. induction d as [|d IH|d IH|d IH|d IH|d IH|d IH|d IH|d IH|d IH|d IH]; cbn [digits In]; intros c H; [destruct H|..]; (destruct H as [<-|H]; [lia|apply IH; exact H]). Qed.
Lemma place_eq : forall i, 95%N :: format_number i = place i.
Proof. intros i. unfold place, format_number. rewrite digits_numeral. reflexivity. Qed.
Lemma underscore_iff : forall t, starts_with_underscore t = true <-> private t.
Proof.
  intros [|c t]; cbn [starts_with_underscore]; [split; [discriminate|intros [r H]; discriminate H]|]. rewrite N.eqb_eq. split; [intros ->; exists t; reflexivity|intros [r H]; injection H as -> _; reflexivity].
Qed.

(** ** Keywords *)
Definition soft : list text := List.map text_of ["match"; "case"; "type"].
Lemma keywords_iff : forall t, keywords_contain t = true <-> In t kwlist \/ In t soft \/ t = text_of "_".
Proof.
  intros t. unfold keywords_contain. rewrite mem_In. split.
  - intros H. assert (A : forallb (fun x => mem x kwlist || mem x soft || text_eqb x (text_of "_")) grammar_keywords = true) by (vm_compute; reflexivity).
    rewrite forallb_forall in A. specialize (A t H). rewrite !orb_true_iff, !mem_In, text_eqb_eq in A. tauto.
  - assert (A : forallb (fun x => mem x grammar_keywords) (text_of "_" :: kwlist ++ soft) = true) by (vm_compute; reflexivity).
    rewrite forallb_forall in A. intros H. apply mem_In. apply A. cbn [In]. rewrite in_app_iff. destruct H as [H|[H|H]]; auto.
Qed.

Section Chars.
Variables is_alphabetic is_alphanumeric id_start id_continue : N -> bool.
Variable width : N -> nat.
Notation add_one := (add_named_tuple_param is_alphabetic is_alphanumeric).
Notation field_issue := (field_issue is_alphabetic is_alphanumeric).
Notation isidentifier := (isidentifier id_start id_continue).
Notation replaced := (replaced id_start id_continue).
Notation renamed := (renamed id_start id_continue).
Notation accepted := (accepted id_start id_continue).
Notation add_all := (add_all is_alphabetic is_alphanumeric).
Notation add_elements := (add_elements is_alphabetic is_alphanumeric).

(** The classes of Rust and Python are the same for the characters of the name, and it is no soft keyword. *)
Definition plain (name : text) : Prop :=
  (forall c, In c name -> is_alphabetic c = id_start c /\ is_alphanumeric c = id_continue c) /\ ~ In name soft.

Lemma ident_iff : forall n, (forall c, In c n -> is_alphabetic c = id_start c /\ is_alphanumeric c = id_continue c) -> (is_identifier is_alphabetic is_alphanumeric n = true <-> isidentifier n).
Proof.
  intros [|c n] P; cbn [is_identifier]; [split; [discriminate|intros (c & r & H & _); discriminate H]|]. destruct (P c (or_introl eq_refl)) as [Pc _].
  rewrite andb_true_iff, orb_true_iff, forallb_forall, N.eqb_eq, Pc. split.
  - intros [H1 H2]. exists c, n. split; [reflexivity|]. split; [exact H1|]. intros d Hd. specialize (H2 d Hd). rewrite orb_true_iff, N.eqb_eq in H2. destruct (P d (or_intror Hd)) as [_ Pd]. rewrite <- Pd. exact H2.
  - intros (c' & r & E & H1 & H2). injection E as <- <-. split; [exact H1|]. intros d Hd. rewrite orb_true_iff, N.eqb_eq. destruct (P d (or_intror Hd)) as [_ Pd]. rewrite Pd. apply H2. exact Hd.
Qed.

Definition final_names (ps : list param) : list (option text) := List.map p_name ps.
Lemma named_iff : forall n ps, existsb (named n) ps = true <-> In (Some n) (final_names ps).
Proof.
  intros n ps. unfold final_names. rewrite existsb_exists, in_map_iff. split.
  - intros (p & H & E). exists p. split; [|exact H]. unfold named in E. destruct (p_name p) as [m|]; [|discriminate E]. apply text_eqb_eq in E. subst m. reflexivity.
  - intros (p & E & H). exists p. split; [exact H|]. unfold named. rewrite E. apply text_eqb_eq. reflexivity.
Qed.

(** [before] are the names that [ps] was made of. *)
Definition made (before : list text) (ps : list param) : Prop :=
  List.length ps = S (List.length before) /\
  (forall n, In (Some n) (final_names ps) -> In n before \/ private n) /\
  (forall n, In n before -> isidentifier n -> ~ In n kwlist -> ~ private n -> In (Some n) (final_names ps)).

Lemma replaced_iff : forall before ps n, made before ps -> plain n -> (field_issue ps n = None <-> ~ replaced before n).
Proof.
  intros before ps n (_ & M1 & M2) [Pc Ps]. unfold NamedTupleModel.field_issue. pose proof (ident_iff n Pc) as I1. pose proof (underscore_iff n) as U1. pose proof (keywords_iff n) as K1. pose proof (named_iff n ps) as N1.
  assert (X : n = text_of "_" -> private n) by (intros ->; exists []; reflexivity).
  destruct (existsb (named n) ps).
  - split; [discriminate|]. intros H. exfalso. apply H. unfold NamedTupleSpec.replaced. destruct (M1 n (proj1 N1 eq_refl)) as [H1|H1]; auto.
  - assert (Nn : ~ In (Some n) (final_names ps)) by (intros H; apply N1 in H; discriminate H).
    destruct (is_identifier is_alphabetic is_alphanumeric n); cbn [negb].
    + assert (Hi : isidentifier n) by (apply I1; reflexivity). destruct (starts_with_underscore n).
      * split; [discriminate|]. intros H. exfalso. apply H. unfold NamedTupleSpec.replaced. right. right. left. apply U1. reflexivity.
      * assert (Np : ~ private n) by (intros H; apply U1 in H; discriminate H). destruct (keywords_contain n).
        -- split; [discriminate|]. intros H. exfalso. apply H. unfold NamedTupleSpec.replaced. destruct (proj1 K1 eq_refl) as [H1|[H1|H1]]; [auto|contradiction|auto].
        -- split; [|reflexivity]. intros _ [H|[H|[H|H]]]; [exact (H Hi)|assert (Y : false = true) by (apply K1; auto); discriminate Y|exact (Np H)|].
           apply Nn. apply M2; [exact H|exact Hi|intros H1; assert (Y : false = true) by (apply K1; auto); discriminate Y|exact Np].
    + split; [discriminate|]. intros H. exfalso. apply H. left. intros H1. apply I1 in H1. discriminate H1.
Qed.

Lemma made_add : forall rename before ps n t, made before ps -> plain n ->
  exists n', fst (add_one rename ps n t) = ps ++ [mk_param (Some n') t false] /\ made (n :: before) (ps ++ [mk_param (Some n') t false]) /\
    ((replaced before n /\ n' = place (List.length before) /\ (snd (add_one rename ps n t) = [] <-> rename = true)) \/ (~ replaced before n /\ n' = n /\ snd (add_one rename ps n t) = [])).
Proof.
  intros rename before ps n t M P. pose proof (replaced_iff before ps n M P) as R. destruct M as (M0 & M1 & M2).
  assert (FN : forall x, final_names (ps ++ [mk_param (Some x) t false]) = final_names ps ++ [Some x]) by (intros x; unfold final_names; rewrite map_app; reflexivity).
  assert (LN : forall x, List.length (ps ++ [mk_param (Some x) t false]) = S (List.length (n :: before))) by (intros x; rewrite app_length; cbn [List.length]; lia).
  unfold add_named_tuple_param. destruct (field_issue ps n) as [i|] eqn:E; cbn [fst snd].
  - assert (Hr : replaced before n).
    { (* the negation is decided by the issue *)
      destruct P as [Pc Ps]. unfold NamedTupleModel.field_issue in E. pose proof (ident_iff n Pc) as I1. destruct (existsb (named n) ps) eqn:E1.
      - apply named_iff in E1. destruct (M1 n E1) as [H|H]; unfold NamedTupleSpec.replaced; auto.
      - destruct (is_identifier is_alphabetic is_alphanumeric n); cbn [negb] in E.
        + destruct (starts_with_underscore n) eqn:E2; [right; right; left; apply underscore_iff; exact E2|]. destruct (keywords_contain n) eqn:E3; [|discriminate E]. apply keywords_iff in E3. destruct E3 as [H|[H|H]]; [right; left; exact H|contradiction|].
          right. right. left. subst n. exists []. reflexivity.
        + left. intros H. apply I1 in H. discriminate H. }
    exists (95%N :: format_number (List.length ps - 1)). split; [reflexivity|]. split.
    + split; [apply LN|]. rewrite FN. split.
      * intros m H. apply in_app_iff in H. destruct H as [H|[H|[]]]; [destruct (M1 m H) as [H1|H1]; [left; right; exact H1|right; exact H1]|]. injection H as <-. right. eexists. reflexivity.
      * intros m [<-|H] H1 H2 H3; apply in_app_iff; [|left; apply M2; assumption]. destruct Hr as [X|[X|[X|X]]]; try contradiction. left. apply M2; assumption.
    + left. split; [exact Hr|]. split; [rewrite place_eq; f_equal; lia|]. destruct rename; split; try reflexivity; discriminate.
  - assert (Hr : ~ replaced before n) by (apply R; reflexivity). exists n. split; [reflexivity|]. split.
    + split; [apply LN|]. rewrite FN. split.
      * intros m H. apply in_app_iff in H. destruct H as [H|[H|[]]]; [destruct (M1 m H) as [H1|H1]; [left; right; exact H1|right; exact H1]|]. injection H as <-. left. left. reflexivity.
      * intros m [<-|H] H1 H2 H3; apply in_app_iff; [right; left; reflexivity|left; apply M2; assumption].
    + right. auto.
Qed.

(** No name is replaced. *)
Fixpoint fine (before names : list text) : Prop := match names with [] => True | n :: names => ~ replaced before n /\ fine (n :: before) names end.

Definition plainly (f : text * nat) : param := mk_param (Some (fst f)) (snd f) false.
Lemma add_all_spec : forall rename names before ps, made before ps -> Forall plain (List.map fst names) ->
  exists new, fst (add_all rename ps names) = ps ++ List.map plainly new /\ List.map snd new = List.map snd names /\
    renamed (List.length before) before (List.map fst names) (List.map fst new) /\ (snd (add_all rename ps names) = [] <-> rename = true \/ fine before (List.map fst names)).
Proof.
  intros rename names. induction names as [|[n t] names IH]; intros before ps M P; cbn [List.map fst snd] in *.
  - exists []. cbn [List.map NamedTupleModel.add_all fst snd fine]. rewrite app_nil_r. split; [reflexivity|]. split; [reflexivity|]. split; [constructor|tauto].
  - inversion P as [|? ? P1 P2]; subst. destruct (made_add rename before ps n t M P1) as (n' & A1 & A2 & A3). cbn [NamedTupleModel.add_all]. destruct (add_one rename ps n t) as [ps' i] eqn:EA. cbn [fst snd] in A1, A3. subst ps'.
    destruct (IH (n :: before) _ A2 P2) as (new & B1 & B2 & B3 & B4). destruct (add_all rename (ps ++ [mk_param (Some n') t false]) names) as [ps2 j] eqn:EB. cbn [fst snd] in B1, B4 |- *. exists ((n', t) :: new). cbn [List.map fst snd plainly fine]. split; [|split; [|split]].
    + rewrite B1, <- app_assoc. reflexivity.
    + rewrite B2. reflexivity.
    + cbn [List.length] in B3. destruct A3 as [(R & -> & _)|(R & -> & _)]; [apply renamed_place|apply renamed_same]; assumption.
    + assert (Z : i ++ j = [] <-> i = [] /\ j = []) by (split; [apply app_eq_nil|intros [-> ->]; reflexivity]). rewrite Z, B4. destruct A3 as [(R & _ & Hi)|(R & _ & Hi)]; [rewrite Hi|]; tauto.
Qed.
Lemma made_start : made [] start_namedtuple_params.
Proof. split; [reflexivity|]. split; [intros n [H|[]]; discriminate H|intros n []]. Qed.

Lemma fine_renamed : forall names i before r, renamed i before names r -> fine before names -> r = names.
Proof. intros names i before r H. induction H as [|i before n names r R H IH|i before n names r R H IH]; cbn [fine]; intros F; [reflexivity|destruct F as [F _]; contradiction|f_equal; apply IH; apply F]. Qed.
Lemma fine_accepted : forall names before, Forall plain names -> (fine before names <-> (forall n, In n names -> isidentifier n /\ ~ In n kwlist /\ ~ private n /\ ~ In n before) /\ NoDup names).
Proof.
  induction names as [|n names IH]; intros before P; cbn [fine].
  - split; [intros _; split; [intros n []|constructor]|intros _; exact Logic.I].
  - inversion P as [|? ? P1 P2]; subst. rewrite (IH (n :: before) P2). unfold NamedTupleSpec.replaced. split.
    + intros [R [H1 H2]]. assert (Hn : ~ In n names) by (intros H; destruct (H1 n H) as (_ & _ & _ & X); apply X; left; reflexivity). split; [|constructor; assumption].
      intros m [<-|H].
      * split; [|tauto]. pose proof (ident_iff n (proj1 P1)) as I1. destruct (is_identifier is_alphabetic is_alphanumeric n); [apply I1; reflexivity|]. exfalso. apply R. left. intros H. apply I1 in H. discriminate H.
      * destruct (H1 m H) as (X1 & X2 & X3 & X4). repeat split; try assumption. intros H4. apply X4. right. exact H4.
    + intros [H1 H2]. inversion H2 as [|? ? N1 N2]; subst. split.
      * destruct (H1 n (or_introl eq_refl)) as (X1 & X2 & X3 & X4). tauto.
      * split; [|exact N2]. intros m H. destruct (H1 m (or_intror H)) as (X1 & X2 & X3 & X4). repeat split; try assumption. intros [<-|H4]; [contradiction|contradiction].
Qed.
Lemma fine_start : forall names, Forall plain names -> (fine [] names <-> accepted names).
Proof.
  intros names P. rewrite (fine_accepted names [] P). unfold NamedTupleSpec.accepted. split.
  - intros [H1 H2]. split; [|exact H2]. intros n H. destruct (H1 n H) as (X1 & X2 & X3 & _). auto.
  - intros [H1 H2]. split; [|exact H2]. intros n H. destruct (H1 n H) as (X1 & X2 & X3). repeat split; try assumption. intros [].
Qed.
Lemma renamed_length : forall i before names r, renamed i before names r -> List.length r = List.length names.
Proof. intros i before names r H. induction H; cbn [List.length]; congruence. Qed.
Lemma renamed_unique : forall names i before r r', renamed i before names r -> renamed i before names r' -> r = r'.
Proof.
  induction names as [|n names IH]; intros i before r r' H H'; inversion H; inversion H'; subst; try reflexivity; try contradiction; f_equal; eapply IH; eassumption.
Qed.

Lemma add_elements_some : forall rename l ps, add_elements rename ps (List.map Some l) = add_all rename ps (List.map (fun n => (n, 0)) l).
Proof. intros rename l. induction l as [|n l IH]; intros ps; cbn [List.map NamedTupleModel.add_elements NamedTupleModel.add_all]; [reflexivity|]. destruct (add_one rename ps n 0) as [ps' i]. rewrite IH. reflexivity. Qed.
Lemma add_elements_none : forall rename l ps, In None l -> snd (add_elements rename ps l) <> [].
Proof.
  intros rename l. induction l as [|[n|] l IH]; intros ps H; [destruct H|..]; cbn [NamedTupleModel.add_elements].
  - destruct H as [H|H]; [discriminate H|]. destruct (add_one rename ps n 0) as [ps' i]. specialize (IH ps' H). destruct (add_elements rename ps' l) as [ps2 j]. cbn [snd] in *. intros E. apply app_eq_nil in E. apply IH. apply E.
  - destruct (add_elements rename ps l) as [ps2 j]. discriminate.
Qed.

(** ** Strings *)
Section Strings.
Variable space : N -> bool.
Notation breaks := (breaks space).
Notation words := (words space).
Definition nonempty (t : text) : bool := match t with [] => false | _ => true end.
Lemma slices_parts : forall parts start, List.map snd (slices width start parts) = filter nonempty parts.
Proof. induction parts as [|p parts IH]; intros start; cbn [slices filter]; [reflexivity|]. rewrite map_app, IH. destruct p as [|c p]; reflexivity. Qed.

(** Other white space than the blank does not occur. *)
Definition only_blanks (s : text) : Prop := forall c, In c s -> space c = true -> c = 32%N.
Hypothesis blank : space 32%N = true.

Lemma breaks_iff : forall s c, only_blanks s -> In c s -> (N.eqb c 44 || N.eqb c 32 = true <-> breaks c).
Proof.
  intros s c O H. rewrite orb_true_iff, !N.eqb_eq. unfold NamedTupleSpec.breaks. split; [intros [E|E]; [left; exact E|right; subst c; exact blank]|intros [E|E]; [left; exact E|right; exact (O c H E)]].
Qed.
Lemma split_word : forall w, (forall c, In c w -> N.eqb c 44 || N.eqb c 32 = false) -> split w = [w].
Proof. induction w as [|c w IH]; intros H; cbn [split]; [reflexivity|]. rewrite (H c (or_introl eq_refl)), IH by (intros d Hd; apply H; right; exact Hd). reflexivity. Qed.
Lemma split_break : forall w c s, (forall d, In d w -> N.eqb d 44 || N.eqb d 32 = false) -> N.eqb c 44 || N.eqb c 32 = true -> split (w ++ c :: s) = w :: split s.
Proof. induction w as [|d w IH]; intros c s H Hc; cbn [List.app]; cbn [split]; [rewrite Hc; reflexivity|]. rewrite (H d (or_introl eq_refl)), (IH c s) by (exact Hc || (intros e He; apply H; right; exact He)). reflexivity. Qed.

Lemma words_split : forall s l, words s l -> only_blanks s -> filter nonempty (split s) = l.
Proof.
  intros s l W. induction W as [|c s l B W IH|w Hw Hb|w c s l Hw Hb B W IH]; intros O.
  - reflexivity.
  - cbn [split]. rewrite (proj2 (breaks_iff (c :: s) c O (or_introl eq_refl)) B). cbn [filter nonempty]. apply IH. intros d Hd. apply O. right. exact Hd.
  - rewrite split_word; [destruct w; [congruence|reflexivity]|]. intros c Hc. destruct (N.eqb c 44 || N.eqb c 32) eqn:E; [|reflexivity]. apply (breaks_iff w c O Hc) in E. exfalso. exact (Hb c Hc E).
  - rewrite split_break.
    + cbn [filter]. rewrite IH by (intros d Hd; apply O; apply in_or_app; right; right; exact Hd). destruct w; [congruence|reflexivity].
    + intros d Hd. destruct (N.eqb d 44 || N.eqb d 32) eqn:E; [|reflexivity]. apply (breaks_iff (w ++ c :: s) d O) in E; [exfalso; exact (Hb d Hd E)|apply in_or_app; left; exact Hd].
    + apply (breaks_iff (w ++ c :: s) c O); [apply in_or_app; right; left; reflexivity|exact B].
Qed.
Lemma span : forall s, (forall c, In c s -> N.eqb c 44 || N.eqb c 32 = false) \/ exists w c r, s = w ++ c :: r /\ (forall d, In d w -> N.eqb d 44 || N.eqb d 32 = false) /\ N.eqb c 44 || N.eqb c 32 = true.
Proof.
  induction s as [|c s IH]; [left; intros c []|]. destruct (N.eqb c 44 || N.eqb c 32) eqn:E.
  - right. exists [], c, s. split; [reflexivity|]. split; [intros d []|exact E].
  - destruct IH as [H|(w & d & r & -> & H1 & H2)].
    + left. intros d [<-|Hd]; [exact E|apply H; exact Hd].
    + right. exists (c :: w), d, r. split; [reflexivity|]. split; [intros e [<-|He]; [exact E|apply H1; exact He]|exact H2].
Qed.
Lemma split_words : forall n s, List.length s <= n -> only_blanks s -> words s (filter nonempty (split s)).
Proof.
  induction n as [|n IH]; intros s L O.
  - destruct s; [constructor|cbn [List.length] in L; lia].
  - destruct (span s) as [H|(w & c & r & -> & H1 & H2)].
    + rewrite split_word by exact H. destruct s as [|c s]; [constructor|]. cbn [filter nonempty]. apply words_last; [discriminate|]. intros d Hd B. apply (breaks_iff (c :: s) d O Hd) in B. rewrite (H d Hd) in B. discriminate B.
    + rewrite split_break by assumption. assert (B : breaks c) by (apply (breaks_iff (w ++ c :: r) c O); [apply in_or_app; right; left; reflexivity|exact H2]).
      assert (W : words r (filter nonempty (split r))) by (apply IH; [rewrite app_length in L; cbn [List.length] in L; lia|intros d Hd; apply O; apply in_or_app; right; right; exact Hd]).
      destruct w as [|d w]; cbn [filter nonempty]; [apply words_break; assumption|]. change ((d :: w) ++ c :: r) with ((d :: w) ++ c :: r). apply words_word; [discriminate| |exact B|exact W].
      intros e He B'. apply (breaks_iff ((d :: w) ++ c :: r) e O) in B'; [rewrite (H1 e He) in B'; discriminate B'|apply in_or_app; left; exact He].
Qed.
End Strings.

Lemma split_prefix : forall s q rest, split s = q :: rest -> exists post, s = q ++ post.
Proof.
  induction s as [|c s IH]; intros q rest; cbn [split]; [intros [= <- <-]; exists []; reflexivity|]. destruct (N.eqb c 44 || N.eqb c 32); [intros [= <- <-]; exists (c :: s); reflexivity|].
  destruct (split s) as [|p r] eqn:E; intros H; injection H as <- <-; [exists s; reflexivity|]. destruct (IH p r eq_refl) as [post ->]. exists post. reflexivity.
Qed.
Section Width.
Hypothesis width_comma : width 44%N = 1.
Hypothesis width_blank : width 32%N = 1.
Lemma slices_at : forall s start x y p, In (x, y, p) (slices width start (split s)) -> p <> [] /\ exists pre post, s = pre ++ p ++ post /\ x = start + len width pre /\ y = x + len width p.
Proof.
  induction s as [|c s IH]; intros start x y p; cbn [split].
  - intros [].
  - destruct (N.eqb c 44 || N.eqb c 32) eqn:E.
    + cbn [slices List.app]. intros H. destruct (IH _ _ _ _ H) as [H0 (pre & post & -> & -> & ->)]. split; [exact H0|]. exists (c :: pre), post. split; [reflexivity|]. split; [|reflexivity].
      cbn [len fold_right]. fold (len width pre). assert (Wc : width c = 1) by (apply orb_true_iff in E; rewrite !N.eqb_eq in E; destruct E as [->| ->]; assumption). lia.
    + destruct (split s) as [|q r] eqn:Es.
      * destruct s as [|d s]; cbn [split] in Es; [discriminate Es|]. destruct (N.eqb d 44 || N.eqb d 32); [discriminate Es|]. destruct (split s); discriminate Es.
      * cbn [slices]. intros H. apply in_app_iff in H. destruct H as [[H|[]]|H].
        -- injection H as <- <- <-. split; [discriminate|]. destruct (split_prefix s q r Es) as [post ->]. exists [], post. split; [reflexivity|]. split; [cbn [len fold_right]; lia|reflexivity].
        -- assert (H' : In (x, y, p) (slices width (start + width c) (q :: r))).
           { cbn [slices]. apply in_or_app. right. replace (start + width c + len width q + 1) with (start + len width (c :: q) + 1); [exact H|]. cbn [len fold_right]. fold (len width q). lia. }
           destruct (IH _ _ _ _ H') as [H0 (pre & post & -> & -> & ->)]. split; [exact H0|]. exists (c :: pre), post. split; [reflexivity|]. split; [|reflexivity]. cbn [len fold_right]. fold (len width pre). lia.
Qed.

End Width.

(** ** The names are distinct *)
Definition distinct (ps : list param) : Prop :=
  NoDup (final_names ps) /\ (exists r, final_names ps = None :: r) /\ forall n, In (Some n) (final_names ps) -> private n -> exists j, j < List.length ps - 1 /\ n = 95%N :: format_number j.
Lemma distinct_start : distinct start_namedtuple_params.
Proof. split; [constructor; [intros []|constructor]|]. split; [exists []; reflexivity|]. intros n [H|[]]; discriminate H. Qed.
Lemma NoDup_snoc : forall (A : Type) (l : list A) x, NoDup l -> ~ In x l -> NoDup (l ++ [x]).
Proof.
  intros A l x H Nx. induction H as [|y l Hy H IH]; cbn [List.app]; [constructor; [intros []|constructor]|]. constructor; [|apply IH; intros H1; apply Nx; right; exact H1].
  intros H1. apply in_app_iff in H1. destruct H1 as [H1|[->|[]]]; [contradiction|]. apply Nx. left. reflexivity.
Qed.
Lemma distinct_add : forall rename ps n t, distinct ps -> distinct (fst (add_one rename ps n t)).
Proof.
  intros rename ps n t (D1 & [r D2] & D3). assert (L0 : List.length ps = S (List.length r)) by (rewrite <- (map_length p_name ps); unfold final_names in D2; rewrite D2; reflexivity).
  assert (G : forall x, ~ In (Some x) (final_names ps) -> (private x -> x = 95%N :: format_number (List.length ps - 1)) -> distinct (ps ++ [mk_param (Some x) t false])).
  { intros x Nx Px. unfold distinct, final_names. rewrite map_app. cbn [List.map p_name]. fold (final_names ps). split; [apply NoDup_snoc; assumption|]. split; [rewrite D2; cbn [List.app]; eexists; reflexivity|].
    intros m H Pm. rewrite app_length. cbn [List.length]. apply in_app_iff in H. destruct H as [H|[H|[]]].
    - destruct (D3 m H Pm) as (j & Lj & ->). exists j. split; [lia|reflexivity].
    - injection H as <-. exists (List.length ps - 1). split; [lia|apply Px; exact Pm]. }
  unfold add_named_tuple_param. destruct (field_issue ps n) as [i|] eqn:E; cbn [fst]; apply G.
  - intros H. destruct (D3 _ H) as (j & Lj & Ej); [eexists; reflexivity|]. injection Ej as Ej. apply format_number_inj in Ej. lia.
  - reflexivity.
  - unfold NamedTupleModel.field_issue in E. destruct (existsb (named n) ps) eqn:E1; [discriminate E|]. intros H. apply named_iff in H. rewrite H in E1. discriminate E1.
  - intros H. apply underscore_iff in H. unfold NamedTupleModel.field_issue in E. rewrite H in E. destruct (existsb (named n) ps); [discriminate E|]. destruct (negb (is_identifier is_alphabetic is_alphanumeric n)); discriminate E.
Qed.
Lemma distinct_all : forall rename names ps, distinct ps -> distinct (fst (add_all rename ps names)).
Proof.
  intros rename names. induction names as [|[n t] names IH]; intros ps D; cbn [NamedTupleModel.add_all]; [exact D|]. pose proof (distinct_add rename ps n t D) as D1. destruct (add_one rename ps n t) as [ps' i]. cbn [fst] in D1. specialize (IH ps' D1).
  destruct (add_all rename ps' names) as [ps2 j]. exact IH.
Qed.
Lemma distinct_elements : forall rename l ps, distinct ps -> distinct (fst (add_elements rename ps l)).
Proof.
  intros rename l. induction l as [|[n|] l IH]; intros ps D; cbn [NamedTupleModel.add_elements]; [exact D|..].
  - pose proof (distinct_add rename ps n 0 D) as D1. destruct (add_one rename ps n 0) as [ps' i]. cbn [fst] in D1. specialize (IH ps' D1). destruct (add_elements rename ps' l) as [ps2 j]. exact IH.
  - specialize (IH ps D). destruct (add_elements rename ps l) as [ps2 j]. exact IH.
Qed.
Lemma distinct_initializer : forall l ps r, distinct ps -> fst (initializer is_alphabetic is_alphanumeric ps l) = Some r -> distinct r.
Proof.
  induction l as [|[| | | |n t more] l IH]; intros ps r D; cbn [initializer]; try discriminate; [intros [= <-]; exact D|]. pose proof (distinct_add false ps n t D) as D1. destruct (add_one false ps n t) as [ps' i]. cbn [fst] in D1. specialize (IH ps' r D1).
  destruct (initializer is_alphabetic is_alphanumeric ps' l) as [ps2 j]. exact IH.
Qed.
Lemma defaults_names : forall d ps, final_names (fst (apply_defaults d ps)) = final_names ps.
Proof.
  intros [d|] ps; [|reflexivity]. unfold apply_defaults, final_names. cbn [fst]. rewrite map_app, map_map. cbn [set_default p_name]. rewrite <- map_app, firstn_skipn. reflexivity.
Qed.
Lemma distinct_defaults : forall d ps, distinct ps -> distinct (fst (apply_defaults d ps)).
Proof.
  intros d ps D. unfold distinct. assert (L : List.length (fst (apply_defaults d ps)) = List.length ps) by (rewrite <- (map_length p_name ps), <- (map_length p_name (fst _)); f_equal; apply defaults_names). rewrite L, defaults_names. exact D.
Qed.
Lemma distinct_call : forall c name ps, fst (new_collections_named_tuple is_alphabetic is_alphanumeric width c) = Some (name, ps) -> distinct ps.
Proof.
  intros c name ps. unfold new_collections_named_tuple. destruct (check_named_tuple_name c) as [[n|] i1]; [|discriminate]. destruct (read_extra false None (c_extra c)) as [[[rename d]|] i2]; [|discriminate].
  assert (F : forall q, distinct (fst q) -> fst (let (params, i3) := q : list param * list issue in let (params, i4) := apply_defaults d params in (Some (n, params), i1 ++ i2 ++ i3 ++ i4)) = Some (name, ps) -> distinct ps).
  { intros [q i3] D. cbn [fst] in D. pose proof (distinct_defaults d q D) as D1. destruct (apply_defaults d q) as [q' i4]. cbn [fst] in *. intros [= _ <-]. exact D1. }
  destruct (c_fields c) as [| | |l|s| |]; try discriminate; [apply F; apply distinct_elements|apply F; apply distinct_all|apply (F (start_namedtuple_params, [InvalidSecondArgument]))]; apply distinct_start.
Qed.

(** ** Attributes *)
Lemma own_private : forall minor n, own_branch minor n = true -> private n /\ exists c, In c (tl n) /\ ~ (48 <= c <= 57)%N.
Proof.
  intros minor n H. unfold own_branch in H. rewrite !orb_true_iff, !andb_true_iff, mem_In, !text_eqb_eq in H.
  set (all := List.map text_of ["__new__"; "_replace"; "_asdict"; "_make"; "_fields"; "_field_defaults"; "_field_types"; "_source"; "__mul__"; "__rmul__"; "__add__"; "__replace__"; "__match_args__"]).
  assert (I1 : In n all).
  { destruct H as [[H|[_ ->]]|[_ ->]].
    - unfold all. revert H. cbn [List.map In]. tauto.
    - apply mem_In. vm_compute. reflexivity.
    - apply mem_In. vm_compute. reflexivity. }
  assert (A : forallb (fun t => starts_with_underscore t && existsb (fun c => negb ((48 <=? c) && (c <=? 57))%N) (tl t)) all = true) by (vm_compute; reflexivity).
  rewrite forallb_forall in A. specialize (A n I1). apply andb_true_iff in A. destruct A as [A1 A2]. split; [apply underscore_iff; exact A1|]. apply existsb_exists in A2. destruct A2 as (c & Hc & E). exists c. split; [exact Hc|].
  apply negb_true_iff in E. intros [L1 L2]. apply N.leb_le in L1, L2. rewrite L1, L2 in E. discriminate E.
Qed.
Lemma find_distinct : forall ps i p n, NoDup (final_names ps) -> nth_error ps i = Some p -> p_name p = Some n -> find (named n) ps = Some p.
Proof.
  induction ps as [|q ps IH]; intros [|i] p n D H E; cbn [nth_error] in H; try discriminate H; cbn [find].
  - injection H as ->. unfold named. rewrite E, (proj2 (text_eqb_eq n n) eq_refl). reflexivity.
  - cbn [final_names List.map] in D. inversion D as [|? ? D1 D2]; subst. destruct (named n q) eqn:Eq; [|apply (IH i); assumption]. exfalso. apply D1. unfold named in Eq. destruct (p_name q) as [m|]; [|discriminate Eq]. apply text_eqb_eq in Eq. subst m.
    rewrite <- E. apply in_map. apply nth_error_In in H. exact H.
Qed.
Lemma attribute : forall minor ps i p n, distinct ps -> nth_error (params ps) i = Some p -> p_name p = Some n -> lookup_internal minor ps n = FieldType (p_type p).
Proof.
  intros minor ps i p n (D1 & [r D2] & D3) H E. destruct ps as [|p0 ps]; [discriminate D2|]. cbn [params tl] in H. unfold lookup_internal, search_param. cbn [params tl].
  assert (Hn : In (Some n) (final_names (p0 :: ps))) by (cbn [final_names List.map]; right; rewrite <- E; apply in_map; apply nth_error_In in H; exact H).
  destruct (own_branch minor n) eqn:O.
  - exfalso. destruct (own_private minor n O) as (Pn & c & Hc & Nc). destruct (D3 n Hn Pn) as (j & _ & ->). cbn [tl] in Hc. apply Nc. exact (digits_range _ _ Hc).
  - cbn [final_names List.map] in D1. inversion D1 as [|? ? D4 D5]; subst. rewrite (find_distinct ps i p n D5 H E). reflexivity.
Qed.

(** ** Calls *)
Definition gives (space : N -> bool) (f : fields_arg) (names : list text) : Prop :=
  f = Elements (List.map Some names) \/ exists s, f = OneString s /\ only_blanks space s /\ words space s names.
Definition says (extra : list extra_arg) (rename : bool) (d : nat) : Prop :=
  exists r e, ((r = [] /\ rename = false) \/ r = [RenameArg (Some rename)]) /\ ((e = [] /\ d = 0) \/ e = [DefaultsArg (Some d)]) /\ (extra = r ++ e \/ extra = e ++ r).
Definition field_of (f : text * bool) : option text * bool := (Some (fst f), snd f).
Definition shown (p : param) : option text * bool := (p_name p, has_default p).

Lemma says_read : forall extra rename d, says extra rename d -> exists o, read_extra false None extra = (Some (rename, o), []) /\ (o = Some d \/ (o = None /\ d = 0)).
Proof. intros extra rename d (r & e & [[-> ->]| ->] & [[-> ->]| ->] & [->| ->]); cbn [List.app read_extra]; eexists; split; try reflexivity; auto. Qed.

Lemma defaults_shown : forall o d new, (o = Some d \/ (o = None /\ d = 0)) ->
  let ps := start_namedtuple_params ++ List.map plainly new in
  (snd (apply_defaults o ps) = [] <-> d <= List.length new) /\
  (d <= List.length new -> List.map shown (params (fst (apply_defaults o ps))) = List.map field_of (with_defaults (List.map fst new) d)).
Proof.
  intros o d new H ps. assert (L : List.length ps - 1 = List.length new) by (unfold ps; rewrite app_length, map_length; cbn [start_namedtuple_params List.length]; lia).
  assert (Z : forall l : list (text * nat), List.map shown (List.map plainly l) = List.map field_of (combine (List.map fst l) (repeat false (List.length l)))).
  { induction l as [|[n t] l IH]; [reflexivity|]. cbn [List.map List.length repeat combine fst]. rewrite IH. reflexivity. }
  assert (Z1 : forall l : list (text * nat), List.map shown (List.map set_default (List.map plainly l)) = List.map field_of (combine (List.map fst l) (repeat true (List.length l)))).
  { induction l as [|[n t] l IH]; [reflexivity|]. cbn [List.map List.length repeat combine fst]. rewrite IH. reflexivity. }
  assert (CA : forall (a b : list text) (x y : list bool), List.length a = List.length x -> combine (a ++ b) (x ++ y) = combine a x ++ combine b y).
  { induction a as [|u a IH]; intros b [|v x] y E; cbn [List.length] in E; try discriminate E; [reflexivity|]. cbn [List.app combine]. rewrite IH by lia. reflexivity. }
  destruct H as [->|[-> ->]]; unfold apply_defaults.
  - rewrite L. cbn [fst snd]. split.
    + destruct (Nat.ltb_spec (List.length new) d); split; intros; try reflexivity; try lia; discriminate.
    + intros Ld. destruct (Nat.ltb_spec (List.length new) d) as [X|_]; [lia|]. set (k := List.length new - d). unfold ps, start_namedtuple_params. replace (k + 1) with (S k) by lia. cbn [List.app firstn skipn params tl]. rewrite map_app.
      rewrite firstn_map, skipn_map, Z, Z1. unfold with_defaults. rewrite map_length. fold k.
      assert (Lf : List.length (firstn k new) = k) by (rewrite firstn_length; unfold k; lia). assert (Ls : List.length (skipn k new) = d) by (rewrite skipn_length; unfold k; lia). rewrite Lf, Ls, <- map_app. f_equal. rewrite <- CA by (rewrite map_length, repeat_length; exact Lf). rewrite <- map_app, firstn_skipn. reflexivity.
  - cbn [fst snd]. split; [split; [lia|reflexivity]|]. intros _. unfold ps, start_namedtuple_params. cbn [List.app params tl]. rewrite Z. unfold with_defaults. rewrite map_length, Nat.sub_0_r. cbn [repeat]. rewrite app_nil_r. reflexivity.
Qed.

Lemma field_of_inj : forall a b, List.map field_of a = List.map field_of b -> a = b.
Proof. induction a as [|[x y] a IH]; intros [|[u v] b] H; cbn [List.map field_of fst snd] in H; try discriminate H; [reflexivity|]. injection H as -> -> H. f_equal. apply IH. exact H. Qed.

Lemma call_spec : forall space typename assigned f extra names rename d fields, space 32%N = true ->
  typename_ok id_start id_continue typename -> (assigned = None \/ assigned = Some typename) -> gives space f names -> says extra rename d -> Forall plain names ->
  ((exists ps, new_collections_named_tuple is_alphabetic is_alphanumeric width (mk_call (NameString typename) assigned f extra) = (Some (typename, ps), []) /\ List.map shown (params ps) = List.map field_of fields) <->
   makes id_start id_continue typename names rename d fields).
Proof.
  intros space typename assigned f extra names rename d fields Hb Ht Ha Hg Hs Hp. destruct (says_read extra rename d Hs) as (o & Hr & Ho).
  set (pairs := List.map (fun n => (n, 0)) names). assert (Pf : List.map fst pairs = names) by (unfold pairs; rewrite map_map; apply map_id).
  destruct (add_all_spec rename pairs [] start_namedtuple_params made_start) as (new & B1 & B2 & B3 & B4); [rewrite Pf; exact Hp|]. rewrite Pf in B3, B4. cbn [List.length] in B3.
  pose proof (renamed_length _ _ _ _ B3) as Ln. rewrite map_length in Ln. destruct (defaults_shown o d new Ho) as [G1 G2].
  assert (R : new_collections_named_tuple is_alphabetic is_alphanumeric width (mk_call (NameString typename) assigned f extra) =
    (Some (typename, fst (apply_defaults o (start_namedtuple_params ++ List.map plainly new))), snd (add_all rename start_namedtuple_params pairs) ++ snd (apply_defaults o (start_namedtuple_params ++ List.map plainly new)))).
  { unfold new_collections_named_tuple, check_named_tuple_name. cbn [c_name c_assigned c_fields c_extra]. rewrite Hr. assert (T : text_eqb typename typename = true) by (apply text_eqb_eq; reflexivity).
    assert (FA : (let (params, i3) := add_all rename start_namedtuple_params pairs in let (params, i4) := apply_defaults o params in (Some (typename, params), [] ++ [] ++ i3 ++ i4)) =
      (Some (typename, fst (apply_defaults o (start_namedtuple_params ++ List.map plainly new))), snd (add_all rename start_namedtuple_params pairs) ++ snd (apply_defaults o (start_namedtuple_params ++ List.map plainly new)))).
    { rewrite <- B1. destruct (add_all rename start_namedtuple_params pairs) as [q i3]. cbn [fst snd]. destruct (apply_defaults o q) as [q' i4]. reflexivity. }
    destruct Hg as [->|(s & -> & O1 & O2)]; destruct Ha as [->| ->]; cbn [NamedTupleModel.c_assigned]; rewrite ?T.
    - rewrite add_elements_some. exact FA.
    - rewrite add_elements_some. exact FA.
    - unfold string_names. rewrite slices_parts, (words_split space Hb s names O2 O1). exact FA.
    - unfold string_names. rewrite slices_parts, (words_split space Hb s names O2 O1). exact FA. }
  rewrite R. unfold makes. split.
  - intros (ps & E & Hsh). injection E as <- E. apply app_eq_nil in E. destruct E as [E1 E2]. assert (Ld : d <= List.length new) by (apply G1; exact E2). split; [exact Ht|]. split; [lia|]. exists (List.map fst new).
    split; [|apply field_of_inj; rewrite <- Hsh; apply G2; exact Ld]. destruct rename; [exact B3|]. apply B4 in E1. destruct E1 as [E1|E1]; [discriminate E1|]. split; [apply fine_start; assumption|apply (fine_renamed _ _ _ _ B3 E1)].
  - intros (_ & Ld & final & Hf & ->). rewrite <- Ln in Ld. assert (En : List.map fst new = final /\ snd (add_all rename start_namedtuple_params pairs) = []).
    { destruct rename; [split; [eapply renamed_unique; eassumption|apply B4; left; reflexivity]|]. destruct Hf as [Hf ->]. apply fine_start in Hf; [|exact Hp]. split; [apply (fine_renamed _ _ _ _ B3 Hf)|apply B4; right; exact Hf]. }
    destruct En as [<- ->]. eexists. split; [rewrite (proj2 G1 Ld); reflexivity|]. apply G2. exact Ld.
Qed.

(** ** [typing.NamedTuple] *)
Definition element_of (f : text * nat) : element := Field (fst f) (snd f) 0.
Lemma initializer_all : forall l ps, initializer is_alphabetic is_alphanumeric ps (List.map element_of l) = (Some (fst (add_all false ps l)), snd (add_all false ps l)).
Proof.
  induction l as [|[n t] l IH]; intros ps; cbn [List.map element_of fst snd initializer NamedTupleModel.add_all]; [reflexivity|]. destruct (add_one false ps n t) as [ps' i]. rewrite IH. destruct (add_all false ps' l) as [ps2 j]. reflexivity.
Qed.
Lemma typing_spec : forall l, Forall plain (List.map fst l) ->
  exists ps i, compute_named_tuple_initializer is_alphabetic is_alphanumeric (List.map element_of l) = (Some ps, i) /\ as_tuple ps = List.map snd l /\ (i = [] <-> accepted (List.map fst l)) /\
    (i = [] -> List.map p_name (params ps) = List.map Some (List.map fst l)).
Proof.
  intros l P. destruct (add_all_spec false l [] start_namedtuple_params made_start P) as (new & B1 & B2 & B3 & B4). unfold compute_named_tuple_initializer. rewrite initializer_all, B1. eexists. eexists. split; [reflexivity|].
  unfold as_tuple, start_namedtuple_params. cbn [List.app params tl]. split; [rewrite map_map; cbn [plainly p_type]; exact B2|].
  assert (F : snd (add_all false start_namedtuple_params l) = [] -> fine [] (List.map fst l)) by (intros H; apply B4 in H; destruct H as [H|H]; [discriminate H|exact H]).
  split; [split; [intros H; apply fine_start; [exact P|exact (F H)]|intros H; apply B4; right; apply fine_start; assumption]|]. intros H. rewrite <- (fine_renamed _ _ _ _ B3 (F H)). rewrite !map_map. reflexivity.
Qed.
Lemma initializer_none : forall l ps, fst (initializer is_alphabetic is_alphanumeric ps l) = None <-> exists e, In e l /\ (e = NoTuple \/ e = TooShort \/ e = BadName \/ e = StarType).
Proof.
  induction l as [|e l IH]; intros ps; cbn [initializer]; [split; [discriminate|intros (e & [] & _)]|]. destruct e as [| | | |n t more]; cbn [fst]; try (split; [intros _; eexists; split; [left; reflexivity|auto]|reflexivity]).
  destruct (add_one false ps n t) as [ps' i]. specialize (IH ps'). destruct (initializer is_alphabetic is_alphanumeric ps' l) as [r j]. cbn [fst] in *. rewrite IH. split; intros (e & H & E); exists e; (split; [|exact E]); [right; exact H|]. destruct H as [<-|H]; [destruct E as [E|[E|[E|E]]]; discriminate E|exact H].
Qed.
End Chars.
