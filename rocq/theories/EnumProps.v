(** C72: the members of an enum are those that Python makes. *)
From Coq Require Import Ascii String List ListDec Bool NArith Lia PeanoNat.
From Verif Require Import EnumModel EnumSpec Enum EnumRun EnumCall.
Import ListNotations.
Open Scope list_scope.

(** ** The names *)

(** Names with letters: the checker leaves out the names that are no members for Python just when the underscores around the rest have one
    of the forms [x], [x_], [_x], [_x_], [__x__], [__x], [__x_] (and more underscores before). *)
Theorem C72_names : forall cls a b c,
  proper_class cls -> core c -> starts_with (private_prefix cls) (under a ++ c ++ under b) = false ->
  (excluded (under a ++ c ++ under b) = special cls (mangle cls (under a ++ c ++ under b))
   <-> ordinary_form a b \/ special_form a b).
Proof.
  intros cls a b c Hp Hc Hn. rewrite (special_of_form cls a b c Hp Hc Hn), (excluded_of_form a b c Hc).
  unfold ordinary_form, special_form, expected.
  destruct a as [| [| [| a]]], b as [| [| [| b]]]; cbn; split; intro H; try reflexivity; try discriminate; try lia.
Qed.

(** A finding: names of underscores only are members for Python and none for the checker. *)
Theorem C72_underscores_refuted : forall cls k, proper_class cls ->
  excluded (under (S k)) = true /\ special cls (mangle cls (under (S k))) = false.
Proof.
  intros cls k Hp.
  assert (Hn : starts_with (private_prefix cls) (under (S k)) = false).
  { destruct Hp as (x & rest & -> & Hx). unfold private_prefix. cbn [app under starts_with].
    destruct (ascii_dec underscore underscore); [| reflexivity]. destruct k as [| k]; cbn [under]; [reflexivity |].
    destruct (ascii_dec x underscore); [contradiction | reflexivity]. }
  assert (Hat : forall i, is_underscore (at_ (under (S k)) i) = Nat.ltb i (S k)).
  { intro i. destruct (Nat.ltb_spec i (S k)) as [Hi | Hi].
    - rewrite <- (app_nil_r (under (S k))). apply at_inside. exact Hi.
    - unfold at_. rewrite (proj2 (nth_error_None _ _)); [reflexivity | rewrite under_length; exact Hi]. }
  assert (Hend : forall i, is_underscore (at_end (under (S k)) i) = Nat.ltb i (S k)).
  { intro i. unfold at_end. rewrite under_rev. apply Hat. }
  split.
  - rewrite excluded_form, Hat, Hend. reflexivity.
  - assert (Hm : mangle cls (under (S k)) = under (S k)).
    { rewrite (mangle_proper cls _ Hp). unfold mangled. rewrite !Hat, !Hend. destruct k as [| k]; reflexivity. }
    rewrite Hm. unfold special. rewrite (not_private cls _ Hn). unfold is_sunder, is_dunder.
    rewrite !Hat, !Hend, under_length. destruct k as [| [| [| [| k]]]]; reflexivity.
Qed.

(** ** The bodies *)
Section Body.
Variable minor : N.
Variable cls : name.
Variable outside : name -> option object.
Variable body : list statement.
Variable made : list (name * object).
Hypothesis proper : proper_class cls.
Hypothesis tamed : tame minor cls outside body.
Hypothesis ran : python minor cls outside body = Some made.

Notation lookup := (lookup minor body).
Notation members := (members minor body).
Notation found := (gather minor [] body).

Lemma ran_state : exists st, invariant minor cls body st
  /\ made = map (fun n => (n, match get st n with Some o => o | None => Plain 0 end)) (member_names st).
Proof.
  unfold python in ran. destruct (run minor cls outside (mk_state [] [] []) body) as [st |] eqn:E; [| discriminate].
  destruct (mem (text "mro") (member_names st)); [discriminate |]. injection ran as <-. exists st.
  split; [| reflexivity]. apply (run_invariant minor cls outside proper body st tamed E).
Qed.

Lemma made_names : forall n, In n (map fst made) <-> lookup n <> None.
Proof.
  intro n. destruct ran_state as (st & Inv & ->). rewrite map_map. cbn [fst]. rewrite map_id.
  apply (found_in minor cls body st n Inv).
Qed.

Lemma lookup_itself : forall n, In n members <-> lookup n = Some n.
Proof.
  intro n. unfold EnumModel.members, EnumModel.lookup. rewrite members_in. split.
  - apply look_member.
  - intro H. apply look_some in H. destruct H as [H _]. exact H.
Qed.

Lemma lookup_target : forall n m, lookup n = Some m -> lookup m = Some m.
Proof. intros n m H. apply look_some in H. destruct H as [H _]. apply look_member. exact H. Qed.

Lemma made_members : members = filter (itself lookup) (map fst made).
Proof.
  destruct ran_state as (st & Inv & ->). rewrite map_map. cbn [fst]. rewrite map_id.
  rewrite (inv_names minor cls body st Inv). unfold EnumModel.members, members_of.
  assert (H : forall g, (forall x, In x g -> In x found) ->
    flat_map (fun x => match snd x with IsMember => [fst x] | _ => [] end) g
    = filter (itself lookup) (map fst (filter (fun x => is_some (look found (fst x))) g))).
  { induction g as [| [n v] g IH]; intro Hsub; [reflexivity |]. cbn [flat_map filter fst snd].
    rewrite (IH (fun x Hx => Hsub x (or_intror Hx))). clear IH.
    pose proof (Hsub (n, v) (or_introl eq_refl)) as Hin. destruct v as [| t |].
    - rewrite (look_member found n Hin). cbn [is_some map fst filter app].
      assert (E : itself lookup n = true).
      { unfold itself, EnumModel.lookup. rewrite (look_member found n Hin). apply same_refl. }
      rewrite E. reflexivity.
    - destruct (look found n) as [m |] eqn:El; cbn [is_some map fst filter app]; [| reflexivity].
      assert (E : itself lookup n = false).
      { unfold itself, EnumModel.lookup. rewrite El. apply same_false. intros ->. apply look_some in El.
        destruct El as [El _]. pose proof (nodup_same _ _ _ _ (gather_nodup minor body) Hin El). discriminate. }
      rewrite E. reflexivity.
    - destruct (look found n) as [m |] eqn:El; cbn [is_some map fst filter app]; [| reflexivity]. exfalso.
      apply look_some in El. destruct El as [E1 [-> | E2]].
      + pose proof (nodup_same _ _ _ _ (gather_nodup minor body) Hin E1). discriminate.
      + pose proof (nodup_same _ _ _ _ (gather_nodup minor body) Hin E2). discriminate. }
  apply H. intros x Hx. exact Hx.
Qed.

Lemma made_values : forall n m, lookup n = Some m -> exists o, In (n, o) made /\ In (m, o) made.
Proof.
  intros n m H. destruct ran_state as (st & Inv & ->).
  pose proof (inv_values minor cls body st Inv n m H) as Hv.
  assert (Hn : In n (member_names st)) by (apply (found_in minor cls body st n Inv); unfold EnumModel.lookup in H; congruence).
  assert (Hm : In m (member_names st)).
  { apply (found_in minor cls body st m Inv). pose proof (lookup_target n m H) as Ht. unfold EnumModel.lookup in Ht. congruence. }
  exists (match get st n with Some o => o | None => Plain 0 end). split.
  - apply in_map_iff. exists n. split; [reflexivity | exact Hn].
  - apply in_map_iff. exists m. rewrite Hv. split; [reflexivity | exact Hm].
Qed.

Lemma made_once : NoDup (map fst made).
Proof.
  destruct ran_state as (st & Inv & ->). rewrite map_map. cbn [fst]. rewrite map_id.
  rewrite (inv_names minor cls body st Inv). pose proof (gather_nodup minor body) as Hd. revert Hd.
  generalize (fun x : name * verdict => is_some (look found (fst x))). intro f.
  induction found as [| x g IH]; intro Hd; [constructor |]. cbn [map] in Hd. inversion Hd as [| y l Hnin Hd' E]. subst.
  cbn [filter]. destruct (f x); [| apply IH; exact Hd']. cbn [map]. constructor; [| apply IH; exact Hd'].
  intro Hin. apply Hnin. apply in_map_iff in Hin. destruct Hin as (z & <- & Hz). apply filter_In in Hz.
  apply in_map. apply Hz.
Qed.

Lemma filter_split : forall (f : name * verdict -> bool) g l1 x l2, filter f g = l1 ++ x :: l2 ->
  exists g1 g2, g = g1 ++ x :: g2 /\ filter f g1 = l1.
Proof.
  intros f g. induction g as [| y g IH]; intros l1 x l2 H; [destruct l1; discriminate |].
  cbn [filter] in H. destruct (f y) eqn:E.
  - destruct l1 as [| z l1].
    + cbn [app] in H. injection H as -> H. exists [], g. split; reflexivity.
    + cbn [app] in H. injection H as -> H. destruct (IH l1 x l2 H) as (g1 & g2 & -> & H1).
      exists (z :: g1), g2. split; [reflexivity |]. cbn [filter]. rewrite E, H1. reflexivity.
  - destruct (IH l1 x l2 H) as (g1 & g2 & -> & H1). exists (y :: g1), g2. split; [reflexivity |].
    cbn [filter]. rewrite E. exact H1.
Qed.

Lemma map_split : forall A B (f : A -> B) l p y q, map f l = p ++ y :: q ->
  exists l1 x l2, l = l1 ++ x :: l2 /\ map f l1 = p /\ f x = y.
Proof.
  intros A B f l. induction l as [| a l IH]; intros p y q H; [destruct p; discriminate |].
  destruct p as [| b p]; cbn [map app] in H.
  - injection H as H1 H2. exists [], a, l. split; [reflexivity | split; [reflexivity | exact H1]].
  - injection H as H1 H2. destruct (IH p y q H2) as (l1 & x & l2 & -> & H3 & H4).
    exists (a :: l1), x, l2. split; [reflexivity |]. split; [cbn [map]; rewrite H1, H3; reflexivity | exact H4].
Qed.

Lemma made_placed : forall p q k o, made = p ++ (k, o) :: q ->
  exists m, lookup k = Some m /\ lookup m = Some m /\ (m = k \/ In (m, o) p).
Proof.
  intros p q k o E.
  assert (Hk : lookup k <> None).
  { apply made_names. rewrite E, map_app. apply in_or_app. right. left. reflexivity. }
  destruct (lookup k) as [m |] eqn:Hl; [| congruence]. exists m. split; [reflexivity |].
  pose proof (lookup_target k m Hl) as Hm. split; [exact Hm |].
  destruct (look_some _ _ _ Hl) as [Hin [-> | Halias]]; [left; reflexivity | right].
  destruct ran_state as (st & Inv & Emade). rewrite Emade in E.
  apply map_split in E. destruct E as (l1 & k' & l2 & E & Hp & Hko). injection Hko as -> Ho.
  rewrite (inv_names minor cls body st Inv) in E. apply map_split in E. destruct E as (h1 & [k' v] & h2 & E & Hh1 & Ek).
  cbn [fst] in Ek. subst k'. apply filter_split in E. destruct E as (g1 & g2 & E & Hf).
  assert (Hv : v = IsAlias m).
  { apply (nodup_same found k v (IsAlias m) (gather_nodup minor body)); [| exact Halias].
    rewrite E. apply in_or_app. right. left. reflexivity. }
  subst v.
  assert (Hx : excluded m = false).
  { apply (gather_bound minor body m). apply in_map_iff. exists (m, IsMember). split; [reflexivity | exact Hin]. }
  pose proof (gather_order minor body g1 k m g2 E Hx) as Hg1.
  rewrite <- Hp. apply in_map_iff. exists m. split.
  - f_equal. rewrite <- Ho. rewrite (inv_values minor cls body st Inv k m Hl). reflexivity.
  - rewrite <- Hh1, <- Hf. apply in_map_iff in Hg1. destruct Hg1 as ([m' w] & Em & Hg1). cbn [fst] in Em. subst m'.
    apply in_map_iff. exists (m, w). split; [reflexivity |]. apply filter_In. split; [exact Hg1 |]. cbn [fst].
    unfold EnumModel.lookup in Hm. rewrite Hm. reflexivity.
Qed.

(** The names with a member are those Python makes; the members are those of these that stand for themselves, in the order Python makes
    them; the others have the value of their member. *)
Theorem C72_members_partial :
  (forall n, lookup n <> None <-> In n (map fst made))
  /\ members = filter (itself lookup) (map fst made)
  /\ forall n m, lookup n = Some m -> In m members /\ exists o, In (n, o) made /\ In (m, o) made.
Proof.
  split; [intro n; symmetry; apply made_names |]. split; [apply made_members |].
  intros n m H. split; [apply lookup_itself; apply (lookup_target n m H) | apply made_values; exact H].
Qed.

(** If the members differ in their values, iterating the class gives the members and its attributes are those found. *)
Theorem C72_distinct_partial :
  (forall n m o, In n members -> In m members -> In (n, o) made -> In (m, o) made -> n = m) ->
  iterated made = members /\ forall n, attribute made n = lookup n.
Proof.
  intro Hdiff.
  assert (Hd : forall k m o, In (k, o) made -> In (m, o) made -> lookup k = Some k -> lookup m = Some m -> k = m).
  { intros k m o H1 H2 H3 H4. apply (Hdiff k m o); try assumption; apply lookup_itself; assumption. }
  split.
  - rewrite made_members. unfold iterated.
    apply (iterated_from made lookup made_once made_placed Hd made [] []); [reflexivity |].
    intro o. split; intros [].
  - intro n. destruct (lookup n) as [m |] eqn:E.
    + rewrite <- E. apply (attribute_found made lookup made_placed Hd). apply made_names. congruence.
    + apply attribute_missing. intro H. apply made_names in H. congruence.
Qed.

(** The class is taken as one with members just when Python makes some. *)
Theorem C72_closed_partial : closed minor body = true <-> made <> [].
Proof.
  unfold closed. split.
  - destruct members as [| n l] eqn:E; [discriminate |]. intros _ H.
    assert (Hn : In n members) by (rewrite E; left; reflexivity). apply lookup_itself in Hn.
    assert (Hin : In n (map fst made)) by (apply made_names; congruence). rewrite H in Hin. destruct Hin.
  - intro H. assert (Hne : exists n, In n (map fst made)).
    { clear - H. destruct made as [| [n o] l]; [congruence |]. exists n. left. reflexivity. }
    destruct Hne as (n & Hn). apply made_names in Hn.
    destruct (lookup n) as [m |] eqn:Hl; [| congruence]. apply lookup_target, lookup_itself in Hl.
    destruct members; [destruct Hl | reflexivity].
Qed.

(** No member is reported that Python accepts. *)
Lemma reused_accepted : forall n, In n (reused minor body) -> In (Declare n) body.
Proof.
  intros n H. unfold reused in H. apply filter_In in H. destruct H as [Hn Hb]. apply Nat.ltb_lt in Hb.
  destruct ran_state as (st & Inv & _).
  assert (Hl : look found n <> None) by (apply lookup_itself in Hn; unfold EnumModel.lookup in Hn; congruence).
  pose proof (inv_once minor cls body st Inv n Hl) as Ho.
  destruct (found_regular minor cls body st n Inv Hl) as (_ & Hx & _).
  destruct (existsb (fun s => negb (real s) && same (name_of s) n) body) eqn:E.
  - apply existsb_exists in E. destruct E as (s & Hin & Hs). apply andb_true_iff in Hs. destruct Hs as [Hr Hs].
    apply same_iff in Hs. destruct s; try discriminate; cbn [name_of] in Hs.
    + subst. exact Hin.
    + subst n. vm_compute in Hx. discriminate.
  - exfalso. assert (Heq : filter (fun s => real s && same (name_of s) n) body = filter (fun s => same (name_of s) n) body).
    { apply filter_ext_in. intros s Hin. destruct (real s) eqn:Er; [reflexivity |]. cbn [andb].
      destruct (same (name_of s) n) eqn:Es; [| reflexivity]. exfalso.
      assert (Ht : existsb (fun s => negb (real s) && same (name_of s) n) body = true).
      { apply existsb_exists. exists s. split; [exact Hin |]. rewrite Er, Es. reflexivity. }
      congruence. }
    rewrite Heq in Ho. unfold bindings in Hb. lia.
Qed.
End Body.

(** The name of a member that is bound again is one that Python refuses. *)
Theorem C72_reused_partial : forall minor cls outside body n,
  proper_class cls -> tame minor cls outside body ->
  In n (reused minor body) -> ~ In (Declare n) body -> python minor cls outside body = None.
Proof.
  intros minor cls outside body n Hp Ht Hn Hd. destruct (python minor cls outside body) as [made |] eqn:E; [| reflexivity].
  exfalso. apply Hd. apply (reused_accepted minor cls outside body made Hp Ht E n Hn).
Qed.

(** ** Enums made by a call *)

(** The names of the string, each with the place where it is written *)
Theorem C72_slices : forall s n k, In (n, k) (slices 0 (split [] s)) ->
  n <> [] /\ (forall c, In c n -> c <> " "%char /\ c <> ","%char) /\ firstn (List.length n) (skipn k s) = n.
Proof.
  intros s n k H. pose proof (slices_text s [] [] n k H) as Ht. cbn [rev app] in Ht.
  pose proof (split_words s [] eq_refl) as Hw. cbn [rev app] in Hw.
  assert (Hin : In n (split_from [] s)).
  { unfold split_from. rewrite <- (slices_names _ 0). apply in_map_iff. exists (n, k). split; [reflexivity | exact H]. }
  destruct (words_clean _ _ _ n Hw Hin) as [H1 H2]. split; [exact H1 |]. split; [| exact Ht].
  intros c Hcn. rewrite forallb_forall in H2. specialize (H2 c Hcn). split; intros ->; discriminate H2.
Qed.

Lemma functional_words : forall s, words separates s (map fst (slices 0 (split [] s))).
Proof. intro s. rewrite slices_names. apply (split_words s [] eq_refl). Qed.

(** Of a string without other white space than blanks: the members are the words Python takes, and a reused name is reported just when
    Python refuses it. *)
Theorem C72_call_partial : forall minor cls s ws,
  words white s ws -> (forall c, In c s -> white c = true -> c = " "%char \/ c = ","%char) ->
  (forall w, In w ws -> special cls w = false) ->
  (snd (functional s) = [] <-> called minor cls ws <> None)
  /\ (called minor cls ws <> None -> called minor cls ws = Some (fst (functional s))).
Proof.
  intros minor cls s ws Hw Hb Hsp.
  assert (Hc : forall c, In c s -> white c = separates c).
  { intros c Hin. destruct (white c) eqn:Hwc; [destruct (Hb c Hin Hwc) as [-> | ->]; reflexivity |].
    unfold separates. destruct (ascii_dec c ","%char) as [-> |]; [discriminate Hwc |]. destruct (ascii_dec c " "%char) as [-> |]; [discriminate Hwc | reflexivity]. }
  assert (Ews : map fst (slices 0 (split [] s)) = ws).
  { apply (words_unique separates s _ (functional_words s)). apply (words_same white separates s ws Hc Hw). }
  unfold functional. rewrite Ews. unfold called.
  destruct (set_all_spec minor cls ws 1 (mk_state [] [] []) Hsp eq_refl (NoDup_nil _)) as [Hyes Hno].
  { intros n H. exfalso. apply H. reflexivity. }
  cbn [member_names app] in Hyes, Hno.
  destruct (ListDec.NoDup_dec name_dec ws) as [Hd | Hd].
  - destruct (Hyes Hd) as (st & -> & Hm). rewrite (add_members_fresh ws [] Hd). cbn [option_map fst snd app].
    split; [split; [discriminate | reflexivity] |]. intros _. rewrite Hm. reflexivity.
  - rewrite (Hno Hd). cbn [option_map].
    split; [split; [| congruence] | congruence].
    intro H. exfalso. apply (add_members_again ws [] (NoDup_nil _) Hd H).
Qed.

(** ** The hypotheses can be met *)
Definition nowhere : name -> option object := fun _ => None.
Definition E : name := text "E".
Definition value (n : string) (v : N) : statement := Assign (text n) (Other (Plain v)).
Definition copy (n m : string) : statement := Assign (text n) (Name (text m)).

Lemma regular_by : forall cls a b x rest y rest',
  x :: rest = rest' ++ [y] -> x <> underscore -> y <> underscore -> ordinary_form a b \/ special_form a b ->
  starts_with (private_prefix cls) (under a ++ (x :: rest) ++ under b) = false -> regular cls (under a ++ (x :: rest) ++ under b).
Proof.
  intros cls a b x rest y rest' Hy Hx Hyu Hf Hp. split; [| exact Hp]. exists a, b, (x :: rest). split; [reflexivity |].
  split; [| exact Hf]. split; [exists x, rest; split; [reflexivity | exact Hx] | exists y, rest'; split; [exact Hy | exact Hyu]].
Qed.

Lemma proper_E : proper_class E.
Proof. exists "E"%char, []. split; [reflexivity | discriminate]. Qed.

Definition example : list statement :=
  [value "A" 1; copy "B" "A"; Function (text "f") [] 2; value "__secret" 3; Function (text "__init__") [] 4;
   Function (text "g") [Known Member] 5; Assign (text "h") (Call Nonmember (Other (Plain 6))); Declare (text "t");
   Class (text "C") [] 7; copy "k" "f"; value "_D" 8].

Lemma example_tame : tame 12 E nowhere example.
Proof.
  assert (Hreg : forall s n, In s example -> In n (names s) -> regular E n).
  { intros s n Hs Hn. unfold example in Hs.
    repeat (destruct Hs as [<- | Hs]; [cbn [names name_of names_in value copy] in Hn;
      repeat (destruct Hn as [<- | Hn];
        [ first [ apply (regular_by E 0 0 "A"%char [] "A"%char [])
                | apply (regular_by E 0 0 "B"%char [] "B"%char [])
                | apply (regular_by E 0 0 "f"%char [] "f"%char [])
                | apply (regular_by E 2 0 "s"%char (text "ecret") "t"%char (text "secre"))
                | apply (regular_by E 2 2 "i"%char (text "nit") "t"%char (text "ini"))
                | apply (regular_by E 0 0 "g"%char [] "g"%char [])
                | apply (regular_by E 0 0 "h"%char [] "h"%char [])
                | apply (regular_by E 0 0 "t"%char [] "t"%char [])
                | apply (regular_by E 0 0 "C"%char [] "C"%char [])
                | apply (regular_by E 0 0 "k"%char [] "k"%char [])
                | apply (regular_by E 1 0 "D"%char [] "D"%char []) ];
          try reflexivity; try discriminate; unfold ordinary_form, special_form; lia |]); destruct Hn |]).
    destruct Hs. }
  split; [| split].
  - intros ns H. unfold example in H. repeat (destruct H as [H | H]; [discriminate |]). exact H.
  - exact Hreg.
  - intros earlier s later Heq Hsp. unfold example in Heq.
    repeat (destruct earlier as [| x earlier]; [injection Heq as <- _ | injection Heq as <- Heq]);
      try (destruct earlier; discriminate);
      try (vm_compute in Hsp; discriminate);
      cbn [tame_statement name_of value copy].
    all: split; [try exact Logic.I; intro H; repeat (destruct H as [H | H]; [discriminate |]); destruct H |].
    all: try (exact Logic.I); cbn [tame_value tame_function tame_class descriptor_decorators]; try (exact Logic.I); try lia.
    all: split; [| intro H; exfalso;
      first [ apply (H (value "A" 1)); [left; reflexivity | reflexivity]
            | apply (H (Function (text "f") [] 2)); [do 2 right; left; reflexivity | reflexivity] ]].
    all: intros s Hs Hn; split; [| reflexivity].
    all: repeat (destruct Hs as [<- | Hs]; [try exact Logic.I; try (vm_compute in Hn; discriminate) |]); destruct Hs.
Qed.

Definition example_made : list (name * object) :=
  [(text "A", Plain 1); (text "B", Plain 1); (text "g", Descriptor 5); (text "C", Nested 7); (text "_D", Plain 8)].

Example C72_members_case :
  tame 12 E nowhere example /\ python 12 E nowhere example = Some example_made
  /\ members 12 example = [text "A"; text "g"; text "C"; text "_D"]
  /\ lookup 12 example (text "B") = Some (text "A") /\ iterated example_made = members 12 example
  /\ closed 12 example = true.
Proof. split; [exact example_tame |]. vm_compute. repeat split. Qed.

Example C72_distinct_case :
  forall n m o, In n (members 12 example) -> In m (members 12 example) -> In (n, o) example_made -> In (m, o) example_made -> n = m.
Proof.
  intros n m o Hn Hm H1 H2. unfold example_made in *. cbn [In] in H1, H2.
  repeat (destruct H1 as [H1 | H1]; [injection H1 as <- <- |]); try destruct H1;
  repeat (destruct H2 as [H2 | H2]; [first [discriminate | injection H2 as <- ] |]); try destruct H2; try reflexivity;
  exfalso; clear - Hn Hm; vm_compute in Hn, Hm;
  repeat (destruct Hn as [Hn | Hn]; [first [discriminate | clear Hn] |]); try destruct Hn;
  repeat (destruct Hm as [Hm | Hm]; [discriminate |]); try destruct Hm.
Qed.

Example C72_names_case :
  excluded (text "__x") = special E (mangle E (text "__x")) /\ excluded (text "x__") = special E (mangle E (text "x__"))
  /\ excluded (text "_x__") <> special E (mangle E (text "_x__")) /\ excluded (text "___x___") <> special E (mangle E (text "___x___")).
Proof. repeat split; vm_compute; discriminate. Qed.

Example C72_reused_case :
  tame 12 E nowhere [value "A" 1; value "A" 2] /\ reused 12 [value "A" 1; value "A" 2] = [text "A"]
  /\ ~ In (Declare (text "A")) [value "A" 1; value "A" 2] /\ python 12 E nowhere [value "A" 1; value "A" 2] = None.
Proof.
  split; [| split; [reflexivity | split; [| reflexivity]]].
  - assert (HA : regular E (text "A")).
    { apply (regular_by E 0 0 "A"%char [] "A"%char []); try reflexivity; try discriminate. left. left. reflexivity. }
    split; [| split].
    + intros ns [H | [H | []]]; discriminate.
    + intros s n [<- | [<- | []]] [<- | []]; exact HA.
    + intros [| x [| y earlier]] s later Heq Hsp.
      * injection Heq as <- _. split; [intros [] | exact Logic.I].
      * injection Heq as <- <- _. split; [intros [H | []]; discriminate | exact Logic.I].
      * destruct earlier; discriminate.
  - intros [H | [H | []]]; discriminate.
Qed.

Example C72_call_case :
  words white (text "RED, GREEN") [text "RED"; text "GREEN"]
  /\ called 12 E [text "RED"; text "GREEN"] = Some [text "RED"; text "GREEN"]
  /\ functional (text "RED, GREEN") = ([text "RED"; text "GREEN"], [])
  /\ functional (text "A B A") = ([text "A"; text "B"], [text "A"])
  /\ slices 0 (split [] (text "RED, GREEN")) = [(text "RED", 0%nat); (text "GREEN", 5%nat)].
Proof.
  split; [| vm_compute; repeat split].
  apply (Words_word white [] (text "RED") (text ", GREEN")); try reflexivity; try discriminate.
  apply (Words_word white (text ", ") (text "GREEN") []); try reflexivity; try discriminate.
  apply Words_end. reflexivity.
Qed.

(** ** Findings *)

(** Since 3.13 a class of the body is no member. *)
Theorem C72_nested_refuted :
  python 13 E nowhere [Class (text "Inner") [] 0; value "A" 1] = Some [(text "A", Plain 1)]
  /\ members 13 [Class (text "Inner") [] 0; value "A" 1] = [text "Inner"; text "A"].
Proof. vm_compute. repeat split. Qed.

(** An alias of an alias, of a private name or of what nonmember gives is an alias or a member for Python and nothing for the checker. *)
Theorem C72_alias_refuted :
  python 12 E nowhere [value "A" 1; copy "B" "A"; copy "C" "B"] = Some [(text "A", Plain 1); (text "B", Plain 1); (text "C", Plain 1)]
  /\ lookup 12 [value "A" 1; copy "B" "A"; copy "C" "B"] (text "C") = None
  /\ python 12 E nowhere [value "__x" 1; copy "B" "__x"] = Some [(text "B", Plain 1)]
  /\ closed 12 [value "__x" 1; copy "B" "__x"] = false
  /\ python 12 E nowhere [Assign (text "A") (Call Nonmember (Other (Plain 1))); copy "B" "A"] = Some [(text "B", Plain 1)]
  /\ lookup 12 [Assign (text "A") (Call Nonmember (Other (Plain 1))); copy "B" "A"] (text "B") = None.
Proof. vm_compute. repeat split. Qed.

(** What is a descriptor without being written as one is no member for Python: a function of the module, a call of property. *)
Theorem C72_descriptor_refuted :
  python 12 E (fun _ => Some (Descriptor 0)) [value "A" 1; copy "f" "helper"] = Some [(text "A", Plain 1)]
  /\ members 12 [value "A" 1; copy "f" "helper"] = [text "A"; text "f"]
  /\ python 12 E nowhere [Assign (text "p") (Other (Descriptor 0))] = Some [] /\ closed 12 [Assign (text "p") (Other (Descriptor 0))] = true.
Proof. vm_compute. repeat split. Qed.

(** A name that is declared and then assigned is a member for Python. *)
Theorem C72_declared_refuted :
  python 12 E nowhere [Declare (text "A"); value "A" 1] = Some [(text "A", Plain 1)]
  /\ members 12 [Declare (text "A"); value "A" 1] = [].
Proof. vm_compute. repeat split. Qed.

(** Members with equal values are one for Python. *)
Theorem C72_equal_values_refuted :
  python 12 E nowhere [value "A" 1; value "B" 1] = Some [(text "A", Plain 1); (text "B", Plain 1)]
  /\ iterated [(text "A", Plain 1); (text "B", Plain 1)] = [text "A"]
  /\ members 12 [value "A" 1; value "B" 1] = [text "A"; text "B"]
  /\ attribute [(text "A", Plain 1); (text "B", Plain 1)] (text "B") = Some (text "A")
  /\ lookup 12 [value "A" 1; value "B" 1] (text "B") = Some (text "B").
Proof. vm_compute. repeat split. Qed.

(** The names of _ignore_ are members for the checker. *)
Theorem C72_ignored_refuted :
  python 12 E nowhere [Ignore [text "i"]; value "i" 0; value "A" 1] = Some [(text "A", Plain 1)]
  /\ members 12 [Ignore [text "i"]; value "i" 0; value "A" 1] = [text "i"; text "A"].
Proof. vm_compute. repeat split. Qed.

(** A reused name is reported for a declaration Python accepts, and not for an assignment behind a method, which it refuses. *)
Theorem C72_reused_refuted :
  python 12 E nowhere [value "A" 1; Declare (text "A")] = Some [(text "A", Plain 1)]
  /\ reused 12 [value "A" 1; Declare (text "A")] = [text "A"]
  /\ python 12 E nowhere [Function (text "f") [] 0; value "f" 1] = None
  /\ reused 12 [Function (text "f") [] 0; value "f" 1] = [].
Proof. vm_compute. repeat split. Qed.

(** Before 3.11 a call of staticmethod makes a member for the checker and none for Python. *)
Theorem C72_before_refuted :
  python 10 E nowhere [Assign (text "f") (Call Builtin (Lambda 0))] = Some []
  /\ members 10 [Assign (text "f") (Call Builtin (Lambda 0))] = [text "f"].
Proof. vm_compute. repeat split. Qed.

(** A private name written out and the private names of a class whose name begins with an underscore *)
Theorem C72_private_refuted :
  python 12 E nowhere [value "_E__x" 1] = Some [] /\ members 12 [value "_E__x" 1] = [text "_E__x"]
  /\ python 12 (text "_E") nowhere [value "__x" 1] = Some [(text "_E__x", Plain 1)] /\ members 12 [value "__x" 1] = [].
Proof. vm_compute. repeat split. Qed.

(** The checker takes a tab for a part of a name and a name like __B__ for a member. *)
Definition tab : name := [ascii_of_N 9].
Theorem C72_call_refuted :
  words white (text "A" ++ tab ++ text "B") [text "A"; text "B"]
  /\ functional (text "A" ++ tab ++ text "B") = ([text "A" ++ tab ++ text "B"], [])
  /\ called 12 E [text "A"; text "__B__"] = Some [text "A"]
  /\ functional (text "A __B__") = ([text "A"; text "__B__"], []).
Proof.
  split; [| vm_compute; repeat split].
  apply (Words_word white [] (text "A") (tab ++ text "B")); try reflexivity; try discriminate.
  apply (Words_word white tab (text "B") []); try reflexivity; try discriminate.
  apply Words_end. reflexivity.
Qed.

Print Assumptions C72_names.
Print Assumptions C72_underscores_refuted.
Print Assumptions C72_members_partial.
Print Assumptions C72_distinct_partial.
Print Assumptions C72_closed_partial.
Print Assumptions C72_reused_partial.
Print Assumptions C72_slices.
Print Assumptions C72_call_partial.
Print Assumptions C72_nested_refuted.
Print Assumptions C72_alias_refuted.
Print Assumptions C72_descriptor_refuted.
Print Assumptions C72_declared_refuted.
Print Assumptions C72_equal_values_refuted.
Print Assumptions C72_ignored_refuted.
Print Assumptions C72_reused_refuted.
Print Assumptions C72_before_refuted.
Print Assumptions C72_private_refuted.
Print Assumptions C72_call_refuted.
