(** C27 and C28: the value of string and bytes literals. *)
From Coq Require Import List NArith Arith Lia Bool Ascii String.
From Verif Require Import TextModel LiteralModel LiteralSpec LiteralProofs.
Import ListNotations.
Open Scope string_scope.
Open Scope list_scope.
Open Scope N_scope.

Definition txt (s : string) : text := map N_of_ascii (list_ascii_of_string s).

(** C27: adjacent literals have the concatenation of the values that the language reference gives them, as long as no value has a lone
    surrogate.  Missing: [\N{...}] has no value in [string_value]; f-strings. *)
Theorem C27_value_partial : forall (literals : list (nat * text)) vs,
  literals <> [] -> Forall2 (fun l v => python_value (snd l) v) literals vs -> Forall (Forall is_scalar) vs ->
  exists s, new (map Some literals) = Ok s /\ as_str s = Some (List.concat vs).
Proof. exact strings_right. Qed.

(** A literal whose content has neither backslashes nor carriage returns denotes its text, and no copy is made. *)
Theorem C27_plain : forall start q content, q = 39 \/ q = 34 -> ~ In q content -> ~ In 92 content -> ~ In 13 content -> Forall is_scalar content ->
  new [Some (start, q :: content ++ [q])] = Ok (Ref (start + 1) content).
Proof.
  intros start q content Hq Nq Nb Nr Sc. cbn [new from_literal new_loop].
  assert (E : unpack_string_or_bytes_content (q :: content ++ [q]) = Ok (content, 1%nat, false)).
  { assert (Hl : literal_code ([] ++ q :: content ++ [q]) (existsb (fun b => b) []) content).
    { constructor; [constructor|exact Hq|]. intros c r -> ->. apply Nq. left. reflexivity. }
    destruct (unpack_right _ _ _ Hl) as (off & E). cbn [app existsb] in E. rewrite E. assert (off = 1%nat); [|congruence].
    unfold unpack_string_or_bytes_content in E. rewrite as_bytes_cons, (utf8_ascii q) in E by lia. cbn [app unpack_loop] in E.
    replace ((q =? 114) || (q =? 82)) with false in E by (symmetry; apply orb_false_iff; rewrite !N.eqb_neq; lia).
    replace ((q =? 39) || (q =? 34)) with true in E by (symmetry; apply orb_true_iff; rewrite !N.eqb_eq; exact Hq).
    destruct content as [|c content]; [destruct Hq as [-> | ->]; cbn in E; congruence|].
    cbn [app] in E. rewrite as_bytes_cons, as_bytes_app in E. destruct (utf8_nonempty c) as (b & bs & Eu). rewrite Eu in E. cbn [app] in E.
    assert (Nbq : (b =? q) = false).
    { apply N.eqb_neq. destruct (utf8_head _ _ _ Eu) as [(_ & -> & _)|(_ & Hb)]; [intros ->; apply Nq; left; reflexivity|lia]. }
    destruct (bs ++ as_bytes content ++ as_bytes [q]) as [|third l] eqn:El.
    - destruct bs; [|discriminate El]. destruct (as_bytes content); [|discriminate El]. destruct Hq as [-> | ->]; discriminate El.
    - rewrite Nbq in E. cbn [andb] in E. rewrite ?andb_false_r in E. destruct (_ <? _)%nat in E; [discriminate E|].
      destruct (slice _ _ _) in E; [|discriminate E]. cbn in E. congruence. }
  rewrite E. cbn [bind]. assert (V : string_value (universal_newlines content) content).
  { assert (U : universal_newlines content = content).
    { clear - Nr. induction content as [|c r IH]; [reflexivity|]. rewrite un_other, IH; [reflexivity|intros H; apply Nr; right; exact H|intros ->; apply Nr; left; reflexivity]. }
    rewrite U. clear - Nb. induction content as [|c r IH]; [constructor|]. constructor; [intros ->; apply Nb; left; reflexivity|]. apply IH. intros H. apply Nb. right. exact H. }
  destruct (content_right (start + 1) content content V Sc) as (s & Es & [-> | [-> _]]); [|rewrite Es; reflexivity].
  unfold from_content in *.
  assert (L : forall fuel todo p, ~ In 92 todo -> ~ In 13 todo -> from_literal_loop fuel content (as_bytes todo) None p = Err \/ from_literal_loop fuel content (as_bytes todo) None p = Ok (None, p)); [|].
  { clear. intros fuel todo p H1 H2. assert (G : Forall (fun b => b <> 92 /\ b <> 13) (as_bytes todo)).
    { apply Forall_forall. intros b Hb. apply in_flat_map in Hb. destruct Hb as (c & Hc & Hb). destruct (N.lt_ge_cases c 128) as [Lc|Lc].
      - rewrite (utf8_ascii c Lc) in Hb. destruct Hb as [<-|[]]. split; intros ->; [apply H1|apply H2]; exact Hc.
      - pose proof (utf8_high c Lc) as F. rewrite Forall_forall in F. specialize (F b Hb). lia. }
    revert G. generalize (as_bytes todo). clear. induction fuel as [|fuel IH]; intros l G; destruct l as [|b l]; cbn [from_literal_loop]; auto.
    inversion G as [|? ? [G1 G2] G3]; subst. apply N.eqb_neq in G1, G2. rewrite G1, G2. apply IH. exact G3. }
  destruct (L (bytes content) content 0%nat Nb Nr) as [Q|Q]; rewrite Q in Es |- *; cbn [bind] in Es |- *; [discriminate Es|reflexivity].
Qed.

(** Three adjacent literals: a raw one; one with hexadecimal and octal escapes, an unknown escape and a backslash before <CR><LF>; one with
    three quotes and a line end. *)
Definition ex_literals : list (nat * text) :=
  [(0%nat, [114; 34; 92; 100; 34]);
   (6%nat, [39; 233] ++ txt "\x41\u00e9\" ++ [13; 10] ++ txt "\101\q'");
   (30%nat, [34; 34; 34; 97; 13; 10; 34; 98; 34; 34; 34])].
Definition ex_values : list text := [txt "\d"; [233; 65; 233; 65; 92; 113]; [97; 10; 34; 98]].
Ltac octal_end := right; let c := fresh in let r := fresh in let H := fresh in intros c r H; injection H as <- _; unfold octal_digit; lia.
Example literal_example :
  Forall2 (fun l v => python_value (snd l) v) ex_literals ex_values /\ Forall (Forall is_scalar) ex_values /\
  (exists s, new (map Some ex_literals) = Ok s /\ as_str s = Some (List.concat ex_values)).
Proof.
  assert (H : Forall2 (fun l v => python_value (snd l) v) ex_literals ex_values).
  { constructor; [|constructor; [|constructor; [|constructor]]].
    - exists true, [92; 100]. split; [|reflexivity]. apply (one_quote [114] [true] 34 [92; 100]); [|right; reflexivity|intros c r [= <- _]; discriminate].
      constructor; [|constructor]. apply prefix_raw. left. reflexivity.
    - exists false, (233 :: txt "\x41\u00e9\" ++ [13; 10] ++ txt "\101\q"). split.
      + apply (one_quote [] [] 39 (233 :: txt "\x41\u00e9\" ++ [13; 10] ++ txt "\101\q")); [constructor|left; reflexivity|intros c r [= <- _]; discriminate].
      + assert (U : universal_newlines (233 :: txt "\x41\u00e9\" ++ [13; 10] ++ txt "\101\q") = [233; 92; 120; 52; 49; 92; 117; 48; 48; 101; 57; 92; 10; 92; 49; 48; 49; 92; 113]) by (vm_compute; reflexivity). rewrite U.
        apply sv_char; [discriminate|].
        apply (sv_hex 120 2 [52; 49] [52 - 48; 49 - 48]); [constructor|reflexivity|repeat (constructor; [constructor; lia|]); constructor|vm_compute; reflexivity|].
        apply (sv_hex 117 4 [48; 48; 101; 57] [48 - 48; 48 - 48; 101 - 87; 57 - 48]); [constructor|reflexivity| |vm_compute; reflexivity|].
        { constructor; [apply hex_09; lia|]. constructor; [apply hex_09; lia|]. constructor; [apply hex_af; lia|]. constructor; [apply hex_09; lia|constructor]. }
        apply sv_line_end.
        apply (sv_octal [49; 48; 49]); [repeat (constructor; [unfold octal_digit; lia|]); constructor|cbn; lia|left; reflexivity|].
        apply sv_other; [discriminate|intros e H; inversion H|intros n H; inversion H|unfold octal_digit; lia|discriminate|constructor].
    - exists false, [97; 13; 10; 34; 98]. split.
      + apply (three_quotes [] [] 34 [97; 13; 10; 34; 98]); [constructor|right; reflexivity].
      + change (universal_newlines [97; 13; 10; 34; 98]) with [97; 10; 34; 98]. repeat (apply sv_char; [discriminate|]). constructor. }
  assert (F : Forall (Forall is_scalar) ex_values) by (repeat constructor).
  refine (conj H (conj F _)). apply C27_value_partial; [discriminate|exact H|exact F].
Qed.

(** What C27 does not say, and what does not hold.  [\x] in front of a character of two bytes: the program panics. *)
Theorem C27_no_panic_refuted : exists code, new [Some (0%nat, code)] = Panic.
Proof. exists ([39] ++ txt "\x" ++ [233; 39]). vm_compute. reflexivity. Qed.
(** A lone surrogate is dropped: ['\ud800'] is the empty string. *)
Theorem C27_surrogate_refuted : exists code v,
  python_value code v /\ v = [55296] /\ exists s, new [Some (0%nat, code)] = Ok s /\ as_str s = Some [].
Proof.
  exists (txt "'\ud800'"), [55296]. refine (conj _ (conj eq_refl _)).
  - exists false, (txt "\ud800"). split; [apply (one_quote [] [] 39 (txt "\ud800")); [constructor|left; reflexivity|intros c r [= <- _]; discriminate]|].
    apply (sv_hex 117 4 [100; 56; 48; 48] [100 - 87; 56 - 48; 48 - 48; 48 - 48]); [constructor|reflexivity| |vm_compute; reflexivity|constructor].
    constructor; [apply hex_af; lia|]. repeat (constructor; [apply hex_09; lia|]). constructor.
  - eexists. split; [vm_compute; reflexivity|reflexivity].
Qed.
(** ['\N{DIGIT ONE}'] is ['1'] in Python; here it has 13 characters. *)
Example named_character_kept : exists s, new [Some (0%nat, txt "'\N{DIGIT ONE}'")] = Ok s /\ as_str s = Some (txt "\N{DIGIT ONE}").
Proof. eexists. split; [vm_compute; reflexivity|reflexivity]. Qed.

(** C28 for literals without carriage returns; a bytes literal that Python accepts is ASCII. *)
Theorem C28_value_partial : forall code v, Forall (fun c => c < 128) code -> ~ In 13 code -> python_bytes_value code v -> parse_python_bytes_literal code = Ok v.
Proof. exact bytes_right. Qed.

Definition ex_bytes := txt "b'a\x4f\0\777\Q'".
Example bytes_example : Forall (fun c => c < 128) ex_bytes /\ ~ In 13 ex_bytes /\ python_bytes_value ex_bytes [97; 79; 0; 255; 92; 81] /\
  parse_python_bytes_literal ex_bytes = Ok [97; 79; 0; 255; 92; 81].
Proof.
  refine (conj _ (conj _ (conj _ _))); [repeat constructor| | |vm_compute; reflexivity].
  - intros H. assert (E : existsb (N.eqb 13) ex_bytes = true) by (apply existsb_exists; exists 13; split; [exact H|reflexivity]). vm_compute in E. discriminate E.
  - exists false, (txt "a\x4f\0\777\Q"). split; [apply (one_quote [98] [false] 39 (txt "a\x4f\0\777\Q")); [constructor; [apply prefix_other; lia|constructor]|left; reflexivity|intros c r [= <- _]; discriminate]|].
    assert (U : universal_newlines (txt "a\x4f\0\777\Q") = [97; 92; 120; 52; 102; 92; 48; 92; 55; 55; 55; 92; 81]) by (vm_compute; reflexivity). rewrite U.
    apply bv_char; [discriminate|].
    apply (bv_hex [52; 102] [52 - 48; 102 - 87]); [reflexivity|constructor; [apply hex_09; lia|constructor; [apply hex_af; lia|constructor]]|].
    apply (bv_octal [48]); [constructor; [unfold octal_digit; lia|constructor]|cbn; lia|octal_end|].
    apply (bv_octal [55; 55; 55]); [repeat (constructor; [unfold octal_digit; lia|]); constructor|cbn; lia|left; reflexivity|].
    apply bv_other; [discriminate|intros e H; inversion H|discriminate|unfold octal_digit; lia|constructor].
Qed.

(** [b'\x1'] (an error in Python, but the file is analysed all the same): panic.  So is [b'\x\\'], which the tokenizer takes as one literal. *)
Theorem C28_no_panic_refuted : parse_python_bytes_literal (txt "b'\x1'") = Panic /\ parse_python_bytes_literal (txt "b'\x\\'") = Panic.
Proof. split; vm_compute; reflexivity. Qed.
(** Carriage returns stay, in raw literals too, and the line end after a backslash is not removed. *)
Theorem C28_line_ends_refuted : exists code v w,
  Forall (fun c => c < 128) code /\ python_bytes_value code v /\ parse_python_bytes_literal code = Ok w /\ v <> w.
Proof.
  exists ([98; 34; 34; 34; 97; 92; 13; 10; 34; 34; 34]), [97], [97; 92; 13; 10]. refine (conj _ (conj _ (conj _ _))); [repeat constructor| |vm_compute; reflexivity|discriminate].
  exists false, [97; 92; 13; 10]. split; [apply (three_quotes [98] [false] 34 [97; 92; 13; 10]); [constructor; [apply prefix_other; lia|constructor]|right; reflexivity]|].
  change (universal_newlines [97; 92; 13; 10]) with [97; 92; 10]. apply bv_char; [discriminate|]. apply bv_line_end. constructor.
Qed.
Example raw_line_ends_kept : parse_python_bytes_literal [114; 98; 34; 34; 34; 13; 10; 34; 34; 34] = Ok [13; 10].
Proof. vm_compute. reflexivity. Qed.

Print Assumptions C27_value_partial.
Print Assumptions C27_plain.
Print Assumptions C27_no_panic_refuted.
Print Assumptions C27_surrogate_refuted.
Print Assumptions C28_value_partial.
Print Assumptions C28_no_panic_refuted.
Print Assumptions C28_line_ends_refuted.
