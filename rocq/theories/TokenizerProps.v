(** C21: the tokenizer terminates, opens and closes blocks in pairs, and its tokens are
    pieces of the text from left to right. *)
From Coq Require Import List NArith Arith Bool Lia Ascii String.
From Verif Require Import TextModel TextProofs RegexModel TokenizerModel TokenizerSpec TokenizerProofs.
Import ListNotations.
Open Scope N_scope. Open Scope list_scope.

(** Letters and digits for the examples. *)
Definition letter (c : N) : bool := range 65 90 c || range 97 122 c || mem c [25105; 12354; 966].
Definition number (c : N) : bool := range 48 57 c || (c =? 178).
Fixpoint tx (s : string) : list N := match s with EmptyString => [] | String a r => N_of_ascii a :: tx r end.
Definition nl : list N := [10].

(** For every text, whatever [is_alphabetic] and [is_numeric] say, six times the length of the text plus six tokens are
    enough (never [More]), and one call of [next] needs no more nested calls than there are characters. *)
Theorem C21_terminates : forall alphabetic numeric code, tokenize alphabetic numeric code <> More.
Proof.
  intros al nu code H. destruct (tokenize_total al nu code) as [E|(ts & E & _)]; rewrite H in E; discriminate.
Qed.

(** Whenever the tokenizer returns, there is one end marker, the last token, at the end of the text; there are as many
    dedents as indents and in no prefix more dedents than indents. *)
Theorem C21_balanced : forall alphabetic numeric code ts, tokenize alphabetic numeric code = Got ts ->
  balanced ts /\ ends_once (bytes code) ts.
Proof.
  intros al nu code ts H. destruct (tokenize_total al nu code) as [E|(ts' & E & B)]; rewrite H in E; [discriminate|].
  injection E as <-. exact B.
Qed.

(** Order, when no line begins with white space and a backslash before its end (see the refutations for that case): the
    text is the tokens and what is between them, in order, up to its end; between tokens there are only white space, line
    ends, whole comments and continuations; the text of each token is as its kind says. *)
Theorem C21_ordered_partial : forall alphabetic numeric code, ~ indented_continuation code ->
  exists ts, tokenize alphabetic numeric code = Got ts /\ laid_out 0 code ts.
Proof. intros al nu code. apply tokenize_ordered. Qed.

(** The same in terms of positions only: a token begins where the one before it ends, or later; no token reaches beyond the text. *)
Fixpoint ascending (at_ : nat) (ts : list token) : Prop :=
  match ts with [] => True | t :: r => (at_ <= tok_start t)%nat /\ ascending (tok_start t + tok_len t) r end.

Lemma laid_out_ascending : forall at_ code ts, laid_out at_ code ts ->
  ascending at_ ts /\ Forall (fun t => (tok_start t + tok_len t <= at_ + bytes code)%nat) ts.
Proof.
  intros at_ code ts H. induction H as [a|a g w rest t ts Bg Es El F L IH]; [split; constructor|].
  destruct IH as [IH1 IH2]. rewrite !bytes_app. cbn [ascending]. rewrite Es, El. split.
  - split; [lia|exact IH1].
  - constructor; [rewrite Es, El; lia|]. revert IH2. apply Forall_impl. intros u Hu. lia.
Qed.

Theorem C21_positions_partial : forall alphabetic numeric code, ~ indented_continuation code ->
  exists ts, tokenize alphabetic numeric code = Got ts /\ ascending 0 ts /\
    Forall (fun t => (tok_start t + tok_len t <= bytes code)%nat) ts.
Proof.
  intros al nu code NC. destruct (tokenize_ordered al nu code NC) as (ts & E & L). exists ts. split; [exact E|].
  exact (laid_out_ascending 0 code ts L).
Qed.

(** C52: a line end is a token exactly outside of brackets, up to the first f-string. *)
Theorem C52_lines_partial : forall alphabetic numeric code, ~ indented_continuation code ->
  exists ts, tokenize alphabetic numeric code = Got ts /\ lines true 0 code ts.
Proof. intros al nu code NC. destruct (tokenize_lines al nu code NC) as (ts & R & _ & L). eauto. Qed.

(** *** A line that begins with white space and a backslash

    When such a line has a smaller indentation than the block, the tokenizer steps back by the indentation, from the first
    token after the continuation: into whatever is there.  *)
Definition stepped_back : list N := tx "if x:" ++ nl ++ tx "     y" ++ nl ++ tx "   \" ++ nl ++ tx "#ab" ++ nl ++ tx "z".

(** The words of the comment become tokens, and the tokens are not in order. *)
Theorem C21_order_refuted : exists ts, tokenize letter number stepped_back = Got ts /\ ~ ascending 0 ts /\
  exists t, In t ts /\ tok_kind t = Name /\ slice stepped_back (tok_start t) (tok_start t + tok_len t) = Some (tx "ab").
Proof.
  eexists. split; [vm_compute; reflexivity|]. split.
  - cbn. lia.
  - eexists. split; [do 9 right; left; reflexivity|]. split; reflexivity.
Qed.

(** The step goes into the middle of a character: a [str] is built that is not UTF-8. *)
Definition stepped_inside : list N := tx "if x:" ++ nl ++ tx "     y" ++ nl ++ tx "   \" ++ nl ++ tx "#" ++ [8364] ++ nl ++ tx "z".
Theorem C21_boundary_refuted : tokenize letter number stepped_inside = Undefined.
Proof. vm_compute. reflexivity. Qed.

(** In [rf'\N'], a raw f-string, the tokenizer looks for the name of a character; it accepts one anywhere later in the file,
    so that the string is not ended where it ends. *)
Definition raw_name : list N := tx "rf'\N'" ++ nl ++ tx "g = {a}".
Theorem C21_raw_refuted : exists ts t, tokenize letter number raw_name = Got ts /\ In t ts /\ tok_kind t = ErrorToken.
Proof. eexists _, _. split; [vm_compute; reflexivity|]. split; [right; left; reflexivity|reflexivity]. Qed.

(** *** Examples *)

(** A text that meets the hypothesis: white space, comments, continuations, blocks, f-strings. *)
Definition sample : list N :=
  tx "def f(x):  # c" ++ nl ++ tx "  if x:" ++ nl ++ tx "     y = (1," ++ nl ++ tx "  f'a{x!r:>{3}}b')" ++ nl ++
  tx "\" ++ nl ++ tx "   z \" ++ nl ++ tx " + 1" ++ nl ++ tx "  # end".

(** A decision procedure for the hypothesis. *)
Fixpoint continuation_after_blanks (some : bool) (t : list N) : bool :=
  match t with
  | [] => false
  | c :: r =>
      if (c =? 32) || (c =? 9) || (c =? 12) then continuation_after_blanks true r
      else some && (c =? 92) && match r with d :: _ => (d =? 10) || (d =? 13) | [] => false end
  end.
Fixpoint has_indented_continuation (start : bool) (t : list N) : bool :=
  (start && continuation_after_blanks false t) ||
  match t with [] => false | c :: r => has_indented_continuation ((c =? 10) || (c =? 13)) r end.

Lemma blanks_found b c d : Forall blank b -> newline c -> forall some, some = true \/ b <> [] ->
  continuation_after_blanks some (b ++ 92 :: c :: d) = true.
Proof.
  intros F Nc. induction F as [|x b Hx F IH]; intros some H; cbn [app continuation_after_blanks].
  - destruct H as [-> |H]; [|congruence]. cbn. apply newline_dec in Nc. exact Nc.
  - rewrite (proj2 (blank_dec x) Hx). apply IH. left. reflexivity.
Qed.

Lemma no_indented_continuation code : has_indented_continuation true code = false -> ~ indented_continuation code.
Proof.
  intros H (a & b & c & d & -> & La & Nb & Fb & Nc).
  assert (G : forall a start, (a = [] -> start = true) -> (a = [] \/ exists a' x, a = a' ++ [x] /\ newline x) ->
    has_indented_continuation start (a ++ b ++ 92 :: c :: d) = true).
  { clear H La a. induction a as [|x a IH]; intros start St L.
    - rewrite (St eq_refl). cbn [app]. pose proof (blanks_found b c d Fb Nc false (or_intror Nb)) as E.
      destruct (b ++ 92 :: c :: d); [discriminate|]. cbn [has_indented_continuation andb]. rewrite E. reflexivity.
    - cbn [app has_indented_continuation]. apply orb_true_iff. right. destruct L as [L|(a' & y & L & Ny)]; [discriminate|].
      destruct a' as [|z a']; cbn in L; injection L as -> ->.
      + apply IH; [|left; reflexivity]. intros _. apply newline_dec. exact Ny.
      + apply IH; [destruct a'; discriminate|]. right. exists a', y. auto. }
  rewrite (G a true) in H; [discriminate|reflexivity|exact La].
Qed.

Example C21_sample : ~ indented_continuation sample /\
  match tokenize letter number sample with
  | Got ts => map tok_kind ts = [Name; Name; Operator; Name; Operator; Operator; Newline; Indent; Name; Name; Operator; Newline;
      Indent; Name; Operator; Operator; Number; Operator; FStringStart; FStringString; Operator; Name; Operator; Name; Operator;
      FStringString; Operator; Number; Operator; Operator; FStringString; FStringEnd; Operator; Newline;
      Dedent; Dedent; Name; Operator; Number; Newline; Endmarker]
  | _ => False
  end.
Proof. split; [apply no_indented_continuation; vm_compute; reflexivity|vm_compute; reflexivity]. Qed.

(** Brackets over several lines, an empty line, a bracket that is not closed before a statement. *)
Definition bracketed : list N :=
  tx "x = [1," ++ nl ++ nl ++ tx "  2]  # c" ++ nl ++ nl ++ tx "y = (3" ++ nl ++ tx "def f(): pass" ++ nl ++ tx "z".
Example C52_sample : ~ indented_continuation bracketed /\
  match tokenize letter number bracketed with
  | Got ts => map tok_kind ts = [Name; Operator; Operator; Number; Operator; Number; Operator; Newline; Name; Operator; Operator; Number;
      Name; Name; Operator; Operator; Operator; Name; Newline; Name; Endmarker]
  | _ => False
  end.
Proof. split; [apply no_indented_continuation; vm_compute; reflexivity|vm_compute; reflexivity]. Qed.
(** The statement excludes other tokens: a line end in brackets or one passed over outside of them. *)
Example C52_excluded : ~ lines true 0 [40; 10] [mk_tok 0 1 Operator true; mk_tok 1 1 Newline false].
Proof.
  intros H. inversion H as [|f d g w rest t ts El F G K N Ef Ed Ec Et]. subst. 
  destruct N as [N|N]; [discriminate|]. inversion N as [|f2 d2 g2 w2 rest2 t2 ts2 El2 F2 G2 K2 N2 Ef2 Ed2 Ec2 Et2]. subst.
  destruct (K2 eq_refl) as [D _]. cbn [tok_kind depth_after] in D, F.
  assert (W : w = [40]).
  { destruct w as [|c w]; [destruct F as [F|[F|F]]; try discriminate; cbn in El; discriminate|].
    cbn [tok_len bytes] in El. pose proof (utf8_len_pos c).
    destruct w as [|c' w]; [|cbn [bytes] in El; pose proof (utf8_len_pos c'); lia].
    destruct g as [|x g]; cbn [app] in Ec; injection Ec as Ec1 Ec3; [subst; reflexivity|]. exfalso. subst x.
    inversion G as [|y g' r' Hx| y g' r' Hx| |]; subst; [destruct Hx as [Hx|[Hx|Hx]]|destruct Hx as [Hx|Hx]]; discriminate. }
  rewrite W in D. discriminate.
Qed.

(** The unit tests of crates/parsa_python/src/tokenizer.rs:624-803: what the model computes is what they expect. *)
Definition tests : list (list N * list (nat * nat * kind)) := [
   (* simple1 *) ([97; 115; 100; 102; 32; 43; 32; 49; 49], [(0, 4, Name)%nat; (5, 1, Operator)%nat; (7, 2, Number)%nat]);
   (* simple2 *) ([49; 102; 111; 111; 49], [(0, 1, Number)%nat; (1, 4, Name)%nat]);
   (* name1 *) ([95; 95], [(0, 2, Name)%nat]);
   (* unicode1 *) ([25105; 12354; 966; 40; 41], [(0, 8, Name)%nat; (8, 1, Operator)%nat; (9, 1, Operator)%nat]);
   (* unicode3 *) ([178], [(0, 2, ErrorToken)%nat]);
   (* unicode6 *) ([32; 0; 97], [(1, 0, Indent)%nat; (1, 1, ErrorToken)%nat; (2, 1, Name)%nat; (3, 0, Dedent)%nat]);
   (* string1 *) ([117; 34; 116; 101; 115; 116; 34], [(0, 7, String_)%nat]);
   (* string2 *) ([117; 34; 34; 34; 116; 101; 115; 116; 34; 34; 34], [(0, 11, String_)%nat]);
   (* string3 *) ([85; 34; 34; 34; 116; 101; 115; 116; 34; 34; 34], [(0, 11, String_)%nat]);
   (* string4 *) ([117; 39; 39; 39; 116; 101; 115; 116; 39; 39; 39], [(0, 11, String_)%nat]);
   (* string5 *) ([85; 39; 39; 39; 116; 101; 115; 116; 39; 39; 39], [(0, 11, String_)%nat]);
   (* string6 *) ([114; 39; 39; 39; 116; 101; 115; 116; 39; 39; 39], [(0, 11, String_)%nat]);
   (* string7 *) ([82; 39; 39; 39; 116; 101; 115; 116; 39; 39; 39], [(0, 11, String_)%nat]);
   (* string_with_escape1 *) ([39; 39; 39; 116; 101; 115; 116; 92; 39; 39; 39; 39], [(0, 12, String_)%nat]);
   (* string_with_escape2 *) ([82; 39; 39; 39; 116; 101; 115; 116; 92; 39; 39; 39; 39], [(0, 13, String_)%nat]);
   (* string_with_escape3 *) ([39; 39; 92; 39; 116; 101; 115; 116; 92; 39; 39; 39; 39], [(0, 2, String_)%nat; (2, 1, ErrorToken)%nat; (3, 8, String_)%nat; (11, 2, String_)%nat]);
   (* string_literal_in_string1 *) ([34; 39; 39; 39; 34], [(0, 5, String_)%nat]);
   (* string_literal_in_string2 *) ([39; 34; 34; 34; 39], [(0, 5, String_)%nat]);
   (* bytes1 *) ([98; 39; 102; 111; 111; 39], [(0, 6, Bytes_)%nat]);
   (* bytes2 *) ([98; 114; 39; 102; 111; 111; 39], [(0, 7, Bytes_)%nat]);
   (* bytes3 *) ([114; 98; 39; 102; 111; 111; 39], [(0, 7, Bytes_)%nat]);
   (* bytes4 *) ([82; 98; 39; 102; 111; 111; 39], [(0, 7, Bytes_)%nat]);
   (* bytes5 *) ([82; 66; 39; 102; 111; 111; 39], [(0, 7, Bytes_)%nat]);
   (* bytes6 *) ([66; 39; 102; 111; 111; 39], [(0, 6, Bytes_)%nat]);
   (* bytes7 *) ([66; 34; 102; 111; 111; 34], [(0, 6, Bytes_)%nat]);
   (* bytes8 *) ([114; 66; 34; 102; 111; 111; 34], [(0, 7, Bytes_)%nat]);
   (* bytes9 *) ([66; 114; 34; 102; 111; 111; 34], [(0, 7, Bytes_)%nat]);
   (* multiline_string_error1 *) ([39; 39; 39; 39; 10], [(0, 3, ErrorToken)%nat; (3, 1, ErrorToken)%nat; (4, 1, Newline)%nat]);
   (* multiline_string_error2 *) ([39; 39; 39], [(0, 3, ErrorToken)%nat]);
   (* multiline_string_error3 *) ([39; 39; 39; 39; 39], [(0, 3, ErrorToken)%nat; (3, 2, String_)%nat]);
   (* single_line_string_error1 *) ([39; 32; 10; 39], [(0, 1, ErrorToken)%nat; (2, 1, Newline)%nat; (3, 1, ErrorToken)%nat]);
   (* single_line_string_error2 *) ([39; 32; 13; 39], [(0, 1, ErrorToken)%nat; (2, 1, Newline)%nat; (3, 1, ErrorToken)%nat]);
   (* single_line_string_error3 *) ([39; 32; 92; 39], [(0, 1, ErrorToken)%nat; (2, 1, ErrorToken)%nat; (3, 1, ErrorToken)%nat]);
   (* single_line_string_error4 *) ([40; 32; 39; 39; 39], [(0, 1, Operator)%nat; (2, 3, ErrorToken)%nat]);
   (* number1 *) ([49; 95; 49], [(0, 3, Number)%nat]);
   (* number2 *) ([49; 95; 49; 106; 102; 111; 111], [(0, 4, Number)%nat; (4, 3, Name)%nat]);
   (* number3 *) ([51; 95; 49; 49; 49; 95; 49; 51; 51; 46; 49; 51], [(0, 12, Number)%nat]);
   (* number4 *) ([46; 49; 51], [(0, 3, Number)%nat]);
   (* number5 *) ([49; 46], [(0, 2, Number)%nat]);
   (* number6 *) ([49; 46; 50; 106], [(0, 4, Number)%nat]);
   (* number7 *) ([49; 50; 101; 54], [(0, 4, Number)%nat]);
   (* number8 *) ([49; 46; 50; 101; 54], [(0, 5, Number)%nat]);
   (* not_number *) ([101; 50], [(0, 2, Name)%nat]);
   (* backslash1 *) ([92; 10; 102; 111; 111], [(2, 3, Name)%nat]);
   (* backslash2 *) ([32; 92; 10; 102; 111; 111], [(3, 0, Indent)%nat; (3, 3, Name)%nat; (6, 0, Dedent)%nat]);
   (* backslash3 *) ([92; 102; 111; 111], [(0, 1, ErrorToken)%nat; (1, 3, Name)%nat]);
   (* backslash4 *) ([40; 43; 32; 92; 10; 32; 51; 46; 53; 41], [(0, 1, Operator)%nat; (1, 1, Operator)%nat; (6, 3, Number)%nat; (9, 1, Operator)%nat]);
   (* indent1 *) ([32; 32; 32; 32; 32; 32; 32; 32; 32; 32; 32; 32; 32; 32; 32; 32; 115; 116; 114; 40; 10; 102; 114; 111; 109; 32; 120; 32; 105; 109; 112; 111; 114; 116; 32; 97; 10; 100; 101; 102], [(16, 0, Indent)%nat; (16, 3, Name)%nat; (19, 1, Operator)%nat; (21, 4, Name)%nat; (26, 1, Name)%nat; (28, 6, Name)%nat; (35, 1, Name)%nat; (36, 1, Newline)%nat; (37, 0, Dedent)%nat; (37, 3, Name)%nat]);
   (* indent2 *) ([102; 10; 32; 103; 10; 36], [(0, 1, Name)%nat; (1, 1, Newline)%nat; (3, 0, Indent)%nat; (3, 1, Name)%nat; (4, 1, Newline)%nat; (5, 0, Dedent)%nat; (5, 1, ErrorToken)%nat]);
   (* indent3 *) ([32; 32; 102; 111; 111; 10; 32; 98; 97; 114], [(2, 0, Indent)%nat; (2, 3, Name)%nat; (5, 1, Newline)%nat; (7, 0, ErrorDedent)%nat; (7, 3, Name)%nat; (10, 0, Dedent)%nat]);
   (* indent4 *) ([32; 32; 102; 111; 111; 10; 32; 98; 97; 114; 32; 10; 32; 98; 97; 122], [(2, 0, Indent)%nat; (2, 3, Name)%nat; (5, 1, Newline)%nat; (7, 0, ErrorDedent)%nat; (7, 3, Name)%nat; (11, 1, Newline)%nat; (13, 3, Name)%nat; (16, 0, Dedent)%nat]);
   (* weird_indent1 *) ([32; 32; 41; 10; 32; 102; 111; 111; 32], [(2, 0, Indent)%nat; (2, 1, Operator)%nat; (3, 1, Newline)%nat; (5, 0, ErrorDedent)%nat; (5, 3, Name)%nat; (9, 0, Dedent)%nat]);
   (* weird_indent2 *) ([32; 32; 40; 10; 32; 102; 111; 111; 32], [(2, 0, Indent)%nat; (2, 1, Operator)%nat; (5, 3, Name)%nat; (9, 0, Dedent)%nat]);
   (* weird_indent3 *) ([97; 10; 32; 98; 10; 32; 32; 41; 10; 32; 99], [(0, 1, Name)%nat; (1, 1, Newline)%nat; (3, 0, Indent)%nat; (3, 1, Name)%nat; (4, 1, Newline)%nat; (7, 0, Indent)%nat; (7, 1, Operator)%nat; (8, 1, Newline)%nat; (10, 0, Dedent)%nat; (10, 1, Name)%nat; (11, 0, Dedent)%nat]);
   (* weird_indent4 *) ([32; 49; 32; 92; 10; 100; 101; 102], [(1, 0, Indent)%nat; (1, 1, Number)%nat; (5, 3, Name)%nat; (8, 0, Dedent)%nat]);
   (* invalid_open_bracket_with_dedent *) ([99; 108; 97; 115; 115; 32; 67; 58; 10; 32; 32; 32; 97; 115; 100; 102; 40; 10; 99; 108; 97; 115; 115; 32; 68; 58; 32; 46; 46; 46], [(0, 5, Name)%nat; (6, 1, Name)%nat; (7, 1, Operator)%nat; (8, 1, Newline)%nat; (12, 0, Indent)%nat; (12, 4, Name)%nat; (16, 1, Operator)%nat; (18, 0, Dedent)%nat; (18, 5, Name)%nat; (24, 1, Name)%nat; (25, 1, Operator)%nat; (27, 3, Operator)%nat]);
   (* invalid_open_bracket_with_semicolon *) ([99; 108; 97; 115; 115; 32; 67; 58; 10; 32; 32; 32; 97; 115; 100; 102; 40; 10; 59; 32; 98; 97; 114], [(0, 5, Name)%nat; (6, 1, Name)%nat; (7, 1, Operator)%nat; (8, 1, Newline)%nat; (12, 0, Indent)%nat; (12, 4, Name)%nat; (16, 1, Operator)%nat; (18, 0, Dedent)%nat; (18, 1, Operator)%nat; (20, 3, Name)%nat]);
   (* formfeed1 *) ([32; 32; 12; 32; 32], []);
   (* formfeed2 *) ([12; 39; 39; 39], [(1, 0, Indent)%nat; (1, 3, ErrorToken)%nat; (4, 0, Dedent)%nat]);
   (* f_string1 *) ([102; 39], [(0, 2, FStringStart)%nat]);
   (* f_string2 *) ([102; 39; 39], [(0, 2, FStringStart)%nat; (2, 1, FStringEnd)%nat]);
   (* f_string3 *) ([102; 39; 32; 123; 125; 39], [(0, 2, FStringStart)%nat; (2, 1, FStringString)%nat; (3, 1, Operator)%nat; (4, 1, Operator)%nat; (5, 1, FStringEnd)%nat]);
   (* f_string4 *) ([102; 39; 32; 123; 39], [(0, 2, FStringStart)%nat; (2, 1, FStringString)%nat; (3, 1, Operator)%nat; (4, 1, ErrorToken)%nat]);
   (* f_string5 *) ([102; 39; 32; 39; 123; 125], [(0, 2, FStringStart)%nat; (2, 1, FStringString)%nat; (3, 1, FStringEnd)%nat; (4, 1, Operator)%nat; (5, 1, Operator)%nat]);
   (* f_string6 *) ([102; 39; 92; 39; 39], [(0, 2, FStringStart)%nat; (2, 2, FStringString)%nat; (4, 1, FStringEnd)%nat]);
   (* f_string7 *) ([102; 39; 123; 32; 39; 39; 125; 39], [(0, 2, FStringStart)%nat; (2, 1, Operator)%nat; (4, 2, String_)%nat; (6, 1, Operator)%nat; (7, 1, FStringEnd)%nat]);
   (* f_string8 *) ([102; 39; 123; 32; 102; 39; 39; 125; 39], [(0, 2, FStringStart)%nat; (2, 1, Operator)%nat; (4, 2, FStringStart)%nat; (6, 1, FStringEnd)%nat; (7, 1, Operator)%nat; (8, 1, FStringEnd)%nat]);
   (* f_string_format_spec1 *) ([102; 39; 83; 111; 109; 101; 32; 123; 120; 58; 46; 50; 102; 125; 123; 121; 125; 39], [(0, 2, FStringStart)%nat; (2, 5, FStringString)%nat; (7, 1, Operator)%nat; (8, 1, Name)%nat; (9, 1, Operator)%nat; (10, 3, FStringString)%nat; (13, 1, Operator)%nat; (14, 1, Operator)%nat; (15, 1, Name)%nat; (16, 1, Operator)%nat; (17, 1, FStringEnd)%nat]);
   (* f_string_format_spec2 *) ([102; 39; 123; 120; 58; 61; 49; 48; 125; 39], [(0, 2, FStringStart)%nat; (2, 1, Operator)%nat; (3, 1, Name)%nat; (4, 1, Operator)%nat; (5, 3, FStringString)%nat; (8, 1, Operator)%nat; (9, 1, FStringEnd)%nat]);
   (* f_string_format_spec3 *) ([102; 39; 123; 40; 120; 58; 61; 49; 48; 41; 125; 39], [(0, 2, FStringStart)%nat; (2, 1, Operator)%nat; (3, 1, Operator)%nat; (4, 1, Name)%nat; (5, 2, Operator)%nat; (7, 2, Number)%nat; (9, 1, Operator)%nat; (10, 1, Operator)%nat; (11, 1, FStringEnd)%nat]);
   (* f_string_format_spec4 *) ([102; 39; 123; 49; 125; 125; 39], [(0, 2, FStringStart)%nat; (2, 1, Operator)%nat; (3, 1, Number)%nat; (4, 1, Operator)%nat; (5, 1, Operator)%nat; (6, 1, FStringEnd)%nat]);
   (* f_string_format_spec_nested1 *) ([102; 39; 123; 120; 58; 123; 121; 58; 51; 125; 125; 39], [(0, 2, FStringStart)%nat; (2, 1, Operator)%nat; (3, 1, Name)%nat; (4, 1, Operator)%nat; (5, 1, Operator)%nat; (6, 1, Name)%nat; (7, 1, Operator)%nat; (8, 1, FStringString)%nat; (9, 1, Operator)%nat; (10, 1, Operator)%nat; (11, 1, FStringEnd)%nat]);
   (* f_string_format_spec_nested2 *) ([102; 39; 123; 50; 58; 123; 120; 58; 123; 34; 102; 34; 125; 125; 125; 39], [(0, 2, FStringStart)%nat; (2, 1, Operator)%nat; (3, 1, Number)%nat; (4, 1, Operator)%nat; (5, 1, Operator)%nat; (6, 1, Name)%nat; (7, 1, Operator)%nat; (8, 1, Operator)%nat; (9, 3, String_)%nat; (12, 1, Operator)%nat; (13, 1, Operator)%nat; (14, 1, Operator)%nat; (15, 1, FStringEnd)%nat]);
   (* f_string_format_spec_with_str *) ([102; 34; 123; 97; 43; 39; 58; 39; 58; 49; 125; 34], [(0, 2, FStringStart)%nat; (2, 1, Operator)%nat; (3, 1, Name)%nat; (4, 1, Operator)%nat; (5, 3, String_)%nat; (8, 1, Operator)%nat; (9, 1, FStringString)%nat; (10, 1, Operator)%nat; (11, 1, FStringEnd)%nat]);
   (* f_string_multiline1 *) ([102; 39; 39; 39; 97; 98; 99; 10; 100; 101; 102; 39; 39; 39], [(0, 4, FStringStart)%nat; (4, 7, FStringString)%nat; (11, 3, FStringEnd)%nat]);
   (* f_string_multiline2 *) ([102; 39; 39; 39; 97; 98; 99; 123; 10; 49; 50; 51; 125; 100; 101; 102; 39; 39; 39], [(0, 4, FStringStart)%nat; (4, 3, FStringString)%nat; (7, 1, Operator)%nat; (9, 3, Number)%nat; (12, 1, Operator)%nat; (13, 3, FStringString)%nat; (16, 3, FStringEnd)%nat]);
   (* f_string_multiline3 *) ([102; 39; 39; 39; 97; 98; 99; 123; 10; 100; 101; 102; 125; 39; 39; 39], [(0, 4, FStringStart)%nat; (4, 3, FStringString)%nat; (7, 1, Operator)%nat; (9, 3, Name)%nat; (12, 1, Operator)%nat; (13, 3, ErrorToken)%nat]);
   (* f_string_line_continuation1 *) ([102; 39; 97; 98; 99; 92; 10; 100; 101; 102; 39], [(0, 2, FStringStart)%nat; (2, 8, FStringString)%nat; (10, 1, FStringEnd)%nat]);
   (* f_string_line_continuation2 *) ([102; 39; 92; 10; 123; 49; 50; 51; 125; 92; 10; 39], [(0, 2, FStringStart)%nat; (2, 2, FStringString)%nat; (4, 1, Operator)%nat; (5, 3, Number)%nat; (8, 1, Operator)%nat; (9, 2, FStringString)%nat; (11, 1, FStringEnd)%nat]);
   (* f_string_line_continuation3 *) ([102; 39; 123; 92; 10; 49; 50; 51; 125; 39], [(0, 2, FStringStart)%nat; (2, 1, Operator)%nat; (5, 3, Number)%nat; (8, 1, Operator)%nat; (9, 1, FStringEnd)%nat]);
   (* f_string_line_continuation4 *) ([102; 39; 123; 49; 50; 51; 58; 46; 50; 92; 10; 102; 125; 39], [(0, 2, FStringStart)%nat; (2, 1, Operator)%nat; (3, 3, Number)%nat; (6, 1, Operator)%nat; (7, 5, FStringString)%nat; (12, 1, Operator)%nat; (13, 1, FStringEnd)%nat]);
   (* f_string_newline *) ([102; 39; 97; 98; 99; 10; 100; 101; 102; 39], [(0, 2, FStringStart)%nat; (2, 3, FStringString)%nat; (5, 1, Newline)%nat; (6, 3, Name)%nat; (9, 1, ErrorToken)%nat]);
   (* f_string_with_unicode_name1 *) ([102; 39; 92; 78; 123; 102; 111; 111; 125; 39], [(0, 2, FStringStart)%nat; (2, 7, FStringString)%nat; (9, 1, FStringEnd)%nat]);
   (* f_string_with_unicode_name2 *) ([102; 39; 92; 78; 123; 102; 111; 111; 125; 32; 123; 49; 125; 39], [(0, 2, FStringStart)%nat; (2, 8, FStringString)%nat; (10, 1, Operator)%nat; (11, 1, Number)%nat; (12, 1, Operator)%nat; (13, 1, FStringEnd)%nat]);
   (* f_string_with_unicode_name3 *) ([102; 39; 92; 78; 39], [(0, 2, FStringStart)%nat; (2, 2, FStringString)%nat; (4, 1, FStringEnd)%nat]);
   (* f_string_with_unicode_name4 *) ([102; 39; 92; 78; 123; 125; 39], [(0, 2, FStringStart)%nat; (2, 2, FStringString)%nat; (4, 1, Operator)%nat; (5, 1, Operator)%nat; (6, 1, FStringEnd)%nat]);
   (* f_string_bracket_escape *) ([102; 34; 120; 123; 123; 121; 125; 125; 122; 34], [(0, 2, FStringStart)%nat; (2, 7, FStringString)%nat; (9, 1, FStringEnd)%nat])
].
Definition kind_n (k : kind) : nat :=
  match k with
  | Name => 0 | Operator => 1 | String_ => 2 | Bytes_ => 3 | Number => 4 | Endmarker => 5 | Newline => 6 | ErrorToken => 7
  | Indent => 8 | Dedent => 9 | ErrorDedent => 10 | FStringStart => 11 | FStringString => 12 | FStringEnd => 13
  end.
Definition same (t : token) (e : nat * nat * kind) : bool :=
  let '(s, l, k) := e in (tok_start t =? s)%nat && (tok_len t =? l)%nat && (kind_n (tok_kind t) =? kind_n k)%nat.
Fixpoint all_same (ts : list token) (es : list (nat * nat * kind)) : bool :=
  match ts, es with [], [] => true | t :: ts, e :: es => same t e && all_same ts es | _, _ => false end.
Definition passes (t : list N * list (nat * nat * kind)) : bool :=
  match tokenize letter number (fst t) with
  | Got ts => all_same ts (snd t ++ [(bytes (fst t), 0, Endmarker)%nat])
  | _ => false
  end.
Example C21_unit_tests : forallb passes tests = true.
Proof. vm_compute. reflexivity. Qed.

Print Assumptions C21_terminates.
Print Assumptions C21_balanced.
Print Assumptions C21_ordered_partial.
Print Assumptions C21_positions_partial.
Print Assumptions C21_order_refuted.
Print Assumptions C21_boundary_refuted.
Print Assumptions C21_raw_refuted.
Print Assumptions C52_lines_partial.
