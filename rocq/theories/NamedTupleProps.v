(** * C79: the fields of a named tuple that is made by a call are those that Python makes *)
From Coq Require Import NArith List Bool Arith String Decimal Lia.
From Verif Require Import NamedTupleModel NamedTupleSpec NamedTuple.
Import ListNotations.
Open Scope string_scope.
Open Scope list_scope.
Open Scope nat_scope.

(** The classes of ASCII, for the cases *)
Definition alpha (c : N) : bool := ((65 <=? c) && (c <=? 90) || (97 <=? c) && (c <=? 122))%N.
Definition alnum (c : N) : bool := alpha c || ((48 <=? c) && (c <=? 57))%N.
Definition white (c : N) : bool := (c =? 32)%N || (c =? 9)%N || (c =? 10)%N.
Definition one (c : N) : nat := 1.
Definition nt := new_collections_named_tuple alpha alnum one.
Definition p_ := NameString (text_of "P").
Lemma ascii_identifier : forall t, is_identifier alpha alnum t = true -> isidentifier alpha alnum t.
Proof. intros t H. apply (ident_iff alpha alnum alpha alnum); auto. Qed.
Lemma ascii_typename : forall t, is_identifier alpha alnum t && negb (mem t kwlist) = true -> typename_ok alpha alnum t.
Proof. intros t H. apply andb_true_iff in H. destruct H as [H1 H2]. split; [apply ascii_identifier; exact H1|]. intros H. apply mem_In in H. rewrite H in H2. discriminate H2. Qed.
Lemma not_private : forall t, starts_with_underscore t = false -> ~ private t.
Proof. intros t H P. apply underscore_iff in P. rewrite P in H. discriminate H. Qed.
Lemma not_keyword : forall t, mem t kwlist = false -> ~ In t kwlist.
Proof. intros t H P. apply mem_In in P. rewrite P in H. discriminate H. Qed.

(** A call has no issue exactly when Python makes the class, and then the fields and their defaults are those of Python.
    Partial: the characters of the names have the same classes in Rust and Python and no name is [match], [case] or [type]; the name of the class is one that Python takes; a string has
    no other white space than blanks; the arguments are literals and the only further ones are [rename] and [defaults]. *)
Theorem C79_call_partial : forall is_alphabetic is_alphanumeric id_start id_continue space width typename assigned f extra names rename d fields,
  space 32%N = true -> typename_ok id_start id_continue typename -> (assigned = None \/ assigned = Some typename) -> gives space f names -> says extra rename d ->
  Forall (plain is_alphabetic is_alphanumeric id_start id_continue) names ->
  ((exists ps, new_collections_named_tuple is_alphabetic is_alphanumeric width (mk_call (NameString typename) assigned f extra) = (Some (typename, ps), []) /\
      List.map shown (params ps) = List.map field_of fields) <->
   makes id_start id_continue typename names rename d fields).
Proof. intros al an st co space width typename assigned f extra names rename d fields. apply (call_spec al an st co width space). Qed.
Lemma ascii_plain : forall n, mem n soft = false -> plain alpha alnum alpha alnum n.
Proof. intros n H. split; [auto|]. intros P. apply mem_In in P. rewrite P in H. discriminate H. Qed.
(** [namedtuple("P", "x def, x", rename=True, defaults=[1])] *)
Example C79_case_rename : makes alpha alnum (text_of "P") (List.map text_of ["x"; "def"; "x"]) true 1 [(text_of "x", false); (text_of "_1", false); (text_of "_2", true)] /\
  fst (nt (mk_call p_ None (OneString (text_of "x def, x")) [RenameArg (Some true); DefaultsArg (Some 1)])) =
    Some (text_of "P", [mk_param None 0 false; mk_param (Some (text_of "x")) 0 false; mk_param (Some (text_of "_1")) 0 false; mk_param (Some (text_of "_2")) 0 true]).
Proof.
  split; [|reflexivity]. apply (C79_call_partial alpha alnum alpha alnum white one (text_of "P") None (OneString (text_of "x def, x")) [RenameArg (Some true); DefaultsArg (Some 1)]).
  - reflexivity.
  - apply ascii_typename. reflexivity.
  - left. reflexivity.
  - right. exists (text_of "x def, x"). split; [reflexivity|]. split; [intros c H; revert H; cbn [text_of List.map list_ascii_of_string In]; intros [<-|[<-|[<-|[<-|[<-|[<-|[<-|[<-|[]]]]]]]]] Hs; try reflexivity; discriminate Hs|].
    change (List.map text_of ["x"; "def"; "x"]) with (filter nonempty (split (text_of "x def, x"))). apply (split_words white eq_refl 8); [reflexivity|].
    intros c H; revert H; cbn [text_of List.map list_ascii_of_string In]; intros [<-|[<-|[<-|[<-|[<-|[<-|[<-|[<-|[]]]]]]]]] Hs; try reflexivity; discriminate Hs.
  - exists [RenameArg (Some true)], [DefaultsArg (Some 1)]. split; [right; reflexivity|]. split; [right; reflexivity|left; reflexivity].
  - repeat constructor; try (intros P; apply mem_In in P; discriminate P).
  - eexists. split; reflexivity.
Qed.
(** [namedtuple("P", ["x", "def"])] and [namedtuple("P", ["x"], defaults=[1, 2])] are reported. *)
Example C79_case_reported : snd (nt (mk_call p_ None (Elements [Some (text_of "x"); Some (text_of "def")]) [])) = [UsedAKeyword (text_of "def")] /\
  snd (nt (mk_call p_ None (Elements [Some (text_of "x")]) [DefaultsArg (Some 2)])) = [TooManyDefaults].
Proof. split; reflexivity. Qed.

(** The names of a string are its words, and each is a slice of it, in bytes. *)
Theorem C79_words_partial : forall space width s names, space 32%N = true -> only_blanks space s -> (words space s names <-> string_names width s = names).
Proof.
  intros space width s names H O. unfold string_names. rewrite slices_parts. split; [intros W; apply (words_split space H); assumption|intros <-; apply (split_words space H (List.length s)); [reflexivity|exact O]].
Qed.
Theorem C79_slices : forall width s start x y p, width 44%N = 1 -> width 32%N = 1 -> In (x, y, p) (slices width start (split s)) ->
  p <> [] /\ exists pre post, s = pre ++ p ++ post /\ x = start + len width pre /\ y = x + len width p.
Proof. intros width s start x y p H1 H2. apply slices_at; assumption. Qed.
Example C79_case_slices : slices one 7 (split (text_of "a, bc")) = [(7, 8, text_of "a"); (10, 12, text_of "bc")].
Proof. reflexivity. Qed.

(** An element that is no string is reported. *)
Theorem C79_element : forall is_alphabetic is_alphanumeric width typename assigned l extra, In None l ->
  snd (new_collections_named_tuple is_alphabetic is_alphanumeric width (mk_call (NameString typename) assigned (Elements l) extra)) <> [].
Proof.
  intros al an width typename assigned l extra H. unfold new_collections_named_tuple, check_named_tuple_name. cbn [c_name c_assigned c_fields c_extra].
  destruct (match assigned with Some should => if text_eqb should typename then (typename, []) else (should, [FirstArgumentMismatch should typename]) | None => (typename, []) end) as [name i1].
  pose proof (fun b => add_elements_none al an b l start_namedtuple_params H) as E.
  destruct (read_extra false None extra) as [[[rename d]|] i2] eqn:R; cbn [snd].
  - specialize (E rename). destruct (add_elements al an rename start_namedtuple_params l) as [ps i3]. cbn [snd] in E. destruct (apply_defaults d ps) as [ps' i4]. cbn [snd]. intros X. apply app_eq_nil in X. destruct X as [_ X]. apply app_eq_nil in X. destruct X as [_ X]. apply app_eq_nil in X. apply E. apply X.
  - intros X. apply app_eq_nil in X. destruct X as [_ X]. subst i2. revert R. generalize false as b. generalize (@None nat) as o. induction extra as [|[[n|]|[b'|]|k|] extra IH]; intros o b R; cbn [read_extra] in R; try discriminate R; try (eapply IH; exact R);
      destruct (read_extra b o extra); discriminate R.
Qed.

(** Whatever the names are, the fields get different names, and the attribute with the name of a field has the type at this place of the tuple. *)
Theorem C79_distinct : forall is_alphabetic is_alphanumeric width c name ps, fst (new_collections_named_tuple is_alphabetic is_alphanumeric width c) = Some (name, ps) -> NoDup (List.map p_name ps).
Proof. intros al an width c name ps H. apply distinct_call in H. apply H. Qed.
Theorem C79_attribute : forall is_alphabetic is_alphanumeric width c name ps minor i p n, fst (new_collections_named_tuple is_alphabetic is_alphanumeric width c) = Some (name, ps) ->
  nth_error (params ps) i = Some p -> p_name p = Some n -> lookup_internal minor ps n = FieldType (p_type p) /\ nth_error (as_tuple ps) i = Some (p_type p).
Proof.
  intros al an width c name ps minor i p n H Hi Hn. apply distinct_call in H. split; [apply (attribute minor ps i p n H Hi Hn)|]. unfold as_tuple. apply map_nth_error. exact Hi.
Qed.
Theorem C79_typing_attribute : forall is_alphabetic is_alphanumeric l ps minor i p n, fst (compute_named_tuple_initializer is_alphabetic is_alphanumeric l) = Some ps ->
  nth_error (params ps) i = Some p -> p_name p = Some n -> lookup_internal minor ps n = FieldType (p_type p) /\ nth_error (as_tuple ps) i = Some (p_type p).
Proof.
  intros al an l ps minor i p n H Hi Hn. apply distinct_initializer in H; [|apply distinct_start]. split; [apply (attribute minor ps i p n H Hi Hn)|]. unfold as_tuple. apply map_nth_error. exact Hi.
Qed.
(** An attribute that is found as a field is one. *)
Theorem C79_attribute_sound : forall minor ps n t, lookup_internal minor ps n = FieldType t -> exists i p, nth_error (params ps) i = Some p /\ p_name p = Some n /\ p_type p = t.
Proof.
  intros minor ps n t. unfold lookup_internal, search_param. destruct (own_branch minor n); [discriminate|]. destruct (find (named n) (params ps)) as [p|] eqn:E; [|discriminate]. intros [= <-]. apply find_some in E. destruct E as [E1 E2].
  apply In_nth_error in E1. destruct E1 as [i E1]. exists i, p. split; [exact E1|]. split; [|reflexivity]. unfold named in E2. destruct (p_name p) as [m|]; [|discriminate E2]. apply text_eqb_eq in E2. subst m. reflexivity.
Qed.
Example C79_case_attribute : exists ps, fst (compute_named_tuple_initializer alpha alnum [Field (text_of "a") 4 0; Field (text_of "a") 5 0]) = Some ps /\
  lookup_internal 12 ps (text_of "a") = FieldType 4 /\ lookup_internal 12 ps (text_of "_1") = FieldType 5 /\ lookup_internal 12 ps (text_of "_make") = OwnBranch /\ lookup_internal 12 ps (text_of "b") = NoAttribute.
Proof. eexists. repeat split. Qed.

(** The parameters of [_replace] are the fields, and none has to be given. *)
Theorem C79_replace : forall ps, List.map p_name (replace_params ps) = match_args ps /\ List.map p_type (replace_params ps) = as_tuple ps /\ forall p, In p (replace_params ps) -> has_default p = true.
Proof.
  intros ps. unfold replace_params, match_args, as_tuple. rewrite !map_map. split; [reflexivity|]. split; [reflexivity|]. intros p H. apply in_map_iff in H. destruct H as (q & <- & _). reflexivity.
Qed.

(** [typing.NamedTuple]: the types are those given; there is an issue exactly when Python takes not all the names.  Partial as above. *)
Theorem C79_typing_partial : forall is_alphabetic is_alphanumeric id_start id_continue l, Forall (plain is_alphabetic is_alphanumeric id_start id_continue) (List.map fst l) ->
  exists ps i, compute_named_tuple_initializer is_alphabetic is_alphanumeric (List.map element_of l) = (Some ps, i) /\ as_tuple ps = List.map snd l /\ (i = [] <-> accepted id_start id_continue (List.map fst l)) /\
    (i = [] -> List.map p_name (params ps) = List.map Some (List.map fst l)).
Proof. intros al an st co l P. apply (typing_spec al an st co l P). Qed.
Theorem C79_typing_elements : forall is_alphabetic is_alphanumeric l, fst (compute_named_tuple_initializer is_alphabetic is_alphanumeric l) = None <-> exists e, In e l /\ (e = NoTuple \/ e = TooShort \/ e = BadName \/ e = StarType).
Proof. intros al an l. apply initializer_none. Qed.
Example C79_case_typing : snd (compute_named_tuple_initializer alpha alnum [Field (text_of "a") 1 0; Field (text_of "_b") 2 0]) = [StartsWithUnderscore (text_of "_b")] /\
  snd (compute_named_tuple_initializer alpha alnum [Field (text_of "a") 1 0; Field (text_of "b") 2 0]) = [].
Proof. split; reflexivity. Qed.

(** ** What is different *)

(** [namedtuple("P", ["type"])] is reported, and with [rename=True] the field is [_0]. *)
Theorem C79_soft_refuted : snd (nt (mk_call p_ None (Elements [Some (text_of "type")]) [])) = [UsedAKeyword (text_of "type")] /\
  makes alpha alnum (text_of "P") [text_of "type"] false 0 [(text_of "type", false)] /\
  fst (nt (mk_call p_ None (Elements [Some (text_of "type")]) [RenameArg (Some true)])) = Some (text_of "P", [mk_param None 0 false; mk_param (Some (text_of "_0")) 0 false]) /\
  makes alpha alnum (text_of "P") [text_of "type"] true 0 [(text_of "type", false)].
Proof.
  assert (T : typename_ok alpha alnum (text_of "P")) by (apply ascii_typename; reflexivity). assert (I1 : isidentifier alpha alnum (text_of "type")) by (apply ascii_identifier; reflexivity).
  assert (I2 : ~ In (text_of "type") kwlist) by (apply not_keyword; reflexivity). assert (I3 : ~ private (text_of "type")) by (apply not_private; reflexivity).
  split; [reflexivity|]. split; [|split; [reflexivity|]]; (split; [exact T|]); (split; [apply Nat.le_0_l|]); exists [text_of "type"]; (split; [|reflexivity]).
  - split; [|reflexivity]. split; [intros n [<-|[]]; auto|]. constructor; [intros []|constructor].
  - apply renamed_same; [|constructor]. intros [H|[H|[H|H]]]; try contradiction.
Qed.
(** [class A(namedtuple("1x", ["a"]))]: the name of the class is not looked at. *)
Theorem C79_typename_refuted : snd (nt (mk_call (NameString (text_of "1x")) None (Elements [Some (text_of "a")]) [])) = [] /\
  (forall fields, ~ makes alpha alnum (text_of "1x") [text_of "a"] false 0 fields) /\
  snd (nt (mk_call (NameString (text_of "def")) None (Elements [Some (text_of "a")]) [])) = [] /\ forall fields, ~ makes alpha alnum (text_of "def") [text_of "a"] false 0 fields.
Proof.
  split; [reflexivity|]. split; [|split; [reflexivity|]].
  - intros fields [[H _] _]. apply (ident_iff alpha alnum alpha alnum) in H; [discriminate H|auto].
  - intros fields [[_ H] _]. apply H. apply mem_In. reflexivity.
Qed.
(** A tab or a line break between the names, as in a string with three quotes *)
Theorem C79_white_refuted : snd (nt (mk_call p_ None (OneString [97; 10; 98]%N) [])) = [InvalidFieldName [97; 10; 98]%N] /\ words white [97; 10; 98]%N [[97]; [98]]%N /\
  makes alpha alnum (text_of "P") [[97]; [98]]%N false 0 [([97]%N, false); ([98]%N, false)].
Proof.
  split; [reflexivity|]. assert (B : forall c, In c [97]%N \/ In c [98]%N -> ~ breaks white c) by (intros c [[<-|[]]|[<-|[]]] [H|H]; discriminate H). split.
  - apply (words_word white [97]%N 10%N [98]%N [[98]%N]); [discriminate|intros c H; apply B; left; exact H|right; reflexivity|]. apply words_last; [discriminate|intros c H; apply B; right; exact H].
  - split; [apply ascii_typename; reflexivity|]. split; [apply Nat.le_0_l|]. exists [[97]; [98]]%N. split; [|reflexivity]. split; [|reflexivity]. split.
    + intros n [<-|[<-|[]]]; (split; [apply ascii_identifier; reflexivity|split; [apply not_keyword; reflexivity|apply not_private; reflexivity]]).
    + constructor; [intros [H|[]]; discriminate H|]. constructor; [intros []|constructor].
Qed.
(** The superscript two is a number for Rust, but does not belong in an identifier. *)
Theorem C79_numeric_refuted : snd (new_collections_named_tuple alpha (fun c => alnum c || (c =? 178)%N) one (mk_call p_ None (Elements [Some [120; 178]%N]) [])) = [] /\
  forall fields, ~ makes alpha alnum (text_of "P") [[120; 178]%N] false 0 fields.
Proof.
  split; [reflexivity|]. intros fields (_ & _ & final & [[H _] _] & _). destruct (H _ (or_introl eq_refl)) as [Hi _]. apply (ident_iff alpha alnum alpha alnum) in Hi; [discriminate Hi|auto].
Qed.
(** [module="m"], which Python takes and which changes no field, [defaults=None], and arguments by keyword *)
Theorem C79_arguments_refuted : snd (nt (mk_call p_ None (Elements [Some (text_of "a")]) [KeywordArg (text_of "module")])) = [UnexpectedKeyword (text_of "module")] /\
  snd (nt (mk_call p_ None (Elements [Some (text_of "a")]) [DefaultsArg None])) = [DefaultsShouldBeListOrTuple] /\
  snd (nt (mk_call NameNotPositional None (Elements [Some (text_of "a")]) [])) = [UnexpectedArguments] /\
  makes alpha alnum (text_of "P") [text_of "a"] false 0 [(text_of "a", false)].
Proof.
  split; [reflexivity|]. split; [reflexivity|]. split; [reflexivity|]. split; [apply ascii_typename; reflexivity|]. split; [apply Nat.le_0_l|]. exists [text_of "a"]. split; [|reflexivity]. split; [|reflexivity]. split.
  - intros n [<-|[]]; (split; [apply ascii_identifier; reflexivity|split; [apply not_keyword; reflexivity|apply not_private; reflexivity]]).
  - constructor; [intros []|constructor].
Qed.
(** [NamedTuple("P", [("a", int, str)])]: what follows the type is not looked at, while Python cannot unpack it. *)
Theorem C79_triple_refuted : forall more, snd (compute_named_tuple_initializer alpha alnum [Field (text_of "a") 1 (S more)]) = [] /\ ~ unpacks [Field (text_of "a") 1 (S more)].
Proof. intros more. split; [reflexivity|]. intros H. destruct (H _ (or_introl eq_refl)) as (n & t & E). discriminate E. Qed.

Print Assumptions C79_call_partial.
Print Assumptions C79_words_partial.
Print Assumptions C79_slices.
Print Assumptions C79_element.
Print Assumptions C79_distinct.
Print Assumptions C79_attribute.
Print Assumptions C79_typing_attribute.
Print Assumptions C79_attribute_sound.
Print Assumptions C79_replace.
Print Assumptions C79_typing_partial.
Print Assumptions C79_typing_elements.
Print Assumptions C79_soft_refuted.
Print Assumptions C79_typename_refuted.
Print Assumptions C79_white_refuted.
Print Assumptions C79_numeric_refuted.
Print Assumptions C79_arguments_refuted.
Print Assumptions C79_triple_refuted.
