(** C63: the [__init__] of a dataclass and what follows from it. *)
From Coq Require Import List NArith Bool Lia.
From Verif Require Import DataclassModel DataclassSpec Dataclass.
Import ListNotations.
Open Scope N_scope.

Section Properties.
Variable program : list class.
Variable fields : nat -> option (list pyfield).
Hypothesis Fields : are_fields program fields.
Hypothesis Formed : well_formed program.

(** In the class and its bases, names that are written again keep their role (positional, keyword-only or no parameter at all), an annotation without a value
    does not hide a default of a base, and classes that are no dataclasses pass on the fields of the one after them. *)
Notation usual := (usual program fields).
Notation fields_at := (fields_at fields).

(** Python creates the bases. *)
Notation bases_fine := (bases_fine program fields).

Variables (i : nat) (c : class).
Hypothesis Here : nth_error program i = Some c.
Hypothesis Decorated : is_dataclass c = true.

(** If Python creates the class, the parameters are those of its [__init__]. *)
Theorem C63_init : family program c usual -> bases_fine c -> ~ default_error (fields_at i) ->
  exists r, inits_of program i = Some r /\ init_params r = py_init (fields_at i).
Proof.
  intros F Ok E. exists (calculate_init_of_dataclass program (inits_of program) c). split; [exact (inits_exist program Formed i c Here Decorated)|].
  destruct (calculate_parts program c) as [C _]. cbv zeta in C. pose proof (params_right program fields Fields Formed i c Here Decorated F Ok) as P. rewrite C; [exact P|].
  rewrite P. apply in_order_init. exact E.
Qed.

(** There is an issue exactly where Python raises an error because of a field without a default after one with a default. *)
Theorem C63_default : family program c usual -> bases_fine c ->
  exists r, inits_of program i = Some r /\ (In NoDefaultAfterDefault (issues r) -> default_error (fields_at i)) /\ (default_error (fields_at i) -> In NoDefaultAfterDefault (issues r)).
Proof.
  intros F Ok. exists (calculate_init_of_dataclass program (inits_of program) c). split; [exact (inits_exist program Formed i c Here Decorated)|].
  destruct (calculate_parts program c) as [C1 [C2 _]]. cbv zeta in *. pose proof (params_right program fields Fields Formed i c Here Decorated F Ok) as P. rewrite P in C2.
  pose proof (in_order_init (fields_at i)) as O. split.
  - intros H. apply C2 in H. destruct (latest_default_issue (py_init (fields_at i)) 1 None) as [n|] eqn:L.
    + clear - L. revert L. assert (G : forall ps k latest, latest_default_issue ps k latest = Some n -> latest = Some n \/
        exists before prev next after, ps = before ++ prev :: next :: after /\ is_keyword_only next = false /\ p_default prev = true /\ p_default next = false).
      { induction ps as [|p ps IH]; intros k latest L; [left; exact L|]. destruct ps as [|q ps]; [left; exact L|].
        change (latest_default_issue (p :: q :: ps) k latest) with (latest_default_issue (q :: ps) (S k) (if negb (is_keyword_only q) && p_default p && negb (p_default q) then Some k else latest)) in L.
        apply IH in L as [L|[before [prev [next [after [E R]]]]]].
        - destruct (negb (is_keyword_only q) && p_default p && negb (p_default q)) eqn:X; [right|left; exact L].
          apply andb_true_iff in X as [X X3]. apply andb_true_iff in X as [X1 X2]. apply negb_true_iff in X1, X3. exists [], p, q, ps. auto.
        - right. exists (p :: before), prev, next, after. rewrite E. auto. }
      intros L. apply G in L as [L|[before [prev [next [after [E [E1 [E2 E3]]]]]]]]; [discriminate|]. rewrite py_init_order in E. unfold init_order in E. rewrite map_app in E.
      assert (E' : map param_of (filter is_std (fields_at i)) ++ map param_of (filter is_kw (fields_at i)) = (before ++ [prev]) ++ next :: after) by (rewrite <- app_assoc; exact E).
      apply app_split_right in E' as [[after' Y]|Y].
      * rewrite <- app_assoc in Y. cbn [app] in Y. apply map_eq_app in Y as [l1 [l2 [Y1 [Y2 Y3]]]]. apply map_eq_cons in Y3 as [f [l3 [Y3 [Y4 Y5]]]]. apply map_eq_cons in Y5 as [g [l4 [Y5 [Y6 Y7]]]].
        subst. exists l1, f, [], g, l4. auto.
      * pose proof (kw_keyword _ (Forall_filter is_kw (fields_at i))) as K. rewrite Forall_forall in K. specialize (K next Y). unfold keyword in K. congruence.
    + exfalso. apply H. apply (latest_none _ 1 None). exact L.
  - intros H. apply C2. intros X. exact (proj1 O X H).
Qed.

(** Whatever the roles are: where zuban finds no such issue, every field that Python puts into [__init__] is a parameter with its type, kind and default, and no parameter is there twice. *)
Theorem C63_complete : family program c (bare_passes program) -> family program c (in_order_class program) ->
  exists r, inits_of program i = Some r /\ (forall p, In p (py_init (fields_at i)) -> In p (init_params r)) /\ NoDup (map p_name (init_params r)) /\
    (forall p, In p (init_params r) -> exists f, In f (fields_at i) /\ f_name f = p_name p).
Proof.
  intros F O. exists (calculate_init_of_dataclass program (inits_of program) c). split; [exact (inits_exist program Formed i c Here Decorated)|].
  destruct (params_complete program fields Fields Formed i c Here Decorated F O) as [[H1 H2] H3]. split; [|split; [exact H3|]].
  - intros p Hp. rewrite py_init_order in Hp. apply in_map_iff in Hp as [f [<- Hf]]. apply in_init_order in Hf as [Hf1 Hf2].
    assert (N : NoDup (names (fields_at i))) by (apply (fields_nodup program fields Fields); unfold is_dc; rewrite Here; exact Decorated).
    apply (H1 (f_name f) f) in Hf2; [|exact (ffind_in _ _ N Hf1)]. apply pfind_in in Hf2. tauto.
  - intros p Hp. assert (X : In (p_name p) (names (fields_at i))) by (apply H2, in_map, Hp). unfold names in X. apply in_map_iff in X as [f [X1 X2]]. eauto.
Qed.

(** [__match_args__] *)
Theorem C63_match_args : family program c usual -> bases_fine c -> ~ default_error (fields_at i) ->
  exists r, inits_of program i = Some r /\ match_args r = py_match_args (fields_at i).
Proof.
  intros F Ok E. destruct (C63_init F Ok E) as [r [R P]]. exists r. split; [exact R|]. unfold match_args. rewrite P, py_init_order. unfold init_order, py_match_args. rewrite map_app.
  change (std_fields (fields_at i)) with (filter is_std (fields_at i)). pose proof (std_positional _ (Forall_filter is_std (fields_at i))) as S. pose proof (kw_keyword _ (Forall_filter is_kw (fields_at i))) as K.
  change (map f_name (filter is_std (fields_at i))) with (names (filter is_std (fields_at i))). rewrite <- (param_names (filter is_std (fields_at i))). induction S as [|p ps Hp _ IH]; cbn [app take_positional map].
  - destruct K as [|p ps Hp _]; [reflexivity|]. cbn. rewrite Hp. reflexivity.
  - rewrite Hp, IH. reflexivity.
Qed.

(** [__post_init__]: if all InitVars are positional and none is written again, it gets those of Python. *)
Theorem C63_post_init : family program c usual -> bases_fine c -> family program c (init_vars_once program fields) ->
  exists r, inits_of program i = Some r /\ post_init_params r = py_post_init (fields_at i).
Proof.
  intros F Ok V. exists (calculate_init_of_dataclass program (inits_of program) c). split; [exact (inits_exist program Formed i c Here Decorated)|].
  exact (post_right program fields Fields Formed i c Here Decorated F Ok V).
Qed.

(** [replace]: if the class is not frozen and no name is an InitVar in one place and something else in another, a call fits if Python raises no error. *)
Definition kinds_agree : Prop := forall k k' b b' a a', In k (i :: mro c) -> In k' (i :: mro c) -> nth_error program k = Some b -> nth_error program k' = Some b' ->
  In a (body b) -> In a' (body b') -> a_name a = a_name a' -> a_kind a = InitVar -> a_kind a' = InitVar.

Theorem C63_replace : family program c usual -> bases_fine c -> ~ default_error (fields_at i) -> kinds_agree -> opt_frozen c = false ->
  exists r, inits_of program i = Some r /\ forall given, call_fits (replace_params program i c r) given <-> py_replace (fields_at i) given.
Proof.
  intros F Ok E Kinds Fr. destruct (C63_init F Ok E) as [r [R P]]. exists r. split; [exact R|]. intros given.
  assert (A : forall f, In f (fields_at i) -> has_attribute program i c (f_name f) r = negb (is_init_var f)).
  { intros f Hf. unfold has_attribute. rewrite Fr. cbn [andb]. destruct (field_annotated program fields Fields Formed i c Here f Hf) as [k [b [a [K [B [A [N1 N2]]]]]]].
    destruct (first_annotation_found program (i :: mro c) (f_name f)) as [k' [b' [a' [X [K' [B' [A' N']]]]]]]; [exists k, b, a; auto|]. rewrite X. unfold is_init_var. rewrite <- N2.
    assert (N : a_name a = a_name a') by congruence. pose proof (Kinds k k' b b' a a' K K' B B' A A' N) as K1. pose proof (Kinds k' k b' b a' a K' K B' B A' A (eq_sym N)) as K2.
    revert K1 K2. destruct (a_kind a), (a_kind a'); intros K1 K2; first [reflexivity|pose proof (K1 eq_refl) as Z; discriminate Z|pose proof (K2 eq_refl) as Z; discriminate Z]. }
  assert (Q : forall q, In q (replace_params program i c r) <-> exists f, In f (fields_at i) /\ in_init f = true /\ q = mk_param (f_name f) (f_type f) KeywordOnly (negb (is_init_var f) || f_default f)).
  { intros q. unfold replace_params. rewrite P, py_init_order, map_map, in_map_iff. split.
    - intros [f [<- Hf]]. apply in_init_order in Hf as [Hf1 Hf2]. exists f. cbn. rewrite (A f Hf1). auto.
    - intros [f [Hf1 [Hf2 ->]]]. exists f. cbn. rewrite (A f Hf1). split; [reflexivity|]. apply in_init_order. auto. }
  unfold call_fits, py_replace. split.
  - intros [H1 H2]. split.
    + intros n Hn. destruct (H1 n Hn) as [q [Hq <-]]. apply Q in Hq as [f [Hf1 [Hf2 ->]]]. exists f. auto.
    + intros f Hf I0 V D. apply (H2 (mk_param (f_name f) (f_type f) KeywordOnly (negb (is_init_var f) || f_default f))); [apply Q; exists f; auto|]. cbn. rewrite V, D. reflexivity.
  - intros [H1 H2]. split.
    + intros n Hn. destruct (H1 n Hn) as [f [Hf1 [Hf2 Hf3]]]. exists (mk_param (f_name f) (f_type f) KeywordOnly (negb (is_init_var f) || f_default f)). split; [apply Q; exists f; auto|exact Hf2].
    + intros q Hq D. apply Q in Hq as [f [Hf1 [Hf2 ->]]]. cbn in *. apply orb_false_iff in D as [D1 D2]. apply negb_false_iff in D1. exact (H2 f Hf1 Hf2 D1 D2).
Qed.

(** [__slots__]: if nothing is inherited and all fields are parameters and no InitVars, the number of names is right. *)
Theorem C63_slots : family program c usual -> bases_fine c -> ~ default_error (fields_at i) -> (forall f, In f (fields_at i) -> f_kind f = Plain /\ f_init f = true) ->
  exists r, inits_of program i = Some r /\ slots_length r = length (py_slots [] (fields_at i)).
Proof.
  intros F Ok E A. destruct (C63_init F Ok E) as [r [R P]]. exists r. split; [exact R|]. unfold slots_length, py_slots. rewrite P, py_init_order, map_length. unfold init_order. rewrite app_length.
  clear F Ok E P R. induction (fields_at i) as [|f d IH]; [reflexivity|]. destruct (A f (or_introl eq_refl)) as [A1 A2]. specialize (IH (fun g G => A g (or_intror G))).
  cbn [filter]. assert (P1 : is_plain f = true) by (unfold is_plain; rewrite A1; reflexivity). rewrite P1. cbn [map filter existsb negb length] in *. rewrite <- IH. unfold is_std at 1, is_kw at 1, in_init. rewrite A1, A2. cbn [andb].
  destruct (f_kw f); cbn [negb length]; lia.
Qed.

(** KW_ONLY twice *)
Theorem C63_marker : exists r, inits_of program i = Some r /\ (In MultipleKwOnly (issues r) <-> marker_error (body c)).
Proof.
  exists (calculate_init_of_dataclass program (inits_of program) c). split; [exact (inits_exist program Formed i c Here Decorated)|].
  destruct (calculate_parts program c) as [_ [_ [_ [C _]]]]. exact C.
Qed.

(** Frozen dataclasses and others do not mix: TypeError if one in the MRO is not like this one. *)
Definition has_base (frozen : bool) : Prop := exists k b, In k (mro c) /\ nth_error program k = Some b /\ is_dataclass b = true /\ opt_frozen b = frozen.
Theorem C63_frozen : exists r, inits_of program i = Some r /\
  (In NonFrozenFromFrozen (issues r) <-> opt_frozen c = false /\ has_base true) /\ (In FrozenFromNonFrozen (issues r) <-> opt_frozen c = true /\ has_base false).
Proof.
  exists (calculate_init_of_dataclass program (inits_of program) c). split; [exact (inits_exist program Formed i c Here Decorated)|].
  destruct (calculate_parts program c) as [_ [_ [_ [_ [C _]]]]]. cbv zeta in C. unfold has_base. split; rewrite C by auto; split.
  - intros [k [b [K [B [D [Fr X]]]]]]. destruct (opt_frozen c); [discriminate|]. split; [reflexivity|]. exists k, b. auto.
  - intros [-> [k [b [K [B [D Fr]]]]]]. exists k, b. auto.
  - intros [k [b [K [B [D [Fr X]]]]]]. destruct (opt_frozen c); [|discriminate]. split; [reflexivity|]. exists k, b. auto.
  - intros [-> [k [b [K [B [D Fr]]]]]]. exists k, b. auto.
Qed.
End Properties.

(** ** Programs *)
Definition listed (l : list (option (list pyfield))) (i : nat) : option (list pyfield) := nth i l None.
Ltac by_class i H := repeat (destruct i as [|i]; [cbn in H; injection H as <-|]); [..|destruct i; discriminate H].
Ltac distinct := repeat (apply NoDup_cons; [cbn; intros X; repeat (destruct X as [X|X]; [discriminate X|]); destruct X|]); apply NoDup_nil.
Ltac show_fields := let i := fresh "i" in let c := fresh "c" in let H := fresh "H" in intros i c H; repeat (destruct i as [|i]; [cbn in H; injection H as <-; vm_compute; reflexivity|]); destruct i; discriminate H.

Definition ann (n t : N) : annotated := mk_annotated n t Plain Nothing.
Definition dc (mro : list nat) (body : list annotated) : class := mk_class true false false mro body [].

(** [@dataclass class A: a: int; b: InitVar[str]; c: int = field(default=0, kw_only=True); d: ClassVar[int] = 0; e: list = field(init=False)]
    [class P(A): ...]
    [@dataclass class B(P): a: bool; _: KW_ONLY; f: int; g: int = field(kw_only=False)] *)
Definition shop : list class :=
  [dc [] [ann 1 10; mk_annotated 2 11 InitVar Nothing; mk_annotated 3 10 Plain (FieldCall [ArgDefault; ArgKwOnly (Some true)]);
          mk_annotated 4 10 ClassVar Expression; mk_annotated 5 12 Plain (FieldCall [ArgInit (Some false)])];
   mk_class false false false [0%nat] [] [];
   dc [1%nat; 0%nat] [ann 1 13; mk_annotated 9 14 KwOnlyMarker Nothing; ann 6 10; mk_annotated 7 10 Plain (FieldCall [ArgKwOnly (Some false)])]].
Definition fa : list pyfield :=
  [mk_pyfield 1 10 Plain false true false; mk_pyfield 2 11 InitVar false true false; mk_pyfield 3 10 Plain true true true; mk_pyfield 4 10 ClassVar false true true; mk_pyfield 5 12 Plain false false false].
Definition fb : list pyfield :=
  [mk_pyfield 1 13 Plain false true false; mk_pyfield 2 11 InitVar false true false; mk_pyfield 3 10 Plain true true true; mk_pyfield 4 10 ClassVar false true true; mk_pyfield 5 12 Plain false false false;
   mk_pyfield 6 10 Plain true true false; mk_pyfield 7 10 Plain false true false].
Definition shop_fields : nat -> option (list pyfield) := listed [Some fa; Some fa; Some fb].

Lemma shop_are_fields : are_fields shop shop_fields.
Proof. show_fields. Qed.

Lemma shop_formed : well_formed shop.
Proof.
  constructor.
  - intros i c k H K. by_class i H; cbn in K; repeat (destruct K as [<-|K]; [lia|]); destruct K.
  - intros i c k b H K B. by_class i H; cbn in K; repeat (destruct K as [<-|K]; [cbn in B; injection B as <-; intros x X; cbn in X |- *; tauto|]); destruct K.
  - intros i c a H A. by_class i H; cbn in A; repeat (destruct A as [<-|A]; [cbn; first [exact Logic.I|split; [distinct|reflexivity]]|]); destruct A.
  - intros i c H. by_class i H; cbn; distinct.
Qed.

Lemma shop_A_roles : same_roles (writes shop shop_fields (nth 0 shop (dc [] []))).
Proof. intros f g Hf Hg E. cbn in Hf, Hg. repeat (destruct Hf as [<-|Hf]; [repeat (destruct Hg as [<-|Hg]; [first [discriminate E|reflexivity]|]); destruct Hg|]). destruct Hf. Qed.
Lemma shop_B_roles : same_roles (writes shop shop_fields (nth 2 shop (dc [] []))).
Proof. intros f g Hf Hg E. vm_compute in Hf, Hg. repeat (destruct Hf as [<-|Hf]; [repeat (destruct Hg as [<-|Hg]; [first [discriminate E|reflexivity]|]); destruct Hg|]). destruct Hf. Qed.
Lemma shop_usual : family shop (nth 2 shop (dc [] [])) (usual shop shop_fields).
Proof.
  assert (Bare : forall i c, nth_error shop i = Some c -> bare_ok (attribute_of shop c) (body c)).
  { intros i c H a A R K. by_class i H; cbn in A; repeat (destruct A as [<-|A]; [first [reflexivity|discriminate R|destruct K; discriminate]|]); destruct A. }
  assert (Pass : forall i c, nth_error shop i = Some c -> passes_on shop c).
  { intros i c H before k after b E B D. by_class i H; cbn in E.
    - destruct before; discriminate.
    - destruct before as [|x [|y before]]; try discriminate. injection E as <- <-. cbn in B. injection B as <-. discriminate.
    - destruct before as [|x [|y [|z before]]]; try discriminate; cbn [app] in E; injection E; intros; subst; cbn in B; injection B as <-; [reflexivity|discriminate]. }
  split; [split; [exact (Bare 2%nat _ eq_refl)|split; [exact (Pass 2%nat _ eq_refl)|exact shop_B_roles]]|].
  intros k b K B D. cbn in K. destruct K as [<-|[<-|[]]]; cbn in B; injection B as <-; [discriminate|]. split; [exact (Bare 0%nat _ eq_refl)|split; [exact (Pass 0%nat _ eq_refl)|exact shop_A_roles]].
Qed.

Lemma no_default_error : forall d, (forall f, In f (std_fields d) -> f_default f = false) -> ~ default_error d.
Proof. intros d H [before [f [between [g [after [E [D _]]]]]]]. rewrite (H f) in D; [discriminate|]. rewrite E. apply in_or_app. right. left. reflexivity. Qed.
Lemma shop_fine : bases_fine shop shop_fields (nth 2 shop (dc [] [])) /\ ~ default_error (fields_at shop_fields 2).
Proof.
  split.
  - intros k b K B D. cbn in K. destruct K as [<-|[<-|[]]]; apply no_default_error; intros f Hf; cbn in Hf; repeat (destruct Hf as [<-|Hf]; [reflexivity|]); destruct Hf.
  - apply no_default_error. intros f Hf. cbn in Hf. repeat (destruct Hf as [<-|Hf]; [reflexivity|]). destruct Hf.
Qed.

(** [B(a, b, g, *, c=..., f)] *)
Example C63_shop_init : exists r, inits_of shop 2 = Some r /\
  init_params r = [mk_param 1 13 PositionalOrKeyword false; mk_param 2 11 PositionalOrKeyword false; mk_param 7 10 PositionalOrKeyword false; mk_param 3 10 KeywordOnly true; mk_param 6 10 KeywordOnly false].
Proof. exact (C63_init shop shop_fields shop_are_fields shop_formed 2%nat _ eq_refl eq_refl shop_usual (proj1 shop_fine) (proj2 shop_fine)). Qed.
Example C63_shop_match_args : exists r, inits_of shop 2 = Some r /\ match_args r = [1; 2; 7].
Proof. exact (C63_match_args shop shop_fields shop_are_fields shop_formed 2%nat _ eq_refl eq_refl shop_usual (proj1 shop_fine) (proj2 shop_fine)). Qed.
Example C63_shop_default : exists r, inits_of shop 2 = Some r /\ ~ In NoDefaultAfterDefault (issues r).
Proof.
  destruct (C63_default shop shop_fields shop_are_fields shop_formed 2%nat _ eq_refl eq_refl shop_usual (proj1 shop_fine)) as [r [R [H _]]]. exists r. split; [exact R|].
  intros X. exact (proj2 shop_fine (H X)).
Qed.
Example C63_shop_post_init : exists r, inits_of shop 2 = Some r /\ post_init_params r = [(2, 11)].
Proof.
  apply (C63_post_init shop shop_fields shop_are_fields shop_formed 2%nat _ eq_refl eq_refl shop_usual (proj1 shop_fine)).
  assert (O : forall k b, In k [0; 2]%nat -> nth_error shop k = Some b -> init_vars_once shop shop_fields b).
  { intros k b K B. destruct K as [<-|[<-|[]]]; cbn in B; injection B as <-; constructor.
    all: try solve [intros f Hf V; vm_compute in Hf; repeat (destruct Hf as [<-|Hf]; [first [reflexivity|discriminate V]|]); destruct Hf].
    all: intros f g Hf Hg E; try intros V; vm_compute in Hf, Hg; try contradiction;
      repeat (destruct Hf as [<-|Hf]; [repeat (destruct Hg as [<-|Hg]; [first [discriminate E|discriminate V|reflexivity|split; reflexivity]|]); destruct Hg|]); destruct Hf. }
  split; [apply (O 2%nat); cbn; auto|]. intros k b K B D. cbn in K. destruct K as [<-|[<-|[]]]; [cbn in B; injection B as <-; discriminate|apply (O 0%nat); cbn; auto].
Qed.
(** [replace(x, b="", f=1)] fits, [replace(x, f=1)] does not. *)
Example C63_shop_replace : exists r, inits_of shop 2 = Some r /\ call_fits (replace_params shop 2 (nth 2 shop (dc [] [])) r) [2; 6] /\ ~ call_fits (replace_params shop 2 (nth 2 shop (dc [] [])) r) [6].
Proof.
  destruct (C63_replace shop shop_fields shop_are_fields shop_formed 2%nat _ eq_refl eq_refl shop_usual (proj1 shop_fine) (proj2 shop_fine)) as [r [R H]]; [|reflexivity|].
  - intros k k' b b' a a' K K' B B' A A' N V. cbn in K, K'. repeat (destruct K as [<-|K]; [cbn in B; injection B as <-|]); try destruct K;
      repeat (destruct K' as [<-|K']; [cbn in B'; injection B' as <-|]); try destruct K'; cbn in A, A';
      repeat (destruct A as [<-|A]; [repeat (destruct A' as [<-|A']; [first [discriminate N|discriminate V|reflexivity]|]); destruct A'|]); destruct A.
  - exists r. split; [exact R|]. split; [apply H|intros X; apply H in X as [_ X]].
    + split.
      * intros n [<-|[<-|[]]]; [exists (mk_pyfield 2 11 InitVar false true false)|exists (mk_pyfield 6 10 Plain true true false)]; (split; [cbn; tauto|split; reflexivity]).
      * intros f Hf I0 V D. cbn in Hf. repeat (destruct Hf as [<-|Hf]; [first [discriminate V|discriminate D|discriminate I0|cbn; tauto]|]). destruct Hf.
    + specialize (X (mk_pyfield 2 11 InitVar false true false)). cbn in X. destruct X as [X|[]]; auto. discriminate.
Qed.

(** [@dataclass class A: x: int; y: int = field(default=0, kw_only=True)] and [@dataclass class B(A): x: int = field(init=False)]: the premises of [C63_complete] though
    a role changes; [y] is there. *)
Definition hidden : list class :=
  [dc [] [ann 1 10; mk_annotated 2 10 Plain (FieldCall [ArgDefault; ArgKwOnly (Some true)])]; dc [0%nat] [mk_annotated 1 10 Plain (FieldCall [ArgInit (Some false)])]].
Definition hidden_fields : nat -> option (list pyfield) :=
  listed [Some [mk_pyfield 1 10 Plain false true false; mk_pyfield 2 10 Plain true true true]; Some [mk_pyfield 1 10 Plain false false false; mk_pyfield 2 10 Plain true true true]].
Lemma hidden_are_fields : are_fields hidden hidden_fields.
Proof. show_fields. Qed.
Lemma hidden_formed : well_formed hidden.
Proof.
  constructor.
  - intros i c k H K. by_class i H; cbn in K; repeat (destruct K as [<-|K]; [lia|]); destruct K.
  - intros i c k b H K B. by_class i H; cbn in K; repeat (destruct K as [<-|K]; [cbn in B; injection B as <-; intros x X; cbn in X |- *; tauto|]); destruct K.
  - intros i c a H A. by_class i H; cbn in A; repeat (destruct A as [<-|A]; [cbn; first [exact Logic.I|split; [distinct|reflexivity]]|]); destruct A.
  - intros i c H. by_class i H; cbn; distinct.
Qed.
Example C63_hidden_complete : exists r, inits_of hidden 1 = Some r /\ In (mk_param 2 10 KeywordOnly true) (init_params r).
Proof.
  destruct (C63_complete hidden hidden_fields hidden_are_fields hidden_formed 1%nat _ eq_refl eq_refl) as [r [R [H _]]].
  - assert (G : forall k b, nth_error hidden k = Some b -> bare_passes hidden b).
    { intros k b H. split.
      - intros a A Rt K. by_class k H; cbn in A; repeat (destruct A as [<-|A]; [first [reflexivity|discriminate Rt]|]); destruct A.
      - intros before j after b' E B D. by_class j B; discriminate D. }
    split; [exact (G 1%nat _ eq_refl)|]. intros k b _ B _. exact (G k b B).
  - assert (G : forall k b, nth_error hidden k = Some b -> in_order_class hidden b) by (intros k b H; by_class k H; vm_compute; intros []).
    split; [exact (G 1%nat _ eq_refl)|]. intros k b _ B _. exact (G k b B).
  - exists r. split; [exact R|]. apply H. cbn. auto.
Qed.

(** [@dataclass(frozen=True) class A: x: int; y: int] and [@dataclass class B(A): _: KW_ONLY; z: int; __: KW_ONLY] *)
Definition mixed : list class :=
  [mk_class true false true [] [ann 1 10; ann 2 10] []; dc [0%nat] [mk_annotated 8 14 KwOnlyMarker Nothing; ann 3 10; mk_annotated 9 14 KwOnlyMarker Nothing]].
Definition mixed_fields : nat -> option (list pyfield) :=
  listed [Some [mk_pyfield 1 10 Plain false true false; mk_pyfield 2 10 Plain false true false];
          Some [mk_pyfield 1 10 Plain false true false; mk_pyfield 2 10 Plain false true false; mk_pyfield 3 10 Plain true true false]].
Lemma mixed_are_fields : are_fields mixed mixed_fields.
Proof. show_fields. Qed.
Lemma mixed_formed : well_formed mixed.
Proof.
  constructor.
  - intros i c k H K. by_class i H; cbn in K; repeat (destruct K as [<-|K]; [lia|]); destruct K.
  - intros i c k b H K B. by_class i H; cbn in K; repeat (destruct K as [<-|K]; [cbn in B; injection B as <-; intros x X; cbn in X |- *; tauto|]); destruct K.
  - intros i c a H A. by_class i H; cbn in A; repeat (destruct A as [<-|A]; [exact Logic.I|]); destruct A.
  - intros i c H. by_class i H; cbn; distinct.
Qed.
Example C63_mixed_issues : exists r, inits_of mixed 1 = Some r /\ In MultipleKwOnly (issues r) /\ In NonFrozenFromFrozen (issues r) /\ ~ In FrozenFromNonFrozen (issues r).
Proof.
  destruct (C63_marker mixed mixed_formed 1%nat _ eq_refl eq_refl) as [r [R M]]. destruct (C63_frozen mixed mixed_formed 1%nat _ eq_refl eq_refl) as [r' [R' [F1 F2]]].
  assert (r' = r) by congruence. subst r'. exists r. split; [exact R|]. split; [apply M; exists [], (mk_annotated 8 14 KwOnlyMarker Nothing), [ann 3 10], (mk_annotated 9 14 KwOnlyMarker Nothing), []; auto|]. split.
  - apply F1. split; [reflexivity|]. exists 0%nat. eexists. cbn. auto.
  - intros X. apply F2 in X as [X _]. discriminate.
Qed.
Example C63_mixed_slots : exists r, inits_of mixed 0 = Some r /\ slots_length r = 2%nat.
Proof.
  apply (C63_slots mixed mixed_fields mixed_are_fields mixed_formed 0%nat _ eq_refl eq_refl).
  - split; [|intros k b []]. split; [|split].
    + intros a A Rt K. cbn in A. repeat (destruct A as [<-|A]; [reflexivity|]). destruct A.
    + intros before j after b E. destruct before; discriminate.
    + intros f g Hf Hg E. cbn in Hf, Hg. repeat (destruct Hf as [<-|Hf]; [repeat (destruct Hg as [<-|Hg]; [first [discriminate E|reflexivity]|]); destruct Hg|]). destruct Hf.
  - intros k b [].
  - apply no_default_error. intros f Hf. cbn in Hf. repeat (destruct Hf as [<-|Hf]; [reflexivity|]). destruct Hf.
  - intros f Hf. cbn in Hf. repeat (destruct Hf as [<-|Hf]; [split; reflexivity|]). destruct Hf.
Qed.

(** ** Where zuban is not like Python *)
(** The parameters that zuban finds for a class, and those of Python *)
Definition finds (program : list class) (i : nat) (fields : nat -> option (list pyfield)) (zuban python : list param) : Prop :=
  are_fields program fields /\ option_map init_params (inits_of program i) = Some zuban /\ option_map py_init (fields i) = Some python.
Ltac shown := split; [show_fields|split; vm_compute; reflexivity].
Notation pos n := (mk_param n 10 PositionalOrKeyword false).
Notation kwo n := (mk_param n 10 KeywordOnly false).
Notation std n := (mk_pyfield n 10 Plain false true false).

(** A field of a base that is written again with [field(init=False)] or as a ClassVar stays a parameter. *)
Theorem C63_init_false_refuted : finds hidden 1 hidden_fields [pos 1; mk_param 2 10 KeywordOnly true] [mk_param 2 10 KeywordOnly true].
Proof. shown. Qed.
Theorem C63_class_var_refuted : finds [dc [] [ann 1 10]; dc [0%nat] [mk_annotated 1 10 ClassVar Expression]] 1 (listed [Some [std 1]; Some [mk_pyfield 1 10 ClassVar false true true]]) [pos 1] [].
Proof. shown. Qed.

(** [class A: x: int = field(init=False); y: int] and [class B(A): x: int]: the order is [(x, y)], not [(y, x)]. *)
Theorem C63_init_true_refuted : finds [dc [] [mk_annotated 1 10 Plain (FieldCall [ArgInit (Some false)]); ann 2 10]; dc [0%nat] [ann 1 10]] 1
  (listed [Some [mk_pyfield 1 10 Plain false false false; std 2]; Some [std 1; std 2]]) [pos 2; pos 1] [pos 1; pos 2].
Proof. shown. Qed.

(** [class A: a: int; b: int; c: int] and [class B(A): b: int = field(kw_only=True)]: the keyword-only parameter stays between the others, so [c] is neither the second argument
    nor in [__match_args__]. *)
Definition between : list class := [dc [] [ann 1 10; ann 2 10; ann 3 10]; dc [0%nat] [mk_annotated 2 10 Plain (FieldCall [ArgKwOnly (Some true)])]].
Definition between_fields : nat -> option (list pyfield) := listed [Some [std 1; std 2; std 3]; Some [std 1; mk_pyfield 2 10 Plain true true false; std 3]].
Theorem C63_kw_only_refuted : finds between 1 between_fields [pos 1; kwo 2; pos 3] [pos 1; pos 3; kwo 2] /\
  option_map match_args (inits_of between 1) = Some [1] /\ option_map py_match_args (between_fields 1%nat) = Some [1; 3].
Proof. split; [shown|split; vm_compute; reflexivity]. Qed.
(** With a default for [b] there is even an issue about the order of defaults. *)
Theorem C63_kw_only_default_refuted : exists d r,
  let program := [dc [] [ann 1 10; ann 2 10; ann 3 10]; dc [0%nat] [mk_annotated 2 10 Plain (FieldCall [ArgDefault; ArgKwOnly (Some true)])]] in
  are_fields program (listed [Some [std 1; std 2; std 3]; Some d]) /\ ~ default_error d /\ inits_of program 1 = Some r /\ In NoDefaultAfterDefault (issues r).
Proof.
  exists [std 1; mk_pyfield 2 10 Plain true true true; std 3]. eexists. split; [show_fields|]. split; [|split; [vm_compute; reflexivity|left; reflexivity]].
  apply no_default_error. intros f Hf. cbn in Hf. repeat (destruct Hf as [<-|Hf]; [reflexivity|]). destruct Hf.
Qed.
(** [class A: k: int = field(kw_only=True); a: int] and [class B(A): k: int]: the order is [(k, a)]. *)
Theorem C63_positional_refuted : finds [dc [] [mk_annotated 1 10 Plain (FieldCall [ArgKwOnly (Some true)]); ann 2 10]; dc [0%nat] [ann 1 10]] 1
  (listed [Some [mk_pyfield 1 10 Plain true true false; std 2]; Some [std 1; std 2]]) [pos 2; pos 1] [pos 1; pos 2].
Proof. shown. Qed.

(** [class A: x: int = 0; y: int = 0] and [class B(A): y: int]: in Python the default of [y] is still there; zuban finds a missing one and an error. *)
Theorem C63_bare_refuted : let program := [dc [] [mk_annotated 1 10 Plain Expression; mk_annotated 2 10 Plain Expression]; dc [0%nat] [ann 2 10]] in
  let d := [mk_pyfield 1 10 Plain false true true; mk_pyfield 2 10 Plain false true true] in
  finds program 1 (listed [Some d; Some d]) [pos 1; pos 2] [mk_param 1 10 PositionalOrKeyword true; mk_param 2 10 PositionalOrKeyword true] /\
  option_map issues (inits_of program 1) = Some [NoDefaultAfterDefault] /\ ~ default_error d.
Proof.
  intros program d. split; [shown|]. split; [vm_compute; reflexivity|]. intros [before [f [btw [g [after [E [_ D]]]]]]].
  assert (X : In g (std_fields d)) by (rewrite E; apply in_or_app; right; right; apply in_or_app; right; left; reflexivity). cbn in X. destruct X as [<-|[<-|[]]]; discriminate D.
Qed.

(** [class A: x: int], [class B(A)] that is no dataclass, [class C(A): x: str] and [class D(B, C)]: Python takes the fields of [B], which are those of [A], last. *)
Theorem C63_diamond_refuted : finds [dc [] [ann 1 10]; mk_class false false false [0%nat] [] []; dc [0%nat] [ann 1 11]; dc [1%nat; 2%nat; 0%nat] []] 3
  (listed [Some [std 1]; Some [std 1]; Some [mk_pyfield 1 11 Plain false true false]; Some [std 1]]) [mk_param 1 11 PositionalOrKeyword false] [pos 1].
Proof. shown. Qed.

Definition finds_post (program : list class) (i : nat) (fields : nat -> option (list pyfield)) (zuban python : list (N * N)) : Prop :=
  are_fields program fields /\ option_map post_init_params (inits_of program i) = Some zuban /\ option_map py_post_init (fields i) = Some python.
Notation iv n := (mk_annotated n 10 InitVar Nothing).
Notation siv n := (mk_pyfield n 10 InitVar false true false).

(** An InitVar that is written again is passed twice to [__post_init__], and one that becomes a field is still passed. *)
Theorem C63_post_init_twice_refuted : finds_post [dc [] [iv 1]; dc [0%nat] [iv 1]] 1 (listed [Some [siv 1]; Some [siv 1]]) [(1, 10); (1, 10)] [(1, 10)].
Proof. shown. Qed.
Theorem C63_post_init_field_refuted : finds_post [dc [] [iv 1]; dc [0%nat] [ann 1 10]] 1 (listed [Some [siv 1]; Some [std 1]]) [(1, 10)] [].
Proof. shown. Qed.
(** [class A: x: InitVar[int] = field(kw_only=True); y: InitVar[int]] and [class B(A)]: the order is [(x, y)]. *)
Theorem C63_post_init_order_refuted : let d := [mk_pyfield 1 10 InitVar true true false; siv 2] in
  finds_post [dc [] [mk_annotated 1 10 InitVar (FieldCall [ArgKwOnly (Some true)]); iv 2]; dc [0%nat] []] 1 (listed [Some d; Some d]) [(2, 10); (1, 10)] [(1, 10); (2, 10)].
Proof. intros d. shown. Qed.

(** [@dataclass(frozen=True) class A: x: InitVar[int]]: [replace(a)] fits, though Python raises an error. *)
Theorem C63_replace_frozen_refuted : let c := mk_class true false true [] [iv 1] [] in are_fields [c] (listed [Some [siv 1]]) /\ ~ py_replace [siv 1] [] /\
  exists r, inits_of [c] 0 = Some r /\ call_fits (replace_params [c] 0 c r) [].
Proof.
  intros c. split; [show_fields|]. split.
  - intros [_ H]. exact (H (siv 1) (or_introl eq_refl) eq_refl eq_refl eq_refl).
  - eexists. split; [vm_compute; reflexivity|]. split; [intros n []|]. intros p Hp D. vm_compute in Hp. destruct Hp as [<-|[]]. discriminate.
Qed.

(** [x: int = field(init=False)] is in [__slots__] and an InitVar is not. *)
Theorem C63_slots_refuted :
  (let c := dc [] [mk_annotated 1 10 Plain (FieldCall [ArgInit (Some false)])] in let d := [mk_pyfield 1 10 Plain false false false] in
   are_fields [c] (listed [Some d]) /\ option_map slots_length (inits_of [c] 0) = Some 0%nat /\ py_slots [] d = [1]) /\
  (let c := dc [] [iv 1] in are_fields [c] (listed [Some [siv 1]]) /\ option_map slots_length (inits_of [c] 0) = Some 1%nat /\ py_slots [] [siv 1] = []).
Proof. split; shown. Qed.

Print Assumptions C63_init.
Print Assumptions C63_default.
Print Assumptions C63_complete.
Print Assumptions C63_match_args.
Print Assumptions C63_post_init.
Print Assumptions C63_replace.
Print Assumptions C63_slots.
Print Assumptions C63_marker.
Print Assumptions C63_frozen.
Print Assumptions C63_init_false_refuted.
Print Assumptions C63_class_var_refuted.
Print Assumptions C63_init_true_refuted.
Print Assumptions C63_kw_only_refuted.
Print Assumptions C63_kw_only_default_refuted.
Print Assumptions C63_positional_refuted.
Print Assumptions C63_bare_refuted.
Print Assumptions C63_diamond_refuted.
Print Assumptions C63_post_init_twice_refuted.
Print Assumptions C63_post_init_field_refuted.
Print Assumptions C63_post_init_order_refuted.
Print Assumptions C63_replace_frozen_refuted.
Print Assumptions C63_slots_refuted.
