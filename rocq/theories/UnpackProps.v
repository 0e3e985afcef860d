(** C55: unpacking into targets, loops, tuple displays and sequence patterns. *)
From Coq Require Import List NArith Bool Lia PeanoNat.
From Verif Require Import TupleModel TupleSpec UnpackModel UnpackSpec UnpackProofs UnpackExact UnpackOther.
Import ListNotations.
Local Open Scope N_scope.

(** * A world of values, for the examples and refutations *)
Inductive value := VInt (n : N) | VStr (s : list N) | VBytes | VNone | VTup (l : list value) | VLst (l : list value).

Definition c_list : N := 0.
Definition c_str : N := 1.
Definition c_object : N := 2.
Definition c_int : N := 3.
Definition c_bytes : N := 4.
Definition c_sequence : N := 5.
Definition int : type := Class c_int [].
Definition str : type := Class c_str [].
Definition bytes : type := Class c_bytes [].
Definition obj : type := Class c_object [].

Inductive iterates : value -> list value -> Prop :=
| it_tup l : iterates (VTup l) l
| it_lst l : iterates (VLst l) l
| it_str s : iterates (VStr s) (map (fun c => VStr [c]) s).

Definition list_value (v : value) (l : list value) : Prop := v = VLst l.
Definition stands_for (n : N) (l : list value) : Prop := True.

Inductive has : type -> value -> Prop :=
| h_any v : has Any v
| h_none : has NoneType VNone
| h_int n : has (Class c_int []) (VInt n)
| h_str s : has (Class c_str []) (VStr s)
| h_bytes : has (Class c_bytes []) VBytes
| h_object v : has (Class c_object []) v
| h_list t l : Forall (has t) l -> has (Class c_list [t]) (VLst l)
| h_seq_list t l : Forall (has t) l -> has (Class c_sequence [t]) (VLst l)
| h_seq_tup t l : Forall (has t) l -> has (Class c_sequence [t]) (VTup l)
| h_literal s : has (Literal s) (VStr s)
| h_fixed ts l : Forall2 has ts l -> has (Tuple (FixedLen ts)) (VTup l)
| h_arbitrary t l : Forall (has t) l -> has (Tuple (ArbitraryLen t)) (VTup l)
| h_many b t a l m r : Forall2 has b l -> Forall (has t) m -> Forall2 has a r -> has (Tuple (WithUnpack (mk_unpack b (Many t) a))) (VTup (l ++ m ++ r))
| h_tuple_var b n a l m r : Forall2 has b l -> Forall2 has a r -> has (Tuple (WithUnpack (mk_unpack b (TypeVarTuple n) a))) (VTup (l ++ m ++ r))
| h_union ts t v : In t ts -> has t v -> has (Union ts) v
| h_bound n t v : has t v -> has (TypeVar n (Some t)) v
| h_new n t v : has t v -> has (NewType n t) v
| h_rec n t v : has t v -> has (Recursive n t) v.

Definition items (c : N) (gs : list type) : class_items :=
  if (c =? c_list) || (c =? c_sequence) then match gs with [t] => ItemsOf t | _ => NoItems end
  else if c =? c_str then ItemsOf str
  else NoItems.

(** Unions of the members *)
Definition join (ts : list type) : type := Union (flat_map members ts).
Definition avoid (t : type) : type := t.

Lemma has_members t : forall v, has t v -> exists m, In m (members t) /\ has m v.
Proof.
  induction t as [| | |c gs|s|a|ts IH|n b IH|n t IH|n t IH] using type_induction; intros v Hv; try (eexists; split; [left; reflexivity|exact Hv]).
  - inversion Hv as [| | | | | | | | | | | | | |ts' t v' Ht Hvt| | |]; subst. rewrite Forall_forall in IH. specialize (IH t Ht v Hvt). cbn [members].
    destruct t; try (eexists; split; [apply in_flat_map; eexists; split; [exact Ht|left; reflexivity]|exact Hvt]).
    destruct IH as (m & Hm & Hvm). exists m. split; [|exact Hvm]. apply in_flat_map. eexists. split; [exact Ht|exact Hm].
  - inversion Hv; subst. cbn [members]. apply IH. assumption.
Qed.

Lemma has_join_ ts t v : In t ts -> has t v -> has (join ts) v.
Proof. intros Ht Hv. destruct (has_members _ _ Hv) as (m & Hm & Hv'). apply (h_union _ m); [|exact Hv']. apply in_flat_map. exists t. auto. Qed.

Lemma world : lawful iterates list_value has stands_for c_list c_str c_object items join join avoid.
Proof.
  constructor.
  - apply h_any.
  - intros v H. inversion H.
  - intros v vs H Hi. inversion H; subst. inversion Hi.
  - intros ts v H. inversion H; subst. eexists. split; eassumption.
  - intros a v H. inversion H; subst; (eexists; split; [constructor|]); cbn; auto; do 3 eexists; (split; [reflexivity|]); cbn; repeat split; auto.
  - intros n t v H. inversion H; subst. assumption.
  - intros n t v H. inversion H; subst. assumption.
  - intros n t v H. inversion H; subst. assumption.
  - intros s v H. inversion H; subst. constructor.
  - apply h_object.
  - intros t l vs -> H. constructor. exact H.
  - intros vs. exists (VLst vs). reflexivity.
  - intros l vs ->. constructor.
  - intros v vs ws H1 H2. inversion H1; subst; inversion H2; reflexivity.
  - intros c gs t v vs Hi Hv Hit. inversion Hv; subst; vm_compute in Hi; try discriminate; injection Hi as <-; inversion Hit; subst; auto.
    apply Forall_forall. intros x Hx. apply in_map_iff in Hx. destruct Hx as (y & <- & _). constructor.
  - intros c gs a v vs Hi. exfalso. unfold items in Hi. destruct (_ || _); [destruct gs as [|? [|? ?]]; discriminate|]. destruct (_ =? _); discriminate.
  - apply has_join_.
  - apply has_join_.
  - auto.
Qed.

Lemma world_flat : flat_laws items join join avoid.
Proof.
  assert (HJ : forall ts, forallb flat ts = true -> flat (join ts) = true).
  { intros ts H. cbn. rewrite forallb_forall in H. apply andb_true_iff. split; apply forallb_forall; intros m Hm; apply in_flat_map in Hm; destruct Hm as (t & Ht & Hm).
    - exact (proj1 (members_flat t (H t Ht) m Hm)).
    - pose proof (proj2 (members_flat t (H t Ht) m Hm)) as Hl. destruct m; try reflexivity; apply Nat.leb_le; exact Hl. }
  constructor; auto. intros c gs H. unfold items. destruct (_ || _); [|destruct (_ =? _); [reflexivity|exact I]]. destruct gs as [|t [|? ?]]; try exact I. cbn in H. rewrite andb_true_r in H. exact H.
Qed.

Definition no_definition (t : target) : bool := false.
Definition iter_ := UnpackModel.iter c_str items.
Definition assign_ := assign_targets c_list c_str c_object items join join avoid no_definition.
Definition infer_all_ := infer_all c_object join.
Definition infer_tuple_ := infer_tuple c_str c_object items join join avoid.

(** * Unpacking *)
(** What is assigned to a name has one of the types that were assigned to it, whether or not there are issues. *)
Theorem C55_unpack_sound {V : Type} (iterates list_value : V -> list V -> Prop) (has : type -> V -> Prop) (stands_for : N -> list V -> Prop)
    (list_class str_class object_class : N) (items : N -> list type -> class_items) (join union : list type -> type) (avoid : type -> type) (defined : target -> bool) :
  lawful iterates list_value has stands_for list_class str_class object_class items join union avoid ->
  forall t ty v is bts bvs, has ty v -> assign_targets list_class str_class object_class items join union avoid defined t ty = Some (is, bts) ->
  assigned iterates list_value t v bvs ->
  forall n x, In (n, x) bvs -> exists ty', In (n, ty') bts /\ has ty' x.
Proof.
  intros L t ty v is bts bvs Hv He Ha n x Hin.
  pose proof (assign_sound _ _ _ _ _ _ _ _ _ _ _ defined L t ty v is bts bvs (has_suits _ _ _ _ _ _ Hv) He Ha) as Hw. unfold well in Hw. rewrite Forall_forall in Hw. exact (Hw _ Hin).
Qed.

(** Where only tuples are unpacked, unpacking without an issue never fails. *)
Theorem C55_unpack_succeeds_partial {V : Type} (iterates list_value : V -> list V -> Prop) (has : type -> V -> Prop) (stands_for : N -> list V -> Prop)
    (list_class str_class object_class : N) (items : N -> list type -> class_items) (join union : list type -> type) (avoid : type -> type) (defined : target -> bool) :
  lawful iterates list_value has stands_for list_class str_class object_class items join union avoid ->
  forall t ty v bts, starred t = false -> destructured false t ty -> has ty v ->
  assign_targets list_class str_class object_class items join union avoid defined t ty = Some ([], bts) ->
  exists bvs, assigned iterates list_value t v bvs.
Proof.
  intros L t ty v bts Hst Ht Hv He. exact (assign_succeeds _ _ _ _ _ _ _ _ _ _ _ defined L t ty v bts Hst Ht (or_introl Hv) He).
Qed.

(** If the lengths of the tuples are known, an issue means that unpacking fails, for every value. *)
Theorem C55_unpack_reports_partial {V : Type} (iterates list_value : V -> list V -> Prop) (has : type -> V -> Prop) (stands_for : N -> list V -> Prop)
    (list_class str_class object_class : N) (items : N -> list type -> class_items) (join union : list type -> type) (avoid : type -> type) (defined : target -> bool) :
  lawful iterates list_value has stands_for list_class str_class object_class items join union avoid ->
  forall t ty v is bts, destructured true t ty -> has ty v ->
  assign_targets list_class str_class object_class items join union avoid defined t ty = Some (is, bts) -> is <> [] ->
  forall bvs, ~ assigned iterates list_value t v bvs.
Proof.
  intros L t ty v is bts Ht Hv He Hne bvs Ha.
  destruct (assign_accepts _ _ _ _ _ _ _ _ _ _ _ defined L t ty v bvs Ht (or_introl Hv) Ha) as (b & Hb). rewrite Hb in He. injection He as <- _. exact (Hne eq_refl).
Qed.

(** Unpacking does not panic, if there are no unions in unions but by an alias. *)
Theorem C55_unpack_no_panic (list_class str_class object_class : N) (items : N -> list type -> class_items) (join union : list type -> type) (avoid : type -> type) (defined : target -> bool) :
  flat_laws items join union avoid ->
  forall t ty, flat ty = true -> assign_targets list_class str_class object_class items join union avoid defined t ty <> None.
Proof. intros F t ty Hf. exact (assign_runs list_class str_class object_class items join union avoid defined F t ty Hf). Qed.

(** [a, (b, *c) = (1, ("", 2, 3))] *)
Definition nested_target : target := Targets [Name 1; Targets [Name 2; Starred (Name 3)]].
Definition nested_type : type := Tuple (FixedLen [int; Tuple (WithUnpack (mk_unpack [str] (Many int) []))]).
Definition nested_value : value := VTup [VInt 1; VTup [VStr []; VInt 2; VInt 3]].

Example nested_assigned :
  assign_ nested_target nested_type = Some ([], [(1, int); (2, str); (3, Class c_list [Union [int]])]) /\
  destructured false nested_target nested_type /\ has nested_type nested_value /\
  assigned iterates list_value nested_target nested_value [(1, VInt 1); (2, VStr []); (3, VLst [VInt 2; VInt 3])].
Proof.
  split; [vm_compute; reflexivity|]. split; [|split].
  - apply de_fixed. apply al_item; [reflexivity|constructor|]. apply al_item; [reflexivity| |constructor]. apply de_unpack; [reflexivity| |].
    + intros t ty [<-|[<-|[]]] Hs _; [constructor|discriminate].
    + intros t [E|[E|[]]]; [discriminate|]. injection E as <-. eexists. reflexivity.
  - constructor. constructor; [constructor|]. constructor; [|constructor]. apply (h_many [str] int [] [VStr []] [VInt 2; VInt 3] []); repeat constructor.
  - econstructor; [constructor|]. apply (as_item _ _ (Name 1) _ _ _ [(1, VInt 1)]); [reflexivity|constructor|].
    change [(2, VStr []); (3, VLst [VInt 2; VInt 3])] with ([(2, VStr []); (3, VLst [VInt 2; VInt 3])] ++ []).
    apply as_item; [reflexivity| |constructor]. econstructor; [constructor|].
    apply (as_item _ _ (Name 2) _ _ _ [(2, VStr [])]); [reflexivity|constructor|].
    apply (as_star _ _ (Name 3) (VLst [VInt 2; VInt 3]) [VInt 2; VInt 3] [] [] [(3, VLst [VInt 2; VInt 3])] []); [reflexivity|reflexivity|reflexivity|constructor|constructor].
Qed.

Example too_few : assign_ (Targets [Name 1; Name 2]) (Tuple (FixedLen [int])) = Some ([TooFewValues 1 2], [(1, Any); (2, Any)]) /\ destructured true (Targets [Name 1; Name 2]) (Tuple (FixedLen [int])).
Proof. split; [vm_compute; reflexivity|]. apply de_fixed. apply al_item; [reflexivity|constructor|]. apply al_short. reflexivity. Qed.

(** A type variable bound to [A | str], where the alias [A] is a union: the unions are unpacked once, and [unreachable!()] is reached. *)
Definition bound_to_unions : type := TypeVar 7 (Some (Union [Recursive 8 (Union [Tuple (FixedLen [int; int]); Class c_list [int]]); str])).

Theorem C55_unpack_panics : assign_ (Targets [Name 1; Name 2]) bound_to_unions = None /\
  exists v bvs, has bound_to_unions v /\ assigned iterates list_value (Targets [Name 1; Name 2]) v bvs.
Proof.
  split; [vm_compute; reflexivity|]. exists (VTup [VInt 1; VInt 2]), [(1, VInt 1); (2, VInt 2)]. split.
  - constructor. eapply h_union; [left; reflexivity|]. constructor. eapply h_union; [left; reflexivity|]. constructor. repeat constructor.
  - econstructor; [constructor|]. apply (as_item _ _ (Name 1) _ _ _ [(1, VInt 1)]); [reflexivity|constructor|]. apply (as_item _ _ (Name 2) _ _ _ [(2, VInt 2)]); [reflexivity|constructor|constructor].
Qed.

(** [a, b, *c = t] is reported for [t: tuple[int, *tuple[str, ...], bytes]], though it never fails. *)
Definition int_strs_bytes : type := Tuple (WithUnpack (mk_unpack [int] (Many str) [bytes])).

Theorem C55_star_target_refuted :
  fst (match assign_ (Targets [Name 1; Name 2; Starred (Name 3)]) int_strs_bytes with Some r => r | None => ([], []) end) = [TooManyTargetsForVariadic] /\
  (exists v, has int_strs_bytes v) /\
  forall v, has int_strs_bytes v -> exists bvs, assigned iterates list_value (Targets [Name 1; Name 2; Starred (Name 3)]) v bvs.
Proof.
  split; [vm_compute; reflexivity|]. split.
  - exists (VTup ([VInt 1] ++ [] ++ [VBytes])). apply h_many; repeat constructor.
  - intros v H. inversion H as [| | | | | | | | | | | |b t a l m r Hb Hm Ha| | | | |]; subst.
    inversion Hb as [|? x ? ? Hx Hn]; subst. inversion Hn; subst. inversion Ha as [|? y ? ? Hy Hn2]; subst. inversion Hn2; subst.
    cbn [app]. assert (Hr : exists z zs, m ++ [y] = z :: zs) by (destruct m; do 2 eexists; reflexivity). destruct Hr as (z & zs & ->).
    exists ([(1, x)] ++ [(2, z)] ++ [(3, VLst zs)] ++ []). econstructor; [constructor|].
    apply as_item; [reflexivity|constructor|]. apply as_item; [reflexivity|constructor|]. rewrite <- (app_nil_r zs) at 1. apply (as_star _ _ (Name 3) (VLst zs)); [reflexivity|reflexivity|reflexivity|constructor|constructor].
Qed.

(** The length of a string literal is counted in bytes: [a, b = "ä"] is not reported though it fails, [(a,) = "ä"] is reported though it does not. *)
Definition umlaut : type := Literal [228].

Theorem C55_string_missed_refuted :
  assign_ (Targets [Name 1; Name 2]) umlaut = Some ([], [(1, str); (2, str)]) /\ (exists v, has umlaut v) /\
  forall v bvs, has umlaut v -> ~ assigned iterates list_value (Targets [Name 1; Name 2]) v bvs.
Proof.
  split; [vm_compute; reflexivity|]. split; [eexists; constructor|]. intros v bvs H Ha. inversion H; subst. inversion Ha as [|ts v vs bs Hi Hall]; subst.
  inversion Hi; subst. cbn in Hall. apply assigned_free_length in Hall; [discriminate|reflexivity].
Qed.

Theorem C55_string_reported_refuted :
  assign_ (Targets [Name 1]) umlaut = Some ([StringUnpacked], [(1, str)]) /\ (exists v, has umlaut v) /\
  forall v, has umlaut v -> exists bvs, assigned iterates list_value (Targets [Name 1]) v bvs.
Proof.
  split; [vm_compute; reflexivity|]. split; [eexists; constructor|]. intros v H. inversion H; subst. exists ([(1, VStr [228])] ++ []).
  econstructor; [constructor|]. cbn. apply (as_item _ _ (Name 1) _ _ _ [(1, VStr [228])] []); [reflexivity|constructor|constructor].
Qed.

(** A string is reported, whatever the targets are. *)
Theorem C55_string_reported (list_class str_class object_class : N) (items : N -> list type -> class_items) (join union : list type -> type) (avoid : type -> type) (defined : target -> bool) :
  forall ts ty gs is bts, (ty = Class str_class gs \/ exists tys, ty = Union tys /\ In (Class str_class gs) tys) ->
  assign_targets list_class str_class object_class items join union avoid defined (Targets ts) ty = Some (is, bts) -> In StringUnpacked is.
Proof.
  intros ts ty gs is bts Hty He. cbn [assign_targets] in He. assert (Hm : In (Class str_class gs) (members ty)).
  { destruct Hty as [->|(tys & -> & Hin)]; [left; reflexivity|]. cbn [members]. apply in_flat_map. exists (Class str_class gs). split; [exact Hin|left; reflexivity]. }
  destruct (in_sequence_result _ _ _ _ He _ Hm) as (i1 & b1 & H1 & _ & Hincl). apply Hincl. unfold assign_member in H1. apply seq_result in H1.
  destruct H1 as (i2 & b2 & i3 & b3 & H2 & _ & [= -> ->]). cbn [is_unpacked_string] in H2. rewrite N.eqb_refl in H2. injection H2 as <- <-. left. reflexivity.
Qed.

Example string_reported : assign_ (Targets [Name 1; Name 2]) (Union [Tuple (FixedLen [int; int]); str]) = Some ([StringUnpacked], [(1, int); (2, int); (1, str); (2, str)]).
Proof. vm_compute. reflexivity. Qed.

(** A string literal of ASCII characters is reported if and only if its length is not the number of names. *)
Theorem C55_string_literal_partial (list_class str_class object_class : N) (items : N -> list type -> class_items) (join union : list type -> type) (avoid : type -> type) (defined : target -> bool) :
  forall s ns item, Forall (fun c => c < 128) s -> items str_class [] = ItemsOf item ->
  assign_targets list_class str_class object_class items join union avoid defined (Targets (map Name ns)) (Literal s) =
  Some (if Nat.eqb (length s) (length ns) then [] else [StringUnpacked], map (fun n => (n, item)) ns).
Proof.
  intros s ns item Hs Hi. cbn [assign_targets members]. unfold in_sequence, assign_member. cbn [is_unpacked_string iter]. unfold class_iter. rewrite Hi. rewrite map_length.
  assert (Hb : byte_length s = length s).
  { induction Hs as [|c s Hc Hs IH]; [reflexivity|]. cbn [byte_length fold_right length]. change (fold_right _ _ s) with (byte_length s). rewrite IH. unfold utf8_length.
    apply N.ltb_lt in Hc. rewrite Hc. reflexivity. }
  rewrite Hb. unfold assign_tuple_target. cbn [iterator_len].
  assert (Hc : forall b, count_targets (map Name ns) b 0 0 = (0%nat, FixedLength (b + length ns)%nat)).
  { clear. induction ns as [|n ns IH]; intros b; cbn [map count_targets length]; [cbn; rewrite Nat.add_0_r; reflexivity|]. cbn [Nat.ltb Nat.leb]. rewrite IH. f_equal. f_equal. rewrite Nat.add_succ_r. reflexivity. }
  unfold targets_len_infos. rewrite Hc. cbn [length_issue app Nat.ltb Nat.leb].
  assert (He : forall f, f = assign_targets list_class str_class object_class items join union avoid defined ->
    assign_each list_class object_class join union avoid defined f (map Name ns) 0 (Items item) = Some ([], map (fun n => (n, item)) ns)).
  { clear. intros f ->. induction ns as [|n ns IH]; [reflexivity|]. cbn [map assign_each unpack_next unpack_next_with]. cbn [unpack_next unpack_next_with]. unfold unpack_next, unpack_next_with. cbn [assign_targets]. unfold seq at 1. rewrite IH. reflexivity. }
  change (fix assign_targets (t : target) (value : type) {struct t} : result := _) with (assign_targets list_class str_class object_class items join union avoid defined).
  rewrite (He _ eq_refl). destruct (Nat.eqb (length s) (length ns)); cbn [negb report seq app]; rewrite app_nil_r; reflexivity.
Qed.

Example ascii_literal : assign_ (Targets (map Name [1; 2])) (Literal [97; 98; 99]) = Some ([StringUnpacked], [(1, str); (2, str)]) /\
  assign_ (Targets (map Name [1; 2])) (Literal [97; 98]) = Some ([], [(1, str); (2, str)]).
Proof. split; vm_compute; reflexivity. Qed.

(** * Loops *)
(** The parts of a type: the members of unions, of what a type variable is bound to, and of what is behind NewTypes and aliases *)
Inductive part : type -> type -> Prop :=
| part_union ts t m : In t ts -> part t m -> part (Union ts) m
| part_bound n t m : part t m -> part (TypeVar n (Some t)) m
| part_new_type n t m : part t m -> part (NewType n t) m
| part_recursive n t m : part t m -> part (Recursive n t) m
| part_none : part NoneType NoneType
| part_any : part Any Any
| part_class c gs : part (Class c gs) (Class c gs)
| part_literal s : part (Literal s) (Literal s)
| part_unbound n : part (TypeVar n None) (TypeVar n None).

Section Iterable.
(** [iterable v]: [iter(v)] works *)
Context {V : Type} (iterable : V -> Prop) (has : type -> V -> Prop) (str_class : N) (items : N -> list type -> class_items).
Hypothesis union_values : forall ts v, has (Union ts) v -> exists t, In t ts /\ has t v.
Hypothesis bound_values : forall n t v, has (TypeVar n (Some t)) v -> has t v.
Hypothesis new_type_values : forall n t v, has (NewType n t) v -> has t v.
Hypothesis recursive_values : forall n t v, has (Recursive n t) v -> has t v.
Hypothesis no_never : forall v, ~ has Never v.
Hypothesis tuples_iterable : forall a v, has (Tuple a) v -> iterable v.
Hypothesis literals_str : forall s v, has (Literal s) v -> has (Class str_class []) v.
Hypothesis classes_iterable : forall c gs v, has (Class c gs) v -> items c gs <> NoItems -> iterable v.

(** If the loop over a value is not reported, the value can be iterated over, unless [Any] is a part of its type. *)
Theorem C55_iterable t v : fst (iter str_class items t) = [] -> ~ part t Any -> has t v -> iterable v.
Proof.
  revert v. induction t as [| | |c gs|s|a|ts IH|n b IH|n t IH|n t IH] using type_induction; intros v He Hp Hv; cbn [iter fst] in He.
  - destruct (Hp part_any).
  - destruct (no_never _ Hv).
  - discriminate.
  - apply (classes_iterable _ _ _ Hv). intros Hd. unfold class_iter in He. rewrite Hd in He. discriminate.
  - apply literals_str in Hv. apply (classes_iterable _ _ _ Hv). intros Hd. unfold class_iter in He. rewrite Hd in He. discriminate.
  - exact (tuples_iterable _ _ Hv).
  - destruct (union_values _ _ Hv) as (t & Ht & Htv). rewrite Forall_forall in IH. apply (IH _ Ht); [|intros H; exact (Hp (part_union _ _ _ Ht H))|exact Htv].
    rewrite map_map in He. destruct (fst (iter str_class items t)) as [|i is] eqn:E; [reflexivity|]. exfalso.
    assert (Hin : In i (concat (map (fun t => fst (iter str_class items t)) ts))).
    { apply in_concat. exists (i :: is). split; [|left; reflexivity]. apply in_map_iff. exists t. auto. }
    rewrite He in Hin. exact Hin.
  - destruct b as [t|]; [|discriminate]. exact (IH _ He (fun H => Hp (part_bound _ _ _ H)) (bound_values _ _ _ Hv)).
  - exact (IH _ He (fun H => Hp (part_new_type _ _ _ H)) (new_type_values _ _ _ Hv)).
  - exact (IH _ He (fun H => Hp (part_recursive _ _ _ H)) (recursive_values _ _ _ Hv)).
Qed.

End Iterable.

(** It is reported only if a part of the type is [None], a class without [__iter__], or a type variable of which nothing is known. *)
Definition without_items (str_class : N) (items : N -> list type -> class_items) (m : type) : Prop :=
  match m with
  | NoneType | TypeVar _ None => True
  | Class c gs => items c gs = NoItems
  | Literal _ => items str_class [] = NoItems
  | _ => False
  end.

Theorem C55_not_iterable (str_class : N) (items : N -> list type -> class_items) t : fst (iter str_class items t) <> [] ->
  exists m, part t m /\ without_items str_class items m.
Proof.
  induction t as [| | |c gs|s|a|ts IH|n b IH|n t IH|n t IH] using type_induction; intros He; cbn [iter fst] in He.
  - destruct (He eq_refl).
  - destruct (He eq_refl).
  - exists NoneType. split; [constructor|exact I].
  - exists (Class c gs). split; [constructor|]. unfold class_iter in He. cbn [without_items]. destruct (items c gs); [destruct (He eq_refl)|destruct (He eq_refl)|reflexivity].
  - exists (Literal s). split; [constructor|]. unfold class_iter in He. cbn [without_items]. destruct (items str_class []); [destruct (He eq_refl)|destruct (He eq_refl)|reflexivity].
  - destruct (He eq_refl).
  - rewrite map_map in He. destruct (concat (map (fun t => fst (iter str_class items t)) ts)) as [|i is] eqn:E; [destruct (He eq_refl)|].
    assert (Hin : In i (concat (map (fun t => fst (iter str_class items t)) ts))) by (rewrite E; left; reflexivity).
    apply in_concat in Hin. destruct Hin as (l & Hl & Hi). apply in_map_iff in Hl. destruct Hl as (t & <- & Ht).
    rewrite Forall_forall in IH. destruct (IH _ Ht) as (m & Hm & Hv); [intros H; rewrite H in Hi; exact Hi|]. exists m. split; [exact (part_union _ _ _ Ht Hm)|exact Hv].
  - destruct b as [t|].
    + destruct (IH He) as (m & Hm & Hv). exists m. split; [exact (part_bound _ _ _ Hm)|exact Hv].
    + exists (TypeVar n None). split; [constructor|exact I].
  - destruct (IH He) as (m & Hm & Hv). exists m. split; [exact (part_new_type _ _ _ Hm)|exact Hv].
  - destruct (IH He) as (m & Hm & Hv). exists m. split; [exact (part_recursive _ _ _ Hm)|exact Hv].
Qed.

(** The laws hold for the values above. *)
Definition can_iterate (v : value) : Prop := match v with VTup _ | VLst _ | VStr _ => True | _ => False end.

Theorem C55_iterable_world t v : fst (iter_ t) = [] -> ~ part t Any -> has t v -> can_iterate v.
Proof.
  apply (C55_iterable can_iterate has c_str items).
  - intros ts w H. inversion H as [| | | | | | | | | | | | | |ts' t' w' Hin Hw| | |]; subst. exists t'. auto.
  - intros n t' w H. inversion H; subst; assumption.
  - intros n t' w H. inversion H; subst; assumption.
  - intros n t' w H. inversion H; subst; assumption.
  - intros w H. inversion H.
  - intros a w H. inversion H; subst; exact I.
  - intros s w H. inversion H; subst. constructor.
  - intros c gs w H Hi. inversion H; subst; try exact I; destruct Hi; reflexivity.
Qed.

Example iterable_union : fst (iter_ (Union [Tuple (FixedLen [int; bytes]); str])) = [] /\ fst (iter_ (Union [NoneType; Recursive 8 (Union [str; TypeVar 3 (Some int)])])) = [NotIterable; NotIterable].
Proof. split; vm_compute; reflexivity. Qed.

(** The items of a value have the type of the variable of a loop over it, if the types behind a part of any length are not lost. *)
Theorem C55_loop_partial {V : Type} (iterates list_value : V -> list V -> Prop) (has : type -> V -> Prop) (stands_for : N -> list V -> Prop)
    (list_class str_class object_class : N) (items : N -> list type -> class_items) (join union : list type -> type) (avoid : type -> type) :
  lawful iterates list_value has stands_for list_class str_class object_class items join union avoid ->
  forall t v vs, covered (snd (iter str_class items t)) -> has t v -> iterates v vs -> Forall (has (infer_all object_class union (snd (iter str_class items t)))) vs.
Proof. intros L t v vs. exact (loop_sound _ _ _ _ _ _ _ _ _ _ _ L t v vs). Qed.

Example loop_union : covered (snd (iter_ (Union [Tuple (FixedLen [int; bytes]); str]))) /\ infer_all_ (snd (iter_ (Union [Tuple (FixedLen [int; bytes]); str]))) = Union [int; bytes; str].
Proof. split; [cbn; auto|vm_compute; reflexivity]. Qed.

(** [for x in t], [t: tuple[int, *tuple[str, ...], bytes]]: the last item is forgotten, [x] is [int | str]. *)
Theorem C55_loop_refuted : exists v vs, has int_strs_bytes v /\ iterates v vs /\ ~ Forall (has (infer_all_ (snd (iter_ int_strs_bytes)))) vs.
Proof.
  exists (VTup ([VInt 1] ++ [] ++ [VBytes])), [VInt 1; VBytes]. split; [apply h_many; repeat constructor|]. split; [constructor|].
  change (infer_all_ (snd (iter_ int_strs_bytes))) with (Union [int; str; int]). intros H. apply Forall_inv_tail, Forall_inv in H.
  inversion H as [| | | | | | | | | | | | | |ts t v Hin Hv| | |]; subst. destruct Hin as [<-|[<-|[<-|[]]]]; inversion Hv.
Qed.

(** * Displays *)
Theorem C55_display_partial {V : Type} (iterates list_value : V -> list V -> Prop) (has : type -> V -> Prop) (stands_for : N -> list V -> Prop)
    (list_class str_class object_class : N) (items : N -> list type -> class_items) (join union : list type -> type) (avoid : type -> type) :
  lawful iterates list_value has stands_for list_class str_class object_class items join union avoid ->
  forall es vs is a, infer_tuple str_class object_class items join union avoid es = Some (is, Tuple a) -> displayed iterates has es vs ->
  (forall t, a <> ArbitraryLen t) \/ Forall (fun e => match e with One _ => True | Star t => covered (snd (iter str_class items t)) end) es ->
  is_tuple has stands_for a vs.
Proof. intros L es vs is a He Hd Hc. exact (display_sound _ _ _ _ _ _ _ _ _ _ _ L es vs is a He Hd Hc). Qed.

Theorem C55_display_no_panic (str_class object_class : N) (items : N -> list type -> class_items) (join union : list type -> type) (avoid : type -> type) :
  forall es, exists is a, infer_tuple str_class object_class items join union avoid es = Some (is, Tuple a).
Proof. intros es. exact (display_runs str_class object_class items join union avoid es). Qed.

(** [x = 1, *t, *y] with [y: tuple[int, str]] is [tuple[int, int, *tuple[str, ...], bytes, int, str]]. *)
Example display_example : infer_tuple_ [One int; Star int_strs_bytes; Star (Tuple (FixedLen [int; str]))] =
  Some ([], Tuple (WithUnpack (mk_unpack [int; int] (Many str) [bytes; int; str]))).
Proof. vm_compute. reflexivity. Qed.

(** [x = *t, *t] forgets the last items, too. *)
Theorem C55_display_refuted : exists vs a, infer_tuple_ [Star int_strs_bytes; Star int_strs_bytes] = Some ([], Tuple a) /\
  displayed iterates has [Star int_strs_bytes; Star int_strs_bytes] vs /\ ~ is_tuple has stands_for a vs.
Proof.
  exists ([VInt 1; VBytes] ++ [VInt 1; VBytes] ++ []), (ArbitraryLen (Union [int; str; int; int; str; int])). split; [vm_compute; reflexivity|].
  assert (Hv : has int_strs_bytes (VTup ([VInt 1] ++ [] ++ [VBytes]))) by (apply h_many; repeat constructor). split.
  - econstructor; [exact Hv|constructor|]. econstructor; [exact Hv|constructor|constructor].
  - intros H. cbn in H. apply Forall_inv_tail, Forall_inv in H. inversion H as [| | | | | | | | | | | | | |ts t v Hin Hw| | |]; subst.
    destruct Hin as [<-|[<-|[<-|[<-|[<-|[<-|[]]]]]]]; inversion Hw.
Qed.

(** * Sequence patterns *)
Section Patterns.
Context {V P : Type}.
Variables (iterates list_value : V -> list V -> Prop) (has : type -> V -> Prop) (stands_for : N -> list V -> Prop)
    (list_class str_class object_class sequence_class : N) (items : N -> list type -> class_items) (join union : list type -> type) (avoid : type -> type)
    (matches : P -> V -> Prop) (guards : P -> type -> type * type) (is_never : type -> bool) (name_defined : N -> bool).
Hypothesis L : lawful iterates list_value has stands_for list_class str_class object_class items join union avoid.
Hypothesis G : pattern_laws has matches guards is_never.

Local Notation match_tuple := (match_tuple list_class object_class join union avoid guards is_never name_defined).

(** If a tuple matches, every item has the type the pattern of the item was matched against, and the rest has its type; as long as the patterns on both sides of a
    rest have items of their own, in front of and behind a part of any length. *)
Theorem C55_pattern_bindings_partial a ps r vs ms rs : match_tuple a ps = Some r -> is_tuple has stands_for a vs ->
  (forall w, a = WithUnpack w -> existsb is_rest ps = true -> (rest_before ps <= length (before w))%nat /\ (rest_after ps <= length (after w))%nat) ->
  aligned list_value ps vs ms rs -> Forall (fun m => matches (fst m) (snd m)) ms ->
  Forall2 (fun m t => fst m = fst t /\ has (snd t) (snd m)) ms (matched r) /\ Forall2 (fun m t => fst m = fst t /\ has (snd t) (snd m)) rs (rest r).
Proof.
  intros He Ht Ho Ha HF. apply (pattern_bindings _ _ _ _ _ _ _ _ _ _ _ L matches guards is_never name_defined G a ps r vs ms rs He); auto. destruct a; cbn; auto.
Qed.

(** If a tuple matches, it has the narrowed type; as long as there is no part of any length or no rest. *)
Theorem C55_pattern_truthy_partial a ps r vs : match_tuple a ps = Some r -> is_tuple has stands_for a vs -> (forall w, a = WithUnpack w -> existsb is_rest ps = false) ->
  sequence_matches list_value matches ps vs -> exists a', truthy r = Tuple a' /\ is_tuple has stands_for a' vs.
Proof.
  intros He Ht Hk Hm. apply (pattern_truthy _ _ _ _ _ _ _ _ _ _ _ L matches guards is_never name_defined G a ps r vs He); auto. destruct a as [ts|t|w]; cbn; auto. exact (Hk w eq_refl).
Qed.

(** A tuple that may not match is not narrowed to [Never]. *)
Theorem C55_pattern_falsey_partial a ps r vs : match_tuple a ps = Some r -> is_tuple has stands_for a vs ->
  (forall w, a = WithUnpack w -> existsb is_rest ps = true -> (rest_before ps <= length (before w))%nat /\ (rest_after ps <= length (after w))%nat) ->
  sequence_matches list_value matches ps vs \/ falsey r = Tuple a.
Proof.
  intros He Ht Ho. apply (pattern_falsey _ _ _ _ _ _ _ _ _ _ _ L matches guards is_never name_defined G a ps r vs He); auto. destruct a; cbn; auto.
Qed.

(** Other sequences: the items have the type the patterns were matched against; the class [Sequence] is narrowed to the types of the patterns, without a rest. *)
Theorem C55_sequence_bindings exact container t ps vs ms rs : Forall (has container) vs -> aligned list_value ps vs ms rs ->
  let r := match_sequence list_class union guards sequence_class exact container t ps in
  Forall2 (fun m t => fst m = fst t /\ has (snd t) (snd m)) ms (matched r) /\ Forall2 (fun m t => fst m = fst t /\ has (snd t) (snd m)) rs (rest r).
Proof. exact (sequence_bindings _ _ _ _ _ _ _ _ _ _ _ L matches guards is_never G sequence_class exact container t ps vs ms rs). Qed.

Theorem C55_sequence_truthy_partial container t ps vs : existsb is_rest ps = false -> Forall (has container) vs -> sequence_matches list_value matches ps vs ->
  exists item, truthy (match_sequence list_class union guards sequence_class true container t ps) = Class sequence_class [item] /\ Forall (has item) vs.
Proof. exact (sequence_truthy _ _ _ _ _ _ _ _ _ _ _ L matches guards is_never G sequence_class container t ps vs). Qed.

(** A class that is not [Sequence] itself is not narrowed, and no sequence is narrowed if it does not match. *)
Theorem C55_sequence_kept exact container t ps :
  let r := match_sequence list_class union guards sequence_class exact container t ps in
  (exact = false -> truthy r = t) /\ falsey r = t /\ p_issues r = [].
Proof. cbv zeta. unfold match_sequence. destruct (assign_sequence_patterns list_class guards container ps) as [[ts ms] rs]. cbn. split; [intros ->; reflexivity|auto]. Qed.
End Patterns.

Theorem C55_pattern_no_panic {P : Type} (list_class object_class : N) (join union : list type -> type) (avoid : type -> type)
    (guards : P -> type -> type * type) (is_never : type -> bool) (name_defined : N -> bool) :
  forall a ps, match_tuple list_class object_class join union avoid guards is_never name_defined a ps <> None.
Proof. intros a ps. exact (pattern_runs list_class object_class join union avoid guards is_never name_defined a ps). Qed.

(** Patterns for the examples: [x] (or [_]) and [int()] *)
Inductive pattern := Capture | IsInt.
Definition matches (p : pattern) (v : value) : Prop := match p with Capture => True | IsInt => exists n, v = VInt n end.
Definition guards (p : pattern) (t : type) : type * type := match p with Capture => (t, Never) | IsInt => (int, t) end.
Definition is_never (t : type) : bool := match t with Never => true | _ => false end.

Lemma world_patterns : pattern_laws has matches guards is_never.
Proof.
  constructor.
  - intros [|] t v Hv Hm; [exact Hv|]. destruct Hm as (n & ->). constructor.
  - intros [|] t v Hv; [left; exact I|]. right. exact Hv.
  - intros t v E H. destruct t; try discriminate. inversion H.
Qed.

Definition match_ := match_tuple c_list c_object join join avoid guards is_never (fun _ => false).
Definition no_result : pattern_result := @mk_result pattern Never Never [] [] [].
Definition matched_ (a : args type) (ps : list (@sequence_item pattern)) := match match_ a ps with Some r => r | None => no_result end.

(** [case (x, int(), *rest)], the tuple is [tuple[str, int | str, *tuple[str, ...], bytes]] *)
Example pattern_example :
  let a := WithUnpack (mk_unpack [str; Union [int; str]] (Many str) [bytes]) in
  matched (matched_ a [Entry Capture; Entry IsInt; Rest (Some 1)]) = [(Capture, str); (IsInt, Union [int; str])] /\
  rest (matched_ a [Entry Capture; Entry IsInt; Rest (Some 1)]) = [(1, Class c_list [Union [str; bytes]])] /\
  falsey (matched_ a [Entry Capture; Entry IsInt; Rest (Some 1)]) = Tuple a /\
  le (rest_before [Entry Capture; Entry IsInt; Rest (Some 1)]) 2 /\ le (rest_after [Entry Capture; Entry IsInt; Rest (Some 1)]) 1 /\
  sequence_matches list_value matches [Entry Capture; Entry IsInt; Rest (Some 1)] [VStr []; VInt 2; VStr []; VBytes].
Proof.
  cbv zeta. split; [vm_compute; reflexivity|]. split; [vm_compute; reflexivity|]. split; [vm_compute; reflexivity|]. split; [repeat constructor|]. split; [repeat constructor|].
  do 2 eexists. split.
  - apply al_entry, al_entry. apply (al_rest _ (Some 1) (VLst [VStr []; VBytes]) [VStr []; VBytes] [] []); [reflexivity|reflexivity|constructor].
  - constructor; [exact I|]. constructor; [exists 2; reflexivity|constructor].
Qed.

(** [case (x, int())] for [tuple[str, int | str]]: narrowed, and nothing is left out. *)
Example pattern_narrows :
  truthy (matched_ (FixedLen [str; Union [int; str]]) [Entry Capture; Entry IsInt]) = Tuple (FixedLen [str; int]) /\
  falsey (matched_ (FixedLen [str; str]) [Entry Capture; Entry Capture]) = Never /\
  truthy (matched_ (FixedLen [str]) [Entry Capture; Entry IsInt]) = Never.
Proof. split; [vm_compute; reflexivity|]. split; vm_compute; reflexivity. Qed.

Definition strs_after (ts : list type) : args type := WithUnpack (mk_unpack ts (Many str) []).

Local Ltac not_in_union H :=
  inversion H as [| | | | | | | | | | | | | |ts t v Hin Hw| | |]; subst; repeat (destruct Hin as [<-|Hin]; [inversion Hw|]); destruct Hin.

(** [case (a, b, *rest)] for [tuple[int, *tuple[str, ...]]]: the code behind is taken to be unreachable, but [(1,)] does not match. *)
Theorem C55_pattern_unreachable_refuted : exists vs, is_tuple has stands_for (strs_after [int]) vs /\
  ~ sequence_matches list_value matches [Entry Capture; Entry Capture; Rest None] vs /\
  falsey (matched_ (strs_after [int]) [Entry Capture; Entry Capture; Rest None]) = Never.
Proof.
  exists [VInt 1]. split; [exists [VInt 1], [], []; repeat split; repeat constructor|]. split; [|vm_compute; reflexivity].
  intros (ms & rs & Ha & _). apply aligned_length in Ha. cbn in Ha. lia.
Qed.

(** [case (a, *rest)] for [tuple[int, *tuple[str, ...]]]: what is narrowed to has the first item twice, so [(1,)] is not in it any more. *)
Theorem C55_pattern_rest_refuted : exists vs, is_tuple has stands_for (strs_after [int]) vs /\
  sequence_matches list_value matches [Entry Capture; Rest None] vs /\
  exists a, truthy (matched_ (strs_after [int]) [Entry Capture; Rest None]) = Tuple a /\ ~ is_tuple has stands_for a vs.
Proof.
  exists [VInt 1]. split; [exists [VInt 1], [], []; repeat split; repeat constructor|]. split.
  - do 2 eexists. split; [apply al_entry; apply (al_rest _ None (VLst []) [] [] []); [reflexivity|reflexivity|constructor]|repeat constructor].
  - eexists. split; [vm_compute; reflexivity|]. intros (l & m & r & E & Hl & _). cbn in Hl. inversion Hl as [|? ? ? ? _ Hl2]; subst. inversion Hl2; subst. discriminate E.
Qed.

(** [case (a, b, *rest)] for [tuple[int, *tuple[str, ...], bytes]]: [b] is [str], but it may be of [bytes]. *)
Theorem C55_pattern_before_refuted : exists vs ms rs, is_tuple has stands_for (WithUnpack (mk_unpack [int] (Many str) [bytes])) vs /\
  aligned list_value [Entry Capture; Entry Capture; Rest None] vs ms rs /\ Forall (fun m => matches (fst m) (snd m)) ms /\
  ~ Forall2 (fun m t => fst m = fst t /\ has (snd t) (snd m)) ms (matched (matched_ (WithUnpack (mk_unpack [int] (Many str) [bytes])) [Entry Capture; Entry Capture; Rest None])).
Proof.
  exists [VInt 1; VBytes], [(Capture, VInt 1); (Capture, VBytes)], []. split; [exists [VInt 1], [], [VBytes]; repeat split; repeat constructor|]. split.
  - apply al_entry, al_entry. apply (al_rest _ None (VLst []) [] [] []); [reflexivity|reflexivity|constructor].
  - split; [repeat constructor|].
    match goal with |- ~ Forall2 _ _ ?x => let y := eval vm_compute in x in change x with y end. intros H. inversion H as [|? ? ? ? _ H2]; subst. inversion H2 as [|? ? ? ? [_ H3] _]; subst. cbn in H3. inversion H3.
Qed.

(** [case ( *rest, b, c)] for [tuple[int, *tuple[str, ...]]]: [b] is [str], but it may be of [int]. *)
Theorem C55_pattern_after_refuted : exists vs ms rs, is_tuple has stands_for (strs_after [int]) vs /\
  aligned list_value [Rest None; Entry Capture; Entry Capture] vs ms rs /\ Forall (fun m => matches (fst m) (snd m)) ms /\
  ~ Forall2 (fun m t => fst m = fst t /\ has (snd t) (snd m)) ms (matched (matched_ (strs_after [int]) [Rest None; Entry Capture; Entry Capture])).
Proof.
  exists [VInt 1; VStr []], [(Capture, VInt 1); (Capture, VStr [])], []. split; [exists [VInt 1], [VStr []], []; repeat split; repeat constructor|]. split.
  - apply (al_rest _ None (VLst []) [] _ [VInt 1; VStr []]); [reflexivity|reflexivity|]. apply al_entry, al_entry, al_nil.
  - split; [repeat constructor|].
    match goal with |- ~ Forall2 _ _ ?x => let y := eval vm_compute in x in change x with y end. intros H. inversion H as [|? ? ? ? [_ H3] _]; subst. cbn in H3. inversion H3.
Qed.

(** [case (a, *rest)] for [tuple[*tuple[str, ...], int, int]]: [a] is [int], but it may be of [str]. *)
Theorem C55_pattern_first_refuted : exists vs ms rs, is_tuple has stands_for (WithUnpack (mk_unpack [] (Many str) [int; int])) vs /\
  aligned list_value [Entry Capture; Rest None] vs ms rs /\ Forall (fun m => matches (fst m) (snd m)) ms /\
  ~ Forall2 (fun m t => fst m = fst t /\ has (snd t) (snd m)) ms (matched (matched_ (WithUnpack (mk_unpack [] (Many str) [int; int])) [Entry Capture; Rest None])).
Proof.
  exists [VStr []; VInt 1; VInt 2], [(Capture, VStr [])], []. split; [exists [], [VStr []], [VInt 1; VInt 2]; repeat split; repeat constructor|]. split.
  - apply al_entry. apply (al_rest _ None (VLst [VInt 1; VInt 2]) [VInt 1; VInt 2] [] []); [reflexivity|reflexivity|constructor].
  - split; [repeat constructor|].
    match goal with |- ~ Forall2 _ _ ?x => let y := eval vm_compute in x in change x with y end. intros H. inversion H as [|? ? ? ? [_ H3] _]; subst. cbn in H3. inversion H3.
Qed.

(** [case [int(), *rest]] for [Sequence[int | str]] narrows to [Sequence[int]], whatever the rest is. *)
Theorem C55_sequence_rest_refuted : exists vs, Forall (has (Union [int; str])) vs /\ sequence_matches list_value matches [Entry IsInt; Rest None] vs /\
  exists item, truthy (match_sequence c_list join guards c_sequence true (Union [int; str]) (Class c_sequence [Union [int; str]]) [Entry IsInt; Rest None]) = Class c_sequence [item] /\
  ~ Forall (has item) vs.
Proof.
  exists [VInt 1; VStr []]. split.
  - constructor; [apply (h_union _ int); [left; reflexivity|constructor]|]. constructor; [apply (h_union _ str); [right; left; reflexivity|constructor]|constructor].
  - split.
    + do 2 eexists. split; [apply al_entry; apply (al_rest _ None (VLst [VStr []]) [VStr []] [] []); [reflexivity|reflexivity|constructor]|constructor; [exists 1; reflexivity|constructor]].
    + eexists. split; [vm_compute; reflexivity|]. intros H. apply Forall_inv_tail, Forall_inv in H. not_in_union H.
Qed.

Example sequence_example :
  matched (match_sequence c_list join guards c_sequence true (Union [int; str]) (Class c_sequence [Union [int; str]]) [Entry IsInt; Rest (Some 1)]) = [(IsInt, Union [int; str])] /\
  rest (match_sequence c_list join guards c_sequence true (Union [int; str]) (Class c_sequence [Union [int; str]]) [Entry IsInt; Rest (Some 1)]) = [(1, Class c_list [Union [int; str]])] /\
  truthy (match_sequence c_list join guards c_sequence true (Union [int; str]) (Class c_sequence [Union [int; str]]) [Entry IsInt; Entry Capture]) = Class c_sequence [Union [int; int; str]].
Proof. split; [vm_compute; reflexivity|]. split; vm_compute; reflexivity. Qed.

Print Assumptions C55_unpack_sound.
Print Assumptions C55_unpack_succeeds_partial.
Print Assumptions C55_unpack_reports_partial.
Print Assumptions C55_unpack_no_panic.
Print Assumptions C55_unpack_panics.
Print Assumptions C55_star_target_refuted.
Print Assumptions C55_string_missed_refuted.
Print Assumptions C55_string_reported_refuted.
Print Assumptions C55_string_reported.
Print Assumptions C55_string_literal_partial.
Print Assumptions C55_iterable.
Print Assumptions C55_iterable_world.
Print Assumptions C55_not_iterable.
Print Assumptions C55_sequence_kept.
Print Assumptions C55_loop_partial.
Print Assumptions C55_loop_refuted.
Print Assumptions C55_display_partial.
Print Assumptions C55_display_no_panic.
Print Assumptions C55_display_refuted.
Print Assumptions C55_pattern_bindings_partial.
Print Assumptions C55_pattern_truthy_partial.
Print Assumptions C55_pattern_falsey_partial.
Print Assumptions C55_sequence_bindings.
Print Assumptions C55_sequence_truthy_partial.
Print Assumptions C55_pattern_no_panic.
Print Assumptions C55_pattern_unreachable_refuted.
Print Assumptions C55_pattern_rest_refuted.
Print Assumptions C55_pattern_before_refuted.
Print Assumptions C55_pattern_after_refuted.
Print Assumptions C55_pattern_first_refuted.
Print Assumptions C55_sequence_rest_refuted.
Print Assumptions world.
Print Assumptions world_flat.
Print Assumptions world_patterns.
