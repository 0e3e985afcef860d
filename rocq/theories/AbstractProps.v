(** C70: a class whose instantiation is reported is abstract in Python, and the names that are listed are its abstract methods.

    Classes have the metaclass ABCMeta.  [excluded] are the names that are no members of protocols; the table of Python holds the
    linearizations (C14). *)
From Coq Require Import Ascii String List Bool Arith NArith Lia.
From Verif Require Import MroModel MroSpec MroProofs AbstractModel AbstractSpec Abstract.
Import ListNotations.
Open Scope list_scope.

Definition orders (defs : list class) (tab : list (list nat)) : Prop :=
  python_accepts (map bases defs) tab /\
  forall k bs, nth_error (map bases defs) k = Some bs -> List.length bs <= 2 \/ subsequence bs (stored_in (class_table (map bases defs)) (S k) ++ [0]).
Definition in_python (defs : list class) (tab : list (list nat)) : nat -> N -> Prop := abstract_name (bases_of defs) (space_of defs) (fun k => nth k tab []).
Definition listed (excluded : N -> bool) (defs : list class) (k : nat) : list N := map snd (abstract (infos_at (snd (program_infos excluded defs)) k)).

(** Without protocols and dataclasses, where names are bound once and decorators are what they look like, what is listed is abstract. *)
Theorem C70_listed_partial : forall excluded defs tab, orders defs tab -> Forall plain defs ->
  forall k n, k <= List.length defs -> In n (listed excluded defs k) -> in_python defs tab k n.
Proof. intros excluded defs tab [Ha Ho] P k n H Hn. exact (reported_abstract excluded defs tab Ha Ho P k n H Hn). Qed.

Theorem C70_reported_partial : forall excluded defs tab, orders defs tab -> Forall plain defs ->
  forall k, k <= List.length defs -> reported excluded defs k = true -> exists n, in_python defs tab k n.
Proof.
  intros excluded defs tab O P k H R. unfold reported in R. destruct (abstract (infos_at (snd (program_infos excluded defs)) k)) as [|[w n] l] eqn:E; [discriminate R|].
  exists n. apply (C70_listed_partial excluded defs tab O P k n H). unfold listed. rewrite E. left. reflexivity.
Qed.

(** What is listed, in any program Python accepts: the marked names of the class itself, and those that are marked in a direct base, or are
    unimplemented in a protocol that is one, as long as no other class of the order defines them. *)
Theorem C70_exactly_partial : forall excluded defs tab, orders defs tab -> forall k n, k <= List.length defs ->
  In n (listed excluded defs k) <->
  looks_abstract (body (class_of defs k)) n \/
  exists b, In (b, true) (mro (infos_at (snd (program_infos excluded defs)) k)) /\ dataclass (class_of defs b) = false /\ ~ defines (body (class_of defs k)) n /\
    (forall d, ancestor (map bases defs) k d -> d <> 0 -> d <> b -> dataclass (class_of defs d) = false -> ~ defines (body (class_of defs d)) n) /\
    (looks_abstract (body (class_of defs b)) n \/
     protocol (class_of defs k) = false /\ unimplemented excluded (class_of defs b) n /\ ~ In n (self_names (class_of defs k))).
Proof.
  intros excluded defs tab [Ha Ho] k n H. assert (W := python_scoped defs tab Ha Ho). assert (A := python_accepted excluded defs tab Ha Ho). unfold listed.
  rewrite (exactly excluded defs W A k n H). assert (An := proj2 (mro_ancestors excluded defs k W A H)). rewrite own_abstract_iff.
  split; (intros [O|(b & Hb & D & B & F & O)]; [left; exact O|right; exists b; split; [exact Hb|]; split; [exact D|]; split; [apply bound_iff; exact B|]; split; [|rewrite ?member_iff, ?own_abstract_iff in *; exact O]]).
  - intros d Hd N0 Nb Dd. apply bound_iff. apply (F d); [apply An; split; assumption|exact Nb|exact Dd].
  - intros d Hd Nb Dd. apply An in Hd as [N0 Hd]. apply bound_iff. exact (F d Hd N0 Nb Dd).
Qed.

(** The entries that count as direct bases are bases, and a base is one unless it is also above another base. *)
Theorem C70_direct_partial : forall excluded defs tab, orders defs tab -> forall k b, k <= List.length defs ->
  (In (b, true) (mro (infos_at (snd (program_infos excluded defs)) k)) -> In b (bases_of defs k)) /\
  (In b (bases_of defs k) -> b <> 0 -> (forall d, In d (bases_of defs k) -> ~ ancestor (map bases defs) d b) -> In (b, true) (mro (infos_at (snd (program_infos excluded defs)) k))).
Proof. intros excluded defs tab [Ha Ho] k b H. exact (direct_bases excluded defs (python_scoped defs tab Ha Ho) (python_accepted excluded defs tab Ha Ho) k b H). Qed.

(** A class with the abstract method in its body is reported; so is one that inherits it from its only base, if nothing else defines it. *)
Theorem C70_itself : forall excluded defs, well_scoped (map bases defs) -> forall k n, k <= List.length defs -> plain (class_of defs k) ->
  space_of defs k n = Some true -> In n (listed excluded defs k) /\ reported excluded defs k = true.
Proof.
  intros excluded defs W k n H (P1 & P2 & _) S. assert (G : In n (listed excluded defs k)).
  { apply (step_all excluded defs k W H n). left. apply own_abstract_plain; assumption. }
  split; [exact G|]. unfold reported. unfold listed in G. destruct (abstract (infos_at (snd (program_infos excluded defs)) k)); [destruct G|reflexivity].
Qed.

Theorem C70_child_partial : forall excluded defs tab, orders defs tab -> Forall plain defs -> forall k b n, k <= List.length defs -> bases_of defs k = [b] ->
  space_of defs b n = Some true -> space_of defs k n = None -> (forall d, ancestor (map bases defs) k d -> d <> b -> space_of defs d n = None) ->
  In n (listed excluded defs k) /\ in_python defs tab k n.
Proof.
  intros excluded defs tab [Ha Ho] P k b n H Eb Hb Hk F. assert (W := python_scoped defs tab Ha Ho). assert (A := python_accepted excluded defs tab Ha Ho). assert (Pl := plain_at defs P).
  assert (U : forall d, space_of defs d n = None -> bound (body (class_of defs d)) n = false).
  { intros d Hd. destruct (Pl d) as (P1 & P2 & _). change (namespace (body (class_of defs d)) n = None) in Hd. rewrite namespace_plain in Hd by assumption. unfold bound. destruct (first_binding (body (class_of defs d)) n); [discriminate Hd|reflexivity]. }
  assert (B0 : b <> 0) by (intros ->; discriminate Hb). destruct k as [|k]; [discriminate Eb|].
  assert (L : In n (listed excluded defs (S k))).
  { apply (child excluded defs W A k b n H Eb B0).
    - destruct (Pl b) as (_ & _ & D & _). exact D.
    - destruct (Pl b) as (P1 & P2 & _). apply own_abstract_plain; assumption.
    - exact (U _ Hk).
    - intros d Hd Nd. exact (U d (F d Hd Nd)). }
  split; [exact L|]. exact (reported_abstract excluded defs tab Ha Ho P (S k) n H L).
Qed.

(** ** Programs *)
Definition am : decorator := mk_decorator "abstractmethod" Marks.
Definition prop : decorator := mk_decorator "property" Keeps.
Definition cls (bs : list nat) (b : list binding) : class := mk_class bs b [] false false false.
Definition none_excluded : N -> bool := fun _ => false.

Lemma small_orders : forall defs, forallb (fun bs => Nat.leb (List.length bs) 2) (map bases defs) = true -> forallb (fun e => snd e) (class_table (map bases defs)) = true ->
  well_scoped (map bases defs) -> exists tab, orders defs tab /\ forall k, k <= List.length defs -> nth k tab [] = whole k (stored_in (class_table (map bases defs)) k).
Proof.
  intros defs S A W. assert (O : orderly (map bases defs)).
  { intros k bs Hk. left. apply nth_error_In in Hk. rewrite forallb_forall in S. apply Nat.leb_le. exact (S _ Hk). }
  destruct (program_accepted (map bases defs) W) as (t & Ht & _ & Hag).
  - intros e He. rewrite forallb_forall in A. exact (A e He).
  - exact O.
  - exists t. split; [split; assumption|]. intros k Hk. apply Hag. rewrite map_length. exact Hk.
Qed.

Ltac scoped_small := let k := fresh in let bs := fresh in let b := fresh in let H := fresh in let Hb := fresh in
  intros k bs b H Hb; repeat (destruct k as [|k]; [injection H as <-; cbn in Hb; lia|]); destruct k; discriminate H.

(** 1: Base with abstract methods 10 and 11, the latter a property; 2: Half(Base) implements 10; 3: Whole(Half) implements 11; 4: Mixin with 11; 5: Both(Mixin, Base) *)
Definition family : list class :=
  [cls [] [Function 10 [am] true; Function 11 [prop; am] true; Function 12 [] false]; cls [1] [Function 10 [] false]; cls [2] [Function 11 [prop] false]; cls [] [Assign 11]; cls [4; 1] [Function 10 [] false]].

Example C70_case : (exists tab, orders family tab) /\ Forall plain family /\
  map (listed none_excluded family) [1; 2; 3; 4; 5] = [[10; 11]; [11]; []; []; []]%N /\ map (reported none_excluded family) [1; 2; 3; 4; 5] = [true; true; false; false; false].
Proof.
  split; [destruct (small_orders family) as (tab & O & _); [reflexivity|reflexivity|scoped_small|exists tab; exact O]|]. split; [|split; vm_compute; reflexivity].
  assert (D : forall c, In c ["abstractmethod"; "abstractproperty"]%string -> c <> "property"%string) by (intros c [<-|[<-|[]]]; discriminate).
  repeat (constructor; cbn; try (intros [E|E]; try discriminate E; repeat (destruct E as [E|E]; try discriminate E); try destruct E); try discriminate; auto).
Qed.

(** The name of a child of its only base *)
Example C70_case_child : exists tab, orders family tab /\ bases_of family 2 = [1] /\ space_of family 1 11 = Some true /\ space_of family 2 11 = None /\
  (forall d, ancestor (map bases family) 2 d -> d <> 1 -> space_of family d 11 = None).
Proof.
  destruct (small_orders family) as (tab & O & _); [reflexivity|reflexivity|scoped_small|]. exists tab. split; [exact O|]. split; [reflexivity|]. split; [reflexivity|]. split; [reflexivity|].
  intros d H N. apply ancestor_first in H as (k & bs & b & E & Hk & Hb & Hd). injection E as <-. injection Hk as <-. destruct Hb as [<-|[]]. destruct Hd as [->|Hd]; [destruct (N eq_refl)|].
  apply ancestor_first in Hd as (k & bs & b & E & Hk & Hb & _). injection E as <-. injection Hk as <-. destruct Hb.
Qed.

(** A class that inherits from a protocol: 20 is unimplemented, 21 has a body, 22 is declared, 23 has a value, 24 is set by the subclass. *)
Definition with_protocol : list class :=
  [mk_class [] [Function 20 [] true; Function 21 [] false; Declare 22; Assign 23; Declare 24] [] true false false; mk_class [1] [] [24%N] false false false].
Example C70_case_protocol : listed none_excluded with_protocol 2 = [20; 22]%N /\ listed none_excluded with_protocol 1 = [].
Proof. split; vm_compute; reflexivity. Qed.

(** ** What does not hold *)

Ltac refute defs k :=
  let tab := fresh "tab" in let O := fresh "O" in let E := fresh "E" in
  destruct (small_orders defs) as (tab & O & E); [reflexivity|reflexivity|scoped_small|]; exists tab; split; [exact O|]; split; [|vm_compute; reflexivity];
  unfold in_python; assert (Ek := E k ltac:(cbn; lia)).

(** The abstract method of the base of a base is forgotten. *)
Definition grandchild : list class := [cls [] [Function 10 [am] true]; cls [1] []; cls [2] []].
Theorem C70_grandchild_refuted : Forall plain grandchild /\ exists tab, orders grandchild tab /\ in_python grandchild tab 3 10 /\ reported none_excluded grandchild 3 = false.
Proof.
  split; [repeat (constructor; cbn; auto; try (intros [])) |]. refute grandchild 3. assert (E2 := E 2 ltac:(cbn; lia)).
  apply (an_base _ _ _ 3 2); [left; reflexivity| |rewrite Ek; reflexivity]. apply (an_base _ _ _ 2 1); [left; reflexivity| |rewrite E2; reflexivity]. apply an_own. reflexivity.
Qed.

(** An implementation in a later base is taken for one, although the abstract method comes first. *)
Definition late : list class := [cls [] [Function 10 [am] true]; cls [] [Function 10 [] false]; cls [1; 2] []].
Theorem C70_late_refuted : Forall plain late /\ exists tab, orders late tab /\ in_python late tab 3 10 /\ reported none_excluded late 3 = false.
Proof.
  split; [repeat (constructor; cbn; auto; try (intros [])) |]. refute late 3. apply (an_base _ _ _ 3 1); [left; reflexivity| |rewrite Ek; reflexivity]. apply an_own. reflexivity.
Qed.

(** [@abc.abstractmethod] is not seen. *)
Definition qualified : list class := [cls [] [Function 10 [mk_decorator "abc.abstractmethod" Marks] true]].
Theorem C70_qualified_refuted : exists tab, orders qualified tab /\ in_python qualified tab 1 10 /\ reported none_excluded qualified 1 = false.
Proof. refute qualified 1. apply an_own. reflexivity. Qed.

(** A property with an abstract setter *)
Definition setter : list class := [cls [] [Function 10 [prop] false; Function 10 [mk_decorator "x.setter" Joins; am] true]].
Theorem C70_setter_refuted : exists tab, orders setter tab /\ in_python setter tab 1 10 /\ reported none_excluded setter 1 = false.
Proof. refute setter 1. apply an_own. reflexivity. Qed.

(** [f: Callable[..., int]] in a subclass is taken for an implementation. *)
Definition declared : list class := [cls [] [Function 10 [am] true]; cls [1] [Declare 10]].
Theorem C70_declared_refuted : exists tab, orders declared tab /\ in_python declared tab 2 10 /\ reported none_excluded declared 2 = false.
Proof. refute declared 2. apply (an_base _ _ _ 2 1); [left; reflexivity| |rewrite Ek; reflexivity]. apply an_own. reflexivity. Qed.

(** The abstract methods of a dataclass are not inherited. *)
Definition dataclass_base : list class := [mk_class [] [Function 10 [am] true] [] false false true; cls [1] []].
Theorem C70_dataclass_refuted : exists tab, orders dataclass_base tab /\ in_python dataclass_base tab 2 10 /\ reported none_excluded dataclass_base 2 = false.
Proof. refute dataclass_base 2. apply (an_base _ _ _ 2 1); [left; reflexivity| |rewrite Ek; reflexivity]. apply an_own. reflexivity. Qed.

(** Reported although it can be instantiated: the methods of a dataclass implement nothing, *)
Definition dataclass_mixin : list class := [cls [] [Function 10 [am] true]; mk_class [] [Function 10 [] false] [] false false true; cls [2; 1] []].
Theorem C70_dataclass_mixin_refuted : exists tab, orders dataclass_mixin tab /\ (forall n, ~ in_python dataclass_mixin tab 3 n) /\ reported none_excluded dataclass_mixin 3 = true.
Proof.
  refute dataclass_mixin 3. intros n H. assert (G : attribute (space_of dataclass_mixin) (nth 3 tab []) n = Some true).
  { inversion H as [c m S|c b m Hb Hm Ha]; subst; [discriminate S|exact Ha]. }
  rewrite Ek in G. cbn in G. destruct (n =? 10)%N; discriminate G.
Qed.

(** and the first definition of a name counts, not the last one. *)
Definition redefined : list class := [cls [] [Function 10 [am] true; Function 10 [] false]].
Theorem C70_redefined_refuted : exists tab, orders redefined tab /\ (forall n, ~ in_python redefined tab 1 n) /\ reported none_excluded redefined 1 = true.
Proof.
  refute redefined 1. intros n H. inversion H as [c m S|c b m Hb Hm Ha]; subst.
  - cbn in S. destruct (n =? 10)%N; discriminate S.
  - destruct Hb.
Qed.

Print Assumptions C70_listed_partial.
Print Assumptions C70_reported_partial.
Print Assumptions C70_exactly_partial.
Print Assumptions C70_direct_partial.
Print Assumptions C70_itself.
Print Assumptions C70_child_partial.
Print Assumptions C70_grandchild_refuted.
Print Assumptions C70_late_refuted.
Print Assumptions C70_qualified_refuted.
Print Assumptions C70_setter_refuted.
Print Assumptions C70_declared_refuted.
Print Assumptions C70_dataclass_refuted.
Print Assumptions C70_dataclass_mixin_refuted.
Print Assumptions C70_redefined_refuted.
