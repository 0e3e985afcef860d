(** * C65: A name belongs to the scope Python says *)
From Coq Require Import List NArith Bool.
From Verif Require Import ScopeModel ScopeSpec Scope.
Import ListNotations.
Open Scope N_scope.

(** In every file that Python accepts and that has none of the cases excluded by [file_allowed], a use is connected with a scope of the file exactly if the
    scoping rules of Python say so. *)
Theorem C65_scope : forall l u s, file_allowed l -> (In (u, Some s) (found (index_file l)) <-> In (u, Some s) (uses_of_file l)).
Proof.
  intros l u s Ha. rewrite <- (file_says l Ha (u, Some s)). unfold says. rewrite in_app_iff. split; [tauto|]. intros [H|H]; [exact H|].
  apply in_map_iff in H as ([u' n] & E & _). unfold up in E. cbn in E. discriminate.
Qed.

(** The other uses are not lost: what is not in a scope of the file is left for the builtins. *)
Theorem C65_builtins : forall l u, file_allowed l ->
  (In (u, None) (uses_of_file l) <-> In (u, None) (found (index_file l)) \/ In u (map fst (to_parent (index_file l)))).
Proof.
  intros l u Ha. rewrite <- (file_says l Ha (u, None)). unfold says. rewrite in_app_iff, !in_map_iff. split.
  - intros [H|([u' n] & E & H)]; [tauto|]. right. exists (u', n). unfold up in E. cbn in *. split; [congruence|exact H].
  - intros [H|([u' n] & E & H)]; [tauto|]. right. exists (u', n). unfold up. cbn in *. split; [congruence|exact H].
Qed.

(** A use before the name is bound is always reported. *)
Theorem C65_used_too_early : forall l u, file_allowed l -> In u (used_too_early l) -> In u (reported (index_file l)).
Proof. intros l u Ha Hu. apply (file_reports l Ha). left. exact Hu. Qed.

(** Nothing else is reported but what is in the first iterable of a comprehension or in the arguments of a class in a loop or case. *)
Theorem C65_reported : forall l u, file_allowed l -> In u (reported (index_file l)) -> In u (used_too_early l) \/ In u (first_in_loop l).
Proof. intros l u Ha Hu. apply (file_reports l Ha). exact Hu. Qed.

(** ** An example
<<
x = 1                                   # x is 1
def f(a):                               # f is 2, scope 10; a is 3
    def g():                            # g is 4, scope 11
        nonlocal a
        global y                        # y is 5
        a = x                           # use 1
        y = len                         # use 2; len is 6
    while a:                            # use 3
        b = a if b else g               # uses 4, 5 and 6; b is 7
    return [z for z in a if (w := z)]   # uses 7 to 9; z is 8, w is 9, scope 12
class C(f):                             # use 10; C is 20, scope 13
    x = x2                              # use 11; x2 is 21
    def m(self): return x, C            # uses 12 and 13; m is 22, self is 23, scope 14
    k = x                               # use 14; k is 24
print(v, lambda: v)                     # uses 15 to 17; print is 25, v is 26, scope 15
v = sum(i for i in x)                   # uses 18 to 20; sum is 27, i is 28, scope 16
>> *)
Definition example : list item := [
  Bind 1;
  Bind 2; Function 10 [
    Bind 3;
    Bind 4; Function 11 [Nonlocal 3; Global 5; Use 1 1; Bind 3; Use 2 6; Bind 5];
    Use 3 3; Loop [Use 4 3; Use 5 7; Use 6 4; Bind 7];
    Comprehension 12 [(7, 3)] [Bind 8; Use 8 8; Walrus 9; Use 9 8]
  ];
  Bind 20; Class 13 [(10, 2)] [Use 11 21; Bind 1; Bind 22; Function 14 [Bind 23; Use 12 1; Use 13 20]; Use 14 1; Bind 24];
  Use 15 25; Use 16 26; Lambda 15 [Use 17 26];
  Use 18 27; Generator 16 [(20, 1)] [Bind 28; Use 19 28]; Bind 26
].

Ltac settle := repeat match goal with
  | |- _ /\ _ => split
  | |- True => exact Logic.I
  | |- Forall _ [] => constructor
  | |- Forall _ (_ :: _) => constructor
  | |- ~ _ => intro
  | |- _ -> _ => intro
  | H : _ \/ _ |- _ => destruct H
  | H : _ /\ _ |- _ => destruct H
  | H : False |- _ => destruct H
  end.

Example example_allowed : file_allowed example.
Proof.
  unfold file_allowed, example, bind_allowed, use_allowed, declared, names.
  vm_compute. settle; subst; try discriminate; try reflexivity; tauto.
Qed.

Example example_scopes : found (index_file example) =
  [(10, Some 0); (14, Some 13); (3, Some 10); (4, Some 10); (6, Some 10); (5, Some 10); (7, Some 10); (8, Some 12); (9, Some 12); (1, Some 0);
   (13, Some 0); (12, Some 0); (17, Some 0); (20, Some 0); (19, Some 16); (16, Some 0)].
Proof. reflexivity. Qed.
Example example_builtins : to_parent (index_file example) = [(2, 6); (11, 21); (15, 25); (18, 27)].
Proof. reflexivity. Qed.
Example example_reported : reported (index_file example) = [16] /\ used_too_early example = [16] /\ first_in_loop example = [].
Proof. repeat split. Qed.

(** ** Where it is not so *)
(** A walrus in a generator is only known at the end of the scope.
<<
any((m := l) for l in lines)
print(m)                       # used before definition
>> *)
Definition generator_walrus : list item := [Bind 1; Generator 10 [(1, 1)] [Bind 2; Use 2 2; Walrus 3]; Use 3 3].
Theorem C65_generator_walrus_refuted : used_too_early generator_walrus = [] /\ reported (index_file generator_walrus) = [3].
Proof. split; reflexivity. Qed.

(** A function that was defined before the generator does not know the name at all.
<<
def f(): return m
any((m := l) for l in lines)
>> *)
Definition function_before_generator : list item := [Bind 1; Bind 4; Function 10 [Use 1 3]; Generator 11 [(2, 1)] [Bind 2; Use 3 2; Walrus 3]].
Theorem C65_function_before_generator_refuted :
  In (1, Some 0) (uses_of_file function_before_generator) /\ to_parent (index_file function_before_generator) = [(1, 3)].
Proof. split; [left; reflexivity|reflexivity]. Qed.

(** The first iterable of a generator in a class is not looked up in the class.
<<
class C:
    items = [1]
    total = sum(i for i in items)
>> *)
Definition generator_in_class : list item := [Bind 9; Class 10 [] [Bind 1; Generator 11 [(1, 1)] [Bind 2; Use 2 2]; Bind 3]].
Theorem C65_generator_in_class_refuted :
  In (1, Some 10) (uses_of_file generator_in_class) /\ ~ In (1, Some 10) (found (index_file generator_in_class)) /\
  to_parent (index_file generator_in_class) = [(1, 1)].
Proof. split; [left; reflexivity|]. split; [|reflexivity]. vm_compute. intros [H|[]]. discriminate. Qed.

(** What is bound after a return does not make the name local.
<<
x = 1
def f():
    print(x)
    return
    x = 2
>> *)
Definition bound_after_return : list item := [Bind 1; Bind 2; Function 10 [Use 1 1; Dead [Bind 1]]].
Theorem C65_bound_after_return_refuted :
  uses_of_file bound_after_return = [(1, Some 10)] /\ found (index_file bound_after_return) = [(1, Some 0)].
Proof. split; reflexivity. Qed.

(** A loop looks up the names used in it when it ends, what comes later is too late.
<<
x = 1
def f():
    while True: print(x)
    x = 2
>> *)
Definition bound_after_loop : list item := [Bind 1; Bind 2; Function 10 [Loop [Use 1 1]; Bind 1]].
Theorem C65_bound_after_loop_refuted : uses_of_file bound_after_loop = [(1, Some 10)] /\ found (index_file bound_after_loop) = [(1, Some 0)].
Proof. split; reflexivity. Qed.

(** [nonlocal] in a class only finds what the function has bound before.
<<
def f():
    class C:
        nonlocal x
        print(x)
    x = 1
>> *)
Definition nonlocal_in_class : list item := [Bind 1; Function 10 [Bind 2; Class 11 [] [Nonlocal 3; Use 1 3]; Bind 3]].
Theorem C65_nonlocal_in_class_refuted : uses_of_file nonlocal_in_class = [(1, Some 10)] /\ found (index_file nonlocal_in_class) = [(1, None)].
Proof. split; reflexivity. Qed.

(** In a loop the first iterable of a comprehension is reported though the loop has bound the name.
<<
while True:
    if again: print([x for x in xs])
    xs = [1]
>> *)
Definition comprehension_in_loop : list item := [Loop [Comprehension 10 [(1, 1)] [Bind 2; Use 2 2]; Bind 1]].
Theorem C65_comprehension_in_loop_refuted :
  file_allowed comprehension_in_loop /\ used_too_early comprehension_in_loop = [] /\ reported (index_file comprehension_in_loop) = [1].
Proof.
  split; [|split; reflexivity]. unfold file_allowed, comprehension_in_loop, bind_allowed, use_allowed, declared, names.
  vm_compute. settle; subst; try discriminate; try reflexivity; tauto.
Qed.
(** The same use outside of a comprehension is not reported. *)
Example use_in_loop : reported (index_file [Loop [Use 1 1; Bind 1]]) = [].
Proof. reflexivity. Qed.

Print Assumptions C65_scope.
Print Assumptions C65_builtins.
Print Assumptions C65_used_too_early.
Print Assumptions C65_reported.
Print Assumptions C65_generator_walrus_refuted.
Print Assumptions C65_function_before_generator_refuted.
Print Assumptions C65_generator_in_class_refuted.
Print Assumptions C65_bound_after_return_refuted.
Print Assumptions C65_bound_after_loop_refuted.
Print Assumptions C65_nonlocal_in_class_refuted.
Print Assumptions C65_comprehension_in_loop_refuted.
