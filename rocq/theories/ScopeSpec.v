(** The scoping rules of Python.  Nothing here is about zuban. *)
From Coq Require Import List NArith Bool.
From Verif Require Import ScopeModel.
Import ListNotations.
Open Scope N_scope.

Definition mem (n : N) (l : list N) : bool := existsb (N.eqb n) l.

(** ** What a scope binds *)
(** Assignments, parameters and the like anywhere in the body, but not in nested scopes *)
Fixpoint assigned (i : item) : list N :=
  match i with
  | Bind n => [n]
  | Loop l | Cases l | Dead l => flat_map assigned l
  | _ => []
  end.

(** A walrus in a comprehension binds in the scope around it *)
Fixpoint walruses (i : item) : list N :=
  match i with
  | Walrus n => [n]
  | Loop l | Cases l | Dead l => flat_map walruses l
  | Comprehension _ _ l | Generator _ _ l => flat_map walruses l
  | _ => []
  end.

Fixpoint declared_global (i : item) : list N :=
  match i with
  | Global n => [n]
  | Loop l | Cases l | Dead l => flat_map declared_global l
  | _ => []
  end.

Fixpoint declared_nonlocal (i : item) : list N :=
  match i with
  | Nonlocal n => [n]
  | Loop l | Cases l | Dead l => flat_map declared_nonlocal l
  | _ => []
  end.

Record scope := mk_scope { scope_id : N; scope_kind : kind; bound : list N; globals : list N; nonlocals : list N }.

Definition scope_of (k : kind) (s : N) (l : list item) : scope :=
  mk_scope s k (flat_map assigned l ++ (if is_comprehension k then [] else flat_map walruses l)) (flat_map declared_global l) (flat_map declared_nonlocal l).

(** ** To which scope a name belongs *)
(** From a nested scope: classes are not seen *)
Fixpoint resolve_outer (c : list scope) (n : N) : option N :=
  match c with
  | [] => None
  | f :: c =>
      if is_class (scope_kind f) then resolve_outer c n
      else if mem n (globals f) then Some 0
      else if mem n (nonlocals f) then resolve_outer c n
      else if mem n (bound f) then Some (scope_id f)
      else resolve_outer c n
  end.

(** From the scope itself, the first of the list *)
Definition resolve (c : list scope) (n : N) : option N :=
  match c with
  | [] => None
  | f :: c =>
      if mem n (globals f) then Some 0
      else if mem n (nonlocals f) then resolve_outer c n
      else if mem n (bound f) then Some (scope_id f)
      else resolve_outer c n
  end.

(** All uses in an item with the scope they belong to; None is for names that are in no scope of the file, like those of builtins *)
Fixpoint uses_of (c : list scope) (i : item) : list (N * option N) :=
  match i with
  | Use u n => [(u, resolve c n)]
  | Loop l | Cases l | Dead l => flat_map (uses_of c) l
  | Function s l => flat_map (uses_of (scope_of KFunction s l :: c)) l
  | Lambda s l => flat_map (uses_of (scope_of KLambda s l :: c)) l
  | Comprehension s first l | Generator s first l =>
      map (fun x => (fst x, resolve c (snd x))) first ++ flat_map (uses_of (scope_of KComprehension s l :: c)) l
  | Class s first l => map (fun x => (fst x, resolve c (snd x))) first ++ flat_map (uses_of (scope_of KClass s l :: c)) l
  | _ => []
  end.

Definition uses_of_file (l : list item) : list (N * option N) := flat_map (uses_of [scope_of KGlobal 0 l]) l.

(** ** Programs *)
(** The names that a scope knows after an item: what is bound or declared in it *)
Fixpoint adds (k : kind) (i : item) : list N :=
  match i with
  | Bind n | Global n | Nonlocal n => [n]
  | Walrus n => if is_comprehension k then [] else [n]
  | Loop l | Cases l | Dead l => flat_map (adds k) l
  | Comprehension _ _ l | Generator _ _ l => if is_comprehension k then [] else flat_map walruses l
  | _ => []
  end.

(** The uses in the scope itself *)
Fixpoint own_uses (i : item) : list N :=
  match i with
  | Use _ n => [n]
  | Loop l | Cases l | Dead l => flat_map own_uses l
  | Comprehension _ first _ | Class _ first _ => map snd first
  | _ => []
  end.

Definition names (f : scope) : list N := bound f ++ globals f ++ nonlocals f.
Definition declared (f : scope) (n : N) : Prop := In n (globals f) \/ In n (nonlocals f).

(** [nonlocal n] is allowed if a function around has the variable *)
Fixpoint nonlocal_allowed (c : list scope) (n : N) : Prop :=
  match c with
  | [] => False
  | f :: c =>
      match scope_kind f with
      | KClass => nonlocal_allowed c n
      | KFunction => ~ In n (globals f) /\ (In n (nonlocals f) \/ In n (bound f) \/ nonlocal_allowed c n)
      | _ => False
      end
  end.

(** In a class, names of the class are used after they are bound *)
Definition use_allowed (k : kind) (f : scope) (seen : list N) (n : N) : Prop := k = KClass -> In n (names f) -> In n seen.

(** Declarations come before the name is bound *)
Definition bind_allowed (f : scope) (seen : list N) (n : N) : Prop := declared f n -> In n seen.

(** [f] is the scope, [c] are the ones around it; [seen] and [used] are the names it knows and the ones it uses before the item *)
Fixpoint allowed (k : kind) (f : scope) (c : list scope) (ordered : bool) (seen used : list N) (i : item) : Prop :=
  let all := fix all (k : kind) (f : scope) (c : list scope) (ordered : bool) (seen used : list N) (l : list item) : Prop :=
    match l with
    | [] => True
    | i :: l => allowed k f c ordered seen used i /\ all k f c ordered (seen ++ adds k i) (used ++ own_uses i) l
    end in
  match i with
  | Bind n => bind_allowed f seen n
  | Use _ n => use_allowed k f seen n
  | Walrus n => is_comprehension k = false -> bind_allowed f seen n
  | Global n => ~ In n seen /\ ~ In n (nonlocals f)
  | Nonlocal n => ~ In n seen /\ ~ In n (globals f) /\ k = KFunction /\ nonlocal_allowed c n
  | Loop l =>
      all k f c false seen used l /\
      (ordered = true -> forall n, In n (used ++ flat_map own_uses l) -> In n (names f) -> In n (seen ++ flat_map (adds k) l))
  | Cases l => all k f c false seen used l
  | Dead l => False
  | Function s l => let g := scope_of KFunction s l in all KFunction g (f :: c) true [] [] l
  | Lambda s l => let g := scope_of KLambda s l in all KLambda g (f :: c) true [] [] l
  | Comprehension s first l =>
      let g := scope_of KComprehension s l in
      all KComprehension g (f :: c) true [] [] l /\ Forall (use_allowed k f seen) (map snd first) /\
      (is_comprehension k = false -> Forall (bind_allowed f seen) (flat_map walruses l))
  | Generator s first l =>
      let g := scope_of KComprehension s l in
      all KComprehension g (f :: c) true [] [] l /\ flat_map walruses l = [] /\ (k = KClass -> Forall (fun x => ~ In (snd x) (names f)) first)
  | Class s first l =>
      let g := scope_of KClass s l in all KClass g (f :: c) true [] [] l /\ Forall (use_allowed k f seen) (map snd first)
  end.

Fixpoint all_allowed (k : kind) (f : scope) (c : list scope) (ordered : bool) (seen used : list N) (l : list item) : Prop :=
  match l with
  | [] => True
  | i :: l => allowed k f c ordered seen used i /\ all_allowed k f c ordered (seen ++ adds k i) (used ++ own_uses i) l
  end.

Definition file_allowed (l : list item) : Prop := all_allowed KGlobal (scope_of KGlobal 0 l) [] true [] [] l.

(** ** Names that are used too early *)
(** The use of a name of the scope that is not known yet; a class falls back to the names around it *)
Definition early (k : kind) (f : scope) (seen : list N) (x : N * N) : list N :=
  if is_class k then [] else if mem (snd x) seen then [] else if mem (snd x) (names f) then [fst x] else [].

(** The uses that are early and count.  The first argument of [counts] says that it is in the first iterable of a comprehension or in the arguments of a class,
    the second that it is not in a loop or case. *)
Fixpoint early_uses (counts : bool -> bool -> bool) (k : kind) (f : scope) (ordered : bool) (seen : list N) (i : item) : list N :=
  let all := fix all (counts : bool -> bool -> bool) (k : kind) (f : scope) (ordered : bool) (seen : list N) (l : list item) : list N :=
    match l with
    | [] => []
    | i :: l => early_uses counts k f ordered seen i ++ all counts k f ordered (seen ++ adds k i) l
    end in
  match i with
  | Use u n => if counts false ordered then early k f seen (u, n) else []
  | Loop l | Cases l => all counts k f false seen l
  | Function s l => all counts KFunction (scope_of KFunction s l) true [] l
  | Lambda s l => all counts KLambda (scope_of KLambda s l) true [] l
  | Comprehension s first l => (if counts true ordered then flat_map (early k f seen) first else []) ++ all counts KComprehension (scope_of KComprehension s l) true [] l
  | Generator s first l => all counts KComprehension (scope_of KComprehension s l) true [] l
  | Class s first l => (if counts true ordered then flat_map (early k f seen) first else []) ++ all counts KClass (scope_of KClass s l) true [] l
  | _ => []
  end.

Fixpoint all_early_uses (counts : bool -> bool -> bool) (k : kind) (f : scope) (ordered : bool) (seen : list N) (l : list item) : list N :=
  match l with
  | [] => []
  | i :: l => early_uses counts k f ordered seen i ++ all_early_uses counts k f ordered (seen ++ adds k i) l
  end.

(** Uses before the name is bound, where no loop could have bound it *)
Definition used_too_early (l : list item) : list N := all_early_uses (fun _ ordered => ordered) KGlobal (scope_of KGlobal 0 l) true [] l.

(** In the first iterable of a comprehension or the arguments of a class, where a loop or another case could have bound it *)
Definition first_in_loop (l : list item) : list N := all_early_uses (fun first ordered => first && negb ordered) KGlobal (scope_of KGlobal 0 l) true [] l.
