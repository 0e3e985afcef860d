(** To which scope a name belongs: crates/zuban_python/src/file/name_binder.rs

    Names, uses of names and scopes are numbers; the scope of the module is 0.  A definition is only the fact that a scope has the name, all definitions of
    a name in a scope are chained to the first one.  Simplified: there are no annotations, type parameters, type aliases, star imports, del statements and syntax
    errors; a comprehension has one for clause, its first iterable and the arguments of a class are lists of names. *)
From Coq Require Import List NArith Bool.
Import ListNotations.
Open Scope N_scope.

(** What is in the body of a scope, in the order in which it is indexed.  The blocks of if, try and with statements are part of the list they are in. *)
Inductive item :=
  | Bind (n : N)                       (* an assignment, a parameter, an import, the name of a function or class, a target *)
  | Use (u n : N)
  | Walrus (n : N)
  | Global (n : N)
  | Nonlocal (n : N)
  | Loop (l : list item)               (* the block of a for or while statement *)
  | Cases (l : list item)              (* the cases of a match statement *)
  | Dead (l : list item)               (* what comes after a return, raise, break or continue *)
  | Function (s : N) (l : list item)   (* parameters and block *)
  | Lambda (s : N) (l : list item)
  | Comprehension (s : N) (first : list (N * N)) (l : list item)     (* the first iterable; the targets, conditions and the element *)
  | Generator (s : N) (first : list (N * N)) (l : list item)
  | Class (s : N) (first : list (N * N)) (l : list item).            (* the arguments and the block *)

(** crates/zuban_python/src/file/name_binder.rs:35-43 [NameBinderKind] *)
Inductive kind := KGlobal | KFunction | KClass | KLambda | KComprehension.

(** The symbol table: a name and the scope of its variable, which is another one after [global] and [nonlocal]; None is an error *)
Definition symbol_table := list (N * option N).

Fixpoint lookup_symbol (t : symbol_table) (n : N) : option (option N) :=
  match t with
  | [] => None
  | (m, o) :: t => if n =? m then Some o else lookup_symbol t n
  end.

(** What is left of a nested scope: the redirects of uses, the uses that its parent has to resolve, walrus definitions for the parent, and the uses for which
    [NameUsedBeforeDefinition] was added *)
Record output := mk_output { found : list (N * option N); to_parent : list (N * N); hoisted : list N; reported : list N }.

(** The parents of a scope *)
Definition frames := list (kind * symbol_table).

(** crates/zuban_python/src/file/name_binder.rs:46-58 [Unresolved]; instead of the node there is what indexing it gives *)
Inductive node :=
  | UName (u n : N)
  | UFunction (run : frames -> output)
  | UGenerator (first : list (N * N)) (out : output).

(** crates/zuban_python/src/file/name_binder.rs:82-95 [NameBinder] *)
Record binder := mk_binder {
  table : symbol_table; unordered : list (N * N * bool); unresolved : list node; out : output
}.

Definition empty_output : output := mk_output [] [] [] [].
Definition new_binder : binder := mk_binder [] [] [] empty_output.

Definition with_table (b : binder) (t : symbol_table) : binder := mk_binder t (unordered b) (unresolved b) (out b).
Definition add_unordered (b : binder) (x : N * N * bool) : binder := mk_binder (table b) (unordered b ++ [x]) (unresolved b) (out b).
Definition add_node (b : binder) (x : node) : binder := mk_binder (table b) (unordered b) (unresolved b ++ [x]) (out b).
Definition add_found (b : binder) (u : N) (o : option N) : binder :=
  mk_binder (table b) (unordered b) (unresolved b) (mk_output (found (out b) ++ [(u, o)]) (to_parent (out b)) (hoisted (out b)) (reported (out b))).
Definition add_to_parent (b : binder) (u n : N) : binder :=
  mk_binder (table b) (unordered b) (unresolved b) (mk_output (found (out b)) (to_parent (out b) ++ [(u, n)]) (hoisted (out b)) (reported (out b))).
Definition add_hoisted (b : binder) (n : N) : binder :=
  mk_binder (table b) (unordered b) (unresolved b) (mk_output (found (out b)) (to_parent (out b)) (hoisted (out b) ++ [n]) (reported (out b))).
Definition add_reported (b : binder) (u : N) : binder :=
  mk_binder (table b) (unordered b) (unresolved b) (mk_output (found (out b)) (to_parent (out b)) (hoisted (out b)) (reported (out b) ++ [u])).

(** crates/zuban_python/src/file/name_binder.rs:296-329 [add_new_definition_with_cause] *)
Definition add_new_definition (b : binder) (n : N) (owner : option N) : binder :=
  match lookup_symbol (table b) n with
  | Some _ => b
  | None => with_table b (table b ++ [(n, owner)])
  end.

Definition is_comprehension (k : kind) : bool := match k with KComprehension => true | _ => false end.
Definition is_class (k : kind) : bool := match k with KClass => true | _ => false end.

(** crates/zuban_python/src/file/name_binder.rs:271-279 [add_new_walrus_definition]; the definition for the parent is added when the nested scope is closed *)
Definition add_new_walrus_definition (k : kind) (s : N) (b : binder) (n : N) : binder :=
  if is_comprehension k then add_hoisted b n else add_new_definition b n (Some s).

(** crates/zuban_python/src/file/name_binder.rs:1679-1692 [maybe_add_reference] *)
Definition maybe_add_reference (k : kind) (ordered : bool) (b : binder) (x : N * N) : binder :=
  let '(u, n) := x in
  match lookup_symbol (table b) n with
  | Some o => add_found b u o
  | None => if negb ordered || negb (is_class k) then add_unordered b (u, n, ordered) else add_to_parent b u n
  end.

(** crates/zuban_python/src/file/name_binder.rs:1735-1766 [index_unordered_references] *)
Definition index_unordered_reference (b : binder) (x : N * N * bool) : binder :=
  let '(u, n, ordered) := x in
  match lookup_symbol (table b) n with
  | Some o => let b := add_found b u o in if ordered then add_reported b u else b
  | None => add_to_parent b u n
  end.
Definition index_unordered_references (b : binder) : binder :=
  let b' := fold_left index_unordered_reference (unordered b) b in
  mk_binder (table b') [] (unresolved b') (out b').

(** crates/zuban_python/src/file/name_binder.rs:1464-1494 [lookup_nonlocal_in_parents] *)
Fixpoint lookup_nonlocal_in_parents (fs : frames) (n : N) : option (option N) :=
  match fs with
  | [] => None
  | (k, t) :: fs =>
      match k with
      | KFunction => match lookup_symbol t n with Some o => Some o | None => lookup_nonlocal_in_parents fs n end
      | _ => None
      end
  end.

(** The end of crates/zuban_python/src/file/name_binder.rs:166-249 [with_nested], without the nodes that are not resolved *)
Definition add_output (k : kind) (s : N) (b : binder) (o : output) : binder :=
  let b := mk_binder (table b) (unordered b) (unresolved b)
    (mk_output (found (out b) ++ found o) (to_parent (out b)) (hoisted (out b)) (reported (out b) ++ reported o)) in
  fold_left (add_new_walrus_definition k s) (hoisted o) b.

Definition names_as_nodes (l : list (N * N)) : list node := map (fun x => UName (fst x) (snd x)) l.
Definition add_nodes (b : binder) (l : list node) : binder := mk_binder (table b) (unordered b) (unresolved b ++ l) (out b).

(** An [Unresolved::Name] in crates/zuban_python/src/file/name_binder.rs:738-792 [close] *)
Definition process_name (b : binder) (x : N * N) : binder :=
  let '(u, n) := x in
  match lookup_symbol (table b) n with
  | Some o => add_found b u o
  | None => add_to_parent b u n
  end.

(** One round of the loop in crates/zuban_python/src/file/name_binder.rs:738-792 [close].  The names that a nested scope leaves come last, so they are the next. *)
Definition process_node (k : kind) (s : N) (fs : frames) (b : binder) (x : node) : binder :=
  match x with
  | UName u n => process_name b (u, n)
  | UFunction run =>
      let o := run ((k, table b) :: fs) in
      fold_left process_name (rev (to_parent o)) (add_output k s b o)
  | UGenerator first o =>
      let b := fold_left (maybe_add_reference k true) first b in
      fold_left process_name (rev (to_parent o)) (add_output k s b o)
  end.

(** crates/zuban_python/src/file/name_binder.rs:738-792 [close] *)
Definition close (k : kind) (s : N) (fs : frames) (b : binder) : binder :=
  let b :=
    if is_class k then b
    else fold_left (process_node k s fs) (unresolved b) (mk_binder (table b) (unordered b) [] (out b)) in
  index_unordered_references b.

(** crates/zuban_python/src/file/name_binder.rs:404-569 [index_stmts], [index_non_block_node_full], [index_class], [index_function_body], [index_lambda],
    [index_comprehension_clause], [index_for_stmt], [index_while_stmt] and [index_match_stmt] *)
Fixpoint index (fs : frames) (k : kind) (s : N) (ordered : bool) (b : binder) (i : item) {struct i} : binder :=
  match i with
  | Bind n => add_new_definition b n (Some s)
  | Use u n => maybe_add_reference k ordered b (u, n)
  | Walrus n => add_new_walrus_definition k s b n
  | Global n => match lookup_symbol (table b) n with Some _ => b | None => add_new_definition b n (Some 0) end
  | Nonlocal n =>
      match lookup_nonlocal_in_parents fs n with
      | Some o => match lookup_symbol (table b) n with Some _ => b | None => add_new_definition b n o end
      | None => add_new_definition b n None
      end
  | Loop l =>
      let b := fold_left (index fs k s false) l b in
      if ordered then index_unordered_references b else b
  | Cases l => fold_left (index fs k s false) l b
  | Dead l =>
      let fs' := (k, table b) :: fs in
      let inner := close k s fs' (fold_left (index fs' k s ordered) l new_binder) in
      add_nodes (add_nodes (add_output k s b (out inner)) (names_as_nodes (to_parent (out inner)))) (unresolved inner)
  | Function t l => add_node b (UFunction (fun fs => out (close KFunction t fs (fold_left (index fs KFunction t true) l new_binder))))
  | Lambda t l => add_node b (UFunction (fun fs => out (close KLambda t fs (fold_left (index fs KLambda t true) l new_binder))))
  | Comprehension t first l =>
      let b := fold_left (maybe_add_reference k true) first b in
      let fs' := (k, table b) :: fs in
      let o := out (close KComprehension t fs' (fold_left (index fs' KComprehension t true) l new_binder)) in
      add_nodes (add_output k s b o) (names_as_nodes (to_parent o))
  | Generator t first l =>
      (* there are no statements in it, so the parents do not matter *)
      add_node b (UGenerator first (out (close KComprehension t [] (fold_left (index [] KComprehension t true) l new_binder))))
  | Class t first l =>
      let b := fold_left (maybe_add_reference k true) first b in
      let fs' := (k, table b) :: fs in
      let inner := close KClass t fs' (fold_left (index fs' KClass t true) l new_binder) in
      add_nodes (add_nodes (add_output k s b (out inner)) (names_as_nodes (to_parent (out inner)))) (unresolved inner)
  end.

(** crates/zuban_python/src/file/name_binder.rs:120-164 [with_global_binder], [index_file] *)
Definition index_file (l : list item) : output := out (close KGlobal 0 [] (fold_left (index [] KGlobal 0 true) l new_binder)).
