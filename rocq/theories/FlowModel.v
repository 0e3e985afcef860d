(** Flow analysis: what is known about names, attributes and subscripts at each point of a function, in
    crates/zuban_python/src/file/flow_analysis.rs, and the walk over the statements in crates/zuban_python/src/file/diagnostics.rs.

    Types are left open: their unions, common subtypes and what a test does to a type are parameters.  Left out: [widens] (always false without
    the option for redefinitions), [accumulating_types], the narrowing of the object an attribute was narrowed on ([parent_unions]), branches the
    name binder decides, [match] statements, lambdas and comprehensions.  The first definition of a name is only modelled for parameters, which
    are there from the start; code is only read once and without the language server. *)
From Coq Require Import List NArith ZArith Bool.
Import ListNotations.

(** crates/zuban_python/src/file/flow_analysis.rs:139-142 [FlowKeyIndex].  Strings are numbers here. *)
Inductive key_index := Int (i : Z) | Str (s : N).

(** crates/zuban_python/src/file/flow_analysis.rs:72-80 [FlowKey] *)
Inductive key := Name (n : N) | Member (base : key) (name : N) | Index (base : key) (index : key_index).

Definition index_eqb (a b : key_index) : bool :=
  match a, b with Int i, Int j => (i =? j)%Z | Str s, Str t => (s =? t)%N | _, _ => false end.

(** crates/zuban_python/src/file/flow_analysis.rs:97-117 [equals] *)
Fixpoint equals (a b : key) : bool :=
  match a, b with
  | Name n, Name m => (n =? m)%N
  | Member k n, Member l m => equals k l && (n =? m)%N
  | Index k i, Index l j => equals k l && index_eqb i j
  | _, _ => false
  end.

(** crates/zuban_python/src/file/flow_analysis.rs:90-95 [base_key] *)
Definition base_key (k : key) : option key := match k with Name _ => None | Member b _ | Index b _ => Some b end.

(** crates/zuban_python/src/file/flow_analysis.rs:83-88 [is_child_of] *)
Fixpoint is_child_of (k search : key) : bool :=
  match k with Name _ => false | Member b _ | Index b _ => equals b search || is_child_of b search end.

Section Flow.
Variables (type test : Type).
(** [Type::ERROR], [Type::Never] and a few questions about types *)
Variables (error never : type) (is_never is_any any_in none_in could_be_a_literal : type -> bool).
(** [remove_none], [union], [simplified_union], [avoid_implicit_literal] and [common_sub_type] of a type *)
Variables (remove_none avoid_implicit_literal : type -> type) (union simplified_union : type -> type -> type)
          (common_sub_type : type -> type -> option type).
(** What a test makes of a type when it succeeds and when it fails, if it says anything, and the test for truthiness *)
Variables (split : test -> type -> option (type * type)) (truthiness : test).
(** What a key is declared as, and whether it is declared as [Any] *)
Variables (declared : key -> type) (explicit_any : key -> bool).

(** crates/zuban_python/src/file/flow_analysis.rs:145-148 [EntryKind] *)
Inductive kind := Of (t : type) | Declaration.

(** crates/zuban_python/src/file/flow_analysis.rs:151-158 [Entry] *)
Record entry := Entry { e_key : key; e_kind : kind; e_modifies : bool; e_deleted : bool }.

(** crates/zuban_python/src/file/flow_analysis.rs:264-269 [Frame]; whether unreachable code was reported and the kind of frame are left out *)
Record frame := Frame { f_entries : list entry; f_unreachable : bool }.

(** crates/zuban_python/src/file/flow_analysis.rs:367-371 [LoopDetails] *)
Record loop_details := Loop { l_breaks : list frame; l_continues : list frame; l_index : nat }.

(** What the user sees of a name that is looked at *)
Inductive report := Revealed (t : type) | ReadingDeleted.

(** crates/zuban_python/src/file/flow_analysis.rs:413-422 [FlowAnalysis], innermost frames first; with what has been seen at the places of interest *)
Record state := State { frames : list frame; tries : list (list entry); loop : option loop_details; reports : list (N * report) }.

Definition set_frames (fs : list frame) (st : state) : state := State fs (tries st) (loop st) (reports st).

(** crates/zuban_python/src/file/flow_analysis.rs:161-169 [Entry::new] *)
Definition new_entry (k : key) (t : type) : entry := Entry k (Of t) false false.

(** crates/zuban_python/src/file/flow_analysis.rs:171-186 [with_declaration] *)
Definition with_declaration (e : entry) : entry := Entry (e_key e) Declaration (e_modifies e) (e_deleted e).

(** crates/zuban_python/src/file/flow_analysis.rs:189-205 [Entry::simplified_union] *)
Definition simplified (a b : kind) : kind :=
  match a, b with Of t1, Of t2 => Of (simplified_union t1 t2) | _, _ => Declaration end.

(** crates/zuban_python/src/file/flow_analysis.rs:225-237 [union_of_refs]; crates/zuban_python/src/file/flow_analysis.rs:208-223 [Entry::union] does the same in place *)
Definition union_of_refs (e other : entry) : entry :=
  Entry (e_key e)
    (match e_deleted e, e_deleted other with
     | false, true => e_kind e
     | true, false => e_kind other
     | _, _ => simplified (e_kind e) (e_kind other)
     end)
    (e_modifies e || e_modifies other) (e_deleted e && e_deleted other).

(** crates/zuban_python/src/file/flow_analysis.rs:239-247 [Entry::common_sub_type] *)
Definition common (a b : kind) : option kind :=
  match a, b with
  | Declaration, _ => Some b
  | _, Declaration => Some a
  | Of t1, Of t2 => option_map Of (common_sub_type t1 t2)
  end.

Definition new_conditional : frame := Frame [] false.
Definition new_unreachable : frame := Frame [] true.

(** crates/zuban_python/src/file/flow_analysis.rs:339-344 [from_type_without_entry] *)
Definition from_type_without_entry (t : type) : frame := if is_never t then new_unreachable else new_conditional.

(** crates/zuban_python/src/file/flow_analysis.rs:350-355 [from_type] *)
Definition from_type (k : key) (t : type) : frame := if is_never t then new_unreachable else Frame [new_entry k t] false.

(** crates/zuban_python/src/file/flow_analysis.rs:357-359 [has_entries] *)
Definition has_entries (f : frame) : bool := match f_entries f with [] => false | _ => true end.

(** crates/zuban_python/src/file/flow_analysis.rs:346-348 [Frame::lookup_entry] *)
Definition find_entry (k : key) (es : list entry) : option entry := find (fun e => equals (e_key e) k) es.

(** Replace the entry of the same key, or add it at the end *)
Fixpoint put (new : entry) (es : list entry) : list entry :=
  match es with
  | [] => [new]
  | e :: es => if equals (e_key e) (e_key new) then new :: es else e :: put new es
  end.

(** crates/zuban_python/src/file/flow_analysis.rs:329-337 [Frame::overwrite_entry] *)
Definition frame_overwrite_entry (new : entry) (f : frame) : frame := Frame (put new (f_entries f)) (f_unreachable f).

(** crates/zuban_python/src/file/flow_analysis.rs:362-364 [invalidate_child_entries] *)
Definition invalidate_child_entries (es : list entry) (k : key) : list entry := filter (fun e => negb (is_child_of (e_key e) k)) es.

(** crates/zuban_python/src/file/flow_analysis.rs:586-595 (FlowAnalysis::lookup_entry) *)
Fixpoint lookup (fs : list frame) (k : key) : option entry :=
  match fs with
  | [] => None
  | f :: fs => match find_entry k (f_entries f) with Some e => Some e | None => lookup fs k end
  end.

(** crates/zuban_python/src/file/flow_analysis.rs:597-599 [is_unreachable] *)
Definition is_unreachable (st : state) : bool := match frames st with [] => false | f :: _ => f_unreachable f end.

(** crates/zuban_python/src/file/flow_analysis.rs:988-992 [mark_current_frame_unreachable] *)
Definition mark_unreachable (st : state) : state :=
  match frames st with [] => st | f :: fs => set_frames (Frame (f_entries f) true :: fs) st end.

(** crates/zuban_python/src/file/flow_analysis.rs:776-800 [merge_key_with_ancestor_assignment] *)
Definition merge_with_ancestor (fs : list frame) (e : entry) : entry :=
  match lookup fs (e_key e) with Some a => union_of_refs a e | None => with_declaration e end.

(** In crates/zuban_python/src/file/flow_analysis.rs:695-710: join a new entry with the one of the same key, or add it at the end *)
Fixpoint add_union (new : entry) (es : list entry) : list entry :=
  match es with
  | [] => [new]
  | e :: es => if equals (e_key e) (e_key new) then union_of_refs e new :: es else e :: add_union new es
  end.

(** In crates/zuban_python/src/file/flow_analysis.rs:684-711: what an assignment means for a [try] around it *)
Definition record_in_try (fs : list frame) (new : entry) (es : list entry) : list entry :=
  let es := invalidate_child_entries es (e_key new) in
  if existsb (fun e => is_child_of (e_key new) (e_key e)) es then es else add_union (merge_with_ancestor fs new) es.

(** crates/zuban_python/src/file/flow_analysis.rs:683-731 [FlowAnalysis::overwrite_entry] *)
Definition overwrite_entry (new : entry) (st : state) : state :=
  State
    (match frames st with
     | [] => []
     | f :: fs => Frame (put new (invalidate_child_entries (f_entries f) (e_key new))) (f_unreachable f) :: fs
     end)
    (map (record_in_try (frames st) new) (tries st)) (loop st) (reports st).

(** crates/zuban_python/src/file/flow_analysis.rs:802-809 [remove_key] *)
Definition remove_key (k : key) (st : state) : state :=
  match frames st with
  | [] => st
  | f :: fs =>
      set_frames (Frame (invalidate_child_entries (filter (fun e => negb (equals (e_key e) k)) (f_entries f)) k) (f_unreachable f) :: fs) st
  end.

(** crates/zuban_python/src/file/flow_analysis.rs:811-818 [remove_key_if_modifies_ancestors] *)
Definition remove_key_if_modifies_ancestors (k : key) (st : state) : state :=
  match frames st with
  | [] => st
  | f :: fs => set_frames (Frame (filter (fun e => negb (e_modifies e) || negb (equals (e_key e) k)) (f_entries f)) (f_unreachable f) :: fs) st
  end.

(** In crates/zuban_python/src/file/flow_analysis.rs:836-847: overwrite an entry, keeping that it is an assignment *)
Fixpoint put_modifying (possibly : bool) (new : entry) (es : list entry) : list entry :=
  match es with
  | [] => [new]
  | e :: es =>
      if equals (e_key e) (e_key new)
      then Entry (e_key new) (e_kind new) (e_modifies new || (e_modifies e || possibly)) (e_deleted new) :: es
      else e :: put_modifying possibly new es
  end.

(** crates/zuban_python/src/file/flow_analysis.rs:820-848 [overwrite_entries] *)
Definition overwrite_entries (new : list entry) (possibly : bool) (st : state) : state :=
  match frames st with
  | [] => st
  | f :: fs =>
      let es := fold_left (fun es e => invalidate_child_entries es (e_key e)) new (f_entries f) in
      set_frames (Frame (fold_left (fun es e => put_modifying possibly e es) new es) (f_unreachable f) :: fs) st
  end.

(** crates/zuban_python/src/file/flow_analysis.rs:850-853 [overwrite_frame] *)
Definition overwrite_frame (new : frame) (st : state) : state :=
  let st := overwrite_entries (f_entries new) false st in if f_unreachable new then mark_unreachable st else st.

(** The entry of a key, and the entries with that one marked as handled *)
Fixpoint take (k : key) (es : list entry) : option (entry * list entry) :=
  match es with
  | [] => None
  | e :: es =>
      if equals k (e_key e) then Some (e, Entry (e_key e) (e_kind e) false (e_deleted e) :: es)
      else option_map (fun p => (fst p, e :: snd p)) (take k es)
  end.

(** crates/zuban_python/src/file/flow_analysis.rs:654-681 [merge_assignments_for_first_frame]: also what becomes of the other frame *)
Fixpoint merge_assignments (first other : list entry) (st : state) : list entry * state :=
  match first with
  | [] => (other, st)
  | e :: first =>
      if e_modifies e
      then
        match take (e_key e) other with
        | Some (o, other) =>
            merge_assignments first other (overwrite_entry (if e_modifies o then union_of_refs e o else union_of_refs o e) st)
        | None => merge_assignments first other (overwrite_entry (merge_with_ancestor (frames st) e) st)
        end
      else merge_assignments first other st
  end.

(** crates/zuban_python/src/file/flow_analysis.rs:633-652 [merge_conditional] *)
Definition merge_conditional (true_frame false_frame : frame) (st : state) : state :=
  if f_unreachable false_frame || f_unreachable true_frame
  then
    if negb (f_unreachable false_frame) then overwrite_entries (f_entries false_frame) (has_entries true_frame) st
    else if negb (f_unreachable true_frame) then overwrite_entries (f_entries true_frame) (has_entries false_frame) st
    else mark_unreachable st
  else
    let '(falses, st) := merge_assignments (f_entries true_frame) (f_entries false_frame) st in
    snd (merge_assignments falses (f_entries true_frame) st).

(** In crates/zuban_python/src/file/flow_analysis.rs:1102-1105: add an assignment that one side makes *)
Definition or_add (fs : list frame) (e : entry) (new : list entry) : list entry :=
  invalidate_child_entries new (e_key e) ++ [merge_with_ancestor fs e].

(** In crates/zuban_python/src/file/flow_analysis.rs:1106-1136: the entries of the first frame *)
Fixpoint or_first (fs : list frame) (optional : bool) (xs ys new : list entry) : list entry * list entry :=
  match xs with
  | [] => (ys, new)
  | x :: xs =>
      match take (e_key x) ys with
      | Some (y, ys) => or_first fs optional xs ys (new ++ [union_of_refs x y])
      | None =>
          or_first fs optional xs ys
            (if e_modifies x then if optional then new ++ [x] else or_add fs x new else new)
      end
  end.

(** In crates/zuban_python/src/file/flow_analysis.rs:1137-1147: what is left of the second frame *)
Fixpoint or_second (fs : list frame) (ys new : list entry) : list entry :=
  match ys with
  | [] => new
  | y :: ys =>
      or_second fs ys
        (if e_modifies y && negb (existsb (fun e => is_child_of (e_key y) (e_key e)) new) then or_add fs y new else new)
  end.

(** crates/zuban_python/src/file/flow_analysis.rs:1087-1149 [merge_or] *)
Definition merge_or (fs : list frame) (x y : frame) (optional : bool) : frame :=
  if f_unreachable x then y
  else if f_unreachable y then x
  else
    let '(ys, new) := or_first fs optional (f_entries x) (f_entries y) [] in
    Frame (or_second fs ys new) false.

(** In crates/zuban_python/src/file/flow_analysis.rs:1190-1209: one entry of the second frame *)
Fixpoint and_entry (y : entry) (xs : list entry) : list entry * bool :=
  match xs with
  | [] => ([y], false)
  | x :: xs =>
      if equals (e_key x) (e_key y)
      then
        if e_modifies y then (y :: xs, false)
        else
          match common (e_kind x) (e_kind y) with
          | Some t => (Entry (e_key x) t (e_modifies x) (e_deleted x) :: xs, false)
          | None => (Entry (e_key x) (Of never) (e_modifies x) (e_deleted x) :: xs, true)
          end
      else let '(xs, u) := and_entry y xs in (x :: xs, u)
  end.

Fixpoint and_entries (ys xs : list entry) : list entry * bool :=
  match ys with
  | [] => (xs, false)
  | y :: ys => let '(xs, u) := and_entry y xs in let '(xs, u') := and_entries ys xs in (xs, u || u')
  end.

(** crates/zuban_python/src/file/flow_analysis.rs:1182-1212 [merge_and] *)
Definition merge_and (x y : frame) : frame :=
  if f_unreachable x then x
  else if f_unreachable y then y
  else let '(es, u) := and_entries (f_entries y) (f_entries x) in Frame es u.

(** crates/zuban_python/src/file/flow_analysis.rs:938-942 [with_frame] *)
Definition push (f : frame) (st : state) : state := set_frames (f :: frames st) st.
Definition pop (st : state) : frame * state :=
  match frames st with [] => (new_conditional, st) | f :: fs => (f, set_frames fs st) end.

(** In crates/zuban_python/src/file/flow_analysis.rs:978-984: what a frame further out adds *)
Definition add_missing (result : list entry) (f : frame) : list entry :=
  fold_left (fun result e => match find_entry (e_key e) result with None => result ++ [e] | Some _ => result end) (f_entries f) result.

(** crates/zuban_python/src/file/flow_analysis.rs:976-986 [merge_frames_for_index] *)
Definition merge_frames_for_index (fs : list frame) (index : nat) : frame :=
  Frame (fold_left add_missing (firstn (length fs - index) fs) []) false.

(** crates/zuban_python/src/file/flow_analysis.rs:564-584 [lookup_narrowed_key_and_deleted] and, for what is then done with the result, crates/zuban_python/src/file/flow_analysis.rs:1731-1749 [maybe_lookup_narrowed_name] *)
Definition look_at (st : state) (k : key) : report :=
  match lookup (frames st) k with
  | Some e => if e_deleted e then ReadingDeleted else match e_kind e with Of t => Revealed t | Declaration => Revealed (declared k) end
  | None => Revealed (declared k)
  end.

Definition type_of (st : state) (k : key) : type := match look_at st k with Revealed t => t | ReadingDeleted => error end.

(** crates/zuban_python/src/file/flow_analysis.rs:1947-1960 [save_narrowed] *)
Definition save_narrowed (k : key) (t : type) (st : state) : state := overwrite_entry (Entry k (Of t) true false) st.

(** crates/zuban_python/src/file/flow_analysis.rs:1823-1885 [narrow_or_widen_target_internal], when the type fits the declaration *)
Definition narrow_or_widen_internal (k : key) (t : type) (st : state) : state :=
  if explicit_any k then remove_key k st
  else if is_any t && negb (any_in (declared k))
  then if none_in (declared k) then save_narrowed k (union (remove_none (declared k)) t) st else remove_key_if_modifies_ancestors k st
  else save_narrowed k t st.

(** crates/zuban_python/src/file/flow_analysis.rs:1809-1821 [narrow_or_widen_target] *)
Definition assign (k : key) (t : type) (st : state) : state :=
  narrow_or_widen_internal k (if could_be_a_literal (declared k) then t else avoid_implicit_literal t) st.

(** crates/zuban_python/src/file/flow_analysis.rs:2349-2362 [delete_name] *)
Definition delete_name (k : key) (st : state) : state := overwrite_entry (Entry k (Of error) true true) st.

(** Conditions: a test of a key, the truth of the result of a call with assignments [k := e] among its arguments, the truth of [k := e], and
    the boolean operators.  The type of an expression that is not looked into is given. *)
Inductive cond :=
| CTest (g : test) (k : key)
| CCall (walruses : list (key * type)) (t : type)
| CWalrus (k : key) (t : type)
| CNot (c : cond)
| CAnd (a b : cond)
| COr (a b : cond).

(** crates/zuban_python/src/file/flow_analysis.rs:3888-3966 [find_guards_in_named_expr], for a walrus: the frames of the expression, then the assignment *)
Definition walrus_guards (k : key) (t : type) (st : state) : frame * frame * state :=
  let '(truthy, falsey) :=
    match split truthiness t with
    | Some (a, b) => (from_type_without_entry a, from_type_without_entry b)
    | None => (new_conditional, new_conditional)
    end in
  let '(walrus_frame, st) := pop (assign k t (push new_conditional st)) in
  match split truthiness t with
  | Some (a, b) =>
      (frame_overwrite_entry (Entry k (Of a) true false) truthy, frame_overwrite_entry (new_entry k b) falsey, st)
  | None =>
      (fold_left (fun f e => frame_overwrite_entry e f) (f_entries walrus_frame) truthy,
       fold_left (fun f e => frame_overwrite_entry e f) (f_entries walrus_frame) falsey, st)
  end.

(** crates/zuban_python/src/file/flow_analysis.rs:4039-4174 [find_guards_in_expression_parts_inner], crates/zuban_python/src/file/flow_analysis.rs:2889-2945 [check_conjunction], crates/zuban_python/src/file/flow_analysis.rs:2957-3020 [check_disjunction],
    crates/zuban_python/src/file/flow_analysis.rs:1151-1168 [merge_conjunction]: the frames for when the condition holds and for when it does not *)
Fixpoint guards (c : cond) (st : state) : frame * frame * state :=
  match c with
  | CTest g k =>
      match split g (type_of st k) with
      | Some (a, b) => (from_type k a, from_type k b, st)
      | None => (new_conditional, new_conditional, st)
      end
  | CCall walruses t =>
      let st := fold_left (fun st w => assign (fst w) (snd w) st) walruses st in
      match split truthiness t with
      | Some (a, b) => (from_type_without_entry a, from_type_without_entry b, st)
      | None => (new_conditional, new_conditional, st)
      end
  | CWalrus k t => walrus_guards k t st
  | CNot c => let '(t, f, st) := guards c st in (f, t, st)
  | CAnd a b =>
      let '(lt, lf, st) := guards a st in
      if f_unreachable lt
      then (merge_and lt new_conditional, merge_or (frames st) lf new_conditional true, st)
      else
        let '(rt, rf, st) := guards b (push lt st) in
        let '(lt, st) := pop st in
        (merge_and lt rt, merge_or (frames st) lf rf true, st)
  | COr a b =>
      let '(lt, lf, st) := guards a st in
      if f_unreachable lf
      then (merge_or (frames st) lt new_conditional true, merge_and lf new_conditional, st)
      else
        let '(rt, rf, st) := guards b (push lf st) in
        let '(lf, st) := pop st in
        (merge_or (frames st) lt rt true, merge_and lf rf, st)
  end.

(** What is assigned: the result of some expression of a given type, or the value of a key *)
Inductive source := Value (t : type) | Read (k : key).

(** Statements.  [SReveal] is a place where the user looks at a key; [SSkip] is an expression without an effect on the keys; a call that does not
    return is like [SRaise].  The second part of [SIf] is the next condition ([elif]) if the flag is set, else the body of [else].  [STry] has a
    body, the [except] blocks, what is in [else] and what is in [finally]; [SWith] is a [with] that may suppress exceptions. *)
Inductive stmt :=
| SSkip
| SReveal (label : N) (k : key)
| SAssign (k : key) (s : source)
| SDel (k : key)
| SSeq (a b : stmt)
| SIf (c : cond) (a : stmt) (elif : bool) (b : stmt)
| SWhile (c : cond) (body orelse : stmt)
| SFor (k : key) (t : type) (body orelse : stmt)
| SBreak | SContinue | SReturn | SRaise
| SAssert (c : cond)
| STry (body : stmt) (handlers : list stmt) (orelse : option stmt) (finally : stmt)
| SWith (body : stmt).

Definition source_type (s : source) (st : state) : type := match s with Value t => t | Read k => type_of st k end.

(** crates/zuban_python/src/file/flow_analysis.rs:963-969 (with_new_loop_frame), before *)
Definition enter_loop (f : frame) (st : state) : state :=
  State (f :: frames st) (tries st) (Some (Loop [] [] (length (frames st)))) (reports st).

(** crates/zuban_python/src/file/flow_analysis.rs:969-974 (with_new_loop_frame), after *)
Definition leave_loop (old : option loop_details) (st : state) : frame * loop_details * state :=
  let '(after, st) := pop st in
  (after, match loop st with Some l => l | None => Loop [] [] 0 end, State (frames st) (tries st) old (reports st)).

(** crates/zuban_python/src/file/flow_analysis.rs:2210-2222 [flow_analysis_for_break_stmt] *)
Definition break_stmt (st : state) : state :=
  match loop st with
  | None => st
  | Some l =>
      mark_unreachable
        (State (frames st) (tries st)
           (Some (Loop (l_breaks l ++ [merge_frames_for_index (frames st) (l_index l)]) (l_continues l) (l_index l))) (reports st))
  end.

(** crates/zuban_python/src/file/flow_analysis.rs:2224-2236 [flow_analysis_for_continue_stmt] *)
Definition continue_stmt (st : state) : state :=
  match loop st with
  | None => st
  | Some l =>
      mark_unreachable
        (State (frames st) (tries st)
           (Some (Loop (l_breaks l) (l_continues l ++ [merge_frames_for_index (frames st) (l_index l)]) (l_index l))) (reports st))
  end.

(** In crates/zuban_python/src/file/flow_analysis.rs:2189-2197: the frame for when the loop is left without [break]; [conditional] is whether there
    is a condition *)
Definition loop_exit (conditional : bool) (false_frame after : frame) (l : loop_details) (st : state) : frame :=
  let after := fold_left (fun after c => merge_or (frames st) after c false) (l_continues l) after in
  merge_or (frames st) false_frame (if conditional then merge_and after false_frame else after) false.

(** The end of crates/zuban_python/src/file/flow_analysis.rs:2169-2208 [process_loop] *)
Definition finish_loop (orelse : state -> state) (exit : frame) (l : loop_details) (st : state) : state :=
  let '(after, st) := pop (orelse (push exit st)) in
  merge_conditional (fold_left (fun after b => merge_or (frames st) after b false) (l_breaks l) after) new_unreachable st.

(** crates/zuban_python/src/file/flow_analysis.rs:951-961 (with_new_try_frame) *)
Definition enter_try (st : state) : state := State (frames st) ([] :: tries st) (loop st) (reports st).
Definition leave_try (st : state) : list entry * state :=
  match tries st with [] => ([], st) | t :: ts => (t, State (frames st) ts (loop st) (reports st)) end.

(** crates/zuban_python/src/file/diagnostics.rs:384-427 [calc_stmts_diagnostics]: nothing is looked at any more once it cannot be reached *)
Definition block (analyse : state -> state) (st : state) : state := if is_unreachable st then st else analyse st.

(** crates/zuban_python/src/file/diagnostics.rs:429-546 [handle_stmt_like]; crates/zuban_python/src/file/flow_analysis.rs:2251-2304 [process_ifs], crates/zuban_python/src/file/flow_analysis.rs:2169-2208 [process_loop],
    crates/zuban_python/src/file/flow_analysis.rs:1765-1792 [flow_analysis_for_assert], crates/zuban_python/src/file/flow_analysis.rs:2444-2479 [flow_analysis_for_try_stmt],
    crates/zuban_python/src/file/flow_analysis.rs:2481-2649 [flow_analysis_for_try_stmt_without_finally],
    crates/zuban_python/src/file/flow_analysis.rs:2651-2663 [flow_analysis_for_with_stmt_when_exceptions_maybe_suppressed] *)
Fixpoint analyse (s : stmt) (st : state) : state :=
  match s with
  | SSkip => st
  | SReveal label k => State (frames st) (tries st) (loop st) (reports st ++ [(label, look_at st k)])
  | SAssign k s => assign k (source_type s st) st
  | SDel k => delete_name k st
  | SSeq a b => block (analyse b) (block (analyse a) st)
  | SIf c a elif b =>
      let '(t, f, st) := guards c st in
      let '(t, st) := pop (block (analyse a) (push t st)) in
      let '(f, st) := pop ((if elif then analyse b else block (analyse b)) (push f st)) in
      merge_conditional t f st
  | SWhile c body orelse =>
      let '(t, f, st) := guards c st in
      let '(after, l, st) := leave_loop (loop st) (block (analyse body) (enter_loop t st)) in
      finish_loop (block (analyse orelse)) (loop_exit true f after l st) l st
  | SFor k t body orelse =>
      let '(after, l, st) := leave_loop (loop st) (block (analyse body) (assign k t (enter_loop new_conditional st))) in
      finish_loop (block (analyse orelse)) (loop_exit false new_conditional after l st) l st
  | SBreak => break_stmt st
  | SContinue => continue_stmt st
  | SReturn | SRaise => mark_unreachable st
  | SAssert c => let '(t, _, st) := guards c st in overwrite_frame t st
  | STry body handlers orelse finally =>
      let '(try_frame, st) := pop (block (analyse body) (push new_conditional (enter_try st))) in
      let '(caught, st) := leave_try st in
      let '(after_exception, st) :=
        fold_left
          (fun acc h =>
             let '(after, st) := acc in
             let '(f, st) := pop (block (analyse h) (push (Frame caught false) st)) in
             (merge_or (frames st) f after false, st))
          handlers (new_unreachable, st) in
      let '(after_ok, st) :=
        match orelse with
        | None => (merge_or (frames st) try_frame new_unreachable false, st)
        | Some orelse =>
            let else_frame := if f_unreachable try_frame then new_unreachable else new_conditional in
            let '(f, st) := pop (block (analyse orelse) (push else_frame (push try_frame st))) in
            let after_ok := merge_or (frames st) new_unreachable f false in
            let '(_, st) := pop st in (after_ok, st)
        end in
      let st := merge_conditional after_ok after_exception st in
      let old_unreachable := is_unreachable st in
      let st := match frames st with [] => st | f :: fs => set_frames (Frame (f_entries f) false :: fs) st end in
      let st := block (analyse finally) st in
      if old_unreachable then mark_unreachable st else st
  | SWith body =>
      let '(_, st) := pop (block (analyse body) (push new_conditional (enter_try st))) in
      let '(caught, st) := leave_try st in
      overwrite_entries caught false st
  end.

(** The entries for the parameters of a function, crates/zuban_python/src/file/diagnostics.rs:1950-1956, and the frame for its body *)
Definition start (params : list N) : state :=
  State [Frame (map (fun n => Entry (Name n) Declaration true false) params) false] [] None [].

Definition function (params : list N) (body : stmt) : list (N * report) := reports (block (analyse body) (start params)).
End Flow.
