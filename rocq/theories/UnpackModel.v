(** Iteration and unpacking: [IteratorContent] in crates/zuban_python/src/matching/mod.rs, the assignment to targets in
    crates/zuban_python/src/file/inference.rs, tuple displays with [TupleGatherer] in crates/zuban_python/src/file/utils.rs and
    sequence patterns in crates/zuban_python/src/file/flow_analysis.rs.

    A panic is [None]; this is also what becomes of [recoverable_error!], which panics in a debug build.  The special treatment of
    [None] in functions without annotations is left out. *)
From Coq Require Import List NArith Bool.
From Verif Require Import TupleModel.
Import ListNotations.
Open Scope N_scope.

(** crates/zuban_python/src/type_/mod.rs:492-529 [Type].  Type variables, NewTypes and recursive aliases are given with what is behind them, an
    alias as deep as it is looked at.  A string literal is the list of its code points. *)
Inductive type :=
| Any | Never | NoneType
| Class (c : N) (gs : list type)
| Literal (s : list N)
| Tuple (a : args type)
| Union (ts : list type)
| TypeVar (n : N) (bound : option type)
| NewType (n : N) (t : type)
| Recursive (n : N) (t : type).

(** crates/zuban_python/src/matching/mod.rs:222-236 [IteratorContent]: [Inferred] is [Items], [Union] is [Several] *)
Inductive iterator :=
| Items (t : type)
| Fixed (entries : list type) (current_index : nat)
| Unpacked (w : with_unpack type) (before_index after_index : nat)
| Several (its : list iterator)
| AnyItems.

(** What crates/zuban_python/src/type_helpers/instance.rs:286-330 finds for [__iter__]: a tuple among the base classes, the items, or nothing; a
    class with an unknown base class has items of type [Any] *)
Inductive class_items := TupleBase (a : args type) | ItemsOf (t : type) | NoItems.

Inductive issue :=
| NotIterable | TooFewValues (actual expected : nat) | TooManyValues (actual expected : nat) | TooManyTargetsForVariadic | StarTargetRequired
| MultipleStars | StringUnpacked.

(** The targets of an assignment: a name (or attribute, subscript), [*target], and [(target, ...)] *)
Inductive target := Name (n : N) | Starred (t : target) | Targets (ts : list target).

(** crates/zuban_python/src/matching/mod.rs:506-509 [TupleLenInfos] *)
Inductive len_infos := FixedLength (n : nat) | WithStar (before after : nat).

Section Unpack.
(** The classes [list] and [str], [object]; what iterating over a class gives; joins, simplified unions, and the type without implicit literals *)
Variables (list_class str_class object_class : N) (items : N -> list type -> class_items) (join : list type -> type) (union : list type -> type)
          (avoid_implicit_literal : type -> type).

Definition list_of (t : type) : type := Class list_class [t].
Definition object : type := Class object_class [].

(** crates/zuban_python/src/type_/tuple.rs:128-140 [iter] *)
Definition tuple_iter (a : args type) : iterator :=
  match a with FixedLen ts => Fixed ts 0 | ArbitraryLen t => Items t | WithUnpack w => Unpacked w 0 0 end.

(** crates/zuban_python/src/type_helpers/instance.rs:286-333 [iter] *)
Definition class_iter (c : N) (gs : list type) : list issue * iterator :=
  match items c gs with TupleBase a => ([], tuple_iter a) | ItemsOf t => ([], Items t) | NoItems => ([NotIterable], AnyItems) end.

(** crates/zuban_python/src/type_/operations.rs:816-871 [iter] *)
Fixpoint iter (t : type) : list issue * iterator :=
  match t with
  | Class c gs => class_iter c gs
  | Tuple a => ([], tuple_iter a)
  | Union ts => let rs := map iter ts in (concat (map fst rs), Several (map snd rs))
  | TypeVar _ (Some bound) => iter bound
  | TypeVar _ None => ([NotIterable], AnyItems)
  | NewType _ t => iter t
  | Recursive _ t => iter t
  | Literal _ => class_iter str_class []
  | NoneType => ([NotIterable], Items Any)
  | Any => ([], Items Any)
  | Never => ([], Items Never)
  end.

(** crates/zuban_python/src/type_/mod.rs:785-804 [iter_with_unpacked_unions_and_maybe_include_never] with [include_never], and [RecursiveTypeIterator] *)
Fixpoint members (t : type) : list type :=
  match t with
  | Union ts => flat_map (fun t => match t with Recursive _ t => members t | _ => [t] end) ts
  | Recursive _ t => members t
  | _ => [t]
  end.

(** crates/zuban_python/src/matching/mod.rs:246-280 [infer_all] *)
Fixpoint infer_all (it : iterator) : type :=
  match it with
  | Items t => t
  | Fixed entries current_index => union (skipn current_index entries)
  | Several its => union (map infer_all its)
  | Unpacked w before_index after_index =>
      match middle w with
      | TypeVarTuple _ => union [object]
      | Many t => union (skipn before_index (before w) ++ [t] ++ skipn after_index (before w))
      end
  | AnyItems => Any
  end.

(** crates/zuban_python/src/matching/mod.rs:341-428 [unpack_starred_and_return_is_empty]: the new iterator, whether nothing was fetched, the type *)
Definition unpack_starred (it : iterator) (after_ : nat) (tuple_target use_joins : bool) : option (iterator * bool * type) :=
  let gather l := if use_joins then join l else union l in
  match it with
  | Items t => Some (it, false, list_of t)
  | AnyItems => Some (it, false, list_of Any)
  | Fixed entries current_index =>
      if Nat.ltb (length entries) after_ then None
      else let end_ := (length entries - after_)%nat in
           if Nat.ltb end_ current_index then None
           else let relevant := firstn (end_ - current_index) (skipn current_index entries) in
                Some (Fixed entries end_, Nat.eqb end_ current_index,
                      if tuple_target then Tuple (FixedLen relevant) else list_of (gather (map avoid_implicit_literal relevant)))
  | Unpacked w before_index after_index =>
      Some (Unpacked w (length (before w)) (length (after w) - after_), false,
            list_of match middle w with
                    | TypeVarTuple _ => object
                    | Many t => gather (skipn before_index (before w) ++ [t] ++ firstn (length (after w) - after_) (after w))
                    end)
  | Several _ => None
  end.

(** crates/zuban_python/src/matching/mod.rs:434-468 [unpack_next_with_customized_after] *)
Definition unpack_next_with (on_after : with_unpack type -> option type) (it : iterator) : option (iterator * type) :=
  match it with
  | Items t => Some (it, t)
  | AnyItems => Some (it, Any)
  | Fixed entries current_index => option_map (fun t => (Fixed entries (S current_index), t)) (nth_error entries current_index)
  | Unpacked w before_index after_index =>
      match nth_error (before w) before_index with
      | Some t => Some (Unpacked w (S before_index) after_index, t)
      | None =>
          match on_after w with
          | Some t => Some (it, t)
          | None => option_map (fun t => (Unpacked w before_index (S after_index), t)) (nth_error (after w) after_index)
          end
      end
  | Several _ => None
  end.

(** crates/zuban_python/src/matching/mod.rs:430-432 [unpack_next] *)
Definition unpack_next (it : iterator) : option (iterator * type) := unpack_next_with (fun _ => None) it.

(** crates/zuban_python/src/matching/mod.rs:470-485 [len_infos] *)
Definition iterator_len (it : iterator) : option (option len_infos) :=
  match it with
  | Items _ | AnyItems => Some None
  | Fixed entries current_index => if Nat.ltb (length entries) current_index then None else Some (Some (FixedLength (length entries - current_index)))
  | Several _ => None
  | Unpacked w _ _ => Some (Some (WithStar (length (before w)) (length (after w))))
  end.

(** crates/zuban_python/src/file/inference.rs:5077-5096 [targets_len_infos] *)
Fixpoint count_targets (ts : list target) (before_ star_count after_ : nat) : nat * len_infos :=
  match ts with
  | [] => (star_count, if Nat.ltb 0 star_count then WithStar before_ after_ else FixedLength before_)
  | Starred _ :: ts => count_targets ts before_ (S star_count) after_
  | _ :: ts => if Nat.ltb 0 star_count then count_targets ts before_ star_count (S after_) else count_targets ts (S before_) star_count after_
  end.

Definition targets_len_infos (ts : list target) : nat * len_infos := count_targets ts 0 0 0.

(** The comparison of lengths in crates/zuban_python/src/file/inference.rs:2266-2378 [assign_tuple_target] *)
Definition length_issue (expected : len_infos) (actual : option len_infos) : list issue :=
  match expected, actual with
  | FixedLength e, Some (FixedLength a) => if Nat.eqb a e then [] else if Nat.ltb a e then [TooFewValues a e] else [TooManyValues a e]
  | WithStar b a, Some (FixedLength n) => if Nat.ltb n (b + a) then [TooFewValues n (b + a)] else []
  | WithStar b1 a1, Some (WithStar b2 a2) => if Nat.ltb b2 b1 || Nat.ltb a2 a1 then [TooManyTargetsForVariadic] else []
  | FixedLength _, Some (WithStar _ _) => [StarTargetRequired]
  | _, None => []
  end.

(** The names that are assigned to, with the types; a name with several types has their union (types are accumulated). *)
Definition result := option (list issue * list (N * type)).

Definition seq (a : result) (b : unit -> result) : result :=
  match a with
  | None => None
  | Some (is, bs) => match b tt with None => None | Some (is', bs') => Some (is ++ is', bs ++ bs') end
  end.

Definition in_sequence {A} (f : A -> result) : list A -> result :=
  fix go l := match l with [] => Some ([], []) | x :: l => seq (f x) (fun _ => go l) end.

Definition report (is : list issue) : result := Some (is, []).

(** Whether the target of a starred target has a type already *)
Variable defined : target -> bool.

Definition is_targets (t : target) : bool := match t with Targets _ => true | _ => false end.

(** The string literal as bytes, [s.len()] *)
Definition utf8_length (c : N) : nat := if c <? 128 then 1 else if c <? 2048 then 2 else if c <? 65536 then 3 else 4.
Definition byte_length (s : list N) : nat := fold_right (fun c n => (utf8_length c + n)%nat) 0%nat s.

Definition is_unpacked_string (part : type) (count : nat) : bool :=
  match part with
  | Class c _ => c =? str_class
  | Literal s => negb (Nat.eqb (byte_length s) count)
  | _ => false
  end.

(** The value of a starred target, crates/zuban_python/src/file/inference.rs:2266-2378 [assign_tuple_target] *)
Definition starred_value (t : target) (is_empty : bool) (value : type) : type :=
  if is_empty && negb (is_targets t) && defined t then list_of Any else value.

(** The step "4. Actually assign targets" of crates/zuban_python/src/file/inference.rs:2266-2378 [assign_tuple_target], where [assign] is [assign_targets] *)
Section Assign.
Variable assign : target -> type -> result.

Fixpoint assign_each (ts : list target) (after_ : nat) (it : iterator) {struct ts} : result :=
  match ts with
  | [] => Some ([], [])
  | t :: ts =>
      match t with
      | Starred t =>
          match unpack_starred it after_ (is_targets t) true with
          | None => None
          | Some (it, is_empty, value) => seq (assign t (starred_value t is_empty value)) (fun _ => assign_each ts after_ it)
          end
      | _ =>
          match unpack_next it with
          | None => None
          | Some (it, value) => seq (assign t value) (fun _ => assign_each ts after_ it)
          end
      end
  end.

(** crates/zuban_python/src/file/inference.rs:2266-2378 [assign_tuple_target] *)
Definition assign_tuple_target (ts : list target) (it : iterator) : result :=
  match iterator_len it with
  | None => None
  | Some actual =>
      let (star_count, expected) := targets_len_infos ts in
      let is := length_issue expected actual ++ (if Nat.ltb 1 star_count then [MultipleStars] else []) in
      match is with
      | [] => assign_each ts (match expected with WithStar _ a => a | FixedLength _ => 0%nat end) it
      | _ => seq (report is) (fun _ => in_sequence (fun t => assign t Any) ts)
      end
  end.

(** The loop over the members of the value in crates/zuban_python/src/file/inference.rs:2170-2264 [assign_targets] *)
Definition assign_member (ts : list target) (part : type) : result :=
  seq (report (if is_unpacked_string part (length ts) then [StringUnpacked] else [])) (fun _ =>
  let (is, it) := iter part in
  seq (report is) (fun _ =>
  match it with
  | Several its => in_sequence (assign_tuple_target ts) its
  | _ => assign_tuple_target ts it
  end)).
End Assign.

(** crates/zuban_python/src/file/inference.rs:2170-2264 [assign_targets] *)
Fixpoint assign_targets (t : target) (value : type) {struct t} : result :=
  match t with
  | Name n => Some ([], [(n, value)])
  | Starred t => assign_targets t (list_of Any)
  | Targets ts => in_sequence (assign_member assign_targets ts) (members value)
  end.


(** crates/zuban_python/src/file/utils.rs:858-864 [TupleGatherer] *)
Record gatherer := mk_gatherer { g_before : list type; g_unpack : option (unpack type); g_after : list type; is_arbitrary_length : bool }.

Definition no_items : gatherer := mk_gatherer [] None [] false.
Definition arbitrary (g : gatherer) : gatherer := mk_gatherer (g_before g) (g_unpack g) (g_after g) true.

(** crates/zuban_python/src/file/utils.rs:914-920 [extend_from_slice] *)
Definition extend_from_slice (g : gatherer) (ts : list type) : gatherer :=
  match g_unpack g with
  | Some _ => mk_gatherer (g_before g) (g_unpack g) (g_after g ++ ts) (is_arbitrary_length g)
  | None => mk_gatherer (g_before g ++ ts) None (g_after g) (is_arbitrary_length g)
  end.

(** crates/zuban_python/src/file/utils.rs:867-873 [add] *)
Definition gatherer_add (g : gatherer) (t : type) : gatherer := extend_from_slice g [t].

(** crates/zuban_python/src/file/utils.rs:875-912 [extend_from_inferred_iterator] *)
Definition extend_from_iterator (g : gatherer) (it : iterator) (after_ : nat) : option gatherer :=
  match it with
  | Items _ | AnyItems | Several _ => Some (arbitrary g)
  | Fixed entries current_index =>
      if Nat.ltb (length entries) after_ then None
      else if Nat.ltb (length entries - after_) current_index then None
      else Some (extend_from_slice g (firstn (length entries - after_ - current_index) (skipn current_index entries)))
  | Unpacked w _ _ =>
      match g_unpack g with
      | Some _ => Some (arbitrary g)
      | None =>
          let g := extend_from_slice g (before w) in
          Some (extend_from_slice (mk_gatherer (g_before g) (Some (middle w)) (g_after g) (is_arbitrary_length g)) (after w))
      end
  end.

(** crates/zuban_python/src/file/utils.rs:922-939 [into_tuple] *)
Definition into_tuple (g : gatherer) (on_arbitrary_length : unit -> option type) : option type :=
  if is_arbitrary_length g then option_map (fun t => Tuple (ArbitraryLen t)) (on_arbitrary_length tt)
  else match g_unpack g with
       | Some u => Some (Tuple (WithUnpack (mk_unpack (g_before g) u (g_after g))))
       | None => Some (Tuple (FixedLen (g_before g)))
       end.

(** An entry of a display, with its type: [e] or [*e].  The type does not depend on the expected type here. *)
Inductive entry := One (t : type) | Star (t : type).

(** crates/zuban_python/src/file/utils.rs:60-103 [create_list_or_set_generics]; [gather_types] is [join] *)
Definition entry_generic (e : entry) : list issue * type :=
  match e with
  | One t => ([], avoid_implicit_literal t)
  | Star t => let (is, it) := iter t in (is, avoid_implicit_literal (infer_all it))
  end.

Definition list_generics (es : list entry) : list issue * type :=
  let rs := map entry_generic es in (concat (map fst rs), join (map snd rs)).

(** crates/zuban_python/src/file/inference.rs:3866-3918 [infer_tuple_iterator]: the loop, and the whole *)
Fixpoint gather_entries (es : list entry) (g : gatherer) : option (list issue * gatherer) :=
  match es with
  | [] => Some ([], g)
  | e :: es =>
      match e with
      | One t => gather_entries es (gatherer_add g t)
      | Star t =>
          let (is, it) := iter t in
          match extend_from_iterator g it 0 with
          | None => None
          | Some g =>
              if is_arbitrary_length g then Some (is, g)
              else option_map (fun r => (is ++ fst r, snd r)) (gather_entries es g)
          end
      end
  end.

Definition infer_tuple (es : list entry) : option (list issue * type) :=
  match gather_entries es no_items with
  | None => None
  | Some (is, g) =>
      let gs := list_generics es in
      option_map (fun t => (is ++ (if is_arbitrary_length g then fst gs else []), t)) (into_tuple g (fun _ => Some (snd gs)))
  end.

(** Sequence patterns.  What the patterns of the items do is a parameter: for the type of the item it is matched against, the type if it matches and
    if it does not match; [is_never] is what the code asks for both. *)
Section Patterns.
Context {P : Type}.
Variables (guards : P -> type -> type * type) (is_never : type -> bool) (name_defined : N -> bool).

(** [p] and [*name] or [*_] *)
Inductive sequence_item := Entry (p : P) | Rest (name : option N).

(** The type if the sequence matches and if it does not, the types the patterns of the items were matched against, the name of the rest with its type *)
Record pattern_result := mk_result { truthy : type; falsey : type; matched : list (P * type); rest : list (N * type); p_issues : list issue }.

Definition mismatch (t : type) : pattern_result := mk_result Never t [] [] [].

(** crates/zuban_python/src/file/flow_analysis.rs:3744-3776 [assign_sequence_patterns]: the union of the types if the items match *)
Fixpoint assign_sequence_patterns (container : type) (ps : list sequence_item) : list type * list (P * type) * list (N * type) :=
  match ps with
  | [] => ([], [], [])
  | Entry p :: ps => let '(ts, ms, rs) := assign_sequence_patterns container ps in (fst (guards p container) :: ts, (p, container) :: ms, rs)
  | Rest (Some n) :: ps => let '(ts, ms, rs) := assign_sequence_patterns container ps in (ts, ms, (n, list_of container) :: rs)
  | Rest None :: ps => assign_sequence_patterns container ps
  end.

(** The first loop of crates/zuban_python/src/file/flow_analysis.rs:3778-3886 [assign_tup_for_sequence_patterns]: the number of patterns that are no rest, of
    those behind the rest, whether there is one; nothing if there are two *)
Fixpoint count_patterns (ps : list sequence_item) (normal after_stars : nat) (had_starred : bool) : option (nat * nat * bool) :=
  match ps with
  | [] => Some (normal, after_stars, had_starred)
  | Entry _ :: ps => count_patterns ps (S normal) (if had_starred then S after_stars else after_stars) had_starred
  | Rest _ :: ps => if had_starred then None else count_patterns ps normal after_stars true
  end.

(** [fallback_bound] crates/zuban_python/src/type_/tuple.rs:487-492 [fallback_bound] *)
Definition fallback_bound (u : unpack type) : type := match u with TypeVarTuple _ => object | Many t => t end.

Definition customized_after (normal i : nat) (had_starred : bool) (w : with_unpack type) : option type :=
  if Nat.ltb (length (after w)) (normal - i + (if had_starred then 1 else 0)) then Some (fallback_bound (middle w)) else None.

(** The state of the second loop *)
Record pattern_state := mk_state { s_iterator : iterator; s_gatherer : gatherer; s_unreachable : bool; s_star : bool; s_matched : list (P * type); s_rest : list (N * type) }.

(** The second loop; [Some None] if an item cannot match *)
Fixpoint match_each (normal after_stars : nat) (had_starred : bool) (ps : list sequence_item) (i : nat) (s : pattern_state) : option (option pattern_state) :=
  match ps with
  | [] => Some (Some s)
  | Entry p :: ps =>
      match unpack_next_with (customized_after normal i had_starred) (s_iterator s) with
      | None => None
      | Some (it, value) =>
          let (t, f) := guards p value in
          if is_never t then Some None
          else match_each normal after_stars had_starred ps (S i)
                 (mk_state it (gatherer_add (s_gatherer s) t) (s_unreachable s && is_never f) (s_star s) (s_matched s ++ [(p, value)]) (s_rest s))
      end
  | Rest n :: ps =>
      match extend_from_iterator (s_gatherer s) (s_iterator s) after_stars, unpack_starred (s_iterator s) after_stars false false with
      | Some g, Some (it, is_empty, value) =>
          let rest := match n with
                      | Some n => [(n, if is_empty && name_defined n then list_of Any else value)]
                      | None => []
                      end in
          match_each normal after_stars had_starred ps (S i) (mk_state it g (s_unreachable s) true (s_matched s) (s_rest s ++ rest))
      | _, _ => None
      end
  end.

(** crates/zuban_python/src/file/flow_analysis.rs:3778-3886 [assign_tup_for_sequence_patterns]; [into_tuple] must not need the arbitrary length *)
Definition match_tuple (a : args type) (ps : list sequence_item) : option pattern_result :=
  let t := Tuple a in
  let with_fixed (fixed_items : nat) (is_unpack : bool) :=
    match count_patterns ps 0 0 false with
    | None =>
        let '(_, ms, rs) := assign_sequence_patterns Any ps in Some (mk_result t t ms rs [MultipleStars])
    | Some (normal, after_stars, had_starred) =>
        if negb had_starred && Nat.ltb normal fixed_items || Nat.ltb fixed_items normal && negb is_unpack then Some (mismatch t)
        else
          match match_each normal after_stars had_starred ps 0 (mk_state (tuple_iter a) no_items true false [] []) with
          | None => None
          | Some None => Some (mismatch t)
          | Some (Some s) =>
              option_map (fun truthy =>
                mk_result truthy (if s_unreachable s && (negb is_unpack || s_star s) then Never else t) (s_matched s) (s_rest s) [])
                (into_tuple (s_gatherer s) (fun _ => None))
          end
    end in
  match a with
  | ArbitraryLen item => let '(_, ms, rs) := assign_sequence_patterns item ps in Some (mk_result t t ms rs [])
  | FixedLen ts => with_fixed (length ts) false
  | WithUnpack w => with_fixed (length (before w) + length (after w))%nat true
  end.

(** The classes in crates/zuban_python/src/file/flow_analysis.rs:3556-3608 [find_guards_in_sequence_pattern] that are no tuples: [container] is the argument of [Sequence]
    among the base classes ([exact] if the class is [Sequence]), or [object] for a type that may or may not be a sequence ([exact] then, too) *)
Variable sequence_class : N.

Definition match_sequence (exact : bool) (container t : type) (ps : list sequence_item) : pattern_result :=
  let '(ts, ms, rs) := assign_sequence_patterns container ps in mk_result (if exact then Class sequence_class [union ts] else t) t ms rs [].
End Patterns.

End Unpack.
