(** Tuples: crates/zuban_python/src/type_/tuple.rs (subscripts, [+], [*], putting parts together),
    crates/zuban_python/src/inferred.rs [run_on_int_literals], crates/zuban_python/src/getitem.rs [callback_on_tuple_indexes].

    The types of the items are a parameter with the operations the code uses: [object], the type of an error,
    the simplified union and [avoid_implicit_literal].  Positions that do not fit into a machine word are not treated
    apart: the code then takes the largest word, or reports, and no tuple is that long. *)
From Coq Require Import List ZArith Bool.
Import ListNotations.
Open Scope Z_scope.

Section Tuples.
Context {T : Type}.

(** crates/zuban_python/src/type_/tuple.rs [TupleUnpack] *)
Inductive unpack := TypeVarTuple (n : N) | Many (t : T).

(** crates/zuban_python/src/type_/tuple.rs [WithUnpack] *)
Record with_unpack := mk_unpack { before : list T; middle : unpack; after : list T }.

(** crates/zuban_python/src/type_/tuple.rs [TupleArgs] *)
Inductive args := FixedLen (ts : list T) | ArbitraryLen (t : T) | WithUnpack (w : with_unpack).

(** The issues of a subscript *)
Inductive issue := IndexOutOfRange (variadic_max_len : option nat) | SliceStepCannotBeZero | AmbiguousSlice.

(** The type of an index: int literals (or literals of another kind, [None]), or anything else *)
Inductive index := Literals (first : option Z) (others : list (option Z)) | NotLiteral.

(** The callback for one literal, with the issues it reports; nothing for other literals than ints *)
Definition infer_literal {R} (callable : Z -> list issue * option R) (l : option Z) : list issue * option R :=
  match l with Some z => callable z | None => ([], None) end.

(** One round of the loop over further literals *)
Definition next_literal {R} (simplified_union : R -> R -> R) (callable : Z -> list issue * option R)
    (acc : list issue * option R) (l : option Z) : list issue * option R :=
  match snd acc with
  | Some r => (fst acc ++ fst (infer_literal callable l), option_map (simplified_union r) (snd (infer_literal callable l)))
  | None => acc
  end.

(** crates/zuban_python/src/inferred.rs:562-593 [run_on_int_literals] *)
Definition run_on_int_literals {R} (simplified_union : R -> R -> R) (callable : Z -> list issue * option R) (i : index) :
    list issue * option R :=
  match i with
  | Literals first others => fold_left (next_literal simplified_union callable) others (infer_literal callable first)
  | NotLiteral => ([], None)
  end.

Variables (object error : T) (union : list T -> T) (avoid_implicit_literal : T -> T).

(** crates/zuban_python/src/type_/tuple.rs:661-683 [simplified_union_of_tuple_entries] *)
Definition union_of_entries (a : args) : T :=
  match a with
  | FixedLen ts => union (map avoid_implicit_literal ts)
  | WithUnpack w =>
      match middle w with
      | TypeVarTuple _ => object
      | Many t => union (map avoid_implicit_literal (before w ++ t :: after w))
      end
  | ArbitraryLen t => t
  end.

Definition len {A} (l : list A) : Z := Z.of_nat (length l).

(** [slice::get] *)
Definition get {A} (l : list A) (i : Z) : option A := if i <? 0 then None else nth_error l (Z.to_nat i).

(** [iter().rev().take(n).rev()] *)
Definition take_last {A} (n : nat) (l : list A) : list A := rev (firstn n (rev l)).

(** [iter().rev().skip(n).rev()] *)
Definition drop_last {A} (n : nat) (l : list A) : list A := rev (skipn n (rev l)).

Definition out_of_range (max_len : option nat) : list issue * option T := ([IndexOutOfRange max_len], Some error).

Definition found (max_len : option nat) (o : option T) : list issue * option T :=
  match o with Some t => ([], Some t) | None => out_of_range max_len end.

(** The callback for one literal in crates/zuban_python/src/type_/tuple.rs:142-450 [get_item] *)
Definition item_at (a : args) (i : Z) : list issue * option T :=
  match a with
  | FixedLen ts => found None (if i <? 0 then get ts (len ts + i) else get ts i)
  | WithUnpack w =>
      let before_len := length (before w) in
      let after_len := length (after w) in
      if i <? 0 then
        let max_len := (after_len + before_len)%nat in
        let i := Z.to_nat (- i - 1) in
        if Nat.leb max_len i then out_of_range (Some max_len)
        else if Nat.ltb i after_len then found (Some max_len) (nth_error (after w) (after_len - i - 1))
        else match middle w with
             | TypeVarTuple _ => ([], Some object)
             | Many t => ([], Some (union (take_last (i - after_len + 1) (before w) ++ [t])))
             end
      else
        let max_len := (before_len + after_len)%nat in
        let i := Z.to_nat i in
        if Nat.leb max_len i then out_of_range (Some max_len)
        else if Nat.ltb i before_len then found (Some max_len) (nth_error (before w) i)
        else match middle w with
             | TypeVarTuple _ => ([], Some object)
             | Many t => ([], Some (union (t :: firstn (i - before_len + 1) (after w))))
             end
  | ArbitraryLen t => ([], Some t)
  end.

(** crates/zuban_python/src/type_/tuple.rs:142-450 [get_item], for one index of a type that fits [int] *)
Definition get_item (a : args) (i : index) : list issue * T :=
  match a with
  | ArbitraryLen t => ([], t)
  | _ =>
      let (is, r) := run_on_int_literals (fun s t => union [s; t]) (item_at a) i in
      (is, match r with Some t => t | None => union_of_entries a end)
  end.

(** [step_by]: the first item, and then every [k + 1]-th *)
Fixpoint step_from {A} (c k : nat) (l : list A) : list A :=
  match l with
  | [] => []
  | x :: l => match c with O => x :: step_from k k l | S c => step_from c k l end
  end.

Definition step_by {A} (n : nat) (l : list A) : list A := step_from 0 (pred n) l.

(** The closure [as_fixed_len_tuple] in crates/zuban_python/src/type_/tuple.rs:142-450 [get_item] *)
Definition as_fixed_len_tuple {A} (ts : list A) (start stop : option Z) (step : Z) : list A :=
  let remove_negative i := if i <? 0 then i + len ts else i in
  let as_skip i := match i with Some i => Z.to_nat (Z.max i 0) | None => O end in
  let start := option_map remove_negative start in
  let stop := option_map remove_negative stop in
  if step <? 0 then
    let skip_left := as_skip (option_map (fun e => e + 1) stop) in
    let skip_right := as_skip (option_map (fun s => len ts - s - 1) start) in
    step_by (Z.to_nat (- step)) (skipn skip_right (rev (skipn skip_left ts)))
  else
    let skip_left := as_skip start in
    let skip_right := as_skip (option_map (fun e => len ts - e) stop) in
    step_by (Z.to_nat step) (rev (skipn skip_right (rev (skipn skip_left ts)))).

Definition value_or_zero (o : option Z) : Z := match o with Some z => z | None => 0 end.

Definition is_some_and (o : option Z) (f : Z -> bool) : bool := match o with Some z => f z | None => false end.

(** The end of the arm for [WithUnpack]: without items before and after it is a tuple of arbitrary length *)
Definition simplified (w : with_unpack) : args :=
  match before w, middle w, after w with
  | [], Many t, [] => ArbitraryLen t
  | _, _, _ => WithUnpack w
  end.

Definition ambiguous : list issue * args := ([AmbiguousSlice], ArbitraryLen error).

(** The arm for [WithUnpack] of the callback for slices: "the normal cases where we skip an or at the start/end" *)
Definition skipping_slice (w : with_unpack) (start stop : option Z) (step : Z) : list issue * args :=
  let before_len := len (before w) in
  let after_len := len (after w) in
  if step =? 1 then
    let skip_start := value_or_zero start in
    if (skip_start <? 0) || is_some_and stop (fun e => e >=? 0) then ambiguous
    else
      let skip_end := - value_or_zero stop in
      if (skip_start >? before_len) || (skip_end >? after_len) then ambiguous
      else ([], simplified (mk_unpack (skipn (Z.to_nat skip_start) (before w)) (middle w) (drop_last (Z.to_nat skip_end) (after w))))
  else if step =? -1 then
    let skip_start := value_or_zero stop in
    if (skip_start <? 0) || is_some_and start (fun s => s >=? 0) then ambiguous
    else
      let skip_end := - value_or_zero start in
      if (skip_start >? before_len) || (skip_end >? after_len) then ambiguous
      else ([], simplified (mk_unpack (skipn (Z.to_nat skip_end) (rev (after w))) (middle w) (rev (skipn (Z.to_nat skip_start) (before w)))))
  else ambiguous.

(** The arm for [WithUnpack]: first "special cases where we know that the resulting tuple is just part of the prefix or suffix" *)
Definition unpack_slice (w : with_unpack) (start stop : option Z) (step : Z) : list issue * args :=
  let before_len := len (before w) in
  let after_len := len (after w) in
  let fixed ts := ([], FixedLen (as_fixed_len_tuple ts start stop step)) in
  let is_same_sign :=
    match start, stop with
    | Some s, Some e => (s <? 0) && (e <? 0) || (s >=? 0) && (e >=? 0)
    | _, _ => true
    end in
  let by_stop :=
    is_some_and stop (fun e => if step <? 0 then (e <? 0) && (- e - 1 <=? after_len) else (e >=? 0) && (e <=? before_len)) in
  let by_start :=
    is_some_and start (fun s => if step <? 0 then (s >=? 0) && (s <=? before_len) else (s <? 0) && (- s <=? after_len)) in
  if is_same_sign && by_stop then fixed (if step <? 0 then after w else before w)
  else if is_same_sign && by_start then fixed (if step <? 0 then before w else after w)
  else skipping_slice w start stop step.

(** The callback for slices in crates/zuban_python/src/type_/tuple.rs:142-450 [get_item] *)
Definition slice_at (a : args) (start stop : option Z) (step : Z) : list issue * args :=
  if step =? 0 then ([SliceStepCannotBeZero], ArbitraryLen error)
  else match a with
       | FixedLen ts => ([], FixedLen (as_fixed_len_tuple ts start stop step))
       | WithUnpack w => unpack_slice w start stop step
       | ArbitraryLen t => ([], ArbitraryLen t)
       end.

(** A union of tuples is the list of its members. *)
Definition one_tuple (r : list issue * args) : list issue * option (list args) := (fst r, Some [snd r]).

(** crates/zuban_python/src/getitem.rs:198-229 [callback_on_tuple_indexes] *)
Definition callback_on_tuple_indexes (first second third : option index) (callback : option Z -> option Z -> Z -> list issue * args) :
    list issue * option (list args) :=
  let infer_third start stop :=
    match third with
    | Some third => run_on_int_literals (@app args) (fun step => one_tuple (callback start stop step)) third
    | None => one_tuple (callback start stop 1)
    end in
  let infer_second start :=
    match second with
    | Some second => run_on_int_literals (@app args) (fun i => infer_third start (Some i)) second
    | None => infer_third start None
    end in
  match first with
  | Some first => run_on_int_literals (@app args) (fun i => infer_second (Some i)) first
  | None => infer_second None
  end.

(** crates/zuban_python/src/type_/tuple.rs:142-450 [get_item], for a slice *)
Definition get_slice (a : args) (first second third : option index) : list issue * list args :=
  let (is, r) := callback_on_tuple_indexes first second third (slice_at a) in
  (is, match r with Some l => l | None => [ArbitraryLen (union_of_entries a)] end).

(** crates/zuban_python/src/type_/tuple.rs:806-843 [tuple_add_internal], without the search for the second tuple in the mro *)
Definition tuple_add (a b : args) : option args :=
  match a, b with
  | FixedLen ts1, FixedLen ts2 => Some (FixedLen (ts1 ++ ts2))
  | FixedLen ts1, WithUnpack u => Some (WithUnpack (mk_unpack (ts1 ++ before u) (middle u) (after u)))
  | WithUnpack u, FixedLen ts2 => Some (WithUnpack (mk_unpack (before u) (middle u) (after u ++ ts2)))
  | _, _ => None
  end.

(** [iter().cycle().take(n)] *)
Fixpoint cycle_take {A} (n : nat) (rest all : list A) : list A :=
  match n with
  | O => []
  | S n =>
      match rest with
      | x :: rest => x :: cycle_take n rest all
      | [] => match all with x :: rest => x :: cycle_take n rest all | [] => [] end
      end
  end.

(** crates/zuban_python/src/type_/tuple.rs:866-891 [tuple_mul_internal] *)
Definition tuple_mul (a : args) (i : index) : option (list args) :=
  match a with
  | FixedLen ts =>
      snd (run_on_int_literals (@app args) (fun int =>
        let int := Z.max int 0 in
        if int >? 10 then ([], None)
        else ([], Some [FixedLen (cycle_take (Z.to_nat int * length ts) ts ts)])) i)
  | ArbitraryLen t => Some [ArbitraryLen t]
  | WithUnpack _ => None
  end.

(** crates/zuban_python/src/type_/tuple.rs:711-721 [merge_types] *)
Definition merge_types (original new : list T) : list T :=
  match original, new with
  | [], _ => new
  | _, [] => original
  | _, _ => original ++ new
  end.

(** crates/zuban_python/src/type_/tuple.rs:628-659 [add_before_and_after] *)
Definition add_before_and_after (a : args) (bs cs : list T) : args :=
  match a with
  | FixedLen ts => FixedLen (bs ++ ts ++ cs)
  | WithUnpack new => WithUnpack (mk_unpack (merge_types bs (before new)) (middle new) (merge_types cs (after new)))
  | ArbitraryLen t =>
      match bs, cs with
      | [], [] => ArbitraryLen t
      | _, _ => WithUnpack (mk_unpack bs (Many t) cs)
      end
  end.

(** crates/zuban_python/src/type_/tuple.rs:951-955 [MaybeUnpackGatherer] *)
Record gatherer := mk_gatherer { g_before : list T; g_unpack : option unpack; g_after : list T }.

Definition empty_gatherer : gatherer := mk_gatherer [] None [].

(** crates/zuban_python/src/type_/tuple.rs:966-972 [add_types] *)
Definition add_types (g : gatherer) (ts : list T) : gatherer :=
  match g_unpack g with
  | None => mk_gatherer (g_before g ++ ts) None (g_after g)
  | Some u => mk_gatherer (g_before g) (Some u) (g_after g ++ ts)
  end.

(** crates/zuban_python/src/type_/tuple.rs:958-964 [add_type] *)
Definition add_type (g : gatherer) (t : T) : gatherer :=
  match g_unpack g with
  | None => mk_gatherer (g_before g ++ [t]) None (g_after g)
  | Some u => mk_gatherer (g_before g) (Some u) (g_after g ++ [t])
  end.

(** crates/zuban_python/src/type_/tuple.rs:987-994 [add_unpack] *)
Definition add_unpack (g : gatherer) (u : unpack) : option gatherer :=
  match g_unpack g with
  | Some _ => None
  | None => Some (mk_gatherer (g_before g) (Some u) (g_after g))
  end.

(** crates/zuban_python/src/type_/tuple.rs:996-1004 [add_with_unpack] *)
Definition add_with_unpack (g : gatherer) (w : with_unpack) : option gatherer :=
  match g_unpack g with
  | Some _ => None
  | None => Some (mk_gatherer (g_before g ++ before w) (Some (middle w)) (g_after g ++ after w))
  end.

(** crates/zuban_python/src/type_/tuple.rs:974-985 [add_tuple_args] *)
Definition add_tuple_args (g : gatherer) (a : args) : option gatherer :=
  match a with
  | FixedLen ts => Some (add_types g ts)
  | ArbitraryLen t => add_unpack g (Many t)
  | WithUnpack w => add_with_unpack g w
  end.

(** crates/zuban_python/src/type_/tuple.rs:1006-1023 [into_tuple_args] *)
Definition into_tuple_args (g : gatherer) : args :=
  match g_unpack g with
  | Some u =>
      match u, g_before g, g_after g with
      | Many t, [], [] => ArbitraryLen t
      | _, _, _ => WithUnpack (mk_unpack (g_before g) u (g_after g))
      end
  | None => FixedLen (g_before g)
  end.

(** A part of the brackets of [tuple[...]]: a type, or an unpacked tuple.  The loop of the callers, for instance
    crates/zuban_python/src/file/type_computation/mod.rs:4944-5016 [as_type_arguments]; a second unpack is an error. *)
Inductive part := Item (t : T) | Unpacked (a : args).

Fixpoint gather (ps : list part) (g : gatherer) : option gatherer :=
  match ps with
  | [] => Some g
  | Item t :: ps => gather ps (add_type g t)
  | Unpacked a :: ps => match add_tuple_args g a with Some g => gather ps g | None => None end
  end.

Definition tuple_of_parts (ps : list part) : option args := option_map into_tuple_args (gather ps empty_gatherer).

End Tuples.

Arguments unpack T : clear implicits.
Arguments with_unpack T : clear implicits.
Arguments args T : clear implicits.
Arguments gatherer T : clear implicits.
Arguments part T : clear implicits.
