(* Binary operators: which method an operation takes, what it rejects, the type
   it infers, augmented assignments, the `in` operator, and the checks at the
   definitions of reverse and in-place methods.

   Modelled: infer_detailed_operation and its callers in file/inference.rs, the
   tables of magic names in parsa_python_cst and file/diagnostics.rs, and
   check_overlapping_op_methods and check_inplace_methods.

   Simplified: an operand is a union of instances of classes and Any.  A method
   has one positional parameter and no overloads, so a call matches when the
   argument is assignable to the parameter.  Literals (see C64), the string
   formatting operator, `X | Y` on classes, None in untyped code and the
   `try: except AttributeError` mode are left out.  The result after an error
   is always Any, where the code may keep the return type of the first method
   that failed. *)
From Coq Require Import Ascii String List Bool Arith PeanoNat.
Import ListNotations.
Local Open Scope string_scope.

(* Type::Any and Type::Class: the members of a union that are modelled.
   crates/zuban_python/src/type_/mod.rs:492-529 [enum Type] *)
Inductive member := Any | Inst (c : nat).
Definition ty := list member.

(* What a call needs of a bound method: its parameter and its return type.
   crates/zuban_python/src/type_/callable.rs:545-564 [first_positional_type] *)
Record method := Method { m_param : ty; m_return : ty }.

(* The classes of a program: the method resolution order, which starts with the
   class itself, and the methods a class body defines. *)
Record world := World { mro : nat -> list nat; own : nat -> string -> option method }.

(* The lookup of a name on an instance, with the class it was found in.
   crates/zuban_python/src/type_helpers/instance.rs:577-589 [lookup_with_details] *)
Fixpoint first_defined (w : world) (classes : list nat) (name : string) : option (nat * method) :=
  match classes with
  | [] => None
  | c :: rest =>
      match own w c name with
      | Some m => Some (c, m)
      | None => first_defined w rest name
      end
  end.

(* The call of Any takes every argument and gives Any.
   crates/zuban_python/src/type_helpers/instance.rs:1053-1060 [any] *)
Definition any_method := Method [Any] [Any].

(* run_after_lookup_on_each_union_member on one member: the class that
   TypeOrClass::defined_at gives, and the method.
   crates/zuban_python/src/type_/operations.rs:190-528 [run_after_lookup_on_each_union_member] and
   crates/zuban_python/src/type_helpers/class.rs:2399-2411 [defined_at] *)
Definition look (w : world) (t : member) (name : string) : option (option nat * method) :=
  match t with
  | Any => Some (None, any_method)
  | Inst c =>
      match first_defined w (mro w c) name with
      | Some (d, m) => Some (Some d, m)
      | None => None
      end
  end.

(* is_simple_sub_type_of for instances of classes and Any.
   crates/zuban_python/src/type_/matching.rs:295-297 [is_simple_sub_type_of] *)
Definition sub (w : world) (t1 t2 : member) : bool :=
  match t1, t2 with
  | Any, _ | _, Any => true
  | Inst c, Inst d => existsb (Nat.eqb d) (mro w c)
  end.

Definition in_type (w : world) (t : member) (u : ty) : bool := existsb (sub w t) u.
Definition ty_sub (w : world) (t u : ty) : bool := forallb (fun m => in_type w m u) t.

(* Unions list Any last; the other priorities do not concern these members.
   crates/zuban_python/src/type_/union.rs:370-379 [sort_for_priority] *)
Definition is_any (m : member) : bool := match m with Any => true | Inst _ => false end.
Definition sort_for_priority (t : ty) : ty :=
  (filter (fun m => negb (is_any m)) t ++ filter is_any t)%list.

(* crates/parsa_python_cst/src/lib.rs:3636-3641 [struct OpInfos] *)
Record op_infos := OpInfos
  { operand : string; magic : string; reverse : string; shortcut : bool }.

(* The operation of a binary operator.
   crates/parsa_python_cst/src/lib.rs:3613-3633, 3725-3827 (BitwiseOr to Power as_operation) *)
Definition as_operation (op : string) : option op_infos :=
  if op =? "|" then Some (OpInfos op "__or__" "__ror__" true)
  else if op =? "&" then Some (OpInfos op "__and__" "__rand__" true)
  else if op =? "^" then Some (OpInfos op "__xor__" "__rxor__" true)
  else if op =? "+" then Some (OpInfos op "__add__" "__radd__" true)
  else if op =? "-" then Some (OpInfos op "__sub__" "__rsub__" true)
  else if op =? "*" then Some (OpInfos op "__mul__" "__rmul__" true)
  else if op =? "/" then Some (OpInfos op "__truediv__" "__rtruediv__" true)
  else if op =? "//" then Some (OpInfos op "__floordiv__" "__rfloordiv__" true)
  else if op =? "%" then Some (OpInfos op "__mod__" "__rmod__" true)
  else if op =? "@" then Some (OpInfos op "__matmul__" "__rmatmul__" true)
  else if op =? ">>" then Some (OpInfos op "__rshift__" "__rrshift__" true)
  else if op =? "<<" then Some (OpInfos op "__lshift__" "__rlshift__" true)
  else if op =? "**" then Some (OpInfos op "__pow__" "__rpow__" true)
  else None.

(* The operation of an ordering.
   crates/parsa_python_cst/src/lib.rs:3919-3956 (ComparisonIterator next) *)
Definition as_ordering (op : string) : option op_infos :=
  if op =? "<" then Some (OpInfos op "__lt__" "__gt__" false)
  else if op =? ">" then Some (OpInfos op "__gt__" "__lt__" false)
  else if op =? "<=" then Some (OpInfos op "__le__" "__ge__" false)
  else if op =? ">=" then Some (OpInfos op "__ge__" "__le__" false)
  else None.

Definition second_is (c : ascii) (code : string) : bool :=
  match String.get 1 code with Some d => Ascii.eqb c d | None => false end.

(* The code of an augmented assignment such as `//=`; None is the unreachable!.
   crates/parsa_python_cst/src/lib.rs:3677-3716 (magic_methods) *)
Definition magic_methods (code : string) : option (string * op_infos) :=
  let infos i m r o := Some (i, OpInfos o m r true) in
  match String.get 0 code with
  | Some "+"%char => infos "__iadd__" "__add__" "__radd__" "+"
  | Some "-"%char => infos "__isub__" "__sub__" "__rsub__" "-"
  | Some "*"%char =>
      if second_is "*" code then infos "__ipow__" "__pow__" "__rpow__" "**"
      else infos "__imul__" "__mul__" "__rmul__" "*"
  | Some "/"%char =>
      if second_is "/" code then infos "__ifloordiv__" "__floordiv__" "__rfloordiv__" "//"
      else infos "__itruediv__" "__truediv__" "__rtruediv__" "/"
  | Some "%"%char => infos "__imod__" "__mod__" "__rmod__" "%"
  | Some "&"%char => infos "__iand__" "__and__" "__rand__" "&"
  | Some "|"%char => infos "__ior__" "__or__" "__ror__" "|"
  | Some "^"%char => infos "__ixor__" "__xor__" "__rxor__" "^"
  | Some "<"%char => infos "__ilshift__" "__lshift__" "__rlshift__" "<<"
  | Some ">"%char => infos "__irshift__" "__rshift__" "__rrshift__" ">>"
  | Some "@"%char => infos "__imatmul__" "__matmul__" "__rmatmul__" "@"
  | _ => None
  end.

(* crates/zuban_python/src/file/inference.rs:3135-3139 (enum LookupStrategy) *)
Inductive strategy := ShortCircuit | NormalThenReverse | ReverseThenNormal.

Definition same_class (l r : member) : bool :=
  match l, r with Inst c, Inst d => Nat.eqb c d | _, _ => false end.

(* `ldef != rdef` where both are known. *)
Definition defined_apart (left right : option (option nat * method)) : bool :=
  match left, right with
  | Some (Some ldef, _), Some (Some rdef, _) => negb (Nat.eqb ldef rdef)
  | _, _ => false
  end.

(* crates/zuban_python/src/file/inference.rs:3221-3240 (get_strategy) *)
Definition get_strategy (w : world) (o : op_infos) (l r : member)
    (left right : option (option nat * method)) : strategy :=
  if shortcut o && same_class l r then ShortCircuit
  else if sub w r l && defined_apart left right then ReverseThenNormal
  else NormalThenReverse.

(* One call; None when it does not match.
   crates/zuban_python/src/file/inference.rs:3243-3270 (run) *)
Definition run (w : world) (first : option (option nat * method)) (second : member) : option ty :=
  match first with
  | Some (_, m) => if in_type w second (m_param m) then Some (m_return m) else None
  | None => None
  end.

Definition or_else (a b : option ty) : option ty :=
  match a with Some t => Some t | None => b end.

(* IssueKind::UnsupportedLeftOperand and IssueKind::UnsupportedOperand *)
Inductive issue := UnsupportedLeft (l : member) | Unsupported (l r : member).

Definition is_none {A} (o : option A) : bool := match o with None => true | Some _ => false end.

(* One member of the left against one member of the right.
   crates/zuban_python/src/file/inference.rs:3193-3339 (infer_detailed_operation) *)
Definition operate (w : world) (o : op_infos) (l r : member) : ty * list issue :=
  let left := look w l (magic o) in
  let right := look w r (reverse o) in
  let strategy := get_strategy w o l r left right in
  let result :=
    match strategy with
    | ShortCircuit => run w left r
    | NormalThenReverse => or_else (run w left r) (run w right l)
    | ReverseThenNormal => or_else (run w right l) (run w left r)
    end in
  match result with
  | Some t => (t, [])
  | None =>
      ([Any],
       [if is_none left
           && (is_none right || match strategy with ShortCircuit => true | _ => false end)
        then UnsupportedLeft l else Unsupported l r])
  end.

(* The loop over the members of the right operand: Any returns from the closure
   for this member of the left.
   crates/zuban_python/src/file/inference.rs:3166-3169 (infer_detailed_operation) *)
Fixpoint operate_right (w : world) (o : op_infos) (l : member) (right : ty) : ty * list issue :=
  match right with
  | [] => ([], [])
  | Any :: _ => ([Any], [])
  | r :: rest =>
      let (t, is) := operate w o l r in
      let (t', is') := operate_right w o l rest in
      (t ++ t', is ++ is')%list
  end.

(* crates/zuban_python/src/file/inference.rs:3127-3375 (infer_detailed_operation) *)
Fixpoint binary (w : world) (o : op_infos) (left right : ty) : ty * list issue :=
  match left with
  | [] => ([], [])
  | l :: rest =>
      let (t, is) := operate_right w o l right in
      let (t', is') := binary w o rest right in
      (t ++ t', is ++ is')%list
  end.

(* The in-place methods of the members of the left, called with the whole right
   operand.  The flag is had_lookup_error.
   crates/zuban_python/src/inferred.rs:2083-2119 [type_lookup_and_execute_with_details] *)
Fixpoint in_place (w : world) (name : string) (left right : ty)
    : ty * list member * bool :=
  match left with
  | [] => ([], [], false)
  | l :: rest =>
      let '(t', is', error) := in_place w name rest right in
      match look w l name with
      | None => (Any :: t', is', true)
      | Some (_, m) =>
          if ty_sub w right (m_param m) then ((m_return m ++ t')%list, is', error)
          else ((m_return m ++ t')%list, l :: is', error)
      end
  end.

(* ArgumentTypeIssue of the call of an in-place method, or an issue of the
   operation. *)
Inductive assign_issue := Argument (l : member) | Operation (i : issue).

(* crates/zuban_python/src/file/inference.rs:517-606 [cache_aug_assign] *)
Definition augmented (w : world) (name : string) (o : op_infos) (left right : ty)
    : ty * list assign_issue :=
  let '(t, is, error) := in_place w name left right in
  if error then
    let (t', is') := binary w o left right in
    (t', map Argument is ++ map Operation is')%list
  else (t, map Argument is).

(* crates/zuban_python/src/file/diagnostics.rs:106-125 (OVERLAPPING_REVERSE_TO_NORMAL_METHODS) *)
Definition reverse_to_normal : list (string * string) :=
  [("radd", "__add__"); ("rsub", "__sub__"); ("rmul", "__mul__");
   ("rtruediv", "__truediv__"); ("rmod", "__mod__"); ("rdivmod", "__divmod__");
   ("rfloordiv", "__floordiv__"); ("rpow", "__pow__"); ("rmatmul", "__matmul__");
   ("rand", "__and__"); ("ror", "__or__"); ("rxor", "__xor__");
   ("rlshift", "__lshift__"); ("rrshift", "__rshift__");
   ("lt", "__gt__"); ("ge", "__le__"); ("gt", "__lt__"); ("le", "__ge__")].

(* crates/zuban_python/src/file/diagnostics.rs:126-140 (INPLACE_TO_NORMAL_METHODS) *)
Definition inplace_to_normal : list (string * string) :=
  [("iadd", "__add__"); ("isub", "__sub__"); ("imul", "__mul__");
   ("itruediv", "__truediv__"); ("imod", "__mod__"); ("ifloordiv", "__floordiv__");
   ("ipow", "__pow__"); ("imatmul", "__matmul__"); ("iand", "__and__");
   ("ior", "__or__"); ("ixor", "__xor__"); ("ilshift", "__lshift__");
   ("irshift", "__rshift__")].

Fixpoint get (table : list (string * string)) (key : string) : option string :=
  match table with
  | [] => None
  | (k, v) :: rest => if k =? key then Some v else get rest key
  end.

(* One forward type of a reverse method against the forward method; true is the
   issue OperatorSignaturesAreUnsafelyOverlapping.
   crates/zuban_python/src/file/diagnostics.rs:2364-2415 (check_overlapping_op_methods) *)
Definition overlaps (w : world) (c forward : nat) (func callable : method) : bool :=
  if Nat.eqb forward c then false
  else if negb (in_type w (Inst c) (m_param callable))
       && negb (ty_sub w (m_param callable) [Inst c]) then false
  else if sub w (Inst c) (Inst forward)
       then negb (ty_sub w (m_return func) (m_return callable))
       else negb (ty_sub w (m_return callable) (m_return func)).

(* The forward types of the reverse method [func] of the class [c] for which
   the check complains.
   crates/zuban_python/src/file/diagnostics.rs:2318-2442 [check_overlapping_op_methods] *)
Definition check_overlapping (w : world) (c : nat) (short_reverse : string) (func : method)
    : list nat :=
  match get reverse_to_normal short_reverse with
  | None => []
  | Some normal =>
      flat_map (fun forward =>
        match forward with
        | Any => []
        | Inst f =>
            match look w (Inst f) normal with
            | Some (_, callable) => if overlaps w c f func callable then [f] else []
            | None => []
            end
        end) (m_param func)
  end.

(* True when the issue SignaturesAreIncompatible is added for the in-place
   method [func] of the class [c].
   crates/zuban_python/src/file/diagnostics.rs:2444-2476 [check_inplace_methods] *)
Definition check_inplace (w : world) (c : nat) (short_inplace : string) (func : method) : bool :=
  match get inplace_to_normal short_inplace with
  | None => false
  | Some normal =>
      match look w (Inst c) normal with
      | None => false
      | Some (_, m) =>
          negb (ty_sub w (m_param m) (m_param func) && ty_sub w (m_return func) (m_return m))
      end
  end.

(* The element an iteration gives: `__iter__`, then `__next__` on its result.
   The flag tells that a lookup failed, which is an issue of its own. *)
Fixpoint next_of (w : world) (iterators : ty) : ty * bool :=
  match iterators with
  | [] => ([], false)
  | i :: rest =>
      let (t, error) := next_of w rest in
      match look w i "__next__" with
      | Some (_, m) => ((m_return m ++ t)%list, error)
      | None => (Any :: t, true)
      end
  end.

Inductive in_issue := UnsupportedIn | NoNext | UnsupportedOperandIn.

(* One member of the right against one member of the left: does it pass, and the
   issues of the lookups.
   crates/zuban_python/src/file/inference.rs:2917-2976 (infer_in_operator) *)
Definition contains (w : world) (l r : member) : bool * list in_issue :=
  match look w r "__contains__" with
  | Some (_, m) => (in_type w l (m_param m), [])
  | None =>
      match look w r "__iter__" with
      | None => (true, [UnsupportedIn])
      | Some (_, m) =>
          let (t, error) := next_of w (m_return m) in
          (in_type w l t, if error then [NoNext] else [])
      end
  end.

(* crates/zuban_python/src/file/inference.rs:2913-2989 [infer_in_operator] *)
Definition in_operator (w : world) (left right : ty) : list in_issue :=
  let pairs := flat_map (fun r => map (fun l => contains w l r) left) right in
  (flat_map snd pairs
   ++ (if negb (existsb fst pairs) && negb (match right with [] => true | _ => false end)
       then [UnsupportedOperandIn] else []))%list.
