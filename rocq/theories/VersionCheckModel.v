(** Conditions on [sys.version_info], [sys.platform] and [TYPE_CHECKING] that are decided while the names are bound:
    crates/zuban_python/src/file/name_binder.rs

    Simplified: of the expressions only what these conditions consist of is distinguished; an int literal is its value and a string literal its
    content (see C27). *)
From Coq Require Import NArith Bool Ascii String List.
Import ListNotations.
Open Scope string_scope.
Open Scope N_scope.

Inductive operator := Eq | Ne | Lt | Gt | Le | Ge | Is | IsNot | In_ | NotIn.

Inductive expr :=
  | Name (s : string)
  | Int (n : N)
  | Str (s : string)
  | Tuple (l : list expr)
  | Paren (e : expr)
  | Attribute (e : expr) (name : string)
  | Index (e i : expr)
  | Slice (e : expr) (first second third : option expr)
  | Call (e arg : expr)
  | Not (e : expr)
  | And (l r : expr)
  | Or (l r : expr)
  | Compare (l : expr) (op : operator) (r : expr)
  | Other (id : N).

(** crates/config/src/lib.rs:106-121 [Settings], crates/config/src/lib.rs:699-702 [PythonVersion] and the symbols of the flags *)
Record settings := mk_settings { major : N; minor : N; platform : string; always_true_symbols : list string; always_false_symbols : list string }.

(** crates/zuban_python/src/file/name_binder.rs:1904-1908 [Truthiness] *)
Inductive truthiness := TTrue (in_type_checking_block : bool) | TFalse | TUnknown.

(** crates/zuban_python/src/file/name_binder.rs:1911-1918 [from] *)
Definition from_bool (b : bool) : truthiness := if b then TTrue false else TFalse.

(** crates/zuban_python/src/file/name_binder.rs:1923-1938 [bitand] *)
Definition bitand (l r : truthiness) : truthiness :=
  match l, r with
  | TTrue x, TTrue y => TTrue (x || y)
  | TFalse, _ | _, TFalse => TFalse
  | _, _ => TUnknown
  end.

(** crates/zuban_python/src/file/name_binder.rs:1943-1953 [bitor] *)
Definition bitor (l r : truthiness) : truthiness :=
  match l, r with
  | TTrue _, TTrue _ => TTrue false
  | TTrue _, _ => l
  | _, TTrue _ => r
  | TFalse, TFalse => l
  | _, _ => TUnknown
  end.

(** crates/zuban_python/src/file/name_binder.rs:1957-1965 [invert] *)
Definition invert (t : truthiness) : truthiness :=
  match t with TTrue _ => TFalse | TFalse => TTrue false | TUnknown => TUnknown end.

(** crates/zuban_python/src/file/name_binder.rs:2099-2115 [check_operand_against_total_order] *)
Definition check_operand_against_total_order (op : operator) (order : comparison) : option bool :=
  match op with
  | Eq => Some match order with Datatypes.Eq => true | _ => false end
  | Ne => Some match order with Datatypes.Eq => false | _ => true end
  | Lt => Some match order with Datatypes.Lt => true | _ => false end
  | Gt => Some match order with Datatypes.Gt => true | _ => false end
  | Le => Some match order with Datatypes.Gt => false | _ => true end
  | Ge => Some match order with Datatypes.Lt => false | _ => true end
  | _ => None
  end.

(** crates/zuban_python/src/file/name_binder.rs:2117-2123 [maybe_sys_name] *)
Definition maybe_sys_name (e : expr) (name : string) : bool :=
  match e with Attribute (Name s) attr => String.eqb attr name && String.eqb s "sys" | _ => false end.

(** What fits into a usize *)
Definition usize_limit : N := 2 ^ 64.

(** A crash is None *)
Definition answer := option truthiness.
Definition unknown : answer := Some TUnknown.
Definition known (o : option bool) : answer := Some match o with Some b => from_bool b | None => TUnknown end.

(** The loop in crates/zuban_python/src/file/name_binder.rs:2010-2057 [python_version_matches_tuple]; None is a return in it *)
Fixpoint compare_entries (current : list N) (entries : list expr) (order : comparison) : option comparison :=
  match current, entries with
  | c :: current, Int n :: entries =>
      if usize_limit <=? n then None
      else match c ?= n with Datatypes.Eq => compare_entries current entries Datatypes.Eq | order => Some order end
  | _ :: _, _ :: _ => None
  | _, _ => Some order
  end.

(** crates/zuban_python/src/file/name_binder.rs:2010-2057 [python_version_matches_tuple]; the sum wraps in a release build, the slice is out of range then *)
Definition python_version_matches_tuple (s : settings) (op : operator) (other : expr) (from : N) : answer :=
  match other with
  | Tuple entries =>
      if 2 <? (N.of_nat (length entries) + from) mod usize_limit then unknown
      else if 2 <? from then None
      else
        match compare_entries (skipn (N.to_nat from) [major s; minor s]) entries Datatypes.Eq with
        | Some order => known (check_operand_against_total_order op order)
        | None => unknown
        end
  | _ => unknown
  end.

(** crates/zuban_python/src/file/name_binder.rs:2059-2097 [python_version_matches_slice], for a slice *)
Definition python_version_matches_slice (s : settings) (op : operator) (first third : option expr) (other : expr) : answer :=
  match third with
  | None =>
      match first with
      | None => python_version_matches_tuple s op other 0
      | Some (Int from) => if from <? usize_limit then python_version_matches_tuple s op other from else unknown
      | Some _ => unknown
      end
  | Some _ => unknown
  end.

(** crates/zuban_python/src/file/name_binder.rs:2059-2097 [python_version_matches_slice], for an index *)
Definition python_version_matches_index (s : settings) (op : operator) (i other : expr) : answer :=
  match i, other with
  | Int nth, Int wanted =>
      if (nth =? 0) && (wanted <? usize_limit) then known (check_operand_against_total_order op (major s ?= wanted)) else unknown
  | _, _ => unknown
  end.

(** crates/zuban_python/src/file/name_binder.rs:1968-2008 [check_comparison_reachability] *)
Definition check_comparison_reachability (s : settings) (op : operator) (check other : expr) : answer :=
  let version :=
    if maybe_sys_name check "version_info" then python_version_matches_tuple s op other 0
    else
      match check with
      | Slice e first _ third => if maybe_sys_name e "version_info" then python_version_matches_slice s op first third other else unknown
      | Index e i => if maybe_sys_name e "version_info" then python_version_matches_index s op i other else unknown
      | _ => unknown
      end in
  if maybe_sys_name check "platform" then
    match op, other with
    | Eq, Str t => known (Some (String.eqb t (platform s)))
    | Ne, Str t => known (Some (negb (String.eqb t (platform s))))
    | _, _ => version
    end
  else version.

(** crates/zuban_python/src/file/name_binder.rs:2125-2147 [maybe_sys_platform_startswith] *)
Definition maybe_sys_platform_startswith (s : settings) (before arg : expr) : truthiness :=
  match before, arg with
  | Attribute e attr, Str t =>
      if String.eqb attr "startswith" && maybe_sys_name e "platform" then from_bool (prefix t (platform s)) else TUnknown
  | _, _ => TUnknown
  end.

Definition contains (l : list string) (s : string) : bool := existsb (String.eqb s) l.

(** The names in crates/zuban_python/src/file/name_binder.rs:2162-2237 [is_expr_part_reachable_for_name_binder] *)
Definition name_truthiness (s : settings) (n : string) : truthiness :=
  if contains ["MYPY"; "TYPE_CHECKING"] n then TTrue true
  else if String.eqb n "PY3" || contains (always_true_symbols s) n then TTrue false
  else if String.eqb n "PY2" || contains (always_false_symbols s) n then TFalse
  else TUnknown.

(** crates/zuban_python/src/file/name_binder.rs:2162-2237 [is_expr_part_reachable_for_name_binder] *)
Fixpoint reachable (s : settings) (e : expr) : answer :=
  match e with
  | Name n => Some (name_truthiness s n)
  | Paren e => reachable s e
  | Attribute (Name m) second => Some (if String.eqb second "TYPE_CHECKING" && String.eqb m "typing" then TTrue true else TUnknown)
  | Call before arg => Some (maybe_sys_platform_startswith s before arg)
  | Not e => match reachable s e with Some t => Some (invert t) | None => None end
  | Compare l op r =>
      match check_comparison_reachability s op l r with
      | Some TUnknown => check_comparison_reachability s op r l
      | result => result
      end
  | And l r =>
      match reachable s l, reachable s r with
      | Some x, Some y => Some (bitand x y)
      | _, _ => None
      end
  | Or l r =>
      match reachable s l, reachable s r with
      | Some x, Some y => Some (bitor x y)
      | _, _ => None
      end
  | _ => unknown
  end.

(** crates/zuban_python/src/file/name_binder.rs:833-885 [index_if_stmt]: the blocks whose names are bound, by their number; [els] is whether there is an else *)
Fixpoint index_if_stmt (s : settings) (conditions : list expr) (els : bool) (i : nat) : option (list nat) :=
  match conditions with
  | [] => Some (if els then [i] else [])
  | e :: conditions =>
      match reachable s e with
      | Some (TTrue _) => Some [i]
      | Some TFalse => index_if_stmt s conditions els (S i)
      | Some TUnknown => option_map (cons i) (index_if_stmt s conditions els (S i))
      | None => None
      end
  end.
