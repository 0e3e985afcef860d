(** What Python computes for such a condition.  Nothing here is about zuban. *)
From Coq Require Import NArith Bool Ascii String List.
From Verif Require Import VersionCheckModel.
Import ListNotations.
Open Scope string_scope.
Open Scope N_scope.

Inductive value :=
  | VInt (n : N)
  | VStr (s : string)
  | VBool (b : bool)
  | VTuple (l : list value)
  | VStartswith (s : string)      (* the bound method of a str *)
  | VObject (id : N).

(** Everything that is not said below is up to the program: the values of names, attributes, operators of other objects.  None is an exception. *)
Record python := mk_python {
  env : string -> option value;
  attribute : value -> string -> option value;
  subscript : value -> value -> option value;
  slice : value -> option value -> option value -> option value -> option value;
  call : value -> value -> option value;
  object_truth : value -> option bool;
  object_equal : value -> value -> bool;
  object_compare : operator -> value -> value -> option value;
  other : N -> option value
}.

Section Python.
Variable py : python.

Definition get_attribute (v : value) (name : string) : option value :=
  match v with
  | VStr s => if String.eqb name "startswith" then Some (VStartswith s) else attribute py v name
  | _ => attribute py v name
  end.

Definition truth (v : value) : option bool :=
  match v with
  | VInt n => Some (negb (n =? 0))
  | VStr s => Some (negb (String.eqb s ""))
  | VBool b => Some b
  | VTuple l => Some match l with [] => false | _ => true end
  | _ => object_truth py v
  end.

Definition equal (x y : value) : bool :=
  match x, y with
  | VInt n, VInt m => n =? m
  | VStr s, VStr t => String.eqb s t
  | VInt _, VStr _ | VStr _, VInt _ => false
  | _, _ => object_equal py x y
  end.

Definition holds (op : operator) (c : comparison) : bool :=
  match op, c with
  | Eq, Datatypes.Eq | Le, Datatypes.Eq | Ge, Datatypes.Eq => true
  | Ne, Datatypes.Lt | Ne, Datatypes.Gt => true
  | Lt, Datatypes.Lt | Le, Datatypes.Lt => true
  | Gt, Datatypes.Gt | Ge, Datatypes.Gt => true
  | _, _ => false
  end.

Definition is_comparison (op : operator) : bool := match op with Eq | Ne | Lt | Gt | Le | Ge => true | _ => false end.

Definition compare_scalars (op : operator) (x y : value) : option value :=
  match x, y with
  | VInt n, VInt m => if is_comparison op then Some (VBool (holds op (n ?= m))) else object_compare py op x y
  | VStr s, VStr t =>
      match op with
      | Eq => Some (VBool (String.eqb s t))
      | Ne => Some (VBool (negb (String.eqb s t)))
      | _ => object_compare py op x y
      end
  | _, _ => object_compare py op x y
  end.

(** Tuples are compared at the first place where they differ *)
Fixpoint compare_tuples (op : operator) (l m : list value) : option value :=
  match l, m with
  | [], [] => Some (VBool (holds op Datatypes.Eq))
  | [], _ => Some (VBool (holds op Datatypes.Lt))
  | _, [] => Some (VBool (holds op Datatypes.Gt))
  | x :: l, y :: m =>
      if equal x y then compare_tuples op l m
      else match op with Eq => Some (VBool false) | Ne => Some (VBool true) | _ => compare_scalars op x y end
  end.

Definition compare_values (op : operator) (x y : value) : option value :=
  match x, y with
  | VTuple l, VTuple m => if is_comparison op then compare_tuples op l m else object_compare py op x y
  | _, _ => compare_scalars op x y
  end.

Definition get_item (v i : value) : option value :=
  match v, i with
  | VTuple l, VInt n => nth_error l (N.to_nat n)
  | _, _ => subscript py v i
  end.

(** [None] outside is an exception, inside it is a bound that is not written *)
Definition get_slice (v : value) (first second third : option value) : option value :=
  match v, first, second, third with
  | VTuple l, None, None, None => Some (VTuple l)
  | VTuple l, Some (VInt a), None, None => Some (VTuple (skipn (N.to_nat a) l))
  | VTuple l, None, Some (VInt b), None => Some (VTuple (firstn (N.to_nat b) l))
  | VTuple l, Some (VInt a), Some (VInt b), None => Some (VTuple (skipn (N.to_nat a) (firstn (N.to_nat b) l)))
  | _, _, _, _ => slice py v first second third
  end.

Definition do_call (f arg : value) : option value :=
  match f, arg with
  | VStartswith s, VStr t => Some (VBool (prefix t s))
  | _, _ => call py f arg
  end.

Definition bind {A B} (o : option A) (f : A -> option B) : option B := match o with Some x => f x | None => None end.

Fixpoint eval (e : expr) : option value :=
  match e with
  | Name s => env py s
  | Int n => Some (VInt n)
  | Str s => Some (VStr s)
  | Tuple l =>
      option_map VTuple ((fix all (l : list expr) : option (list value) :=
        match l with
        | [] => Some []
        | e :: l => bind (eval e) (fun v => option_map (cons v) (all l))
        end) l)
  | Paren e => eval e
  | Attribute e name => bind (eval e) (fun v => get_attribute v name)
  | Index e i => bind (eval e) (fun v => bind (eval i) (get_item v))
  | Slice e first second third =>
      let part o := match o with Some e => option_map Some (eval e) | None => Some None end in
      bind (eval e) (fun v => bind (part first) (fun a => bind (part second) (fun b => bind (part third) (get_slice v a b))))
  | Call e arg => bind (eval e) (fun f => bind (eval arg) (do_call f))
  | Not e => bind (eval e) (fun v => option_map (fun b => VBool (negb b)) (truth v))
  | And l r => bind (eval l) (fun v => bind (truth v) (fun b => if b then eval r else Some v))
  | Or l r => bind (eval l) (fun v => bind (truth v) (fun b => if b then Some v else eval r))
  | Compare l op r => bind (eval l) (fun x => bind (eval r) (compare_values op x))
  | Other n => other py n
  end.

(** The block of an if statement that is run: its number, or None if there is none.  An exception is None outside. *)
Fixpoint runs (conditions : list expr) (els : bool) (i : nat) : option (option nat) :=
  match conditions with
  | [] => Some (if els then Some i else None)
  | e :: conditions => bind (eval e) (fun v => bind (truth v) (fun b => if b then Some (Some i) else runs conditions els (S i)))
  end.
End Python.

(** ** The run that the settings describe *)
(** [micro], [level] and [serial] are not known *)
Record described (py : python) (s : settings) : Prop := mk_described {
  version_info : exists sys micro level serial,
    env py "sys" = Some sys /\
    get_attribute py sys "version_info" = Some (VTuple [VInt (major s); VInt (minor s); VInt micro; VStr level; VInt serial]) /\
    get_attribute py sys "platform" = Some (VStr (platform s));
  true_names : forall n v, In n (["MYPY"; "TYPE_CHECKING"; "PY3"] ++ always_true_symbols s) -> env py n = Some v -> truth py v = Some true;
  false_names : forall n v, In n ("PY2" :: always_false_symbols s) -> ~ In n (["MYPY"; "TYPE_CHECKING"; "PY3"] ++ always_true_symbols s) ->
    env py n = Some v -> truth py v = Some false;
  typing_name : forall m v, env py "typing" = Some m -> get_attribute py m "TYPE_CHECKING" = Some v -> truth py v = Some true
}.

(** ** The comparisons for which the answer is right *)
(** The first entry of the version and the number of entries; a version has five *)
Definition sys_version : expr := Attribute (Name "sys") "version_info".
Inductive version_part : expr -> N -> N -> Prop :=
  | whole : version_part sys_version 0 5
  | from_start : version_part (Slice sys_version None None None) 0 5
  | tail_of : forall a, version_part (Slice sys_version (Some (Int a)) None None) a (5 - a)
  | head_of : forall b, version_part (Slice sys_version None (Some (Int b)) None) 0 (N.min b 5)
  | part_of : forall a b, version_part (Slice sys_version (Some (Int a)) (Some (Int b)) None) a (N.min b 5 - a).

(** [<] and [>=] do not care how long the version is; the others are only right if the lengths are the same *)
Definition length_fits (op : operator) (entries : nat) (length : N) : Prop :=
  N.of_nat entries = length \/ ((op = Lt \/ op = Ge) /\ N.of_nat entries <= length).

Record careful_comparison (l : expr) (op : operator) (r : expr) : Prop := mk_careful {
  careful_tuple : forall a n es, version_part l a n -> r = Tuple es -> length_fits op (length es) n;
  careful_reversed_tuple : forall a n es, version_part r a n -> l = Tuple es -> (op = Eq \/ op = Ne) /\ N.of_nat (length es) = n;
  careful_reversed_index : forall i n, r = Index sys_version i -> l = Int n -> op = Eq \/ op = Ne;
  careful_bounds : forall e e' first second third,
    (l = Slice e first second third /\ r = e') \/ (r = Slice e first second third /\ l = e') -> e = sys_version ->
    second = None \/ exists b, second = Some (Int b)
}.

Fixpoint careful (e : expr) : Prop :=
  match e with
  | Paren e | Not e => careful e
  | And l r | Or l r => careful l /\ careful r
  | Compare l op r => careful_comparison l op r
  | _ => True
  end.

(** Conditions that one can rely on being decided *)
Fixpoint understood (s : settings) (e : expr) : Prop :=
  match e with
  | Paren e | Not e => understood s e
  | And l r | Or l r => understood s l /\ understood s r
  | Name n => In n (["MYPY"; "TYPE_CHECKING"; "PY3"; "PY2"] ++ always_true_symbols s ++ always_false_symbols s)
  | Attribute (Name m) attr => m = "typing" /\ attr = "TYPE_CHECKING"
  | Call f arg => f = Attribute (Attribute (Name "sys") "platform") "startswith" /\ exists t, arg = Str t
  | Compare l op r =>
      (l = Attribute (Name "sys") "platform" /\ (op = Eq \/ op = Ne) /\ exists t, r = Str t) \/
      (l = sys_version /\ is_comparison op = true /\ exists entries, r = Tuple (map Int entries) /\ (length entries <= 2)%nat /\ Forall (fun n => n < 2 ^ 64) entries)
  | _ => False
  end.

(** A slice of the version from [a] on is compared with a tuple, and both numbers together are too big *)
Definition wraps (l r : expr) : Prop :=
  (exists e a second es, l = Slice e (Some (Int a)) second None /\ r = Tuple es /\ 2 ^ 64 <= N.of_nat (length es) + a) \/
  (exists es, r = Tuple es /\ 2 ^ 64 <= N.of_nat (length es)).

Fixpoint in_range (e : expr) : Prop :=
  match e with
  | Paren e | Not e => in_range e
  | And l r | Or l r => in_range l /\ in_range r
  | Compare l _ r => ~ wraps l r /\ ~ wraps r l
  | _ => True
  end.
