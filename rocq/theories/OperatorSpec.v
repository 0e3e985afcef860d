(* What Python does with a binary operator, written without the definitions of
   the checker: attributes by the method resolution order, the order in which
   the two operands are asked, and NotImplemented.

   See the reference manual, 3.3.1 and 3.3.8, and Objects/abstract.c,
   Objects/typeobject.c and Objects/object.c of CPython (binary_op1,
   SLOT1BINFULL with method_is_overloaded, do_richcompare). *)
From Coq Require Import String List Arith.
From Verif Require Import OperatorModel.
Import ListNotations.

(* Attributes: [d] is the first class of the order of [c] whose body defines
   the name. *)
Definition provides (w : world) (c : nat) (name : string) (d : nat) (m : method) : Prop :=
  exists earlier later,
    mro w c = earlier ++ d :: later /\ own w d name = Some m
    /\ forall e, In e earlier -> own w e name = None.

Definition lacks (w : world) (c : nat) (name : string) : Prop :=
  forall d, In d (mro w c) -> own w d name = None.

Definition below (w : world) (c d : nat) : Prop := In d (mro w c).

(* Instances of the class [c] belong to the type. *)
Definition belongs (w : world) (c : nat) (t : ty) : Prop :=
  In Any t \/ exists d, In (Inst d) t /\ below w c d.

(* Every order starts with its class, lists no class twice, and contains the
   order of each of its classes: this is what the C3 merge guarantees. *)
Definition before (l : list nat) (a b : nat) : Prop :=
  exists p q r, l = p ++ a :: q ++ b :: r.

Record linear (w : world) : Prop := Linear
  { linear_first : forall c, exists rest, mro w c = c :: rest;
    linear_once : forall c, NoDup (mro w c);
    linear_order : forall c d a b,
      In d (mro w c) -> before (mro w d) a b -> before (mro w c) a b }.

(* Arithmetic operators and orderings differ in two places. *)
Inductive kind := Arithmetic | Ordering.

Section Runtime.

Variable w : world.
Variable value : Type.
Variable cls : value -> nat.

(* A call of a method with its two operands; None is NotImplemented. *)
Variable call : method -> value -> value -> option value.

(* Methods keep to their signatures: they give a value of the return type for
   arguments of the declared type. *)
Definition honest : Prop :=
  forall d name m self arg,
    own w d name = Some m -> belongs w (cls arg) (m_param m) ->
    exists v, call m self arg = Some v /\ belongs w (cls v) (m_return m).

(* They answer NotImplemented to all other arguments. *)
Definition declines : Prop :=
  forall d name m self arg,
    own w d name = Some m -> ~ belongs w (cls arg) (m_param m) -> call m self arg = None.

(* Asking one operand. *)
Inductive asks (self : value) (name : string) (arg : value) : option value -> Prop :=
| asks_lacking : lacks w (cls self) name -> asks self name arg None
| asks_method d m :
    provides w (cls self) name d m -> asks self name arg (call m self arg).

(* The right operand goes first: its class is a proper subclass, and for
   arithmetic it has a reverse method that the left operand does not have. *)
Definition right_first (k : kind) (rev : string) (x y : value) : Prop :=
  cls y <> cls x /\ below w (cls y) (cls x)
  /\ match k with
     | Arithmetic => exists d m, provides w (cls y) rev d m /\ ~ provides w (cls x) rev d m
     | Ordering => True
     end.

(* `x op y`; None is the TypeError. *)
Inductive evaluates (k : kind) (name rev : string) (x y : value) : option value -> Prop :=
| right_answers v :
    right_first k rev x y -> asks y rev x (Some v) -> evaluates k name rev x y (Some v)
| right_declines r :
    right_first k rev x y -> asks y rev x None -> asks x name y r ->
    evaluates k name rev x y r
| left_answers v :
    ~ right_first k rev x y -> asks x name y (Some v) -> evaluates k name rev x y (Some v)
| left_declines r :
    ~ right_first k rev x y -> asks x name y None ->
    k = Ordering \/ cls x <> cls y -> asks y rev x r ->
    evaluates k name rev x y r
| same_class_declines :
    ~ right_first k rev x y -> asks x name y None ->
    k = Arithmetic -> cls x = cls y -> evaluates k name rev x y None.

(* `x op= y`: the in-place method first, then the operator. *)
Inductive assigns (iname name rev : string) (x y : value) : option value -> Prop :=
| in_place_answers v : asks x iname y (Some v) -> assigns iname name rev x y (Some v)
| in_place_declines r :
    asks x iname y None -> evaluates Arithmetic name rev x y r ->
    assigns iname name rev x y r.

End Runtime.

(* The kind, the method and the reverse method of each operator of Python, from
   the reference manual. *)
Local Open Scope string_scope.

Definition arithmetic_names : list (string * string) :=
  [("+", "add"); ("-", "sub"); ("*", "mul"); ("@", "matmul"); ("/", "truediv");
   ("//", "floordiv"); ("%", "mod"); ("**", "pow"); ("<<", "lshift"); (">>", "rshift");
   ("&", "and"); ("^", "xor"); ("|", "or")].

Definition ordering_names : list (string * (string * string)) :=
  [("<", ("lt", "gt")); ("<=", ("le", "ge")); (">", ("gt", "lt")); (">=", ("ge", "le"))].

Definition dunder (s : string) : string := "__" ++ s ++ "__".

(* An operator with the three things Python knows of it. *)
Inductive python_operator : kind -> string -> string -> string -> Prop :=
| python_arithmetic op n :
    In (op, n) arithmetic_names ->
    python_operator Arithmetic op (dunder n) (dunder ("r" ++ n))
| python_ordering op n r :
    In (op, (n, r)) ordering_names ->
    python_operator Ordering op (dunder n) (dunder r).

(* Overriding: what an override of a method has to satisfy. *)
Definition covers (w : world) (t u : ty) : Prop :=
  forall c, belongs w c u -> belongs w c t.

Definition overrides_fit (w : world) (name : string) : Prop :=
  forall c d e m,
    below w c d -> provides w d name e m ->
    exists e' m', provides w c name e' m'
      /\ covers w (m_param m') (m_param m) /\ covers w (m_return m) (m_return m').

(* Classes with one base each: the bases of a class form a chain. *)
Definition single (w : world) : Prop :=
  forall c a b, below w c a -> below w c b -> below w a b \/ below w b a.
