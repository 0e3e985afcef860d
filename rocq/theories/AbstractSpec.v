(** Abstract methods in Python: the [__abstractmethods__] that ABCMeta computes.  All classes are taken to have the metaclass ABCMeta. *)
From Coq Require Import String List Bool Arith NArith.
From Verif Require Import AbstractModel.
Import ListNotations.

(** Is the object abstract, after these decorators, the innermost of which is the last one?  [before]: is the one that had the name
    before, if any *)
Definition decorated (before : bool) (ds : list decorator) : bool :=
  fold_right (fun d a => match means d with Marks => true | Keeps => a | Drops => false | Joins => a || before end) false ds.

(** The names of the class after its body: [Some true] for an abstract object *)
Definition execute (values : N -> option bool) (b : binding) : N -> option bool :=
  match b with
  | Declare _ => values
  | Function n ds _ => fun m => if (m =? n)%N then Some (decorated (match values n with Some a => a | None => false end) ds) else values m
  | Assign n | Nested n | Import n => fun m => if (m =? n)%N then Some false else values m
  end.
Definition namespace (bs : list binding) : N -> option bool := fold_left execute bs (fun _ => None).

(** The class attribute: that of the first class in the linearization that has it *)
Fixpoint attribute (spaces : nat -> N -> option bool) (order : list nat) (n : N) : option bool :=
  match order with
  | [] => None
  | c :: r => match spaces c n with Some a => Some a | None => attribute spaces r n end
  end.

(** [n] is in [__abstractmethods__] of [c]: it is abstract in the namespace of [c], or it is in that of a base and the attribute of [c] is abstract. *)
Inductive abstract_name (class_bases : nat -> list nat) (spaces : nat -> N -> option bool) (order : nat -> list nat) : nat -> N -> Prop :=
| an_own c n : spaces c n = Some true -> abstract_name class_bases spaces order c n
| an_base c b n : In b (class_bases c) -> abstract_name class_bases spaces order b n -> attribute spaces (order c) n = Some true -> abstract_name class_bases spaces order c n.

Definition space_of (defs : list class) (k : nat) : N -> option bool := namespace (body (nth k (object_class :: defs) object_class)).
Definition bases_of (defs : list class) (k : nat) : list nat := bases (nth k (object_class :: defs) object_class).

(** A body in which names are bound once, with decorators that are what they look like *)
Definition plain_decorator (d : decorator) : Prop :=
  match means d with Marks => code d = "abstractmethod"%string \/ code d = "abstractproperty"%string
                   | Keeps => code d <> "abstractmethod"%string /\ code d <> "abstractproperty"%string | _ => False end.
Definition plain_binding (b : binding) : Prop := match b with Function _ ds _ => Forall plain_decorator ds | Declare _ => False | _ => True end.
Definition plain (c : class) : Prop := NoDup (map name_of (body c)) /\ Forall plain_binding (body c) /\ dataclass c = false /\ protocol c = false.

(** ** Members of protocols *)
Definition overloaded (ds : list decorator) : Prop := exists d, In d ds /\ (code d = "overload"%string \/ code d = "typing.overload"%string).
Definition alternatives (P : list decorator -> Prop) (b : binding) : Prop := match b with Function _ ds _ => P ds | _ => True end.

(** The bindings of one name leave it to a subclass to give it a value: a function without a body, a declaration or a class, overloads without an
    implementation, or a function that is defined several times. *)
Inductive left_open : list binding -> Prop :=
| lo_trivial n ds : left_open [Function n ds true]
| lo_declared n l : left_open (Declare n :: l)
| lo_nested n l : left_open (Nested n :: l)
| lo_overloads n ds t b l : Forall (alternatives overloaded) (Function n ds t :: b :: l) -> left_open (Function n ds t :: b :: l)
| lo_several n ds t b l : Forall (alternatives (fun ds => ~ overloaded ds)) (Function n ds t :: b :: l) -> left_open (Function n ds t :: b :: l).

Definition unimplemented (excluded : N -> bool) (c : class) (n : N) : Prop :=
  protocol c = true /\ excluded n = false /\ in_stub c = false /\ ~ In n (self_names c) /\ left_open (filter (fun b => (name_of b =? n)%N) (body c)).

(** The first definition of the name is a function with one of the two decorators, by their bare names. *)
Definition looks_abstract (bs : list binding) (n : N) : Prop :=
  exists before ds t after d, bs = before ++ Function n ds t :: after /\ ~ In n (map name_of before) /\ In d ds /\ (code d = "abstractmethod"%string \/ code d = "abstractproperty"%string).
Definition defines (bs : list binding) (n : N) : Prop := In n (map name_of bs).
