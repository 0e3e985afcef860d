(** What [isinstance] tells about a value, in terms of the values of types *)
From Coq Require Import List NArith ZArith Bool.
From Verif Require Import TupleModel TupleSpec SubtypeModel SubtypeSpec NarrowModel NarrowProofs.
Import ListNotations.
Open Scope N_scope.

Section Spec.
Context {V : Type}.
Variables (w : world V) (env : N -> V -> Prop).
Notation has := (has w env).
Variable p : program.
Variable passes : type -> V -> bool.      (* [isinstance(v, i)] for one class [i] *)
Variables (float complex : N) (exact : N -> N).
Variables (fits : type -> type -> option bool) (below : type -> type -> bool) (unite : type -> type -> type) (unite_all : list type -> type).
Variables (accepts : type -> type -> bool) (class_of_both : type -> type -> option type).

(** [isinstance(v, I)] *)
Definition is_instance (isinstance_type : type) (v : V) : bool := existsb (fun i => passes i v) (parts isinstance_type).

Notation float_type := (Class float []).
Notation int_type := (Class (int_class p) []).

(** What is given.  An int is a float for the types, but not for [isinstance]. *)
Record instance_laws (isinstance_type : type) : Prop := mk_instance_laws {
  law_passes : forall i v, In i (parts isinstance_type) -> passes i v = true -> has i v;
  law_fits : forall i t v, In i (parts isinstance_type) -> fits i t = Some false -> has t v ->
    match t with
    | Class c _ => passes i v = true \/ c = float /\ has int_type v \/ c = complex /\ has float_type v
    | TypeOf (Class c _) => passes i v = true \/ c = float \/ c = complex
    | _ => passes i v = true
    end;
  law_unite : forall t u v, has (unite t u) v <-> has t v \/ has u v;
  law_unite_all : forall ts v, has (unite_all ts) v <-> exists t, In t ts /\ has t v;
  law_accepts : forall t v, accepts t int_type = true -> has int_type v -> has t v;
  law_both : forall t n v, class_of_both t isinstance_type = Some n -> has t v -> is_instance isinstance_type v = true -> has n v;
  law_neither : forall t v, class_of_both t isinstance_type = None -> has t v -> is_instance isinstance_type v = true ->
    exists c gs, In (Class c gs) (parts match isinstance_type with TypeOf i => i | i => i end) /\ is_protocol p c = true
}.

Record number_laws : Prop := mk_number_laws {
  law_float : forall c gs v, c = float \/ c = exact float -> has (Class c gs) v -> has (Class (exact float) []) v \/ c = float /\ has int_type v;
  law_complex : forall c gs v, c = complex \/ c = exact complex -> has (Class c gs) v ->
    has (Class (exact complex) []) v \/ c = complex /\ (has (Class (exact float) []) v \/ has int_type v);
  law_exact_float : forall c gs v, c = float \/ c = exact float -> has (Class (exact float) []) v -> passes (Class c gs) v = true;
  law_int : forall gs v, has int_type v -> passes (Class (int_class p) gs) v = true;
  law_different : NoDup [int_class p; float; complex; exact float; exact complex]
}.
End Spec.
