(** What is expected of the choice of a variant.  Only the data types of the model are used. *)
From Coq Require Import List Arith Bool.
From Verif Require Import OverloadModel.
Import ListNotations.

(** The first place with a property. *)
Definition least (P : nat -> Prop) (k : nat) : Prop := P k /\ forall j, j < k -> ~ P j.

Section Spec.
Variables (expected arg ty variant : Type).
Variable match_signature : context expected -> variant -> list arg -> signature_match ty * bool.
Variables (return_type : variant -> ty) (has_guard : variant -> bool).
Variables (same_type equal_type : ty -> ty -> Prop).
Variable infer : context expected -> arg -> option ty.
Variable union_like : ty -> option (list ty).
Variable override : arg -> ty -> arg.

(** The variant takes the arguments. *)
Definition takes (c : context expected) (v : variant) (args : list arg) : Prop :=
  match fst (match_signature c v args) with False_ _ => False | _ => True end.

(** ... and no error is found in them. *)
Definition accepted (c : context expected) (vs : list variant) (args : list arg) (i : nat) : Prop :=
  exists v, nth_error vs i = Some v /\ takes c v args /\ snd (match_signature c v args) = false.

(** It nearly does: a mismatch that is called similar, or an error in an argument. *)
Definition nearly (c : context expected) (vs : list variant) (args : list arg) (i : nat) : Prop :=
  exists v, nth_error vs i = Some v /\
    (fst (match_signature c v args) = False_ true \/ takes c v args /\ snd (match_signature c v args) = true).

(** The ways in which a variant may be accepted. *)
Definition plain (c : context expected) (vs : list variant) (args : list arg) (i : nat) : Prop :=
  accepted c vs args i /\ exists v, nth_error vs i = Some v /\ fst (match_signature c v args) = True_ true.
Definition by_any (c : context expected) (vs : list variant) (args : list arg) (i : nat) : Prop :=
  accepted c vs args i /\ exists v l, nth_error vs i = Some v /\ fst (match_signature c v args) = TrueWithAny l.

(** An Any hides which of two variants is meant: an argument is compared with different types, and
    the results are different. *)
Definition ambiguous (v w : variant) (l m : list (nat * ty)) : Prop :=
  (exists i t u, In (i, t) l /\ In (i, u) m /\ ~ same_type t u) /\
  ~ (equal_type (return_type v) (return_type w) /\ has_guard v = false /\ has_guard w = false).

(** The variant [j] is a reason not to decide for [i], which was accepted because of an Any. *)
Definition conflicts (c : context expected) (vs : list variant) (args : list arg) (i j : nat) : Prop :=
  accepted c vs args j /\ exists v w l, nth_error vs i = Some v /\ nth_error vs j = Some w /\
    fst (match_signature c v args) = TrueWithAny l /\
    match fst (match_signature c w args) with
    | True_ _ => True
    | TrueWithAny m => ambiguous v w l m
    | False_ _ => False
    end.

(** One member in place of each argument that is a union. *)
Definition chosen (c : context expected) (a b : arg) : Prop :=
  match infer c a with
  | Some t => match union_like t with Some us => exists u, In u us /\ b = override a u | None => b = a end
  | None => b = a
  end.
Definition choice (c : context expected) : list arg -> list arg -> Prop := Forall2 (chosen c).

(** The number of arguments that are unions. *)
Inductive unions (c : context expected) : list arg -> nat -> Prop :=
| no_arguments : unions c [] 0
| a_union : forall a args t us n, infer c a = Some t -> union_like t = Some us -> unions c args n -> unions c (a :: args) (S n)
| no_union : forall a args n, (forall t, infer c a = Some t -> union_like t = None) -> unions c args n -> unions c (a :: args) n.

(** Whatever members the arguments are, a variant takes them; there are less than five unions. *)
Definition taken_apart (c : context expected) (vs : list variant) (args : list arg) : Prop :=
  (exists n, unions c args n /\ n < 5) /\
  forall args', choice c args args' -> exists v, In v vs /\ takes c v args'.

(** The error the user sees: one of the search, or those of the variant that is used. *)
Definition reported (c : context expected) (vs : list variant) (args : list arg) (r : overload_result ty * list issue) : Prop :=
  snd r <> [] \/ exists i, fst r = Single i /\ ~ accepted c vs args i.

(** The first variant that takes the arguments. *)
Definition first_taking (c : context expected) (vs : list variant) (args : list arg) (v : variant) : Prop :=
  exists i, nth_error vs i = Some v /\ least (fun j => exists w, nth_error vs j = Some w /\ takes c w args) i.

(** The variant nearest to the arguments: the first that takes them, else the first that is similar. *)
Definition nearest (c : context expected) (vs : list variant) (args : list arg) (i : nat) : Prop :=
  least (fun j => exists w, nth_error vs j = Some w /\ takes c w args) i \/
  (forall w, In w vs -> ~ takes c w args) /\
  least (fun j => exists w, nth_error vs j = Some w /\ fst (match_signature c w args) = False_ true) i.

End Spec.

Arguments takes {expected arg ty variant} match_signature c v args.
Arguments accepted {expected arg ty variant} match_signature c vs args i.
Arguments nearly {expected arg ty variant} match_signature c vs args i.
Arguments plain {expected arg ty variant} match_signature c vs args i.
Arguments by_any {expected arg ty variant} match_signature c vs args i.
Arguments ambiguous {ty variant} return_type has_guard same_type equal_type v w l m.
Arguments conflicts {expected arg ty variant} match_signature return_type has_guard same_type equal_type c vs args i j.
Arguments chosen {expected arg ty} infer union_like override c a b.
Arguments choice {expected arg ty} infer union_like override c args args'.
Arguments unions {expected arg ty} infer union_like c args n.
Arguments taken_apart {expected arg ty variant} match_signature infer union_like override c vs args.
Arguments reported {expected arg ty variant} match_signature c vs args r.
Arguments first_taking {expected arg ty variant} match_signature c vs args v.
Arguments nearest {expected arg ty variant} match_signature c vs args i.
