(** * What [collections.namedtuple] does when it is called

    Written after Lib/collections/__init__.py and Lib/typing.py of CPython; None stands for an exception.
    Of the model only the texts and the arguments of a call are used. *)
From Coq Require Import NArith List Bool Arith String Decimal.
From Verif Require Import NamedTupleModel.
Import ListNotations.
Open Scope string_scope.
Open Scope list_scope.
Open Scope nat_scope.

(** [keyword.kwlist] *)
Definition kwlist : list text := List.map text_of
  ["False"; "None"; "True"; "and"; "as"; "assert"; "async"; "await"; "break"; "class"; "continue"; "def"; "del"; "elif"; "else"; "except"; "finally"; "for"; "from"; "global"; "if"; "import"; "in"; "is";
   "lambda"; "nonlocal"; "not"; "or"; "pass"; "raise"; "return"; "try"; "while"; "with"; "yield"].
Definition private (t : text) : Prop := exists rest, t = 95%N :: rest.

(** [str(index)] *)
Fixpoint numeral (d : uint) : text :=
  match d with
  | Nil => [] | D0 d => 48%N :: numeral d | D1 d => 49%N :: numeral d | D2 d => 50%N :: numeral d | D3 d => 51%N :: numeral d | D4 d => 52%N :: numeral d
  | D5 d => 53%N :: numeral d | D6 d => 54%N :: numeral d | D7 d => 55%N :: numeral d | D8 d => 56%N :: numeral d | D9 d => 57%N :: numeral d
  end.
Definition place (i : nat) : text := 95%N :: numeral (Nat.to_uint i).

Section Python.
(** The characters that an identifier may start with and go on with, and those of [str.isspace] *)
Variables id_start id_continue space : N -> bool.

Definition isidentifier (t : text) : Prop :=
  exists c rest, t = c :: rest /\ (id_start c = true \/ c = 95%N) /\ forall d, In d rest -> id_continue d = true \/ d = 95%N.

(** What makes the name of a field be replaced with [rename=True], where [before] are the names in front of it *)
Definition replaced (before : list text) (name : text) : Prop := ~ isidentifier name \/ In name kwlist \/ private name \/ In name before.
(** The names with [rename=True], [i] being the position of the first one *)
Inductive renamed : nat -> list text -> list text -> list text -> Prop :=
| renamed_nil : forall i before, renamed i before [] []
| renamed_place : forall i before n names r, replaced before n -> renamed (S i) (n :: before) names r -> renamed i before (n :: names) (place i :: r)
| renamed_same : forall i before n names r, ~ replaced before n -> renamed (S i) (n :: before) names r -> renamed i before (n :: names) (n :: r).
(** The names that are taken without [rename] *)
Definition accepted (names : list text) : Prop := (forall n, In n names -> isidentifier n /\ ~ In n kwlist /\ ~ private n) /\ NoDup names.
Definition typename_ok (t : text) : Prop := isidentifier t /\ ~ In t kwlist.

(** [field_names.replace(',', ' ').split()] *)
Definition breaks (c : N) : Prop := c = 44%N \/ space c = true.
Inductive words : text -> list text -> Prop :=
| words_nil : words [] []
| words_break : forall c s l, breaks c -> words s l -> words (c :: s) l
| words_last : forall w, w <> [] -> (forall c, In c w -> ~ breaks c) -> words w [w]
| words_word : forall w c s l, w <> [] -> (forall c, In c w -> ~ breaks c) -> breaks c -> words s l -> words (w ++ c :: s) (w :: l).

(** Which of the fields have a default: the last [d] *)
Definition with_defaults (names : list text) (d : nat) : list (text * bool) :=
  combine names (repeat false (List.length names - d) ++ repeat true d).
(** [namedtuple(typename, names, rename=rename, defaults=...)] with [d] defaults makes a class with these fields, where the flag says that there is a default. *)
Definition makes (typename : text) (names : list text) (rename : bool) (d : nat) (fields : list (text * bool)) : Prop :=
  typename_ok typename /\ d <= List.length names /\ exists final, (if rename then renamed 0 [] names final else accepted names /\ final = names) /\ fields = with_defaults final d.
End Python.

(** [NamedTuple(typename, l)] unpacks every element into a name and a type. *)
Definition unpacks (l : list element) : Prop := forall e, In e l -> exists n t, e = Field n t 0.
