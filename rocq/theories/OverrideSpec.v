(** What mypy documents about override sections, independent of the code.

    A module pattern is translated to a regular expression in the way of mypy's [compile_glob]:
    the first component is a literal or any string, each later one is a dot and a literal or, for a star, optionally
    a dot and any string. *)
From Coq Require Import String Ascii List Bool.
Import ListNotations.
Open Scope string_scope.

Inductive regex :=
| Eps | Lit (s : string) | AnyString | Opt (r : regex) | Seq (r1 r2 : regex).

Inductive denotes : regex -> string -> Prop :=
| d_eps : denotes Eps ""
| d_lit : forall s, denotes (Lit s) s
| d_any : forall s, denotes AnyString s
| d_opt_none : forall r, denotes (Opt r) ""
| d_opt_some : forall r s, denotes r s -> denotes (Opt r) s
| d_seq : forall r1 r2 s1 s2, denotes r1 s1 -> denotes r2 s2 -> denotes (Seq r1 r2) (s1 ++ s2).

Definition first_re (c : string) : regex := if String.eqb c "*" then AnyString else Lit c.
Definition later_re (c : string) : regex :=
  if String.eqb c "*" then Opt (Seq (Lit ".") AnyString) else Seq (Lit ".") (Lit c).
Fixpoint later_res (cs : list string) : regex :=
  match cs with [] => Eps | c :: r => Seq (later_re c) (later_res r) end.

(** The regular expression of the dotted pattern with the given components. *)
Definition compile_glob (components : list string) : regex :=
  match components with [] => Eps | c :: r => Seq (first_re c) (later_res r) end.

(** Dotted names. *)
Fixpoint dotted (components : list string) : string :=
  match components with
  | [] => ""
  | [c] => c
  | c :: r => c ++ "." ++ dotted r
  end.

Fixpoint no_dot (s : string) : Prop :=
  match s with EmptyString => True | String a r => a <> "."%char /\ no_dot r end.

(** Priority of sections: concrete names over unstructured patterns over well structured ones, then the order of the
    file.  [rank] is the rank of the pattern: 0 a pattern whose stars are all at the end, 1 a star before a name, 2 no
    star. *)
Definition has_star (cs : list string) : bool := existsb (String.eqb "*") cs.
Fixpoint star_before_name (cs : list string) : bool :=
  match cs with
  | [] => false
  | c :: r => (String.eqb "*" c && existsb (fun d => negb (String.eqb "*" d)) r) || star_before_name r
  end.
Definition rank (cs : list string) : nat :=
  if star_before_name cs then 1 else if has_star cs then 0 else 2.
