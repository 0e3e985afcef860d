(** Specification of the resolution of a module name: what is at which path decides.  No loops, no order of entries. *)
From Coq Require Import List String.
Import ListNotations.
Open Scope string_scope.
Open Scope list_scope.

Inductive kind := KFile | KDir.

Section Spec.
  Variable fs : list string -> option kind.
  Variable stubs : bool.
  Variable name : string.

  Definition stub_init (d : list string) := d ++ [name; "__init__.pyi"].
  Definition source_init (d : list string) := d ++ [name; "__init__.py"].
  Definition stub_file (d : list string) := d ++ [append name ".pyi"].
  Definition source_file (d : list string) := d ++ [append name ".py"].

  (** A package with an [__init__]; the stub wins. *)
  Definition package (d f : list string) : Prop :=
    f = stub_init d /\ fs f = Some KFile \/
    f = source_init d /\ fs f = Some KFile /\ fs (stub_init d) <> Some KFile.

  (** A module that is a file; the stub wins. *)
  Definition module_file (d f : list string) : Prop :=
    stubs = true /\ f = stub_file d /\ fs f = Some KFile \/
    f = source_file d /\ fs f = Some KFile /\ ~ (stubs = true /\ fs (stub_file d) = Some KFile).

  (** A regular match: a package wins over a module file. *)
  Definition regular (d f : list string) : Prop := package d f \/ module_file d f /\ forall g, ~ package d g.

  (** The marker of a package that has type annotations. *)
  Definition has_marker (d : list string) : Prop := fs (d ++ [name; "py.typed"]) <> None.

  (** The directories that are searched, in order, with whether the marker is necessary there. *)
  Inductive resolves (dirs : list (list string * bool)) : option (list string + list (list string) + list string) -> Prop :=
  | resolves_file : forall before d needs after f,
      dirs = before ++ (d, needs) :: after ->
      (forall x, In x before -> forall g, ~ regular (fst x) g) ->
      regular d f -> (needs = false \/ package d f /\ has_marker d) ->
      resolves dirs (Some (inl (inl f)))
  | resolves_untyped : forall before d after f,
      dirs = before ++ (d, true) :: after ->
      (forall x, In x before -> forall g, ~ regular (fst x) g) ->
      regular d f -> ~ (package d f /\ has_marker d) ->
      resolves dirs (Some (inr f))
  | resolves_namespace : forall ns,
      (forall x, In x dirs -> forall g, ~ regular (fst x) g) ->
      ns <> [] ->
      (* exactly the directories with the name, in order *)
      (exists pick, ns = map (fun x : list string * bool => fst x ++ [name]) (filter pick dirs) /\
         forall x, In x dirs -> (pick x = true <-> fs (fst x ++ [name]) = Some KDir)) ->
      resolves dirs (Some (inl (inr ns)))
  | resolves_nothing :
      (forall x, In x dirs -> forall g, ~ regular (fst x) g) ->
      (forall x, In x dirs -> fs (fst x ++ [name]) <> Some KDir) ->
      resolves dirs None.
End Spec.

(** Only what is at a path or below it is different, and the path itself is: something was created there, removed, or
    replaced by something else. *)
Definition below (p q : list string) : Prop := exists r, q = p ++ r.
Definition changed_at (p : list string) (fs fs' : list string -> option kind) : Prop :=
  (forall q, ~ below p q -> fs q = fs' q) /\ fs p <> fs' p.
