(** * Which configuration should be used *)
From Coq Require Import List.
From Verif Require Import ConfigSearchModel.
Import ListNotations.

(** mypy.ini and .mypy.ini always count, the others only with something for mypy. *)
Definition supplies (d : directory) (f : file) : Prop :=
  exists c, d f = Some c /\ (f = MypyIni \/ f = DotMypyIni \/ has_mypy c = true).
Inductive before : file -> file -> Prop :=
| before_pyproject : forall f, f <> Pyproject -> before Pyproject f
| before_mypy_dot : before MypyIni DotMypyIni
| before_mypy_setup : before MypyIni SetupCfg
| before_dot_setup : before DotMypyIni SetupCfg.
Definition first_supplier (d : directory) (f : file) : Prop := supplies d f /\ forall g, before g f -> ~ supplies d g.
Definition zuban_table (d : directory) : Prop := exists c, d Pyproject = Some c /\ has_zuban c = true.
(** A directory that ends the search: a pyproject.toml is enough. *)
Definition ends (d : directory) : Prop := d Pyproject <> None \/ exists f, supplies d f.
(** A directory with something about the configuration *)
Definition configures (d : directory) : Prop := zuban_table d \/ exists f, supplies d f.
(** The first directory with a property *)
Definition nearest (P : directory -> Prop) (dirs : list directory) (k : nat) (d : directory) : Prop :=
  nth_error dirs k = Some d /\ P d /\ forall j e, j < k -> nth_error dirs j = Some e -> ~ P e.
(** What is right for a directory *)
Definition right_for (d : directory) (r : found) : Prop :=
  (forall f, base r = Some f <-> first_supplier d f) /\ (zuban r = true <-> zuban_table d) /\
  (forall f, base r = Some f -> path r = f) /\ (base r = None -> path r = Pyproject) /\ d (path r) <> None.
