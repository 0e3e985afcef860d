(** Which files below a directory are to be checked, in terms of the directories on the way to them. *)
From Coq Require Import Ascii String List Bool PeanoNat.
From Verif Require Import FileChoiceModel.
Import ListNotations.
Open Scope nat_scope.
Open Scope list_scope.

(** A directory on the way: its name, if it is the root of another workspace, and its entries *)
Definition dir : Type := text * bool * list entry.
Definition d_name (d : dir) : text := fst (fst d).
Definition d_nested (d : dir) : bool := snd (fst d).
Definition d_entries (d : dir) : list entry := snd d.
Definition names (ds : list dir) : path := map d_name ds.
Fixpoint entries_at (l : list entry) (ds : list dir) : list entry := match ds with [] => l | d :: ds => entries_at (d_entries d) ds end.

Inductive lies : list entry -> list dir -> text -> Prop :=
| Lies_here : forall l n, In (File n) l -> lies l [] n
| Lies_below : forall l n b sub ds f, In (Dir n b sub) l -> lies sub ds f -> lies l ((n, b, sub) :: ds) f.

Definition has_ending (t suffix : text) : Prop := exists s, t = s ++ suffix.
Definition has_rules (l : list entry) (g : nat) : Prop := exists a b, l = a ++ Gitignore g :: b /\ forall h, ~ In (Gitignore h) a.

Section Settings.
Variable excluded : text -> bool.
Variable matched : nat -> path -> bool -> verdict.
Variable exclude_gitignore : bool.

(** The rules ignore neither the file nor a directory on the way. *)
Definition allows (root : path) (g : nat) (here : path) (ds : list dir) (n : text) : Prop :=
  (forall a d b, ds = a ++ d :: b -> matched g (root ++ here ++ names a ++ [d_name d]) true <> Ignored)
  /\ matched g (root ++ here ++ names ds ++ [n]) false <> Ignored.

Record chosen (root here : path) (l : list entry) (ds : list dir) (n : text) : Prop := Chosen
  { c_lies : lies l ds n;
    c_python : has_ending (join (here ++ names ds ++ [n])) (str ".py") \/ has_ending (join (here ++ names ds ++ [n])) (str ".pyi");
    c_file : excluded (join (here ++ names ds ++ [n])) = false;
    c_dirs : forall a d b, ds = a ++ d :: b -> d_nested d = false /\ excluded (join (here ++ names a ++ [d_name d])) = false;
    c_stub : has_ending n (str ".py") -> ~ In (File (n ++ str "i")) (entries_at l ds);
    c_git : exclude_gitignore = true -> forall a b g, ds = a ++ b -> has_rules (entries_at l a) g -> allows root g (here ++ names a) b n }.

(** What git does: of the rules on the way, the last ones that have something to say decide. *)
Fixpoint git_ignores (rules : list nat) (p : path) (is_dir : bool) : Prop :=
  match rules with
  | [] => False
  | g :: rules =>
      git_ignores rules p is_dir \/ matched g p is_dir = Ignored /\ forall h, In h rules -> matched h p is_dir = Nothing
  end.
End Settings.
