(** What a renaming should change: exactly the names that mean the thing under the cursor. *)
From Coq Require Import List Bool NArith Arith.
From Verif Require Import RenameModel.
Import ListNotations.

Record project := mk_project {
  leads_to : occurrence -> list name; stub_or_module : name -> option name; also_defined : occurrence -> list occurrence;
  names : nat -> list occurrence; files : list nat; with_dependencies : list nat; file_mentions : nat -> text -> bool }.

Definition rename (p : project) : occurrence -> text -> option (list (nat * list occurrence) * list nat) :=
  references_for_rename (leads_to p) (stub_or_module p) (also_defined p) (names p) (files p) (with_dependencies p) (file_mentions p).
Definition find (p : project) : goal -> bool -> occurrence -> list name :=
  references (leads_to p) (stub_or_module p) (also_defined p) (names p) (files p) (with_dependencies p) (file_mentions p).

(** A name of the project *)
Definition occurs (p : project) (o : occurrence) : Prop := exists f, In f (files p) /\ In o (names p f).
Definition renamed (changes : list (nat * list occurrence)) (o : occurrence) : Prop := exists file os, In (file, os) changes /\ In o os.

(** All the places where the thing that a name leads to is defined *)
Definition with_others (p : project) (n : name) : list name := n :: match n with TreeName o => map TreeName (also_defined p o) | ModuleName _ => [] end.
Definition all_definitions (p : project) (n : name) : list name :=
  match stub_or_module p n with Some c => with_others p c | None => [] end ++ with_others p n.

(** Functions around a name, also beyond classes *)
Inductive inside_function : scope -> Prop :=
| inside_here : forall s, inside_function (Function s)
| inside_lambda : forall s, inside_function (Lambda s)
| inside_class : forall s, inside_function s -> inside_function (Class s).

(** [means] is the thing that a name stands for, [thing] that of a definition; goto is right about them.  Each name leads to definitions of one thing, and two names of
    one thing to a common definition. *)
Record right (p : project) (means : occurrence -> nat) (thing : name -> nat) : Prop := mk_right {
  right_files : forall f o, In o (names p f) -> o_file o = f /\ file_mentions p f (o_text o) = true;
  right_leads : forall o d, occurs p o -> In d (leads_to p o) -> thing d = means o;
  right_definitions : forall o d, occurs p o -> In (TreeName d) (flat_map (all_definitions p) (leads_to p o)) -> occurs p d /\ o_text d = o_text o;
  right_things : forall o d x, occurs p o -> In d (leads_to p o) -> In x (all_definitions p d) -> thing x = means o;
  right_means : forall o, occurs p o -> thing (TreeName o) = means o;
  right_common : forall o o', occurs p o -> occurs p o' -> means o = means o' -> exists d d' rest, In d (leads_to p o) /\ leads_to p o' = d' :: rest /\ In (to_unique_position d) (map to_unique_position (all_definitions p d'));
  (** Different things are at different places *)
  right_places : forall o o' d x, occurs p o -> occurs p o' -> In d (leads_to p o) -> In x (flat_map (all_definitions p) (leads_to p o')) ->
    to_unique_position d = to_unique_position x -> thing d = thing x;
  right_names : forall o o' x, occurs p o -> occurs p o' -> In x (flat_map (all_definitions p) (leads_to p o')) -> to_unique_position (TreeName o) = to_unique_position x -> x = TreeName o;
  (** What is defined in a function is only used in its file *)
  right_local : forall o o' d rest, occurs p o -> occurs p o' -> leads_to p o = TreeName d :: rest -> inside_function (o_scope d) -> means o' = means o -> o_file o' = o_file o }.
