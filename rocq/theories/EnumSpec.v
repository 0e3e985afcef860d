(** What Python makes of the body of an enum: Lib/enum.py of CPython ([_is_dunder], [_is_sunder], [_is_private], [_EnumDict.__setitem__],
    [EnumType.__new__]) and the mangling of private names.  Flags, [__new__] of the enum and [_order_] are left out. *)
From Coq Require Import Ascii String List Bool NArith.
From Verif Require Import EnumModel.
Import ListNotations.
Open Scope list_scope.

Definition underscore : ascii := "_"%char.
Definition at_ (n : name) (i : nat) : option ascii := nth_error n i.
Definition at_end (n : name) (i : nat) : option ascii := nth_error (rev n) i.
Definition is_underscore (c : option ascii) : bool :=
  match c with Some c => if ascii_dec c underscore then true else false | None => false end.

(** _is_sunder *)
Definition is_sunder (n : name) : bool :=
  Nat.ltb 2 (length n) && is_underscore (at_ n 0) && is_underscore (at_end n 0)
  && negb (is_underscore (at_ n 1)) && negb (is_underscore (at_end n 1)).

(** _is_dunder *)
Definition is_dunder (n : name) : bool :=
  Nat.ltb 4 (length n)
  && is_underscore (at_ n 0) && is_underscore (at_ n 1) && is_underscore (at_end n 0) && is_underscore (at_end n 1)
  && negb (is_underscore (at_ n 2)) && negb (is_underscore (at_end n 2)).

(** _is_private *)
Definition private_prefix (cls : name) : name := underscore :: cls ++ [underscore; underscore].
Definition is_private (cls n : name) : bool :=
  Nat.ltb (length (private_prefix cls)) (length n) && starts_with (private_prefix cls) n
  && (negb (is_underscore (at_end n 0)) || negb (is_underscore (at_end n 1))).

(** The name under which a private name of a class body is stored *)
Fixpoint strip (n : name) : name :=
  match n with
  | c :: rest => if ascii_dec c underscore then strip rest else n
  | [] => []
  end.
Definition mangle (cls n : name) : name :=
  if is_underscore (at_ n 0) && is_underscore (at_ n 1) && negb (is_underscore (at_end n 0) && is_underscore (at_end n 1)) then
    match strip cls with [] => n | s => underscore :: s ++ n end
  else n.

(** The names that are no members, by their form *)
Definition special (cls n : name) : bool := is_private cls n || is_sunder n || is_dunder n.

(** The names with one underscore at both ends that an enum may define *)
Definition known_sunder : list name :=
  map text ["_order_"; "_generate_next_value_"; "_numeric_repr_"; "_missing_"; "_ignore_"; "_iter_member_"; "_iter_member_by_value_";
            "_iter_member_by_def_"; "_add_alias_"; "_add_value_alias_"]%string.

Record state := mk_state { namespace : list (name * object); member_names : list name; ignored : list name }.

Definition get (st : state) (key : name) : option object :=
  option_map snd (List.find (fun x => same (fst x) key) (namespace st)).
Definition put (st : state) (key : name) (o : object) : state :=
  mk_state ((key, o) :: namespace st) (member_names st) (ignored st).
Definition mem (n : name) (l : list name) : bool := existsb (fun m => same m n) l.

Section Python.
Variable minor : N.
Variable cls : name.
(** What a name means outside of the class *)
Variable outside : name -> option object.

Definition add_member (st : state) (key : name) (o : object) : option state :=
  match get st key with
  | Some _ => None
  | None => Some (mk_state ((key, o) :: namespace st) (member_names st ++ [key]) (ignored st))
  end.

(** [_EnumDict.__setitem__]; None is an exception.  Up to 3.12 a class of the body is a member. *)
Definition setitem (st : state) (key : name) (o : object) : option state :=
  if is_private cls key then Some (put st key o)
  else if is_sunder key then if mem key known_sunder then Some (put st key o) else None
  else if is_dunder key then Some (put st key o)
  else if mem key (member_names st) then None
  else if mem key (ignored st) then Some (put st key o)
  else match o with
       | NonmemberOf v => Some (put st key v)
       | Descriptor _ => Some (put st key o)
       | Nested _ => if (minor <? 13)%N then add_member st key o else Some (put st key o)
       | MemberOf v => add_member st key v
       | Plain _ => add_member st key o
       end.

(** member and nonmember are there since 3.11. *)
Definition call (c : callee) (o : object) (v : N) : option object :=
  match c with
  | Member => if (11 <=? minor)%N then Some (MemberOf o) else None
  | Nonmember => if (11 <=? minor)%N then Some (NonmemberOf o) else None
  | Builtin => Some (Descriptor v)
  end.

Fixpoint evaluate (st : state) (e : expression) : option object :=
  match e with
  | Lambda v => Some (Descriptor v)
  | Call c e => match evaluate st e with Some o => call c o 0 | None => None end
  | Name n => match get st (mangle cls n) with Some o => Some o | None => outside (mangle cls n) end
  | Other o => Some o
  end.

(** The decorators are called from the last one to the first one. *)
Fixpoint decorate (ds : list decorator) (o : object) : option object :=
  match ds with
  | [] => Some o
  | d :: ds =>
      match decorate ds o with
      | None => None
      | Some o => match d with Known c => call c o 1 | OtherClass g | OtherFunction g => Some g end
      end
  end.

Definition execute (st : state) (s : statement) : option state :=
  match s with
  | Assign n e => match evaluate st e with Some o => setitem st (mangle cls n) o | None => None end
  | Declare _ => Some st
  | Function n ds v => match decorate ds (Descriptor v) with Some o => setitem st (mangle cls n) o | None => None end
  | Class n ds v => match decorate ds (Nested v) with Some o => setitem st (mangle cls n) o | None => None end
  | Bind n o => setitem st (mangle cls n) o
  | Ignore ns => if existsb (fun n => mem n (member_names st)) ns then None else Some (mk_state (namespace st) (member_names st) ns)
  end.

Fixpoint run (st : state) (body : list statement) : option state :=
  match body with
  | [] => Some st
  | s :: body => match execute st s with Some st => run st body | None => None end
  end.

(** The members and aliases in their order, with their values; None is an exception. *)
Definition python (body : list statement) : option (list (name * object)) :=
  match run (mk_state [] [] []) body with
  | Some st =>
      if mem (text "mro") (member_names st) then None
      else Some (map (fun n => (n, match get st n with Some o => o | None => Plain 0 end)) (member_names st))
  | None => None
  end.
End Python.

Definition object_dec : forall a b : object, {a = b} + {a <> b}.
Proof. decide equality; apply N.eq_dec. Defined.

(** The first member with the value is the one member of it; the others are aliases. *)
Definition member_for (made : list (name * object)) (o : object) : option name :=
  option_map fst (List.find (fun x => if object_dec (snd x) o then true else false) made).
(** [E.n] *)
Definition attribute (made : list (name * object)) (n : name) : option name :=
  match List.find (fun x => same (fst x) n) made with Some x => member_for made (snd x) | None => None end.
(** [list(E)] *)
Fixpoint members_from (seen : list object) (made : list (name * object)) : list name :=
  match made with
  | [] => []
  | (n, o) :: made =>
      if existsb (fun s => if object_dec s o then true else false) seen then members_from seen made
      else n :: members_from (o :: seen) made
  end.
Definition iterated (made : list (name * object)) : list name := members_from [] made.

(** ** Bodies without surprises *)

Fixpoint under (k : nat) : name := match k with O => [] | S k => underscore :: under k end.
(** Neither starts nor ends with an underscore *)
Definition core (c : name) : Prop :=
  (exists x rest, c = x :: rest /\ x <> underscore) /\ (exists x rest, c = rest ++ [x] /\ x <> underscore).
(** Names with [a] underscores before and [b] after the rest *)
Definition ordinary_form (a b : nat) : Prop := a = 0%nat \/ (a = 1%nat /\ b = 0%nat).
Definition special_form (a b : nat) : Prop := (a = 1 /\ b = 1)%nat \/ (a = 2 /\ b = 2)%nat \/ (2 <= a /\ b <= 1)%nat.

Definition regular (cls n : name) : Prop :=
  (exists a b c, n = under a ++ c ++ under b /\ core c /\ (ordinary_form a b \/ special_form a b))
  /\ starts_with (private_prefix cls) n = false.

Fixpoint names_in (e : expression) : list name :=
  match e with Lambda _ | Other _ => [] | Call _ e => names_in e | Name n => [n] end.
Definition names (s : statement) : list name :=
  name_of s :: match s with Assign _ e => names_in e | _ => [] end.

Section Tame.
Variable minor : N.
Variable cls : name.
Variable outside : name -> option object.

(** A statement whose name may be used for an alias: an ordinary value, or a function or method *)
Definition descriptor_decorators (ds : list decorator) : Prop :=
  match ds with
  | [] => True
  | Known Builtin :: _ => True
  | OtherClass (Descriptor _) :: _ => True
  | OtherFunction (Descriptor _) :: rest => ~ In (Known Member) rest
  | _ => False
  end.
Definition target (s : statement) : Prop :=
  match s with
  | Assign _ (Lambda _) | Assign _ (Other (Plain _)) | Bind _ (Plain _) => True
  | Assign _ (Call Builtin _) => (11 <= minor)%N
  | Function _ ds _ => descriptor_decorators ds
  | Class _ [] _ => (minor < 13)%N
  | _ => False
  end.

Definition tame_value (earlier : list statement) (e : expression) : Prop :=
  match e with
  | Lambda _ | Other (Plain _) => True
  | Call _ _ => (11 <= minor)%N
  | Name m =>
      (forall s, In s earlier -> name_of s = m -> target s /\ special cls (mangle cls m) = false)
      /\ ((forall s, In s earlier -> name_of s <> m) -> exists v, outside (mangle cls m) = Some (Plain v))
  | Other _ => False
  end.

Definition tame_function (ds : list decorator) : Prop :=
  match ds with Known _ :: _ => True | _ => descriptor_decorators ds end.
Definition tame_class (ds : list decorator) : Prop :=
  match ds with
  | [] => (minor < 13)%N
  | Known Member :: _ | Known Nonmember :: _ => True
  | OtherClass (Plain _) :: _ => True
  | OtherFunction (Nested _) :: rest => (minor < 13)%N /\ ~ In (Known Nonmember) rest
  | OtherFunction (Plain _) :: rest => ~ In (Known Nonmember) rest
  | _ => False
  end.

(** The name of the statement is no special one, and the statement comes behind [earlier]. *)
Definition tame_statement (earlier : list statement) (s : statement) : Prop :=
  match s with Declare _ => True | _ => ~ In (Declare (name_of s)) earlier end
  /\ match s with
     | Assign _ e => tame_value earlier e
     | Declare _ => True
     | Function _ ds _ => tame_function ds
     | Class _ ds _ => tame_class ds
     | Bind _ (Plain _) => True
     | Bind _ _ => False
     | Ignore _ => False
     end.

Definition tame (body : list statement) : Prop :=
  (forall ns, ~ In (Ignore ns) body)
  /\ (forall s n, In s body -> In n (names s) -> regular cls n)
  /\ forall earlier s later, body = earlier ++ s :: later ->
       special cls (mangle cls (name_of s)) = false -> tame_statement earlier s.
End Tame.

(** ** Enums made by a call *)

Section Functional.
Variable minor : N.
Variable cls : name.

(** What [str.split()] takes as a separator, and the commas that are replaced before *)
Definition white (c : ascii) : bool :=
  let k := N_of_ascii c in
  ((9 <=? k) && (k <=? 13) || (28 <=? k) && (k <=? 32) || (k =? 44))%N.

(** The words of a string, for a test of separators *)
Inductive words (sep : ascii -> bool) : name -> list name -> Prop :=
| Words_end : forall gap, forallb sep gap = true -> words sep gap []
| Words_word : forall gap w rest ws,
    forallb sep gap = true -> w <> [] -> forallb (fun c => negb (sep c)) w = true ->
    match rest with [] => True | c :: _ => sep c = true end ->
    words sep rest ws -> words sep (gap ++ w ++ rest) (w :: ws).

(** [Enum(cls, names)] sets the names one after the other, with different values. *)
Fixpoint set_all (v : N) (st : state) (ws : list name) : option state :=
  match ws with
  | [] => Some st
  | w :: ws => match setitem minor cls st w (Plain v) with Some st => set_all (v + 1)%N st ws | None => None end
  end.
Definition called (ws : list name) : option (list name) := option_map member_names (set_all 1 (mk_state [] [] []) ws).
End Functional.
