(** TypedDicts: which keys they have, when one may be used as another, and what may be done with
    them.  Types are left open: the model only asks whether one type is above another, whether two
    are the same and for their union.  Keys are numbers.  Not modelled: type variables, [Any],
    the messages (an issue is a boolean) and recursive TypedDicts. *)
From Coq Require Import List NArith Bool.
Import ListNotations.
Open Scope N_scope.

Section TypedDicts.
Variable T : Type.
(** crates/zuban_python/src/type_/matching.rs:303-405 [Type::is_super_type_of] *)
Variable super : T -> T -> bool.
(** crates/zuban_python/src/type_/matching.rs:470-483 [Type::is_same_type] and [is_simple_same_type]. *)
Variable same : T -> T -> bool.
(** [Type::is_never] *)
Variable is_never : T -> bool.
(** [Type::simplified_union_from_iterators] and [simplified_union] *)
Variable unite : list T -> T.
(** The types of [object] and [None]. *)
Variables object none_type : T.

(** crates/zuban_python/src/type_/typed_dict.rs:31-36 [TypedDictMember] *)
Record member := mk_member { m_name : N; m_type : T; m_required : bool; m_read_only : bool }.

(** crates/zuban_python/src/type_/typed_dict.rs:80-83 [ExtraItemsType] *)
Record extra := mk_extra { x_type : T; x_read_only : bool }.

(** crates/zuban_python/src/type_/typed_dict.rs:92-98 [TypedDict] with its [TypedDictMembers].  [defined_at] is the place of
    the definition. *)
Record typed_dict := mk_td { defined_at : N; named : list member; extra_items : option extra;
  is_final : bool }.

(** crates/zuban_python/src/type_/typed_dict.rs:39-44 [TypedDictEntry]; [e_named] says whether [name] is there. *)
Record entry := mk_entry { e_named : bool; e_type : T; e_required : bool; e_read_only : bool }.

(** crates/zuban_python/src/type_/typed_dict.rs:276-281 [find_member] *)
Definition find_member (td : typed_dict) (k : N) : option member :=
  find (fun m => m_name m =? k) (named td).

(** crates/zuban_python/src/type_/typed_dict.rs:283-305 [find_entry] *)
Definition find_entry (td : typed_dict) (k : N) : option entry :=
  match find (fun m => m_name m =? k) (named td) with
  | Some m => Some (mk_entry true (m_type m) (m_required m) (m_read_only m))
  | None =>
      match extra_items td with
      | Some e => if is_never (x_type e) then None
                  else Some (mk_entry false (x_type e) false (x_read_only e))
      | None => None
      end
  end.

(** The loop over the members of [self] in crates/zuban_python/src/type_/typed_dict.rs:528-587 [is_super_type_of]. *)
Definition member_matches (other : typed_dict) (m1 : member) : bool :=
  match find_entry other (m_name m1) with
  | Some m2 =>
      if negb (eqb (m_required m1) (e_required m2))
         && negb (m_read_only m1 && negb (m_required m1)) then false
      else if negb (m_read_only m1) && e_read_only m2 then false
      else if m_read_only m1 then super (m_type m1) (e_type m2)
      else same (m_type m1) (e_type m2)
  | None => false
  end.

(** The loop over the members of [other] in crates/zuban_python/src/type_/typed_dict.rs:528-587 [is_super_type_of]. *)
Definition fits_extra (self : typed_dict) (extra_items1 : extra) (m2 : member) : bool :=
  match find_entry self (m_name m2) with
  | Some m1 =>
      if negb (e_named m1) then
        if m_required m2 then false
        else if x_read_only extra_items1 then super (e_type m1) (m_type m2)
        else same (e_type m1) (m_type m2)
      else true
  | None => true
  end.

(** crates/zuban_python/src/type_/typed_dict.rs:528-587 [is_super_type_of] *)
Definition is_super_type_of (self other : typed_dict) : bool :=
  forallb (member_matches other) (named self) &&
  match extra_items self with
  | Some e1 =>
      match extra_items other with
      | Some e2 => if x_read_only e1 then super (x_type e1) (x_type e2)
                   else same (x_type e1) (x_type e2)
      | None => false
      end
      && forallb (fits_extra self e1) (named other)
  | None => true
  end.

(** The case of two TypedDicts in crates/zuban_python/src/type_/matching.rs:25-284 [matches_internal] without generics. *)
Definition matches (d1 d2 : typed_dict) : bool :=
  (defined_at d1 =? defined_at d2) || is_super_type_of d1 d2.

(** crates/zuban_python/src/type_/typed_dict.rs:595-599 [can_be_emptied] *)
Definition can_be_emptied (td : typed_dict) : bool :=
  match extra_items td with Some e => negb (x_read_only e) | None => false end
  && forallb (fun m => negb (m_required m) && negb (m_read_only m)) (named td).

(** crates/zuban_python/src/type_/typed_dict.rs:601-604 [has_required_members] *)
Definition has_required_members (td : typed_dict) : bool := existsb m_required (named td).

(** crates/zuban_python/src/type_/typed_dict.rs:606-614 [can_be_overwritten_with] *)
Definition can_be_overwritten_with (td : typed_dict) : option T :=
  match extra_items td with
  | Some e =>
      if negb (x_read_only e)
         && forallb (fun m => negb (m_required m) && negb (m_read_only m)
                              && same (x_type e) (m_type m)) (named td)
      then Some (x_type e) else None
  | None => None
  end.

(** crates/zuban_python/src/type_/typed_dict.rs:616-618 [has_extra_items] *)
Definition has_extra_items (td : typed_dict) : bool :=
  match extra_items td with Some _ => true | None => false end.

(** crates/zuban_python/src/type_/typed_dict.rs:627-636 [union_of_all_types] *)
Definition union_of_all_types (td : typed_dict) : T :=
  unite (map m_type (named td)
         ++ match extra_items td with Some e => [x_type e] | None => [] end).

(** The case of a TypedDict against [dict] or [MutableMapping] in
    crates/zuban_python/src/type_/matching.rs:750-888 [matches_class_against_type]; [k] says whether the first type argument is
    [str] and [t] is the second one. *)
Definition matches_dict (k : bool) (t : T) (td : typed_dict) : bool :=
  match can_be_overwritten_with td with Some got => k && same t got | None => false end.

(** The case of a TypedDict against [Mapping] there. *)
Definition matches_mapping (k : bool) (t : T) (td : typed_dict) : bool :=
  has_extra_items td && (k && super t (union_of_all_types td)).

(** The type of a key: one or more string literals, [str] or something else. *)
Inductive key := Literals (first : N) (others : list N) | Str | OtherKey.

(** What comes of a call: whether there is an issue and the type of the result.  [Fallback]: the
    method of the stub is used. *)
Inductive outcome := Outcome (issue : bool) (result : T) | Fallback.

(** crates/zuban_python/src/type_/typed_dict.rs:457-487 [get_item], for a literal.  The result is there if there is no issue. *)
Definition get_item (td : typed_dict) (k : N) : option T :=
  option_map e_type (find_entry td k).

(** crates/zuban_python/src/type_/typed_dict.rs:988-1051 [typed_dict_setitem_internal]: whether there is no issue. *)
Definition setitem (td : typed_dict) (k : key) (value : T) : bool :=
  match k with
  | Literals l [] =>
      match find_entry td l with
      | Some m => negb (e_read_only m) && super (e_type m) value
      | None => false
      end
  | Str => match can_be_overwritten_with td with
           | Some expected => super expected value
           | None => false
           end
  | _ => false
  end.

(** The closure for one key in crates/zuban_python/src/type_/typed_dict.rs:816-911 [typed_dict_get_or_pop_internal]: the issue,
    whether a default is needed and the type.  The type of an issue is of no interest. *)
Definition get_or_pop_one (td : typed_dict) (is_pop : bool) (k : N) : bool * bool * T :=
  match find_entry td k with
  | Some m => (is_pop && (e_required m || e_read_only m), negb (e_required m), e_type m)
  | None => if is_pop then (true, false, object) else (false, false, object)
  end.

(** crates/zuban_python/src/type_/typed_dict.rs:816-911 [typed_dict_get_or_pop_internal].  [second_arg] is the type of the
    default, if there is one. *)
Definition get_or_pop (td : typed_dict) (k : key) (second_arg : option T) (is_pop : bool)
  : outcome :=
  let default := match second_arg with Some t => t | None => none_type end in
  match k with
  | Literals l ls =>
      let each := map (get_or_pop_one td is_pop) (l :: ls) in
      let issue := existsb (fun r => fst (fst r)) each in
      let needs_default := existsb (fun r => snd (fst r)) each in
      let had := unite (map snd each) in
      Outcome issue
        (if needs_default then
           if is_pop && match second_arg with None => true | Some _ => false end then had
           else unite [had; default]
         else had)
  | Str =>
      Outcome (is_pop && negb (can_be_emptied td))
        (if has_extra_items td then unite [union_of_all_types td; default] else object)
  | OtherKey => if is_pop then Outcome true object else Fallback
  end.

(** crates/zuban_python/src/type_/typed_dict.rs:1074-1080 [typed_dict_delitem_internal]: whether there is no issue. *)
Definition delitem (td : typed_dict) (k : key) : bool :=
  match get_or_pop td k None true with Outcome issue _ => negb issue | Fallback => false end.

(** crates/zuban_python/src/type_/typed_dict.rs:722-785 [typed_dict_setdefault_internal], for a default that is there. *)
Definition setdefault (td : typed_dict) (k : key) (default : T) : outcome :=
  match k with
  | Literals l ls =>
      let each := map (fun l => match find_entry td l with
                                | Some m => (negb (super (e_type m) default), e_type m)
                                | None => (true, object)
                                end) (l :: ls) in
      Outcome (existsb fst each) (unite [unite (map snd each); default])
  | _ => Outcome true object
  end.

(** crates/zuban_python/src/type_/typed_dict.rs:1103-1158 [typed_dict_update_internal], for an argument that is a TypedDict and
    not a dict literal: whether there is no issue. *)
Definition update (td from_arg : typed_dict) : bool :=
  forallb (fun m => match find_entry td (m_name m) with
                    | Some e => negb (e_read_only e && negb (is_never (m_type m)))
                    | None => true
                    end) (named from_arg)
  && negb (match extra_items from_arg with
           | Some arg_extra =>
               negb (is_never (x_type arg_extra))
               && (existsb m_read_only (named td)
                   || match extra_items td with Some e => x_read_only e | None => false end)
           | None => false
           end).

(** [clear] and [popitem] in crates/zuban_python/src/type_/typed_dict.rs:1211-1281 [lookup_on_typed_dict]: whether the method of the
    TypedDict is there (the stub has none). *)
Definition clear (td : typed_dict) : bool := can_be_emptied td.
Definition popitem (td : typed_dict) : option T :=
  if can_be_emptied td then Some (union_of_all_types td) else None.

(** [items] and [values] there; without extra items the stub says [object]. *)
Definition values (td : typed_dict) : T :=
  if has_extra_items td then union_of_all_types td else object.

(** crates/zuban_python/src/type_/typed_dict.rs:1283-1315 [infer_typed_dict_arg]: whether there is no issue and the key is not an
    extra key. *)
Definition infer_typed_dict_arg (td : typed_dict) (k : N) (t : T) : bool :=
  match find_entry td k with Some m => super (e_type m) t | None => false end.

(** crates/zuban_python/src/type_/typed_dict.rs:1317-1386 [check_typed_dict_call]: whether there is no issue.  The name of an
    argument is [None] if it is not a keyword argument. *)
Definition check_call (td : typed_dict) (args : list (option N * T)) : bool :=
  forallb (fun a => match fst a with
                    | Some k => infer_typed_dict_arg td k (snd a)
                    | None => false
                    end) args
  && forallb (fun m => negb (m_required m)
                       || existsb (fun a => match fst a with
                                            | Some k => k =? m_name m
                                            | None => false
                                            end) args) (named td).

(** An element of a dict literal: a key with a value or an unpacked TypedDict. *)
Inductive element := KeyValue (k : option N) (t : T) | Star (td : typed_dict).

(** The keys an element takes out of [missing_keys] in
    crates/zuban_python/src/file/utils.rs:246-350 [check_typed_dict_literal_with_context]. *)
Definition retained (missing_keys : list N) (k : N) : list N :=
  filter (fun x => negb (x =? k)) missing_keys.

(** One element there: the missing keys after it and whether there was no issue so far. *)
Definition check_element (td : typed_dict) (s : list N * bool) (e : element) : list N * bool :=
  match e with
  | KeyValue (Some k) t => (retained (fst s) k, snd s && infer_typed_dict_arg td k t)
  | KeyValue None _ => ([], false)
  | Star from =>
      fold_left (fun s m =>
                   (if m_required m then retained (fst s) (m_name m) else fst s,
                    snd s && infer_typed_dict_arg td (m_name m) (m_type m)))
        (named from) s
  end.

(** crates/zuban_python/src/file/utils.rs:246-350 [check_typed_dict_literal_with_context]: whether there is no issue. *)
Definition check_literal (td : typed_dict) (elements : list element) : bool :=
  let s := fold_left (check_element td) elements
             (map m_name (filter m_required (named td)), true) in
  snd s && match fst s with [] => true | _ => false end.

(** crates/zuban_python/src/type_/typed_dict.rs:343-380 [intersection], used by [common_base_type] as the join of two
    TypedDicts. *)
Definition intersection (self other : typed_dict) : typed_dict :=
  mk_td (defined_at self)
    (flat_map (fun m1 =>
       flat_map (fun m2 =>
         if (m_name m1 =? m_name m2) && eqb (m_required m1) (m_required m2)
            && same (m_type m1) (m_type m2)
         then [mk_member (m_name m1) (m_type m1) (m_required m1)
                 (m_read_only m1 || m_read_only m2)]
         else []) (named other)) (named self))
    match extra_items self, extra_items other with
    | Some e1, Some e2 =>
        if same (x_type e1) (x_type e2)
        then Some (mk_extra (x_type e1) (x_read_only e1 || x_read_only e2)) else None
    | _, _ => None
    end
    false.

(** The loop over the members of [other] in crates/zuban_python/src/type_/typed_dict.rs:313-341 [union]; [None] is [Never]. *)
Fixpoint add_members (members : list member) (others : list member) : option (list member) :=
  match others with
  | [] => Some members
  | m2 :: others =>
      match find (fun m1 => m_name m1 =? m_name m2) members with
      | Some m1 =>
          if negb (eqb (m_required m1) (m_required m2))
             || negb (eqb (m_read_only m1) (m_read_only m2))
             || negb (same (m_type m1) (m_type m2))
          then None else add_members members others
      | None => add_members (members ++ [m2]) others
      end
  end.

(** crates/zuban_python/src/type_/typed_dict.rs:313-341 [union], used by [common_sub_type] as the meet of two TypedDicts. *)
Definition union (self other : typed_dict) : option typed_dict :=
  option_map (fun ms => mk_td (defined_at self) ms None false)
    (add_members (named self) (named other)).

(** What the members of the union on the right of [in] do in crates/zuban_python/src/file/flow_analysis.rs:4692-4730
    [guard_of_in_operator]: whether the TypedDict is kept if the key is in it, and if it is not. *)
Definition narrow_part (str_literals : list N) (td : typed_dict) : bool * bool :=
  let true_only := filter (fun k => match find_member td k with
                                    | Some m => m_required m
                                    | None => false
                                    end) str_literals in
  let false_only := filter (fun k => match find_member td k with
                                     | Some _ => false
                                     | None => true
                                     end) str_literals in
  if Nat.eqb (length true_only) (length str_literals) then (true, false)
  else (negb (is_final td) || negb (Nat.eqb (length false_only) (length str_literals)), true).

(** The narrowing of a union of TypedDicts by [in] there.  [left] are the parts of the type on the
    left: a string literal or something else. *)
Definition narrow_in (left : list (option N)) (right : list typed_dict)
  : option (list typed_dict * list typed_dict) :=
  let str_literals := flat_map (fun l => match l with Some k => [k] | None => [] end) left in
  match str_literals with
  | [] => None
  | _ => Some (filter (fun td => fst (narrow_part str_literals td)) right,
               filter (fun td => snd (narrow_part str_literals td)) right)
  end.
End TypedDicts.
