(** Rust [str] values and byte slicing, as used by every other model file.

    A Rust [&str] is a UTF-8 encoded sequence of Unicode scalar values.  It is
    modelled by the list of its scalar values; byte offsets are recovered with
    [bytes].  Slicing [&s[a..b]] panics when an offset is out of range or not on
    a character boundary: here slicing returns [None] in these cases. *)
From Coq Require Import List NArith Arith Bool Lia.
Import ListNotations.

(** A Unicode scalar value.  (Surrogates are not excluded by the type; nothing
    below depends on their absence.) *)
Notation char := N (only parsing).
Notation text := (list N) (only parsing).

(** Result of a fallible Rust function: [Ok], an [anyhow] error, or a panic. *)
Inductive res (A : Type) : Type :=
| Ok (a : A)
| Err
| Panic.
Arguments Ok {A} a.
Arguments Err {A}.
Arguments Panic {A}.

Definition bind {A B} (r : res A) (f : A -> res B) : res B :=
  match r with Ok a => f a | Err => Err | Panic => Panic end.

(** [None] (a slice that Rust would refuse) becomes a panic. *)
Definition or_panic {A} (o : option A) : res A :=
  match o with Some a => Ok a | None => Panic end.

(** [char::len_utf8] of the Rust standard library. *)
Definition utf8_len (c : char) : nat :=
  if (c <? 128)%N then 1
  else if (c <? 2048)%N then 2
  else if (c <? 65536)%N then 3 else 4.

(** [char::len_utf16] of the Rust standard library. *)
Definition utf16_len (c : char) : nat :=
  if (c <? 65536)%N then 1 else 2.

(** [str::len]: number of UTF-8 bytes. *)
Fixpoint bytes (t : text) : nat :=
  match t with
  | [] => 0
  | c :: r => utf8_len c + bytes r
  end.

(** [str::encode_utf16().count()]. *)
Fixpoint units16 (t : text) : nat :=
  match t with
  | [] => 0
  | c :: r => utf16_len c + units16 r
  end.

(** [&s[n..]]: [None] models the panic. *)
Fixpoint drop_bytes (t : text) (n : nat) {struct t} : option text :=
  match n with
  | 0 => Some t
  | _ =>
      match t with
      | [] => None
      | c :: r =>
          if utf8_len c <=? n then drop_bytes r (n - utf8_len c) else None
      end
  end.

(** [&s[..n]]: [None] models the panic. *)
Fixpoint take_bytes (t : text) (n : nat) {struct t} : option text :=
  match n with
  | 0 => Some []
  | _ =>
      match t with
      | [] => None
      | c :: r =>
          if utf8_len c <=? n
          then option_map (cons c) (take_bytes r (n - utf8_len c))
          else None
      end
  end.

(** [&s[a..b]]; Rust also panics when [a > b]. *)
Definition slice (t : text) (a b : nat) : option text :=
  if b <? a then None
  else match drop_bytes t a with
       | Some r => take_bytes r (b - a)
       | None => None
       end.

(** [str::is_char_boundary]. *)
Definition is_char_boundary (t : text) (n : nat) : bool :=
  match drop_bytes t n with Some _ => true | None => false end.

(** [String::replace_range(a..b, new)]; panics like slicing. *)
Definition replace_range (t : text) (a b : nat) (new : text) : option text :=
  if b <? a then None
  else match take_bytes t a, drop_bytes t b with
       | Some p, Some q => Some (p ++ new ++ q)
       | _, _ => None
       end.

Definition LF : char := 10%N.
Definition CR : char := 13%N.
