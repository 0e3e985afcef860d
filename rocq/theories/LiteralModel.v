(** Model of the evaluation of string and bytes literals (crates/parsa_python_cst/src/strings.rs, crates/parsa_python_cst/src/bytes.rs). *)
From Coq Require Import List NArith Arith Bool.
From Verif Require Import TextModel.
Import ListNotations.
Open Scope N_scope.

(** [str::as_bytes]: UTF-8. *)
Definition utf8 (c : char) : list N :=
  if c <? 128 then [c]
  else if c <? 2048 then [192 + c / 64; 128 + c mod 64]
  else if c <? 65536 then [224 + c / 4096; 128 + (c / 64) mod 64; 128 + c mod 64]
  else [240 + c / 262144; 128 + (c / 4096) mod 64; 128 + (c / 64) mod 64; 128 + c mod 64].
Definition as_bytes (t : text) : list N := flat_map utf8 t.

(** [char::from_u32]. *)
Definition from_u32 (n : N) : option char := if (n <? 55296) || ((57343 <? n) && (n <? 1114112)) then Some n else None.

Definition is_ascii_digit (x : N) : bool := (48 <=? x) && (x <=? 57).

(** The loop of crates/parsa_python_cst/src/strings.rs:202-220 [parse_hex]: [None] after a byte that is no digit, which is consumed.  Returns how
    many bytes are left in the iterator. *)
Fixpoint parse_hex_loop (count : nat) (number : N) (rest : list N) : option N * list N :=
  match count, rest with
  | S count, x :: rest =>
      let add digit := parse_hex_loop count (number + N.shiftl digit (N.of_nat count * 4)) rest in
      if is_ascii_digit x then add (x - 48)
      else if (97 <=? x) && (x <=? 102) then add (x - 97 + 10)
      else if (65 <=? x) && (x <=? 70) then add (x - 65 + 10)
      else (None, rest)
  | _, _ => (Some number, rest)
  end.
(** crates/parsa_python_cst/src/strings.rs:202-220 [parse_hex]; the sum does not overflow for eight digits. *)
Definition parse_hex (count : nat) (rest : list N) : option char * list N :=
  let (number, rest) := parse_hex_loop count 0 rest in
  (match number with Some n => from_u32 n | None => None end, rest).

(** crates/parsa_python_cst/src/strings.rs:222-235 [parse_python_octal].  The [unwrap] is of at most three octal digits. *)
Fixpoint octal_loop (count : nat) (used_bytes : nat) (result : N) (x : list N) : nat * N :=
  match count, x with
  | S count, b :: r => if (48 <=? b) && (b <=? 55) then octal_loop count (S used_bytes) (N.shiftl result 3 + (b - 48)) r else (used_bytes, result)
  | _, _ => (used_bytes, result)
  end.
Definition parse_python_octal (x : list N) : option (nat * N) :=
  let (used_bytes, result) := octal_loop 3 0 0 x in
  if (0 <? used_bytes)%nat then Some (used_bytes, result) else None.

(** crates/parsa_python_cst/src/strings.rs:243-272 [unpack_string_or_bytes_content], the loop over the bytes: the quote length, the start of
    the content and whether it is raw. *)
Fixpoint unpack_loop (i : nat) (rest : list N) (had_raw_modifier : bool) : nat * nat * bool :=
  match rest with
  | [] => (1, 0, had_raw_modifier)%nat
  | b :: rest =>
      if (b =? 114) || (b =? 82) then unpack_loop (S i) rest true
      else if (b =? 39) || (b =? 34) then
        match rest with
        | second :: third :: _ =>
            if (3 <? length rest)%nat && ((second =? b) && (third =? b)) then (3, i + 3, had_raw_modifier)%nat else (1, i + 1, had_raw_modifier)%nat
        | _ => (1, i + 1, had_raw_modifier)%nat
        end
      else unpack_loop (S i) rest had_raw_modifier
  end.
Definition unpack_string_or_bytes_content (code : text) : res (text * nat * bool) :=
  let '(quote_len, inner_start_offset, had_raw_modifier) := unpack_loop 0 (as_bytes code) false in
  if (bytes code <? quote_len)%nat then Panic
  else bind (or_panic (slice code inner_start_offset (bytes code - quote_len))) (fun inner => Ok (inner, inner_start_offset, had_raw_modifier)).

(** [enum PythonString], crates/parsa_python_cst/src/strings.rs:11-15 [enum PythonString]. *)
Inductive python_string := Ref (start : nat) (s : text) | Owned (start : nat) (s : text) | FString.

(** The [match] on the byte after a backslash, crates/parsa_python_cst/src/strings.rs:59-111: what is pushed, and the iterator afterwards.
    [next_index] is the index of that byte, [rest] are the bytes after it. *)
Definition simple_escape (ch : N) : option N :=
  match ch with
  | 92 => Some 92 | 39 => Some 39 | 34 => Some 34
  | 97 => Some 7 | 98 => Some 8 | 116 => Some 9 | 110 => Some 10 | 118 => Some 11 | 102 => Some 12 | 114 => Some 13
  | _ => None
  end.
Definition hex_escape (ch : N) : option nat := match ch with 117 => Some 4%nat | 85 => Some 8%nat | 120 => Some 2%nat | _ => None end.
Definition escape (inner : text) (next_index : nat) (ch : N) (rest : list N) : res (text * list N) :=
  match simple_escape ch with
  | Some c => Ok ([c], rest)
  | None =>
      if ch =? 10 then Ok ([], rest)
      else if ch =? 13 then Ok ([], match rest with 10 :: r => r | _ => rest end)
      else match hex_escape ch with
      | Some count => let (c, rest) := parse_hex count rest in Ok (match c with Some c => [c] | None => [] end, rest)
      | None =>
          if ch =? 78 then Ok ([92; 78], rest)
          else
            bind (or_panic (drop_bytes inner next_index)) (fun string_from_here =>
              match parse_python_octal (as_bytes string_from_here) with
              | Some (len, octal) => Ok ([octal], skipn (len - 1) rest)
              | None =>
                  match string_from_here with
                  | c :: _ => Ok ([92; c], skipn (utf8_len c - 1) rest)
                  | [] => Panic
                  end
              end)
      end
  end.

(** The loop of crates/parsa_python_cst/src/strings.rs:29-140 [from_literal]; [i] is the index of the first byte of [rest].  [Err]: the fuel is
    used up. *)
Fixpoint from_literal_loop (fuel : nat) (inner : text) (rest : list N) (string : option text) (previous_insert : nat) : res (option text * nat) :=
  match fuel, rest with
  | _, [] => Ok (string, previous_insert)
  | O, _ => Err
  | S fuel, ch :: rest1 =>
      let i := (bytes inner - length rest)%nat in
      let pushed := match string with Some s => s | None => [] end in
      if ch =? 92 then
        bind (or_panic (slice inner previous_insert i)) (fun sl =>
        match rest1 with
        | [] => Ok (Some (pushed ++ sl), previous_insert)
        | ch2 :: rest2 =>
            bind (escape inner (i + 1)%nat ch2 rest2) (fun '(out, rest3) =>
            from_literal_loop fuel inner rest3 (Some (pushed ++ sl ++ out)) (bytes inner - length rest3)%nat)
        end)
      else if ch =? 13 then
        bind (or_panic (slice inner previous_insert i)) (fun sl =>
        from_literal_loop fuel inner rest1 (Some (pushed ++ sl ++ match rest1 with 10 :: _ => [] | _ => [10] end)) (i + 1)%nat)
      else from_literal_loop fuel inner rest1 string previous_insert
  end.

(** crates/parsa_python_cst/src/strings.rs:142-168 [remove_carriage_returns_from_raw_literal]. *)
Fixpoint remove_carriage_returns (t : text) : text :=
  match t with
  | [] => []
  | ch :: r =>
      if ch =? 13 then (match r with 10 :: _ => [] | _ => [10] end) ++ remove_carriage_returns r
      else ch :: remove_carriage_returns r
  end.
Definition remove_carriage_returns_from_raw_literal (start : nat) (t : text) : python_string :=
  if existsb (N.eqb 13) (as_bytes t) then Owned start (remove_carriage_returns t) else Ref start t.

(** What is done with the content of a literal that starts at [literal_start]. *)
Definition from_content (literal_start : nat) (inner : text) : res python_string :=
  bind (from_literal_loop (bytes inner) inner (as_bytes inner) None 0) (fun '(string, previous_insert) =>
  match string with
  | Some s => bind (or_panic (slice inner previous_insert (bytes inner))) (fun tail => Ok (Owned literal_start (s ++ tail)))
  | None => Ok (Ref literal_start inner)
  end).

(** crates/parsa_python_cst/src/strings.rs:29-140 [from_literal]: [None] is an f-string, otherwise the start and the code of the node. *)
Definition from_literal (literal : option (nat * text)) : res python_string :=
  match literal with
  | None => Ok FString
  | Some (start, code) =>
      bind (unpack_string_or_bytes_content code) (fun '(inner, inner_start_offset, had_raw_modifier) =>
      let literal_start := (start + inner_start_offset)%nat in
      if had_raw_modifier then Ok (remove_carriage_returns_from_raw_literal literal_start inner) else from_content literal_start inner)
  end.

(** crates/parsa_python_cst/src/strings.rs:170-184 [union]. *)
Definition union (a b : python_string) : python_string :=
  match a, b with
  | (Ref start s1 | Owned start s1), (Ref _ s2 | Owned _ s2) => Owned start (s1 ++ s2)
  | _, _ => FString
  end.
(** crates/parsa_python_cst/src/strings.rs:18-27 [new]: there is at least one literal. *)
Fixpoint new_loop (result : python_string) (strings : list (option (nat * text))) : res python_string :=
  match strings with
  | [] => Ok result
  | l :: r => bind (from_literal l) (fun s => new_loop (union result s) r)
  end.
Definition new (strings : list (option (nat * text))) : res python_string :=
  match strings with [] => Panic | l :: r => bind (from_literal l) (fun s => new_loop s r) end.
(** crates/parsa_python_cst/src/strings.rs:186-192 [as_str]. *)
Definition as_str (s : python_string) : option text := match s with Ref _ s | Owned _ s => Some s | FString => None end.

(** The [match] of crates/parsa_python_cst/src/bytes.rs:26-58: what is pushed, the iterator, and how much [previous_insert] grows. *)
Definition escape_bytes (ch : N) (rest : list N) : list N * list N * nat :=
  match simple_escape ch with
  | Some c => ([c], rest, 0%nat)
  | None =>
      if ch =? 10 then ([], rest, 0%nat)
      else if ch =? 120 then let (c, rest) := parse_hex 2 rest in match c with Some c => ([c], rest, 2%nat) | None => ([], rest, 0%nat) end
      else match parse_python_octal (ch :: rest) with
           | Some (len, octal) => ([octal mod 256], skipn (len - 1) rest, (len - 1)%nat)
           | None => ([92; ch], rest, 0%nat)
           end
  end.
Definition slice_bytes (t : list N) (a b : nat) : option (list N) := if (b <? a)%nat || (length t <? b)%nat then None else Some (firstn (b - a) (skipn a t)).
(** The loop of crates/parsa_python_cst/src/bytes.rs:7-66 [parse_python_bytes_literal]. *)
Fixpoint bytes_loop (fuel : nat) (inner rest : list N) (out : option (list N)) (previous_insert : nat) : res (option (list N) * nat) :=
  match fuel, rest with
  | _, [] => Ok (out, previous_insert)
  | O, _ => Err
  | S fuel, ch :: rest1 =>
      let i := (length inner - length rest)%nat in
      if ch =? 92 then
        bind (or_panic (slice_bytes inner previous_insert i)) (fun sl =>
        match rest1 with
        | [] => Panic
        | ch2 :: rest2 =>
            let '(pushed, rest3, more) := escape_bytes ch2 rest2 in
            bytes_loop fuel inner rest3 (Some ((match out with Some s => s | None => [] end) ++ sl ++ pushed)) (i + 2 + more)%nat
        end)
      else bytes_loop fuel inner rest1 out previous_insert
  end.
Definition bytes_content (inner : list N) : res (list N) :=
  bind (bytes_loop (length inner) inner inner None 0) (fun '(out, previous_insert) =>
  match out with
  | Some s => bind (or_panic (slice_bytes inner previous_insert (length inner))) (fun tail => Ok (s ++ tail))
  | None => Ok inner
  end).
Definition parse_python_bytes_literal (code : text) : res (list N) :=
  bind (unpack_string_or_bytes_content code) (fun '(inner, _, had_raw_modifier) =>
  if had_raw_modifier then Ok (as_bytes inner) else bytes_content (as_bytes inner)).
