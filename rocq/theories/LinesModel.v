(** Model of [crates/zuban_python/src/lines.rs]: the newline index and the
    conversions between byte offsets and line/column positions.
    The non-Windows build is modelled ([cfg!(windows)] = false). *)
From Coq Require Import List NArith Arith Bool.
From Verif Require Import TextModel LinesSpec.
Import ListNotations.

(** lines.rs:9-11 and 25-33 ([NEWLINES] = [\n|\r\n|\r], [lines]): the end offsets of
    all matches, left to right.  [off] is the byte offset of [t] in the file. *)
Fixpoint newline_ends (off : nat) (t : text) {struct t} : list nat :=
  match t with
  | [] => []
  | c :: r =>
      if N.eqb c LF then (off + 1) :: newline_ends (off + 1) r
      else if N.eqb c CR then
        match r with
        | c' :: r' =>
            if N.eqb c' LF then (off + 2) :: newline_ends (off + 2) r'
            else (off + 1) :: newline_ends (off + 1) r
        | [] => (off + 1) :: newline_ends (off + 1) r
        end
      else newline_ends (off + utf8_len c) r
  end.

(** lines.rs:25-33 on an index that has not been initialised yet. *)
Definition compute_lines (code : text) : list nat := newline_ends 0 code.

(** lines.rs:17-33: [NewlineIndices(OnceLock<..>)].  [None] = not yet
    initialised.  [get_lines] returns the lines used and the new state. *)
Definition newline_indices := option (list nat).
Definition get_lines (idx : newline_indices) (code : text) : list nat :=
  match idx with Some l => l | None => compute_lines code end.

(** lib.rs [InputPosition] of zuban_python. *)
Inductive input_position :=
| NthUTF8Byte (pos : nat)
| Utf8Bytes (line column : nat)
| Utf16CodeUnits (line column : nat)
| CodePoints (line column : nat).

(** crates/zubanls/src/capabilities.rs:331-341 ([NegotiatedEncoding::input_position]);
    the three encodings are those of [LinesSpec.encoding]. *)
Definition input_of (enc : encoding) (l c : nat) : input_position :=
  match enc with
  | U8 => Utf8Bytes l c
  | U16 => Utf16CodeUnits l c
  | U32 => CodePoints l c
  end.

(** lines.rs:226-230. *)
Record byte_position_infos := mk_bpi { bpi_byte : nat; column_out_of_bounds : bool }.

(** lines.rs:52-77, closure [line_infos] (the error message is dropped). *)
Definition line_infos (lines : list nat) (code : text) (line : nat)
  : res (nat * text) :=
  match nth_error lines line with
  | None =>
      if length lines =? line then
        match lines with
        | [] => Ok (0, code)
        | _ =>
            match nth_error lines (line - 1) with
            | None => Panic
            | Some start =>
                bind (or_panic (drop_bytes code start)) (fun r => Ok (start, r))
            end
        end
      else Err
  | Some next_line_start =>
      let start_r :=
        if line =? 0 then Some 0 else nth_error lines (line - 1) in
      match start_r with
      | None => Panic
      | Some start =>
          bind (or_panic (slice code start (next_line_start - 1)))
               (fun l => Ok (start, l))
      end
  end.

(** lines.rs:203-219, the loop of [utf16_to_utf8_byte_offset].  [cnt] is
    [utf16_count], [idx] the current [utf8_idx], [n] [char_indices_counter]. *)
Fixpoint utf16_loop (s : text) (pos cnt idx n : nat) : res byte_position_infos :=
  match s with
  | [] => Ok (mk_bpi idx (n <? pos))
  | c :: r =>
      if cnt =? pos then Ok (mk_bpi idx false)
      else if pos <? cnt + utf16_len c then Err
      else utf16_loop r pos (cnt + utf16_len c) (idx + utf8_len c) (n + 1)
  end.

(** lines.rs:199-224. *)
Definition utf16_to_utf8_byte_offset (s : text) (pos : nat)
  : res byte_position_infos := utf16_loop s pos 0 0 0.

(** lines.rs:47-124. *)
Definition line_column_to_byte (idx : newline_indices) (code : text)
  (input : input_position) : res byte_position_infos :=
  let lines := get_lines idx code in
  match input with
  | NthUTF8Byte pos =>
      let byte := Nat.min pos (bytes code) in
      if is_char_boundary code byte
      then Ok (mk_bpi byte (byte <? pos)) else Err
  | Utf8Bytes line column =>
      bind (line_infos lines code line) (fun '(start, rest_line) =>
        let out_column := Nat.min column (bytes rest_line) in
        if is_char_boundary rest_line out_column
        then Ok (mk_bpi (start + out_column) (out_column <? column)) else Err)
  | Utf16CodeUnits line column =>
      bind (line_infos lines code line) (fun '(start, rest_line) =>
        bind (utf16_to_utf8_byte_offset rest_line column) (fun infos =>
          Ok (mk_bpi (bpi_byte infos + start) (column_out_of_bounds infos))))
  | CodePoints line column =>
      bind (line_infos lines code line) (fun '(start, rest_line) =>
        Ok (mk_bpi (start + bytes (firstn column rest_line))
                   (length (firstn column rest_line) <? column)))
  end.

(** lines.rs:35-45. *)
Definition line_column_to_safe_byte (idx : newline_indices) (code : text)
  (input : input_position) : res nat :=
  bind (line_column_to_byte idx code input) (fun pos =>
    if column_out_of_bounds pos then Err else Ok (bpi_byte pos)).

(** [slice::partition_point]: the index of the first element violating the
    predicate.  (The binary search of the standard library returns this index
    whenever the slice is partitioned, which holds for newline indices.) *)
Fixpoint partition_point {A} (f : A -> bool) (l : list A) : nat :=
  match l with
  | [] => 0
  | x :: r => if f x then S (partition_point f r) else 0
  end.

(** lines.rs:232-238; the borrowed [code] is passed separately. *)
Record position_infos := mk_pi {
  pi_line : nat; line_offset_in_code : nat; pi_byte_position : nat }.

(** lines.rs:164-180. *)
Definition position_infos_of (idx : newline_indices) (code : text) (byte : nat)
  : position_infos :=
  let lines := get_lines idx code in
  let line := partition_point (fun l => l <=? byte) lines in
  mk_pi line (if line =? 0 then 0 else nth (line - 1) lines 0) byte.

(** lines.rs:262-264. *)
Definition line_part (code : text) (p : position_infos) : option text :=
  slice code (line_offset_in_code p) (pi_byte_position p).

(** lines.rs:242-244. *)
Definition utf8_bytes_column (p : position_infos) : nat :=
  pi_byte_position p - line_offset_in_code p.
(** lines.rs:246-248. *)
Definition utf16_code_units_column (code : text) (p : position_infos) : res nat :=
  bind (or_panic (line_part code p)) (fun l => Ok (units16 l)).
(** lines.rs:250-252. *)
Definition code_points_column (code : text) (p : position_infos) : res nat :=
  bind (or_panic (line_part code p)) (fun l => Ok (length l)).

(** lines.rs:182-196. *)
Definition expand_range_to_full_lines (idx : newline_indices) (code : text)
  (range_start range_end : nat) : nat * nat :=
  let infos_start := position_infos_of idx code range_start in
  let infos_end := position_infos_of idx code range_end in
  let lines := get_lines idx code in
  let e := match nth_error lines (pi_line infos_end) with
           | Some e => e - 1
           | None => bytes code
           end in
  (line_offset_in_code infos_start, e).

(** lines.rs:139-161: the mapped iterator of [numbers_with_lines].
    [prev] is the captured variable [previous]. *)
Fixpoint map_lines (code : text) (prev : nat) (l : list (nat * nat))
  : res (list (nat * text)) :=
  match l with
  | [] => Ok []
  | (line_nr, line_index) :: r =>
      bind (or_panic (slice code prev (line_index - 1))) (fun s =>
      bind (map_lines code line_index r) (fun rest =>
      Ok ((line_nr, s) :: rest)))
  end.

(** lines.rs:126-162. *)
Definition numbers_with_lines (idx : newline_indices) (code : text)
  (skip_n_lines : nat) : res (list (nat * text)) :=
  let lines := get_lines idx code in
  let previous :=
    if skip_n_lines =? 0 then 0
    else match nth_error lines (skip_n_lines - 1) with
         | Some p => p
         | None => length lines
         end in
  let extra :=
    match rev lines with
    | last :: _ => if last =? bytes code then [] else [bytes code + 1]
    | [] => [bytes code + 1]
    end in
  let all := lines ++ extra in
  map_lines code previous (skipn skip_n_lines (combine (seq 0 (length all)) all)).
