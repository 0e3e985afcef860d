(** The value of a literal according to the Python language reference (section 2.4.1, string and bytes literals). *)
From Coq Require Import List NArith Arith Bool.
Import ListNotations.
Open Scope N_scope.

(** Line ends are translated before anything else. *)
Fixpoint universal_newlines (t : list N) : list N :=
  match t with
  | [] => []
  | 13 :: 10 :: r => 10 :: universal_newlines r
  | 13 :: r => 10 :: universal_newlines r
  | c :: r => c :: universal_newlines r
  end.

Definition octal_digit (c : N) : Prop := 48 <= c <= 55.
Inductive hex_digit : N -> N -> Prop :=
| hex_09 c : 48 <= c <= 57 -> hex_digit c (c - 48)
| hex_af c : 97 <= c <= 102 -> hex_digit c (c - 87)
| hex_AF c : 65 <= c <= 70 -> hex_digit c (c - 55).

(** A number in base [b], most significant digit first. *)
Definition number (b : N) (digits : list N) : N := fold_left (fun a d => a * b + d) digits 0.

(** The table of escape sequences with one letter. *)
Inductive letter_escape : N -> N -> Prop :=
| esc_backslash : letter_escape 92 92 | esc_single : letter_escape 39 39 | esc_double : letter_escape 34 34
| esc_a : letter_escape 97 7 | esc_b : letter_escape 98 8 | esc_f : letter_escape 102 12 | esc_n : letter_escape 110 10
| esc_r : letter_escape 114 13 | esc_t : letter_escape 116 9 | esc_v : letter_escape 118 11.

(** The escapes with hexadecimal digits, and how many: [x], [u], [U]. *)
Inductive hex_letter : N -> nat -> Prop := hex_x : hex_letter 120 2 | hex_u : hex_letter 117 4 | hex_U : hex_letter 85 8.

(** The value of the content of a string literal that is not raw, after the translation of line ends.  [\N{...}] has no value here. *)
Inductive string_value : list N -> list N -> Prop :=
| sv_nil : string_value [] []
| sv_char c r v : c <> 92 -> string_value r v -> string_value (c :: r) (c :: v)
| sv_line_end r v : string_value r v -> string_value (92 :: 10 :: r) v
| sv_letter c e r v : letter_escape c e -> string_value r v -> string_value (92 :: c :: r) (e :: v)
| sv_hex c n ds vs r v : hex_letter c n -> length ds = n -> Forall2 hex_digit ds vs -> number 16 vs < 1114112 ->
    string_value r v -> string_value (92 :: c :: ds ++ r) (number 16 vs :: v)
| sv_octal ds r v : Forall octal_digit ds -> (1 <= length ds <= 3)%nat ->
    (length ds = 3%nat \/ (forall c r', r = c :: r' -> ~ octal_digit c)) ->
    string_value r v -> string_value (92 :: ds ++ r) (number 8 (map (fun c => c - 48) ds) :: v)
| sv_other c r v : c <> 10 -> (forall e, ~ letter_escape c e) -> (forall n, ~ hex_letter c n) -> ~ octal_digit c -> c <> 78 ->
    string_value r v -> string_value (92 :: c :: r) (92 :: c :: v).

(** The value of the content of a bytes literal that is not raw. *)
Inductive bytes_value : list N -> list N -> Prop :=
| bv_nil : bytes_value [] []
| bv_char c r v : c <> 92 -> bytes_value r v -> bytes_value (c :: r) (c :: v)
| bv_line_end r v : bytes_value r v -> bytes_value (92 :: 10 :: r) v
| bv_letter c e r v : letter_escape c e -> bytes_value r v -> bytes_value (92 :: c :: r) (e :: v)
| bv_hex ds vs r v : length ds = 2%nat -> Forall2 hex_digit ds vs -> bytes_value r v -> bytes_value (92 :: 120 :: ds ++ r) (number 16 vs :: v)
| bv_octal ds r v : Forall octal_digit ds -> (1 <= length ds <= 3)%nat ->
    (length ds = 3%nat \/ (forall c r', r = c :: r' -> ~ octal_digit c)) ->
    bytes_value r v -> bytes_value (92 :: ds ++ r) (number 8 (map (fun c => c - 48) ds) mod 256 :: v)
| bv_other c r v : c <> 10 -> (forall e, ~ letter_escape c e) -> c <> 120 -> ~ octal_digit c -> bytes_value r v -> bytes_value (92 :: c :: r) (92 :: c :: v).

(** A string literal: a prefix, one or three quotes, the content, and the quotes again.  The content does not begin with the quote (if
    there is one quote, any quote in it is escaped). *)
Inductive prefix_letter : N -> bool -> Prop :=
| prefix_raw c : c = 114 \/ c = 82 -> prefix_letter c true
| prefix_other c : c = 98 \/ c = 66 \/ c = 117 \/ c = 85 -> prefix_letter c false.
Inductive literal_code : list N -> bool -> list N -> Prop :=
| one_quote prefix raws q content : Forall2 prefix_letter prefix raws -> q = 39 \/ q = 34 -> (forall c r, content = c :: r -> c <> q) ->
    literal_code (prefix ++ q :: content ++ [q]) (existsb (fun b => b) raws) content
| three_quotes prefix raws q content : Forall2 prefix_letter prefix raws -> q = 39 \/ q = 34 ->
    literal_code (prefix ++ [q; q; q] ++ content ++ [q; q; q]) (existsb (fun b => b) raws) content.

(** What the literal evaluates to. *)
Definition python_value (code v : list N) : Prop :=
  exists raw content, literal_code code raw content /\
    if raw then v = universal_newlines content else string_value (universal_newlines content) v.
Definition python_bytes_value (code v : list N) : Prop :=
  exists raw content, literal_code code raw content /\
    if raw then v = universal_newlines content else bytes_value (universal_newlines content) v.

Definition is_scalar (c : N) : Prop := c < 55296 \/ (57343 < c /\ c < 1114112).
