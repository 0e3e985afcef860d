(** Model of the comments that suppress diagnostics (crates/parsa_python_cst/src/lib.rs, crates/zuban_python/src/diagnostics.rs) and of the quick fix that
    inserts one (crates/parsa_python_cst/src/code_actions.rs). *)
From Coq Require Import List NArith Arith Bool.
From Verif Require Import TextModel TreeModel.
Import ListNotations.
Open Scope N_scope.

(** Functions of [str]: [split], [strip_prefix], [strip_suffix], [trim_start_matches], [trim_end_matches], [find]. *)
Fixpoint split_by (f : char -> bool) (s : text) : list text :=
  match s with
  | [] => [[]]
  | x :: r =>
      if f x then [] :: split_by f r
      else match split_by f r with
           | [] => [[x]]
           | p :: ps => (x :: p) :: ps
           end
  end.
Fixpoint strip_prefix (p s : text) : option text :=
  match p, s with
  | [], _ => Some s
  | x :: p, y :: s => if x =? y then strip_prefix p s else None
  | _ :: _, [] => None
  end.
Fixpoint trim_start (f : char -> bool) (s : text) : text :=
  match s with
  | c :: r => if f c then trim_start f r else s
  | [] => []
  end.
Definition trim_end (f : char -> bool) (s : text) : text := rev (trim_start f (rev s)).
Definition strip_last (c : char) (s : text) : option text :=
  match rev s with x :: r => if x =? c then Some (rev r) else None | [] => None end.
Fixpoint find_char (f : char -> bool) (s : text) : option nat :=
  match s with
  | [] => None
  | c :: r => if f c then Some 0%nat else option_map (Nat.add (utf8_len c)) (find_char f r)
  end.
Definition is_newline (c : char) : bool := (c =? 10) || (c =? 13).
Definition is_space (c : char) : bool := c =? 32.
Definition is_ascii_whitespace (c : char) : bool := (c =? 32) || (c =? 9) || (c =? 10) || (c =? 12) || (c =? 13).

Definition TYPE_ : text := [116; 121; 112; 101; 58].
Definition ZUBAN_ : text := [122; 117; 98; 97; 110; 58].
Definition IGNORE : text := [105; 103; 110; 111; 114; 101].

(** [kind] is ["type"] or ["zuban"]. *)
Inductive kind := Type_ | Zuban.

(** crates/parsa_python_cst/src/lib.rs:464-472 [enum TypeIgnoreComment]. *)
Inductive type_ignore_comment :=
| WithCodes (codes : text) (kind_ : kind) (codes_start_at_index : nat) (codes_of_later_type_ignores : list text)
| WithoutCode.

(** crates/parsa_python_cst/src/lib.rs:479-505 [maybe_type_ignore]. *)
Definition maybe_type_ignore (k : kind) (start_at : nat) (t : text) : option type_ignore_comment :=
  match strip_prefix IGNORE t with
  | None => None
  | Some after =>
      let trimmed := trim_start is_space after in
      let start_at := (start_at + (bytes t - bytes trimmed))%nat in
      let trimmed := trim_end is_space trimmed in
      let with_codes :=
        match strip_prefix [91] trimmed with
        | None => None
        | Some trimmed =>
            match strip_last 93 trimmed with
            | None => None
            | Some [] => None
            | Some trimmed => Some (WithCodes trimmed k (start_at + 1) [])
            end
        end in
      match with_codes with
      | Some c => Some c
      | None =>
          match after with
          | [] => Some WithoutCode
          | c :: _ => if (c =? 32) || (c =? 9) then Some WithoutCode else None
          end
      end
  end.

(** The body of the loop over the comments, crates/parsa_python_cst/src/lib.rs:126-156: what a comment is. *)
Definition scan_comment (start_at : nat) (comment : text) : option type_ignore_comment :=
  let rest := trim_start is_space comment in
  let found k ignore :=
    let ignore := trim_start is_space ignore in
    maybe_type_ignore k (start_at + (bytes comment - bytes ignore)) ignore in
  match strip_prefix TYPE_ rest with
  | Some ignore => found Type_ ignore
  | None => match strip_prefix ZUBAN_ rest with Some ignore => found Zuban ignore | None => None end
  end.
(** crates/parsa_python_cst/src/lib.rs:137-153. *)
Definition combine_comments (old : option type_ignore_comment) (new : option type_ignore_comment) : option type_ignore_comment :=
  match old, new with
  | _, None => old
  | None, Some new => Some new
  | Some (WithCodes codes k i later), Some (WithCodes new_codes _ _ _) => Some (WithCodes codes k i (later ++ [new_codes]))
  | Some _, Some _ => Some WithoutCode
  end.
Fixpoint scan_comments (start_at : nat) (comments : list text) (result : option type_ignore_comment) : nat * option type_ignore_comment :=
  match comments with
  | [] => (start_at, result)
  | comment :: r => scan_comments (start_at + (bytes comment + 1)) r (combine_comments result (scan_comment start_at comment))
  end.
(** crates/parsa_python_cst/src/lib.rs:117-162 [type_ignore_comment_for_region]. *)
Fixpoint scan_lines (start_at : nat) (lines : list text) (result : option type_ignore_comment) : option type_ignore_comment :=
  match lines with
  | [] => result
  | line :: r =>
      match split_by (N.eqb 35) line with
      | [] => result
      | first :: comments =>
          let (start_at, result) := scan_comments (start_at + (bytes first + 1)) comments result in
          scan_lines (start_at + 1) r result
      end
  end.
Definition type_ignore_comment_for_region (start_at : nat) (region : text) : option type_ignore_comment :=
  scan_lines start_at (split_by is_newline region) None.

(** crates/parsa_python_cst/src/lib.rs:101-115 [type_ignore_comment_for]. *)
Definition type_ignore_comment_for (code : text) (start end_ : nat) : res (option type_ignore_comment) :=
  bind (or_panic (drop_bytes code end_)) (fun after =>
  bind (or_panic (match find_char is_newline after with Some newline => slice code start (end_ + newline) | None => drop_bytes code start end)) (fun relevant_region =>
  Ok (type_ignore_comment_for_region start relevant_region))).

(** crates/parsa_python_cst/src/lib.rs:164-170 [has_type_ignore_at_start]: the error codes are the error.  [before_first_statement] is the text. *)
Definition has_type_ignore_at_start (before_first_statement : text) : text + bool :=
  match type_ignore_comment_for_region 0 before_first_statement with
  | Some (WithCodes codes _ _ _) => inl codes
  | Some WithoutCode => inr true
  | None => inr false
  end.

Fixpoint text_eqb (a b : text) : bool :=
  match a, b with
  | [], [] => true
  | x :: a, y :: b => (x =? y) && text_eqb a b
  | _, _ => false
  end.

(** crates/zuban_python/src/diagnostics.rs:2422-2458 [is_ignored_and_return_non_covered_error_code], the first two parts of the result.  [e] and
    [super_] are [mypy_error_code] and [mypy_error_supercode] of the issue. *)
Definition is_ignored (e super_ : option text) (maybe_ignored : option type_ignore_comment) : bool * option text :=
  match maybe_ignored with
  | None => (false, None)
  | Some WithoutCode => (true, None)
  | Some (WithCodes codes _ _ codes_of_later_type_ignores) =>
      if existsb (fun code =>
           let code := trim_end is_space (trim_start is_space code) in
           match e with Some e => text_eqb e code | None => false end
           || match super_ with Some s => text_eqb s code | None => false end
           || match e with None => true | Some _ => false end)
         (flat_map (split_by (N.eqb 44)) (codes :: codes_of_later_type_ignores))
      then (true, None)
      else (false, e)
  end.

(** ** The quick fix *)

(** crates/parsa_python_cst/src/code_actions.rs:5-8 [struct TypeIgnoreInsertion]. *)
Record insertion := mk_insertion { insertion_index : nat; preexisting_type_ignore_kind : option kind }.

(** crates/parsa_python_cst/src/code_actions.rs:11-22 [format_for_kind]. *)
Definition kind_eqb (a b : kind) : bool := match a, b with Type_, Type_ | Zuban, Zuban => true | _, _ => false end.
Definition kind_text (k : kind) : text := match k with Type_ => [116; 121; 112; 101] | Zuban => [122; 117; 98; 97; 110] end.
Definition format_for_kind (i : insertion) (ignore_kind : kind) (error_code : text) : option text :=
  match preexisting_type_ignore_kind i with
  | Some k => if kind_eqb k ignore_kind then Some ([44; 32] ++ error_code) else None
  | None => Some ([32; 32; 35; 32] ++ kind_text ignore_kind ++ [58; 32] ++ IGNORE ++ [91] ++ error_code ++ [93])
  end.

(** The [while] loop of crates/parsa_python_cst/src/code_actions.rs:52-56.  [None]: out of fuel, or a leaf that does not exist. *)
Fixpoint last_leaf_of_line (fuel : nat) (nodes : list node) (last_valid_position leaf : nat) : option node :=
  match fuel with
  | O => None
  | S fuel =>
      match next_leaf nodes leaf with
      | None => nth_error nodes leaf
      | Some next =>
          match nth_error nodes next with
          | None => None
          | Some n => if (start_index n <? last_valid_position)%nat then last_leaf_of_line fuel nodes last_valid_position next else nth_error nodes leaf
          end
      end
  end.

(** crates/parsa_python_cst/src/code_actions.rs:27-68 [insertion_point_for_type_ignore]. *)
Definition insertion_point_for_type_ignore (code : text) (nodes : list node) (position : nat) : res (option insertion) :=
  bind (type_ignore_comment_for code position position) (fun comment =>
  match comment with
  | Some (WithCodes codes k codes_start_at_index _) =>
      Ok (Some (mk_insertion (codes_start_at_index + bytes (trim_end is_ascii_whitespace codes)) (Some k)))
  | Some WithoutCode => Ok None
  | None =>
      bind (or_panic (drop_bytes code position)) (fun line =>
      bind (match find_char is_newline line with
            | Some line_end =>
                bind (or_panic (take_bytes line line_end)) (fun line =>
                Ok (match strip_last 92 line with Some _ => None | None => Some line end))
            | None => Ok (Some line)
            end) (fun line =>
      match line with
      | None => Ok None
      | Some line =>
          let last_valid_position := (position + bytes line)%nat in
          bind (or_panic (leaf_by_position nodes position)) (fun leaf =>
          bind (or_panic (last_leaf_of_line (S (length nodes)) nodes last_valid_position leaf)) (fun leaf =>
          if (last_valid_position <? end_ leaf)%nat then Ok None
          else Ok (Some (mk_insertion (end_ leaf) None))))
      end))
  end).

(** crates/zuban_python/src/code_actions.rs:66-80: the code after the edit; [None]: it is not offered for this kind. *)
Definition fixed_code (code : text) (i : insertion) (k : kind) (error_code : text) : res (option text) :=
  match format_for_kind i k error_code with
  | None => Ok None
  | Some replacement => bind (or_panic (replace_range code (insertion_index i) (insertion_index i) replacement)) (fun c => Ok (Some c))
  end.
