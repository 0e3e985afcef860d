(** Model of the verification of licenses: crates/licensing/src/lib.rs. *)
From Coq Require Import List NArith.
Import ListNotations.
Open Scope N_scope.

(** UTF-8 bytes. *)
Notation bytes := (list N) (only parsing).

(** crates/licensing/src/lib.rs:68-71 [enum LicenseLevel]. *)
Inductive level := NoLicense | Standard.

(** crates/licensing/src/lib.rs:55-65 [struct License]. *)
Record license := mk_license {
  name : bytes; email : bytes; company : bytes; valid_from : N; valid_until : N; license_version : N; level_ : level;
  signature : bytes
}.

(** [u64::to_string]. *)
Fixpoint decimal_ (fuel : nat) (n : N) (after : bytes) : bytes :=
  let after := 48 + n mod 10 :: after in
  match fuel with
  | O => after
  | S fuel => if n <? 10 then after else decimal_ fuel (n / 10) after
  end.
Definition decimal (n : N) : bytes := decimal_ (N.size_nat n) n [].

(** [serde_json::to_string]: the name of the variant in quotes. *)
Definition level_json (l : level) : bytes :=
  match l with
  | NoLicense => [34; 78; 111; 76; 105; 99; 101; 110; 115; 101; 34]
  | Standard => [34; 83; 116; 97; 110; 100; 97; 114; 100; 34]
  end.

(** crates/licensing/src/lib.rs:95-109 [to_bytes_message]. *)
Definition to_bytes_message (l : license) : bytes :=
  name l ++ email l ++ company l ++ decimal (valid_from l) ++ decimal (valid_until l) ++ decimal (license_version l) ++ level_json (level_ l).

Inductive result (A : Type) := Ok (a : A) | Err (message : nat).
Arguments Ok {A}. Arguments Err {A}.
Definition invalid_format : nat := 0.
Definition not_yet_valid : nat := 1.
Definition expired : nat := 2.
Definition invalid_signature : nat := 3.

(** Ed25519 (the crate ed25519_dalek): the keys, [Signature::from_str] and [VerifyingKey::verify_strict]; the built-in keys are
    taken to be valid ones. *)
Section Signatures.
Context {key sig : Type}.
Variable parse_signature : bytes -> option sig.
Variable verify_strict : key -> bytes -> sig -> bool.

(** crates/licensing/src/lib.rs:122-148 [verify_with_keys]; [current_time] in seconds since 1970. *)
Fixpoint verify_with_keys (l : license) (current_time : N) (public_keys : list key) : result bool :=
  match public_keys with
  | [] => Ok false
  | public_key :: r =>
      match parse_signature (signature l) with
      | None => Err invalid_format
      | Some wanted_signature =>
          if verify_strict public_key (to_bytes_message l) wanted_signature
          then
            if current_time <? valid_from l then Err not_yet_valid
            else if valid_until l <? current_time then Err expired
            else Ok true
          else verify_with_keys l current_time r
      end
  end.

(** crates/licensing/src/lib.rs:173-181 [verify_license_in_path], for the contents of the file. *)
Definition verify_license (l : license) (current_time : N) (public_keys : list key) : result level :=
  match verify_with_keys l current_time public_keys with
  | Err e => Err e
  | Ok false => Err invalid_signature
  | Ok true => Ok (level_ l)
  end.
End Signatures.
