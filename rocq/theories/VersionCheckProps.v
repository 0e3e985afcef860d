(** C64: conditions on the version and the platform are decided as Python decides them. *)
From Coq Require Import NArith Bool Ascii String List Lia.
From Verif Require Import VersionCheckModel VersionCheckSpec VersionCheck.
Import ListNotations.
Open Scope string_scope.
Open Scope N_scope.

(** If a condition is taken to be true (false), Python finds it true (false), in every run that the settings describe *)
Theorem C64_sound : forall py s e t v,
  described py s -> careful e -> reachable s e = Some t -> eval py e = Some v ->
  match t with TTrue _ => truth py v = Some true | TFalse => truth py v = Some false | TUnknown => True end.
Proof. intros py s e t v Hd Hc Ht Hv. exact (reachable_right py s Hd e t v Hc Ht Hv). Qed.

(** The block of an if statement that is run is one whose names are bound *)
Theorem C64_if_reached : forall py s conditions els blocks taken,
  described py s -> Forall careful conditions -> index_if_stmt s conditions els 0 = Some blocks ->
  runs py conditions els 0 = Some (Some taken) -> In taken blocks.
Proof. intros py s conditions els blocks taken Hd Hc Hb Hr. exact (if_right py s Hd conditions els 0 blocks taken Hc Hb Hr). Qed.

(** ... and the only one, if the conditions are of the kinds that are understood *)
Theorem C64_if_only : forall py s conditions els blocks taken,
  described py s -> Forall careful conditions -> Forall (understood s) conditions -> index_if_stmt s conditions els 0 = Some blocks ->
  runs py conditions els 0 = Some taken -> blocks = match taken with Some j => [j] | None => [] end.
Proof.
  intros py s conditions els blocks taken Hd Hc Hu Hb Hr. refine (if_only py s Hd conditions els 0 blocks taken Hc _ Hb Hr).
  apply Forall_forall. intros e He. destruct (decided s e (proj1 (Forall_forall _ _) Hu e He)) as (t & -> & Ht). congruence.
Qed.

(** The usual conditions are decided *)
Theorem C64_decided : forall s e, understood s e -> exists t, reachable s e = Some t /\ t <> TUnknown.
Proof. exact decided. Qed.

(** One operand is enough to decide [or] and [and], whatever the other one is *)
Theorem C64_one_operand : forall s a b t, in_range b -> reachable s a = Some t ->
  match t with
  | TTrue _ => (exists c, reachable s (Or a b) = Some (TTrue c)) /\ (exists c, reachable s (Or b a) = Some (TTrue c))
  | TFalse => reachable s (And a b) = Some TFalse /\ reachable s (And b a) = Some TFalse
  | TUnknown => True
  end.
Proof.
  intros s a b t Hr Ha. pose proof (no_crash s b Hr) as Hb. cbn [reachable]. rewrite Ha.
  destruct (reachable s b) as [y|]; [|easy]. destruct t as [c| |]; [|now destruct y|exact Logic.I].
  split; destruct y; eexists; reflexivity.
Qed.

(** No crash without huge numbers *)
Theorem C64_no_crash : forall s e, in_range e -> reachable s e <> None.
Proof. exact no_crash. Qed.

(** ** Instances *)
(** Python 3.12.4 on linux *)
Definition py312 : settings := mk_settings 3 12 "linux" ["ALWAYS"] ["NEVER"].
Definition run : python :=
  mk_python
    (fun n => if String.eqb n "sys" then Some (VObject 0) else if String.eqb n "typing" then Some (VObject 1)
      else if contains ["MYPY"; "TYPE_CHECKING"; "PY3"; "ALWAYS"] n then Some (VBool true) else if contains ["PY2"; "NEVER"] n then Some (VBool false) else None)
    (fun v n => match v with
      | VObject 0 => if String.eqb n "version_info" then Some (VTuple [VInt 3; VInt 12; VInt 4; VStr "final"; VInt 0])
                     else if String.eqb n "platform" then Some (VStr "linux") else None
      | VObject 1 => if String.eqb n "TYPE_CHECKING" then Some (VBool true) else None
      | _ => None end)
    (fun _ _ => None) (fun _ _ _ _ => None) (fun _ _ => None) (fun _ => Some true) (fun _ _ => false) (fun _ _ _ => None) (fun _ => None).

Lemma run_described : described run py312.
Proof.
  constructor.
  - exists (VObject 0), 4, "final", 0. repeat split; reflexivity.
  - intros n v H. cbn in H. destruct H as [<-|[<-|[<-|[<-|[]]]]]; cbn; intros [= <-]; reflexivity.
  - intros n v H _. cbn in H. destruct H as [<-|[<-|[]]]; cbn; intros [= <-]; reflexivity.
  - intros m v. cbn. intros [= <-] [= <-]. reflexivity.
Qed.

Definition at_least_310 : expr := Compare sys_version Ge (Tuple [Int 3; Int 10]).
Definition on_windows : expr := Compare (Attribute (Name "sys") "platform") Eq (Str "win32").
Definition both_entries : expr := Compare (Slice sys_version None (Some (Int 2)) None) Eq (Tuple [Int 3; Int 12]).

(** [sys.version_info >= (3, 10) and not sys.platform == "win32"] and [sys.version_info[:2] == (3, 12)] *)
Example C64_premises :
  careful (And at_least_310 (Not on_windows)) /\ careful both_entries /\ understood py312 (And at_least_310 (Not on_windows)) /\
  reachable py312 (And at_least_310 (Not on_windows)) = Some (TTrue false) /\ eval run (And at_least_310 (Not on_windows)) = Some (VBool true) /\
  reachable py312 both_entries = Some (TTrue false) /\ eval run both_entries = Some (VBool true) /\ in_range both_entries.
Proof.
  assert (Hno : forall (P : Prop) a n e, version_part e a n -> (e = Tuple [Int 3; Int 10] \/ e = Tuple [Int 3; Int 12] \/ e = Str "win32" \/
     e = Attribute (Name "sys") "platform") -> P).
  { intros P a n e H H'. destruct H, H' as [H'|[H'|[H'|H']]]; discriminate. }
  repeat apply conj; try reflexivity; try (cbn; tauto).
  - constructor.
    + intros a n es Hp [= <-]. inversion Hp; subst. right. split; [right; reflexivity|cbn; lia].
    + intros a n es Hp _. apply (Hno _ _ _ _ Hp). tauto.
    + intros i n H. discriminate.
    + intros e e' f g h [[H _]|[H _]]; discriminate.
  - constructor.
    + intros a n es Hp _. apply (Hno _ _ _ _ Hp). tauto.
    + intros a n es Hp _. apply (Hno _ _ _ _ Hp). tauto.
    + intros i n H. discriminate.
    + intros e e' f g h [[H _]|[H _]]; discriminate.
  - constructor.
    + intros a n es Hp [= <-]. inversion Hp; subst. left. reflexivity.
    + intros a n es Hp _. apply (Hno _ _ _ _ Hp). tauto.
    + intros i n H. discriminate.
    + intros e e' f g h [[H _]|[H _]]; [injection H as _ _ <- _|discriminate]. intros _. right. exists 2. reflexivity.
  - right. split; [reflexivity|]. split; [reflexivity|]. exists [3; 10]. split; [reflexivity|]. split; [cbn; lia|]. repeat constructor.
  - left. split; [reflexivity|]. split; [left; reflexivity|]. exists "win32". reflexivity.
  - intros [(e & a & g & es & H & _)|(es & [= <-] & H)]; [discriminate|cbn in H; lia].
  - intros [(e & a & g & es & H & _)|(es & H & _)]; discriminate.
Qed.

Example C64_if_instance :
  index_if_stmt py312 [on_windows; at_least_310; Name "debug"] true 0 = Some [1%nat] /\ runs run [on_windows; at_least_310; Name "debug"] true 0 = Some (Some 1%nat) /\
  index_if_stmt py312 [on_windows; Name "debug"; at_least_310] true 0 = Some [1%nat; 2%nat].
Proof. repeat split; reflexivity. Qed.

(** ** Where it is wrong *)
(** [(3, 8) <= sys.version_info]: the operator is not turned around, the block that is run is dropped *)
Definition turned : expr := Compare (Tuple [Int 3; Int 8]) Le sys_version.
Theorem C64_turned_refuted : described run py312 /\ reachable py312 turned = Some TFalse /\ eval run turned = Some (VBool true) /\
  index_if_stmt py312 [turned] true 0 = Some [1%nat] /\ runs run [turned] true 0 = Some (Some 0%nat).
Proof. split; [exact run_described|]. repeat split; reflexivity. Qed.

Example ex_one_operand : reachable py312 (Or (Name "TYPE_CHECKING") (Name "whatever")) = Some (TTrue true)
  /\ reachable py312 (And (Name "whatever") (Name "PY2")) = Some TFalse.
Proof. split; reflexivity. Qed.

(** [2 < sys.version_info[0]] *)
Theorem C64_turned_index_refuted : exists e, described run py312 /\ reachable py312 e = Some TFalse /\ eval run e = Some (VBool true).
Proof. exists (Compare (Int 2) Lt (Index sys_version (Int 0))). split; [exact run_described|]. split; reflexivity. Qed.

(** [sys.version_info == (3, 12)], [> (3, 12)] and [<= (3, 12)]: the version has five entries *)
Theorem C64_equal_refuted : forall op, op = Eq \/ op = Le ->
  reachable py312 (Compare sys_version op (Tuple [Int 3; Int 12])) = Some (TTrue false) /\
  eval run (Compare sys_version op (Tuple [Int 3; Int 12])) = Some (VBool false).
Proof. intros op [-> | ->]; split; reflexivity. Qed.
Theorem C64_greater_refuted : forall op, op = Ne \/ op = Gt ->
  reachable py312 (Compare sys_version op (Tuple [Int 3; Int 12])) = Some TFalse /\
  eval run (Compare sys_version op (Tuple [Int 3; Int 12])) = Some (VBool true).
Proof. intros op [-> | ->]; split; reflexivity. Qed.

(** [sys.version_info[:1] >= (3, 10)]: where the slice ends is not looked at *)
Theorem C64_slice_end_refuted : exists e, reachable py312 e = Some (TTrue false) /\ eval run e = Some (VBool false).
Proof. exists (Compare (Slice sys_version None (Some (Int 1)) None) Ge (Tuple [Int 3; Int 10])). split; reflexivity. Qed.

(** [sys.version_info[18446744073709551615:] >= (1,)]: the index that is computed is out of range *)
Theorem C64_crash_refuted : forall s, reachable s (Compare (Slice sys_version (Some (Int 18446744073709551615)) None None) Ge (Tuple [Int 1])) = None.
Proof. reflexivity. Qed.

Print Assumptions C64_sound.
Print Assumptions C64_if_reached.
Print Assumptions C64_if_only.
Print Assumptions C64_decided.
Print Assumptions C64_no_crash.
Print Assumptions C64_one_operand.
Print Assumptions C64_turned_refuted.
Print Assumptions C64_turned_index_refuted.
Print Assumptions C64_equal_refuted.
Print Assumptions C64_greater_refuted.
Print Assumptions C64_slice_end_refuted.
Print Assumptions C64_crash_refuted.
