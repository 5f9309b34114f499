(** manul/src/dev/misbehave.rs: checking the evidence against a misbehaving party. *)
From Coq Require Import List NArith Bool.
From Verif Require Import Base BMap Errors RoundId Message Protocol Transcript Evidence Session Typed Extend Network RunSync.
Import ListNotations.
Set Implicit Arguments.

(** The [LocalError]s constructed in this file, and those of [run_sync]. *)
Inductive CheckError (V : Type) : Type :=
| CE_NoEntryPoints        (* misbehave.rs:30 *)
| CE_NoReport             (* misbehave.rs:60 *)
| CE_NothingReported (v : V)  (* misbehave.rs:65 *)
| CE_TooMuchReported (v : V)  (* misbehave.rs:77 *)
| CE_OtherReported (v : V)    (* misbehave.rs:87, 104 *)
| CE_Description (v : V)      (* misbehave.rs:94 *)
| CE_Unverified (v : V)       (* misbehave.rs:111 *)
| CE_Run (e : LocalError).    (* line 134 *)
Arguments CE_NoEntryPoints {V}.
Arguments CE_NoReport {V}.
Arguments CE_Run {V} e.

Section WithParams.
  Context {P : Params}.

  (** [pop] from the end of a [Vec]. *)
  Definition pop_last {A} (l : list A) : option (list A * A) :=
    match rev l with [] => None | x :: l => Some (rev l, x) end.

  (** misbehave.rs:18-41 *)
  Definition extend_one {T : TProto} (entry_points : list (Signer * EntryPoint (wrap T))) (extend : Extendable T -> Extendable T)
    : res (CheckError Verifier) (Verifier * list (Signer * Extendable T)) :=
    let* (rest, (signer, ep)) := ok_or (pop_last entry_points) CE_NoEntryPoints in
    Ok (signer_key signer,
        map (fun p => (fst p, extendable_new (snd p))) rest ++ [(signer, extend (extendable_new ep))]).

  Context {Pr : Proto}.

  (** The body of the loop, misbehave.rs:62-113. [describes ev]: the description of [ev] contains the expected text. *)
  Definition check_report (describes : Evidence -> bool) (target : Verifier) (sd : Shared Pr) (kv : Verifier * Report (Rslt Pr))
    : res (CheckError Verifier) unit :=
    let '(id, report) := kv in
    if is_empty (rep_provable report) then Err (CE_NothingReported id) else
    if Nat.ltb 1 (length (to_list (rep_provable report))) then Err (CE_TooMuchReported id) else
    let* ev := ok_or (get target (rep_provable report)) (CE_OtherReported id) in
    if negb (describes ev) then Err (CE_Description id) else
    match verify_evidence Pr ev sd with
    | Ok tt => Ok tt
    | Err _ => Err (CE_Unverified id)
    | Panic => Panic
    end.

  (** misbehave.rs:45-116; the [assert!] of line 61 panics. *)
  Definition check_evidence (describes : Evidence -> bool) (target : Verifier) (reports : bmap Verifier (Report (Rslt Pr))) (sd : Shared Pr)
    : res (CheckError Verifier) unit :=
    let* mine := ok_or (get target reports) CE_NoReport in
    if negb (is_empty (rep_provable mine)) then Panic else
    fold_res (fun _ kv => check_report describes target sd kv) tt (to_list (remove target reports)).
End WithParams.

(** misbehave.rs:122-138; [fuel] is that of [run_sync]. *)
Definition check_evidence_with_extensions {P : Params} {T : TProto} (fuel : nat) (r : NetRng) (picks : nat -> nat) (sid : bytes)
    (entry_points : list (Signer * EntryPoint (wrap T))) (sd : TShared T) (extend : Extendable T -> Extendable T)
    (describes : Evidence -> bool) : option (res (CheckError Verifier) unit) :=
  match extend_one entry_points extend with
  | Ok (id, modified) =>
      match run_sync (Pr := extended T) fuel r picks sid (map (fun p => (fst p, extendable_entry (snd p))) modified) with
      | None => None
      | Some (Ok reports) => Some (check_evidence (Pr := extended T) describes id reports sd)
      | Some (Err e) => Some (Err (CE_Run e))
      | Some Panic => Some Panic
      end
  | Err e => Some (Err e)
  | Panic => Some Panic
  end.

(** misbehave.rs:142-158 *)
Definition check_evidence_with_extension {P : Params} {T : TProto} (fuel : nat) (r : NetRng) (picks : nat -> nat) (sid : bytes)
    (entry_points : list (Signer * EntryPoint (wrap T))) (sd : TShared T) (k : TK T) (e : Ext T k)
    (describes : Evidence -> bool) : option (res (CheckError Verifier) unit) :=
  check_evidence_with_extensions fuel r picks sid entry_points sd (fun xp => with_extension xp e) describes.
