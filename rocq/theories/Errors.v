(** Error values. In Rust [LocalError] and [RemoteError] wrap a message string (manul/src/protocol/errors.rs);
    the model has one constructor per construction site instead of the text. *)
From Coq Require Import NArith.
From Verif Require Import Base.
Set Implicit Arguments.

(** [LocalError] (manul/src/protocol/errors.rs). *)
Inductive LocalError : Type :=
| LE_NotInGroup            (* protocol/round_id.rs:71 *)
| LE_AlreadyEcho           (* protocol/round_id.rs:94 *)
| LE_AlreadyNonEcho        (* protocol/round_id.rs:109 *)
| LE_Serialize             (* WireFormat::serialize failed *)
| LE_Sign                  (* session/message.rs:152 *)
| LE_PayloadDowncast       (* protocol/dyn_round.rs:42-47 *)
| LE_ArtifactDowncast      (* protocol/dyn_round.rs:62-67 *)
| LE_NotImplemented       (* protocol/round.rs:157-169, 188-196, 212-220 *)
| LE_NotTyped              (* protocol/dyn_round.rs as_typed / into_typed on a dynamic object *)
| LE_BadTransition         (* session/session.rs:513-515 *)
| LE_DupArtifact           (* session/session.rs:654-666 *)
| LE_DupUnprovable         (* session/session.rs:621-629 *)
| LE_DupProvable           (* session/session.rs:631-639 *)
| LE_DupProcessing         (* session/session.rs:641-650 *)
| LE_DupPayload            (* session/session.rs:674-679 *)
| LE_NotExpected           (* session/session.rs:683-687 *)
| LE_DupCached             (* session/session.rs:749-759 *)
| LE_TrEcho                (* session/transcript.rs:61-65 *)
| LE_TrNormal              (* session/transcript.rs:71-75 *)
| LE_TrDirect              (* session/transcript.rs:81-85 *)
| LE_TrProvable            (* session/transcript.rs:90-94 *)
| LE_TrUnprovable          (* session/transcript.rs:99-103 *)
| LE_TrMissing             (* session/transcript.rs:113-117 *)
| LE_NoEchoRound           (* session/transcript.rs:135-140 *)
| LE_NoNormalRound         (* session/transcript.rs:148-153 *)
| LE_NoDirectRound         (* session/transcript.rs:161-166 *)
| LE_NoEchos               (* session/transcript.rs:180, 192 *)
| LE_OwnEchoMissing        (* session/echo.rs:256-261 *)
| LE_BadGroup              (* combinators/chain.rs: unexpected group number *)
| LE_Channel               (* session/tokio.rs: channel closed *)
| LE_Join                  (* session/tokio.rs:347, 353: a task panicked *)
| LE_Protocol (n : N).     (* raised by the protocol implementation *)

(** [RemoteError] (manul/src/protocol/errors.rs). *)
Inductive RemoteError : Type :=
| RE_Banned                (* session/session.rs:310 *)
| RE_Metadata              (* session/session.rs:316 *)
| RE_SessionId             (* session/session.rs:325 *)
| RE_DupThisRound          (* session/session.rs:342 *)
| RE_DupCached             (* session/session.rs:350 *)
| RE_WrongRound            (* session/session.rs:357 *)
| RE_SigFormat             (* session/session.rs:367-372 *)
| RE_BadSignature          (* session/session.rs:373-378 *)
| RE_EchoMissing           (* session/echo.rs:297-301 *)
| RE_EchoExtra             (* session/echo.rs:303-308 *)
| RE_Protocol (n : N).     (* raised by the protocol implementation *)

(** [EvidenceError] (manul/src/protocol/evidence.rs:386). *)
Inductive EvidenceError : Type :=
| EE_Local (e : LocalError)
| EE_Invalid.              (* InvalidEvidence(description) *)

(** [MessageVerificationError] (manul/src/session/message.rs:39-45). *)
Inductive MVErr : Type :=
| MV_Local (e : LocalError)
| MV_InvalidSignature
| MV_SignatureMismatch.

(** manul/src/session/message.rs:50-60 *)
Definition into_evidence_error (e : MVErr) : EvidenceError :=
  match e with
  | MV_Local e => EE_Local e
  | MV_InvalidSignature => EE_Invalid
  | MV_SignatureMismatch => EE_Invalid
  end.
