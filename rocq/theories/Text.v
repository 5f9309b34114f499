(** Texts: [Display] of round ids (protocol/round_id.rs), descriptions of evidence (session/evidence.rs, session/echo.rs) and
    [brief] of reports (session/transcript.rs). *)
From Coq Require Import List NArith Bool String Ascii Decimal DecimalString.
From Verif Require Import Base BMap Errors RoundId Message Protocol Transcript Evidence.
Import ListNotations.
Set Implicit Arguments.
Local Open Scope string_scope.

(** A number in decimal ([u8: Display]). *)
Definition show_N (n : N) : string := NilZero.string_of_uint (N.to_uint n).
Definition newline : string := String (ascii_of_nat 10) "".

(** round_id.rs:22-34; the outermost group is the last one of the vector. *)
Definition show_rid (r : RoundId) : string :=
  "Round " ++ fold_right (fun g s => show_N g ++ "-" ++ s) (show_N (rid_round r) ++ (if rid_echo r then " (echo)" else ""))
                (List.rev (rid_groups r)).

(** [str::contains] *)
Fixpoint contains_text (s text : string) : bool :=
  (String.prefix text s || match s with "" => false | String _ s => contains_text s text end)%bool.

(** Texts that come from elsewhere: [ProtocolError::description] of the error with these bytes; what the format says about a
    message part that cannot be deserialized; [Debug] of verifiers, sets of them and results; [RemoteError]s. *)
Record Texts {P : Params} (R : Type) := mkTexts {
  tx_error : bytes -> string;
  tx_part : body -> string;
  tx_id : Verifier -> string;
  tx_ids : bset Verifier -> string;
  tx_result : R -> string;
  tx_remote : RemoteError -> string
}.

Section WithParams.
  Context {P : Params} {R : Type}.
  Variable tx : Texts R.

  (** The descriptions of session/evidence.rs:102, 133, 144, 157, 169, 181, with session/echo.rs:51-53, 95-97 and
      protocol/message.rs:233-262. The round of the message (evidence.rs:53) is that of each of its parts that the evidence
      contains. (In Rust the description is made together with the evidence and stored in it; the error is still there.) *)
  Definition describe (ev : Evidence) : string :=
    match ev_body ev with
    | EvProtocol e =>
        "Protocol error (Round " ++ show_N (match trigger_meta e with Some m => rid_round (m_round m) | None => 0%N end) ++ "): "
        ++ tx_error tx (pe_error e)
    | EvDirect p => "Direct message error: " ++ tx_part tx (sp_body p)
    | EvEcho p => "Echo broadcast error: " ++ tx_part tx (sp_body p)
    | EvNormal p => "Normal broadcast error: " ++ tx_part tx (sp_body p)
    | EvInvalidEcho _ _ => "Invalid message received among the ones echoed"
    | EvMismatched _ _ _ => "The echoed message is different from the originally received one"
    end.

  (** session/transcript.rs:212-221 *)
  Definition outcome_brief (o : SessionOutcome R) : string :=
    match o with
    | OResult x => "Success (" ++ tx_result tx x ++ ")"
    | ONotEnough => "Not enough messages to finalize, terminated"
    | OTerminated => "Terminated by the user"
    end.

  (** transcript.rs:258-295 *)
  Definition section (title : string) (lines : list string) : string :=
    match lines with [] => "" | _ => newline ++ title ++ newline ++ String.concat newline lines end.
  Definition brief (rep : Report R) : string :=
    "Result: " ++ outcome_brief (rep_outcome rep)
    ++ section "Provable errors:" (map (fun kv => "  " ++ tx_id tx (fst kv) ++ ": " ++ describe (snd kv)) (to_list (rep_provable rep)))
    ++ section "Unprovable errors:" (map (fun kv => "  " ++ tx_id tx (fst kv) ++ ": Remote error: " ++ tx_remote tx (snd kv)) (to_list (rep_unprovable rep)))
    ++ section "Missing messages:" (map (fun kv => "  " ++ show_rid (fst kv) ++ ": " ++ tx_ids tx (snd kv)) (to_list (rep_missing rep))).
End WithParams.

(** misbehave.rs:91 *)
Definition described_as {P : Params} {R : Type} (tx : Texts R) (text : string) (ev : Evidence) : bool := contains_text (describe tx ev) text.

(** The bytes of a string. *)
Definition text_bytes (s : string) : bytes := map N_of_ascii (list_ascii_of_string s).
