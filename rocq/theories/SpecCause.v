(** Vocabulary of the properties about why errors are noted. No proofs here. *)
From Coq Require Import List NArith Bool.
From Verif Require Import Base BMap Errors RoundId Message Protocol Transcript Evidence Session Spec.
Import ListNotations.
Set Implicit Arguments.

Section WithParams.
  Context {P : Params}.
  Context {Pr : Proto}.

  (** In the history [es] of session [s], leading to [d], the message [vm] was processed in state [d1], and the round of that
      time answered [r]. *)
  Definition answered (s : Session Pr) (es : list (event Pr)) (d : DState Pr) (vm : VMessage) (d1 : DState Pr) (r : res RecvErr (SPayload Pr)) : Prop :=
    exists es1 es2 d2, es = es1 ++ EProc vm :: es2 /\ run (start s) es1 d1 /\ step d1 (EProc vm) d2 /\ run d2 es2 d /\
      rd_receive (s_round (d_s d1)) (vm_from vm)
        (mkDynMsg (sp_body (vm_echo vm)) (sp_body (vm_normal vm)) (sp_body (vm_direct vm))) = r.

  (** The answers that lead to evidence, and the evidence. (That of errors defined by a protocol contains more messages; see C25.) *)
  Definition provable (e : RecvErr) : Prop :=
    match e with RDirect | REchoB | RNormal | RProtocol _ | REchoRound _ => True | RUnprovable _ | RL _ => False end.
  Definition evidence_shows (vm : VMessage) (e : RecvErr) (ev : Evidence) : Prop :=
    match e with
    | RDirect => ev = mkEvidence (vm_from vm) (EvDirect (vm_direct vm))
    | REchoB => ev = mkEvidence (vm_from vm) (EvEcho (vm_echo vm))
    | RNormal => ev = mkEvidence (vm_from vm) (EvNormal (vm_normal vm))
    | RProtocol b => exists pe, ev = mkEvidence (vm_from vm) (EvProtocol pe) /\ be_ser b = Some (pe_error pe)
    | REchoRound (InvalidEcho u) => ev = mkEvidence (vm_from vm) (EvInvalidEcho (vm_normal vm) u)
    | REchoRound (Mismatched u p h) => ev = mkEvidence u (EvMismatched u p h)
    | RUnprovable _ | RL _ => False
    end.

  (** All parts of [m] carry the metadata of session [sid] and round [rid]. *)
  Definition carries (m : Message) (sid : bytes) (rid : RoundId) : Prop :=
    sp_meta (msg_direct m) = mkMeta sid rid /\ sp_meta (msg_echo m) = mkMeta sid rid /\ sp_meta (msg_normal m) = mkMeta sid rid.

  (** The reasons for turning down the message [m] received from [from] in state [d], after the history [es] of the current
      round. *)
  Inductive reason (es : list (event Pr)) (d : DState Pr) (from : Verifier) (m : Message) : RemoteError -> Prop :=
  | Because_banned : banned (d_s d) (d_a d) from -> reason es d from m RE_Banned
  | Because_metadata : (forall sid rid, ~ carries m sid rid) -> reason es d from m RE_Metadata
  | Because_session sid rid : carries m sid rid -> sid <> s_id (d_s d) -> reason es d from m RE_SessionId
  | Because_second m0 vm0 : carries m (s_id (d_s d)) (s_round_id (d_s d)) -> In (EPre from m0 (ToProcess vm0)) es ->
      reason es d from m RE_DupThisRound
  | Because_second_cached rid m0 : carries m (s_id (d_s d)) rid -> rid <> s_round_id (d_s d) -> In (EPre from m0 Cached) es ->
      m_round (sp_meta (msg_direct m0)) = rid -> reason es d from m RE_DupCached
  | Because_round rid : carries m (s_id (d_s d)) rid -> rid <> s_round_id (d_s d) -> ~ may_be_active (d_s d) rid ->
      reason es d from m RE_WrongRound
  | Because_format : deser_sig (sp_sig (msg_direct m)) = None \/ deser_sig (sp_sig (msg_echo m)) = None \/ deser_sig (sp_sig (msg_normal m)) = None ->
      reason es d from m RE_SigFormat
  | Because_signature : ~ part_signed from (msg_direct m) \/ ~ part_signed from (msg_echo m) \/ ~ part_signed from (msg_normal m) ->
      reason es d from m RE_BadSignature.
End WithParams.
