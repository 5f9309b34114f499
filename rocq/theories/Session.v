(** manul/src/session/echo.rs (the echo round) and manul/src/session/session.rs. *)
From Coq Require Import List NArith Bool.
From Verif Require Import Base BMap Errors RoundId Message Protocol Transcript Evidence.
Import ListNotations.
Set Implicit Arguments.

Section WithParams.
  Context {P : Params}.
  Context {Pr : Proto}.

  (** [EchoRoundInfo] (session/session.rs:101-105). *)
  Record EchoInfo := mkEchoInfo {
    ei_dest : bset Verifier;
    ei_expect : bset Verifier;
    ei_echos : bset Verifier    (* expected_echos *)
  }.

  (** The boxed [Payload] (protocol/dyn_round.rs:24): either [Payload::empty()] (the type [()]) as created by the echo
      round, or the payload of a protocol round. A downcast of one to the other's type fails. *)
  Inductive SPayload := PEmpty | PVal (p : Payload Pr).
  (** The boxed [Artifact] (protocol/dyn_round.rs:51): [NoArtifact] of the echo round or a protocol artifact. *)
  Inductive SArtifact := ANone | AVal (a : Artifact Pr).

  (** [BoxedRound] (protocol/dyn_round.rs:234-240): a protocol round or an [EchoRound] (session/echo.rs:136-144).
      [communication_info] of the echo round is a function of [info] and not stored. *)
  Inductive Round :=
  | RMain (st : St Pr)
  | REcho (verifier : Verifier) (echos : bmap Verifier (SPart KEcho)) (info : EchoInfo) (main : Round)
          (payloads : bmap Verifier SPayload) (artifacts : bmap Verifier SArtifact).

  (** session/echo.rs:211-221 for the echo round. *)
  Fixpoint rd_tinfo (r : Round) : res LocalError TransitionInfo :=
    match r with
    | RMain st => Ok (tinfo Pr st)
    | REcho _ _ _ main _ _ =>
        match (let* t := rd_tinfo main in ti_echo t) with
        | Ok t => Ok t
        | _ => Panic (* the [expect] of line 220 *)
        end
    end.

  (** session/echo.rs:161-165, 223-225 *)
  Definition rd_cinfo (r : Round) : CommInfo :=
    match r with
    | RMain st => cinfo Pr st
    | REcho _ _ info _ _ _ => mkComm (ei_dest info) (ei_expect info) EPDefault
    end.

  (** session/echo.rs:227-237 *)
  Definition rd_mk_direct (r : Round) (g : rng) (dest : Verifier) : res LocalError (body * SArtifact) :=
    match r with
    | RMain st => let* (b, a) := mk_direct Pr st g dest in Ok (b, AVal a)
    | REcho _ _ _ _ _ _ => Ok (None, ANone)
    end.

  (** session/echo.rs:239-245 *)
  Definition rd_mk_echo (r : Round) (g : rng) : res LocalError body :=
    match r with
    | RMain st => mk_echo Pr st g
    | REcho _ _ _ _ _ _ => Ok None
    end.

  (** session/echo.rs:247-269 *)
  Definition echo_normal_broadcast (v : Verifier) (echos : bmap Verifier (SPart KEcho)) : res LocalError body :=
    if contains v echos then
      let* b := ok_or (ser_echo (map_values to_signed_hash (remove v echos))) LE_Serialize in Ok (Some b)
    else Err LE_OwnEchoMissing.

  Definition rd_mk_normal (r : Round) (g : rng) : res LocalError body :=
    match r with
    | RMain st => mk_normal Pr st g
    | REcho v echos _ _ _ _ => echo_normal_broadcast v echos
    end.

  (** Loop body of session/echo.rs:314-366. *)
  Definition check_echo (echos : bmap Verifier (SPart KEcho)) (kv : Verifier * SHash) : res RecvErr unit :=
    let '(sender, h) := kv in
    match get sender echos with
    | None => Panic (* the [expect] of line 321 *)
    | Some prev =>
        match verify_shash sender h with
        | Err (MV_Local e) => Err (RL e)
        | Err MV_InvalidSignature => Err (REchoRound (InvalidEcho sender))
        | Err MV_SignatureMismatch => Err (REchoRound (InvalidEcho sender))
        | Panic => Panic
        | Ok vh =>
            if negb (meta_eqb (sh_meta vh) (sp_meta prev)) then Err (REchoRound (InvalidEcho sender))
            else if negb (is_hash_of vh prev) then Err (REchoRound (Mismatched sender prev h))
            else Ok tt
        end
    end.

  (** session/echo.rs:271-369 *)
  Definition echo_receive (echos : bmap Verifier (SPart KEcho)) (info : EchoInfo) (from : Verifier) (m : DynMsg)
    : res RecvErr SPayload :=
    if negb (is_none (dm_echo m)) then Err REchoB else
    if negb (is_none (dm_direct m)) then Err RDirect else
    match body_echo_msg (dm_normal m) with
    | None => Err RNormal
    | Some msg =>
        let expected := srem from (ei_echos info) in
        let got := keyset msg in
        if negb (is_empty (diff expected got)) then Err (RUnprovable RE_EchoMissing) else
        if negb (is_empty (diff got expected)) then Err (RUnprovable RE_EchoExtra) else
        let* _ := iter_res (check_echo echos) (to_list msg) in
        Ok PEmpty
    end.

  Definition rd_receive (r : Round) (from : Verifier) (m : DynMsg) : res RecvErr SPayload :=
    match r with
    | RMain st => let* p := receive Pr st from m in Ok (PVal p)
    | REcho _ echos info _ _ _ => echo_receive echos info from m
    end.

  (** Downcasts of protocol/dyn_round.rs:218-225: every stored payload/artifact must be of the round's type. *)
  Definition down_payload (p : SPayload) : res LocalError (Payload Pr) :=
    match p with PVal p => Ok p | PEmpty => Err LE_PayloadDowncast end.
  Definition down_artifact (a : SArtifact) : res LocalError (Artifact Pr) :=
    match a with AVal a => Ok a | ANone => Err LE_ArtifactDowncast end.
  Definition downcast {A B} (f : A -> res LocalError B) (m : bmap Verifier A) : res LocalError (bmap Verifier B) :=
    let* l := map_res (fun kv => let* y := f (snd kv) in Ok (fst kv, y)) (to_list m) in Ok (of_list l).

  (** session/echo.rs:371-380 for the echo round. *)
  Fixpoint rd_finalize (r : Round) (g : rng) (ps : bmap Verifier SPayload) (arts : bmap Verifier SArtifact)
    : res LocalError (Outcome (St Pr) (Rslt Pr)) :=
    match r with
    | RMain st =>
        let* ps := downcast down_payload ps in
        let* arts := downcast down_artifact arts in
        finalize Pr st g ps arts
    | REcho _ _ _ main payloads artifacts => rd_finalize main g payloads artifacts
    end.

  (** [Session] (session/session.rs:110-122); [format] is part of the parameters. *)
  Record Session := mkSession {
    s_id : bytes;
    s_signer : Signer;
    s_verifier : Verifier;
    s_round : Round;
    s_comm : CommInfo;
    s_echo_info : option EchoInfo;
    s_echo : SPart KEcho;
    s_normal : SPart KNormal;
    s_tinfo : TransitionInfo;
    s_tr : Transcript
  }.

  (** session/session.rs:187-209 *)
  Definition make_echo_info (v : Verifier) (ci : CommInfo) (own_echo : body) : option EchoInfo :=
    match ci_part ci with
    | EPDefault =>
        if is_none own_echo then None
        else Some (mkEchoInfo (ci_dest ci) (ci_dest ci) (sadd v (ci_expect ci)))
    | EPSend => None
    | EPReceive targets => Some (mkEchoInfo targets targets (ci_expect ci))
    end.

  (** session/session.rs:158-224. Randomness: echo broadcast, its signature, normal broadcast, its signature. *)
  Definition new_for_next_round (g : rng) (sid : bytes) (signer : Signer) (r : Round) (t : Transcript)
    : res LocalError Session :=
    let v := signer_key signer in
    let* ti := rd_tinfo r in
    let ci := rd_cinfo r in
    let* e := if is_empty (ci_dest ci) then Ok None else rd_mk_echo r (rsub 0 g) in
    let* se := sign_part KEcho (rsub 1 g) signer sid (ti_id ti) e in
    let* n := if is_empty (ci_dest ci) then Ok None else rd_mk_normal r (rsub 2 g) in
    let* sn := sign_part KNormal (rsub 3 g) signer sid (ti_id ti) n in
    Ok (mkSession sid signer v r ci (make_echo_info v ci (sp_body se)) se sn ti t).

  (** session/session.rs:144-156 *)
  Definition session_new (g : rng) (sid : bytes) (signer : Signer) (ep : EntryPoint Pr) : res LocalError Session :=
    let* st := ep_make ep (rsub 0 g) sid (signer_key signer) in
    new_for_next_round (rsub 1 g) sid signer (RMain st) tr_new.

  (** session/session.rs:283-285 *)
  Definition s_round_id (s : Session) : RoundId := ti_id (s_tinfo s).

  (** session/session.rs:237-239 *)
  Definition message_destinations (s : Session) : bset Verifier := ci_dest (s_comm s).

  (** session/session.rs:244-271; the second component is [ProcessedArtifact] (session/session.rs:763-766). *)
  Definition make_message (s : Session) (g : rng) (dest : Verifier)
    : res LocalError (Message * (Verifier * SArtifact)) :=
    let* (d, a) := rd_mk_direct (s_round s) (rsub 0 g) dest in
    let* m := message_new (rsub 1 g) (s_signer s) (s_id s) (s_round_id s) dest d (s_echo s) (s_normal s) in
    Ok (m, (dest, a)).

  (** [RoundAccumulator] (session/session.rs:556-568). *)
  Record Accum := mkAccum {
    a_waiting : bset Verifier;      (* still_have_not_sent_messages *)
    a_expect : bset Verifier;       (* expecting_messages_from *)
    a_processing : bset Verifier;
    a_payloads : bmap Verifier SPayload;
    a_artifacts : bmap Verifier SArtifact;
    a_cached : bmap Verifier (bmap RoundId VMessage);
    a_echo : bmap Verifier (SPart KEcho);
    a_normal : bmap Verifier (SPart KNormal);
    a_direct : bmap Verifier (SPart KDirect);
    a_provable : bmap Verifier Evidence;
    a_unprovable : bmap Verifier RemoteError
  }.

  (** session/session.rs:424-426, 575-589 *)
  Definition make_accumulator (s : Session) : Accum :=
    mkAccum (ci_expect (s_comm s)) (ci_expect (s_comm s)) sempty empty empty empty empty empty empty empty empty.

  (** [CanFinalize] (session/session.rs:544-552). *)
  Inductive CanFin := Yes | NotYet | Never.

  (** session/session.rs:591-603 *)
  Definition can_finalize (a : Accum) : CanFin :=
    if forallb (fun k => contains k (a_payloads a)) (elements (a_expect a)) then Yes
    else if negb (is_empty (a_waiting a)) then NotYet
    else Never.

  (** session/session.rs:605-607 *)
  Definition a_is_banned (a : Accum) (from : Verifier) : bool :=
    (contains from (a_provable a) || contains from (a_unprovable a))%bool.

  (** session/session.rs:613-619 *)
  Definition message_is_cached (a : Accum) (from : Verifier) (rid : RoundId) : bool :=
    match get from (a_cached a) with Some m => contains rid m | None => false end.

  (** Field updates ([&mut self]). *)
  Definition set_unprovable (a : Accum) x := mkAccum (a_waiting a) (a_expect a) (a_processing a) (a_payloads a)
    (a_artifacts a) (a_cached a) (a_echo a) (a_normal a) (a_direct a) (a_provable a) x.
  Definition set_provable (a : Accum) x := mkAccum (a_waiting a) (a_expect a) (a_processing a) (a_payloads a)
    (a_artifacts a) (a_cached a) (a_echo a) (a_normal a) (a_direct a) x (a_unprovable a).
  Definition set_processing (a : Accum) x := mkAccum (a_waiting a) (a_expect a) x (a_payloads a)
    (a_artifacts a) (a_cached a) (a_echo a) (a_normal a) (a_direct a) (a_provable a) (a_unprovable a).
  Definition set_artifacts (a : Accum) x := mkAccum (a_waiting a) (a_expect a) (a_processing a) (a_payloads a)
    x (a_cached a) (a_echo a) (a_normal a) (a_direct a) (a_provable a) (a_unprovable a).
  Definition set_cached (a : Accum) x := mkAccum (a_waiting a) (a_expect a) (a_processing a) (a_payloads a)
    (a_artifacts a) x (a_echo a) (a_normal a) (a_direct a) (a_provable a) (a_unprovable a).
  Definition set_waiting (a : Accum) x := mkAccum x (a_expect a) (a_processing a) (a_payloads a)
    (a_artifacts a) (a_cached a) (a_echo a) (a_normal a) (a_direct a) (a_provable a) (a_unprovable a).

  (** session/session.rs:621-629 *)
  Definition register_unprovable (a : Accum) (from : Verifier) (e : RemoteError) : Accum * res LocalError unit :=
    (set_unprovable a (insert from e (a_unprovable a)),
     if contains from (a_unprovable a) then Err LE_DupUnprovable else Ok tt).

  (** session/session.rs:631-639 *)
  Definition register_provable (a : Accum) (from : Verifier) (e : Evidence) : Accum * res LocalError unit :=
    (set_provable a (insert from e (a_provable a)),
     if contains from (a_provable a) then Err LE_DupProvable else Ok tt).

  (** session/session.rs:641-650 *)
  Definition mark_processing (a : Accum) (m : VMessage) : Accum * res LocalError unit :=
    (set_processing a (sadd (vm_from m) (a_processing a)),
     if mem (vm_from m) (a_processing a) then Err LE_DupProcessing else Ok tt).

  (** session/session.rs:274-280, 654-666 *)
  Definition add_artifact (a : Accum) (pa : Verifier * SArtifact) : Accum * res LocalError unit :=
    (set_artifacts a (insert (fst pa) (snd pa) (a_artifacts a)),
     if contains (fst pa) (a_artifacts a) then Err LE_DupArtifact else Ok tt).

  (** session/session.rs:749-759 *)
  Definition cache_message (a : Accum) (m : VMessage) : Accum * res LocalError unit :=
    let rid := m_round (vm_meta m) in
    let c := match get (vm_from m) (a_cached a) with Some c => c | None => empty end in
    (set_cached a (insert (vm_from m) (insert rid m c) (a_cached a)),
     if contains rid c then Err LE_DupCached else Ok tt).

  (** [PreprocessOutcome] (session/session.rs:776-788). *)
  Inductive PreOutcome := ToProcess (m : VMessage) | Cached | PreError (e : RemoteError).

  (** "register an unprovable error and return it" (session/session.rs:317-319 and similar). *)
  Definition reject (a : Accum) (from : Verifier) (e : RemoteError) : Accum * res LocalError PreOutcome :=
    let '(a', r) := register_unprovable a from e in
    (a', let* _ := r in Ok (PreError e)).

  (** session/session.rs:300-394 *)
  Definition preprocess_message (s : Session) (a : Accum) (from : Verifier) (m : Message)
    : Accum * res LocalError PreOutcome :=
    if (tr_is_banned (s_tr s) from || a_is_banned a from)%bool then (a, Ok (PreError RE_Banned)) else
    match unify_metadata m with
    | None => reject a from RE_Metadata
    | Some cm =>
        let rid := m_round (cm_meta cm) in
        if negb (bytes_eqb (m_session (cm_meta cm)) (s_id s)) then reject a from RE_SessionId else
        match simultaneous_rounds (s_tinfo s) (match s_echo_info s with Some _ => true | None => false end) with
        | Err e => (a, Err e)
        | Panic => (a, Panic)
        | Ok acceptable =>
            let this_round := eqb rid (s_round_id s) in
            let rejected :=
              if this_round then (if mem from (a_processing a) then Some RE_DupThisRound else None)
              else if mem rid acceptable then (if message_is_cached a from rid then Some RE_DupCached else None)
              else Some RE_WrongRound in
            match rejected with
            | Some e => reject a from e
            | None =>
                match verify_message from cm with
                | Err MV_InvalidSignature => reject a from RE_SigFormat
                | Err MV_SignatureMismatch => reject a from RE_BadSignature
                | Err (MV_Local e) => (a, Err e)
                | Panic => (a, Panic)
                | Ok vm =>
                    if this_round
                    then let '(a', r) := mark_processing a vm in (a', let* _ := r in Ok (ToProcess vm))
                    else let '(a', r) := cache_message a vm in (a', let* _ := r in Ok Cached)
                end
            end
        end
    end.

  (** [ProcessedMessage] (session/session.rs:769-772). *)
  Record Processed := mkProcessed { pm_msg : VMessage; pm_res : res RecvErr SPayload }.

  (** session/session.rs:399-412. A panic in [receive_message] is kept in [pm_res] and surfaces in [add_processed]. *)
  Definition process_message (s : Session) (m : VMessage) : Processed :=
    mkProcessed m (rd_receive (s_round s) (vm_from m)
      (mkDynMsg (sp_body (vm_echo m)) (sp_body (vm_normal m)) (sp_body (vm_direct m)))).

  Definition ins_part {k} (from : Verifier) (p : SPart k) (m : bmap Verifier (SPart k)) : bmap Verifier (SPart k) :=
    if is_none (sp_body p) then m else insert from p m.

  (** session/session.rs:415-421, 668-747 *)
  Definition add_processed (s : Session) (a : Accum) (pm : Processed) : Accum * res LocalError unit :=
    let m := pm_msg pm in
    let from := vm_from m in
    if contains from (a_payloads a) then (a, Err LE_DupPayload) else
    if negb (mem from (a_waiting a)) then (a, Err LE_NotExpected) else
    let a := set_waiting a (srem from (a_waiting a)) in
    match pm_res pm with
    | Ok p =>
        (mkAccum (a_waiting a) (a_expect a) (a_processing a) (insert from p (a_payloads a)) (a_artifacts a) (a_cached a)
           (ins_part from (vm_echo m) (a_echo a)) (ins_part from (vm_normal m) (a_normal a))
           (ins_part from (vm_direct m) (a_direct a)) (a_provable a) (a_unprovable a), Ok tt)
    | Panic => (a, Panic)
    | Err RDirect => register_provable a from (new_invalid_direct from (vm_direct m))
    | Err REchoB => register_provable a from (new_invalid_echo from (vm_echo m))
    | Err RNormal => register_provable a from (new_invalid_normal from (vm_normal m))
    | Err (RProtocol e) =>
        match new_provable_error from (vm_echo m) (vm_normal m) (vm_direct m) e (s_tr s) with
        | Ok ev => register_provable a from ev
        | Err le => (a, Err le)
        | Panic => (a, Panic)
        end
    | Err (RUnprovable e) => (set_unprovable a (insert from e (a_unprovable a)), Ok tt)
    | Err (REchoRound e) => register_provable a from (new_echo_round_error from (vm_normal m) e)
    | Err (RL e) => (a, Err e)
    end.

  (** The [transcript.update] call shared by session/session.rs:435-444 and 476-485. *)
  Definition close_round (s : Session) (a : Accum) : res LocalError Transcript :=
    tr_update (s_tr s) (s_round_id s) (s_verifier s) (s_echo s) (a_echo a) (a_normal a) (a_direct a)
      (a_provable a) (a_unprovable a) (a_waiting a).

  (** session/session.rs:428-451 *)
  Definition terminate_inner (s : Session) (a : Accum) (not_enough : bool) : res LocalError (Report (Rslt Pr)) :=
    let* t := close_round s a in
    Ok (report_new (if not_enough then ONotEnough else OTerminated) t).

  (** session/session.rs:454-456 *)
  Definition terminate (s : Session) (a : Accum) := terminate_inner s a false.
  (** session/session.rs:463-465 *)
  Definition terminate_due_to_errors (s : Session) (a : Accum) := terminate_inner s a false.

  (** session/session.rs:808-816 *)
  Definition filter_messages (c : bmap Verifier (bmap RoundId VMessage)) (rid : RoundId) : list VMessage :=
    flat_map (fun kv => match get rid (snd kv) with Some m => [m] | None => [] end) (to_list c).

  (** [RoundOutcome] (session/session.rs:126-136). *)
  Inductive RoundOutcome :=
  | ROFinished (r : Report (Rslt Pr))
  | ROAnother (s : Session) (cached : list VMessage).

  (** session/session.rs:468-534. Randomness: protocol finalization, then creation of the next session. *)
  Definition finalize_round (s : Session) (g : rng) (a : Accum) : res LocalError RoundOutcome :=
    let* t := close_round s a in
    match s_echo_info s with
    | Some info =>
        let* echos := tr_echo_broadcasts t (s_round_id s) in
        let r := REcho (s_verifier s) echos info (s_round s) (a_payloads a) (a_artifacts a) in
        let* ti := rd_tinfo r in
        let cached := filter_messages (a_cached a) (ti_id ti) in
        let* s' := new_for_next_round (rsub 1 g) (s_id s) (s_signer s) r t in
        Ok (ROAnother s' cached)
    | None =>
        let* out := rd_finalize (s_round s) (rsub 0 g) (a_payloads a) (a_artifacts a) in
        match out with
        | Finished_ x => Ok (ROFinished (report_new (OResult x) t))
        | AnotherRound st =>
            let rid := ti_id (tinfo Pr st) in
            if negb (mem rid (ti_children (s_tinfo s))) then Err LE_BadTransition else
            let cached := filter (fun m => negb (tr_is_banned t (vm_from m))) (filter_messages (a_cached a) rid) in
            let* s' := new_for_next_round (rsub 1 g) (s_id s) (s_signer s) (RMain st) t in
            Ok (ROAnother s' cached)
        end
    end.
End WithParams.
Arguments Round {P} Pr.
Arguments Session {P} Pr.
Arguments Accum {P} Pr.
Arguments SPayload {P} Pr.
Arguments SArtifact {P} Pr.
Arguments Processed {P} Pr.
Arguments RoundOutcome {P} Pr.
