(** manul/src/session/evidence.rs, and the evidence checks of manul/src/session/echo.rs. *)
From Coq Require Import List NArith Bool.
From Verif Require Import Base BMap Errors RoundId Message Protocol Transcript.
Import ListNotations.
Set Implicit Arguments.

Section WithParams.
  Context {P : Params}.

  (** [deserialize::<EchoRoundMessage>] on a message part (protocol/message.rs:108-122 with [T] not [NoMessage]). *)
  Definition body_echo_msg (b : body) : option (bmap Verifier SHash) :=
    match b with Some p => deser_echo p | None => None end.

  (** protocol/message.rs:97-105 *)
  Definition verify_is_some (b : body) : res EvidenceError unit :=
    if is_none b then Err EE_Invalid else Ok tt.

  (** session/echo.rs:180-201 *)
  Definition echo_direct_invalid (b : body) : res EvidenceError unit := verify_is_some b.
  Definition echo_echo_invalid (b : body) : res EvidenceError unit := verify_is_some b.
  Definition echo_normal_invalid (b : body) : res EvidenceError unit :=
    match body_echo_msg b with None => Ok tt | Some _ => Err EE_Invalid end.

  (** Conditional insertion used in session/evidence.rs:75-83. *)
  Definition opt_get {V} (b : bool) (rid : RoundId) (g : res LocalError V) (m : bmap RoundId V)
    : res LocalError (bmap RoundId V) :=
    if b then let* x := g in Ok (insert rid x m) else Ok m.

  (** The loop of session/evidence.rs:73-85. *)
  Definition collect_prev (t : Transcript) (v : Verifier) (prev : bmap RoundId ReqParts)
    : res LocalError (bmap RoundId (SPart KEcho) * bmap RoundId (SPart KNormal) * bmap RoundId (SPart KDirect)) :=
    fold_res (fun acc kv =>
      let '(es, ns, ds) := acc in
      let '(rid, rq) := kv in
      let* es := opt_get (rp_echo rq) rid (get_echo_broadcast t rid v) es in
      let* ns := opt_get (rp_normal rq) rid (get_normal_broadcast t rid v) ns in
      let* ds := opt_get (rp_direct rq) rid (get_direct_message t rid v) ds in
      Ok (es, ns, ds)) (empty, empty, empty) (to_list prev).

  (** The loop of session/evidence.rs:89-100. *)
  Definition collect_comb (t : Transcript) (v : Verifier) (comb : bset RoundId)
    : res LocalError (bmap RoundId (SPart KNormal) * bmap RoundId (bmap Verifier (SPart KEcho))) :=
    fold_res (fun acc rid =>
      let '(hs, os) := acc in
      let* e := echo rid in
      let* h := get_normal_broadcast t e v in
      let* o := get_other_echo_broadcasts t rid v in
      Ok (insert rid h hs, insert rid o os)) (empty, empty) (elements comb).

  (** session/evidence.rs:41-123 *)
  Definition new_provable_error (v : Verifier) (e : SPart KEcho) (n : SPart KNormal) (d : SPart KDirect)
      (err : BoxedError) (t : Transcript) : res LocalError Evidence :=
    let rq := be_required err in
    let* (es, ns, ds) := match rq_prev rq with
                          | Some prev => collect_prev t v prev
                          | None => Ok (empty, empty, empty)
                          end in
    let* (hs, os) := match rq_comb rq with
                      | Some comb => collect_comb t v comb
                      | None => Ok (empty, empty)
                      end in
    let* eb := ok_or (be_ser err) LE_Serialize in
    Ok (mkEvidence v (EvProtocol (mkProtoEv eb
          (if rp_direct (rq_this rq) then Some d else None)
          (if rp_echo (rq_this rq) then Some e else None)
          (if rp_normal (rq_this rq) then Some n else None)
          ds es ns os hs))).

  (** session/evidence.rs:125-148 *)
  Definition new_echo_round_error (v : Verifier) (n : SPart KNormal) (err : EchoErr) : Evidence :=
    match err with
    | InvalidEcho s => mkEvidence v (EvInvalidEcho n s)
    | Mismatched g w h => mkEvidence g (EvMismatched g w h)
    end.

  (** session/evidence.rs:150-184 *)
  Definition new_invalid_direct (v : Verifier) (p : SPart KDirect) : Evidence := mkEvidence v (EvDirect p).
  Definition new_invalid_echo (v : Verifier) (p : SPart KEcho) : Evidence := mkEvidence v (EvEcho p).
  Definition new_invalid_normal (v : Verifier) (p : SPart KNormal) : Evidence := mkEvidence v (EvNormal p).

  (** session/echo.rs:55-84 *)
  Definition verify_invalid_echo_error (sender : Verifier) (m : Meta) (msg : bmap Verifier SHash)
    : res EvidenceError unit :=
    let* h := ok_or (get sender msg) EE_Invalid in
    match verify_shash sender h with
    | Err (MV_Local e) => Err (EE_Local e)
    | Err MV_InvalidSignature => Ok tt
    | Err MV_SignatureMismatch => Ok tt
    | Panic => Panic
    | Ok h => if negb (meta_eqb (sh_meta h) m) then Ok tt else Err EE_Invalid
    end.

  (** session/evidence.rs:231-248 *)
  Definition verify_invalid_echo (v : Verifier) (p : SPart KNormal) (sender : Verifier) : res EvidenceError unit :=
    let* p := map_err into_evidence_error (verify_part v p) in
    let* msg := ok_or (body_echo_msg (sp_body p)) EE_Invalid in
    verify_invalid_echo_error sender (sp_meta p) msg.

  (** session/echo.rs:103-122 *)
  Definition verify_mismatched (g : Verifier) (w : SPart KEcho) (h : SHash) : res EvidenceError unit :=
    let* w := map_err into_evidence_error (verify_part g w) in
    let* h := map_err into_evidence_error (verify_shash g h) in
    if (meta_eqb (sp_meta w) (sh_meta h) && negb (is_hash_of h w))%bool then Ok tt else Err EE_Invalid.

  (** session/evidence.rs:358-382 *)
  Definition verify_message_parts {k} (v : Verifier) (sid : bytes) (m : bmap RoundId (SPart k))
    : res EvidenceError (bmap RoundId body) :=
    fold_res (fun acc kv =>
      let '(rid, p) := kv in
      let* p := map_err into_evidence_error (verify_part v p) in
      if (negb (bytes_eqb (m_session (sp_meta p)) sid) || negb (eqb (m_round (sp_meta p)) rid))%bool
      then Err EE_Invalid
      else Ok (insert rid (sp_body p) acc)) empty (to_list m).

  (** session/evidence.rs:384-413 *)
  Definition verify_message_part {k} (v : Verifier) (sid : bytes) (rid : RoundId) (p : option (SPart k))
    : res EvidenceError (option body) :=
    match p with
    | None => Ok None
    | Some p =>
        if (negb (bytes_eqb (m_session (sp_meta p)) sid) || negb (eqb (m_round (sp_meta p)) rid))%bool
        then Err EE_Invalid
        else let* p := map_err into_evidence_error (verify_part v p) in Ok (Some (sp_body p))
    end.

  (** Inner loop body of session/evidence.rs:485-517. *)
  Definition verify_echoed (sid : bytes) (rid : RoundId) (signed : bmap Verifier (SPart KEcho))
      (acc : bmap Verifier body) (kv : Verifier * SHash) : res EvidenceError (bmap Verifier body) :=
    let '(other, h) := kv in
    if (negb (bytes_eqb (m_session (sh_meta h)) sid) || negb (eqb (m_round (sh_meta h)) rid))%bool
    then Err EE_Invalid else
    let* h := map_err into_evidence_error (verify_shash other h) in
    let* e := ok_or (get other signed) EE_Invalid in
    if (negb (bytes_eqb (m_session (sp_meta e)) sid) || negb (eqb (m_round (sp_meta e)) rid))%bool
    then Err EE_Invalid else
    if negb (is_hash_of h e) then Err EE_Invalid else
    let* e := map_err into_evidence_error (verify_part other e) in
    Ok (insert other (sp_body e) acc).

  (** Outer loop body of session/evidence.rs:456-519. *)
  Definition verify_echo_hashes (v : Verifier) (sid : bytes) (others : bmap RoundId (bmap Verifier (SPart KEcho)))
      (acc : bmap RoundId (bmap Verifier body)) (kv : RoundId * SPart KNormal)
    : res EvidenceError (bmap RoundId (bmap Verifier body)) :=
    let '(rid, p) := kv in
    let* main := map_err (fun _ => EE_Invalid) (non_echo (m_round (sp_meta p))) in
    if (negb (bytes_eqb (m_session (sp_meta p)) sid) || negb (eqb main rid))%bool then Err EE_Invalid else
    let* p := map_err into_evidence_error (verify_part v p) in
    let* msg := ok_or (body_echo_msg (sp_body p)) EE_Invalid in
    let* signed := ok_or (get rid others) EE_Invalid in
    let* echos := fold_res (verify_echoed sid rid signed) empty (to_list msg) in
    Ok (insert rid echos acc).

  (** session/evidence.rs:529-547 *)
  Definition merge_parts (es ns ds : bmap RoundId body) : bmap RoundId EvMsg :=
    of_list (map (fun rid => (rid, mkEvMsg (get rid ds) (get rid ns) (get rid es)))
                 (elements (set_of_list (keys es ++ keys ns ++ keys ds)))).

  (** session/evidence.rs:432-442 *)
  Definition trigger_meta (e : ProtoEv) : option Meta :=
    match pe_direct e with
    | Some p => Some (sp_meta p)
    | None => match pe_echo e with
              | Some p => Some (sp_meta p)
              | None => match pe_normal e with Some p => Some (sp_meta p) | None => None end
              end
    end.

  Context (Pr : Proto).

  (** session/evidence.rs:420-564 *)
  Definition verify_protocol (v : Verifier) (e : ProtoEv) (sd : Shared Pr) : res EvidenceError unit :=
    let* m := ok_or (trigger_meta e) EE_Invalid in
    let sid := m_session m in
    let rid := m_round m in
    let* d := verify_message_part v sid rid (pe_direct e) in
    let* ec := verify_message_part v sid rid (pe_echo e) in
    let* n := verify_message_part v sid rid (pe_normal e) in
    let* ds := verify_message_parts v sid (pe_directs e) in
    let* es := verify_message_parts v sid (pe_echos e) in
    let* ns := verify_message_parts v sid (pe_normals e) in
    let* comb := fold_res (verify_echo_hashes v sid (pe_others e)) empty (to_list (pe_hashes e)) in
    let* ri := ok_or (round_info Pr rid) EE_Invalid in
    ri_verify ri rid (pe_error e) v sid sd (mkEvMsg d n ec) (merge_parts es ns ds) comb.

  (** session/evidence.rs:265-287, 292-314, 319-341 *)
  Definition verify_invalid_part {k} (in_echo : body -> res EvidenceError unit)
      (in_round : RInfo (Shared Pr) -> body -> res EvidenceError unit) (v : Verifier) (p : SPart k)
    : res EvidenceError unit :=
    let* p := map_err into_evidence_error (verify_part v p) in
    if rid_echo (m_round (sp_meta p)) then in_echo (sp_body p)
    else let* ri := ok_or (round_info Pr (m_round (sp_meta p))) EE_Invalid in in_round ri (sp_body p).

  (** session/evidence.rs:200-210 *)
  Definition verify_evidence (ev : Evidence) (sd : Shared Pr) : res EvidenceError unit :=
    match ev_body ev with
    | EvProtocol e => verify_protocol (ev_guilty ev) e sd
    | EvDirect p => verify_invalid_part echo_direct_invalid (@ri_direct _ _) (ev_guilty ev) p
    | EvEcho p => verify_invalid_part echo_echo_invalid (@ri_echo _ _) (ev_guilty ev) p
    | EvNormal p => verify_invalid_part echo_normal_invalid (@ri_normal _ _) (ev_guilty ev) p
    | EvInvalidEcho p s => verify_invalid_echo (ev_guilty ev) p s
    | EvMismatched g w h => verify_mismatched g w h
    end.
End WithParams.
