(** What evidence has to contain in order to show something (C130). No proofs here. *)
From Coq Require Import List NArith Bool.
From Verif Require Import Base BMap Errors RoundId Message Protocol Transcript Evidence Session Spec SpecCrypto SpecEvidence.
Import ListNotations.
Set Implicit Arguments.

Section WithParams.
  Context {P : Params} (Pr : Proto).

  (** [p] was signed by [v] for the session and round of [m]. *)
  Definition made_by {k} (v : Verifier) (m : Meta) (p : SPart k) : Prop := part_signed v p /\ sp_meta p = m.

  (** [g] signed two different echo broadcasts with the same metadata: the contents of one of them and the digest of the other. *)
  Definition shows_equivocation (g : Verifier) (w : SPart KEcho) (h : SHash) : Prop :=
    part_signed g w /\ hash_signed g h /\ sp_meta w = sh_meta h /\ sh_hash h <> hash (content_bytes KEcho (sp_body w)).

  (** [v] echoed, as that of [u], a digest which [u] did not sign, or which is for another session or round than the message. *)
  Definition shows_bad_echo (v : Verifier) (p : SPart KNormal) (u : Verifier) : Prop :=
    part_signed v p /\ exists msg h, body_echo_msg (sp_body p) = Some msg /\ get u msg = Some h /\ ser_meta (sh_meta h) <> None /\
      (~ hash_signed u h \/ sh_meta h <> sp_meta p).

  (** [v] signed a part which the echo round ([in_echo]), or else the round of the protocol, says to be malformed. *)
  Definition shows_malformed {k} (in_echo : body -> Prop) (in_round : RInfo (Shared Pr) -> body -> res EvidenceError unit)
      (v : Verifier) (p : SPart k) : Prop :=
    part_signed v p /\
    if rid_echo (m_round (sp_meta p)) then in_echo (sp_body p)
    else exists ri, round_info Pr (m_round (sp_meta p)) = Some ri /\ in_round ri (sp_body p) = Ok tt.

  (** The echo broadcasts which [v] confirmed in the echo round of [r], by the message [p]: each has the digest that [v] echoed, and
      both are signed by its sender. *)
  Definition confirmed (v : Verifier) (sid : bytes) (others : bmap RoundId (bmap Verifier (SPart KEcho))) (r : RoundId)
      (p : SPart KNormal) (bodies : bmap Verifier body) : Prop :=
    rid_echo r = false /\ made_by v (mkMeta sid (echo_of r)) p /\
    exists msg signed, body_echo_msg (sp_body p) = Some msg /\ get r others = Some signed /\
      (forall u, get u msg = None -> get u bodies = None) /\
      (forall u h, get u msg = Some h -> exists q, get u signed = Some q /\ hash_signed u h /\ sh_meta h = mkMeta sid r /\
         made_by u (mkMeta sid r) q /\ sh_hash h = hash (content_bytes KEcho (sp_body q)) /\ get u bodies = Some (sp_body q)).

  (** Evidence of a protocol error: at least one part of the message that led to it is there; this and the earlier messages are those of
      [v]; and the protocol's own check accepts their contents, together with the broadcasts which [v] confirmed. *)
  Definition shows_protocol_error (v : Verifier) (e : ProtoEv) (sd : Shared Pr) : Prop :=
    exists sid rid ri prev comb,
      (pe_direct e <> None \/ pe_echo e <> None \/ pe_normal e <> None) /\ round_info Pr rid = Some ri /\
      (forall p, pe_direct e = Some p -> made_by v (mkMeta sid rid) p) /\
      (forall p, pe_echo e = Some p -> made_by v (mkMeta sid rid) p) /\
      (forall p, pe_normal e = Some p -> made_by v (mkMeta sid rid) p) /\
      (forall r p, get r (pe_directs e) = Some p -> made_by v (mkMeta sid r) p) /\
      (forall r p, get r (pe_echos e) = Some p -> made_by v (mkMeta sid r) p) /\
      (forall r p, get r (pe_normals e) = Some p -> made_by v (mkMeta sid r) p) /\
      (forall r, get r (pe_hashes e) = None -> get r comb = None) /\
      (forall r p, get r (pe_hashes e) = Some p -> exists bodies, get r comb = Some bodies /\ confirmed v sid (pe_others e) r p bodies) /\
      (forall r, get r prev = None <-> get r (pe_directs e) = None /\ get r (pe_normals e) = None /\ get r (pe_echos e) = None) /\
      (forall r em, get r prev = Some em -> em_direct em = option_map (@sp_body _) (get r (pe_directs e)) /\
         em_normal em = option_map (@sp_body _) (get r (pe_normals e)) /\ em_echo em = option_map (@sp_body _) (get r (pe_echos e))) /\
      ri_verify ri rid (pe_error e) v sid sd
        (mkEvMsg (option_map (@sp_body _) (pe_direct e)) (option_map (@sp_body _) (pe_normal e)) (option_map (@sp_body _) (pe_echo e)))
        prev comb = Ok tt.

  Definition shows_guilt (ev : Evidence) (sd : Shared Pr) : Prop :=
    match ev_body ev with
    | EvProtocol e => shows_protocol_error (ev_guilty ev) e sd
    | EvDirect p => shows_malformed (fun b => b <> None) (@ri_direct _ _) (ev_guilty ev) p
    | EvEcho p => shows_malformed (fun b => b <> None) (@ri_echo _ _) (ev_guilty ev) p
    | EvNormal p => shows_malformed (fun b => body_echo_msg b = None) (@ri_normal _ _) (ev_guilty ev) p
    | EvInvalidEcho p u => shows_bad_echo (ev_guilty ev) p u
    | EvMismatched g w h => shows_equivocation g w h
    end.
End WithParams.
