(** Property C130 (evidence verifies exactly if it shows what it says), and the exact forms of C26 and C29. *)
From Coq Require Import List NArith Bool.
From Verif Require Import Base BMap Errors RoundId Message Protocol Transcript Evidence Session Spec SpecCrypto SpecEvidence SpecVerify
  Exec Toy ToyCrypto ToyBlob VerifyFacts PropEvidence.
Import ListNotations.
Set Implicit Arguments.

(** C130. *)
Theorem C130_verifies_iff : forall (P : Params) (Pr : Proto) (ev : Evidence) (sd : Shared Pr),
  verify_evidence Pr ev sd = Ok tt <-> shows_guilt Pr ev sd.
Proof. exact @verifies_iff. Qed.
Print Assumptions C130_verifies_iff.

(** Evidence of each kind: a protocol error, an echo of a different broadcast, an echo of a hash that the sender did not sign,
    a direct message in an echo round. The last does not show anything against another party. *)
Definition stray (v : N) : @Evidence toyP := @mkEvidence toyP v (@EvDirect toyP (msg_direct (tforge 1 sid0 (echo_of (rid_new 1)) (Some [7]%N) None None))).
Example C130_case : shows_guilt (toyPr cfg3) (evidence_of blamed 1) tt /\
  shows_guilt (toyPr cfg3) (evidence_of (got_echo equivocated) 1) tt /\ shows_guilt (toyPr cfg3) (evidence_of (got_echo fabricated) 1) tt /\
  shows_guilt (toyPr cfg3) (stray 1) tt /\ ~ shows_guilt (toyPr cfg3) (stray 2) tt.
Proof.
  rewrite <- !C130_verifies_iff. split; [toy|]. split; [toy|]. split; [toy|]. split; [toy|].
  assert (H : is_ok (verify_evidence (toyPr cfg3) (stray 2) tt) = false) by toy. intros E. rewrite E in H. discriminate.
Qed.

(** C26, exactly: recorded evidence of an invalid echo is refused if the echoed hash is signed by its alleged sender for the echo
    round itself, and verifies otherwise. *)
Theorem C26_invalid_echo_exact : forall (P : Params) (Pr : Proto) (d : DState Pr) v ev p u sd,
  no_echo_errors Pr -> reachable d -> has_evidence d v ev -> ev_body ev = EvInvalidEcho p u ->
  (exists msg h, body_echo_msg (sp_body p) = Some msg /\ get u msg = Some h /\ hash_signed u h /\ sh_meta h = sp_meta p) /\
    verify_evidence Pr ev sd = Err EE_Invalid \/
  (forall msg h, body_echo_msg (sp_body p) = Some msg -> get u msg = Some h -> ~ (hash_signed u h /\ sh_meta h = sp_meta p)) /\
    verify_evidence Pr ev sd = Ok tt.
Proof. exact @invalid_echo_exact. Qed.
Print Assumptions C26_invalid_echo_exact.

(** Both happen. *)
Example C26_exact_case : no_echo_errors (toyPr cfg3) /\
  (has_evidence tricked (1%N : @Verifier toyP) (evidence_of tricked 1) /\ verify_evidence (toyPr cfg3) (evidence_of tricked 1) tt = Err EE_Invalid) /\
  (let d := got_echo fabricated in has_evidence d (1%N : @Verifier toyP) (evidence_of d 1) /\ verify_evidence (toyPr cfg3) (evidence_of d 1) tt = Ok tt).
Proof.
  split; [apply toy_no_echo_errors|]. split; (split; [apply has_evidenceb_ok; toy|toy]).
Qed.

(** C29, exactly: of the messages an honest party makes, evidence of an invalid echo can be made from all those of echo rounds, for every
    echo in them; and from a normal broadcast of any other round, if its bytes can also be read as a message of an echo round, unless what
    is found there happens to be a hash signed for that very round. (The verification does not check that the broadcast is
    from an echo round.) *)
Theorem C29_exact : forall (P : Params) (Pr : Proto) (d : DState Pr) g dest m art u sd,
  echo_codec P -> signatures_correct P -> reachable d ->
  mem dest (message_destinations (d_s d)) = true -> make_message (d_s d) g dest = Ok (m, art) ->
  (verify_evidence Pr (mkEvidence (s_verifier (d_s d)) (EvInvalidEcho (msg_normal m) u)) sd = Ok tt <->
   exists msg h, body_echo_msg (sp_body (msg_normal m)) = Some msg /\ get u msg = Some h /\
     (in_echo_round (d_s d) \/
      ser_meta (sh_meta h) <> None /\ ~ (hash_signed u h /\ sh_meta h = mkMeta (s_id (d_s d)) (s_round_id (d_s d))))).
Proof. exact @honest_framed_iff. Qed.
Print Assumptions C29_exact.

(** So a party can be framed also if the protocol has no echo broadcasts at all. *)
Theorem C29_other_rounds_refuted : exists (P : Params) (Pr : Proto) (s : Session Pr) g dest m art u (sd : Shared Pr),
  echo_codec P /\ signatures_correct P /\ initial s /\ (forall st g, mk_echo Pr st g = Ok None) /\
  mem dest (message_destinations s) = true /\ make_message s g dest = Ok (m, art) /\
  verify_evidence Pr (mkEvidence (s_verifier s) (EvInvalidEcho (msg_normal m) u)) sd = Ok tt.
Proof.
  destruct blob_frames as (s & m & art & H1 & _ & H3 & H4 & H5 & H6).
  exists toyP, (blob bytes_for_2), s, g0, (1%N : @Verifier toyP), m, art, (2%N : @Verifier toyP), tt. repeat (split; [assumption || exact toy_codec || exact toy_signatures|]). exact H6.
Qed.
Print Assumptions C29_other_rounds_refuted.
