(** Properties about evidence against honest parties: C68, C69. *)
From Coq Require Import List NArith Bool.
From Verif Require Import Base BMap Errors RoundId Message Protocol Transcript Evidence Session Spec SpecCrypto SpecEvidence
  SpecWorld SpecFrame MessageFacts IntakeFacts HistoryFacts SignFacts WorldFacts FrameFacts Exec Toy ToyCrypto ToyWorld ToyFrame PropEcho PropEvidence PropWorld.
Import ListNotations.
Set Implicit Arguments.

(** C68 is false: from any single message of an honest party, verifiable evidence can be made that this party sent two different
    echo broadcasts. The signed hash of another part of the message is taken for the hash of an echo broadcast. *)
Theorem C68_every_message_frames : forall (P : Params) (Pr : Proto) (d : DState Pr) g dest m art k sd,
  signatures_correct P -> reachable d -> make_message (d_s d) g dest = Ok (m, art) -> k <> KEcho ->
  verify_evidence Pr (mkEvidence (s_verifier (d_s d))
    (EvMismatched (s_verifier (d_s d)) (msg_echo m) (to_signed_hash (msg_part k m)))) sd = Ok tt \/
  collide (content_bytes KEcho (sp_body (msg_echo m))) (content_bytes k (sp_body (msg_part k m))).
Proof. exact @every_message_frames. Qed.
Print Assumptions C68_every_message_frames.

Example C68_frames_case : exists m art, signatures_correct toyP /\ reachable (tstart cfg3 1) /\
  make_message (d_s (tstart cfg3 1)) g0 (0%N : @Verifier toyP) = Ok (m, art) /\ KNormal <> KEcho /\ KDirect <> KEcho.
Proof.
  destruct (@tmsg_made cfg3 (d_s (tstart cfg3 1)) 0%N) as [art Ha]; [toy|].
  exists (tmsg (d_s (tstart cfg3 1)) 0), art. split; [exact toy_signatures|].
  split; [exists (tsession cfg3 1), []; split; [apply toy_initial|constructor]|]. split; [exact Ha|]. split; discriminate.
Qed.

Theorem C68_not_framed_refuted : exists (P : Params) (Pr : Proto) (d : DState Pr) g dest m art sd,
  signatures_correct P /\ reachable d /\ make_message (d_s d) g dest = Ok (m, art) /\
  verify_evidence Pr (mkEvidence (s_verifier (d_s d))
    (EvMismatched (s_verifier (d_s d)) (msg_echo m) (to_signed_hash (msg_normal m)))) sd = Ok tt.
Proof.
  destruct C68_frames_case as (m & art & H1 & H2 & H3 & H4 & _).
  exists toyP, (toyPr cfg3), (tstart cfg3 1), g0, (0%N : @Verifier toyP), m, art, tt.
  split; [exact H1|]. split; [exact H2|]. split; [exact H3|].
  destruct (@every_message_frames toyP (toyPr cfg3) _ _ _ _ _ KNormal tt H1 H2 H3 H4) as [H|[C1 C2]]; [exact H|]. exfalso. apply C1, C2.
Qed.
Print Assumptions C68_not_framed_refuted.

(** What holds instead: with verified evidence that an honest party [u] sent two different echo broadcasts in one round, the
    hash in it is that of another part that [u] sent in that round (or hashes collide). *)
Theorem C68_not_framed_partial : forall (P : Params) (Pr : Proto) (honest : Verifier -> Prop) (w : World Pr) ws u ev sd p h,
  prefix_free_meta P -> plain_ids Pr -> no_return Pr -> wtrace honest (w :: ws) ->
  verify_evidence Pr ev sd = Ok tt -> ev_body ev = EvMismatched u p h ->
  signed_in w u (digest_of p) -> signed_in w u (digest_of_hash h) ->
  (exists m k, In (u, m) (w_sent w) /\
     (parts_collide KEcho k (sp_meta p) (sp_meta (msg_part k m)) (sp_body p) (sp_body (msg_part k m)) \/
      hash_collides h (msg_part k m))) \/
  hash_of_other_part (w :: ws) u (m_session (sp_meta p)) (m_round (sp_meta p)) h.
Proof. exact @mismatch_against_honest. Qed.
Print Assumptions C68_not_framed_partial.

(** C69. What an honest party's session can hold as evidence against an honest party, whatever the dishonest parties and the
    network do: either the protocol itself rejected a message that this party made in the same round, or a dishonest
    party [x] echoed the hash of a part of another kind as that of the echo broadcast (or hashes collide). *)
Theorem C69_no_false_evidence_partial : forall (P : Params) (Pr : Proto) (honest : Verifier -> Prop) (w : World Pr) ws v sid d x ev,
  prefix_free_meta P -> echo_codec P -> signatures_correct P -> plain_ids Pr -> no_return Pr -> no_echo_errors Pr ->
  (forall u, honest u \/ ~ honest u) -> wtrace honest (w :: ws) -> unforged_echoes honest w ->
  w_node w v sid = Some d -> has_evidence d x ev -> honest (ev_guilty ev) ->
  found_collision w \/ found_echo_collision w \/
  (x = ev_guilty ev /\ exists d1 st dU g dest m art err, was (w :: ws) v sid d1 /\ s_round (d_s d1) = RMain st /\
     was (w :: ws) x sid dU /\ s_round_id (d_s dU) = s_round_id (d_s d1) /\
     mem dest (message_destinations (d_s dU)) = true /\ make_message (d_s dU) g dest = Ok (m, (dest, art)) /\
     receive Pr st x (contents m) = Err err) \/
  (~ honest x /\ exists d1 p h, was (w :: ws) v sid d1 /\ in_echo_round (d_s d1) /\
     ev_body ev = EvMismatched (ev_guilty ev) p h /\ held_echo (d_s d1) (ev_guilty ev) p /\
     hash_of_other_part (w :: ws) (ev_guilty ev) sid (main_of (s_round_id (d_s d1))) h).
Proof. exact @evidence_against_honest. Qed.
Print Assumptions C69_no_false_evidence_partial.

(** The attack: parties 0 and 1 are honest. The dishonest party 2 behaves well in round 1. In its echo message to party 0, it
    replaces the hash of the echo broadcast of party 1 by the hash of the direct message that party 1 sent to it. *)
Definition confused : bmap (@Verifier toyP) SHash :=
  of_list [(0%N, to_signed_hash (s_echo (tsession cfg3 0))); (1%N, to_signed_hash (msg_direct (tmsg (tsession cfg3 1) 2)))].
Definition world3 : list (N * cmd (P := toyP)) :=
  (world1 ++ [(0, CFin); (0, @CPre toyP 2 (tforge 2 sid0 (echo_of (rid_new 1)) None None (Some (toy_ser_echo confused)))); (0, CProc 0)])%N.

Example C69_case : let w := fst (wfinal cfg3 hon world3) in let ev := evidence_of (node0 w) 2 in
  prefix_free_meta toyP /\ echo_codec toyP /\ signatures_correct toyP /\ plain_ids (toyPr cfg3) /\ no_return (toyPr cfg3) /\
  no_echo_errors (toyPr cfg3) /\ (forall u, hon u = true \/ hon u <> true) /\
  wtrace (fun u => hon u = true) (w :: snd (wfinal cfg3 hon world3)) /\ unforged_echoes (fun u => hon u = true) w /\
  w_node w (0%N : @Verifier toyP) sid0 = Some (node0 w) /\ has_evidence (node0 w) (2%N : @Verifier toyP) ev /\
  hon (ev_guilty ev) = true /\ verify_evidence (toyPr cfg3) ev tt = Ok tt /\
  match ev_body ev with EvMismatched _ _ _ => true | _ => false end = true.
Proof.
  intros w ev. split; [exact toy_prefix_free|]. split; [exact toy_codec|]. split; [exact toy_signatures|]. split; [apply toy_plain|].
  split; [apply toy_no_return|]. split; [apply toy_no_echo_errors|]. split; [intros u; destruct (hon u); auto|].
  split; [apply wfinal_ok|]. split; [apply unforged_echoesb_ok; toy|].
  split.
  { unfold node0. assert (H : match w_node w 0%N sid0 with Some _ => true | None => false end = true) by toy.
    destruct (w_node w 0%N sid0) as [d|]; [reflexivity|discriminate H]. }
  split; [apply has_evidenceb_ok; toy|]. split; [toy|]. split; toy.
Qed.

(** C69 is false: in a session without hash collisions, honest party [v] holds evidence against the honest party [u] that
    verifies, and no message of [u] was rejected by the protocol. *)
Theorem C69_no_false_evidence_refuted : exists (P : Params) (Pr : Proto) (honest : Verifier -> Prop) (w : World Pr) ws v sid d x ev sd,
  prefix_free_meta P /\ echo_codec P /\ signatures_correct P /\ plain_ids Pr /\ no_return Pr /\ no_echo_errors Pr /\
  wtrace honest (w :: ws) /\ unforged_echoes honest w /\ ~ found_collision w /\ ~ found_echo_collision w /\
  w_node w v sid = Some d /\ has_evidence d x ev /\ honest (ev_guilty ev) /\ verify_evidence Pr ev sd = Ok tt /\ x <> ev_guilty ev.
Proof.
  destruct C69_case as (H1 & H2 & H3 & H4 & H5 & H6 & _ & H8 & H9 & H10 & H11 & H12 & H13 & _).
  assert (NC : forall x y, ~ @collide toyP x y) by (intros x y [C1 C2]; exact (C1 C2)).
  exists toyP, (toyPr cfg3), (fun u => hon u = true), (fst (wfinal cfg3 hon world3)), (snd (wfinal cfg3 hon world3)),
    (0%N : @Verifier toyP), sid0, (node0 (fst (wfinal cfg3 hon world3))), (2%N : @Verifier toyP),
    (evidence_of (node0 (fst (wfinal cfg3 hon world3))) 2), tt.
  do 8 (split; [assumption|]).
  split; [intros (u & m & m' & k & k' & _ & _ & [C|(mb & mb' & _ & _ & C)]); exact (NC _ _ C)|].
  split; [intros (m & msg & x & h & u & m' & k & _ & _ & _ & _ & mb & mb' & _ & _ & C); exact (NC _ _ C)|].
  split; [assumption|]. split; [assumption|]. split; [exact H12|]. split; [assumption|].
  intros E. assert (Hx : hon 2 = true) by (rewrite <- E in H12; exact H12). discriminate Hx.
Qed.
Print Assumptions C69_no_false_evidence_refuted.

(** The hypotheses of the partial version of C68 are met by the evidence of the same session. *)
Example C68_partial_case : let w := fst (wfinal cfg3 hon world3) in let ev := evidence_of (node0 w) 2 in exists p h,
  verify_evidence (toyPr cfg3) ev tt = Ok tt /\ ev_body ev = EvMismatched (1%N : @Verifier toyP) p h /\
  signed_in w (1%N : @Verifier toyP) (digest_of p) /\ signed_in w (1%N : @Verifier toyP) (digest_of_hash h).
Proof.
  intros w ev.
  assert (H : match ev_body ev with
              | EvMismatched u p h => (N.eqb u 1 && hash_unforged (w_sent w) 1 (to_signed_hash p) && hash_unforged (w_sent w) 1 h)%bool
              | _ => false end = true) by toy.
  destruct (ev_body ev) as [| | | | |u p h] eqn:E; try discriminate H.
  apply andb_true_iff in H as [H Hh]. apply andb_true_iff in H as [Hu Hp].
  apply N.eqb_eq in Hu. subst u. exists p, h. split; [toy|]. split; [reflexivity|]. split; [|now apply hash_unforged_ok].
  apply hash_unforged_ok in Hp. rewrite <- digest_of_signed_hash in Hp. exact Hp.
Qed.
