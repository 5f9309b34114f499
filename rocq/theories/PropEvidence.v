(** Properties of evidence: C24, C25, C26, C27, C28, C29. *)
From Coq Require Import List NArith Bool.
From Verif Require Import Base BMap Errors RoundId Message Protocol Transcript Evidence Session Spec SpecCrypto SpecEvidence
  MessageFacts SessionFacts RunFacts IntakeFacts RoundFacts FinalizeFacts HistoryFacts SignFacts EchoFacts EvidenceFacts GuiltFacts
  Exec Toy ToyCrypto ToyOwn.
Import ListNotations.
Set Implicit Arguments.

(** C24. Recorded evidence of a malformed part is filed under its sender, names them, and verifies. *)
Theorem C24_malformed_evidence_verifies : forall (P : Params) (Pr : Proto) (d : DState Pr) v ev sd,
  plain_ids Pr -> info_consistent Pr -> reachable d -> has_evidence d v ev -> malformed ev ->
  ev_guilty ev = v /\ verify_evidence Pr ev sd = Ok tt.
Proof. exact @malformed_verifies. Qed.
Print Assumptions C24_malformed_evidence_verifies.

(** The evidence in a report is evidence that was recorded. *)
Theorem C24_reported_evidence : forall (P : Params) (Pr : Proto) (d : DState Pr) rep v ev,
  ends_with d rep -> get v (rep_provable rep) = Some ev -> has_evidence d v ev.
Proof. exact @report_evidence. Qed.
Print Assumptions C24_reported_evidence.

Definition evidence_of c (d : DState (toyPr c)) (v : N) : Evidence (P := toyP) :=
  match get (v : @Verifier toyP) (a_provable (d_a d)) with
  | Some e => e
  | None => match get (v : @Verifier toyP) (tr_provable (s_tr (d_s d))) with Some e => e | None => @mkEvidence toyP 0%N (EvNormal dummy_part) end
  end.
Definition has_evidenceb c (d : DState (toyPr c)) (v : N) : bool :=
  (is_some (get (v : @Verifier toyP) (a_provable (d_a d))) || is_some (get (v : @Verifier toyP) (tr_provable (s_tr (d_s d)))))%bool.
Lemma has_evidenceb_ok c (d : DState (toyPr c)) v : has_evidenceb d v = true -> has_evidence d (v : @Verifier toyP) (evidence_of d v).
Proof.
  assert (H : forall (a b : option (@Evidence toyP)) z, (is_some a || is_some b)%bool = true ->
    let e := match a with Some e => e | None => match b with Some e => e | None => z end end in b = Some e \/ a = Some e).
  { intros [a|] [b|] z; simpl; auto; discriminate. }
  intros Hv. exact (H _ _ _ Hv).
Qed.

(** Party 1 sends a direct message that is not one byte (in a round), then an echo message with an unexpected direct message
    (in an echo round). *)
Definition bad_part : list (cmd (P := toyP)) :=
  [@CPre toyP 1%N (tforge 1 sid0 (rid_new 1) (Some [1; 2]%N) (Some [21]%N) None); CProc 0].
Definition honest1 (me : N) : list (cmd (P := toyP)) :=
  match me with
  | 0%N => [pre cfg3 1 0; pre cfg3 2 0; CProc 0; CProc 0]
  | 1%N => [pre cfg3 0 1; pre cfg3 2 1; CProc 0; CProc 0]
  | _ => [pre cfg3 0 2; pre cfg3 1 2; CProc 0; CProc 0]
  end.
Definition bad_echo_part : list (cmd (P := toyP)) :=
  honest1 0 ++ [CFin; @CPre toyP 1%N (tforge 1 sid0 (echo_of (rid_new 1)) (Some [1]%N) None None); CProc 0].
Example C24_case :
  plain_ids (toyPr cfg3) /\ info_consistent (toyPr cfg3) /\
  (let d := tfinal cfg3 0 bad_part in reachable d /\ has_evidence d (1%N : @Verifier toyP) (evidence_of d 1) /\ malformed (evidence_of d 1)) /\
  (let d := tfinal cfg3 0 bad_echo_part in reachable d /\ has_evidence d (1%N : @Verifier toyP) (evidence_of d 1) /\ malformed (evidence_of d 1)).
Proof.
  split; [apply toy_plain|]. split; [apply toy_consistent|]. split; (split; [apply toy_reachable; toy|]); (split; [apply has_evidenceb_ok; toy|]); vm_compute; exact I.
Qed.

(** C25. Recorded evidence of a protocol error names the sender of the message that caused it; what verification gives to
    the protocol's check is the round, party, session, serialized error, and the required parts of that message, of the
    party's earlier messages, and of the broadcasts it echoed. *)
Theorem C25_protocol_evidence_verifies : forall (P : Params) (Pr : Proto) (d : DState Pr) v ev pe,
  signatures_correct P -> plain_ids Pr ->
  (forall st from m err, receive Pr st from m = Err (RProtocol err) -> api_parts (rq_this (be_required err))) ->
  reachable d -> has_evidence d v ev -> ev_body ev = EvProtocol pe ->
  ev_guilty ev = v /\
  exists (d1 : DState Pr) vm err eb prev comb, reachable d1 /\ s_id (d_s d1) = s_id (d_s d) /\ In vm (d_todo d1) /\ vm_from vm = v /\
    vmessage_authentic (s_id (d_s d1)) (s_round_id (d_s d1)) vm /\
    rd_receive (s_round (d_s d1)) v (mkDynMsg (sp_body (vm_echo vm)) (sp_body (vm_normal vm)) (sp_body (vm_direct vm))) = Err (RProtocol err) /\
    be_ser err = Some eb /\ required_earlier (s_tr (d_s d1)) v (be_required err) prev /\
    required_echoed (s_tr (d_s d1)) v (be_required err) comb /\
    forall sd ri, round_info Pr (s_round_id (d_s d1)) = Some ri ->
      let this := rq_this (be_required err) in
      verify_evidence Pr ev sd = ri_verify ri (s_round_id (d_s d1)) eb v (s_id (d_s d1)) sd
        (mkEvMsg (if rp_direct this then Some (sp_body (vm_direct vm)) else None)
                 (if rp_normal this then Some (sp_body (vm_normal vm)) else None)
                 (if rp_echo this then Some (sp_body (vm_echo vm)) else None)) prev comb.
Proof. exact @protocol_evidence_verifies. Qed.
Print Assumptions C25_protocol_evidence_verifies.

(** In round 2 party 1 causes an error that refers to its messages of round 1 and to the broadcasts it echoed; the evidence
    verifies. *)
Definition after_echo (me : N) : DState (toyPr cfg3) := tthen (tfinal cfg3 me (honest1 me)) [CFin].
Definition round2_0 : DState (toyPr cfg3) :=
  tthen (after_echo 0) [@CPre toyP 1%N (tmsg (d_s (after_echo 1)) 0); @CPre toyP 2%N (tmsg (d_s (after_echo 2)) 0); CProc 0; CProc 0; CFin].
Definition blamed : DState (toyPr cfg3) :=
  tthen round2_0 [@CPre toyP 1%N (tforge 1 sid0 (rid_new 2) (Some [100]%N) None None); CProc 0].
Lemma blamed_reachable : reachable blamed.
Proof. apply then_reachable; [apply then_reachable; [apply then_reachable; [apply toy_reachable; toy|toy]|toy]|toy]. Qed.
Example C25_case : exists pe,
  signatures_correct toyP /\ plain_ids (toyPr cfg3) /\
  (forall st from m err, receive (toyPr cfg3) st from m = Err (RProtocol err) -> api_parts (rq_this (be_required err))) /\
  reachable blamed /\ has_evidence blamed (1%N : @Verifier toyP) (evidence_of blamed 1) /\ ev_body (evidence_of blamed 1) = EvProtocol pe /\
  is_empty (pe_echos pe) = false /\ is_empty (pe_hashes pe) = false /\ verify_evidence (toyPr cfg3) (evidence_of blamed 1) tt = Ok tt.
Proof.
  assert (H : forall e : EvEnum (P := toyP), match e with EvProtocol pe => (negb (is_empty (pe_echos pe)) && negb (is_empty (pe_hashes pe)))%bool | _ => false end = true ->
    exists pe, e = EvProtocol pe /\ is_empty (pe_echos pe) = false /\ is_empty (pe_hashes pe) = false).
  { intros [pe| | | | |]; try discriminate. intros H. exists pe. split; auto. apply andb_prop in H as [H1 H2]. now rewrite negb_true_iff in H1, H2. }
  destruct (H (ev_body (evidence_of blamed 1))) as (pe & H1 & H2 & H3); [toy|]. exists pe.
  split; [exact toy_signatures|]. split; [apply toy_plain|]. split; [apply toy_api|]. split; [exact blamed_reachable|].
  split; [apply has_evidenceb_ok; toy|]. split; [exact H1|]. split; [exact H2|]. split; [exact H3|]. toy.
Qed.

(** C26 is false: party 1 echoes, in place of 2's broadcast, the (empty) echo broadcast part that 2 signed for the echo round.
    Party 0 detects this and records evidence, which does not verify. *)
Definition swapped : bmap (@Verifier toyP) SHash :=
  of_list [(0%N, to_signed_hash (s_echo (tsession cfg3 0))); (2%N, to_signed_hash (msg_echo (tmsg (d_s (after_echo 2)) 0)))].
Definition tricked : DState (toyPr cfg3) :=
  tthen (after_echo 0) [@CPre toyP 1%N (tforge 1 sid0 (echo_of (rid_new 1)) None None (Some (toy_ser_echo swapped))); CProc 0].
Theorem C26_echo_evidence_verifies_refuted : exists (P : Params) (Pr : Proto) (d : DState Pr) v ev p u sd,
  signatures_correct P /\ echo_codec P /\ plain_ids Pr /\ no_echo_errors Pr /\ reachable d /\ has_evidence d v ev /\
  ev_body ev = EvInvalidEcho p u /\ verify_evidence Pr ev sd = Err EE_Invalid.
Proof.
  assert (H : forall e : EvEnum (P := toyP), match e with EvInvalidEcho _ _ => true | _ => false end = true -> exists p u, e = EvInvalidEcho p u).
  { intros []; try discriminate. eauto. }
  destruct (H (ev_body (evidence_of tricked 1))) as (p & u & Hb); [toy|].
  exists toyP, (toyPr cfg3), tricked, (1%N : @Verifier toyP), (evidence_of tricked 1), p, u, tt.
  split; [exact toy_signatures|]. split; [exact toy_codec|]. split; [apply toy_plain|]. split; [apply toy_no_echo_errors|].
  split; [apply then_reachable; [apply then_reachable; [apply toy_reachable; toy|toy]|toy]|].
  split; [apply has_evidenceb_ok; toy|]. split; [exact Hb|]. toy.
Qed.
Print Assumptions C26_echo_evidence_verifies_refuted.

(** C26, what holds. Evidence of equivocation always verifies (and names the equivocator). *)
Theorem C26_mismatch_evidence_verifies : forall (P : Params) (Pr : Proto) (d : DState Pr) v ev g p h sd,
  signatures_correct P -> no_echo_errors Pr -> reachable d -> has_evidence d v ev ->
  ev_body ev = EvMismatched g p h -> ev_guilty ev = g /\ verify_evidence Pr ev sd = Ok tt.
Proof. exact @mismatched_verifies. Qed.
Print Assumptions C26_mismatch_evidence_verifies.

(** Evidence of an invalid echo is recorded only if the echoed hash is not validly signed or not for the echoed round; it
    verifies except if the hash is validly signed by its alleged sender for the echo round itself. *)
Theorem C26_invalid_echo_evidence_verifies_partial : forall (P : Params) (Pr : Proto) (d : DState Pr) v ev p u sd,
  no_echo_errors Pr -> reachable d -> has_evidence d v ev -> ev_body ev = EvInvalidEcho p u ->
  ev_guilty ev = v /\ exists msg h, body_echo_msg (sp_body p) = Some msg /\ get u msg = Some h /\
    (hash_signed u h -> m_round (sh_meta h) <> main_of (m_round (sp_meta p)) \/ m_session (sh_meta h) <> m_session (sp_meta p)) /\
    ser_meta (sh_meta h) <> None /\
    ((hash_signed u h /\ sh_meta h = sp_meta p) \/ verify_evidence Pr ev sd = Ok tt).
Proof. exact @invalid_echo_verifies. Qed.
Print Assumptions C26_invalid_echo_evidence_verifies_partial.

(** Both kinds are recorded: party 1 echoes a different (validly signed) broadcast of 2; or a hash signed by itself. *)
Definition equivocated : bmap (@Verifier toyP) SHash :=
  of_list [(0%N, to_signed_hash (s_echo (tsession cfg3 0)));
           (2%N, to_signed_hash (msg_echo (tforge 2 sid0 (rid_new 1) (Some [12]%N) (Some [99]%N) None)))].
Definition fabricated : bmap (@Verifier toyP) SHash :=
  of_list [(0%N, to_signed_hash (s_echo (tsession cfg3 0)));
           (2%N, to_signed_hash (msg_echo (tforge 1 sid0 (rid_new 1) (Some [12]%N) (Some [99]%N) None)))].
Definition got_echo (e : bmap (@Verifier toyP) SHash) : DState (toyPr cfg3) :=
  tthen (after_echo 0) [@CPre toyP 1%N (tforge 1 sid0 (echo_of (rid_new 1)) None None (Some (toy_ser_echo e))); CProc 0].
Example C26_case :
  (let d := got_echo equivocated in reachable d /\ has_evidence d (1%N : @Verifier toyP) (evidence_of d 1) /\
     match ev_body (evidence_of d 1) with EvMismatched _ _ _ => true | _ => false end = true) /\
  (let d := got_echo fabricated in reachable d /\ has_evidence d (1%N : @Verifier toyP) (evidence_of d 1) /\
     match ev_body (evidence_of d 1) with EvInvalidEcho _ _ => true | _ => false end = true).
Proof.
  split; (split; [apply then_reachable; [apply then_reachable; [apply toy_reachable; toy|toy]|toy]|]); (split; [apply has_evidenceb_ok; toy|]); toy.
Qed.

(** C27 is false: evidence of equivocation by 2 verifies for any value of [guilty_party]. *)
Theorem C27_verified_is_signed_refuted : exists (P : Params) (Pr : Proto) (ev : Evidence) (sd : Shared Pr),
  verify_evidence Pr ev sd = Ok tt /\ ~ carries_signature (ev_guilty ev) (ev_body ev).
Proof.
  set (w := msg_echo (tmsg (tsession cfg3 2) 0)).
  set (h := to_signed_hash (msg_echo (tforge 2 sid0 (rid_new 1) (Some [12]%N) (Some [99]%N) None))).
  exists toyP, (toyPr cfg3), (@mkEvidence toyP 1%N (@EvMismatched toyP 2%N w h)), tt. split; [toy|].
  simpl. intros [H|H].
  - assert (Hv : is_ok (verify_part (1%N : @Verifier toyP) w) = true) by (rewrite (proj2 (verify_part_ok (1%N : @Verifier toyP) w w) (conj eq_refl H)); reflexivity).
    assert (Hn : is_ok (verify_part (1%N : @Verifier toyP) w) = false) by toy. congruence.
  - assert (Hv : is_ok (verify_shash (1%N : @Verifier toyP) h) = true) by (rewrite (proj2 (verify_shash_ok (1%N : @Verifier toyP) h h) (conj eq_refl H)); reflexivity).
    assert (Hn : is_ok (verify_shash (1%N : @Verifier toyP) h) = false) by toy. congruence.
Qed.
Print Assumptions C27_verified_is_signed_refuted.

(** C27, what holds: evidence that verifies contains a part or hash signed by the guilty party - where for evidence of
    equivocation the guilty party is the one named inside the evidence, not the one returned by [guilty_party]. *)
Theorem C27_verified_is_signed_partial : forall (P : Params) (Pr : Proto) ev (sd : Shared Pr), verify_evidence Pr ev sd = Ok tt ->
  carries_signature (match ev_body ev with EvMismatched g _ _ => g | _ => ev_guilty ev end) (ev_body ev).
Proof. exact @verified_signed. Qed.
Print Assumptions C27_verified_is_signed_partial.

(** What each kind of evidence shows when it verifies. *)
Theorem C27_mismatch : forall (P : Params) (Pr : Proto) ev (sd : Shared Pr) g w h,
  verify_evidence Pr ev sd = Ok tt -> ev_body ev = EvMismatched g w h ->
  part_signed g w /\ hash_signed g h /\ sp_meta w = sh_meta h /\ sh_hash h <> hash (content_bytes KEcho (sp_body w)).
Proof. exact @verified_mismatched. Qed.
Print Assumptions C27_mismatch.

Theorem C27_invalid_echo : forall (P : Params) (Pr : Proto) ev (sd : Shared Pr) p u,
  verify_evidence Pr ev sd = Ok tt -> ev_body ev = EvInvalidEcho p u ->
  part_signed (ev_guilty ev) p /\ exists msg h, body_echo_msg (sp_body p) = Some msg /\ get u msg = Some h /\
    (~ hash_signed u h \/ sh_meta h <> sp_meta p).
Proof. exact @verified_invalid_echo. Qed.
Print Assumptions C27_invalid_echo.

(** Protocol evidence: all its parts are signed by the guilty party for the same session and the right rounds; the echoed
    broadcasts are signed by their senders and match the hashes the guilty party echoed; and the protocol's check accepts. *)
Theorem C27_protocol : forall (P : Params) (Pr : Proto) ev (sd : Shared Pr) e,
  verify_evidence Pr ev sd = Ok tt -> ev_body ev = EvProtocol e ->
  exists sid rid ri comb, let v := ev_guilty ev in
    round_info Pr rid = Some ri /\
    (forall p, pe_direct e = Some p -> part_signed v p /\ sp_meta p = mkMeta sid rid) /\
    (forall p, pe_echo e = Some p -> part_signed v p /\ sp_meta p = mkMeta sid rid) /\
    (forall p, pe_normal e = Some p -> part_signed v p /\ sp_meta p = mkMeta sid rid) /\
    (forall r p, get r (pe_directs e) = Some p -> part_signed v p /\ sp_meta p = mkMeta sid r) /\
    (forall r p, get r (pe_echos e) = Some p -> part_signed v p /\ sp_meta p = mkMeta sid r) /\
    (forall r p, get r (pe_normals e) = Some p -> part_signed v p /\ sp_meta p = mkMeta sid r) /\
    (forall r, get r comb = None <-> get r (pe_hashes e) = None) /\
    (forall r bodies, get r comb = Some bodies -> exists p msg, get r (pe_hashes e) = Some p /\ part_signed v p /\
       sp_meta p = mkMeta sid (echo_of r) /\ body_echo_msg (sp_body p) = Some msg /\ (forall u, get u bodies = None <-> get u msg = None) /\
       forall u b, get u bodies = Some b -> exists h (q : SPart KEcho), get u msg = Some h /\ hash_signed u h /\ sh_meta h = mkMeta sid r /\
         part_signed u q /\ sp_meta q = mkMeta sid r /\ sh_hash h = hash (content_bytes KEcho b) /\ b = sp_body q) /\
    exists prev, (forall r, get r prev = None -> get r (pe_directs e) = None /\ get r (pe_normals e) = None /\ get r (pe_echos e) = None) /\
      (forall r em, get r prev = Some em ->
        em_direct em = option_map (@sp_body _) (get r (pe_directs e)) /\ em_normal em = option_map (@sp_body _) (get r (pe_normals e)) /\
        em_echo em = option_map (@sp_body _) (get r (pe_echos e))) /\
      ri_verify ri rid (pe_error e) v sid sd
        (mkEvMsg (option_map (@sp_body _) (pe_direct e)) (option_map (@sp_body _) (pe_normal e)) (option_map (@sp_body _) (pe_echo e)))
        prev comb = Ok tt.
Proof. exact @verified_protocol. Qed.
Print Assumptions C27_protocol.

Example C27_case : verify_evidence (toyPr cfg3) (evidence_of blamed 1) tt = Ok tt /\
  verify_evidence (toyPr cfg3) (evidence_of (got_echo equivocated) 1) tt = Ok tt /\
  verify_evidence (toyPr cfg3) (evidence_of (got_echo fabricated) 1) tt = Ok tt.
Proof. split; [toy|]. split; toy. Qed.

(** C28. *)
Theorem C28_honest_not_framed_malformed : forall (P : Params) (Pr : Proto) ev (sd : Shared Pr) v,
  plain_ids Pr -> echo_codec P -> own_parts_valid Pr -> signs_only_sent_messages Pr v ->
  malformed ev -> ev_guilty ev = v -> verify_evidence Pr ev sd <> Ok tt.
Proof. exact @not_framed. Qed.
Print Assumptions C28_honest_not_framed_malformed.

(** The hypotheses hold for party 0 of [ToyOwn], whose signature on its direct message is valid. *)
Example C28_case : plain_ids ownPr /\ echo_codec ownP /\ own_parts_valid ownPr /\ signs_only_sent_messages ownPr (0%N : @Verifier ownP) /\
  exists p : SPart KDirect, @part_signed ownP KDirect 0%N p /\ malformed (@mkEvidence ownP 0%N (EvDirect p)).
Proof.
  split; [exact own_plain|]. split; [exact own_codec|]. split; [exact own_valid|]. split; [exact own_signs|].
  set (p := ok_def dummy_part (@sign_part ownP KDirect g0 0%N sid0 (rid_new 1) (Some [10]%N))). exists p. split; [|exact I].
  assert (H : @verify_part ownP KDirect 0%N p = Ok p) by (vm_compute; reflexivity).
  exact (proj2 (proj1 (@verify_part_ok ownP KDirect 0%N p p) H)).
Qed.

(** C29 is false; in fact, always: from every message that a session makes in an echo round, and every echo in it, anybody can make
    evidence that verifies against its sender. *)
Theorem C29_every_echo_message_frames : forall (P : Params) (Pr : Proto) (d : DState Pr) g dest m art msg u sd,
  echo_codec P -> signatures_correct P -> reachable d -> in_echo_round (d_s d) ->
  mem dest (message_destinations (d_s d)) = true -> make_message (d_s d) g dest = Ok (m, art) ->
  body_echo_msg (sp_body (msg_normal m)) = Some msg -> contains u msg = true ->
  verify_evidence Pr (mkEvidence (s_verifier (d_s d)) (EvInvalidEcho (msg_normal m) u)) sd = Ok tt.
Proof. exact @every_echo_frames. Qed.
Print Assumptions C29_every_echo_message_frames.

Lemma echo_round_obs c (s : Session (toyPr c)) : match s_round s with REcho _ _ _ _ _ _ => true | _ => false end = true -> in_echo_round s.
Proof. unfold in_echo_round. destruct (s_round s) as [|v e i r ps arts]; try discriminate. intros _. eauto 10. Qed.
Lemma some_obs {A} (o : option A) (f : A -> bool) : match o with Some x => f x | None => false end = true -> exists x, o = Some x /\ f x = true.
Proof. destruct o; [eauto|discriminate]. Qed.

Example C29_case : exists m art msg,
  echo_codec toyP /\ signatures_correct toyP /\ reachable (after_echo 1) /\ in_echo_round (d_s (after_echo 1)) /\
  mem (0%N : @Verifier toyP) (message_destinations (d_s (after_echo 1))) = true /\
  make_message (d_s (after_echo 1)) g0 (0%N : @Verifier toyP) = Ok (m, art) /\
  body_echo_msg (sp_body (msg_normal m)) = Some msg /\ contains (2%N : @Verifier toyP) msg = true.
Proof.
  destruct (@tmsg_made cfg3 (d_s (after_echo 1)) 0%N) as [art Ha]; [toy|].
  destruct (@some_obs _ (body_echo_msg (sp_body (msg_normal (tmsg (d_s (after_echo 1)) 0)))) (contains (2%N : @Verifier toyP))) as (msg & Hm & Hc); [toy|].
  exists (tmsg (d_s (after_echo 1)) 0), art, msg.
  split; [exact toy_codec|]. split; [exact toy_signatures|]. split; [apply then_reachable; [apply toy_reachable; toy|toy]|].
  split; [apply echo_round_obs; toy|]. split; [toy|]. split; [exact Ha|]. split; [exact Hm|exact Hc].
Qed.

Theorem C29_honest_not_framed_refuted : exists (P : Params) (Pr : Proto) (d : DState Pr) g dest m art u (sd : Shared Pr),
  signatures_correct P /\ reachable d /\ mem dest (message_destinations (d_s d)) = true /\ make_message (d_s d) g dest = Ok (m, art) /\
  verify_evidence Pr (mkEvidence (s_verifier (d_s d)) (EvInvalidEcho (msg_normal m) u)) sd = Ok tt.
Proof.
  destruct C29_case as (m & art & msg & H1 & H2 & H3 & H4 & H5 & H6 & H7 & H8).
  exists toyP, (toyPr cfg3), (after_echo 1), g0, (0%N : @Verifier toyP), m, art, (2%N : @Verifier toyP), tt.
  split; [exact H2|]. split; [exact H3|]. split; [exact H5|]. split; [exact H6|].
  exact (@every_echo_frames _ _ _ _ _ _ _ _ _ _ H1 H2 H3 H4 H5 H6 H7 H8).
Qed.
Print Assumptions C29_honest_not_framed_refuted.

(** C29, what holds: the echoes in an honest echo message are validly signed by their senders, for the round that is
    echoed. (The verification compares with the metadata of the echo round instead; with the former, no evidence of this
    kind could be made from an honest message.) *)
Theorem C29_honest_echoes_correct_partial : forall (P : Params) (Pr : Proto) (d : DState Pr) g dest m art msg,
  echo_codec P -> signatures_correct P -> reachable d -> in_echo_round (d_s d) ->
  mem dest (message_destinations (d_s d)) = true -> make_message (d_s d) g dest = Ok (m, art) ->
  body_echo_msg (sp_body (msg_normal m)) = Some msg ->
  forall u h, get u msg = Some h -> u <> s_verifier (d_s d) /\ hash_signed u h /\
    sh_meta h = mkMeta (s_id (d_s d)) (main_of (s_round_id (d_s d))) /\
    exists p, held_echo (d_s d) u p /\ sh_hash h = hash (content_bytes KEcho (sp_body p)).
Proof. exact @honest_echoes_correct. Qed.
Print Assumptions C29_honest_echoes_correct_partial.
