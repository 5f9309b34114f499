(** Properties C35, C36 and C37: chained protocols. *)
From Coq Require Import List NArith Bool.
From Verif Require Import Base BMap Errors RoundId Message Protocol Transcript Evidence Session Typed Simple Chain DoubleSimple Spec SpecEvidence SpecTyped
  SpecChain Exec IntakeFacts Toy ToySimple ToyChain TypedFacts ChainFacts.
Import ListNotations.
Set Implicit Arguments.

(** C35. The sequences of rounds of a chained protocol, starting in a round of the first protocol, are exactly the sequences
    of rounds of the first protocol, and those sequences of it that end with a result, followed by a sequence of rounds of
    the second protocol that starts with the entry round made from that result. *)
Theorem C35_rounds : forall (P : Params) (P1 P2 : Proto) (j : Join P1 P2) id sr (tr : J j) st L,
  let first st1 := Chain1 j id st1 sr tr : St (chain j) in
  let second st2 := Chain2 j st2 : St (chain j) in
  rounds (chain j) (first st) L <->
  (exists l, rounds P1 st l /\ L = map first l) \/
  (exists l st1 r g st2 l2, rounds P1 st (l ++ [st1]) /\ ends P1 st1 r /\ j_make j tr r g sr id = Ok st2 /\ rounds P2 st2 l2 /\
     L = map first (l ++ [st1]) ++ map second l2).
Proof. exact @rounds_first. Qed.
Print Assumptions C35_rounds.

(** The results of a chained protocol are those of the second protocol. *)
Theorem C35_results : forall (P : Params) (P1 P2 : Proto) (j : Join P1 P2),
  (forall id st sr (tr : J j) r, ~ ends (chain j) (Chain1 j id st sr tr : St (chain j)) r) /\
  (forall st r, ends (chain j) (Chain2 j st : St (chain j)) r <-> ends P2 st r).
Proof. intros P P1 P2 j. split; [intros id st sr tr r; exact (@ends_first P P1 P2 j id sr tr st r)|exact (@ends_second P P1 P2 j)]. Qed.
Print Assumptions C35_results.

(** In each round the chained protocol communicates as the inner round does: the same messages, recipients, and senders,
    and the same answers to received messages. *)
Theorem C35_same_communication : forall (P : Params) (P1 P2 : Proto) (j : Join P1 P2),
  (forall id sr (tr : J j) st, acts_as (A := chain j) 1 inl inl (Chain1 j id st sr tr) st) /\
  (forall st, acts_as (A := chain j) 2 inr inr (Chain2 j st) st).
Proof. intros P P1 P2 j. split; [exact (@first_acts_as P P1 P2 j)|exact (@second_acts_as P P1 P2 j)]. Qed.
Print Assumptions C35_same_communication.

(** A finalization of a chained round is one finalization of the inner round with the same payloads and artifacts. *)
Theorem C35_same_finalization : forall (P : Params) (P1 P2 : Proto) (j : Join P1 P2),
  (forall id sr (tr : J j) st g ps arts,
    finalize (chain j) (Chain1 j id st sr tr) g (map_values inl ps) (map_values inl arts) =
    match finalize P1 st (rsub 0 g) ps arts with
    | Ok (AnotherRound st') => Ok (AnotherRound (Chain1 j id st' sr tr : St (chain j)))
    | Ok (Finished_ r) => match j_make j tr r (rsub 1 g) sr id with
                          | Ok st2 => Ok (AnotherRound (Chain2 j st2 : St (chain j))) | Err e => Err e | Panic => Panic end
    | Err e => Err e
    | Panic => Panic
    end) /\
  (forall st g ps arts,
    finalize (chain j) (Chain2 j st) g (map_values inr ps) (map_values inr arts) =
    match finalize P2 st g ps arts with
    | Ok (AnotherRound st') => Ok (AnotherRound (Chain2 j st' : St (chain j)))
    | Ok (Finished_ r) => Ok (Finished_ r)
    | Err e => Err e
    | Panic => Panic
    end).
Proof. intros P P1 P2 j. split; [exact (@first_finalize P P1 P2 j)|exact (@second_finalize P P1 P2 j)]. Qed.
Print Assumptions C35_same_finalization.

(** A session of any protocol executes rounds of such a sequence, starting with the entry point's round, and reports a
    result that its current round may produce. *)
Theorem C35_sessions_follow_rounds : forall (P : Params) (Pr : Proto) g sid signer (ep : EntryPoint Pr) s es d,
  session_new g sid signer ep = Ok s -> run (start s) es d ->
  (exists st0 l st, ep_make ep (rsub 0 g) sid (signer_key signer) = Ok st0 /\ rounds Pr st0 (l ++ [st]) /\ executes (d_s d) st) /\
  (forall g' rep, finalize_round (d_s d) g' (d_a d) = Ok (ROFinished rep) ->
     exists st r, executes (d_s d) st /\ ends Pr st r /\ rep_outcome rep = OResult r).
Proof.
  intros P Pr g sid signer ep s es d Hn Hr. split; [exact (@session_rounds P Pr g sid signer ep s es d Hn Hr)|].
  intros g' rep. apply session_result. exists s, es. split; auto. exists g, sid, signer, ep. exact Hn.
Qed.
Print Assumptions C35_sessions_follow_rounds.

(** So a session of a chained protocol executes the first protocol with the given entry point, and then, if that one
    produced a result, the second with the entry point made from the result; the shared randomness and the party's own id
    are the same for both. *)
Theorem C35_chained_session : forall (P : Params) (P1 P2 : Proto) (j : Join P1 P2) g sid signer (ep : EntryPoint P1) (tr : J j) s es d,
  session_new g sid signer (chain_entry j ep tr) = Ok s -> run (start s) es d ->
  exists st0, ep_make ep (rsub 0 g) sid (signer_key signer) = Ok st0 /\
    ((exists l st, rounds P1 st0 (l ++ [st]) /\ executes (d_s d) (Chain1 j (signer_key signer) st sid tr : St (chain j))) \/
     (exists l st1 r g2 st2 l2 st, rounds P1 st0 (l ++ [st1]) /\ ends P1 st1 r /\
        j_make j tr r g2 sid (signer_key signer) = Ok st2 /\ rounds P2 st2 (l2 ++ [st]) /\
        executes (d_s d) (Chain2 j st : St (chain j)))).
Proof. exact @chain_session. Qed.
Print Assumptions C35_chained_session.

Theorem C35_chained_result : forall (P : Params) (P1 P2 : Proto) (j : Join P1 P2) (d : DState (chain j)) g rep,
  reachable d -> finalize_round (d_s d) g (d_a d) = Ok (ROFinished rep) ->
  exists st r, executes (d_s d) (Chain2 j st : St (chain j)) /\ ends P2 st r /\ rep_outcome rep = OResult r.
Proof. exact @chain_result. Qed.
Print Assumptions C35_chained_result.

(** The example of simple_chain.rs with three parties: the ids of the rounds of party 0, and the result asserted by the test
    of that file. *)
Example C35_case :
  session_new g0 sid0 (0%N : @Signer toyP) dblEP = Ok (dbl_session 0) /\
  run (start (dbl_session 0)) (trace g0 (start (dbl_session 0)) (dbl_cmds 5)) (dbl_final 5) /\
  map (fun n => dbl_where (dbl_final n)) (seq 0 6) =
    [(1, mkRid 1 [1] false); (1, mkRid 1 [1] true); (1, mkRid 2 [1] false);
     (2, mkRid 1 [2] false); (2, mkRid 1 [2] true); (2, mkRid 2 [2] false)]%N /\
  (match finalize_round (d_s (dbl_final 5)) g0 (d_a (final g0 (start (dbl_session 0)) (removelast (dbl_cmds 6)))) with
   | Ok (ROFinished r) => Some (rep_outcome r) | _ => None end) = Some (OResult (6%N : Rslt dblPr)).
Proof. split; [apply dbl_created; toy|]. split; [apply dbl_run; toy|]. split; toy. Qed.

(** C36. Ids of rounds of the first protocol differ from those of the second. *)
Theorem C36_ids_differ : forall (P : Params) (P1 P2 : Proto) (j : Join P1 P2),
  (forall r r', group_under r 1 <> group_under r' 2) /\
  (forall id st sr (tr : J j) st2, ti_id (tinfo (chain j) (Chain1 j id st sr tr)) <> ti_id (tinfo (chain j) (Chain2 j st2))).
Proof.
  intros P P1 P2 j. split; [exact groups_differ|]. intros id st sr tr st2.
  rewrite (proj1 (@first_tinfo P P1 P2 j id sr tr st)), (proj1 (@second_tinfo P P1 P2 j st2)). apply groups_differ.
Qed.
Print Assumptions C36_ids_differ.

(** What chained rounds declare: the ids of the inner round put in group 1 (2), where the entry round of the second
    protocol takes the place of the result of the first one. *)
Theorem C36_declared : forall (P : Params) (P1 P2 : Proto) (j : Join P1 P2),
  (forall id sr (tr : J j) st, let t := tinfo (chain j) (Chain1 j id st sr tr) in
    ti_id t = group_under (ti_id (tinfo P1 st)) 1 /\
    (forall r, mem r (ti_parents t) = true <-> exists r', mem r' (ti_parents (tinfo P1 st)) = true /\ r = group_under r' 1) /\
    (forall r, mem r (ti_siblings t) = true <-> exists r', mem r' (ti_siblings (tinfo P1 st)) = true /\ r = group_under r' 1) /\
    (forall r, mem r (ti_children t) = true <->
       (exists r', mem r' (ti_children (tinfo P1 st)) = true /\ r = group_under r' 1) \/
       (ti_result (tinfo P1 st) = true /\ r = group_under (j_entry j) 2)) /\
    ti_result t = false) /\
  (forall st, let t := tinfo (chain j) (Chain2 j st) in
    ti_id t = group_under (ti_id (tinfo P2 st)) 2 /\
    (forall r, mem r (ti_parents t) = true <-> exists r', mem r' (ti_parents (tinfo P2 st)) = true /\ r = group_under r' 2) /\
    (forall r, mem r (ti_siblings t) = true <-> exists r', mem r' (ti_siblings (tinfo P2 st)) = true /\ r = group_under r' 2) /\
    (forall r, mem r (ti_children t) = true <-> exists r', mem r' (ti_children (tinfo P2 st)) = true /\ r = group_under r' 2) /\
    ti_result t = ti_result (tinfo P2 st)).
Proof. intros P P1 P2 j. split; [exact (@first_tinfo P P1 P2 j)|exact (@second_tinfo P P1 P2 j)]. Qed.
Print Assumptions C36_declared.

(** If both protocols declare all their transitions and the second entry point has the id it announces, the chained
    protocol declares all its transitions. It can be chained again: this holds at any depth of nesting. *)
Theorem C36_transitions_declared : forall (P : Params) (P1 P2 : Proto) (j : Join P1 P2),
  (forall tr r g sr id st2, j_make j tr r g sr id = Ok st2 -> ti_id (tinfo P2 st2) = j_entry j) ->
  declares P1 -> declares P2 -> declares (chain j).
Proof. exact @chain_declares. Qed.
Print Assumptions C36_transitions_declared.

(** The backward direction is not declared: the entry round of the second protocol does not have the last round of the
    first one among its parents, even if all rounds of both protocols name their parents. *)
Theorem C36_parents_refuted : exists (P : Params) (P1 P2 : Proto) (j : Join P1 P2),
  names_parents P1 /\ names_parents P2 /\ ~ names_parents (chain j).
Proof. exact one_round_parents. Qed.
Print Assumptions C36_parents_refuted.

Theorem C36_first_rounds_are_no_parents : forall (P : Params) (P1 P2 : Proto) (j : Join P1 P2) id sr (tr : J j) st st2,
  mem (ti_id (tinfo (chain j) (Chain1 j id st sr tr))) (ti_parents (tinfo (chain j) (Chain2 j st2))) = false.
Proof. exact @no_first_parents. Qed.
Print Assumptions C36_first_rounds_are_no_parents.

Example C36_case : declares simPr /\ declares dblPr /\
  (forall tr r g sr id st2, j_make (@double_join toyP toyW) tr r g sr id = Ok st2 -> ti_id (tinfo simPr st2) = j_entry (@double_join toyP toyW)) /\
  mem (mkRid 1 [2%N] false) (ti_children (s_tinfo (d_s (dbl_final 2)))) = true.
Proof. split; [exact sim_declares|]. split; [exact dbl_declares|]. split; [intros tr r g sr id st2 H; inv H; reflexivity|toy]. Qed.

(** C37. Evidence of a protocol error is, whatever the protocol, either rejected or left to the round information of the
    round it is about. *)
Theorem C37_judgement : forall (P : Params) ev e, ev_body ev = EvProtocol e ->
  malformed_for_all ev \/ exists rid sid m prev comb, judged_by ev rid (pe_error e) sid m prev comb.
Proof. exact @judgement. Qed.
Print Assumptions C37_judgement.

(** A chained protocol accepts it exactly if the round is in group 1 (2) and the information of the first (second)
    protocol for the ungrouped round accepts it, given the messages with their round ids ungrouped and its own part of the
    shared data. *)
Theorem C37_protocol_errors : forall (P : Params) (P1 P2 : Proto) (j : Join P1 P2) ev e (sd : Shared (chain j)),
  ev_body ev = EvProtocol e ->
  (verify_evidence (chain j) ev sd = Ok tt <->
   exists g r sid m prev comb prev' comb', judged_by ev (group_under r g) (pe_error e) sid m prev comb /\
     regrouped g prev prev' /\ regrouped g comb comb' /\
     ((g = 1%N /\ exists ri, round_info P1 r = Some ri /\ accepts ri r (pe_error e) (ev_guilty ev) sid (fst sd) m prev' comb') \/
      (g = 2%N /\ exists ri, round_info P2 r = Some ri /\ accepts ri r (pe_error e) (ev_guilty ev) sid (snd sd) m prev' comb'))).
Proof. exact @chain_evidence. Qed.
Print Assumptions C37_protocol_errors.

(** The same for malformed message parts (outside echo rounds, which do not depend on the protocol). *)
Theorem C37_malformed_parts : forall (P : Params) (P1 P2 : Proto) (j : Join P1 P2) ev m b
    (in_round : forall Sh, RInfo Sh -> body -> res EvidenceError unit) (sd : Shared (chain j)),
  part_evidence ev m b in_round -> rid_echo (m_round m) = false ->
  (verify_evidence (chain j) ev sd = Ok tt <->
   (exists r ri, m_round m = group_under r 1 /\ round_info P1 r = Some ri /\ in_round _ ri b = Ok tt) \/
   (exists r ri, m_round m = group_under r 2 /\ round_info P2 r = Some ri /\ in_round _ ri b = Ok tt)).
Proof. exact @chain_malformed. Qed.
Print Assumptions C37_malformed_parts.

(** A chained protocol has exactly the rounds of groups 1 and 2 that the two protocols have. *)
Theorem C37_rounds_of_the_chain : forall (P : Params) (P1 P2 : Proto) (j : Join P1 P2) rid,
  (exists ri, round_info (chain j) rid = Some ri) <->
  (exists r ri, rid = group_under r 1 /\ round_info P1 r = Some ri) \/ (exists r ri, rid = group_under r 2 /\ round_info P2 r = Some ri).
Proof. exact @chain_has_rounds. Qed.
Print Assumptions C37_rounds_of_the_chain.

(** Errors raised by rounds inside the chain require the messages of the grouped rounds. *)
Theorem C37_required_messages : forall q g,
  rq_this (rq_group_under q g) = rq_this q /\
  match rq_prev q, rq_prev (rq_group_under q g) with Some p, Some p' => regrouped g p' p | None, None => True | _, _ => False end /\
  match rq_comb q, rq_comb (rq_group_under q g) with
  | Some c, Some c' => forall r, mem r c' = true <-> exists r', mem r' c = true /\ r = group_under r' g
  | None, None => True | _, _ => False end.
Proof. exact rq_regrouped. Qed.
Print Assumptions C37_required_messages.

(** What C20, C24, C26 and C28 assume about protocols holds for chained protocols if it holds for both parts. *)
Theorem C37_hypotheses_preserved : forall (P : Params) (P1 P2 : Proto) (j : Join P1 P2),
  (plain_ids P1 -> plain_ids P2 -> plain_ids (chain j)) /\
  (info_consistent P1 -> info_consistent P2 -> info_consistent (chain j)) /\
  (no_echo_errors P1 -> no_echo_errors P2 -> no_echo_errors (chain j)) /\
  (own_parts_valid P1 -> own_parts_valid P2 -> own_parts_valid (chain j)) /\
  (echo_rounds_have_broadcasts P1 -> echo_rounds_have_broadcasts P2 -> echo_rounds_have_broadcasts (chain j)) /\
  (receive_total P1 -> receive_total P2 -> receive_total (chain j)).
Proof. exact @chain_hypotheses. Qed.
Print Assumptions C37_hypotheses_preserved.

(** Evidence about round 1 of the second protocol: accepted. The same part signed for a round of group 3, or with an
    earlier message of the first protocol attached: rejected. *)
Example C37_case :
  map (fun g => verify_evidence dblPr (dbl_evidence [g] empty) (tt, tt)) [1; 2; 3]%N = [Ok tt; Ok tt; Err EE_Invalid] /\
  verify_evidence dblPr (dbl_evidence [] empty) (tt, tt) = Err EE_Invalid /\
  verify_evidence dblPr (dbl_evidence [2%N] (insert (mkRid 2 [2%N] false) (dbl_part (mkRid 2 [2%N] false)) empty)) (tt, tt) = Ok tt /\
  verify_evidence dblPr (dbl_evidence [2%N] (insert (mkRid 1 [1%N] false) (dbl_part (mkRid 1 [1%N] false)) empty)) (tt, tt) = Err (EE_Local LE_BadGroup).
Proof. split; [toy|]. split; [toy|]. split; toy. Qed.
