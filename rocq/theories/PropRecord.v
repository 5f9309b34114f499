(** Property C111: the transcript is the record of the session. *)
From Coq Require Import List NArith Bool.
From Verif Require Import Base BMap Errors RoundId Message Protocol Transcript Evidence Session Spec SpecEvidence SpecRecord Exec RecordFacts Toy.
Import ListNotations.
Set Implicit Arguments.

(** C111. At any point of any history of a session, the transcript has an echo broadcast of [v] for round [rid] exactly if a
    round with this id has been completed, and it is the broadcast the session made in that round, if [v] is this party, and
    otherwise that of the message of [v] that the round accepted. *)
Theorem C111_echo_broadcasts : forall (P : Params) (Pr : Proto) (s : Session Pr) es d rid v p, initial s -> run (start s) es d ->
  recorded (tr_echo (s_tr (d_s d))) rid v p <->
  exists sr er ar, completed s es d sr er ar /\ s_round_id sr = rid /\
    ((v = s_verifier sr /\ p = s_echo sr) \/ (v <> s_verifier sr /\ was_accepted sr er v (@vm_echo _) p)).
Proof. exact @echo_record. Qed.
Print Assumptions C111_echo_broadcasts.

(** It has a normal broadcast, or a direct message, exactly if that was in a message that the round accepted. *)
Theorem C111_normal_broadcasts : forall (P : Params) (Pr : Proto) (s : Session Pr) es d rid v p, initial s -> run (start s) es d ->
  recorded (tr_normal (s_tr (d_s d))) rid v p <->
  exists sr er ar, completed s es d sr er ar /\ s_round_id sr = rid /\ was_accepted sr er v (@vm_normal _) p.
Proof. exact @normal_record. Qed.
Print Assumptions C111_normal_broadcasts.

Theorem C111_direct_messages : forall (P : Params) (Pr : Proto) (s : Session Pr) es d rid v p, initial s -> run (start s) es d ->
  recorded (tr_direct (s_tr (d_s d))) rid v p <->
  exists sr er ar, completed s es d sr er ar /\ s_round_id sr = rid /\ was_accepted sr er v (@vm_direct _) p.
Proof. exact @direct_record. Qed.
Print Assumptions C111_direct_messages.

(** Its errors are those noted by the completed rounds; a report has those and the ones of the round that was going on. *)
Theorem C111_errors : forall (P : Params) (Pr : Proto) (s : Session Pr) es d v, initial s -> run (start s) es d ->
  (forall e, get v (tr_provable (s_tr (d_s d))) = Some e <-> exists sr er ar, completed s es d sr er ar /\ get v (a_provable ar) = Some e) /\
  (forall e, get v (tr_unprovable (s_tr (d_s d))) = Some e <-> exists sr er ar, completed s es d sr er ar /\ get v (a_unprovable ar) = Some e).
Proof. exact @error_record. Qed.
Print Assumptions C111_errors.

Theorem C111_reports : forall (P : Params) (Pr : Proto) (s : Session Pr) es d rep v, initial s -> run (start s) es d -> ends_with d rep ->
  (forall e, get v (rep_provable rep) = Some e <->
     (exists sr er ar, completed s es d sr er ar /\ get v (a_provable ar) = Some e) \/ get v (a_provable (d_a d)) = Some e) /\
  (forall e, get v (rep_unprovable rep) = Some e <->
     (exists sr er ar, completed s es d sr er ar /\ get v (a_unprovable ar) = Some e) \/ get v (a_unprovable (d_a d)) = Some e).
Proof. exact @report_record. Qed.
Print Assumptions C111_reports.

(** Party 0 completes round 1, in which party 5 is noted as misbehaving, and its echo round; the transcript has the parts of
    party 1, the own broadcast, the hashes party 1 sent, and the error. *)
Definition c111_round1 (me : N) : list (cmd (P := toyP)) :=
  match me with
  | 0%N => [pre cfg3 1 0; pre cfg3 2 0; CProc 0; CProc 0; @CPre toyP 5%N (tforge 5 [8]%N (rid_new 1) None None None)]
  | 1%N => [pre cfg3 0 1; pre cfg3 2 1; CProc 0; CProc 0]
  | _ => [pre cfg3 0 2; pre cfg3 1 2; CProc 0; CProc 0]
  end.
Definition c111_echo (me : N) : DState (toyPr cfg3) := tfinal cfg3 me (c111_round1 me ++ [CFin]).
Definition c111_script : list (cmd (P := toyP)) := c111_round1 0 ++ [CFin;
  @CPre toyP 1%N (tmsg (d_s (c111_echo 1)) 0); @CPre toyP 2%N (tmsg (d_s (c111_echo 2)) 0); CProc 0; CProc 0; CFin].
Definition has {k} (m : bmap RoundId (bmap N (SPart k))) (rid : RoundId) (v : N) : bool :=
  match get rid m with Some x => contains v x | None => false end.
Example C111_case :
  let d := tfinal cfg3 0 c111_script in let t := s_tr (d_s d) in
  initial (tsession cfg3 0) /\ run (start (tsession cfg3 0)) (ttrace cfg3 0 c111_script) d /\
  has (tr_echo t) (rid_new 1) 0 = true /\ has (tr_echo t) (rid_new 1) 1 = true /\ has (tr_echo t) (rid_new 1) 5 = false /\
  has (tr_direct t) (rid_new 1) 1 = true /\ has (tr_normal t) (rid_new 1) 1 = false /\
  has (tr_normal t) (mkRid 1 [] true) 1 = true /\ contains (5%N : @Verifier toyP) (tr_unprovable t) = true /\
  is_ok (terminate (d_s d) (d_a d)) = true.
Proof. split; [apply toy_initial|]. split; [apply toy_run; toy|]. repeat split; toy. Qed.
