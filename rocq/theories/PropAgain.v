(** Property C135: messages that are delivered more than once. *)
From Coq Require Import List NArith Bool.
From Verif Require Import Base BMap Errors RoundId Message Protocol Transcript Evidence Session Spec IntakeFacts Network RunSync Driver SpecDriver
  Par SpecPar SpecForge SpecAgain AgainFacts Exec Toy ToyNet ToyDriver ToyPar ToyStranger ToyAgain.
Import ListNotations.
Set Implicit Arguments.

(** C135. A message that is received a second time while the round is the same is turned down; the only effect it has is that an unprovable
    error is noted for its sender, unless the sender is banned already. *)
Theorem C135_received_again : forall (P : Params) (Pr : Proto) (d0 : DState Pr) from m o d1 es d,
  plain_ids Pr -> (forall mt, ser_meta mt <> None) -> reachable d0 -> step d0 (EPre from m o) d1 -> run d1 es d -> in_round es ->
  exists e a', preprocess_message (d_s d) (d_a d) from m = (a', Ok (PreError e)) /\ banned (d_s d) a' from /\
    (a' = d_a d \/ only_notes (d_a d) from e a').
Proof. exact @received_again. Qed.
Print Assumptions C135_received_again.

(** Party 0 receives the message of party 1, that of party 2, and that of party 1 again. *)
Example C135_case : let script := [pre cfg3n 1 0; pre cfg3n 2 0; pre cfg3n 1 0] in
  plain_ids (toyPr cfg3n) /\ (forall mt, @ser_meta toyP mt <> None) /\ reachable (tstart cfg3n 0) /\
  run (tstart cfg3n 0) (ttrace cfg3n 0 script) (tfinal cfg3n 0 script) /\ in_round (ttrace cfg3n 0 script) /\
  map (fun e => match e with EPre v m o => Some (v, m, o_error (Ok o)) | _ => None end) (ttrace cfg3n 0 script) =
  [Some (1%N : @Verifier toyP, first_message, None); Some (2%N : @Verifier toyP, tmsg (tsession cfg3n 2) 0, None);
   Some (1%N : @Verifier toyP, first_message, Some RE_DupThisRound)].
Proof.
  split; [apply toy_plain|]. split; [discriminate|]. split; [apply toy_reachable_start|]. split; [apply toy_run; toy|].
  split; vm_compute; reflexivity.
Qed.

(** So the sender is ignored from then on: if [run_session] gets a message again, it does not finish any round that still waits for this
    sender; it waits until it is cancelled. *)
Theorem C135_run_session : forall (P : Params) (Pr : Proto) r (s0 : Session Pr) l1 from m l2 s a,
  plain_ids Pr -> (forall mt, ser_meta mt <> None) -> initial s0 ->
  run_session r s0 (l1 ++ LIn from m :: l2) (DrvWait s a) -> same_round l2 -> can_finalize a = NotYet ->
  exists a', drv_step r (DrvWait s a) (IRecv from m) = Some ([LIn from m], DrvWait s a') /\ banned s a' from /\
    forall l3 s3 a3, drv_run r (DrvWait s a') l3 (DrvWait s3 a3) -> mem from (a_waiting a3) = true -> blocked r (DrvWait s3 a3).
Proof. exact @session_again. Qed.
Print Assumptions C135_run_session.

Theorem C135_par_run_session : forall (P : Params) (Pr : Proto) r (s0 : Session Pr) l1 from m l2 x,
  plain_ids Pr -> (forall mt, ser_meta mt <> None) -> initial s0 ->
  par_session r s0 (l1 ++ LIn from m :: l2) (PRun x) -> same_round l2 -> listens x ->
  exists a', par_step r (PRun x) (AReceive from m) = Some ([LIn from m], PRun (set_acc x a')) /\ banned (pp_s x) a' from /\
    forall l3 z, par_run r (PRun (set_acc x a')) l3 (PRun z) -> lacks z from -> par_blocked r z.
Proof. exact @par_session_again. Qed.
Print Assumptions C135_par_run_session.

(** Party 0 has received the message of party 1 and waits for that of party 2. *)
Example C135_drivers_case :
  (is_some (tdrive cfg3n 0 stranger_before) = true /\ skipn 3 (tlabels cfg3n 0 stranger_before) = [LIn (1%N : @Verifier toyP) first_message] /\
   match tdriver cfg3n 0 stranger_before with DrvWait s a => can_finalize a = NotYet | _ => False end) /\
  (let acts := [@AReceive toyP 1%N first_message] in is_some (tpar cfg3n 0 acts) = true /\
   skipn 1 (plabels cfg3n 0 acts) = [LIn (1%N : @Verifier toyP) first_message] /\
   match tparty cfg3n 0 acts with PRun x => listens x | _ => False end).
Proof. split; (split; [vm_compute; reflexivity|split; vm_compute; repeat split; reflexivity]). Qed.

(** Therefore the drivers need a transport that delivers every message once: here [run_session] receives a message of party 1 again, and after that
    all the messages with which it would have returned a result; but it waits for party 1. *)
Theorem C135_once_needed : exists (P : Params) (Pr : Proto) r (s0 : Session Pr) l1 from m s a l2 rep x a' l3 s3 a3,
  plain_ids Pr /\ (forall mt, ser_meta mt <> None) /\ initial s0 /\ run_session r s0 (l1 ++ [LIn from m]) (DrvWait s a) /\
  drv_run r (DrvWait s a) l2 (DrvDone (Ok rep)) /\ rep_outcome rep = OResult x /\ ~ In LCancel l2 /\
  drv_step r (DrvWait s a) (IRecv from m) = Some ([LIn from m], DrvWait s a') /\
  drv_run r (DrvWait s a') l3 (DrvWait s3 a3) /\ ~ In LCancel l3 /\
  (forall v m', In (LIn v m') l2 -> In (LIn v m') l3) /\ blocked r (DrvWait s3 a3).
Proof. exact again_blocks_toy. Qed.
Print Assumptions C135_once_needed.
