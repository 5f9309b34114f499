(** Property C139: parties that are given different session ids. *)
From Coq Require Import List NArith Bool.
From Verif Require Import Base BMap Errors RoundId Message Protocol Transcript Evidence Session Spec SpecCrypto SessionFacts RunFacts IntakeFacts Network RunSync Driver SpecDriver
  Par SpecPar SpecForge SpecAgain SpecPerform SameIdFacts Exec Toy ToyCrypto ToyNet ToyDriver ToyPar ToySameId PropPar.
Import ListNotations.
Set Implicit Arguments.

(** C139. A message that was made in a session with another id is turned down for this reason, whoever is said to have sent it, and all that
    changes is that the error is noted for this party. *)
Theorem C139_other_id : forall (P : Params) (Pr Pr1 : Proto) (d1 : DState Pr1) g dest m art (s : Session Pr) a from,
  reachable d1 -> signatures_correct P -> make_message (d_s d1) g dest = Ok (m, art) -> s_id (d_s d1) <> s_id s -> ~ banned s a from ->
  exists a', preprocess_message s a from m = (a', Ok (PreError RE_SessionId)) /\ only_notes a from RE_SessionId a'.
Proof. exact @other_id. Qed.
Print Assumptions C139_other_id.

Example C139_id_case : let d := tstart cfg3n 0 in
  reachable (start (astray 1)) /\ signatures_correct toyP /\ (exists art, make_message (astray 1) g0 (0%N : @Verifier toyP) = Ok (astray_message, art)) /\
  s_id (astray 1) = [8; 8]%N /\ s_id (d_s d) = [7; 7]%N /\ ~ banned (d_s d) (d_a d) (1%N : @Verifier toyP).
Proof.
  split; [apply astray_reachable|]. split; [exact toy_signatures|]. split; [apply tmsg_made; toy|]. split; [toy|]. split; [toy|]. apply banned_false; toy.
Qed.

(** So a driver ignores the sender of such a message from then on, and does not finish any round that still waits for this sender. *)
Theorem C139_run_session : forall (P : Params) (Pr Pr1 : Proto) (d1 : DState Pr1) g dest m art r (s0 : Session Pr) ls s a from,
  reachable d1 -> signatures_correct P -> make_message (d_s d1) g dest = Ok (m, art) -> s_id (d_s d1) <> s_id s ->
  initial s0 -> run_session r s0 ls (DrvWait s a) -> can_finalize a = NotYet ->
  exists a', drv_step r (DrvWait s a) (IRecv from m) = Some ([LIn from m], DrvWait s a') /\ banned s a' from /\
    forall l3 s3 a3, drv_run r (DrvWait s a') l3 (DrvWait s3 a3) -> mem from (a_waiting a3) = true -> blocked r (DrvWait s3 a3).
Proof. exact @session_other_id. Qed.
Print Assumptions C139_run_session.

Theorem C139_par_run_session : forall (P : Params) (Pr Pr1 : Proto) (d1 : DState Pr1) g dest m art r (s0 : Session Pr) ls x from,
  reachable d1 -> signatures_correct P -> make_message (d_s d1) g dest = Ok (m, art) -> s_id (d_s d1) <> s_id (pp_s x) ->
  initial s0 -> par_session r s0 ls (PRun x) -> listens x ->
  exists a', par_step r (PRun x) (AReceive from m) = Some ([LIn from m], PRun (set_acc x a')) /\ banned (pp_s x) a' from /\
    forall l3 z, par_run r (PRun (set_acc x a')) l3 (PRun z) -> lacks z from -> par_blocked r z.
Proof. exact @par_session_other_id. Qed.
Print Assumptions C139_par_run_session.

Example C139_drivers_case :
  (is_some (tdrive cfg3n 0 [@IGo toyP; @IGo toyP]) = true /\
   match tdriver cfg3n 0 [@IGo toyP; @IGo toyP] with DrvWait s a => can_finalize a = NotYet /\ s_id s = [7; 7]%N | _ => False end) /\
  (is_some (tpar cfg3n 0 []) = true /\ match tparty cfg3n 0 [] with PRun x => listens x /\ s_id (pp_s x) = [7; 7]%N | _ => False end).
Proof. split; (split; [vm_compute; reflexivity|]); vm_compute; repeat split. Qed.

(** C139. If a party uses another id, then nobody signs for it what the others need: at any point of any history of a session, whatever has been
    received, the round waits if it expects a message of a party of which no message has arrived that it signed for the session's own id and
    this round. *)
Theorem C139_waits : forall (P : Params) (Pr : Proto) (s : Session Pr) es d u,
  initial s -> run (start s) es d -> expected (d_s d) u ->
  (forall m o, In (EPre u m o) es -> ~ message_authentic u (s_id s) (s_round_id (d_s d)) m) -> can_finalize (d_a d) = NotYet.
Proof. exact @silent_party. Qed.
Print Assumptions C139_waits.

(** Here a message of party 1 has arrived, but it carries another id. *)
Example C139_waits_case : let cs := [@CPre toyP 1%N astray_message; pre cfg3n 2 0; CProc 0] in
  initial (tsession cfg3n 0) /\ run (start (tsession cfg3n 0)) (ttrace cfg3n 0 cs) (tfinal cfg3n 0 cs) /\
  expected (d_s (tfinal cfg3n 0 cs)) (1%N : @Verifier toyP) /\ s_id (tsession cfg3n 0) = [7; 7]%N /\
  map (fun e => match e with EPre v m _ => [(v, m_session (sp_meta (msg_direct m)))] | _ => [] end) (ttrace cfg3n 0 cs) =
    [[(1%N : @Verifier toyP, [8; 8]%N)]; [(2%N : @Verifier toyP, [7; 7]%N)]; []].
Proof. split; [apply toy_initial|]. split; [apply toy_run; toy|]. split; [toy|]. split; toy. Qed.

(** Both drivers, if they return a report: before a round is finalized, there has arrived from everybody whom it expects a message which this party signed for the id of the
    driver's session and for this round. *)
Theorem C139_finalized : forall (P : Params) (Pr : Proto) prompt r (s0 : Session Pr) ls rep l1 s a l2 u,
  initial s0 -> called prompt r s0 ls rep -> ls = l1 ++ LFinalize s a :: l2 -> expected s u ->
  exists m, In (LIn u m) l1 /\ message_authentic u (s_id s0) (s_round_id s) m.
Proof. exact @called_signed. Qed.
Print Assumptions C139_finalized.

(** The same for the rounds that have been finalized by drivers that are still running. *)
Theorem C139_running : forall (P : Params) (Pr : Proto) r (s0 : Session Pr) ls d x l1 s a l2 u,
  initial s0 -> run_session r s0 ls d -> drv_state d = Some x -> ls = l1 ++ LFinalize s a :: l2 -> expected s u ->
  exists m, In (LIn u m) l1 /\ message_authentic u (s_id s0) (s_round_id s) m.
Proof. exact @running_signed. Qed.
Print Assumptions C139_running.

Theorem C139_par_running : forall (P : Params) (Pr : Proto) r (s0 : Session Pr) ls x l1 s a l2 u,
  initial s0 -> par_session r s0 ls (PRun x) -> ls = l1 ++ LFinalize s a :: l2 -> expected s u ->
  exists m, In (LIn u m) l1 /\ message_authentic u (s_id s0) (s_round_id s) m.
Proof. exact @par_running_signed. Qed.
Print Assumptions C139_par_running.

Example C139_finalized_case : exists ls rep l1 s a l2, called true rN (tsession cfg3n 0) ls rep /\ initial (tsession cfg3n 0) /\
  ls = l1 ++ LFinalize s a :: l2 /\ expected s (1%N : @Verifier toyP) /\ expected s (2%N : @Verifier toyP).
Proof.
  assert (C1 : is_some (tdrive cfg3n 0 good_inputs) = true) by toy. pose proof (tdrive_run _ _ _ C1) as R.
  assert (C2 : match tdriver cfg3n 0 good_inputs with DrvDone (Ok rep) => true | _ => false end = true) by toy.
  assert (C3 : match flat_map (fun l => match l with LFinalize s a => [s] | _ => [] end) (tlabels cfg3n 0 good_inputs) with
               | s :: _ => (mem (1%N : @Verifier toyP) (ci_expect (s_comm s)) && mem (2%N : @Verifier toyP) (ci_expect (s_comm s)))%bool | [] => false end = true) by toy.
  clear C1. revert R C2 C3. generalize (tlabels cfg3n 0 good_inputs) (tdriver cfg3n 0 good_inputs). intros ls d R C2 C3.
  destruct d as [| | |[rep| |]]; try discriminate C2. exists ls, rep.
  assert (K : exists l1 s a l2, ls = l1 ++ LFinalize s a :: l2 /\
    (mem (1%N : @Verifier toyP) (ci_expect (s_comm s)) && mem (2%N : @Verifier toyP) (ci_expect (s_comm s)))%bool = true).
  { clear R. induction ls as [|l ls IH]; [discriminate C3|]. destruct l as [| | | | | | |s a|];
    try (destruct (IH C3) as (l1 & s' & a' & l2 & -> & K); eexists (_ :: l1), s', a', l2; split; [reflexivity|exact K]).
    exists [], s, a, ls. split; [reflexivity|exact C3]. }
  destruct K as (l1 & s & a & l2 & -> & K). apply andb_true_iff in K as [K1 K2]. exists l1, s, a, l2.
  split; [exact R|]. split; [apply toy_initial|]. split; [reflexivity|]. split; assumption.
Qed.

(** Drivers that have entered round 2. *)
Example C139_running_case : let is := firstn 7 good_inputs in
  is_some (tdrive cfg3n 0 is) = true /\ is_some (drv_state (tdriver cfg3n 0 is)) = true /\
  flat_map (fun l => match l with LFinalize s a => [mem (1%N : @Verifier toyP) (ci_expect (s_comm s))] | _ => [] end) (tlabels cfg3n 0 is) = [true] /\
  is_some (tpar cfg3n 0 round1) = true /\ match tparty cfg3n 0 round1 with PRun _ => true | _ => false end = true /\
  flat_map (fun l => match l with LFinalize s a => [mem (1%N : @Verifier toyP) (ci_expect (s_comm s))] | _ => [] end) (plabels cfg3n 0 round1) = [true].
Proof. repeat split; vm_compute; reflexivity. Qed.
