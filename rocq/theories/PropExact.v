(** Properties C115, C116 and C117: exactly when the calls of a session fail, and why [run_session] does. *)
From Coq Require Import List NArith Bool.
From Verif Require Import Base BMap Errors RoundId Message Protocol Transcript Evidence Session Spec SpecCause SpecExact
  IntakeFacts Network SpecNet RunSync Driver SpecDriver SpecFailure Exec ExactFacts FailureFacts Toy ToyNet ToyDriver ToyStranger PropFinalize.
Import ListNotations.
Set Implicit Arguments.

(** C115. [add_processed_message] succeeds exactly if the sender is expected in this round and has not been heard in it, and the
    round's own answer is not a local error, a panic, or an error whose evidence needs messages that are not there. *)
Theorem C115_adding : forall (P : Params) (Pr : Proto) (d0 : DState Pr) es d t1 vm t2,
  round_start d0 -> run d0 es d -> in_round es -> d_todo d = t1 ++ vm :: t2 ->
  (exists a', add_processed (d_s d) (d_a d) (process_message (d_s d) vm) = (a', Ok tt)) <->
  expected (d_s d) (vm_from vm) /\ ~ heard es (vm_from vm) /\ round_answers (d_s d) vm <> Panic /\
  (forall e, round_answers (d_s d) vm <> Err (RL e)) /\
  (forall e, round_answers (d_s d) vm = Err (RProtocol e) -> evidence_available (s_tr (d_s d)) (vm_from vm) e).
Proof. exact @adding_iff. Qed.
Print Assumptions C115_adding.

(** If the sender is the reason, nothing is changed, and the error tells whether a message of it has been accepted. *)
Theorem C115_unexpected : forall (P : Params) (Pr : Proto) (d0 : DState Pr) es d t1 vm t2,
  round_start d0 -> run d0 es d -> in_round es -> d_todo d = t1 ++ vm :: t2 ->
  ~ expected (d_s d) (vm_from vm) \/ heard es (vm_from vm) ->
  add_processed (d_s d) (d_a d) (process_message (d_s d) vm) = (d_a d, Err LE_DupPayload) /\ (exists p, accepted (d_s d) es (vm_from vm) p) \/
  add_processed (d_s d) (d_a d) (process_message (d_s d) vm) = (d_a d, Err LE_NotExpected) /\ (forall p, ~ accepted (d_s d) es (vm_from vm) p).
Proof. exact @unexpected_error. Qed.
Print Assumptions C115_unexpected.

(** Party 1 is expected; party 5 is not, and its message makes the call fail. *)
Definition c115_script : list (cmd (P := toyP)) :=
  [pre cfg3n 1 0; @CPre toyP 5%N (tforge 5 sid0 (rid_new 1) (Some [5]%N) None None)].
Example C115_case :
  let d := tfinal cfg3n 0 c115_script in
  round_start (tstart cfg3n 0) /\ run (tstart cfg3n 0) (ttrace cfg3n 0 c115_script) d /\ in_round (ttrace cfg3n 0 c115_script) /\
  map (fun vm => (vm_from vm, is_ok (snd (add_processed (d_s d) (d_a d) (process_message (d_s d) vm))))) (d_todo d) =
    [(5%N, false); (1%N, true)] /\
  map (fun v => mem (v : @Verifier toyP) (ci_expect (s_comm (d_s d)))) [5; 1]%N = [false; true].
Proof.
  split; [left; exists (tsession cfg3n 0); split; [apply toy_initial|reflexivity]|].
  split; [apply toy_run; toy|]. split; [toy|]. split; toy.
Qed.

(** C116. Unless its id was used before, a round can be ended with a report exactly if nobody was blamed again: no message
    that came out of the cache when the round began has been answered with an error of a kind already noted for its sender. *)
Theorem C116_ending : forall (P : Params) (Pr : Proto) (d0 : DState Pr) es d,
  round_start d0 -> run d0 es d -> in_round es -> contains (s_round_id (d_s d)) (tr_echo (s_tr (d_s d))) = false ->
  ((exists e, terminate (d_s d) (d_a d) = Err e) <-> blamed_again d0 es) /\
  ((exists rep, terminate (d_s d) (d_a d) = Ok rep) <-> ~ blamed_again d0 es).
Proof. exact @terminate_fails_iff. Qed.
Print Assumptions C116_ending.

(** The echo round of C55: before the message from the cache is processed the session can be ended, afterwards not. *)
Example C116_case :
  let d0 := tthen (tfinal cfg3 0 bad_echo_script) [CFin] in let d := tthen d0 [CProc 0] in
  round_start d0 /\ run d0 (tsteps d0 [CProc 0]) d /\ in_round (tsteps d0 [CProc 0]) /\
  contains (s_round_id (d_s d)) (tr_echo (s_tr (d_s d))) = false /\
  is_ok (terminate (d_s d0) (d_a d0)) = true /\ is_ok (terminate (d_s d) (d_a d)) = false.
Proof.
  split; [apply (@fin_round_start _ _ (tfinal cfg3 0 bad_echo_script) g0); [apply toy_reachable; toy|apply then_fin; toy]|].
  split; [apply then_run; toy|]. repeat (split; [toy|]). toy.
Qed.

(** C117 is false. A message of a party that does not take part makes [run_session] fail, in an execution that can be completed
    without it. *)
Theorem C117_not_stopped_refuted : exists (P : Params) (Pr : Proto) r (s0 : Session Pr) ls s a from m ls' rep x,
  initial s0 /\ run_session r s0 ls (DrvWait s a) /\ ~ expected s from /\
  drv_step r (DrvWait s a) (IRecv from m) = Some ([LIn from m], DrvDone (Err LE_NotExpected)) /\
  drv_run r (DrvWait s a) ls' (DrvDone (Ok rep)) /\ rep_outcome rep = OResult x.
Proof. exact stranger_stops_toy. Qed.
Print Assumptions C117_not_stopped_refuted.

(** In fact anybody can stop it at any time: whenever [run_session] waits for messages, a message of anybody who is not expected
    to send in this round and not banned, correctly signed for this session and round, makes it fail. (If the protocol's own
    [receive_message] panics on that message, so does [run_session].) *)
Theorem C117_anybody_stops_it : forall (P : Params) (Pr : Proto) r (s0 : Session Pr) ls s a from m,
  plain_ids Pr -> (forall mt, ser_meta mt <> None) -> initial s0 -> run_session r s0 ls (DrvWait s a) -> can_finalize a = NotYet ->
  message_authentic from (s_id s) (s_round_id s) m -> ~ banned s a from -> ~ expected s from ->
  drv_step r (DrvWait s a) (IRecv from m) = Some ([LIn from m], DrvDone (Err LE_NotExpected)).
Proof. exact @stranger_stops. Qed.
Print Assumptions C117_anybody_stops_it.

(** C117, what holds: if [run_session] returns an error, then the party itself or a channel failed, or it processed a message of
    somebody not expected in the round or heard in it before, or somebody was blamed again. *)
Theorem C117_error_cause_partial : forall (P : Params) (Pr : Proto) r (s0 : Session Pr) ls e,
  plain_ids Pr -> (forall mt, ser_meta mt <> None) -> initial s0 -> run_session r s0 ls (DrvDone (Err e)) ->
  exists ls1 l d0 es x, ls = ls1 ++ l /\ in_course r s0 ls1 d0 es x /\
    (own_failure (d_s x) e \/ channel_failure l e \/ remote_failure d0 es l).
Proof. exact @run_session_fails. Qed.
Print Assumptions C117_error_cause_partial.

(** The hypotheses hold in a run that is stopped by a message of party 5. *)
Example C117_case : plain_ids (toyPr cfg3n) /\ (forall mt, @ser_meta toyP mt <> None) /\ initial (tsession cfg3n 0) /\
  is_some (tdrive cfg3n 0 (stranger_before ++ [stranger])) = true /\
  match tdriver cfg3n 0 (stranger_before ++ [stranger]) with DrvDone (Err LE_NotExpected) => true | _ => false end = true.
Proof. split; [apply toy_plain|]. split; [intros mt; discriminate|]. split; [apply toy_initial|]. split; vm_compute; reflexivity. Qed.
