(** Properties C118 and C119: why [par_run_session] fails, and what its outcome depends on. *)
From Coq Require Import List NArith Bool.
From Verif Require Import Base BMap Errors RoundId Message Protocol Transcript Evidence Session Spec SpecCause SpecExact
  IntakeFacts Network SpecNet RunSync Driver SpecDriver SpecFailure Par SpecPar SpecParFailure SpecAgree Exec ParFailureFacts AgreeFacts
  Toy ToyNet ToyDriver ToyPar ToyStranger ToyRace PropPar.
Import ListNotations.
Set Implicit Arguments.

(** C118 is false, and it depends on the order in which the tasks finish: from the same state, without receiving anything more
    and without being cancelled, [par_run_session] may return an error or the result. (Both messages the party needs have been
    received, and one of somebody who does not take part.) *)
Theorem C118_not_stopped_refuted : exists (P : Params) (Pr : Proto) r (s0 : Session Pr) ls x l1 e l2 rep y,
  initial s0 /\ par_session r s0 ls (PRun x) /\
  par_run r (PRun x) l1 (PStop (Err e)) /\ inbox l1 = [] /\ ~ In LCancel l1 /\
  par_run r (PRun x) l2 (PStop (Ok rep)) /\ inbox l2 = [] /\ ~ In LCancel l2 /\ rep_outcome rep = OResult y.
Proof. exact race_witness. Qed.
Print Assumptions C118_not_stopped_refuted.

(** Whenever the driver waits and no result of a task is in its channel, a message of anybody who is not expected in this round,
    not banned and not heard of in it, correctly signed for this session and round, can make it fail at once. (If the protocol's
    [receive_message] panics on that message, it fails later.) *)
Theorem C118_anybody_can_stop_it : forall (P : Params) (Pr : Proto) r (s0 : Session Pr) ls x from m,
  plain_ids Pr -> (forall mt, ser_meta mt <> None) -> initial s0 -> par_session r s0 ls (PRun x) ->
  pp_phase x = Loop -> can_finalize (pp_a x) = NotYet -> pp_hand x = false -> pp_proc x = [] ->
  message_authentic from (s_id (pp_s x)) (s_round_id (pp_s x)) m -> ~ banned (pp_s x) (pp_a x) from ->
  mem from (a_processing (pp_a x)) = false -> ~ expected (pp_s x) from -> round_answers (pp_s x) (as_verified from m) <> Panic ->
  par_run r (PRun x) [LIn from m; LApply (as_verified from m)] (PStop (Err LE_NotExpected)).
Proof. exact @stranger_may_stop. Qed.
Print Assumptions C118_anybody_can_stop_it.

(** C118, what holds: if [par_run_session] returns an error, then the party itself failed, or one of its tasks panicked, or a
    channel failed, or the driver took the result for a message of somebody not expected in the round or heard in it before, or
    somebody was blamed again. *)
Theorem C118_error_cause_partial : forall (P : Params) (Pr : Proto) r (s0 : Session Pr) ls e,
  plain_ids Pr -> (forall mt, ser_meta mt <> None) -> initial s0 -> par_session r s0 ls (PStop (Err e)) ->
  exists ls1 l d0 es x, ls = ls1 ++ l /\ par_in_course r s0 ls1 d0 es x /\
    (own_failure (pp_s x) e \/ task_failure (pp_s x) e \/ channel_failure l e \/ remote_failure d0 es l).
Proof. exact @par_session_fails. Qed.
Print Assumptions C118_error_cause_partial.

Example C118_case : plain_ids (toyPr (collect 2)) /\ (forall mt, @ser_meta toyP mt <> None) /\ initial (tsession (collect 2) 0) /\
  is_some (tpar (collect 2) 0 (race_before ++ race_lost)) = true /\
  match tparty (collect 2) 0 (race_before ++ race_lost) with PStop (Err LE_NotExpected) => true | _ => false end = true.
Proof. split; [apply toy_plain|]. split; [intros mt; discriminate|]. split; [apply toy_initial|]. split; vm_compute; reflexivity. Qed.

(** C119 is false: two calls of [par_run_session] with the same session, the same random choices and the same messages received
    in the same order, neither of them cancelled, may return different results. (Somebody has signed two messages for round 2; the
    first is lost if the party is slow, see C53.) *)
Theorem C119_schedule_refuted : exists (P : Params) (Pr : Proto) r (s0 : Session Pr) ls rep x ls' rep' x',
  initial s0 /\ par_session r s0 ls (PStop (Ok rep)) /\ par_session r s0 ls' (PStop (Ok rep')) /\
  inbox ls = inbox ls' /\ ~ In LCancel ls /\ ~ In LCancel ls' /\
  rep_outcome rep = OResult x /\ rep_outcome rep' = OResult x' /\ x <> x'.
Proof. exact results_witness. Qed.
Print Assumptions C119_schedule_refuted.

(** C119, what holds: if nobody has signed two different messages for the same round, then any two calls of [run_session] or
    [par_run_session] that return a result return the same - whatever was received, in whatever order, and however the tasks were
    scheduled. *)
Theorem C119_results_agree_partial : forall (P : Params) (Pr : Proto) r (s0 : Session Pr) ls rep ls' rep' x x',
  initial s0 -> returns r s0 ls rep -> returns r s0 ls' rep' ->
  single_messages (s_id s0) (inbox ls ++ inbox ls') -> rep_outcome rep = OResult x -> rep_outcome rep' = OResult x' -> x' = x.
Proof. exact @results_agree. Qed.
Print Assumptions C119_results_agree_partial.

(** The same for any use of the API that makes the same random choices and ends a round only after having sent its messages. *)
Theorem C119_histories_agree_partial : forall (P : Params) (Pr : Proto) r (s : Session Pr) es es' d d' x x',
  initial s -> duty r (start s) es d -> duty r (start s) es' d' ->
  single_messages (s_id s) (received_in es ++ received_in es') -> ends_with r d x -> ends_with r d' x' -> x' = x.
Proof. exact @histories_agree. Qed.
Print Assumptions C119_histories_agree_partial.

(** A call of each driver, with the same result. *)
Example C119_case :
  let ls := tlabels cfg3n 0 good_inputs in let ls' := plabels cfg3n 0 (round1 ++ round2) in
  initial (tsession cfg3n 0) /\ single_messages (s_id (tsession cfg3n 0)) (inbox ls ++ inbox ls') /\
  match tdriver cfg3n 0 good_inputs, tparty cfg3n 0 (round1 ++ round2) with
  | DrvDone (Ok rep), PStop (Ok rep') =>
      returns rN (tsession cfg3n 0) ls rep /\ returns rN (tsession cfg3n 0) ls' rep' /\
      exists x, rep_outcome rep = OResult x /\ rep_outcome rep' = OResult x
  | _, _ => False
  end.
Proof.
  assert (R : run_session rN (tsession cfg3n 0) (tlabels cfg3n 0 good_inputs) (tdriver cfg3n 0 good_inputs)) by (apply tdrive_run; vm_compute; reflexivity).
  assert (R' : par_session rN (tsession cfg3n 0) (plabels cfg3n 0 (round1 ++ round2)) (tparty cfg3n 0 (round1 ++ round2))) by (apply tpar_run; vm_compute; reflexivity).
  assert (C : match tdriver cfg3n 0 good_inputs, tparty cfg3n 0 (round1 ++ round2) with
    | DrvDone (Ok rep), PStop (Ok rep') => match rep_outcome rep, rep_outcome rep' with OResult x, OResult x' => N.eqb x x' | _, _ => false end
    | _, _ => false end = true) by (vm_compute; reflexivity).
  assert (I : inbox (plabels cfg3n 0 (round1 ++ round2)) = inbox (tlabels cfg3n 0 good_inputs)) by (vm_compute; reflexivity).
  assert (S : map slot (inbox (tlabels cfg3n 0 good_inputs)) = [(1, 1); (2, 1); (2, 2); (1, 2)]%N) by (vm_compute; reflexivity).
  cbv zeta. rewrite I. revert R R' C S. clear I.
  generalize (tlabels cfg3n 0 good_inputs) (tdriver cfg3n 0 good_inputs) (plabels cfg3n 0 (round1 ++ round2)) (tparty cfg3n 0 (round1 ++ round2)).
  intros ls d ls' p R R' C S. split; [apply toy_initial|]. split.
  { apply slots_single. rewrite S. repeat constructor; simpl; intuition discriminate. }
  destruct d as [| | |[rep| |]]; try discriminate C. destruct p as [|[rep'| |]]; try discriminate C.
  split; [left; exact R|]. split; [right; exact R'|].
  destruct (rep_outcome rep) as [x| |]; try discriminate C. destruct (rep_outcome rep') as [x'| |]; try discriminate C.
  apply N.eqb_eq in C. subst x'. eauto.
Qed.
