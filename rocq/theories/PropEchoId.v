(** More about round graphs and [run_sync]: C50, C39. *)
From Coq Require Import List NArith Bool.
From Verif Require Import Base BMap Errors RoundId Message Protocol Transcript Evidence Session Spec SpecCrypto Network RunSync EchoIdFacts
  Exec Toy ToyCrypto.
Import ListNotations.
Set Implicit Arguments.

(** C50. An echo round has its round as the only parent, no siblings, and the children of its round; messages that can
    arrive early or late in it are those of its round and of the children. *)
Theorem C50_echo_round : forall t, rid_echo (ti_id t) = false -> exists e, ti_echo t = Ok e /\
  ti_id e = mkRid (rid_round (ti_id t)) (rid_groups (ti_id t)) true /\
  (forall r, mem r (ti_parents e) = true <-> r = ti_id t) /\
  (forall r, mem r (ti_siblings e) = false) /\ ti_children e = ti_children t /\ ti_result e = ti_result t /\
  exists rs, simultaneous_rounds e false = Ok rs /\ forall r, mem r rs = true <-> r = ti_id t \/ mem r (ti_children t) = true.
Proof. exact echo_transition. Qed.
Print Assumptions C50_echo_round.

(** Echo rounds have no echo rounds. *)
Theorem C50_no_echo_of_echo : forall t, rid_echo (ti_id t) = true -> ti_echo t = Err LE_AlreadyEcho.
Proof. exact no_echo_of_echo. Qed.
Print Assumptions C50_no_echo_of_echo.

Example C50_echo_case : exists t e, linear_round 3 2 = Ok t /\ ti_echo t = Ok e /\ ti_echo e = Err LE_AlreadyEcho /\
  rid_echo (ti_id t) = false /\ rid_echo (ti_id e) = true.
Proof. eexists. eexists. split; [reflexivity|]. split; [reflexivity|]. auto. Qed.

(** C39, for [run_sync]. A session that is still in progress when [run_sync] ends is reported as terminated. *)
Theorem C39_unfinished : forall (P : Params) (Pr : Proto) (s : Session Pr) a rep, sync_report (InProgress s a) = Ok rep ->
  rep_outcome rep = OTerminated.
Proof. exact @unfinished_report. Qed.
Print Assumptions C39_unfinished.

Example C39_unfinished_case : is_ok (sync_report (InProgress (tsession cfg3 0) (make_accumulator (tsession cfg3 0)))) = true.
Proof. toy. Qed.
