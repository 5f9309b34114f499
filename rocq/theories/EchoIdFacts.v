(** Facts about the place of echo rounds in the round graph, and about sessions that [run_sync] leaves unfinished. *)
From Coq Require Import List NArith Bool.
From Verif Require Import Base BMap Errors RoundId Message Protocol Transcript Evidence Session Spec SessionFacts Network RunSync.
Import ListNotations.
Set Implicit Arguments.

Lemma echo_transition t : rid_echo (ti_id t) = false -> exists e, ti_echo t = Ok e /\
  ti_id e = mkRid (rid_round (ti_id t)) (rid_groups (ti_id t)) true /\
  (forall r, mem r (ti_parents e) = true <-> r = ti_id t) /\
  (forall r, mem r (ti_siblings e) = false) /\ ti_children e = ti_children t /\ ti_result e = ti_result t /\
  exists rs, simultaneous_rounds e false = Ok rs /\ forall r, mem r rs = true <-> r = ti_id t \/ mem r (ti_children t) = true.
Proof.
  intros H. unfold ti_echo, echo. rewrite H. cbn [bind]. eexists. split; [reflexivity|]. cbn [ti_id ti_parents ti_siblings ti_children ti_result].
  assert (K : forall r, mem r (set_of_list [ti_id t]) = true <-> r = ti_id t).
  { intros r. rewrite mem_set_of_list. simpl. intuition. }
  split; [reflexivity|]. split; [exact K|]. split; [intros r; apply mem_empty|]. split; [reflexivity|]. split; [reflexivity|].
  eexists. split; [reflexivity|]. intros r. cbn [ti_parents ti_siblings ti_children]. rewrite !mem_union, !orb_true_iff, K, mem_empty. intuition discriminate.
Qed.

Lemma no_echo_of_echo t : rid_echo (ti_id t) = true -> ti_echo t = Err LE_AlreadyEcho.
Proof. intros H. unfold ti_echo, echo. now rewrite H. Qed.

Lemma unfinished_report (P : Params) (Pr : Proto) (s : Session Pr) a rep : sync_report (InProgress s a) = Ok rep ->
  rep_outcome rep = OTerminated.
Proof. unfold sync_report, terminate, terminate_inner. destruct (close_round s a) as [t|e|]; try discriminate. cbn [bind]. now intros [= <-]. Qed.
