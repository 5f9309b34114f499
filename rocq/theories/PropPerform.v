(** Properties C124 and C125: what the drivers do is a history of their session, and whom their reports blame. *)
From Coq Require Import List NArith Bool.
From Verif Require Import Base BMap Errors RoundId Message Protocol Transcript Evidence Session Spec SpecCause Network SpecTimeout RunSync Driver SpecDriver Par SpecPar
  SpecMissing SpecPerform PerformFacts Toy ToyNet ToyDriver ToyPar ToyMissing.
Import ListNotations.
Set Implicit Arguments.

(** C124. Whatever [run_session] has done up to some moment is a history of its session: it has used the methods of the session as
    this history says, in the states given by the history, and is in its last state. *)
Theorem C124_run_session : forall (P : Params) (Pr : Proto) r (s0 : Session Pr) ls d x,
  run_session r s0 ls d -> drv_state d = Some x -> exists es ls', ls = LEnter s0 :: ls' /\ performs true r (start s0) es ls' x.
Proof. exact @run_performs. Qed.
Print Assumptions C124_run_session.

(** The same for [par_run_session]; the messages which are being processed, or whose results have not been taken, wait in the history. *)
Theorem C124_par_run_session : forall (P : Params) (Pr : Proto) r (s0 : Session Pr) ls x,
  par_session r s0 ls (PRun x) ->
  exists es ls' todo, ls = LEnter s0 :: ls' /\ performs false r (start s0) es ls' (DS (pp_s x) (pp_a x) todo) /\ incl (handed x) todo.
Proof. exact @par_performs. Qed.
Print Assumptions C124_par_run_session.

(** A driver that returns a report has performed a history and closed its session in the last state of it. *)
Theorem C124_ends : forall (P : Params) (Pr : Proto) r prompt (s0 : Session Pr) ls rep,
  called prompt r s0 ls rep -> exists es l1 l2 d, ls = LEnter s0 :: l1 ++ l2 /\ performs prompt r (start s0) es l1 d /\ closes d r rep l2.
Proof. exact @called_closes. Qed.
Print Assumptions C124_ends.

(** C125. The reports of both drivers blame exactly those of whom a message was turned down on receipt or by the round; the evidence
    in them is about such messages. *)
Theorem C125_blame : forall (P : Params) (Pr : Proto) r prompt (s0 : Session Pr) ls rep,
  initial s0 -> called prompt r s0 ls rep ->
  exists es l1 l2 d, ls = LEnter s0 :: l1 ++ l2 /\ performs prompt r (start s0) es l1 d /\ closes d r rep l2 /\ forall v,
    (blamed_in rep v <-> (exists m e, In (EPre v m (PreError e)) es /\ e <> RE_Banned) \/ (exists vm d1 e, vm_from vm = v /\ answered s0 es d vm d1 (Err e))) /\
    (forall ev, get v (rep_provable rep) = Some ev ->
      exists vm d1 e, vm_from vm = v /\ answered s0 es d vm d1 (Err e) /\ provable e /\ evidence_shows vm e ev).
Proof. exact @called_blames. Qed.
Print Assumptions C125_blame.

(** Party 0 receives the message of party 1 twice and is cancelled. *)
Definition twice_inputs : list (input (P := toyP)) := [IGo; IGo; @IRecv toyP 1%N from1; @IRecv toyP 1%N from1; ICancel].
Definition blamed_by {c} (rep : Report (Rslt (toyPr c))) : list N := map fst (to_list (rep_provable rep)) ++ map fst (to_list (rep_unprovable rep)).

Example C125_case : exists ls rep, called true rN (tsession cfg3n 0) ls rep /\ initial (tsession cfg3n 0) /\ blamed_by rep = [1%N].
Proof.
  assert (C1 : IntakeFacts.is_some (tdrive cfg3n 0 twice_inputs) = true) by toy. pose proof (tdrive_run _ _ _ C1) as R.
  assert (C2 : match tdriver cfg3n 0 twice_inputs with DrvDone (Ok rep) => blamed_by rep | _ => [] end = [1%N]) by toy.
  clear C1. revert R C2. generalize (tlabels cfg3n 0 twice_inputs) (tdriver cfg3n 0 twice_inputs). intros ls d R C2.
  destruct d as [| | |[rep| |]]; try discriminate C2. exists ls, rep. split; [exact R|]. split; [apply toy_initial|exact C2].
Qed.

(** The same with [par_run_session]: the first message has been processed when it arrives again. *)
Definition twice_actions : list (paction (P := toyP)) := read ++ [@ATakeProcessed toyP; @AReceive toyP 1%N from1] ++ forgotten.
Example C124_case : exists ls rep, called false rN (tsession cfg3n 0) ls rep /\ initial (tsession cfg3n 0) /\ blamed_by rep = [1%N].
Proof.
  assert (C1 : IntakeFacts.is_some (tpar cfg3n 0 twice_actions) = true) by toy. pose proof (tpar_run _ _ _ C1) as R.
  assert (C2 : match tparty cfg3n 0 twice_actions with PStop (Ok rep) => blamed_by rep | _ => [] end = [1%N]) by toy.
  clear C1. revert R C2. generalize (plabels cfg3n 0 twice_actions) (tparty cfg3n 0 twice_actions). intros ls p R C2.
  destruct p as [|[rep| |]]; try discriminate C2. exists ls, rep. split; [exact R|]. split; [apply toy_initial|exact C2].
Qed.
