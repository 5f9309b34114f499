(** Properties C112 and C113: why errors are noted, why messages are turned down. *)
From Coq Require Import List NArith Bool.
From Verif Require Import Base BMap Errors RoundId Message Protocol Transcript Evidence Session Spec SpecCause Exec CauseFacts Toy.
Import ListNotations.
Set Implicit Arguments.

(** C112. At any point of any history of a session, a party is banned exactly if a message received from it was turned down by
    [preprocess_message] or answered with an error by the round that processed it. *)
Theorem C112_banned : forall (P : Params) (Pr : Proto) (s : Session Pr) es d v, initial s -> run (start s) es d ->
  banned (d_s d) (d_a d) v <->
  (exists m e, In (EPre v m (PreError e)) es /\ e <> RE_Banned) \/ (exists vm d1 e, vm_from vm = v /\ answered s es d vm d1 (Err e)).
Proof. exact @banned_iff. Qed.
Print Assumptions C112_banned.

(** There is evidence filed under its name exactly if the error was a provable one; the evidence is made of that message. *)
Theorem C112_evidence : forall (P : Params) (Pr : Proto) (s : Session Pr) es d v, initial s -> run (start s) es d ->
  (exists ev, has_evidence d v ev) <-> exists vm d1 e, vm_from vm = v /\ answered s es d vm d1 (Err e) /\ provable e.
Proof. exact @evidence_iff. Qed.
Print Assumptions C112_evidence.

Theorem C112_evidence_shows : forall (P : Params) (Pr : Proto) (s : Session Pr) es d v ev, initial s -> run (start s) es d -> has_evidence d v ev ->
  exists vm d1 e, vm_from vm = v /\ answered s es d vm d1 (Err e) /\ provable e /\ evidence_shows vm e ev.
Proof. exact @evidence_cause. Qed.
Print Assumptions C112_evidence_shows.

(** There is an unprovable error noted exactly if a message was turned down or the error of the round was an unprovable one. *)
Theorem C112_unprovable : forall (P : Params) (Pr : Proto) (s : Session Pr) es d v, initial s -> run (start s) es d ->
  has_unprovable d v <->
  (exists m e, In (EPre v m (PreError e)) es /\ e <> RE_Banned) \/ (exists vm d1 e, vm_from vm = v /\ answered s es d vm d1 (Err (RUnprovable e))).
Proof. exact @unprovable_iff. Qed.
Print Assumptions C112_unprovable.

(** C113. The error with which [preprocess_message] turns down a message tells a reason. *)
Theorem C113_reason : forall (P : Params) (Pr : Proto) (d0 : DState Pr) es d from m a' e, round_start d0 -> run d0 es d -> in_round es ->
  preprocess_message (d_s d) (d_a d) from m = (a', Ok (PreError e)) -> reason es d from m e.
Proof. exact @error_reason_round. Qed.
Print Assumptions C113_reason.

(** A message is turned down exactly if there is a reason. *)
Theorem C113_only_with_reason : forall (P : Params) (Pr : Proto) (d0 : DState Pr) es d from m a' o, round_start d0 -> run d0 es d -> in_round es ->
  preprocess_message (d_s d) (d_a d) from m = (a', Ok o) ->
  (exists e, o = PreError e) <-> exists e, reason es d from m e.
Proof. exact @reasons_round. Qed.
Print Assumptions C113_only_with_reason.

(** Party 1 sends a message that is malformed, party 2 one that its round turns down without proof, and party 5 one for another
    session. *)
Definition c112_script : list (cmd (P := toyP)) :=
  [@CPre toyP 1%N (tforge 1 sid0 (rid_new 1) None None None); @CPre toyP 2%N (tforge 2 sid0 (rid_new 1) (Some [98]%N) None None);
   CProc 0; CProc 0; @CPre toyP 5%N (tforge 5 [8]%N (rid_new 1) None None None)].
Example C112_case :
  let d := tfinal cfg3n 0 c112_script in
  initial (tsession cfg3n 0) /\ run (start (tsession cfg3n 0)) (ttrace cfg3n 0 c112_script) d /\
  (forall v, In v [1; 2; 5]%N -> banned (d_s d) (d_a d) (v : @Verifier toyP)) /\ ~ banned (d_s d) (d_a d) (3%N : @Verifier toyP) /\
  (exists ev, has_evidence d (1%N : @Verifier toyP) ev) /\ has_unprovable d (2%N : @Verifier toyP) /\ has_unprovable d (5%N : @Verifier toyP).
Proof.
  set (d := tfinal cfg3n 0 c112_script).
  assert (E1 : exists e, get (1%N : @Verifier toyP) (a_provable (d_a d)) = Some e) by (apply contains_ex; toy).
  assert (E2 : exists e, get (2%N : @Verifier toyP) (a_unprovable (d_a d)) = Some e) by (apply contains_ex; toy).
  assert (E5 : exists e, get (5%N : @Verifier toyP) (a_unprovable (d_a d)) = Some e) by (apply contains_ex; toy).
  split; [apply toy_initial|]. split; [apply toy_run; toy|]. split.
  { intros v [<-|[<-|[<-|[]]]]; unfold banned; auto. }
  split.
  { intros [[e H]|[[e H]|[[e H]|[e H]]]]; vm_compute in H; discriminate. }
  split; [|split; right; auto]. destruct E1 as [e E1]. exists e. right. exact E1.
Qed.

(** Each of the eight reasons is given. *)
Definition c113_script : list (cmd (P := toyP)) :=
  [pre cfg3n 1 0; @CPre toyP 1%N (tforge 1 sid0 (rid_new 2) (Some [5]%N) None None); @CPre toyP 5%N (tforge 5 [8]%N (rid_new 1) None None None)].
Definition c113_answer (v : N) (m : Message (P := toyP)) : option RemoteError :=
  let d := tfinal cfg3n 0 c113_script in
  match snd (preprocess_message (d_s d) (d_a d) (v : @Verifier toyP) m) with Ok (PreError e) => Some e | _ => None end.
Definition c113_mixed : Message (P := toyP) :=
  let m1 := tforge 2 sid0 (rid_new 1) (Some [5]%N) None None in let m2 := tforge 2 sid0 (rid_new 2) (Some [5]%N) None None in
  @mkMessage toyP 0%N (msg_direct m1) (msg_echo m2) (msg_normal m1).
Definition c113_unsigned : Message (P := toyP) :=
  let m1 := tforge 2 sid0 (rid_new 1) (Some [5]%N) None None in
  @mkMessage toyP 0%N (mkSPart [] (sp_meta (msg_direct m1)) (Some [5]%N)) (msg_echo m1) (msg_normal m1).
Example C113_case :
  let d := tfinal cfg3n 0 c113_script in
  round_start (tstart cfg3n 0) /\ run (tstart cfg3n 0) (ttrace cfg3n 0 c113_script) d /\ in_round (ttrace cfg3n 0 c113_script) /\
  c113_answer 5 (tforge 5 sid0 (rid_new 1) (Some [5]%N) None None) = Some RE_Banned /\
  c113_answer 2 c113_mixed = Some RE_Metadata /\
  c113_answer 2 (tforge 2 [8]%N (rid_new 1) (Some [5]%N) None None) = Some RE_SessionId /\
  c113_answer 1 (tmsg (tsession cfg3n 1) 0) = Some RE_DupThisRound /\
  c113_answer 1 (tforge 1 sid0 (rid_new 2) (Some [6]%N) None None) = Some RE_DupCached /\
  c113_answer 2 (tforge 2 sid0 (rid_new 9) (Some [5]%N) None None) = Some RE_WrongRound /\
  c113_answer 2 c113_unsigned = Some RE_SigFormat /\
  c113_answer 2 (tforge 1 sid0 (rid_new 1) (Some [5]%N) None None) = Some RE_BadSignature /\
  c113_answer 2 (tforge 2 sid0 (rid_new 1) (Some [5]%N) None None) = None.
Proof. split; [apply toy_start|]. split; [apply toy_run; toy|]. repeat split; toy. Qed.
