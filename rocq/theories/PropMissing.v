(** Properties C122 and C123: whose messages the reports of the drivers list as missing. *)
From Coq Require Import List NArith Bool.
From Verif Require Import Base BMap Errors RoundId Message Protocol Transcript Evidence Session Spec Network SpecTimeout RunSync Driver SpecDriver Par
  SpecMissing MissingFacts Toy ToyNet ToyDriver ToyPar ToyMissing.
Import ListNotations.
Set Implicit Arguments.

(** C122. The report of [run_session] lists as missing exactly the messages of its last round that did not arrive: everybody
    listed was expected to send in this round and, unless blamed in the same report, has not sent a message for it; and everybody
    who was expected to send and has not is listed. *)
Theorem C122_missing_exact : forall (P : Params) (Pr : Proto) r (s0 : Session Pr) ls rep,
  initial s0 -> run_session r s0 ls (DrvDone (Ok rep)) -> exists s l, last_round ls s l /\ forall rid u,
  (reported_missing rep rid u -> rid = s_round_id s /\ expected s u /\ (~ blamed_in rep u -> ~ arrived s l u)) /\
  (rid = s_round_id s -> expected s u -> ~ arrived s l u -> reported_missing rep rid u).
Proof. exact @session_missing. Qed.
Print Assumptions C122_missing_exact.

(** Nobody is listed unless the driver was cancelled. *)
Theorem C122_cancelled : forall (P : Params) (Pr : Proto) r (s0 : Session Pr) ls rep rid u,
  initial s0 -> run_session r s0 ls (DrvDone (Ok rep)) -> reported_missing rep rid u -> In LCancel ls.
Proof. exact @session_cancelled. Qed.
Print Assumptions C122_cancelled.

(** C123 is false: the same for [par_run_session]. A party that is not blamed has sent its message, signed for this round; the driver has
    received it in its last round and processed it with success (the result [pm] is in the channel), and reports it missing. *)
Theorem C123_missing_exact_refuted : exists (P : Params) (Pr : Proto) r (s0 : Session Pr) l1 x pm p l2 rep u m,
  initial s0 /\ par_session r s0 (LEnter s0 :: l1) (PRun x) /\ par_run r (PRun x) l2 (PStop (Ok rep)) /\ last_round (LEnter s0 :: l1 ++ l2) s0 (l1 ++ l2) /\
  expected s0 u /\ In (LIn u m) (l1 ++ l2) /\ message_authentic u (s_id s0) (s_round_id s0) m /\
  In pm (pp_proc x) /\ vm_from (pm_msg pm) = u /\ pm_res pm = Ok p /\
  ~ blamed_in rep u /\ reported_missing rep (s_round_id s0) u.
Proof. exact unread_witness. Qed.
Print Assumptions C123_missing_exact_refuted.

(** C123, what holds: the messages listed are exactly those of its last round whose result it has not taken from the channel; and
    nobody is listed unless the driver was cancelled. *)
Theorem C123_parallel_exact : forall (P : Params) (Pr : Proto) r (s0 : Session Pr) ls rep,
  initial s0 -> par_session r s0 ls (PStop (Ok rep)) -> exists s l, last_round ls s l /\ forall rid u,
  (reported_missing rep rid u <-> rid = s_round_id s /\ expected s u /\ ~ processed_from l u) /\ (reported_missing rep rid u -> In LCancel ls).
Proof. exact @par_missing. Qed.
Print Assumptions C123_parallel_exact.

(** Party 0 receives the message of party 1 and is cancelled: party 2 is listed. If it had not received it, both would be. *)
Definition listed (inputs : list (input (P := toyP))) : list (RoundId * list N) :=
  match tdriver cfg3n 0 inputs with
  | DrvDone (Ok rep) => map (fun kv => (fst kv, elements (snd kv) : list N)) (to_list (rep_missing rep))
  | _ => []
  end.
Example C122_case : listed ([IGo; IGo] ++ [@IRecv toyP 1%N from1; ICancel]) = [(rid_new 1, [2%N])] /\
  listed [IGo; IGo; ICancel] = [(rid_new 1, [1%N; 2%N])] /\ initial (tsession cfg3n 0).
Proof. split; [vm_compute; reflexivity|]. split; [vm_compute; reflexivity|apply toy_initial]. Qed.
Example C123_case : match tparty cfg3n 0 (read ++ [@ATakeProcessed toyP] ++ forgotten) with
  | PStop (Ok rep) => map (fun kv => (fst kv, elements (snd kv) : list N)) (to_list (rep_missing rep))
  | _ => []
  end = [(rid_new 1, [2%N])].
Proof. vm_compute. reflexivity. Qed.
