(** The properties of dev/tokio.rs when messages are turned down. *)
From Coq Require Import List NArith Bool.
From Verif Require Import Base BMap Errors RoundId Message Protocol Transcript Evidence Session Spec SpecCrypto Network SpecNet Extend SpecExtend SpecCaught SpecFaults
  RunSync Driver SpecDriver Async SpecAsync Par Offload SpecOffload SpecAsyncFaults AsyncFaults OffloadFaults
  Toy ToyCrypto ToyNet ToyFaults ToyAsync ToyOffload ToyAsyncFaults.
Import ListNotations.

(** C106, first part. Whatever messages are turned down, with any number of parties and any room in the channels: the reports
    that [run_async] returns are those of all the parties, and each blames exactly the parties whose messages were turned down
    in the round in which the reporting party stopped, with evidence that verifies where they are blamed with proof; a party
    that does not stop has its result. *)
Theorem C106_reports : forall (P : Params) (Pr : Proto) f r sid parties (ep : Verifier -> EntryPoint Pr) (h : Plan (with_receive Pr f)) sk cap,
  signers parties sk -> wire_total P -> signatures_correct P -> plain_ids Pr ->
  honest_run r sid parties (fun v => ep_with f (ep v)) h ->
  forall stop sd, faults sid parties h stop sd ->
  exists a0, honest_anet r sid parties sk ep = Ok a0 /\
    forall tr a reports, aschedule r cap a0 tr a -> async_returns a = Some (Ok reports) -> every_report_right sid parties h stop sd reports.
Proof. exact @async_reports. Qed.
Print Assumptions C106_reports.

(** C106, second part. If nobody goes past the round in which messages are turned down, and the channels have room for two
    messages of every other party, then [run_async] does return, and it returns reports (not an error, see C72 for what
    happens otherwise). *)
Theorem C106_returns : forall (P : Params) (Pr : Proto) f r sid parties (ep : Verifier -> EntryPoint Pr) (h : Plan (with_receive Pr f)) sk cap,
  signers parties sk -> wire_total P -> signatures_correct P -> plain_ids Pr ->
  honest_run r sid parties (fun v => ep_with f (ep v)) h ->
  forall stop sd, faults sid parties h stop sd ->
  forall k, nobody_goes_past parties h stop k -> 0 < cap -> 2 * (length (elements parties) - 1) <= cap ->
  exists a0, honest_anet r sid parties sk ep = Ok a0 /\
    (forall tr a, aschedule r cap a0 tr a ->
       (forall o, async_returns a = Some o -> exists reports, o = Ok reports /\ every_report_right sid parties h stop sd reports) /\
       (async_stuck r cap a -> async_returns a <> None)) /\
    (forall c : nat -> ANet Pr, c 0 = a0 -> ~ forall i, exists x ls, aact r cap (c i) x = Some (ls, c (S i))).
Proof. exact @async_completes. Qed.
Print Assumptions C106_returns.

(** C107. The same for [run_async] with [offload_processing = true]. *)
Theorem C107_reports : forall (P : Params) (Pr : Proto) f r sid parties (ep : Verifier -> EntryPoint Pr) (h : Plan (with_receive Pr f)) sk cap,
  signers parties sk -> wire_total P -> signatures_correct P -> plain_ids Pr ->
  honest_run r sid parties (fun v => ep_with f (ep v)) h ->
  forall stop sd, faults sid parties h stop sd ->
  exists a0, honest_onet r sid parties sk ep = Ok a0 /\
    forall tr a reports, oschedule r cap a0 tr a -> offload_returns a = Some (Ok reports) -> every_report_right sid parties h stop sd reports.
Proof. exact @offload_reports. Qed.
Print Assumptions C107_reports.

Theorem C107_returns : forall (P : Params) (Pr : Proto) f r sid parties (ep : Verifier -> EntryPoint Pr) (h : Plan (with_receive Pr f)) sk cap,
  signers parties sk -> wire_total P -> signatures_correct P -> plain_ids Pr ->
  honest_run r sid parties (fun v => ep_with f (ep v)) h ->
  forall stop sd, faults sid parties h stop sd ->
  forall k, nobody_goes_past parties h stop k -> 0 < cap -> 2 * (length (elements parties) - 1) <= cap -> length (elements parties) <= 101 ->
  exists a0, honest_onet r sid parties sk ep = Ok a0 /\
    (forall tr a, oschedule r cap a0 tr a ->
       (forall o, offload_returns a = Some o -> exists reports, o = Ok reports /\ every_report_right sid parties h stop sd reports) /\
       (offload_stuck r cap a -> offload_returns a <> None)) /\
    (forall c : nat -> ONet Pr, c 0 = a0 -> ~ forall i, exists x ls, oact r cap (c i) x = Some (ls, c (S i))).
Proof. exact @offload_completes. Qed.
Print Assumptions C107_returns.

(** The executions exist: four parties, of which 3 cheats on 0 and 1, and 1 on 0 (without proof), in the last round. *)
Example C106_case :
  signers (group 4) key /\ wire_total toyP /\ signatures_correct toyP /\ plain_ids late /\
  honest_run rN sid0 (group 4) (fun _ => ep_with whatever late_entry) late_plan /\
  faults sid0 (group 4) late_plan late_stop (tt : Shared late) /\ nobody_goes_past (group 4) late_plan late_stop 1 /\
  2 * (length (elements (group 4)) - 1) <= 100 /\ map late_stop [0; 1; 2; 3]%N = [Some 1; Some 1; None; None].
Proof.
  split; [exact (@toy_signers 4)|]. split; [exact toy_wire|]. split; [exact toy_signatures|]. split; [exact late_plain|].
  split; [exact late_honest|]. split; [exact late_faults|]. split; [exact late_same|]. split; [vm_compute; repeat constructor|reflexivity].
Qed.
(** What one of them returns: the provably and the unprovably guilty, and the result. *)
Definition late_run := aauto 100 400 [@ADisp toyP 0; @ANode toyP 2%N; @ANode toyP 0%N; @ANode toyP 1%N; @ANode toyP 3%N] []
  (astarted (honest_anet rN sid0 (group 4) key (fun _ => late_entry))).
Example C106_run :
  match async_returns (snd late_run) with
  | Some (Ok reports) => map (fun kv => (fst kv, (keys (rep_provable (snd kv)), keys (rep_unprovable (snd kv)), match rep_outcome (snd kv) with OResult x => Some x | _ => None end))) (to_list reports)
  | _ => []
  end = [(0, ([3], [1], None)); (1, ([3], [], None)); (2, ([], [], Some 2)); (3, ([], [], Some 3))]%N.
Proof. vm_compute. reflexivity. Qed.
Definition late_orun := oauto 100 2000 (all_acts 4) [] (ostarted (honest_onet rN sid0 (group 4) key (fun _ => late_entry))).
Example C107_run :
  match offload_returns (snd late_orun) with
  | Some (Ok reports) => map (fun kv => (fst kv, (keys (rep_provable (snd kv)), keys (rep_unprovable (snd kv)), match rep_outcome (snd kv) with OResult x => Some x | _ => None end))) (to_list reports)
  | _ => []
  end = [(0, ([3], [1], None)); (1, ([3], [], None)); (2, ([], [], Some 2)); (3, ([], [], Some 3))]%N.
Proof. vm_compute. reflexivity. Qed.
(** With the parties of C100, of which some stop in the first round and the others go on, [run_async] can fail; it can not
    return reports that are wrong. *)
Definition early_run := aauto 100 400 [@ADisp toyP 0; @ANode toyP 0%N; @ANode toyP 1%N; @ANode toyP 2%N; @ANode toyP 3%N] []
  (astarted (honest_anet rN sid0 (group 4) key (fun _ => letters_entry))).
Example C106_fails : match async_returns (snd early_run) with Some (Err _) => true | _ => false end = true.
Proof. vm_compute. reflexivity. Qed.
