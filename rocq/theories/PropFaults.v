(** Properties C100 to C102: any number of parties send invalid messages, to whomever they like: exactly those who did are
    blamed by those to whom they did. *)
From Coq Require Import List NArith Bool.
From Verif Require Import Base BMap Errors RoundId Message Protocol Transcript Evidence Session Spec SpecCrypto
  Network SpecNet RunSync SpecCaught SpecFaults Driver SpecDriver Par SpecPar FaultFacts CaughtDriver CaughtPar
  Toy ToyCrypto ToyNet ToyDriver ToyPar ToyFaults.
Import ListNotations.
Set Implicit Arguments.

(** C100. [stop v] is the first round of the execution [h] in which [v] turns down a message (with an error that can be
    verified, or without proof); in [h] itself nothing is turned down. Then in whatever order messages are sent, delivered
    and processed, and rounds finalized: no call fails; this comes to an end; at any time everybody has blamed only those
    whose messages it turned down, with evidence that verifies wherever there is evidence, and who has a result never turned
    down anything; and in the end those that stop first have blamed exactly those whose messages they turned down. *)
Theorem C100_network : forall (P : Params) (Pr : Proto) f r sid parties (ep : Verifier -> EntryPoint Pr) (h : Plan (with_receive Pr f)) sk,
  signers parties sk -> wire_total P -> signatures_correct P -> plain_ids Pr ->
  honest_run r sid parties (fun v => ep_with f (ep v)) h ->
  forall stop sd, faults sid parties h stop sd ->
  exists net0, honest_net r sid parties sk ep = Ok net0 /\
    forall xs net, schedule r net0 xs net ->
      (forall x o, act r net x = Some o -> exists net', o = Ok net') /\
      (forall c : nat -> Net Pr, c 0 = net -> ~ forall i, exists x, act r (c i) x = Some (Ok (c (S i)))) /\
      (forall v, mem v parties = true -> exists nd, get v (nodes net) = Some nd /\ node_right sid h stop sd v nd) /\
      ((forall x, act r net x = None) -> first_are_done parties h stop net).
Proof. exact @net_blames. Qed.
Print Assumptions C100_network.

(** The same for the driver dev/run_sync.rs, whatever messages it picks, if somebody turns down something. *)
Theorem C100_run_sync : forall (P : Params) (Pr : Proto) f r sid parties (ep : Verifier -> EntryPoint Pr) (h : Plan (with_receive Pr f)) sk,
  signers parties sk -> wire_total P -> signatures_correct P -> plain_ids Pr ->
  honest_run r sid parties (fun v => ep_with f (ep v)) h ->
  forall stop sd, faults sid parties h stop sd -> (exists v, first_to_stop parties stop v) ->
  forall picks, exists fuel0 reports,
    (forall fuel, fuel0 <= fuel -> run_sync fuel r picks sid (map (fun v => (sk v, ep v)) (elements parties)) = Some (Ok reports)) /\
    reports_right sid parties h stop sd reports.
Proof. exact @run_sync_blames. Qed.
Print Assumptions C100_run_sync.

(** C101. The same if all parties run [run_session]: whoever returns does so with a report that blames exactly those whose
    messages it turned down, or with a result if there is none; those that stop first do return. *)
Theorem C101_drivers : forall (P : Params) (Pr : Proto) f r sid parties (ep : Verifier -> EntryPoint Pr) (h : Plan (with_receive Pr f)) sk,
  signers parties sk -> wire_total P -> signatures_correct P -> plain_ids Pr ->
  honest_run r sid parties (fun v => ep_with f (ep v)) h ->
  forall stop sd, faults sid parties h stop sd ->
  exists dn0, honest_dnet r sid parties sk ep = Ok dn0 /\
    (forall xs dn, dschedule r dn0 xs dn ->
       (forall v, contains v (dn_nodes dn) = mem v parties) /\
       (forall v d, get v (dn_nodes dn) = Some d ->
          match d with
          | DrvDone o => exists rep, o = Ok rep /\ report_right sid h stop sd v rep
          | _ => exists x, drv_state d = Some x /\ node_right sid h stop sd v (Running x)
          end) /\
       ((forall x, dact r dn x = None) -> dn_flight dn = [] /\
          forall v, first_to_stop parties stop v -> exists o, get v (dn_nodes dn) = Some (DrvDone o))) /\
    (forall c : nat -> DNet Pr, c 0 = dn0 -> ~ forall i, exists x, dact r (c i) x = Some (c (S i))).
Proof. exact @drivers_blame. Qed.
Print Assumptions C101_drivers.

(** C102. The same for [par_run_session], with at most 101 parties (see C60 for more). *)
Theorem C102_par_drivers : forall (P : Params) (Pr : Proto) f r sid parties (ep : Verifier -> EntryPoint Pr) (h : Plan (with_receive Pr f)) sk,
  signers parties sk -> wire_total P -> signatures_correct P -> plain_ids Pr ->
  honest_run r sid parties (fun v => ep_with f (ep v)) h -> length (elements parties) <= 101 ->
  forall stop sd, faults sid parties h stop sd ->
  exists pn0, honest_pnet r sid parties sk ep = Ok pn0 /\
    (forall xs pn, nschedule r pn0 xs pn ->
       (forall v, contains v (pn_nodes pn) = mem v parties) /\
       (forall v d, get v (pn_nodes pn) = Some d ->
          match d with
          | PStop o => exists rep, o = Ok rep /\ report_right sid h stop sd v rep
          | PRun x => node_right sid h stop sd v (Running (DS (pp_s x) (pp_a x) (handed x)))
          end) /\
       ((forall x, nact r pn x = None) -> pn_flight pn = [] /\
          forall v, first_to_stop parties stop v -> exists o, get v (pn_nodes pn) = Some (PStop o))) /\
    (forall c : nat -> PNet Pr, c 0 = pn0 -> ~ forall i, exists x, nact r (c i) x = Some (c (S i))).
Proof. exact @par_drivers_blame. Qed.
Print Assumptions C102_par_drivers.

(** The executions exist: four parties, of which 3 cheats on 0 and 1, and 1 on 0 (without proof), in the first round; 2 would
    be cheated on by 0 in the second round. Those that stop first are 0 and 1. *)
Example C100_case :
  signers (group 4) key /\ wire_total toyP /\ signatures_correct toyP /\ plain_ids letters /\
  honest_run rN sid0 (group 4) (fun _ => ep_with anything letters_entry) letters_plan /\
  faults sid0 (group 4) letters_plan letters_stop (tt : Shared letters) /\
  (forall v, first_to_stop (group 4) letters_stop v <-> v = 0%N \/ v = 1%N) /\
  map letters_stop [0; 1; 2; 3]%N = [Some 0; Some 0; Some 1; None].
Proof.
  split; [exact (@toy_signers 4)|]. split; [exact toy_wire|]. split; [exact toy_signatures|]. split; [exact letters_plain|].
  split; [exact letters_honest|]. split; [exact letters_faults|]. split; [exact letters_first|reflexivity].
Qed.
Definition parties4 : list (@Signer toyP * EntryPoint letters) := map (fun v => (key v, letters_entry)) (elements (group 4)).
Definition blames {R} (rep : Report (P := toyP) R) : list N * list N * list N :=
  (keys (rep_provable rep), keys (rep_unprovable rep), flat_map (fun kv => elements (snd kv)) (to_list (rep_missing rep))).
Example C100_run :
  match run_sync (Pr := letters) 200 rN (fun k => k * k + 5) sid0 parties4 with
  | Some (Ok reports) => map (fun kv => (fst kv, blames (snd kv))) (to_list reports)
  | _ => []
  end = [(0, ([3], [1], [])); (1, ([3], [], [])); (2, ([], [], [0; 1])); (3, ([], [], [0; 1]))]%N.
Proof. vm_compute. reflexivity. Qed.
Example C101_run :
  match dnet_start (Pr := letters) rN sid0 parties4 with
  | Ok dn => map (fun kv => (fst kv, match snd kv with DrvDone (Ok rep) => Some (blames rep) | _ => None end)) (to_list (dn_nodes (dauto rN 200 dn)))
  | _ => []
  end = [(0, Some ([3], [1], [])); (1, Some ([3], [], [])); (2, None); (3, None)]%N.
Proof. vm_compute. reflexivity. Qed.
Example C102_run :
  match pnet_start (Pr := letters) rN sid0 parties4 with
  | Ok pn => map (fun kv => (fst kv, match snd kv with PStop (Ok rep) => Some (blames rep) | _ => None end)) (to_list (pn_nodes (nauto rN 3 400 pn)))
  | _ => []
  end = [(0, Some ([3], [1], [])); (1, Some ([3], [], [])); (2, None); (3, None)]%N.
Proof. vm_compute. reflexivity. Qed.
