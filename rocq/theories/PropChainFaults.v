(** Property C105: any messages of any parties are turned down in either part of a chained protocol. *)
From Coq Require Import List NArith Bool.
From Verif Require Import Base BMap Errors RoundId Message Protocol Transcript Evidence Session Spec SpecCrypto
  Network SpecNet RunSync Chain SpecCompose SpecCaught SpecFaults SpecChainFaults ChainFacts FaultFacts ChainFaults
  Toy ToyCrypto ToyNet ToyFaults ToyChainFaults.
Import ListNotations.
Set Implicit Arguments.

(** C105. Take executions [h1] and [h2] of the two parts of a chain, in which [stop1 v] and [stop2 v] are the first rounds in
    which [v] turns down a message, with an error that the part can verify or without proof. One after the other they are
    such an execution of the chain, with the rounds in which [v] turns down a message for the first time in the chain: what
    the parts can verify, the chain can verify, with the messages of earlier rounds that the error refers to. *)
Theorem C105_faults : forall (P : Params) (P1 P2 : Proto) (j : Join P1 P2) f1 f2 r sid parties (ep : Verifier -> EntryPoint P1) (tr : Verifier -> J j)
    (h1 : Plan (with_receive P1 f1)) (h2 : Plan (with_receive P2 f2)),
  lock_step (rng1 r) sid parties (fun v => ep_with f1 (ep v)) h1 ->
  lock_step (rng2 r h1) sid parties (fun v => ep_with f2 (second_entry j tr (pl_result h1 : Verifier -> Rslt P1) v)) h2 ->
  (forall v, mem v parties = true -> ti_result (tinfo P1 (pl_state h1 (pl_last h1) v)) = true) -> pl_rid h2 0 = j_entry j ->
  lock_step r sid parties (fun v => ep_with (both (j := j) f1 f2) (chain_entry j (ep v) (tr v))) (after j sid tr h1 h2) /\
  (everybody parties h1 -> everybody parties h2 -> everybody parties (after j sid tr h1 h2)) /\
  forall stop1 stop2 sd1 sd2, faults sid parties h1 stop1 sd1 -> faults sid parties h2 stop2 sd2 ->
    faults sid parties (after j sid tr h1 h2) (stop_after h1 stop1 stop2) ((sd1, sd2) : Shared (chain j)).
Proof. exact @chain_faults. Qed.
Print Assumptions C105_faults.

(** So C100 (and likewise C101 and C102) holds of the chain, if in the parts everybody sends to everybody else. *)
Theorem C105_network : forall (P : Params) (P1 P2 : Proto) (j : Join P1 P2) f1 f2 r sid parties (ep : Verifier -> EntryPoint P1) (tr : Verifier -> J j)
    (h1 : Plan (with_receive P1 f1)) (h2 : Plan (with_receive P2 f2)) sk,
  signers parties sk -> wire_total P -> signatures_correct P -> plain_ids P1 -> plain_ids P2 ->
  lock_step (rng1 r) sid parties (fun v => ep_with f1 (ep v)) h1 ->
  lock_step (rng2 r h1) sid parties (fun v => ep_with f2 (second_entry j tr (pl_result h1 : Verifier -> Rslt P1) v)) h2 ->
  (forall v, mem v parties = true -> ti_result (tinfo P1 (pl_state h1 (pl_last h1) v)) = true) -> pl_rid h2 0 = j_entry j ->
  everybody parties h1 -> everybody parties h2 ->
  forall stop1 stop2 sd1 sd2, faults sid parties h1 stop1 sd1 -> faults sid parties h2 stop2 sd2 ->
  let h := after j sid tr h1 h2 in let stop := stop_after h1 stop1 stop2 in let sd : Shared (chain j) := (sd1, sd2) in
  exists net0, honest_net r sid parties sk (fun v => chain_entry j (ep v) (tr v)) = Ok net0 /\
    forall xs net, schedule r net0 xs net ->
      (forall x o, act r net x = Some o -> exists net', o = Ok net') /\
      (forall c : nat -> Net (chain j), c 0 = net -> ~ forall i, exists x, act r (c i) x = Some (Ok (c (S i)))) /\
      (forall v, mem v parties = true -> exists nd, get v (nodes net) = Some nd /\ node_right sid h stop sd v nd) /\
      ((forall x, act r net x = None) -> first_are_done parties h stop net).
Proof. exact @chain_net_blames. Qed.
Print Assumptions C105_network.

(** The executions exist: four parties execute a protocol in which 3 cheats on 2, and then the one of C100_case, in which 3
    cheats on 0 and 1, and 1 on 0. The one that stops first is 2. *)
Example C105_case :
  signers (group 4) key /\ wire_total toyP /\ signatures_correct toyP /\ plain_ids greetings /\ plain_ids letters /\
  lock_step (rng1 rN) sid0 (group 4) (fun _ => ep_with anyone greetings_entry) greetings_plan /\
  lock_step (rng2 rN greetings_plan) sid0 (group 4)
    (fun v => ep_with anything (second_entry correspondence (fun _ => tt) (pl_result greetings_plan : Verifier -> Rslt greetings) v)) letters_plan /\
  (forall v, mem v (group 4) = true -> ti_result (tinfo greetings (pl_state greetings_plan (pl_last greetings_plan) v)) = true) /\
  pl_rid letters_plan 0 = j_entry correspondence /\
  everybody (group 4) greetings_plan /\ everybody (group 4) letters_plan /\
  faults sid0 (group 4) greetings_plan greetings_stop (tt : Shared greetings) /\ faults sid0 (group 4) letters_plan letters_stop (tt : Shared letters) /\
  (forall v, first_to_stop (group 4) (stop_after greetings_plan greetings_stop letters_stop) v <-> v = 2%N) /\
  map (stop_after greetings_plan greetings_stop letters_stop) [0; 1; 2; 3]%N = [Some 1; Some 1; Some 0; None].
Proof.
  split; [exact (@toy_signers 4)|]. split; [exact toy_wire|]. split; [exact toy_signatures|]. split; [exact greetings_plain|]. split; [exact letters_plain|].
  split; [exact (greetings_lock _)|]. split; [exact (letters_lock _)|]. split; [reflexivity|]. split; [reflexivity|].
  split; [exact greetings_everybody|]. split; [exact letters_everybody|]. split; [exact greetings_faults|]. split; [exact letters_faults|].
  split; [exact chained_first|reflexivity].
Qed.
Definition chained4 : list (@Signer toyP * EntryPoint (chain correspondence)) := map (fun v => (key v, chain_entry correspondence greetings_entry tt)) (elements (group 4)).
Definition blamed {R} (rep : Report (P := toyP) R) : list N * list N := (keys (rep_provable rep), keys (rep_unprovable rep)).
Example C105_run :
  match run_sync (Pr := chain correspondence) 200 rN (fun k => k * k + 5) sid0 chained4 with
  | Some (Ok reports) => map (fun kv => (fst kv, blamed (snd kv))) (to_list reports)
  | _ => []
  end = [(0, ([3], [1])); (1, ([3], [])); (2, ([3], [])); (3, ([], []))]%N.
Proof. vm_compute. reflexivity. Qed.
