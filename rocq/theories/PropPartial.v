(** Properties C63 and C64: partial participation in echo rounds, and rounds in which not everybody talks to everybody. *)
From Coq Require Import List NArith Bool Arith.
From Verif Require Import Base BMap Errors RoundId Message Protocol Transcript Evidence Session Typed Simple Spec SpecCrypto
  Network SpecNet RunSync PartialEcho SpecPartial Toy ToyCrypto ToySimple NetFacts HonestFacts ToyNet PartialFacts StepFacts ToyPartial.
Import ListNotations.
Set Implicit Arguments.

(** C63. The protocol of tests/partial_echo.rs with any parties and any [consistent] inputs. The sessions can be created, and
    whatever the schedule: nothing is recorded against anybody, no call fails or panics (in particular not the assertions
    and the [unreachable!] of the protocol), nobody is stuck, and everything ends. *)
Theorem C63_partial_echo : forall (P : Params) (echo_codec : Codec Verifier) no_error, codec_ok echo_codec ->
  forall r sid parties inputs, consistent parties inputs ->
  wire_total P -> signatures_correct P -> forall sk, signers parties sk ->
  let ep := fun v => partial_entry echo_codec no_error (inputs v) in
  exists net0, honest_net r sid parties sk ep = Ok net0 /\
    (forall xs net, schedule r net0 xs net ->
       fine parties net /\
       (forall x res, act r net x = Some res -> exists net', res = Ok net') /\
       ((forall v, mem v parties = true -> exists rep, get v (nodes net) = Some (Ended rep) /\ rep_outcome rep = OResult tt) \/
        exists x net', act r net x = Some (Ok net'))) /\
    (forall f : nat -> Net (wrap (partial_echo echo_codec no_error)), f 0 = net0 ->
       ~ forall i, exists x, act r (f i) x = Some (Ok (f (S i)))).
Proof. exact @partial_runs. Qed.
Print Assumptions C63_partial_echo.

(** The test itself (partial_echo.rs:195-198): [run_sync] returns, and [results] succeeds, whatever messages are picked;
    here for any [consistent] inputs with at least one message. *)
Theorem C63_run_sync : forall (P : Params) (echo_codec : Codec Verifier) no_error, codec_ok echo_codec ->
  forall r sid parties inputs, consistent parties inputs ->
  wire_total P -> signatures_correct P -> forall sk, signers parties sk ->
  forall picks, let ep := fun v => partial_entry echo_codec no_error (inputs v) in
  (exists v u, mem v parties = true /\ mem u (in_dest (inputs v)) = true) ->
  exists fuel0 reports results, (forall fuel, fuel0 <= fuel ->
      run_sync fuel r picks sid (map (fun v => (sk v, ep v)) (elements parties)) = Some (Ok reports)) /\
    exec_results reports = Some results /\ is_map results parties (fun _ => tt).
Proof. exact @partial_run_sync. Qed.
Print Assumptions C63_run_sync.

(** The inputs of the test are consistent: 0 and 1 send, 1, 2 and 3 have an echo round, 4 is not involved. *)
Example C63_case : consistent (group 5) test_inputs /\ codec_ok id_codec /\
  map (fun v => in_echo_round (test_inputs v)) [0; 1; 2; 3; 4]%N = [false; true; true; true; false] /\
  outcomes (net_of (play (started partial_net) echo_script)) = [Some tt; Some tt; Some tt; Some tt; Some tt].
Proof.
  split; [exact test_consistent|]. split; [exact id_codec_ok|]. split; [reflexivity|].
  vm_cast_no_check (eq_refl [Some tt; Some tt; Some tt; Some tt; Some tt]).
Qed.

(** C64 is false. All parties follow the protocol, which succeeds in lock step. (1) A party that only sends to the
    participants of an echo round is not part of it, and can send the message of the next round before they have entered
    it. They cache it, drop it when the echo round begins, and wait for it forever: node [v] has not ended, and nothing can
    happen any more. *)
Theorem C64_early_message_lost_refuted : exists (P : Params) (Pr : Proto) r sid parties (ep : Verifier -> EntryPoint Pr) (h : Plan Pr) sk net0 xs net v d,
  signers parties sk /\ wire_total P /\ signatures_correct P /\ lock_step r sid parties ep h /\
  honest_net r sid parties sk ep = Ok net0 /\ schedule r net0 xs net /\
  get v (nodes net) = Some (Running d) /\ flight net = [] /\ forall x, act r net x = None.
Proof. exact early_message_lost. Qed.
Print Assumptions C64_early_message_lost_refuted.

(** (2) Everybody sends to everybody in all rounds but the last, which has an echo round for those who received. The echo
    of one of them can reach another one before it has entered the last round. It is rejected, and the honest sender [u] is
    recorded as misbehaving. *)
Theorem C64_early_echo_refuted : exists (P : Params) (Pr : Proto) r sid parties (ep : Verifier -> EntryPoint Pr) (h : Plan Pr) sk net0 xs net v d u,
  signers parties sk /\ wire_total P /\ signatures_correct P /\ lock_step r sid parties ep h /\
  (forall n v, S n <= pl_last h -> mem v parties = true -> pl_dest h n v = srem v parties /\ pl_from h n v = srem v parties) /\
  honest_net r sid parties sk ep = Ok net0 /\ schedule r net0 xs net /\
  mem u parties = true /\ get v (nodes net) = Some (Running d) /\ contains u (a_unprovable (d_a d)) = true.
Proof. exact early_echo_rejected. Qed.
Print Assumptions C64_early_echo_refuted.

(** (3) Without echo rounds: a party that sends to another one without waiting for it can be two rounds ahead. Its message is
    rejected, and it is recorded as misbehaving. *)
Theorem C64_two_rounds_ahead_refuted : exists (P : Params) (Pr : Proto) r sid parties (ep : Verifier -> EntryPoint Pr) (h : Plan Pr) sk net0 xs net v d u,
  signers parties sk /\ wire_total P /\ signatures_correct P /\ lock_step r sid parties ep h /\
  (forall n w, echoes h n w = false) /\
  honest_net r sid parties sk ep = Ok net0 /\ schedule r net0 xs net /\
  mem u parties = true /\ get v (nodes net) = Some (Running d) /\ contains u (a_unprovable (d_a d)) = true.
Proof. exact two_rounds_ahead_rejected. Qed.
Print Assumptions C64_two_rounds_ahead_refuted.

(** It holds if nobody sends to a party that may be too far behind. Missing for the full property: the other communication
    patterns, for which it is false. *)
Theorem C64_in_step_partial : forall (P : Params) (Pr : Proto) r sid parties (ep : Verifier -> EntryPoint Pr) (h : Plan Pr) sk,
  signers parties sk -> wire_total P -> signatures_correct P -> lock_step r sid parties ep h -> in_step parties h ->
  exists net0, honest_net r sid parties sk ep = Ok net0 /\
    (forall xs net, schedule r net0 xs net ->
       fine parties net /\
       (forall x res, act r net x = Some res -> exists net', res = Ok net') /\
       ((all_ended parties h net /\ flight net = []) \/ exists x net', act r net x = Some (Ok net'))) /\
    (forall f : nat -> Net Pr, f 0 = net0 -> ~ forall i, exists x, act r (f i) x = Some (Ok (f (S i)))).
Proof. exact @in_step_runs. Qed.
Print Assumptions C64_in_step_partial.

(** One round always qualifies, whoever sends and echoes to whom. *)
Theorem C64_one_round_partial : forall (P : Params) (Pr : Proto) parties (h : Plan Pr), pl_last h = 0 -> in_step parties h.
Proof. exact @one_round_in_step. Qed.
Print Assumptions C64_one_round_partial.

(** The first example above with a different second round: party 0 waits for the others before it sends again. *)
Example C64_case : exists h : Plan (toyPr cfgP4),
  lock_step rN sid0 (group 3) (fun _ => toyEP cfgP4) h /\ in_step (group 3) h /\ pl_last h = 2 /\
  map (echoes h 0) [0; 1; 2]%N = [false; true; true].
Proof. exact good_pattern. Qed.

(** And only then. Let the protocol succeed in lock step. Under every schedule nothing is recorded against anybody and every
    message kept for later is taken along to the next round, if and only if before sending everybody has heard from the
    receiver in the phase before, or ([waits]) from somebody who has. For every other protocol there is a schedule under
    which an honest party is blamed or a message is lost. *)
Theorem C64_exact_partial : forall (P : Params) (Pr : Proto) r sid parties (ep : Verifier -> EntryPoint Pr) (h : Plan Pr) sk net0,
  signers parties sk -> wire_total P -> signatures_correct P -> lock_step r sid parties ep h -> honest_net r sid parties sk ep = Ok net0 ->
  (waits parties h <-> forall xs net, schedule r net0 xs net -> fine parties net /\ keeps r net).
Proof. exact @waits_exact. Qed.
Print Assumptions C64_exact_partial.

(** This is the condition of [C64_in_step_partial], round by round. *)
Theorem C64_waits_partial : forall (P : Params) (Pr : Proto) r sid parties (ep : Verifier -> EntryPoint Pr) (h : Plan Pr),
  lock_step r sid parties ep h -> (in_step parties h <-> waits parties h).
Proof. exact @in_step_waits. Qed.
Print Assumptions C64_waits_partial.

(** The example above meets the condition; in the third of the examples further above party 0 does not wait for party 1. *)
Example C64_exact_case :
  (exists h : Plan (toyPr cfgP4), lock_step rN sid0 (group 3) (fun _ => toyEP cfgP4) h /\ waits (group 3) h /\ pl_last h = 2) /\
  (exists h : Plan (toyPr cfgP3), lock_step rN sid0 (group 2) (fun _ => toyEP cfgP3) h /\ ~ waits (group 2) h /\ pl_last h = 2).
Proof. exact waits_cases. Qed.
