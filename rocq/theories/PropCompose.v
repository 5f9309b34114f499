(** The properties of honest executions of chained protocols, and of the tests of simple_chain.rs and async_runner.rs. *)
From Coq Require Import List NArith Bool Lia.
From Verif Require Import Base BMap Errors RoundId Message Protocol Transcript Evidence Session Spec SpecCrypto Typed SpecTyped Simple Chain DoubleSimple
  IntakeFacts Network SpecNet RunSync Driver SpecDriver Par SpecPar Async SpecAsync Offload SpecOffload SpecPartial SpecCompose ComposeFacts ChainStepFacts
  Toy ToyCrypto ToySimple HonestFacts ToyNet ToyAsync ToyOffload TestParams TestParamsFacts ToyTest ToyCompose.
Import ListNotations.

(** C83: false. Two protocols can each succeed with honest parties, whatever happens on the network, and the chain of the two
    can be executed in lock step, but honest parties blame each other when they execute it: a message of the second round of
    the second protocol can arrive while its receiver is still in the first protocol. *)
Theorem C83_chain_succeeds_refuted : exists (P : Params) (P1 P2 : Proto) (j : Join P1 P2) sid parties (ep : Verifier -> EntryPoint P1) (tr : Verifier -> J j) sk r net0 xs net v d u,
  signers parties sk /\ wire_total P /\ signatures_correct P /\
  (forall r, exists h, honest_run r sid parties ep h) /\
  (forall res r, exists h, honest_run r sid parties (second_entry j tr res) h /\ pl_rid h 0 = j_entry j) /\
  (exists h, lock_step r sid parties (fun v => chain_entry j (ep v) (tr v)) h) /\
  honest_net r sid parties sk (fun v => chain_entry j (ep v) (tr v)) = Ok net0 /\ schedule r net0 xs net /\
  mem u parties = true /\ get v (nodes net) = Some (Running d) /\ contains u (a_unprovable (d_a d)) = true.
Proof. exact chain_fails. Qed.
Print Assumptions C83_chain_succeeds_refuted.

(** C83, what holds: if in every round of both protocols everybody sends to everybody else (and takes part in the echo rounds),
    then so it is in the chain, which succeeds with the results of the second protocol. The conclusion has the form of the
    hypotheses, so this applies to chains of chains as well. *)
Theorem C83_chain_succeeds_partial : forall (P : Params) (P1 P2 : Proto) (j : Join P1 P2) sid parties (ep : Verifier -> EntryPoint P1) (tr : Verifier -> J j) first
    (R1 : (Verifier -> Rslt P1) -> Prop) (R2 : (Verifier -> Rslt P2) -> Prop),
  executes_well (everybody parties) sid parties ep first R1 ->
  (forall res, R1 res -> executes_well (everybody parties) sid parties (second_entry j tr res) (j_entry j) R2) ->
  executes_well (everybody parties) sid parties (fun v => chain_entry j (ep v) (tr v)) (group_under first 1) R2.
Proof. exact @chain_succeeds. Qed.
Print Assumptions C83_chain_succeeds_partial.

(** In lock step any two protocols can be chained, whoever sends to whom. *)
Theorem C83_lock_step : forall (P : Params) (P1 P2 : Proto) (j : Join P1 P2) sid parties (ep : Verifier -> EntryPoint P1) (tr : Verifier -> J j) first
    (R1 : (Verifier -> Rslt P1) -> Prop) (R2 : (Verifier -> Rslt P2) -> Prop),
  executes_well (fun _ => True) sid parties ep first R1 ->
  (forall res, R1 res -> executes_well (fun _ => True) sid parties (second_entry j tr res) (j_entry j) R2) ->
  executes_well (fun _ => True) sid parties (fun v => chain_entry j (ep v) (tr v)) (group_under first 1) R2.
Proof. exact @chain_executes. Qed.
Print Assumptions C83_lock_step.

(** What this means: with all the drivers, in all executions, the protocol completes with such results for everybody. *)
Theorem C83_completes : forall (P : Params) (Pr : Proto) sid parties sk (ep : Verifier -> EntryPoint Pr) first R,
  signers parties sk -> wire_total P -> signatures_correct P -> executes_well (everybody parties) sid parties ep first R ->
  forall r,
  (2 <= length (elements parties) -> run_sync_completes r sid parties sk ep R) /\
  (length (elements parties) <= 51 -> run_async_completes r sid parties sk ep R) /\
  (length (elements parties) <= 51 -> run_async_offload_completes r sid parties sk ep R).
Proof.
  intros P Pr sid parties sk ep first R H1 H2 H3 H4 r.
  exact (conj (well_sync H1 H2 H3 H4 r) (conj (well_async H1 H2 H3 H4 r) (well_offload H1 H2 H3 H4 r))).
Qed.
Print Assumptions C83_completes.

(** The hypotheses are met by simple.rs, twice (this is simple_chain.rs), so also by the chain of that with itself. *)
Example C83_case : forall sid, executes_well (everybody (group 5)) sid (group 5) (fun _ => @simple_entry toyP toyW (group 5)) (rid_new 1) (fun res => forall v, res v = 20%N) /\
  executes_well (everybody (group 5)) sid (group 5) (fun _ => @double_entry toyP toyW (group 5)) (group_under (rid_new 1) 1) (fun res => forall v, res v = 20%N).
Proof.
  intros sid. assert (H : length (elements (group 5)) <= 16) by (vm_compute; repeat constructor). split.
  - exact (@simple_executes toyP toyW toy_simple_wire sid (group 5) H).
  - exact (@double_executes toyP toyW toy_simple_wire sid (group 5) H).
Qed.

(** More generally, whoever sends to whom: the chain of two protocols that can be executed in lock step succeeds under all
    schedules, with the results of the second one, if in each protocol everybody has heard from a party before sending to it,
    in the second one also before its second round, and in the last round of the first one from those to whom it sends in the
    first round of the second. *)
Theorem C83_waiting_partial : forall (P : Params) (P1 P2 : Proto) (j : Join P1 P2) r sid parties (ep : Verifier -> EntryPoint P1) (tr : Verifier -> J j) sk h1 h2,
  signers parties sk -> wire_total P -> signatures_correct P -> chained j r sid parties ep tr h1 h2 ->
  waits parties h1 -> always_waits parties h2 -> crossing parties h1 h2 ->
  exists net0, honest_net r sid parties sk (fun v => chain_entry j (ep v) (tr v)) = Ok net0 /\
    (forall xs net, schedule r net0 xs net ->
       fine parties net /\
       (forall x res, act r net x = Some res -> exists net', res = Ok net') /\
       ((forall v, mem v parties = true -> exists rep, get v (nodes net) = Some (Ended rep) /\
           rep_outcome rep = OResult (pl_result h2 v : Rslt (chain j)) /\ no_errors (Ended rep)) \/
        exists x net', act r net x = Some (Ok net'))) /\
    (forall f : nat -> Net (chain j), f 0 = net0 -> ~ forall i, exists x, act r (f i) x = Some (Ok (f (S i)))).
Proof. exact @chain_waits_runs. Qed.
Print Assumptions C83_waiting_partial.

(** And this is exact: otherwise there is a schedule under which an honest party is blamed, or a message kept for later is
    dropped. *)
Theorem C83_exact_partial : forall (P : Params) (P1 P2 : Proto) (j : Join P1 P2) r sid parties (ep : Verifier -> EntryPoint P1) (tr : Verifier -> J j) sk h1 h2,
  signers parties sk -> wire_total P -> signatures_correct P -> chained j r sid parties ep tr h1 h2 ->
  forall net0, honest_net r sid parties sk (fun v => chain_entry j (ep v) (tr v)) = Ok net0 ->
  (waits parties h1 /\ always_waits parties h2 /\ crossing parties h1 h2 <->
   forall xs net, schedule r net0 xs net -> fine parties net /\ keeps r net).
Proof. exact @chain_waits_exact. Qed.
Print Assumptions C83_exact_partial.

(** Two protocols that meet the conditions, with parties that say nothing; and two that do not, although each of them succeeds:
    those of the refutation. *)
Example C83_waiting_case :
  (exists h1 h2, chained pair_join rN sid0 (group 4) (fun _ => pat_entry rs3) (fun _ => tt : J pair_join) h1 h2 /\
     waits (group 4) h1 /\ always_waits (group 4) h2 /\ crossing (group 4) h1 h2 /\ pl_last h1 = 1 /\ pl_last h2 = 1) /\
  (exists h1 h2, chained pat_join rN sid0 (group 4) (fun _ => pat_entry rs1) (fun _ => tt : J pat_join) h1 h2 /\
     waits (group 4) h1 /\ waits (group 4) h2 /\ ~ always_waits (group 4) h2).
Proof. exact waiting_cases. Qed.

(** C84. The test of simple_chain.rs, for any set of 2 to 16 parties: with the parameters of the test and without any assumption
    the protocol of simple_chain.rs completes, with the result n(n-1) for everybody (6 for the three parties of the test);
    also with [run_async]. *)
Theorem C84_double_simple : forall (P : Params) W,
  codec_ok (sw_message1 W) /\ codec_ok (sw_echo1 W) /\ codec_ok (sw_broadcast1 W) /\ codec_ok (sw_message2 W) ->
  forall sid parties sk, wire_total P -> signatures_correct P -> signers parties sk ->
  let n := length (elements parties) in 2 <= n <= 16 -> let R := fun res : Verifier -> N => forall v, res v = (N.of_nat n * (N.of_nat n - 1))%N in
  forall r, run_sync_completes r sid parties sk (fun _ => double_entry W parties) R /\
    run_async_completes r sid parties sk (fun _ => double_entry W parties) R /\ run_async_offload_completes r sid parties sk (fun _ => double_entry W parties) R.
Proof. exact @double_all. Qed.
Print Assumptions C84_double_simple.

Theorem C84_with_test_parameters : forall (ids : bset N) r sid,
  let n := length (elements ids) in 2 <= n <= 16 -> let R := fun res : N -> N => forall v, res v = (N.of_nat n * (N.of_nat n - 1))%N in
  let ep := fun _ => double_entry (P := testP) testW ids in
  run_sync_completes (P := testP) r sid ids (fun v => v) ep R /\
  run_async_completes (P := testP) r sid ids (fun v => v) ep R /\ run_async_offload_completes (P := testP) r sid ids (fun v => v) ep R.
Proof. exact test_double. Qed.
Print Assumptions C84_with_test_parameters.

(** The entry points of the test, and some random choices. *)
Example C84_case : length (elements (set_of_list [0; 1; 2]%N)) = 3 /\ double_results (fun k => 5 * k + 2) = [6; 6; 6]%N.
Proof. exact double_case. Qed.

(** C85. The tests of async_runner.rs, for any set of up to 16 parties: [run_async] completes, with and without
    [offload_processing], with the result n(n-1) for everybody. *)
Theorem C85_async_tests : forall (ids : bset N) r sid,
  let n := length (elements ids) in n <= 16 -> let R := fun res : N -> N => forall v, res v = (N.of_nat n * (N.of_nat n - 1))%N in
  let ep := fun _ => simple_entry (P := testP) testW ids in
  run_async_completes (P := testP) r sid ids (fun v => v) ep R /\ run_async_offload_completes (P := testP) r sid ids (fun v => v) ep R.
Proof. exact test_async. Qed.
Print Assumptions C85_async_tests.

(** An execution of the test with three parties. *)
Example C85_case : length (elements (set_of_list [0; 1; 2]%N)) <= 16 /\ (exists tr, aschedule test_rng 100 test_astarted tr test_arun) /\
  test_aresults = [(0, Some 6); (1, Some 6); (2, Some 6)]%N.
Proof. split; [vm_compute; repeat constructor|exact test_async_case]. Qed.
