(** Property C75: the protocols of the benchmarks. *)
From Coq Require Import List NArith Bool Arith.
From Verif Require Import Base BMap Errors RoundId Message Protocol Transcript Evidence Session Typed Simple Spec SpecCrypto
  Network SpecNet RunSync Async Bench Toy ToyCrypto ToySimple HonestFacts ToyNet BenchFacts ToyBench.
Import ListNotations.
Set Implicit Arguments.

(** C75 is false: the benchmarks of manul/benches/empty_rounds.rs fail. "25 nodes, 5 rounds, no echo": [EmptyRound] has an
    echo broadcast type but does not make one, so the default implementation returns an error. *)
Theorem C75_no_echo_refuted : exists (P : Params) (dc ec : Codec unit) no_error r sid parties sk,
  codec_ok dc /\ codec_ok ec /\ wire_total P /\ signatures_correct P /\ signers parties sk /\ length (elements parties) = 25 /\
  forall fuel picks,
  run_sync fuel r picks sid (map (fun v => (sk v, bench_entry empty_work dc ec no_error (mkBInputs 5 false (srem v parties)))) (elements parties))
  = Some (Err LE_NotImplemented).
Proof. exact no_echo_benchmark. Qed.
Print Assumptions C75_no_echo_refuted.

(** "25 nodes, 5 rounds, echo each round": the first round has an echo broadcast, but it goes on to an [EmptyRound]. *)
Theorem C75_echo_refuted : exists (P : Params) (dc ec : Codec unit) no_error r sid parties sk picks fuel,
  codec_ok dc /\ codec_ok ec /\ wire_total P /\ signatures_correct P /\ signers parties sk /\ length (elements parties) = 25 /\
  run_sync fuel r picks sid (map (fun v => (sk v, bench_entry empty_work dc ec no_error (mkBInputs 5 true (srem v parties)))) (elements parties))
  = Some (Err LE_NotImplemented).
Proof. exact echo_benchmark. Qed.
Print Assumptions C75_echo_refuted.

(** Without echo broadcasts, whatever the number of rounds, the work (either benchmark), the format and the randomness: as
    soon as there is somebody else, no session can be created, [run_sync] returns an error, and so does [run_async]. *)
Theorem C75_no_echo_fails : forall (P : Params) (W : Work) (dc : Codec (wk_type W)) (ec : Codec unit) no_error (inp : BInputs),
  bi_echo inp = false -> is_empty (bi_others inp) = false ->
  let ep := bench_entry W dc ec no_error inp in
  (forall g sid signer, session_new g sid signer ep = Err LE_NotImplemented) /\
  (forall fuel r picks sid signer ps, run_sync fuel r picks sid ((signer, ep) :: ps) = Some (Err LE_NotImplemented)) /\
  (forall r sid signer ps, anet_start r sid ((signer, ep) :: ps) = Err LE_NotImplemented).
Proof. exact @no_echo_fails. Qed.
Print Assumptions C75_no_echo_fails.

(** With echo broadcasts and any number of rounds but 1: whatever messages arrive, no session gets beyond the echo round of
    round 1, which can never be finalized, and none returns a result. *)
Theorem C75_echo_fails : forall (P : Params) (W : Work) (dc : Codec (wk_type W)) (ec : Codec unit) no_error g sid signer (inp : BInputs) s,
  bi_echo inp = true -> bi_rounds inp <> 1%N -> is_empty (bi_others inp) = false ->
  session_new g sid signer (bench_entry W dc ec no_error inp) = Ok s ->
  forall es d, run (start s) es d ->
  (s_round_id (d_s d) = rid_new 1 \/ s_round_id (d_s d) = mkRid 1 [] true) /\
  (forall g rep, finalize_round (d_s d) g (d_a d) <> Ok (ROFinished rep)) /\
  (s_round_id (d_s d) = mkRid 1 [] true -> forall g o, finalize_round (d_s d) g (d_a d) <> Ok o).
Proof. exact @echo_never. Qed.
Print Assumptions C75_echo_fails.

(** What works: one round with echo broadcasts, for any number of parties from 2 on. Missing for the full property: no echo
    broadcasts, or another number of rounds, for which it is false. *)
Theorem C75_one_round_partial : forall (P : Params) (W : Work) (dc : Codec (wk_type W)) (ec : Codec unit) no_error r sid parties
    (inputs : Verifier -> BInputs) x,
  codec_ok dc -> codec_ok ec -> wk_make W 1 = Ok x -> wk_check W 1 x = Ok tt ->
  (forall v, mem v parties = true -> inputs v = mkBInputs 1 true (srem v parties)) ->
  (exists u v, mem u parties = true /\ mem v parties = true /\ u <> v) ->
  wire_total P -> signatures_correct P -> forall sk, signers parties sk -> forall picks,
  exists fuel0 reports results, (forall fuel, fuel0 <= fuel ->
    run_sync fuel r picks sid (map (fun v => (sk v, bench_entry W dc ec no_error (inputs v))) (elements parties)) = Some (Ok reports)) /\
  exec_results reports = Some results /\ is_map results parties (fun _ => tt).
Proof. exact @bench_run_sync. Qed.
Print Assumptions C75_one_round_partial.

(** Both kinds of work qualify: what is made is accepted, in every round. The second can be made in the rounds 1 to 253 only.
    [do_work] does not overflow. *)
Theorem C75_work : (forall c, wk_make empty_work c = Ok tt /\ wk_check empty_work c tt = Ok tt) /\
  (forall c, ((c < 254)%N -> wk_make async_work c = Ok (do_work (c + 2))) /\
     (forall x, wk_make async_work c = Ok x -> wk_check async_work c x = Ok tt) /\ ((254 <= c)%N -> wk_make async_work c = Panic)) /\
  forall n x, (x < 2 ^ 64 -> let y := N.iter n (fun x => N.modulo (x * x) work_modulus) x in y < 2 ^ 64 /\ y * y < 2 ^ 128)%N.
Proof. exact (conj empty_work_ok (conj async_work_ok do_work_fits)). Qed.
Print Assumptions C75_work.

Example C75_case : bench_fine 3 (bench_run 100 3 1 true (fun k => k)) = true /\
  bench_error (bench_run 100 3 2 true (fun k => k)) = true /\ bench_error (bench_run 1 3 1 false (fun k => k)) = true.
Proof. split; [|split]; vm_cast_no_check (eq_refl true). Qed.
(** A session that [C75_echo_fails] is about. *)
Example C75_echo_case : exists s, session_new g0 sid0 (key 0%N)
  (@bench_entry toyP empty_work unit_codec unit_codec nothing_deser (bench_inputs 3 5 true 0%N)) = Ok s.
Proof. apply is_ok_ex. vm_cast_no_check (eq_refl true). Qed.
