(** The benchmarks with the concrete parameters of Toy.v. Used only by [Example]s and witnesses. *)
From Coq Require Import List NArith Bool Arith.
From Verif Require Import Base BMap Errors RoundId Message Protocol Transcript Evidence Session Spec SpecCrypto Typed SpecTyped Simple
  Network SpecNet RunSync Toy ToyCrypto ToySimple HonestFacts ToyNet Async Bench BenchFacts.
Import ListNotations.
Set Implicit Arguments.

Definition nothing_deser (b : bytes) : bool := match b with [] => true | _ => false end.
Definition bench_inputs (n : nat) (rounds : N) (echo : bool) (v : @Verifier toyP) : BInputs := @mkBInputs toyP rounds echo (srem v (group n)).
Definition bench_run (fuel n : nat) (rounds : N) (echo : bool) (picks : nat -> nat) :=
  @run_sync toyP (wrap (@bench toyP empty_work unit_codec unit_codec nothing_deser)) fuel rN picks sid0
    (map (fun v => (key v, @bench_entry toyP empty_work unit_codec unit_codec nothing_deser (bench_inputs n rounds echo v))) (elements (group n))).
Definition bench_error (o : option (res LocalError (bmap (@Verifier toyP) (Report (P := toyP) unit)))) : bool :=
  match o with Some (Err LE_NotImplemented) => true | _ => false end.
Lemma bench_error_eq o : bench_error o = true -> o = Some (Err LE_NotImplemented).
Proof. destruct o as [[?|[]|]|]; try discriminate. reflexivity. Qed.
Definition bench_fine (n : nat) (o : option (res LocalError (bmap (@Verifier toyP) (Report (P := toyP) unit)))) : bool :=
  match o with
  | Some (Ok reports) => Nat.eqb (length (to_list reports)) n && forallb (fun kv => match rep_outcome (snd kv) with OResult _ => true | _ => false end) (to_list reports)
  | _ => false
  end.

Lemma no_echo_benchmark : exists (P : Params) (dc ec : Codec unit) no_error r sid parties sk,
  codec_ok dc /\ codec_ok ec /\ wire_total P /\ signatures_correct P /\ signers parties sk /\ length (elements parties) = 25 /\
  forall fuel picks,
  run_sync fuel r picks sid (map (fun v => (sk v, bench_entry empty_work dc ec no_error (mkBInputs 5 false (srem v parties)))) (elements parties))
  = Some (Err LE_NotImplemented).
Proof.
  exists toyP, unit_codec, unit_codec, nothing_deser, rN, sid0, (group 25), key.
  assert (Hc : codec_ok unit_codec) by (intros []; exists []; split; reflexivity).
  split; [exact Hc|]. split; [exact Hc|]. split; [exact toy_wire|]. split; [exact toy_signatures|]. split; [exact (@toy_signers 25)|].
  split; [reflexivity|]. intros fuel picks.
  destruct (elements (group 25)) as [|v l] eqn:E; [discriminate E|]. cbn [map]. apply no_echo_run_sync; [reflexivity|].
  assert (Hv : v = 0%N) by (injection E as <- _; reflexivity). rewrite Hv. reflexivity.
Qed.
Lemma echo_benchmark : exists (P : Params) (dc ec : Codec unit) no_error r sid parties sk picks fuel,
  codec_ok dc /\ codec_ok ec /\ wire_total P /\ signatures_correct P /\ signers parties sk /\ length (elements parties) = 25 /\
  run_sync fuel r picks sid (map (fun v => (sk v, bench_entry empty_work dc ec no_error (mkBInputs 5 true (srem v parties)))) (elements parties))
  = Some (Err LE_NotImplemented).
Proof.
  exists toyP, unit_codec, unit_codec, nothing_deser, rN, sid0, (group 25), key, (fun k => 7 * k + 3), (40 * 50).
  assert (Hc : codec_ok unit_codec) by (intros []; exists []; split; reflexivity).
  split; [exact Hc|]. split; [exact Hc|]. split; [exact toy_wire|]. split; [exact toy_signatures|]. split; [exact (@toy_signers 25)|].
  split; [reflexivity|].
  apply bench_error_eq. vm_cast_no_check (eq_refl true).
Qed.
