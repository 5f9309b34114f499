(** Property C133: the example protocol in release builds. *)
From Coq Require Import List NArith Bool Arith.
From Verif Require Import Base BMap Errors RoundId Message Protocol Transcript Evidence Session Typed Simple SimpleRelease Spec SpecCrypto
  Network SpecNet Toy ToyCrypto ToySimple NetFacts HonestFacts ToyNet ReleaseFacts.
Import ListNotations.
Set Implicit Arguments.

(** C133. With any number of parties (there is no bound, unlike in C49), under every schedule, no call fails or panics,
    nobody gets stuck, nothing goes on forever, and whoever finishes has the result n(n-1), reduced modulo 256. *)
Theorem C133_result : forall (P : Params) W,
  codec_ok (sw_message1 W) /\ codec_ok (sw_echo1 W) /\ codec_ok (sw_broadcast1 W) /\ codec_ok (sw_message2 W) ->
  forall r sid parties, wire_total P -> signatures_correct P -> forall sk, signers parties sk ->
  let n := length (elements parties) in
  exists net0, honest_net r sid parties sk (fun _ => release_entry W parties) = Ok net0 /\
    (forall xs net, schedule r net0 xs net ->
       fine parties net /\
       (forall x res, act r net x = Some res -> exists net', res = Ok net') /\
       (forall v rep, get v (nodes net) = Some (Ended rep) -> rep_outcome rep = OResult (N.modulo (N.of_nat n * (N.of_nat n - 1)) 256)) /\
       ((forall v, mem v parties = true -> exists rep, get v (nodes net) = Some (Ended rep)) \/ exists x net', act r net x = Some (Ok net'))) /\
    (forall f : nat -> Net (wrap (simple_release W)), f 0 = net0 -> ~ forall i, exists x, act r (f i) x = Some (Ok (f (S i)))).
Proof. exact @release_runs. Qed.
Print Assumptions C133_result.

(** That is the sum of the positions, taken twice, exactly for up to 16 parties: beyond, where debug builds panic, the
    result is silently a wrong one. *)
Theorem C133_sum_iff : forall n : nat,
  N.modulo (N.of_nat n * (N.of_nat n - 1)) 256 = (N.of_nat n * (N.of_nat n - 1))%N <-> n <= 16.
Proof. exact wrapped_iff. Qed.
Print Assumptions C133_sum_iff.

(** Whatever the other parties sent: where a debug build finishes a round, a release build does it with the same outcome; and
    a release build always finishes it (if it knows its own position). *)
Theorem C133_agrees_with_debug : forall (P : Params) W k (x : tst (simple W) k) g ps arts o,
  t_finalize (simple W) k x g ps arts = Ok o -> t_finalize (simple_release W) k x g ps arts = Ok o.
Proof. exact @debug_refines. Qed.
Print Assumptions C133_agrees_with_debug.

Theorem C133_never_panics : forall (P : Params) W k (x : tst (simple W) k) g ps arts,
  get (cx_id (simple_ctx k x)) (cx_positions (simple_ctx k x)) <> None ->
  exists o, t_finalize (simple_release W) k x g ps arts = Ok o.
Proof. exact @release_no_panic. Qed.
Print Assumptions C133_never_panics.

(** 17 parties, for which C49 is false: everybody finishes, with 272 - 256. *)
Notation release_net n :=
  (@honest_net toyP (wrap (@simple_release toyP toyW)) rN sid0 (group n) key (fun _ => @release_entry toyP toyW (group n))).
Example C133_case : length (elements (group 17)) = 17 /\
  (codec_ok (sw_message1 toyW) /\ codec_ok (sw_echo1 toyW) /\ codec_ok (sw_broadcast1 toyW) /\ codec_ok (sw_message2 toyW)) /\
  wire_total toyP /\ signatures_correct toyP /\ signers (group 17) key /\
  outcomes (net_of (play (started (release_net 17)) (exchange 17 ++ finish 17 ++ exchange 17 ++ finish 17 ++ exchange 17 ++ finish 17)))
    = repeat (Some 16%N) 17.
Proof.
  split; [vm_compute; reflexivity|]. split; [exact toy_simple_wire|]. split; [exact toy_wire|]. split; [exact toy_signatures|].
  split; [exact (@toy_signers 17)|]. vm_cast_no_check (eq_refl (repeat (Some 16%N) 17)).
Qed.
(** Two rounds finished alike, and one that overflows: 200 + 100. *)
Example C133_steps :
  let c := mkCtx (P := toyP) 0%N (set_of_list [1%N]) (of_list [(0%N, 200%N); (1%N, 1%N)]) in
  let ps x := of_list [(1%N, x)] : bmap (@Verifier toyP) N in
  get (cx_id c) (cx_positions c) <> None /\
  t_finalize (simple toyW) SR2 (mkSimple2 9 c) (fun _ => 0%N) (ps 3%N) empty = Ok (Finished_ 212%N) /\
  t_finalize (simple_release toyW) SR2 (mkSimple2 9 c) (fun _ => 0%N) (ps 3%N) empty = Ok (Finished_ 212%N) /\
  t_finalize (simple toyW) SR2 (mkSimple2 9 c) (fun _ => 0%N) (ps 100%N) empty = Panic /\
  t_finalize (simple_release toyW) SR2 (mkSimple2 9 c) (fun _ => 0%N) (ps 100%N) empty = Ok (Finished_ 53%N).
Proof. vm_compute. repeat split; discriminate. Qed.
