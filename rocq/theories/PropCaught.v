(** Properties C79 and C80: a party whose messages are turned down is convicted by everybody. *)
From Coq Require Import List NArith Bool.
From Verif Require Import Base BMap Errors RoundId Message Protocol Transcript Evidence Session Spec SpecCrypto Typed Simple Extend SpecExtend
  Network SpecNet NetFacts RunSync Misbehave SpecCaught CaughtFacts CaughtExt SimpleTest CaughtSimple TestParams TestParamsFacts
  Toy ToyCrypto ToySimple ToyNet ToyMisbehave ToyCaught.
Import ListNotations.
Set Implicit Arguments.

(** C79. All parties run the library; in the execution [h] of the protocol everything is received as it should, except that
    what [t] sends in round [k] is turned down by everybody. Then in whatever order messages are delivered, processed, and
    rounds finalized, no call fails, this comes to an end, and in the end all others have evidence against [t], which
    verifies, and have recorded nothing else, and [t] has recorded nothing. *)
Theorem C79_network : forall (P : Params) (Pr : Proto) f r sid parties (ep : Verifier -> EntryPoint Pr) (h : Plan (with_receive Pr f)) sk,
  signers parties sk -> wire_total P -> signatures_correct P -> plain_ids Pr ->
  honest_run r sid parties (fun v => ep_with f (ep v)) h ->
  forall t k sd, one_fault sid parties h t k sd ->
  exists net0, honest_net r sid parties sk ep = Ok net0 /\
    forall xs net, schedule r net0 xs net ->
      (forall x o, act r net x = Some o -> exists net', o = Ok net') /\
      (forall c : nat -> Net Pr, c 0 = net -> ~ forall i, exists x, act r (c i) x = Some (Ok (c (S i)))) /\
      ((forall x, act r net x = None) -> all_have_convicted sid parties h t k sd net).
Proof. exact @net_convicts. Qed.
Print Assumptions C79_network.

(** The same for the driver dev/run_sync.rs, whatever messages it picks. *)
Theorem C79_run_sync : forall (P : Params) (Pr : Proto) f r sid parties (ep : Verifier -> EntryPoint Pr) (h : Plan (with_receive Pr f)) sk,
  signers parties sk -> wire_total P -> signatures_correct P -> plain_ids Pr ->
  honest_run r sid parties (fun v => ep_with f (ep v)) h ->
  forall t k sd, one_fault sid parties h t k sd -> (exists v, mem v parties = true /\ v <> t) ->
  forall picks, exists fuel0 reports,
    (forall fuel, fuel0 <= fuel -> run_sync fuel r picks sid (map (fun v => (sk v, ep v)) (elements parties)) = Some (Ok reports)) /\
    convicted_by_all sid parties h t k sd reports.
Proof. exact @run_sync_convicts. Qed.
Print Assumptions C79_run_sync.

(** The checks of dev/misbehave.rs succeed when they should: if the extensions of the last party make it send, in one round
    of an honest execution, messages that all others turn down, and the expected description is that of the error. *)
Theorem C79_check_succeeds : forall (P : Params) (T : TProto) r sid parties (ep : Verifier -> EntryPoint (wrap T)) (h : Plan (wrap T)) t k f xs em nm dm
    (sd : TShared T),
  honest_run r sid parties ep h ->
  misled r h t k xs em nm dm -> is_none em = is_none (pl_echo h k t) ->
  let hb := replaced f h t k em nm dm in
  (forall n v u, n <= pl_last h -> mem v parties = true -> mem u (pl_from h n v) = true ->
     f (pl_state h n v) u (mkDynMsg (pl_echo hb n u) (pl_normal hb n u) (pl_direct hb n u v)) = Ok (pl_payload h n v u)) ->
  one_fault (Pr := wrap T) sid parties hb t k sd ->
  forall sk, signers parties sk -> wire_total P -> signatures_correct P -> plain_ids (wrap T) ->
  (exists front, elements parties = front ++ [t] /\ front <> []) ->
  forall picks (describes : Evidence -> bool),
  (forall v ev, mem v parties = true -> v <> t -> proof_against (Pr := wrap T) sid hb t k sd v ev -> describes ev = true) ->
  exists fuel0, forall fuel, fuel0 <= fuel ->
    check_evidence_with_extensions fuel r picks sid (map (fun v => (sk v, ep v)) (elements parties)) sd
      (fun xp => fold_left (fun xp e => with_extension xp (projT2 e)) xs xp) describes = Some (Ok tt).
Proof. exact @misbehaviour_found. Qed.
Print Assumptions C79_check_succeeds.

(** Three parties running simple.rs, of which the last one sends wrong positions in the first round. *)
Example C79_case :
  honest_run (P := toyP) rN sid0 (group 3) (fun _ => @simple_entry toyP toyW (group 3)) simple_plan3 /\
  misled (P := toyP) (T := simT) rN simple_plan3 two 0 [existT _ SR1 invalid1] (pl_echo simple_plan3 0 two) (pl_normal simple_plan3 0 two) bad_message /\
  one_fault (P := toyP) (Pr := simPr) sid0 (group 3)
    (replaced (Pr := simPr) nocheck3 simple_plan3 two 0 (pl_echo simple_plan3 0 two) (pl_normal simple_plan3 0 two) bad_message) two 0 (tt : Shared simPr).
Proof. exact toy_misled. Qed.

(** The executions that C79_network and C79_run_sync are about exist: those of the extended protocol. *)
Example C79_case_network :
  exists (f : St (extended simT) -> @Verifier toyP -> DynMsg -> res RecvErr (Payload (extended simT))) ep (h : Plan (with_receive (extended simT) f)),
    honest_run (P := toyP) rN sid0 (group 3) (fun v => ep_with f (ep v)) h /\
    one_fault (P := toyP) (Pr := extended simT) sid0 (group 3) h two 0 (tt : Shared simPr) /\ pl_direct h 0 two = bad_message.
Proof. exact toy_caught. Qed.

(** C80. The tests of examples/src/simple_test.rs succeed with any number of parties from 2 to 16, whatever is drawn and in
    whatever order messages are delivered. *)
Theorem C80_tests_succeed : forall (P : Params) W,
  codec_ok (sw_message1 W) /\ codec_ok (sw_echo1 W) /\ codec_ok (sw_broadcast1 W) /\ codec_ok (sw_message2 W) ->
  codec_ok (sw_error1 W) -> codec_ok (sw_error2 W) -> wire_total P -> signatures_correct P ->
  forall r sid parties sk picks, signers parties sk -> 2 <= length (elements parties) <= 16 ->
  (forall describes, accepts describes 1 (sw_error1 W) -> exists fuel0, forall fuel, fuel0 <= fuel ->
     check_evidence_with_extension fuel r picks sid (test_entry_points W parties sk) (tt : TShared (simple W)) (SimpleTest.invalid1 W) describes = Some (Ok tt)) /\
  (forall describes, accepts describes 2 (sw_error2 W) -> exists fuel0, forall fuel, fuel0 <= fuel ->
     check_evidence_with_extension fuel r picks sid (test_entry_points W parties sk) (tt : TShared (simple W)) (SimpleTest.invalid2 W) describes = Some (Ok tt)).
Proof. exact @simple_tests. Qed.
Print Assumptions C80_tests_succeed.

(** With the parameters that the tests use, without any assumption about signing and serialization. *)
Theorem C80_with_test_parameters : forall (ids : bset N) r sid picks, 2 <= length (elements ids) <= 16 ->
  (forall describes, accepts (P := testP) describes 1 (sw_error1 testW) -> exists fuel0, forall fuel, fuel0 <= fuel ->
     check_evidence_with_extension (P := testP) fuel r picks sid (test_entry_points (P := testP) testW ids (fun v => v))
       (tt : TShared (simple (P := testP) testW)) (SimpleTest.invalid1 (P := testP) testW) describes = Some (Ok tt)) /\
  (forall describes, accepts (P := testP) describes 2 (sw_error2 testW) -> exists fuel0, forall fuel, fuel0 <= fuel ->
     check_evidence_with_extension (P := testP) fuel r picks sid (test_entry_points (P := testP) testW ids (fun v => v))
       (tt : TShared (simple (P := testP) testW)) (SimpleTest.invalid2 (P := testP) testW) describes = Some (Ok tt)).
Proof. exact test_tests. Qed.
Print Assumptions C80_with_test_parameters.

Example C80_case : 2 <= length (elements (group 3)) <= 16 /\ accepts (P := toyP) (in_round 1) 1 (sw_error1 toyW) /\
  accepts (P := toyP) (in_round 2) 2 (sw_error2 toyW) /\
  test 3 (fun k => k * k + 5) invalid1 (in_round 1) = Some (Ok tt) /\ test 3 (fun k => k * k + 5) invalid2 (in_round 2) = Some (Ok tt).
Proof. exact toy_tests. Qed.
