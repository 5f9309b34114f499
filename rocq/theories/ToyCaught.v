(** Executions of the example protocol in which one of three parties misbehaves. Used only by PropCaught.v. *)
From Coq Require Import List Arith NArith Bool Lia.
From Verif Require Import Base BMap Errors RoundId Message Protocol Transcript Evidence Session Spec SpecCrypto Typed Simple Extend SpecExtend Network SpecNet
  HonestFacts RunSync Misbehave SpecCaught CaughtFacts CaughtExt SimpleTest CaughtSimple TestParams TestParamsFacts Toy ToyCrypto ToySimple ToyNet ToyMisbehave.
Import ListNotations.
Set Implicit Arguments.

Lemma toy_error_wire : codec_ok (sw_error1 toyW) /\ codec_ok (sw_error2 toyW).
Proof. split; intros []; exists []; split; reflexivity. Qed.
Lemma test_error_wire : codec_ok (sw_error1 testW) /\ codec_ok (sw_error2 testW).
Proof. split; intros []; exists []; split; reflexivity. Qed.

Lemma in_round_accepts n error : accepts (P := toyP) (in_round n) n error.
Proof. intros ev e p E1 _ E2 E3. unfold in_round. rewrite E1, E2, E3. apply eqb_refl. Qed.

Notation simple_plan3 := (@simple_plan toyP toyW (group 3)).
Notation bad_message := (fun _ : @Verifier toyP => @HonestFacts.enc Position (sw_message1 toyW) (mkPosition 2 2)).
Notation nocheck3 := (@nocheck toyP toyW (group 3)).
Notation two := (2%N : @Verifier toyP).
Lemma toy_misled :
  honest_run (P := toyP) rN sid0 (group 3) (fun _ => @simple_entry toyP toyW (group 3)) simple_plan3 /\
  misled (P := toyP) (T := simT) rN simple_plan3 two 0 [existT _ SR1 invalid1] (pl_echo simple_plan3 0 two) (pl_normal simple_plan3 0 two) bad_message /\
  one_fault (P := toyP) (Pr := simPr) sid0 (group 3) (replaced (Pr := simPr) nocheck3 simple_plan3 two 0 (pl_echo simple_plan3 0 two) (pl_normal simple_plan3 0 two) bad_message) two 0 (tt : Shared simPr).
Proof.
  assert (H16 : length (elements (group 3)) <= 16) by (vm_compute; lia).
  assert (HL : elements (group 3) = [0; 1]%N ++ [two]) by (vm_compute; reflexivity).
  split; [|split].
  - exact (@HR toyP toyW toy_simple_wire rN sid0 (group 3) H16).
  - exact (@misled1 toyP toyW toy_simple_wire rN sid0 (group 3) H16 two [0; 1]%N HL ltac:(discriminate)).
  - exact (@fault1 toyP toyW toy_simple_wire (proj1 toy_error_wire) rN sid0 (group 3) H16 two [0; 1]%N HL ltac:(discriminate)).
Qed.

Lemma toy_caught :
  exists (f : St (extended simT) -> @Verifier toyP -> DynMsg -> res RecvErr (Payload (extended simT))) ep (h : Plan (with_receive (extended simT) f)),
    honest_run (P := toyP) rN sid0 (group 3) (fun v => ep_with f (ep v)) h /\
    one_fault (P := toyP) (Pr := extended simT) sid0 (group 3) h two 0 (tt : Shared simPr) /\ pl_direct h 0 two = bad_message.
Proof.
  destruct toy_misled as (H1 & H2 & H3).
  exists (@fx toyP simT nocheck3). eexists. eexists. split; [|split].
  - eapply (@bad_honest toyP simT rN sid0 (group 3) _ simple_plan3 two 0 nocheck3 [existT _ SR1 invalid1] _ _ _ H1 H2 eq_refl).
    intros n v u _ _ _. reflexivity.
  - eapply (@bad_fault toyP simT sid0 (group 3) _ simple_plan3 two 0 nocheck3 [existT _ SR1 invalid1] _ _ _ tt H3).
  - reflexivity.
Qed.

Lemma test_tests (ids : bset N) r sid picks : 2 <= length (elements ids) <= 16 ->
  (forall describes, accepts (P := testP) describes 1 (sw_error1 testW) -> exists fuel0, forall fuel, fuel0 <= fuel ->
     check_evidence_with_extension (P := testP) fuel r picks sid (test_entry_points (P := testP) testW ids (fun v => v))
       (tt : TShared (simple (P := testP) testW)) (SimpleTest.invalid1 (P := testP) testW) describes = Some (Ok tt)) /\
  (forall describes, accepts (P := testP) describes 2 (sw_error2 testW) -> exists fuel0, forall fuel, fuel0 <= fuel ->
     check_evidence_with_extension (P := testP) fuel r picks sid (test_entry_points (P := testP) testW ids (fun v => v))
       (tt : TShared (simple (P := testP) testW)) (SimpleTest.invalid2 (P := testP) testW) describes = Some (Ok tt)).
Proof.
  intros Hn. apply (@simple_tests testP testW test_codecs (proj1 test_error_wire) (proj2 test_error_wire) test_wire test_signatures r sid ids (fun v => v) picks); auto.
  intros v _. reflexivity.
Qed.

Lemma toy_tests : 2 <= length (elements (group 3)) <= 16 /\ accepts (P := toyP) (in_round 1) 1 (sw_error1 toyW) /\
  accepts (P := toyP) (in_round 2) 2 (sw_error2 toyW) /\
  test 3 (fun k => k * k + 5) invalid1 (in_round 1) = Some (Ok tt) /\ test 3 (fun k => k * k + 5) invalid2 (in_round 2) = Some (Ok tt).
Proof.
  split; [vm_compute; lia|]. split; [apply in_round_accepts|]. split; [apply in_round_accepts|]. split; toy.
Qed.
