(** Evidence for round 2 of simple.rs. Used by PropAccess.v only. *)
From Coq Require Import List NArith Bool.
From Verif Require Import Base BMap Errors RoundId Message Protocol Transcript Evidence Session Typed Simple Spec SpecEvidence Exec Toy ToySimple.
Import ListNotations.
Set Implicit Arguments.

(** Party 1 sent a wrong position in round 2, and its echo message of round 1 has the broadcasts of parties 0 and 2. *)
Definition broadcast_of (v : N) : SPart KEcho := msg_echo (tforge v sid0 (rid_new 1) None (Some [v]%N) None).
Definition echo_of_1 : SPart KNormal :=
  msg_normal (tforge 1 sid0 (mkRid 1 [] true) None None
    (Some (toy_ser_echo (of_list [(0%N, to_signed_hash (P := toyP) (broadcast_of 0)); (2%N, to_signed_hash (P := toyP) (broadcast_of 2))])))).
Definition wrong_position : @ProtoEv toyP :=
  @mkProtoEv toyP [] (Some (msg_direct (tforge 1 sid0 (rid_new 2) (Some [1; 9]%N) None None))) None None
    (of_list [(rid_new 1, msg_direct (tforge 1 sid0 (rid_new 1) (Some [1; 0]%N) None None))]) empty empty
    (of_list [(rid_new 1, of_list [(0%N : @Verifier toyP, broadcast_of 0); (2%N : @Verifier toyP, broadcast_of 2)])])
    (of_list [(rid_new 1, echo_of_1)]).
Definition wrong_evidence : @Evidence toyP := @mkEvidence toyP 1%N (EvProtocol wrong_position).
Lemma wrong_evidence_ok : verify_evidence (wrap simT) wrong_evidence tt = Ok tt.
Proof. toy. Qed.
