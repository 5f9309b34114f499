(** Vocabulary of the properties about messages of other rounds, in particular of rounds that are over. No proofs here. *)
From Coq Require Import List NArith Bool.
From Verif Require Import Base BMap Errors RoundId Message Protocol Transcript Evidence Session Spec SpecCrypto Network RunSync Driver SpecDriver.
Import ListNotations.
Set Implicit Arguments.

Section WithParams.
  Context {P : Params}.
  Context {Pr : Proto}.

  (** All that [a'] has more than [a] is a message of [v] that is kept for round [rid]. *)
  Definition only_keeps (a : Accum Pr) (v : Verifier) (rid : RoundId) (a' : Accum Pr) : Prop :=
    a_waiting a' = a_waiting a /\ a_expect a' = a_expect a /\ a_processing a' = a_processing a /\ a_payloads a' = a_payloads a /\
    a_artifacts a' = a_artifacts a /\ a_echo a' = a_echo a /\ a_normal a' = a_normal a /\ a_direct a' = a_direct a /\
    a_provable a' = a_provable a /\ a_unprovable a' = a_unprovable a /\
    (forall u, u <> v -> get u (a_cached a') = get u (a_cached a)) /\
    exists c, get v (a_cached a') = Some c /\ forall rid', rid' <> rid -> get rid' c = match get v (a_cached a) with Some c0 => get rid' c0 | None => None end.

  (** A message of [v] is kept for round [rid]. *)
  Definition keeps (a : Accum Pr) (v : Verifier) (rid : RoundId) : Prop :=
    exists c vm, get v (a_cached a) = Some c /\ get rid c = Some vm.

  (** One of the rounds 1..n of a protocol of [n] linear rounds (protocol/round_id.rs:210-246). *)
  Definition linear_state (n : N) (st : St Pr) : Prop := (n <= u8_max)%N /\
    exists k, (1 <= k)%N /\ (k <= n)%N /\ linear_round n k = Ok (tinfo Pr st).
  (** The session is in one of these rounds, or in the echo round of one. *)
  Definition linear_here (n : N) (s : Session Pr) : Prop := linear_state n (main_state (s_round s)).
  (** They lead to nothing but these rounds. *)
  Definition linear_closed (n : N) : Prop := forall st g ps arts st', linear_state n st -> finalize Pr st g ps arts = Ok (AnotherRound st') -> linear_state n st'.

  (** In a linear protocol: round [r1] is over when a party is in round [r2]. The echo round of a round comes after it and before the next round. *)
  Definition before (r1 r2 : RoundId) : Prop := rid_groups r1 = [] /\ rid_groups r2 = [] /\
    ((rid_round r1 < rid_round r2)%N \/ rid_round r1 = rid_round r2 /\ rid_echo r1 = false /\ rid_echo r2 = true).

  (** Of all the rounds that are over, only this one is forgiven: in an echo round the round it belongs to, and in a round that no echo round
      follows, the round with the preceding number, but not its echo round. *)
  Definition forgiven (s : Session Pr) (rid : RoundId) : Prop :=
    if rid_echo (s_round_id s) then rid = mkRid (rid_round (s_round_id s)) [] false
    else s_echo_info s = None /\ (1 < rid_round (s_round_id s))%N /\ rid = rid_new (rid_round (s_round_id s) - 1).
End WithParams.
Arguments linear_closed {P} Pr n.
