(** Vocabulary of the properties about messages that their declared sender did not sign. No proofs here. *)
From Coq Require Import List NArith Bool.
From Verif Require Import Base BMap Errors RoundId Message Protocol Transcript Evidence Session Spec Network RunSync Driver.
Import ListNotations.
Set Implicit Arguments.

Section WithParams.
  Context {P : Params}.
  Context {Pr : Proto}.

  (** [m] is not a message that [from] signed for any round of this session: a part of it is not signed by [from], or was signed for
      another session, or the parts were signed for different rounds. *)
  Definition forged (s : Session Pr) (from : Verifier) (m : Message) : Prop := forall rid, ~ message_authentic from (s_id s) rid m.

  (** All that [a'] has more than [a] is an unprovable error [e] for [v]. *)
  Definition only_notes (a : Accum Pr) (v : Verifier) (e : RemoteError) (a' : Accum Pr) : Prop :=
    a_waiting a' = a_waiting a /\ a_expect a' = a_expect a /\ a_processing a' = a_processing a /\ a_payloads a' = a_payloads a /\
    a_artifacts a' = a_artifacts a /\ a_cached a' = a_cached a /\ a_echo a' = a_echo a /\ a_normal a' = a_normal a /\ a_direct a' = a_direct a /\
    a_provable a' = a_provable a /\ get v (a_unprovable a') = Some e /\ forall u, u <> v -> get u (a_unprovable a') = get u (a_unprovable a).

  (** From now on the driver does not finalize any round, and returns no report unless it is cancelled. *)
  Definition blocked (r : NetRng) (d : Drv Pr) : Prop := forall ls d', drv_run r d ls d' -> ~ In LCancel ls ->
    (forall s a, ~ In (LFinalize s a) ls) /\ forall rep, d' <> DrvDone (Ok rep).
End WithParams.
