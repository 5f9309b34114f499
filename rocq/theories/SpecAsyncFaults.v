(** Vocabulary of the properties about dev/tokio.rs when messages are turned down. No proofs here. *)
From Coq Require Import List NArith Bool.
From Verif Require Import Base BMap Errors RoundId Message Protocol Transcript Evidence Session Spec Network SpecNet SpecCaught SpecFaults.
Import ListNotations.
Set Implicit Arguments.

Section WithParams.
  Context {P : Params}.
  Context {Pr : Proto} {f : St Pr -> Verifier -> DynMsg -> res RecvErr (Payload Pr)}.

  (** Everybody stops in round [k], or that round is the last one and has no echo round. *)
  Definition nobody_goes_past (parties : bset Verifier) (h : Plan (with_receive Pr f)) (stop : Verifier -> option nat) (k : nat) : Prop :=
    forall v, mem v parties = true -> stop v = Some k \/ (stop v = None /\ k = pl_last h /\ echoes h k v = false).

  (** The reports of all parties. *)
  Definition every_report_right (sid : bytes) (parties : bset Verifier) (h : Plan (with_receive Pr f)) (stop : Verifier -> option nat) (sd : Shared Pr)
      (reports : bmap Verifier (Report (Rslt Pr))) : Prop :=
    (forall v, contains v reports = mem v parties) /\
    forall v rep, get v reports = Some rep -> report_right sid h stop sd v rep.
End WithParams.
