(** Vocabulary of the properties that tell exactly when calls of a session fail. No proofs here. *)
From Coq Require Import List NArith Bool.
From Verif Require Import Base BMap Errors RoundId Message Protocol Transcript Evidence Session Spec SpecCause.
Import ListNotations.
Set Implicit Arguments.

Section WithParams.
  Context {P : Params}.
  Context {Pr : Proto}.

  (** What the current round of session [s] answers to the message [vm]. *)
  Definition round_answers (s : Session Pr) (vm : VMessage) : res RecvErr (SPayload Pr) :=
    rd_receive (s_round s) (vm_from vm) (mkDynMsg (sp_body (vm_echo vm)) (sp_body (vm_normal vm)) (sp_body (vm_direct vm))).

  (** In state [d0], an error of the kind of [e] has already been noted for [v]. *)
  Definition noted_already (d0 : DState Pr) (v : Verifier) (e : RecvErr) : Prop :=
    (provable e /\ exists ev, has_evidence d0 v ev) \/ (exists x, e = RUnprovable x /\ has_unprovable d0 v).

  (** Of the messages that came out of the cache when the round began (in state [d0]), one that was processed in its history
      [es] was answered with an error, of a kind already noted for its sender. *)
  Definition blamed_again (d0 : DState Pr) (es : list (event Pr)) : Prop :=
    exists vm e, In vm (d_todo d0) /\ In (EProc vm) es /\ round_answers (d_s d0) vm = Err e /\ noted_already d0 (vm_from vm) e.
End WithParams.
