(** Vocabulary of the properties about the messages that the reports of the drivers list as missing. No proofs here. *)
From Coq Require Import List NArith Bool.
From Verif Require Import Base BMap Errors RoundId Message Protocol Transcript Evidence Session Spec Network RunSync Driver.
Import ListNotations.
Set Implicit Arguments.

Section WithParams.
  Context {P : Params}.
  Context {Pr : Proto}.

  (** [s] is the session of the last round in [ls], and [l] is what happened in that round. *)
  Definition last_round (ls : list (dlabel Pr)) (s : Session Pr) (l : list (dlabel Pr)) : Prop :=
    (exists before, ls = before ++ LEnter s :: l) /\ forall s', ~ In (LEnter s') l.

  (** A message of [u] has been processed. *)
  Definition processed_from (l : list (dlabel Pr)) (u : Verifier) : Prop := exists vm, In (LApply vm) l /\ vm_from vm = u.

  (** The message of [u] for this round, signed by [u], is there: it has been received in this round, or it had been received
      before and has been processed in this round. *)
  Definition arrived (s : Session Pr) (l : list (dlabel Pr)) (u : Verifier) : Prop :=
    (exists m, In (LIn u m) l /\ message_authentic u (s_id s) (s_round_id s) m) \/ processed_from l u.

  Definition blamed_in (rep : Report (Rslt Pr)) (u : Verifier) : Prop :=
    contains u (rep_provable rep) = true \/ contains u (rep_unprovable rep) = true.
End WithParams.
