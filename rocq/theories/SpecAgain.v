(** Vocabulary of the properties about messages that are delivered more than once. No proofs here. *)
From Coq Require Import List NArith Bool.
From Verif Require Import Base BMap Errors RoundId Message Protocol Transcript Evidence Session Spec Network RunSync Driver Par SpecPar.
Import ListNotations.
Set Implicit Arguments.

Section WithParams.
  Context {P : Params}.
  Context {Pr : Proto}.

  (** The driver has not gone on to another round meanwhile. *)
  Definition same_round (ls : list (dlabel Pr)) : Prop := forall s, ~ In (LEnter s) ls.

  (** The parallel driver expects a message. *)
  Definition listens (x : PState Pr) : Prop := pp_phase x = Loop /\ pp_hand x = false /\ can_finalize (pp_a x) = NotYet.

  (** The round waits for [v], of whom no message is being processed. *)
  Definition lacks (x : PState Pr) (v : Verifier) : Prop :=
    pp_phase x = Loop /\ mem v (a_waiting (pp_a x)) = true /\ forall vm, In vm (handed x) -> vm_from vm <> v.

  (** From now on the parallel driver does not finalize any round, and returns no report unless it is cancelled. *)
  Definition par_blocked (r : NetRng) (x : PState Pr) : Prop := forall ls p, par_run r (PRun x) ls p -> ~ In LCancel ls ->
    (forall s a, ~ In (LFinalize s a) ls) /\ forall rep, p <> PStop (Ok rep).
End WithParams.
