(** Vocabulary of the properties about what [run_session] depends on, and about the randomness of the nodes of [run_async].
    No proofs here. *)
From Coq Require Import List NArith Bool.
From Verif Require Import Base BMap Errors RoundId Message Protocol Transcript Evidence Session Spec Network RunSync Driver Par SpecParFailure.
Import ListNotations.
Set Implicit Arguments.

Section WithParams.
  Context {P : Params}.
  Context {Pr : Proto}.

  (** Nobody cancelled the driver, no channel was found closed, and every message could be made. *)
  Definition undisturbed (ls : list (dlabel Pr)) : Prop :=
    ~ In LCancel ls /\ ~ In LClosed ls /\ forall dest, ~ In (LUnsent dest) ls.

  Definition begins_with {A} (long short : list A) : Prop := exists rest, long = short ++ rest.
End WithParams.

(** dev/tokio.rs:111: every node is given a clone of the same generator. *)
Definition cloned {P : Params} (r : NetRng) : Prop := forall u v, nr_new r u = nr_new r v.
