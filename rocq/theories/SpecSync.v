(** Vocabulary of the properties about dev/run_sync.rs. No proofs here. *)
From Coq Require Import List NArith Bool Arith.
From Verif Require Import Base BMap Errors RoundId Message Protocol Transcript Evidence Session Spec Network RunSync.
Import ListNotations.
Set Implicit Arguments.

Section WithParams.
  Context {P : Params}.

  (** A history of a queue: pushed and popped messages in chronological order. *)
  Inductive history (ordered : bool) : list RMsg -> list RMsg -> Messages -> Prop :=
  | h_new : history ordered [] [] (q_new ordered)
  | h_push pushed popped q x : history ordered pushed popped q -> history ordered (pushed ++ [x]) popped (q_push q x)
  | h_pop pushed popped q i x q' : history ordered pushed popped q -> q_pop i q = Some (x, q') ->
      history ordered pushed (popped ++ [x]) q'.

  (** The messages sent by [v]. *)
  Definition sent_by (v : Verifier) (l : list RMsg) : list RMsg := filter (fun x => eqb (rm_from x) v) l.
End WithParams.
