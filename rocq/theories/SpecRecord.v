(** Vocabulary of the property about the contents of transcripts. No proofs here. *)
From Coq Require Import List NArith Bool.
From Verif Require Import Base BMap Errors RoundId Message Protocol Transcript Evidence Session Spec.
Import ListNotations.
Set Implicit Arguments.

Section WithParams.
  Context {P : Params}.
  Context {Pr : Proto}.

  (** The history [es] of the session [s], leading to state [d], contains a completed round, executed by session [sr] with
      history [er]; it ended with accumulator [ar]. *)
  Definition completed (s : Session Pr) (es : list (event Pr)) (d : DState Pr) (sr : Session Pr) (er : list (event Pr)) (ar : Accum Pr) : Prop :=
    exists es0 d0 d1 g d2 es2, es = es0 ++ er ++ EFin g :: es2 /\
      (es0 = [] \/ exists es' g', es0 = es' ++ [EFin g']) /\ in_round er /\
      run (start s) es0 d0 /\ run d0 er d1 /\ step d1 (EFin g) d2 /\ run d2 es2 d /\
      d_s d0 = sr /\ d_a d1 = ar.

  (** In a round with history [er], the part [p] was in a message of [v] that the round accepted. *)
  Definition was_accepted {k} (sr : Session Pr) (er : list (event Pr)) (v : Verifier) (part : VMessage -> SPart k) (p : SPart k) : Prop :=
    exists vm x, In (EProc vm) er /\ vm_from vm = v /\ part vm = p /\ sp_body p <> None /\
      rd_receive (s_round sr) v (mkDynMsg (sp_body (vm_echo vm)) (sp_body (vm_normal vm)) (sp_body (vm_direct vm))) = Ok x.
End WithParams.
