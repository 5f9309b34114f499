(** Vocabulary of the property that the result of a session does not depend on the schedule. No proofs here. *)
From Coq Require Import List NArith Bool.
From Verif Require Import Base BMap Errors RoundId Message Protocol Transcript Evidence Session Spec Network SpecNet RunSync Driver SpecDriver Par
  SpecParFailure.
Import ListNotations.
Set Implicit Arguments.

Section WithParams.
  Context {P : Params}.
  Context {Pr : Proto}.

  (** There is a message for everybody it has to be sent to. *)
  Definition sent_to_all (d : DState Pr) : Prop :=
    forall u, mem u (message_destinations (d_s d)) = true -> contains u (a_artifacts (d_a d)) = true.

  (** What the user of a session does: its random choices are those of [r], and it ends a round only after it has sent its
      messages. *)
  Definition dutiful (r : NetRng) (d : DState Pr) (e : event Pr) : Prop :=
    let me := s_verifier (d_s d) in let rid := s_round_id (d_s d) in
    match e with
    | EArt g dest _ => g = nr_msg r me rid dest
    | EFin g => g = nr_fin r me rid /\ sent_to_all d
    | _ => True
    end.
  Inductive duty (r : NetRng) : DState Pr -> list (event Pr) -> DState Pr -> Prop :=
  | duty_nil d : duty r d [] d
  | duty_snoc d es d1 e d2 : duty r d es d1 -> step d1 e d2 -> dutiful r d1 e -> duty r d (es ++ [e]) d2.

  (** The session ends with a result. *)
  Definition ends_with (r : NetRng) (d : DState Pr) (x : Rslt Pr) : Prop :=
    can_finalize (d_a d) = Yes /\ sent_to_all d /\
    exists rep, finalize_round (d_s d) (nr_fin r (s_verifier (d_s d)) (s_round_id (d_s d))) (d_a d) = Ok (ROFinished rep) /\ rep_outcome rep = OResult x.

  Definition received_in (es : list (event Pr)) : list (Verifier * Message) :=
    flat_map (fun e => match e with EPre from m _ => [(from, m)] | _ => [] end) es.

  (** [run_session] or [par_run_session] returns this report. *)
  Definition returns (r : NetRng) (s0 : Session Pr) (ls : list (dlabel Pr)) (rep : Report (Rslt Pr)) : Prop :=
    run_session r s0 ls (DrvDone (Ok rep)) \/ par_session r s0 ls (PStop (Ok rep)).
End WithParams.

(** Nobody signed two different messages for the same round. *)
Definition single_messages {P : Params} (sid : bytes) (l : list (Verifier * Message)) : Prop :=
  forall v rid m m', In (v, m) l -> In (v, m') l -> message_authentic v sid rid m -> message_authentic v sid rid m' -> m = m'.
