(** Vocabulary of the property that the drivers use their session as described by histories. No proofs here. *)
From Coq Require Import List NArith Bool.
From Verif Require Import Base BMap Errors RoundId Message Protocol Transcript Evidence Session Spec Network SpecNet RunSync Driver SpecDriver Par
  SpecParFailure SpecAgree.
Import ListNotations.
Set Implicit Arguments.

Section WithParams.
  Context {P : Params}.
  Context {Pr : Proto}.

  (** The history [es], from [d] on, as a driver performs it. What the driver is seen doing is [ls]. If [prompt], messages are
      processed as soon as they have been received; otherwise this happens later. Random choices are those of [r]. *)
  Inductive performs (prompt : bool) (r : NetRng) (d : DState Pr) : list (event Pr) -> list (dlabel Pr) -> DState Pr -> Prop :=
  | pf_nil : performs prompt r d [] [] d
  | pf_received es ls d1 from m o d2 : performs prompt r d es ls d1 -> step d1 (EPre from m o) d2 ->
      (prompt = true -> forall vm, o <> ToProcess vm) ->
      performs prompt r d (es ++ [EPre from m o]) (ls ++ [LIn from m]) d2
  | pf_answered es ls d1 from m vm d2 d3 : performs prompt r d es ls d1 -> prompt = true ->
      step d1 (EPre from m (ToProcess vm)) d2 -> step d2 (EProc vm) d3 ->
      performs prompt r d (es ++ [EPre from m (ToProcess vm); EProc vm]) (ls ++ [LIn from m]) d3
  | pf_processed es ls d1 vm d2 : performs prompt r d es ls d1 -> step d1 (EProc vm) d2 ->
      performs prompt r d (es ++ [EProc vm]) (ls ++ [LApply vm]) d2
  | pf_sent es ls d1 g dest m x d2 : performs prompt r d es ls d1 -> g = nr_msg r (s_verifier (d_s d1)) (s_round_id (d_s d1)) dest ->
      make_message (d_s d1) g dest = Ok (m, (dest, x)) -> step d1 (EArt g dest x) d2 ->
      performs prompt r d (es ++ [EArt g dest x]) (ls ++ [LOut dest m]) d2
  | pf_next es ls d1 g d2 : performs prompt r d es ls d1 -> g = nr_fin r (s_verifier (d_s d1)) (s_round_id (d_s d1)) ->
      sent_to_all d1 -> step d1 (EFin g) d2 ->
      performs prompt r d (es ++ [EFin g]) (ls ++ [LFinalize (d_s d1) (d_a d1); LEnter (d_s d2)]) d2
  | pf_cancelled es ls d1 : performs prompt r d es ls d1 -> prompt = false -> performs prompt r d es (ls ++ [LCancel]) d1.

  (** How a driver ends that returns [rep]: it finalizes the last round, or gives up. *)
  Definition closes (d : DState Pr) (r : NetRng) (rep : Report (Rslt Pr)) (ls : list (dlabel Pr)) : Prop :=
    (ls = [LFinalize (d_s d) (d_a d)] /\ can_finalize (d_a d) = Yes /\ sent_to_all d /\
       finalize_round (d_s d) (nr_fin r (s_verifier (d_s d)) (s_round_id (d_s d))) (d_a d) = Ok (ROFinished rep)) \/
    ((ls = [LGiveUp (d_s d) (d_a d)] \/ ls = [LCancel; LGiveUp (d_s d) (d_a d)]) /\ sent_to_all d /\
       terminate_due_to_errors (d_s d) (d_a d) = Ok rep).

  (** The driver in question, and its calls. *)
  Definition called (prompt : bool) (r : NetRng) (s0 : Session Pr) (ls : list (dlabel Pr)) (rep : Report (Rslt Pr)) : Prop :=
    if prompt then run_session r s0 ls (DrvDone (Ok rep)) else par_session r s0 ls (PStop (Ok rep)).
End WithParams.
