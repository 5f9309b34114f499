(** Vocabulary of the property about what the course of a session depends on. No proofs here. *)
From Coq Require Import List NArith Bool.
From Verif Require Import Base BMap Errors RoundId Message Protocol Transcript Evidence Session Spec.
Import ListNotations.
Set Implicit Arguments.

Section WithParams.
  Context {P : Params}.
  Context {Pr : Proto}.

  (** In two histories of a round the same messages are processed and the same artifacts are made. Whatever else is
      received, and the order, may differ. *)
  Definition same_work (er er' : list (event Pr)) : Prop :=
    (forall vm, In (EProc vm) er <-> In (EProc vm) er') /\
    (forall v x, (exists g, In (EArt g v x) er) <-> (exists g, In (EArt g v x) er')).

  (** That is so in all rounds of two histories, and the rounds are finalized with the same random choices. *)
  Inductive same_course : list (event Pr) -> list (event Pr) -> Prop :=
  | Course_now er er' : in_round er -> in_round er' -> same_work er er' -> same_course er er'
  | Course_round er er' g es es' : in_round er -> in_round er' -> same_work er er' -> same_course es es' ->
      same_course (er ++ EFin g :: es) (er' ++ EFin g :: es').

  (** Two sessions of the same party that differ at most in the errors noted. *)
  Record alike (s s' : Session Pr) : Prop := {
    al_id : s_id s' = s_id s;
    al_signer : s_signer s' = s_signer s;
    al_verifier : s_verifier s' = s_verifier s;
    al_round : s_round s' = s_round s;
    al_comm : s_comm s' = s_comm s;
    al_einfo : s_echo_info s' = s_echo_info s;
    al_echo : s_echo s' = s_echo s;
    al_normal : s_normal s' = s_normal s;
    al_tinfo : s_tinfo s' = s_tinfo s;
    al_echos : tr_echo (s_tr s') = tr_echo (s_tr s);
    al_normals : tr_normal (s_tr s') = tr_normal (s_tr s);
    al_directs : tr_direct (s_tr s') = tr_direct (s_tr s)
  }.

  (** Two outcomes of a round with the same meaning. *)
  Definition alike_outcomes (ro ro' : RoundOutcome Pr) : Prop :=
    match ro, ro' with
    | ROFinished rep, ROFinished rep' => rep_outcome rep' = rep_outcome rep
    | ROAnother s _, ROAnother s' _ => alike s s'
    | _, _ => False
    end.
End WithParams.
