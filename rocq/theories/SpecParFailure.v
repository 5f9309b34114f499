(** Vocabulary of the properties that tell when [par_run_session] fails. No proofs here. *)
From Coq Require Import List NArith Bool.
From Verif Require Import Base BMap Errors RoundId Message Protocol Transcript Evidence Session Spec SpecCause SpecExact
  Network SpecNet RunSync Driver SpecDriver SpecFailure Par.
Import ListNotations.
Set Implicit Arguments.

Section WithParams.
  Context {P : Params}.
  Context {Pr : Proto}.

  (** A panic of the party's own protocol in a task, while a message is made or processed. *)
  Definition task_failure (s : Session Pr) (e : LocalError) : Prop :=
    e = LE_Join /\ ((exists g dest, make_message s g dest = Panic) \/ (exists vm, round_answers s vm = Panic)).

  (** A call of [par_run_session] that did [ls] is in state [x], in a round that began in [d0] and has the history [es]. *)
  Definition par_in_course (r : NetRng) (s0 : Session Pr) (ls : list (dlabel Pr)) (d0 : DState Pr) (es : list (event Pr)) (x : PState Pr) : Prop :=
    par_session r s0 ls (PRun x) /\ round_start d0 /\ (exists todo, run d0 es (DS (pp_s x) (pp_a x) todo)) /\ in_round es.

  (** What was received, in the order of arrival. *)
  Definition inbox (ls : list (dlabel Pr)) : list (Verifier * Message) :=
    flat_map (fun l => match l with LIn from m => [(from, m)] | _ => [] end) ls.
End WithParams.
