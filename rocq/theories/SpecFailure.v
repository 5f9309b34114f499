(** Vocabulary of the property that tells when [run_session] fails. No proofs here. *)
From Coq Require Import List NArith Bool.
From Verif Require Import Base BMap Errors RoundId Message Protocol Transcript Evidence Session Spec SpecCause SpecExact
  Network SpecNet RunSync Driver SpecDriver.
Import ListNotations.
Set Implicit Arguments.

Section WithParams.
  Context {P : Params}.
  Context {Pr : Proto}.

  (** Failures of the party itself, that is of the protocol it executes, the serialization or the signer: a message cannot be
      made; a round answers a message with a local error, or with an error whose evidence needs messages that are not there (or
      cannot be serialized); a round cannot be finalized; the round it is followed by is not one it announced, or was executed
      before, or cannot be entered. *)
  Inductive own_failure (s : Session Pr) (e : LocalError) : Prop :=
  | Own_message g dest : make_message s g dest = Err e -> own_failure s e
  | Own_answer vm : round_answers s vm = Err (RL e) -> own_failure s e
  | Own_evidence vm b : round_answers s vm = Err (RProtocol b) -> ~ evidence_available (s_tr s) (vm_from vm) b -> own_failure s e
  | Own_finalize g ps arts : rd_finalize (s_round s) g ps arts = Err e -> own_failure s e
  | Own_transition g ps arts st : rd_finalize (s_round s) g ps arts = Ok (AnotherRound st) ->
      mem (ti_id (tinfo Pr st)) (ti_children (s_tinfo s)) = false -> own_failure s e
  | Own_repeats : contains (s_round_id s) (tr_echo (s_tr s)) = true -> own_failure s e
  | Own_next g g' ps arts st t : rd_finalize (s_round s) g ps arts = Ok (AnotherRound st) ->
      new_for_next_round g' (s_id s) (s_signer s) (RMain st) t = Err e -> own_failure s e
  | Own_echo g info echos ps arts t : s_echo_info s = Some info ->
      new_for_next_round g (s_id s) (s_signer s) (REcho (s_verifier s) echos info (s_round s) ps arts) t = Err e -> own_failure s e.

  (** Failures of the channels. *)
  Definition channel_failure (l : list (dlabel Pr)) (e : LocalError) : Prop :=
    e = LE_Channel /\ (l = [LClosed] \/ exists dest, l = [LUnsent dest]).

  (** The last thing the driver did was to process [vm]. *)
  Definition processing (l : list (dlabel Pr)) (vm : VMessage) : Prop :=
    l = [LApply vm] \/ exists m, l = [LIn (vm_from vm) m] /\ is_message_of (vm_from vm) m vm.

  (** Failures caused by another party: a message of somebody who is not expected to send in this round, or has been heard in it
      before (of the round with history [es]); an error in a message of somebody who has been blamed before. *)
  Inductive remote_failure (d0 : DState Pr) (es : list (event Pr)) (l : list (dlabel Pr)) : Prop :=
  | Remote_unexpected vm : processing l vm -> ~ expected (d_s d0) (vm_from vm) -> remote_failure d0 es l
  | Remote_second vm : processing l vm -> heard es (vm_from vm) -> remote_failure d0 es l
  | Remote_again : blamed_again d0 es -> remote_failure d0 es l.

  (** A call of [run_session] that did [ls] has come to [x], in a round that began in [d0] and has the history [es]. *)
  Definition in_course (r : NetRng) (s0 : Session Pr) (ls : list (dlabel Pr)) (d0 : DState Pr) (es : list (event Pr)) (x : DState Pr) : Prop :=
    (exists d, run_session r s0 ls d /\ drv_state d = Some x) /\ round_start d0 /\ run d0 es x /\ in_round es.
End WithParams.
