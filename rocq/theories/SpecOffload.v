(** Vocabulary of the properties about [run_async] with [offload_processing = true]. No proofs here. *)
From Coq Require Import List NArith Bool.
From Verif Require Import Base BMap Errors RoundId Message Protocol Transcript Evidence Session Spec Network SpecNet RunSync Driver SpecDriver Par SpecPar
  Async SpecAsync Offload.
Import ListNotations.
Set Implicit Arguments.

Section WithParams.
  Context {P : Params}.
  Context {Pr : Proto}.

  (** Nothing can happen any more. *)
  Definition offload_stuck (r : NetRng) (cap : nat) (net : ONet Pr) : Prop := forall x, oact r cap net x = None.
  (** The messages that are left in the channels into the nodes. *)
  Definition left_over (net : ONet Pr) : list MsgOut :=
    flat_map (fun p => map (fun q => mkOut (fst q) (fst p) (snd q)) (snd p)) (to_list (on_in net)).
  (** There is no such node, or its task has returned. *)
  Definition off (net : ONet Pr) (v : Verifier) : Prop :=
    match get v (on_nodes net) with Some p => exists o, p = PStop o | None => True end.
  (** In this run of [par_run_session] it fails in a step for which no channel is to blame. *)
  Definition par_fails_by_itself (r : NetRng) (s : Session Pr) (ls : list (dlabel Pr)) : Prop :=
    exists ls0 p act ls1 o, ls = ls0 ++ ls1 /\ par_session r s ls0 p /\ par_step r p act = Some (ls1, PStop o) /\
      (forall rep, o <> Ok rep) /\ act <> APut false /\ act <> AClosed.
End WithParams.

(** [run_async] for parties with signers [sk v] and entry points [ep v], before any of the tasks does anything. *)
Definition honest_onet {P : Params} {Pr : Proto} (r : NetRng) (sid : bytes) (parties : bset Verifier) (sk : Verifier -> Signer)
    (ep : Verifier -> EntryPoint Pr) : res LocalError (ONet Pr) :=
  onet_start r sid (map (fun v => (sk v, ep v)) (elements parties)).
