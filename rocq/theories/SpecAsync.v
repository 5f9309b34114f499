(** Vocabulary of the properties about dev/tokio.rs. No proofs here. *)
From Coq Require Import List NArith Bool.
From Verif Require Import Base BMap Errors RoundId Message Protocol Transcript Evidence Session Spec Network SpecNet RunSync Driver SpecDriver Async.
Import ListNotations.
Set Implicit Arguments.

Section WithParams.
  Context {P : Params}.
  Context {Pr : Proto}.

  (** The messages that were sent, and those that were taken from the channels by the nodes: from whom, to whom, what. *)
  Definition sent_in (tr : list (Verifier * dlabel Pr)) : list MsgOut :=
    flat_map (fun p => match snd p with LOut dest m => [mkOut (fst p) dest m] | _ => [] end) tr.
  Definition taken_in (tr : list (Verifier * dlabel Pr)) : list MsgOut :=
    flat_map (fun p => match snd p with LIn from m => [mkOut from (fst p) m] | _ => [] end) tr.
  (** What node [v] did. *)
  Definition doings (v : Verifier) (tr : list (Verifier * dlabel Pr)) : list (dlabel Pr) :=
    map snd (filter (fun p => eqb (fst p) v) tr).

  (** The messages that are left in the channels into the nodes. *)
  Definition unread (net : ANet Pr) : list MsgOut :=
    flat_map (fun p => map (fun q => mkOut (fst q) (fst p) (snd q)) (snd p)) (to_list (an_in net)).
  (** There is no such node, or its task has returned. *)
  Definition gone (net : ANet Pr) (v : Verifier) : Prop :=
    match get v (an_nodes net) with Some d => exists o, d = DrvDone o | None => True end.
  (** In this run of [run_session] it fails in a step for which no channel is to blame. *)
  Definition fails_by_itself (r : NetRng) (s : Session Pr) (ls : list (dlabel Pr)) : Prop :=
    exists ls0 d i ls1 o, ls = ls0 ++ ls1 /\ run_session r s ls0 d /\ drv_step r d i = Some (ls1, DrvDone o) /\
      (forall rep, o <> Ok rep) /\ i <> ISendFails /\ i <> IClosed.

  (** Nothing can happen any more. *)
  Definition async_stuck (r : NetRng) (cap : nat) (net : ANet Pr) : Prop := forall x, aact r cap net x = None.
  (** The reports of all the parties, with the results of the plan. *)
  Definition all_reports (parties : bset Verifier) (h : Plan Pr) (reports : bmap Verifier (Report (Rslt Pr))) : Prop :=
    (forall v, mem v parties = false -> get v reports = None) /\
    (forall v, mem v parties = true -> exists rep, get v reports = Some rep /\ rep_outcome rep = OResult (pl_result h v) /\ no_errors (Ended rep)).
End WithParams.

(** [run_async] for parties with signers [sk v] and entry points [ep v], before any of the tasks does anything. *)
Definition honest_anet {P : Params} {Pr : Proto} (r : NetRng) (sid : bytes) (parties : bset Verifier) (sk : Verifier -> Signer)
    (ep : Verifier -> EntryPoint Pr) : res LocalError (ANet Pr) :=
  anet_start r sid (map (fun v => (sk v, ep v)) (elements parties)).
