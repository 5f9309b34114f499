(** Vocabulary of the properties about session/tokio.rs. No proofs here. *)
From Coq Require Import List NArith Bool.
From Verif Require Import Base BMap Errors RoundId Message Protocol Transcript Evidence Session Spec Network SpecNet RunSync Driver.
Import ListNotations.
Set Implicit Arguments.

Section WithParams.
  Context {P : Params}.
  Context {Pr : Proto}.

  Definition plain_label (l : dlabel Pr) : Prop := match l with LEnter _ | LOut _ _ => False | _ => True end.

  (** The session and the accumulator the driver holds, with the messages it has been given to process. *)
  Definition drv_state (d : Drv Pr) : option (DState Pr) :=
    match d with
    | DrvSend s a _ _ cached => Some (DS s a cached)
    | DrvApply s a vm cached => Some (DS s a (vm :: cached))
    | DrvWait s a => Some (DS s a [])
    | DrvDone _ => None
    end.

  (** What the driver does in a round with session [s]. First it sends messages made by [s], one for each destination, in
      their order. Sending is interrupted only by a failure ([LUnsent] for the destination whose turn it is), or if the
      story ends there. After that it sends nothing. *)
  Definition sends_first (s : Session Pr) (ls : list (dlabel Pr)) : Prop :=
    exists sent left rest,
      ls = map (fun p => LOut (fst p) (snd p)) sent ++ rest /\
      elements (message_destinations s) = map fst sent ++ left /\
      (forall dest m, In (dest, m) sent -> exists g art, make_message s g dest = Ok (m, art)) /\
      (forall l, In l rest -> plain_label l) /\
      (left = [] \/ rest = [] \/ exists dest, hd_error left = Some dest /\ rest = [LUnsent dest]).

  (** [ls] consists of rounds: each begins with [LEnter]. *)
  Definition by_rounds (rounds : list (Session Pr * list (dlabel Pr))) : list (dlabel Pr) :=
    flat_map (fun p => LEnter (fst p) :: snd p) rounds.

  (** The round of the protocol, possibly inside an echo round. *)
  Fixpoint main_state (rd : Round Pr) : St Pr :=
    match rd with RMain st => st | REcho _ _ _ main _ _ => main_state main end.

  (** Everybody has the result of the plan. *)
  Definition all_returned (parties : bset Verifier) (h : Plan Pr) (net : DNet Pr) : Prop :=
    forall v, mem v parties = true -> exists rep, get v (dn_nodes net) = Some (DrvDone (Ok rep)) /\
      rep_outcome rep = OResult (pl_result h v) /\ no_errors (Ended rep).
End WithParams.

(** The initial state of the network in which every party has signer [sk v] and entry point [ep v]. *)
Definition honest_dnet {P : Params} {Pr : Proto} (r : NetRng) (sid : bytes) (parties : bset Verifier) (sk : Verifier -> Signer)
    (ep : Verifier -> EntryPoint Pr) : res LocalError (DNet Pr) :=
  dnet_start r sid (map (fun v => (sk v, ep v)) (elements parties)).
