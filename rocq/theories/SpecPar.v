(** Vocabulary of the properties about [par_run_session]. No proofs here. *)
From Coq Require Import List NArith Bool.
From Verif Require Import Base BMap Errors RoundId Message Protocol Transcript Evidence Session Spec Network SpecNet RunSync Driver SpecDriver Par.
Import ListNotations.
Set Implicit Arguments.

Section WithParams.
  Context {P : Params}.
  Context {Pr : Proto}.

  (** The driver waits for its own tasks, and none of these can go on: nothing that may happen outside changes this. *)
  Definition deadlocked (r : NetRng) (p : Par Pr) : Prop :=
    (exists x, p = PRun x) /\ forall act, par_step r p act = None.

  (** The messages given to processing tasks whose results have not been taken into account. *)
  Definition handed (x : PState Pr) : list VMessage :=
    flat_map (fun t => match t with PMake vm => [vm] | PSend pm => [pm_msg pm] | PEnd _ => [] end) (pp_p x) ++
    map pm_msg (pp_proc x).

  (** The number of messages taken from the incoming channel. *)
  Definition received (ls : list (dlabel Pr)) : nat :=
    length (filter (fun l => match l with LIn _ _ => true | _ => false end) ls).

  Definition is_enter (l : dlabel Pr) : bool := match l with LEnter _ => true | _ => false end.

  (** The messages sent. *)
  Definition sent_by (ls : list (dlabel Pr)) : list (Verifier * Message) :=
    flat_map (fun l => match l with LOut dest m => [(dest, m)] | _ => [] end) ls.

  (** In a round with session [s] the driver sends messages made by [s], at most one to each destination; and by the time
      it finalizes the round or gives up, one to every destination. *)
  Definition sends_each (s : Session Pr) (ls : list (dlabel Pr)) : Prop :=
    NoDup (map fst (sent_by ls)) /\
    (forall dest m, In (dest, m) (sent_by ls) -> mem dest (message_destinations s) = true /\ exists g art, make_message s g dest = Ok (m, art)) /\
    ((exists s' a, In (LFinalize s' a) ls \/ In (LGiveUp s' a) ls) ->
     forall dest, mem dest (message_destinations s) = true -> In dest (map fst (sent_by ls))).
End WithParams.

(** Everybody has the result of the plan. *)
Definition all_stopped {P : Params} {Pr : Proto} (parties : bset Verifier) (h : Plan Pr) (net : PNet Pr) : Prop :=
  forall v, mem v parties = true -> exists rep, get v (pn_nodes net) = Some (PStop (Ok rep)) /\
    rep_outcome rep = OResult (pl_result h v) /\ no_errors (Ended rep).

(** The initial state of the network in which every party has signer [sk v] and entry point [ep v]. *)
Definition honest_pnet {P : Params} {Pr : Proto} (r : NetRng) (sid : bytes) (parties : bset Verifier) (sk : Verifier -> Signer)
    (ep : Verifier -> EntryPoint Pr) : res LocalError (PNet Pr) :=
  pnet_start r sid (map (fun v => (sk v, ep v)) (elements parties)).

(** In no round, and in no echo round, does a party send to more than 100 others. *)
Definition few_destinations {P : Params} {Pr : Proto} (parties : bset Verifier) (h : Plan Pr) : Prop :=
  forall k v, k <= pl_last h -> mem v parties = true ->
    length (elements (pl_dest h k v)) <= 100 /\ (echoes h k v = true -> length (elements (partners h k v)) <= 100).
