(** Properties C98 and C99: a party whose messages are turned down is convicted by everybody, when all are driven by
    [run_session] or by [par_run_session]. *)
From Coq Require Import List NArith Bool.
From Verif Require Import Base BMap Errors RoundId Message Protocol Transcript Evidence Session Spec SpecCrypto Typed Simple Extend SpecExtend
  Network SpecNet RunSync Misbehave SpecCaught Driver SpecDriver Par SpecPar CaughtDriver CaughtPar
  Toy ToyCrypto ToySimple ToyNet ToyDriver ToyPar ToyMisbehave ToyCaught.
Import ListNotations.
Set Implicit Arguments.

(** C98. All parties run [run_session]; in the execution [h] of the protocol everything is received as it should, except
    that what [t] sends in round [k] is turned down by everybody. In whatever order the drivers go on and messages are
    delivered: nobody but [t] returns without evidence against [t], which verifies, or with anything else against
    anybody; [t] accuses nobody; this comes to an end, and then all others have returned and no message is left. *)
Theorem C98_drivers_convict : forall (P : Params) (Pr : Proto) f r sid parties (ep : Verifier -> EntryPoint Pr) (h : Plan (with_receive Pr f)) sk,
  signers parties sk -> wire_total P -> signatures_correct P -> plain_ids Pr ->
  honest_run r sid parties (fun v => ep_with f (ep v)) h ->
  forall t k sd, one_fault sid parties h t k sd ->
  exists dn0, honest_dnet r sid parties sk ep = Ok dn0 /\
    (forall xs dn, dschedule r dn0 xs dn ->
       (forall v o, get v (dn_nodes dn) = Some (DrvDone o) -> v <> t -> exists rep ev, o = Ok rep /\ rep_outcome rep = OTerminated /\
          rep_provable rep = insert t ev empty /\ rep_unprovable rep = empty /\ rep_missing rep = empty /\ proof_against sid h t k sd v ev) /\
       (exists d, get t (dn_nodes dn) = Some d /\
          match d with
          | DrvDone o => exists rep, o = Ok rep /\ accuses_nobody (Ended rep)
          | _ => exists x, drv_state d = Some x /\ accuses_nobody (Running x)
          end) /\
       ((forall x, dact r dn x = None) ->
          dn_flight dn = [] /\ forall v, mem v parties = true -> v <> t -> exists o, get v (dn_nodes dn) = Some (DrvDone o))) /\
    (forall c : nat -> DNet Pr, c 0 = dn0 -> ~ forall i, exists x, dact r (c i) x = Some (c (S i))).
Proof. exact @drivers_convict. Qed.
Print Assumptions C98_drivers_convict.

(** C99. The same for [par_run_session], with at most 101 parties (see C60 for more). *)
Theorem C99_par_drivers_convict : forall (P : Params) (Pr : Proto) f r sid parties (ep : Verifier -> EntryPoint Pr) (h : Plan (with_receive Pr f)) sk,
  signers parties sk -> wire_total P -> signatures_correct P -> plain_ids Pr ->
  honest_run r sid parties (fun v => ep_with f (ep v)) h -> length (elements parties) <= 101 ->
  forall t k sd, one_fault sid parties h t k sd ->
  exists pn0, honest_pnet r sid parties sk ep = Ok pn0 /\
    (forall xs pn, nschedule r pn0 xs pn ->
       (forall v o, get v (pn_nodes pn) = Some (PStop o) -> v <> t -> exists rep ev, o = Ok rep /\ rep_outcome rep = OTerminated /\
          rep_provable rep = insert t ev empty /\ rep_unprovable rep = empty /\ rep_missing rep = empty /\ proof_against sid h t k sd v ev) /\
       (exists p, get t (pn_nodes pn) = Some p /\
          match p with
          | PStop o => exists rep, o = Ok rep /\ accuses_nobody (Ended rep)
          | PRun x => accuses_nobody (Running (DS (pp_s x) (pp_a x) (handed x)))
          end) /\
       ((forall x, nact r pn x = None) ->
          pn_flight pn = [] /\ forall v, mem v parties = true -> v <> t -> exists o, get v (pn_nodes pn) = Some (PStop o))) /\
    (forall c : nat -> PNet Pr, c 0 = pn0 -> ~ forall i, exists x, nact r (c i) x = Some (c (S i))).
Proof. exact @par_drivers_convict. Qed.
Print Assumptions C99_par_drivers_convict.

(** The executions exist. *)
Example C98_case :
  exists (f : St (extended simT) -> @Verifier toyP -> DynMsg -> res RecvErr (Payload (extended simT))) ep (h : Plan (with_receive (extended simT) f)),
    honest_run (P := toyP) rN sid0 (group 3) (fun v => ep_with f (ep v)) h /\
    one_fault (P := toyP) (Pr := extended simT) sid0 (group 3) h two 0 (tt : Shared simPr) /\ pl_direct h 0 two = bad_message.
Proof. exact toy_caught. Qed.

(** Three parties running simple.rs, of which the last one sends wrong positions in the first round: the first two return
    with one piece of evidence each, which is against the last one. *)
Definition blamed {R} (rep : Report (P := toyP) R) : list N :=
  match rep_outcome rep with OTerminated => keys (rep_provable rep) | _ => [] end.
Definition wrong_parties : list (@Signer toyP * EntryPoint (extended simT)) :=
  match extend_one (make_entry_points 3) (fun xp => with_extension xp invalid1) with
  | Ok (_, ps) => map (fun p => (fst p, extendable_entry (snd p))) ps | _ => [] end.
Example C98_run :
  match dnet_start (Pr := extended simT) rN sid0 wrong_parties with
  | Ok dn => map (fun kv => (fst kv, match snd kv with DrvDone (Ok rep) => Some (blamed rep) | _ => None end)) (to_list (dn_nodes (dauto rN 200 dn)))
  | _ => []
  end = [(0, Some [2]); (1, Some [2]); (2, None)]%N.
Proof. vm_compute. reflexivity. Qed.
Example C99_run :
  match pnet_start (Pr := extended simT) rN sid0 wrong_parties with
  | Ok pn => map (fun kv => (fst kv, match snd kv with PStop (Ok rep) => Some (blamed rep) | _ => None end)) (to_list (pn_nodes (nauto rN 3 400 pn)))
  | _ => []
  end = [(0, Some [2]); (1, Some [2]); (2, None)]%N.
Proof. vm_compute. reflexivity. Qed.
