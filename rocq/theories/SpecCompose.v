(** Vocabulary of the properties about honest executions of chained protocols. No proofs here. *)
From Coq Require Import List NArith Bool.
From Verif Require Import Base BMap Errors RoundId Message Protocol Transcript Evidence Session Spec SpecCrypto Typed Simple Network SpecNet PartialEcho SpecPartial Chain RunSync
  Driver SpecDriver Par SpecPar Async SpecAsync Offload SpecOffload.
Import ListNotations.
Set Implicit Arguments.

Section WithParams.
  Context {P : Params}.

  (** Whatever is drawn, the parties can execute the protocol in lock step, beginning with round [first], and the results
      satisfy [R]; the last round is one that may produce a result. *)
  Definition executes_well {Pr : Proto} (shape : Plan Pr -> Prop) (sid : bytes) (parties : bset Verifier) (ep : Verifier -> EntryPoint Pr)
      (first : RoundId) (R : (Verifier -> Rslt Pr) -> Prop) : Prop :=
    forall r, exists h, lock_step r sid parties ep h /\ shape h /\ pl_rid h 0 = first /\
      (forall v, mem v parties = true -> ti_result (tinfo Pr (pl_state h (pl_last h) v)) = true) /\ R (pl_result h).

  (** Everybody sends to everybody else in every round, and takes part in all the echo rounds. *)
  Definition everybody {Pr : Proto} (parties : bset Verifier) (h : Plan Pr) : Prop := all_to_all parties h /\ full_echo parties h.

  (** The entry points of the second protocol of a chain, after the results [res] of the first. *)
  Definition second_entry {P1 P2 : Proto} (j : Join P1 P2) (tr : Verifier -> J j) (res : Verifier -> Rslt P1) (v : Verifier) : EntryPoint P2 :=
    @mkEP P P2 (j_entry j) (fun g sr id => j_make j (tr v) (res v) g sr id).
End WithParams.

(** What the rounds of the two protocols of a chain draw; the second one is entered after [h1]. *)
Definition rng1 {P : Params} (r : NetRng) : NetRng := mkNetRng (nr_new r) (fun v rid u => nr_msg r v (group_under rid 1) u)
  (fun v rid p => match p with O :: p => nr_fin r v (group_under rid 1) (0 :: 0 :: p) | _ => nr_fin r v (group_under rid 1) p end).
Definition rng2 {P : Params} {P1 : Proto} (r : NetRng) (h1 : Plan P1) : NetRng := mkNetRng
  (fun v p => let g := nr_fin r v (group_under (final_rid h1 (pl_last h1) v) 1) in match p with O :: p => g (0 :: 1 :: p) | _ => g p end)
  (fun v rid u => nr_msg r v (group_under rid 2) u) (fun v rid => nr_fin r v (group_under rid 2)).

Section Crossing.
  Context {P : Params}.
  Context {P1 P2 : Proto}.

  (** [h1] and then [h2] are executed in lock step: the first protocol with what its rounds draw in the chain, then the second
      protocol, entered after the results of the first. *)
  Definition chained (j : Join P1 P2) (r : NetRng) (sid : bytes) (parties : bset Verifier) (ep : Verifier -> EntryPoint P1) (tr : Verifier -> J j)
      (h1 : Plan P1) (h2 : Plan P2) : Prop :=
    lock_step (rng1 r) sid parties ep h1 /\ lock_step (rng2 r h1) sid parties (second_entry j tr (pl_result h1)) h2 /\
    (forall v, mem v parties = true -> ti_result (tinfo P1 (pl_state h1 (pl_last h1) v)) = true) /\ pl_rid h2 0 = j_entry j.

  (** Before a party sends to [u] in the first round of the second protocol, it has [heard] from [u] in the last round of the
      first, unless that is the very first round of all. *)
  Definition crossing (parties : bset Verifier) (h1 : Plan P1) (h2 : Plan P2) : Prop :=
    forall v u, mem v parties = true -> mem u (pl_dest h2 0 v) = true ->
      pl_last h1 = 0 /\ echoes h1 (pl_last h1) u = false \/ heard h1 (pl_last h1) v u.
End Crossing.

Section Completes.
  Context {P : Params}.
  Context {Pr : Proto}.
  Variable r : NetRng.
  Variable sid : bytes.
  Variable parties : bset Verifier.
  Variable sk : Verifier -> Signer.
  Variable ep : Verifier -> EntryPoint Pr.
  Variable R : (Verifier -> Rslt Pr) -> Prop.

  (** These are reports of all the parties, without errors, with results that satisfy [R]. *)
  Definition good_reports (reports : bmap Verifier (Report (Rslt Pr))) : Prop :=
    exists res, R res /\ (forall v, mem v parties = false -> get v reports = None) /\
      (forall v, mem v parties = true -> exists rep, get v reports = Some rep /\ rep_outcome rep = OResult (res v) /\ no_errors (Ended rep)).

  (** [run_sync] returns such reports, whatever it picks. *)
  Definition run_sync_completes : Prop := forall picks, exists fuel0 reports,
    (forall fuel, fuel0 <= fuel -> run_sync fuel r picks sid (map (fun v => (sk v, ep v)) (elements parties)) = Some (Ok reports)) /\ good_reports reports.
  (** [run_async] returns such reports, however its tasks are interleaved: it returns nothing else, no execution stops before it
      has returned, and no execution goes on forever. *)
  Definition run_async_completes : Prop := exists a0, honest_anet r sid parties sk ep = Ok a0 /\
    (forall tr a, aschedule r 100 a0 tr a ->
       (forall o, async_returns a = Some o -> exists reports, o = Ok reports /\ good_reports reports) /\
       (async_stuck r 100 a -> async_returns a <> None)) /\
    (forall f : nat -> ANet Pr, f 0 = a0 -> ~ forall i, exists x ls, aact r 100 (f i) x = Some (ls, f (S i))).
  Definition run_async_offload_completes : Prop := exists a0, honest_onet r sid parties sk ep = Ok a0 /\
    (forall tr a, oschedule r 100 a0 tr a ->
       (forall o, offload_returns a = Some o -> exists reports, o = Ok reports /\ good_reports reports) /\
       (offload_stuck r 100 a -> offload_returns a <> None)) /\
    (forall f : nat -> ONet Pr, f 0 = a0 -> ~ forall i, exists x ls, oact r 100 (f i) x = Some (ls, f (S i))).
End Completes.
