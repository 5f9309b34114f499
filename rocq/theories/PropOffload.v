(** The properties of [run_async] (dev/tokio.rs) with [offload_processing = true]. *)
From Coq Require Import List NArith Bool Permutation Lia.
From Verif Require Import Base BMap Errors RoundId Message Protocol Transcript Evidence Session Spec SpecCrypto Typed SpecTyped Simple
  Extend Misbehave Network SpecNet IntakeFacts RunSync Driver SpecDriver Par SpecPar Async SpecAsync Offload SpecOffload OffloadFacts OffloadNetFacts OffloadErrFacts
  Toy ToyCrypto ToySimple HonestFacts ToyNet ToyAsync ToyOffload ToyCrowd.
Import ListNotations.

(** C81: false. Tasks of their own for making and processing messages do not help: with 52 honest parties all the tasks can
    come to a state in which none of them can go on, and [run_async] never returns. *)
Theorem C81_offload_completes_refuted : exists (P : Params) (Pr : Proto) r sid parties (ep : Verifier -> EntryPoint Pr) (h : Plan Pr) sk a0 tr a,
  signers parties sk /\ wire_total P /\ signatures_correct P /\ honest_run r sid parties ep h /\ length (elements parties) = 52 /\
  honest_onet r sid parties sk ep = Ok a0 /\ oschedule r 100 a0 tr a /\ offload_stuck r 100 a /\ offload_returns a = None.
Proof. exact (@offload_deadlock 52 (le_n 52)). Qed.
Print Assumptions C81_offload_completes_refuted.

(** The same for every larger number of parties: 51 is the exact bound. *)
Theorem C81_larger_refuted : forall n, 51 < n -> exists (P : Params) (Pr : Proto) r sid parties (ep : Verifier -> EntryPoint Pr) (h : Plan Pr) sk a0 tr a,
  signers parties sk /\ wire_total P /\ signatures_correct P /\ honest_run r sid parties ep h /\ length (elements parties) = n /\
  honest_onet r sid parties sk ep = Ok a0 /\ oschedule r 100 a0 tr a /\ offload_stuck r 100 a /\ offload_returns a = None.
Proof. exact offload_deadlock. Qed.
Print Assumptions C81_larger_refuted.

(** C81, what holds: with channels that have room for two messages of every other party, and at most 101 parties (so for up
    to 51 parties with the 100 places of [run_async]), however all the tasks are interleaved and whatever indices the
    dispatcher draws, [run_async] returns the reports of all the parties with the results of the plan, and it does return: no
    execution goes on forever, and none stops before. *)
Theorem C81_offload_partial : forall (P : Params) (Pr : Proto) r sid parties (ep : Verifier -> EntryPoint Pr) (h : Plan Pr) sk cap,
  signers parties sk -> wire_total P -> signatures_correct P -> honest_run r sid parties ep h ->
  0 < cap -> 2 * (length (elements parties) - 1) <= cap -> length (elements parties) <= 101 ->
  exists a0, honest_onet r sid parties sk ep = Ok a0 /\
    (forall tr a, oschedule r cap a0 tr a ->
       (forall o, offload_returns a = Some o -> exists reports, o = Ok reports /\ all_reports parties h reports) /\
       (offload_stuck r cap a -> offload_returns a <> None)) /\
    (forall f : nat -> ONet Pr, f 0 = a0 -> ~ forall i, exists x ls, oact r cap (f i) x = Some (ls, f (S i))).
Proof. intros P Pr r sid parties ep h sk cap Hsk Hw Hs HR. exact (@honest_offload P Pr r sid parties ep h sk cap Hsk Hw Hs HR). Qed.
Print Assumptions C81_offload_partial.

(** Three parties that run the protocol of simple.rs, with two all-to-all rounds and an echo round, meet the hypotheses. One
    of their executions. *)
Definition osimple3 := honest_onet rN sid0 (group 3) key (fun _ => @simple_entry toyP toyW (group 3)).
Definition orun3 := oauto 100 600 (all_acts 3) [] (ostarted osimple3).
Example C81_case : exists h : Plan (wrap (@simple toyP toyW)),
  signers (group 3) key /\ wire_total toyP /\ signatures_correct toyP /\
  honest_run rN sid0 (group 3) (fun _ => @simple_entry toyP toyW (group 3)) h /\ 2 * (length (elements (group 3)) - 1) <= 100 /\
  oschedule rN 100 (ostarted osimple3) (fst orun3) (snd orun3) /\ oresults (snd orun3) = [(0, Some 6); (1, Some 6); (2, Some 6)]%N.
Proof.
  exists (@simple_plan toyP toyW (group 3)). split; [exact (@toy_signers 3)|]. split; [exact toy_wire|]. split; [exact toy_signatures|].
  split; [apply simple_honest; [exact toy_simple_wire|vm_compute; discriminate|vm_compute; repeat constructor]|].
  split; [vm_compute; repeat constructor|]. split; [apply oauto_sched; constructor|]. vm_compute. reflexivity.
Qed.
(** The 51 parties that the 100 places suffice for. *)
Example C81_case_largest : honest_run rN sid0 (group 51) (fun _ => hello_entry 51) (hello_plan 51) /\
  2 * (length (elements (group 51)) - 1) <= 100 /\ length (elements (group 51)) <= 101.
Proof. split; [apply hello_honest|]. split; apply PeanoNat.Nat.leb_le; vm_compute; reflexivity. Qed.

(** C82. Whatever the parties do: every node task is a run of [par_run_session] on the session made for it; a node receives
    only messages that were sent to it, from their senders, each at most once; if [run_async] returns reports, then these are
    what the nodes returned, one for every party, and every message was received, except for those that are left in the
    channel of a node that returned. *)
Theorem C82_offload_faithful : forall (P : Params) (Pr : Proto) r cap sid (ps : list (Signer * EntryPoint Pr)) a0 tr a,
  NoDup (map (fun p => signer_key (fst p)) ps) -> onet_start r sid ps = Ok a0 -> oschedule r cap a0 tr a ->
  (forall sk e, In (sk, e) ps -> exists s p, session_new (nr_new r (signer_key sk)) sid sk e = Ok s /\
     get (signer_key sk) (on_nodes a) = Some p /\ par_session r s (LEnter s :: doings (signer_key sk) tr) p) /\
  (exists rest, Permutation (sent_in tr) (taken_in tr ++ rest)) /\
  (forall reports, offload_returns a = Some (Ok reports) ->
     Permutation (sent_in tr) (taken_in tr ++ left_over a) /\
     (forall v rep, get v reports = Some rep <-> get v (on_nodes a) = Some (PStop (Ok rep))) /\
     (forall sk e, In (sk, e) ps -> exists rep, get (signer_key sk) reports = Some rep)).
Proof. exact @offload_faithful. Qed.
Print Assumptions C82_offload_faithful.

(** In the execution of [C81_case] 18 messages are sent and taken: 6 in each of the three rounds. *)
Example C82_case : oschedule rN 100 (ostarted osimple3) (fst orun3) (snd orun3) /\
  length (sent_in (fst orun3)) = 18 /\ length (taken_in (fst orun3)) = 18 /\ left_over (snd orun3) = [] /\
  map (fun o => (mo_from o, mo_to o)) (firstn 5 (sent_in (fst orun3))) = [(2, 1); (2, 0); (1, 2); (1, 0); (0, 2)]%N /\
  map (fun o => (mo_from o, mo_to o)) (firstn 5 (taken_in (fst orun3))) = [(2, 1); (1, 2); (2, 0); (1, 0); (0, 2)]%N.
Proof. split; [apply oauto_sched; constructor|]. vm_compute. auto 10. Qed.

(** C93: false, as C72. With one party that sends wrong messages [run_async] can return an error after all the others returned
    reports with valid evidence against that party; these reports are lost. *)
Theorem C93_reports_of_all_refuted : exists (P : Params) (T : TProto) r sid (eps : list (Signer * EntryPoint (wrap T))) (k : TK T) (x : Ext T k) sd bad modified a0 tr a e,
  NoDup (map (fun p => signer_key (fst p)) eps) /\
  extend_one eps (fun xp => with_extension xp x) = Ok (bad, modified) /\
  onet_start (Pr := extended T) r sid (map (fun p => (fst p, extendable_entry (snd p))) modified) = Ok a0 /\
  oschedule r 100 a0 tr a /\ offload_returns a = Some (Err e) /\
  forall v, v <> bad -> In v (map (fun p => signer_key (fst p)) eps) ->
    exists rep ev, get v (on_nodes a) = Some (PStop (Ok rep)) /\ get bad (rep_provable rep) = Some ev /\ verify_evidence (extended T) ev sd = Ok tt.
Proof. exact offload_loses_reports. Qed.
Print Assumptions C93_reports_of_all_refuted.

(** C93, what holds: if [run_async] returns an error, then a message was sent and not received, and the node it is for has
    returned or does not exist; or [par_run_session] failed for one of the parties in a step in which it did not use a channel
    that was closed. *)
Theorem C93_error_cause_partial : forall (P : Params) (Pr : Proto) r cap sid (ps : list (Signer * EntryPoint Pr)) a0 tr a e,
  NoDup (map (fun p => signer_key (fst p)) ps) -> onet_start r sid ps = Ok a0 -> oschedule r cap a0 tr a -> offload_returns a = Some (Err e) ->
  (exists o rest, Permutation (sent_in tr) (taken_in tr ++ o :: rest) /\ off a (mo_to o)) \/
  (exists sk ep s, In (sk, ep) ps /\ session_new (nr_new r (signer_key sk)) sid sk ep = Ok s /\ par_fails_by_itself r s (LEnter s :: doings (signer_key sk) tr)).
Proof. exact @offload_error_cause. Qed.
Print Assumptions C93_error_cause_partial.

(** The hypotheses are met by the execution in which the reports are lost. *)
Example C93_case : NoDup (map (fun p => signer_key (fst p)) (bad_parties 3)) /\
  match bad_onet with Ok a0 => match offload_returns (oend 100 bad_orun a0) with Some (Err _) => true | _ => false end | _ => false end = true.
Proof. split; [vm_compute; repeat constructor; simpl; intuition discriminate|vm_compute; reflexivity]. Qed.
