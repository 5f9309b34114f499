(** The properties of dev/tokio.rs: [run_async] and its message dispatcher. *)
From Coq Require Import List NArith Bool Permutation Lia.
From Verif Require Import Base BMap Errors RoundId Message Protocol Transcript Evidence Session Spec SpecCrypto Typed SpecTyped Simple Extend SpecExtend
  Network SpecNet IntakeFacts RunSync Driver SpecDriver Misbehave Async SpecAsync AsyncFacts AsyncNetFacts
  Toy ToyCrypto ToySimple HonestFacts ToyNet ToyMisbehave ToyAsync ToyCrowd.
Import ListNotations.

(** C70: false. The channels of [run_async] have room for 100 messages; with 52 honest parties the tasks can come to a state
    in which none of them can go on, and [run_async] never returns. *)
Theorem C70_run_async_completes_refuted : exists (P : Params) (Pr : Proto) r sid parties (ep : Verifier -> EntryPoint Pr) (h : Plan Pr) sk a0 tr a,
  signers parties sk /\ wire_total P /\ signatures_correct P /\ honest_run r sid parties ep h /\ length (elements parties) = 52 /\
  honest_anet r sid parties sk ep = Ok a0 /\ aschedule r 100 a0 tr a /\ async_stuck r 100 a /\ async_returns a = None.
Proof. exact (@async_deadlock 52 (le_n 52)). Qed.
Print Assumptions C70_run_async_completes_refuted.

(** The same for every larger number of parties: 51 is the exact bound. *)
Theorem C70_larger_refuted : forall n, 51 < n -> exists (P : Params) (Pr : Proto) r sid parties (ep : Verifier -> EntryPoint Pr) (h : Plan Pr) sk a0 tr a,
  signers parties sk /\ wire_total P /\ signatures_correct P /\ honest_run r sid parties ep h /\ length (elements parties) = n /\
  honest_anet r sid parties sk ep = Ok a0 /\ aschedule r 100 a0 tr a /\ async_stuck r 100 a /\ async_returns a = None.
Proof. exact async_deadlock. Qed.
Print Assumptions C70_larger_refuted.

(** C70, what holds: with channels that have room for two messages of every other party (so for up to 51 parties with the
    100 places of [run_async]), however the tasks are interleaved and whatever indices the dispatcher draws, [run_async]
    returns the reports of all the parties with the results of the plan, and it does return: no execution goes on forever,
    and none stops before. *)
Theorem C70_run_async_partial : forall (P : Params) (Pr : Proto) r sid parties (ep : Verifier -> EntryPoint Pr) (h : Plan Pr) sk cap,
  signers parties sk -> wire_total P -> signatures_correct P -> honest_run r sid parties ep h ->
  0 < cap -> 2 * (length (elements parties) - 1) <= cap ->
  exists a0, honest_anet r sid parties sk ep = Ok a0 /\
    (forall tr a, aschedule r cap a0 tr a ->
       (forall o, async_returns a = Some o -> exists reports, o = Ok reports /\ all_reports parties h reports) /\
       (async_stuck r cap a -> async_returns a <> None)) /\
    (forall f : nat -> ANet Pr, f 0 = a0 -> ~ forall i, exists x ls, aact r cap (f i) x = Some (ls, f (S i))).
Proof. intros P Pr r sid parties ep h sk cap Hsk Hw Hs HR. exact (@honest_async P Pr r sid parties ep h sk cap Hsk Hw Hs HR). Qed.
Print Assumptions C70_run_async_partial.

(** Three parties that run the protocol of simple.rs, with two all-to-all rounds and an echo round, meet the hypotheses. One
    of their executions. *)
Definition simple3 := honest_anet rN sid0 (group 3) key (fun _ => @simple_entry toyP toyW (group 3)).
Definition run3 := aauto 100 300 [@ADisp toyP 0; @ANode toyP 2%N; @ANode toyP 0%N; @ANode toyP 1%N] [] (astarted simple3).
Example C70_case : exists h : Plan (wrap (@simple toyP toyW)),
  signers (group 3) key /\ wire_total toyP /\ signatures_correct toyP /\
  honest_run rN sid0 (group 3) (fun _ => @simple_entry toyP toyW (group 3)) h /\ 2 * (length (elements (group 3)) - 1) <= 100 /\
  aschedule rN 100 (astarted simple3) (fst run3) (snd run3) /\ aresults (snd run3) = [(0, Some 6); (1, Some 6); (2, Some 6)]%N.
Proof.
  exists (@simple_plan toyP toyW (group 3)). split; [exact (@toy_signers 3)|]. split; [exact toy_wire|]. split; [exact toy_signatures|].
  split; [apply simple_honest; [exact toy_simple_wire|vm_compute; discriminate|vm_compute; repeat constructor]|].
  split; [vm_compute; repeat constructor|]. split; [apply aauto_sched; constructor|]. vm_compute. reflexivity.
Qed.
(** The 51 parties that the 100 places suffice for. *)
Example C70_case_largest : honest_run rN sid0 (group 51) (fun _ => hello_entry 51) (hello_plan 51) /\ 2 * (length (elements (group 51)) - 1) <= 100.
Proof. split; [apply hello_honest|]. apply PeanoNat.Nat.leb_le. vm_compute. reflexivity. Qed.

(** C71. Whatever the parties do: every node task is a run of [run_session] on the session made for it; a node receives only
    messages that were sent to it, from their senders, each at most once; if [run_async] returns reports, then these are what
    the nodes returned, one for every party, and every message was received, except for those that are left in the channel of a
    node that returned. *)
Theorem C71_run_async_faithful : forall (P : Params) (Pr : Proto) r cap sid (ps : list (Signer * EntryPoint Pr)) a0 tr a,
  NoDup (map (fun p => signer_key (fst p)) ps) -> anet_start r sid ps = Ok a0 -> aschedule r cap a0 tr a ->
  (forall sk e, In (sk, e) ps -> exists s d, session_new (nr_new r (signer_key sk)) sid sk e = Ok s /\
     get (signer_key sk) (an_nodes a) = Some d /\ run_session r s (LEnter s :: doings (signer_key sk) tr) d) /\
  (exists rest, Permutation (sent_in tr) (taken_in tr ++ rest)) /\
  (forall reports, async_returns a = Some (Ok reports) ->
     Permutation (sent_in tr) (taken_in tr ++ unread a) /\
     (forall v rep, get v reports = Some rep <-> get v (an_nodes a) = Some (DrvDone (Ok rep))) /\
     (forall sk e, In (sk, e) ps -> exists rep, get (signer_key sk) reports = Some rep)).
Proof. exact @async_faithful. Qed.
Print Assumptions C71_run_async_faithful.

(** In the execution of [C70_case] 18 messages are sent and taken: 6 in each of the three rounds. *)
Example C71_case : aschedule rN 100 (astarted simple3) (fst run3) (snd run3) /\
  length (sent_in (fst run3)) = 18 /\ length (taken_in (fst run3)) = 18 /\ unread (snd run3) = [] /\
  map (fun o => (mo_from o, mo_to o)) (firstn 5 (sent_in (fst run3))) = [(2, 0); (2, 1); (0, 1); (0, 2); (1, 0)]%N /\
  map (fun o => (mo_from o, mo_to o)) (firstn 5 (taken_in (fst run3))) = [(0, 2); (2, 0); (1, 0); (0, 2); (1, 2)]%N.
Proof. split; [apply aauto_sched; constructor|]. vm_compute. auto 10. Qed.

(** C72: false. With one party that sends wrong messages [run_async] can return an error after all the others returned reports
    with valid evidence against that party; these reports are lost. (The party goes on to the next round and sends a message to
    one of the others, whose end of the channel is gone; the dispatcher takes this for a failure.) *)
Theorem C72_reports_of_all_refuted : exists (P : Params) (T : TProto) r sid (eps : list (Signer * EntryPoint (wrap T))) (k : TK T) (x : Ext T k) sd bad modified a0 tr a e,
  NoDup (map (fun p => signer_key (fst p)) eps) /\
  extend_one eps (fun xp => with_extension xp x) = Ok (bad, modified) /\
  anet_start (Pr := extended T) r sid (map (fun p => (fst p, extendable_entry (snd p))) modified) = Ok a0 /\
  aschedule r 100 a0 tr a /\ async_returns a = Some (Err e) /\
  forall v, v <> bad -> In v (map (fun p => signer_key (fst p)) eps) ->
    exists rep ev, get v (an_nodes a) = Some (DrvDone (Ok rep)) /\ get bad (rep_provable rep) = Some ev /\ verify_evidence (extended T) ev sd = Ok tt.
Proof. exact async_loses_reports. Qed.
Print Assumptions C72_reports_of_all_refuted.

(** C72, what holds: if [run_async] returns an error, then a message was sent and not received, and the node it is for has
    returned or does not exist; or [run_session] failed for one of the parties in a step in which it did not use a channel
    that was closed. *)
Theorem C72_error_cause_partial : forall (P : Params) (Pr : Proto) r cap sid (ps : list (Signer * EntryPoint Pr)) a0 tr a e,
  NoDup (map (fun p => signer_key (fst p)) ps) -> anet_start r sid ps = Ok a0 -> aschedule r cap a0 tr a -> async_returns a = Some (Err e) ->
  (exists o rest, Permutation (sent_in tr) (taken_in tr ++ o :: rest) /\ gone a (mo_to o)) \/
  (exists sk ep s, In (sk, ep) ps /\ session_new (nr_new r (signer_key sk)) sid sk ep = Ok s /\ fails_by_itself r s (LEnter s :: doings (signer_key sk) tr)).
Proof. exact @async_error_cause. Qed.
Print Assumptions C72_error_cause_partial.

(** The hypotheses are met by the execution in which the reports are lost. *)
Example C72_case : NoDup (map (fun p => signer_key (fst p)) (bad_parties 3)) /\
  match bad_net 3 with Ok a0 => match aplay rN 100 a0 bad_run with Some a => match async_returns a with Some (Err _) => true | _ => false end | None => false end | _ => false end = true.
Proof. split; [vm_compute; repeat constructor; simpl; intuition discriminate|vm_compute; reflexivity]. Qed.
