(** Properties C41, C56 and C57: the simulated network of dev/run_sync.rs. *)
From Coq Require Import List NArith Bool Arith Permutation.
From Verif Require Import Base BMap Errors RoundId Message Protocol Transcript Evidence Session Typed Simple Spec SpecCrypto
  Network SpecNet RunSync SpecSync Toy ToyCrypto ToySimple HonestFacts ToyNet ToySync QueueFacts RunSyncFacts.
Import ListNotations.
Set Implicit Arguments.

(** C41. After any sequence of pushes and pops, whatever the random choices [i]: [rest] are the messages not returned yet.
    A pop fails (panics) exactly if there are none, and otherwise returns one of them. *)
Theorem C41_every_message_once : forall (P : Params) ordered pushed popped (q : Messages), history ordered pushed popped q ->
  exists rest, Permutation pushed (popped ++ rest) /\
    (q_is_empty q = true <-> rest = []) /\
    (forall i, q_pop i q = None <-> rest = []) /\
    (forall i x q', q_pop i q = Some (x, q') -> In x rest).
Proof. exact @queue_exact. Qed.
Print Assumptions C41_every_message_once.

(** Ordered mode: what was returned of a sender is an initial segment of what it pushed. *)
Theorem C41_sender_order : forall (P : Params) pushed popped (q : Messages), history true pushed popped q ->
  forall v, exists rest, sent_by v pushed = sent_by v popped ++ rest.
Proof. exact @queue_ordered. Qed.
Print Assumptions C41_sender_order.

(** When the queue is empty everything was returned, in ordered mode in the order it was pushed by every sender. *)
Theorem C41_drained : forall (P : Params) ordered pushed popped (q : Messages), history ordered pushed popped q ->
  q_is_empty q = true ->
  Permutation pushed popped /\ (ordered = true -> forall v, sent_by v pushed = sent_by v popped).
Proof. exact @queue_drained. Qed.
Print Assumptions C41_drained.

(** Nothing else is fixed: the first message not yet returned of any sender can be the next one; in unordered mode any
    message can. *)
Theorem C41_any_sender_next : forall (P : Params) pushed popped (q : Messages) v x rest, history true pushed popped q ->
  sent_by v pushed = sent_by v popped ++ x :: rest -> exists i q', q_pop i q = Some (x, q').
Proof. exact @queue_any_sender. Qed.
Print Assumptions C41_any_sender_next.
Theorem C41_any_message_next : forall (P : Params) pushed popped (q : Messages) x rest, history false pushed popped q ->
  Permutation pushed (popped ++ x :: rest) -> exists i q', q_pop i q = Some (x, q').
Proof. exact @queue_any_message. Qed.
Print Assumptions C41_any_message_next.

(** Two messages of party 1 and one of party 0; the random choice is party 1 twice. *)
Example C41_case : exists q, history (P := toyP) true [mailA; mailB; mailC] [mailA; mailC] q /\
  sent_by (P := toyP) 1%N [mailA; mailB; mailC] = [mailA; mailC] /\ q_is_empty q = false.
Proof.
  eexists. split; [|split; [reflexivity|]].
  - eapply h_pop with (i := 1) (popped := [mailA]) (x := mailC).
    + eapply h_pop with (i := 1) (popped := []) (x := mailA).
      * apply h_push with (pushed := [mailA; mailB]), h_push with (pushed := [mailA]), h_push with (pushed := []), h_new.
      * vm_compute. reflexivity.
    + vm_compute. reflexivity.
  - vm_compute. reflexivity.
Qed.

(** C56. If the parties are honest ([honest_run]) and at least one message is sent in the whole execution, [run_sync]
    returns (for all sufficiently large bounds on the number of iterations, so: it terminates) a report without errors
    with the result of the plan for every party, whatever messages are picked; [results] (run_sync.rs:285-305) succeeds. *)
Theorem C56_run_sync_completes : forall (P : Params) (Pr : Proto) r sid parties (ep : Verifier -> EntryPoint Pr) (h : Plan Pr) sk,
  signers parties sk -> wire_total P -> signatures_correct P -> honest_run r sid parties ep h ->
  forall picks,
  (exists n v u, n <= pl_last h /\ mem v parties = true /\
     (mem u (pl_dest h n v) = true \/ (echoes h n v = true /\ mem u (partners h n v) = true))) ->
  exists fuel0 reports results, (forall fuel, fuel0 <= fuel ->
      run_sync fuel r picks sid (map (fun v => (sk v, ep v)) (elements parties)) = Some (Ok reports)) /\
    (forall v, mem v parties = false -> get v reports = None) /\
    (forall v, mem v parties = true -> exists rep, get v reports = Some rep /\
      rep_outcome rep = OResult (pl_result h v) /\ rep_provable rep = empty /\ rep_unprovable rep = empty /\ rep_missing rep = empty) /\
    exec_results reports = Some results /\ is_map results parties (pl_result h).
Proof. exact @run_sync_completes. Qed.
Print Assumptions C56_run_sync_completes.

(** simple.rs with 2 to 16 parties: [run_sync] returns the result n(n-1) for everybody. *)
Theorem C56_simple : forall (P : Params) W,
  codec_ok (sw_message1 W) /\ codec_ok (sw_echo1 W) /\ codec_ok (sw_broadcast1 W) /\ codec_ok (sw_message2 W) ->
  forall r sid parties, wire_total P -> signatures_correct P -> forall sk, signers parties sk ->
  let n := length (elements parties) in 2 <= n <= 16 ->
  forall picks, exists fuel0 reports results, (forall fuel, fuel0 <= fuel ->
      run_sync fuel r picks sid (map (fun v => (sk v, simple_entry W parties)) (elements parties)) = Some (Ok reports)) /\
    exec_results reports = Some results /\ is_map results parties (fun _ => N.of_nat n * (N.of_nat n - 1))%N.
Proof. exact @simple_run_sync. Qed.
Print Assumptions C56_simple.

(** Three parties of simple.rs, with some random choices. *)
Example C56_case : (2 <= length (elements (group 3)) <= 16) /\ sync_results (sync_run 3 (fun k => k * k + 5)) = [6; 6; 6]%N.
Proof. split; [vm_compute; repeat constructor|]. vm_cast_no_check (eq_refl [6; 6; 6]%N). Qed.

(** C57 is false: with a single party of simple.rs no message is ever sent, and [run_sync] pops from the empty queue. *)
Theorem C57_no_panic_refuted : exists (P : Params) W r sid parties sk,
  (codec_ok (sw_message1 W) /\ codec_ok (sw_echo1 W) /\ codec_ok (sw_broadcast1 W) /\ codec_ok (sw_message2 W)) /\
  wire_total P /\ signatures_correct P /\ signers parties sk /\ length (elements parties) = 1 /\
  (exists h, honest_run r sid parties (fun _ => simple_entry W parties) h) /\
  forall picks, exists fuel0, forall fuel, fuel0 <= fuel ->
    run_sync fuel r picks sid (map (fun v => (sk v, simple_entry W parties)) (elements parties)) = Some Panic.
Proof. exact lonely_run_sync. Qed.
Print Assumptions C57_no_panic_refuted.

(** It panics for honest parties exactly if no message is sent in the whole execution. Missing for the full property: that
    case, for which it is false. *)
Theorem C57_panics_if_silent : forall (P : Params) (Pr : Proto) r sid parties (ep : Verifier -> EntryPoint Pr) (h : Plan Pr) sk,
  signers parties sk -> wire_total P -> signatures_correct P -> honest_run r sid parties ep h ->
  forall picks,
  ~ (exists n v u, n <= pl_last h /\ mem v parties = true /\
     (mem u (pl_dest h n v) = true \/ (echoes h n v = true /\ mem u (partners h n v) = true))) ->
  exists fuel0, forall fuel, fuel0 <= fuel ->
    run_sync fuel r picks sid (map (fun v => (sk v, ep v)) (elements parties)) = Some Panic.
Proof. exact @run_sync_panics. Qed.
Print Assumptions C57_panics_if_silent.
Theorem C57_no_panic_partial : forall (P : Params) (Pr : Proto) r sid parties (ep : Verifier -> EntryPoint Pr) (h : Plan Pr) sk,
  signers parties sk -> wire_total P -> signatures_correct P -> honest_run r sid parties ep h ->
  forall picks,
  (exists n v u, n <= pl_last h /\ mem v parties = true /\
     (mem u (pl_dest h n v) = true \/ (echoes h n v = true /\ mem u (partners h n v) = true))) ->
  exists fuel0 reports, forall fuel, fuel0 <= fuel ->
    run_sync fuel r picks sid (map (fun v => (sk v, ep v)) (elements parties)) = Some (Ok reports).
Proof. exact @run_sync_no_panic. Qed.
Print Assumptions C57_no_panic_partial.

Example C57_case : sync_run 1 (fun k => k) = Some Panic.
Proof. vm_cast_no_check (eq_refl (@Some (res LocalError (bmap (@Verifier toyP) (Report (P := toyP) N))) Panic)). Qed.
