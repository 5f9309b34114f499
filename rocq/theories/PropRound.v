(** Properties of a round in progress: C06, C08, C10, C11, C12, C13, C20. *)
From Coq Require Import List NArith Bool.
From Verif Require Import Base BMap Errors RoundId Message Protocol Transcript Evidence Session Spec MessageFacts RunFacts
  IntakeFacts RoundFacts HistoryFacts LocalFacts OrderFacts Exec Toy.
Import ListNotations.
Set Implicit Arguments.

(** C08. The answers of [can_finalize] in terms of the history of the round. *)
Theorem C08_can_finalize_meaning : forall (P : Params) (Pr : Proto) (d0 : DState Pr) es d,
  round_start d0 -> run d0 es d -> in_round es ->
  let all_ok := forall v, expected (d_s d) v -> exists p, accepted (d_s d) es v p in
  (can_finalize (d_a d) = Yes <-> all_ok) /\
  (can_finalize (d_a d) = NotYet <-> ~ all_ok /\ exists v, expected (d_s d) v /\ ~ heard es v) /\
  (can_finalize (d_a d) = Never <-> ~ all_ok /\ forall v, expected (d_s d) v -> heard es v) /\
  (can_finalize (d_a d) = Never ->
     exists v, expected (d_s d) v /\ heard es v /\ (forall p, ~ accepted (d_s d) es v p) /\ banned (d_s d) (d_a d) v).
Proof. exact @can_finalize_meaning. Qed.
Print Assumptions C08_can_finalize_meaning.

(** All three answers occur. *)
Example C08_case :
  let bad := @CPre toyP 2%N (tforge 2 sid0 (rid_new 1) (Some [99]%N) None None) in
  let cs1 := [pre cfg3n 1 0; CProc 0] in
  let cs2 := [pre cfg3n 1 0; CProc 0; pre cfg3n 2 0; CProc 0] in
  let cs3 := [pre cfg3n 1 0; CProc 0; bad; CProc 0] in
  (run (tstart cfg3n 0) (ttrace cfg3n 0 cs1) (tfinal cfg3n 0 cs1) /\ can_finalize (d_a (tfinal cfg3n 0 cs1)) = NotYet) /\
  (run (tstart cfg3n 0) (ttrace cfg3n 0 cs2) (tfinal cfg3n 0 cs2) /\ can_finalize (d_a (tfinal cfg3n 0 cs2)) = Yes) /\
  (run (tstart cfg3n 0) (ttrace cfg3n 0 cs3) (tfinal cfg3n 0 cs3) /\ can_finalize (d_a (tfinal cfg3n 0 cs3)) = Never).
Proof. split; [|split]; (split; [apply toy_run; toy|toy]). Qed.

(** C10. Payloads are never changed or removed within a round, and [Yes] stays [Yes]. *)
Theorem C10_progress_not_lost : forall (P : Params) (Pr : Proto) (d : DState Pr) es d', run d es d' -> in_round es ->
  (forall v p, get v (a_payloads (d_a d)) = Some p -> get v (a_payloads (d_a d')) = Some p) /\
  (can_finalize (d_a d) = Yes -> can_finalize (d_a d') = Yes).
Proof. exact @progress_kept. Qed.
Print Assumptions C10_progress_not_lost.

(** A duplicate received after [Yes] bans its sender, but the round can still be finalized. *)
Example C10_case :
  let d := tfinal cfg3n 0 [pre cfg3n 1 0; pre cfg3n 2 0; CProc 0; CProc 0] in
  let cs := [pre cfg3n 1 0] in
  run d (tsteps d cs) (tthen d cs) /\ in_round (tsteps d cs) /\ can_finalize (d_a d) = Yes /\
  contains (1%N : @Verifier toyP) (a_unprovable (d_a (tthen d cs))) = true.
Proof. split; [apply then_run; toy|]. split; [toy|]. split; toy. Qed.

(** C11 is false: a party whose message was rejected by [preprocess_message] is banned, but the round keeps waiting for
    it. In the witness party 1 sends one message with a wrong session id, party 2 behaves; [can_finalize] says [NotYet]
    although every message of the only awaited party is going to be ignored. *)
Theorem C11_awaited_not_banned_refuted : exists (P : Params) (Pr : Proto) (d0 : DState Pr) es d,
  round_start d0 /\ run d0 es d /\ in_round es /\ can_finalize (d_a d) = NotYet /\
  forall v, expected (d_s d) v -> ~ heard es v -> banned (d_s d) (d_a d) v.
Proof.
  set (cs := [@CPre toyP 1%N (tforge 1 [8]%N (rid_new 1) None None None); pre cfg3n 2 0; CProc 0]).
  exists toyP, (toyPr cfg3n), (tstart cfg3n 0), (ttrace cfg3n 0 cs), (tfinal cfg3n 0 cs).
  assert (Hr : run (tstart cfg3n 0) (ttrace cfg3n 0 cs) (tfinal cfg3n 0 cs)) by (apply toy_run; toy).
  assert (Hin : in_round (ttrace cfg3n 0 cs)) by toy.
  split; [apply toy_start|]. split; [exact Hr|]. split; [exact Hin|]. split; [toy|].
  intros v He Hh.
  assert (Hw : mem v (a_waiting (d_a (tfinal cfg3n 0 cs))) = true).
  { apply (h_waiting (round_history (toy_start cfg3n 0) Hr Hin)). auto. }
  assert (Hb : forallb (fun v => contains v (a_unprovable (d_a (tfinal cfg3n 0 cs))))
                 (elements (a_waiting (d_a (tfinal cfg3n 0 cs)))) = true) by toy.
  rewrite forallb_forall in Hb. right; right; right. apply contains_get. apply Hb. now apply in_elements.
Qed.
Print Assumptions C11_awaited_not_banned_refuted.

(** C11, what holds: it is true as long as no message of an expected party was rejected by [preprocess_message] in this
    round and no expected party was banned when the round started. *)
Theorem C11_awaited_not_banned_partial : forall (P : Params) (Pr : Proto) (d0 : DState Pr) es d,
  round_start d0 -> run d0 es d -> in_round es ->
  (forall v, expected (d_s d) v -> ~ banned (d_s d0) (d_a d0) v) ->
  (forall v m e, expected (d_s d) v -> ~ In (EPre v m (PreError e)) es) ->
  can_finalize (d_a d) = NotYet ->
  exists v, expected (d_s d) v /\ ~ heard es v /\ ~ banned (d_s d) (d_a d) v.
Proof. exact @awaited_not_banned. Qed.
Print Assumptions C11_awaited_not_banned_partial.

(** Party 1 is rejected in [process_message] (which is allowed), party 2 is awaited. *)
Example C11_case :
  let cs := [@CPre toyP 1%N (tforge 1 sid0 (rid_new 1) (Some [99]%N) None None); CProc 0] in
  let d := tfinal cfg3n 0 cs in
  run (tstart cfg3n 0) (ttrace cfg3n 0 cs) d /\ in_round (ttrace cfg3n 0 cs) /\
  forallb (fun e => match e with EPre _ _ (PreError _) => false | _ => true end) (ttrace cfg3n 0 cs) = true /\
  can_finalize (d_a d) = NotYet.
Proof. split; [apply toy_run; toy|]. split; [toy|]. split; toy. Qed.

(** C12. Every expected party is in exactly one class, other parties in none; the report lists the first class. *)
Theorem C12_accounting : forall (P : Params) (Pr : Proto) (d0 : DState Pr) es d,
  round_start d0 -> run d0 es d -> in_round es ->
  (forall v, (expected (d_s d) v /\ ~ heard es v) \/
             (expected (d_s d) v /\ exists p, accepted (d_s d) es v p) \/
             (expected (d_s d) v /\ heard es v /\ (forall p, ~ accepted (d_s d) es v p) /\ banned (d_s d) (d_a d) v) \/
             (~ expected (d_s d) v /\ ~ heard es v /\ forall p, ~ accepted (d_s d) es v p)) /\
  (forall v p, accepted (d_s d) es v p -> heard es v) /\
  (forall rep, ends_with d rep ->
     (forall v, (exists m, get (s_round_id (d_s d)) (rep_missing rep) = Some m /\ mem v m = true) <->
                expected (d_s d) v /\ ~ heard es v) /\
     (get (s_round_id (d_s d)) (rep_missing rep) <> None -> exists v, expected (d_s d) v /\ ~ heard es v) /\
     (forall rid, rid <> s_round_id (d_s d) -> get rid (rep_missing rep) = get rid (tr_missing (s_tr (d_s d))))).
Proof. exact @accounting. Qed.
Print Assumptions C12_accounting.

(** C12, earlier rounds: a session whose rounds were finalized on [Yes] carries no missing-messages entries, so the last
    clause above says that the report has an entry for the last round at most. *)
Theorem C12_no_missing_in_earlier_rounds : forall (P : Params) (Pr : Proto) (d : DState Pr),
  reachable d -> tr_missing (s_tr (d_s d)) = empty.
Proof. exact @reachable_no_missing. Qed.
Print Assumptions C12_no_missing_in_earlier_rounds.

(** One party accepted, the other one missing, in round 2. *)
Example C12_case :
  let d0 := tfinal cfg3n 0 [pre cfg3n 1 0; pre cfg3n 2 0; CProc 0; CProc 0; CFin] in
  let cs := [@CPre toyP 1%N (tforge 1 sid0 (rid_new 2) (Some [5]%N) None None); CProc 0] in
  let d := tthen d0 cs in
  run d0 (tsteps d0 cs) d /\ in_round (tsteps d0 cs) /\ s_round_id (d_s d) = rid_new 2 /\
  is_ok (terminate (d_s d) (d_a d)) = true /\
  (let* rep := terminate (d_s d) (d_a d) in Ok (map (fun kv => (fst kv, elements (snd kv))) (to_list (rep_missing rep)))) =
  Ok [(rid_new 2, [2%N])].
Proof. split; [apply then_run; toy|]. split; [toy|]. split; [toy|]. split; toy. Qed.

(** C13. Two sequences of [preprocess_message] / [add_processed_message] calls that agree for each sender lead to the same
    accumulator, and each sender's calls have the same outcomes. Any accumulator, any messages. *)
Theorem C13_order_irrelevant : forall (P : Params) (Pr : Proto) (s : Session Pr) l1 l2 a,
  (forall v, ops_of v l1 = ops_of v l2) ->
  fst (do_ops s a l1) = fst (do_ops s a l2) /\
  forall v, results_of v (snd (do_ops s a l1)) = results_of v (snd (do_ops s a l2)).
Proof. exact @order_irrelevant. Qed.
Print Assumptions C13_order_irrelevant.

(** Two messages in two interleavings; the outcome is that the round can be finalized. *)
Example C13_case :
  let s := tsession cfg3n 0 in
  let m1 := tmsg (tsession cfg3n 1) 0 in let m2 := tmsg (tsession cfg3n 2) 0 in
  let one := (1%N : @Verifier toyP) in let two := (2%N : @Verifier toyP) in
  let l1 := [OPre one m1; OPre two m2; OAdd (as_verified one m1); OAdd (as_verified two m2)] in
  let l2 := [OPre two m2; OAdd (as_verified two m2); OPre one m1; OAdd (as_verified one m1)] in
  (forall v, ops_of v l1 = ops_of v l2) /\ can_finalize (fst (do_ops s (make_accumulator s) l1)) = Yes.
Proof.
  split; [|toy]. intros v. unfold ops_of. cbn [filter op_sender vm_from as_verified].
  destruct (eqb v (1%N : @Verifier toyP)) eqn:E1, (eqb v (2%N : @Verifier toyP)) eqn:E2; auto.
  apply (proj1 (eqb_eq _ _)) in E1. apply (proj1 (eqb_eq _ _)) in E2. congruence.
Qed.

(** C06 is false. A correctly signed message of a party the round does not expect (here: party 5, not a participant at all)
    passes [preprocess_message]; the protocol accepts it; [add_processed_message] then fails with a local error. *)
Theorem C06_remote_harmless_refuted : exists (P : Params) (Pr : Proto) (d d' : DState Pr) from m vm e p,
  reachable d /\ step d (EPre from m (ToProcess vm)) d' /\
  rd_receive (s_round (d_s d')) from (mkDynMsg (sp_body (vm_echo vm)) (sp_body (vm_normal vm)) (sp_body (vm_direct vm))) = Ok p /\
  snd (add_processed (d_s d') (d_a d') (process_message (d_s d') vm)) = Err e.
Proof.
  set (m := tforge 5 sid0 (rid_new 1) (Some [5]%N) None None).
  set (d := tstart cfg3n 0). set (five := (5%N : @Verifier toyP)).
  exists toyP, (toyPr cfg3n), d,
    (DS (d_s d) (fst (preprocess_message (d_s d) (d_a d) five m)) (as_verified five m :: d_todo d)), five, m,
    (as_verified five m), LE_NotExpected, (@PVal toyP (toyPr cfg3n) 5%N).
  split; [apply toy_reachable_start|]. split; [apply pre_process_step; toy|]. split; toy.
Qed.
Print Assumptions C06_remote_harmless_refuted.

(** C06 is also false for expected parties: a party whose early message comes out of the cache can send a second message
    for the round, which is handed out as well; the second of the two makes [add_processed_message] fail. *)
Theorem C06_cached_then_again_refuted : exists (P : Params) (Pr : Proto) (d : DState Pr) vm e p,
  reachable d /\ In vm (d_todo d) /\ expected (d_s d) (vm_from vm) /\
  rd_receive (s_round (d_s d)) (vm_from vm) (mkDynMsg (sp_body (vm_echo vm)) (sp_body (vm_normal vm)) (sp_body (vm_direct vm))) = Ok p /\
  snd (add_processed (d_s d) (d_a d) (process_message (d_s d) vm)) = Err e.
Proof.
  set (m2 := tforge 1 sid0 (rid_new 2) (Some [5]%N) None None).
  set (d := tfinal cfg3n 0 [pre cfg3n 1 0; pre cfg3n 2 0; @CPre toyP 1%N m2; CProc 0; CProc 0; CFin;
                            @CPre toyP 1%N m2; CProc 0]).
  exists toyP, (toyPr cfg3n), d, (nth 0 (d_todo d) dummy_vm), LE_DupPayload, (@PVal toyP (toyPr cfg3n) 5%N).
  split; [apply toy_reachable; toy|]. split; [apply nth_In; apply PeanoNat.Nat.ltb_lt; toy|]. split; [toy|]. split; toy.
Qed.
Print Assumptions C06_cached_then_again_refuted.

(** C06, what holds: for a message of a party the round expects and has not heard from, [add_processed_message] does not
    fail, unless the protocol reports a local error or asks for evidence that is not available. *)
Theorem C06_remote_harmless_partial : forall (P : Params) (Pr : Proto) (d0 : DState Pr) es d t1 vm t2,
  round_start d0 -> run d0 es d -> in_round es -> d_todo d = t1 ++ vm :: t2 ->
  expected (d_s d) (vm_from vm) -> ~ heard es (vm_from vm) ->
  receive_total Pr -> echo_rounds_have_broadcasts Pr -> (forall mt, ser_meta mt <> None) ->
  (forall st, s_round (d_s d) = RMain st ->
     let r := receive Pr st (vm_from vm) (mkDynMsg (sp_body (vm_echo vm)) (sp_body (vm_normal vm)) (sp_body (vm_direct vm))) in
     (forall e, r <> Err (RL e)) /\
     (forall e, r = Err (RProtocol e) -> evidence_available (s_tr (d_s d)) (vm_from vm) e)) ->
  exists a', add_processed (d_s d) (d_a d) (process_message (d_s d) vm) = (a', Ok tt).
Proof. exact @remote_harmless. Qed.
Print Assumptions C06_remote_harmless_partial.

Example C06_case :
  let cs := [pre cfg3 1 0; pre cfg3 2 0; CProc 0] in let d := tfinal cfg3 0 cs in
  round_start (tstart cfg3 0) /\ run (tstart cfg3 0) (ttrace cfg3 0 cs) d /\ in_round (ttrace cfg3 0 cs) /\
  length (d_todo d) = 1 /\ expected (d_s d) (vm_from (nth 0 (d_todo d) dummy_vm)) /\
  receive_total (toyPr cfg3) /\ echo_rounds_have_broadcasts (toyPr cfg3) /\ (forall mt, @ser_meta toyP mt <> None).
Proof.
  split; [apply toy_start|]. split; [apply toy_run; toy|]. split; [toy|]. split; [toy|]. split; [toy|].
  split; [apply toy_receive_total|]. split; [|discriminate]. apply toy_broadcasts. discriminate.
Qed.

(** C20. No message makes the library panic. *)
Theorem C20_no_panic : forall (P : Params) (Pr : Proto) (d : DState Pr),
  receive_total Pr -> echo_rounds_have_broadcasts Pr -> reachable d ->
  (forall from m, snd (preprocess_message (d_s d) (d_a d) from m) <> Panic) /\
  (forall vm, pm_res (process_message (d_s d) vm) <> Panic) /\
  (forall vm, snd (add_processed (d_s d) (d_a d) (process_message (d_s d) vm)) <> Panic).
Proof. exact @no_panic. Qed.
Print Assumptions C20_no_panic.

(** In an echo round, where the [expect] is. *)
Example C20_case : receive_total (toyPr cfg3) /\ echo_rounds_have_broadcasts (toyPr cfg3) /\
  let d := tfinal cfg3 0 [pre cfg3 1 0; pre cfg3 2 0; CProc 0; CProc 0; CFin] in
  reachable d /\ rid_echo (s_round_id (d_s d)) = true.
Proof.
  split; [apply toy_receive_total|]. split; [apply toy_broadcasts; discriminate|]. split; [apply toy_reachable; toy|toy].
Qed.
