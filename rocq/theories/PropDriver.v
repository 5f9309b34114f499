(** The properties of session/tokio.rs: [run_session]. *)
From Coq Require Import List NArith Bool.
From Verif Require Import Base BMap Errors RoundId Message Protocol Transcript Evidence Session Spec SpecCrypto Typed SpecTyped Simple
  Network SpecNet IntakeFacts Exec RunSync Driver SpecDriver DriverFacts DriverNetFacts Toy ToyCrypto ToySimple HonestFacts ToyNet ToyDriver.
Import ListNotations.

(** C38: whatever is received and whenever the driver is cancelled, what it does consists of rounds, and in each of them
    it first sends one message to each destination. *)
Theorem C38_sends_first : forall (P : Params) (Pr : Proto) r (s0 : Session Pr) ls d,
  run_session r s0 ls d ->
  exists rounds : list (Session Pr * list (dlabel Pr)), ls = by_rounds rounds /\ forall s l, In (s, l) rounds -> sends_first s l.
Proof. exact @session_sends_first. Qed.
Print Assumptions C38_sends_first.

(** C38: it finalizes only on [Yes], and only when every destination has been served. *)
Theorem C38_finalizes_on_yes : forall (P : Params) (Pr : Proto) r (s0 : Session Pr) ls d s a,
  initial s0 -> run_session r s0 ls d -> In (LFinalize s a) ls ->
  can_finalize a = Yes /\ reachable (DS s a []) /\ forall u, mem u (message_destinations s) = true -> contains u (a_artifacts a) = true.
Proof. exact @session_finalizes. Qed.
Print Assumptions C38_finalizes_on_yes.

(** C38: it gives up only on [Never] or when cancelled, and then returns what [terminate_due_to_errors] says. *)
Theorem C38_gives_up : forall (P : Params) (Pr : Proto) r (s0 : Session Pr) ls d s a,
  initial s0 -> run_session r s0 ls d -> In (LGiveUp s a) ls ->
  (can_finalize a = Never \/ In LCancel ls) /\ reachable (DS s a []) /\ d = DrvDone (terminate_due_to_errors s a).
Proof. exact @session_gives_up. Qed.
Print Assumptions C38_gives_up.

(** C38: a result in the report is the result of the protocol's last round. *)
Theorem C38_result : forall (P : Params) (Pr : Proto) r (s0 : Session Pr) ls rep x,
  initial s0 -> run_session r s0 ls (DrvDone (Ok rep)) -> rep_outcome rep = OResult x ->
  exists s a ls0, ls = ls0 ++ [LFinalize s a] /\
    exists g ps arts, finalize Pr (main_state (s_round s)) g ps arts = Ok (Finished_ x).
Proof. exact @session_result. Qed.
Print Assumptions C38_result.

(** C38: a report, also that of a cancelled session, contains everything that was recorded on the way. *)
Theorem C38_report_has_all_errors : forall (P : Params) (Pr : Proto) r (s0 : Session Pr) l1 d1 x l2 rep,
  initial s0 -> run_session r s0 l1 d1 -> drv_state d1 = Some x -> drv_run r d1 l2 (DrvDone (Ok rep)) ->
  (forall v e, has_evidence x v e -> get v (rep_provable rep) = Some e) /\
  (forall v, has_unprovable x v -> exists e, get v (rep_unprovable rep) = Some e).
Proof. exact @session_reports. Qed.
Print Assumptions C38_report_has_all_errors.

(** A complete run of party 0 in the protocol without echo broadcasts: two rounds, two messages in each. *)
Example C38_case : is_some (tdrive cfg3n 0 good_inputs) = true /\
  match tdriver cfg3n 0 good_inputs with DrvDone (Ok rep) => match rep_outcome rep with OResult _ => true | _ => false end | _ => false end = true /\
  map (fun l => match l with LEnter _ => 0 | LOut _ _ => 1 | LIn _ _ => 2 | LFinalize _ _ => 3 | _ => 4 end) (tlabels cfg3n 0 good_inputs) =
    [0; 1; 1; 2; 2; 3; 0; 1; 1; 2; 2; 3].
Proof. vm_compute. auto. Qed.
(** The run that is cancelled before the second message of round 1, after an error of party 1 (its message was sent
    twice). *)
Example C38_case_cancelled : is_some (tdrive cfg3n 0 [@IGo toyP; @IGo toyP; rx cfg3n 1 0; rx cfg3n 1 0; @ICancel toyP]) = true /\
  match tdriver cfg3n 0 [@IGo toyP; @IGo toyP; rx cfg3n 1 0; rx cfg3n 1 0; @ICancel toyP] with
  | DrvDone (Ok rep) => contains (1%N : @Verifier toyP) (rep_unprovable rep) | _ => false end = true.
Proof. vm_compute. auto. Qed.

(** C38, cancellation: false. There are runs after which a cancellation makes [run_session] return an error, and no
    report, although errors have been recorded. (A party that is banned already is blamed a second time when its cached
    echo-round message is processed; see C19 and C55.) *)
Theorem C38_cancelled_refuted : exists (P : Params) (Pr : Proto) r (s0 : Session Pr) ls s a v e,
  initial s0 /\ run_session r s0 ls (DrvWait s a) /\ has_unprovable (DS s a []) v /\
  drv_step r (DrvWait s a) ICancel = Some ([LCancel; LGiveUp s a], DrvDone (Err e)).
Proof. exact bad_echo_cancelled. Qed.
Print Assumptions C38_cancelled_refuted.

(** C38, what holds: a session that is cancelled outside an echo round, and outside a round whose id was used before by a
    round with an echo broadcast, returns a report. *)
Theorem C38_cancelled_partial : forall (P : Params) (Pr : Proto) r (s0 : Session Pr) ls s a,
  initial s0 -> run_session r s0 ls (DrvWait s a) -> can_finalize a = NotYet ->
  ~ in_echo_round s -> contains (s_round_id s) (tr_echo (s_tr s)) = false ->
  exists rep, drv_step r (DrvWait s a) ICancel = Some ([LCancel; LGiveUp s a], DrvDone (Ok rep)).
Proof. exact @cancel_reports. Qed.
Print Assumptions C38_cancelled_partial.

Example C38_cancelled_case : is_some (tdrive cfg3 0 [@IGo toyP; @IGo toyP; rx cfg3 1 0; rx cfg3 1 0]) = true /\
  waiting (tdriver cfg3 0 [@IGo toyP; @IGo toyP; rx cfg3 1 0; rx cfg3 1 0]) = true /\
  match tdriver cfg3 0 [@IGo toyP; @IGo toyP; rx cfg3 1 0; rx cfg3 1 0] with
  | DrvWait s a => match s_round s with RMain _ => negb (contains (s_round_id s) (tr_echo (s_tr s))) | _ => false end | _ => false end = true.
Proof. vm_compute. auto. Qed.

(** C58: if every party of an honest network is driven by [run_session], then in every schedule all of them return, with
    the expected results and no errors, after finitely many steps; no message is left behind. *)
Theorem C58_drivers_complete : forall (P : Params) (Pr : Proto) r sid parties (ep : Verifier -> EntryPoint Pr) (h : Plan Pr) sk,
  signers parties sk -> wire_total P -> signatures_correct P -> honest_run r sid parties ep h ->
  exists dn0, honest_dnet r sid parties sk ep = Ok dn0 /\
    (forall xs dn, dschedule r dn0 xs dn ->
       (forall v d, get v (dn_nodes dn) = Some d ->
          match d with DrvDone o => exists rep, o = Ok rep /\ rep_outcome rep = OResult (pl_result h v) | _ => True end) /\
       ((forall x, dact r dn x = None) -> all_returned parties h dn /\ dn_flight dn = [])) /\
    (forall f : nat -> DNet Pr, f 0 = dn0 -> ~ forall i, exists x, dact r (f i) x = Some (f (S i))).
Proof. intros P Pr r sid parties ep h sk H1 H2 H3 H4. exact (@honest_drivers P Pr r sid parties ep h sk H1 H2 H3 H4). Qed.
Print Assumptions C58_drivers_complete.

(** The example protocol with 3 parties. *)
Notation simple_dnet n := (@honest_dnet toyP (wrap (@simple toyP toyW)) rN sid0 (group n) key (fun _ => @simple_entry toyP toyW (group n))).
Definition dresults {Pr : Proto (P := toyP)} (num : Rslt Pr -> N) (o : res LocalError (DNet Pr)) : list N :=
  match o with
  | Ok dn => flat_map (fun kv => match snd kv with DrvDone (Ok rep) => match rep_outcome rep with OResult x => [num x] | _ => [] end | _ => [] end)
      (to_list (dn_nodes (dauto rN 200 dn)))
  | _ => []
  end.
Example C58_case : dresults (Pr := wrap (@simple toyP toyW)) (fun x => x) (simple_dnet 3) = [6; 6; 6]%N.
Proof. vm_compute. reflexivity. Qed.
Example C58_case_honest : honest_run rN sid0 (group 3) (fun _ => @simple_entry toyP toyW (group 3)) (@simple_plan toyP toyW (group 3)).
Proof. apply simple_honest; [exact toy_simple_wire|vm_compute; discriminate|vm_compute; repeat constructor]. Qed.
