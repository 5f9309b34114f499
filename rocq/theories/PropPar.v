(** The properties of session/tokio.rs: [par_run_session]. *)
From Coq Require Import List NArith Bool.
From Verif Require Import Base BMap Errors RoundId Message Protocol Transcript Evidence Session Spec SpecCrypto Typed SpecTyped Simple
  Network SpecNet IntakeFacts RunSync Driver SpecDriver Par SpecPar ParFacts ParDeadFacts ParNetFacts ParBoundFacts Toy ToyCrypto ToySimple HonestFacts
  ToyNet ToyDriver ToyPar ToyAsync ToyHub.
Import ListNotations.

(** C40 is false: there are runs of a driver that is not cancelled, from the start of a session, to a state in which
    neither the driver nor a task of it can go on, whatever happens outside. (The round sends to 101 parties and expects
    no messages.) *)
Theorem C40_deadlock_refuted : exists (P : Params) (Pr : Proto) r (s0 : Session Pr) ls p,
  initial s0 /\ par_session r s0 ls p /\ ~ In LCancel ls /\ deadlocked r p.
Proof. exact jam_witness. Qed.
Print Assumptions C40_deadlock_refuted.

(** C40: and such a round never ends, under no schedule. No message of it is ever sent, and the driver does not return,
    unless with the error of a message that could not be made. *)
Theorem C40_silent_round_never_ends : forall (P : Params) (Pr : Proto) r (s : Session Pr) ls p,
  100 < length (elements (message_destinations s)) -> can_finalize (make_accumulator s) = Yes ->
  par_run r (PRun (par_enter s [])) ls p ->
  ls = [] /\
  ((exists x, p = PRun x) \/
   (exists e, p = PStop (Err e)) /\
   ~ (forall dest, mem dest (message_destinations s) = true ->
        exists y, make_message s (nr_msg r (s_verifier s) (s_round_id s) dest) dest = Ok y)).
Proof. exact @silent_round_jams. Qed.
Print Assumptions C40_silent_round_never_ends.

Example C40_silent_case : Nat.ltb 100 (length (elements (message_destinations (tsession (announce 101) 0)))) = true /\
  can_finalize (make_accumulator (tsession (announce 101) 0)) = Yes /\
  forallb (fun dest => is_ok (make_message (tsession (announce 101) 0) g0 dest)) (elements (message_destinations (tsession (announce 101) 0))) = true.
Proof. vm_compute. auto. Qed.

(** C40 is also false for a driver with a single destination, if it is cancelled while the results of more than 100
    messages have not been taken from the channel. *)
Theorem C40_cancelled_refuted : exists (P : Params) (Pr : Proto) r (s0 : Session Pr) ls p,
  initial s0 /\ length (elements (message_destinations s0)) = 1 /\ par_session r s0 ls p /\ deadlocked r p.
Proof. exact cancel_jam_witness. Qed.
Print Assumptions C40_cancelled_refuted.

(** C40, what holds: in a round with at most 100 destinations and at most 100 messages received (those returned by the
    previous round included) there is no deadlock, under no schedule. *)
Theorem C40_few_messages_partial : forall (P : Params) (Pr : Proto) r (s : Session Pr) cached ls p,
  par_run r (PRun (par_enter s cached)) ls p -> (forall s', ~ In (LEnter s') ls) ->
  length (elements (message_destinations s)) <= 100 -> length cached + received ls <= 100 -> ~ deadlocked r p.
Proof. exact @few_messages. Qed.
Print Assumptions C40_few_messages_partial.

(** C40, what holds: the driver and its tasks do not go on forever without receiving a message or entering a round. *)
Theorem C40_finite_work : forall (P : Params) (Pr : Proto) r (f : nat -> PState Pr),
  ~ forall i, exists ls act, par_step r (PRun (f i)) act = Some (ls, PRun (f (S i))) /\ forall l, In l ls -> ~ (exists from m, l = LIn from m) /\ ~ (exists s, l = LEnter s).
Proof. exact @finite_work. Qed.
Print Assumptions C40_finite_work.

(** A complete run of party 0 in the protocol without echo broadcasts, the tasks in various orders. *)
Definition round1 : list (paction (P := toyP)) :=
  [@ACreate toyP 1; prx cfg3n 1 0; @ACreate toyP 1; @AHandle toyP 0; @ATakeOut toyP; @APut toyP true; prx cfg3n 2 0; @AHandle toyP 1; @AHandle toyP 1;
   @ATakeProcessed toyP; @AHandle toyP 0; @ATakeProcessed toyP; @AGo toyP; @ACreate toyP 0; @ACreate toyP 0] ++ go 6 ++ [@ATakeOut toyP; @APut toyP true; @AGo toyP].
Definition second_p (from : N) : paction (P := toyP) := match second from with IRecv u m => @AReceive toyP u m | _ => @AGo toyP end.
Definition round2 : list (paction (P := toyP)) :=
  twice (@ACreate toyP) 2 ++ [@ATakeOut toyP; @APut toyP true; @ATakeOut toyP; @APut toyP true; second_p 2; second_p 1] ++ twice (@AHandle toyP) 2 ++
  [@ATakeProcessed toyP; @ATakeProcessed toyP] ++ go 8.
Definition kinds {c} (ls : list (dlabel (toyPr c))) : list nat :=
  map (fun l => match l with LEnter _ => 0 | LOut _ _ => 1 | LIn _ _ => 2 | LApply _ => 3 | LFinalize _ _ => 4 | LGiveUp _ _ => 5 | _ => 6 end) ls.
Example C40_few_case :
  match pplay rN (PRun (par_enter (tsession cfg3n 0) [])) (removelast round1) with
  | Some (ls, PRun _) => (negb (existsb is_enter ls) && Nat.eqb (received ls) 2)%bool
  | _ => false
  end = true.
Proof. vm_compute. auto. Qed.

(** C59: what the driver does consists of rounds; in each of them it sends messages made by the session, at most one to
    each destination, and one to every destination before the round is finalized or given up. *)
Theorem C59_sends_each : forall (P : Params) (Pr : Proto) r (s0 : Session Pr) ls p,
  par_session r s0 ls p ->
  exists rounds : list (Session Pr * list (dlabel Pr)), ls = by_rounds rounds /\ forall s l, In (s, l) rounds -> sends_each s l.
Proof. exact @par_sends_each. Qed.
Print Assumptions C59_sends_each.

(** C59: whatever the tasks do and in whatever order, the session and the accumulator are in a state that proper use of
    the API leads to; the messages with the tasks are ones that the session has asked to process. *)
Theorem C59_proper_use : forall (P : Params) (Pr : Proto) r (s0 : Session Pr) ls x,
  initial s0 -> par_session r s0 ls (PRun x) -> exists todo, reachable (DS (pp_s x) (pp_a x) todo) /\ incl (handed x) todo.
Proof. exact @par_state. Qed.
Print Assumptions C59_proper_use.

(** C59: it finalizes only on [Yes], and only when every destination has been served. *)
Theorem C59_finalizes_on_yes : forall (P : Params) (Pr : Proto) r (s0 : Session Pr) ls p s a,
  initial s0 -> par_session r s0 ls p -> In (LFinalize s a) ls ->
  can_finalize a = Yes /\ (exists todo, reachable (DS s a todo)) /\
  forall u, mem u (message_destinations s) = true -> contains u (a_artifacts a) = true.
Proof. exact @par_finalizes. Qed.
Print Assumptions C59_finalizes_on_yes.

(** C59: it gives up only on [Never] or when cancelled, also then with every destination served, and returns what
    [terminate_due_to_errors] says. *)
Theorem C59_gives_up : forall (P : Params) (Pr : Proto) r (s0 : Session Pr) ls p s a,
  initial s0 -> par_session r s0 ls p -> In (LGiveUp s a) ls ->
  (can_finalize a = Never \/ In LCancel ls) /\ (exists todo, reachable (DS s a todo)) /\
  (forall u, mem u (message_destinations s) = true -> contains u (a_artifacts a) = true) /\ p = PStop (terminate_due_to_errors s a).
Proof. exact @par_gives_up. Qed.
Print Assumptions C59_gives_up.

(** C59: a result in the report is the result of the protocol's last round. *)
Theorem C59_result : forall (P : Params) (Pr : Proto) r (s0 : Session Pr) ls rep x,
  initial s0 -> par_session r s0 ls (PStop (Ok rep)) -> rep_outcome rep = OResult x ->
  exists s a ls0, ls = ls0 ++ [LFinalize s a] /\
    exists g ps arts, finalize Pr (main_state (s_round s)) g ps arts = Ok (Finished_ x).
Proof. exact @par_result. Qed.
Print Assumptions C59_result.

Example C59_case : is_some (tpar cfg3n 0 (round1 ++ round2)) = true /\
  match tparty cfg3n 0 (round1 ++ round2) with PStop (Ok rep) => match rep_outcome rep with OResult _ => true | _ => false end | _ => false end = true /\
  kinds (plabels cfg3n 0 (round1 ++ round2)) = [0; 2; 1; 2; 3; 3; 1; 4; 0; 1; 1; 2; 2; 3; 3; 4].
Proof. vm_compute. auto. Qed.
(** The run of [forgotten] gives up. *)
Example C59_case_cancelled : is_some (tpar cfg3n 0 (found ++ forgotten)) = true /\
  kinds (plabels cfg3n 0 (found ++ forgotten)) = [0; 2; 6; 1; 1; 5].
Proof. vm_compute. auto. Qed.

(** C60 is false for more than 101 parties: there is an honest network of 102 parties, driven by [par_run_session], that does
    not come to an end in any schedule. (One party sends to all others, and expects no message; see C40.) *)
Theorem C60_par_drivers_complete_refuted : exists (P : Params) (Pr : Proto) r sid parties (ep : Verifier -> EntryPoint Pr) (h : Plan Pr) sk pn0,
  signers parties sk /\ wire_total P /\ signatures_correct P /\ honest_run r sid parties ep h /\ length (elements parties) = 102 /\
  honest_pnet r sid parties sk ep = Ok pn0 /\ forall xs pn, nschedule r pn0 xs pn -> ~ all_stopped parties h pn.
Proof. exact (par_never_completes (le_n 102)). Qed.
Print Assumptions C60_par_drivers_complete_refuted.
(** The same for every larger number of parties. *)
Theorem C60_larger_refuted : forall n, 101 < n ->
  exists (P : Params) (Pr : Proto) r sid parties (ep : Verifier -> EntryPoint Pr) (h : Plan Pr) sk pn0,
  signers parties sk /\ wire_total P /\ signatures_correct P /\ honest_run r sid parties ep h /\ length (elements parties) = n /\
  honest_pnet r sid parties sk ep = Ok pn0 /\ forall xs pn, nschedule r pn0 xs pn -> ~ all_stopped parties h pn.
Proof. exact @par_never_completes. Qed.
Print Assumptions C60_larger_refuted.

(** C60 is false in every honest network in which a party has more than 100 destinations in the first round, and those whose
    messages it expects expect messages themselves: there is a schedule after which, whatever happens next, not everybody
    comes to an end. (The others send to that party before it sends anything; it finalizes the round, and waits for the
    tasks that make its messages, which do not all fit into the channel.) *)
Theorem C60_first_round_refuted : forall (P : Params) (Pr : Proto) r sid parties (ep : Verifier -> EntryPoint Pr) (h : Plan Pr) sk v pn0,
  signers parties sk -> wire_total P -> signatures_correct P -> honest_run r sid parties ep h ->
  mem v parties = true -> 100 < length (elements (pl_dest h 0 v)) -> (forall u, mem u (pl_from h 0 v) = true -> is_empty (pl_from h 0 u) = false) ->
  honest_pnet r sid parties sk ep = Ok pn0 ->
  exists xs pn, nschedule r pn0 xs pn /\ forall ys pn', nschedule r pn ys pn' -> ~ all_stopped parties h pn'.
Proof. intros P Pr r sid parties ep h sk v pn0 H1 H2 H3 H4. exact (@first_round_jams P Pr r sid parties ep h sk H1 H2 H3 H4 v pn0). Qed.
Print Assumptions C60_first_round_refuted.

(** C60, what holds for any number of parties: in no schedule is there a wrong report, an error or a panic, and no schedule
    goes on forever. *)
Theorem C60_any_size : forall (P : Params) (Pr : Proto) r sid parties (ep : Verifier -> EntryPoint Pr) (h : Plan Pr) sk,
  signers parties sk -> wire_total P -> signatures_correct P -> honest_run r sid parties ep h ->
  exists pn0, honest_pnet r sid parties sk ep = Ok pn0 /\
    (forall xs pn v o, nschedule r pn0 xs pn -> get v (pn_nodes pn) = Some (PStop o) ->
       exists rep, o = Ok rep /\ rep_outcome rep = OResult (pl_result h v) /\ no_errors (Ended rep)) /\
    (forall f : nat -> PNet Pr, f 0 = pn0 -> ~ forall i, exists x, nact r (f i) x = Some (f (S i))).
Proof. exact @par_any_size. Qed.
Print Assumptions C60_any_size.

(** C60, what holds: the number of parties does not matter, as long as nobody has more than 100 destinations. *)
Theorem C60_few_destinations_partial : forall (P : Params) (Pr : Proto) r sid parties (ep : Verifier -> EntryPoint Pr) (h : Plan Pr) sk,
  signers parties sk -> wire_total P -> signatures_correct P -> honest_run r sid parties ep h -> few_destinations parties h ->
  exists pn0, honest_pnet r sid parties sk ep = Ok pn0 /\
    (forall xs pn, nschedule r pn0 xs pn -> (forall x, nact r pn x = None) -> all_stopped parties h pn /\ pn_flight pn = []) /\
    (forall f : nat -> PNet Pr, f 0 = pn0 -> ~ forall i, exists x, nact r (f i) x = Some (f (S i))).
Proof. exact @par_few_destinations. Qed.
Print Assumptions C60_few_destinations_partial.

(** Everybody sends a message to party 0; for any number of parties. *)
Example C60_few_destinations_case : forall n, 0 < n ->
  honest_run rN sid0 (group n) (fun _ => collect_entry n) (collect_plan n) /\ few_destinations (group n) (collect_plan n) /\ length (elements (group n)) = n.
Proof. intros n Hn. split; [exact (collect_honest Hn)|]. split; [apply collect_few|apply group_size]. Qed.

(** C60, exactly: if everybody sends to everybody else, then the end can be reached from every state of the network if and
    only if there are at most 101 parties. *)
Theorem C60_exactly_101 : forall (P : Params) (Pr : Proto) r sid parties (ep : Verifier -> EntryPoint Pr) (h : Plan Pr) sk pn0,
  signers parties sk -> wire_total P -> signatures_correct P -> honest_run r sid parties ep h -> all_to_all parties h ->
  honest_pnet r sid parties sk ep = Ok pn0 ->
  (length (elements parties) <= 101 <->
   forall xs pn, nschedule r pn0 xs pn -> exists ys pn', nschedule r pn ys pn' /\ all_stopped parties h pn').
Proof. intros P Pr r sid parties ep h sk pn0 H1 H2 H3 H4. exact (@exactly_101 P Pr r sid parties ep h sk H1 H2 H3 H4 pn0). Qed.
Print Assumptions C60_exactly_101.

(** Everybody says hello to everybody else, twice; for any number of parties. *)
Example C60_exactly_case : forall n, honest_run rN sid0 (group n) (fun _ => hello_entry n) (hello_plan n) /\ all_to_all (group n) (hello_plan n) /\
  length (elements (group n)) = n.
Proof. intros n. split; [apply hello_honest|]. split; [|apply group_size]. intros k v _ _. split; reflexivity. Qed.
Example C60_first_round_case : length (elements (pl_dest (hello_plan 102) 0 (5%N : @Verifier toyP))) = 101 /\
  forallb (fun u => negb (is_empty (pl_from (hello_plan 102) 0 u))) (elements (pl_from (hello_plan 102) 0 (5%N : @Verifier toyP))) = true.
Proof. vm_compute. auto. Qed.

(** C60: if every party of an honest network of at most 101 parties is driven by [par_run_session], then in every schedule
    of drivers, tasks and deliveries all of them return, with the expected results and no errors, after finitely many
    steps; no message is left behind. *)
Theorem C60_par_drivers_complete_partial : forall (P : Params) (Pr : Proto) r sid parties (ep : Verifier -> EntryPoint Pr) (h : Plan Pr) sk,
  signers parties sk -> wire_total P -> signatures_correct P -> honest_run r sid parties ep h -> length (elements parties) <= 101 ->
  exists pn0, honest_pnet r sid parties sk ep = Ok pn0 /\
    (forall xs pn, nschedule r pn0 xs pn ->
       (forall v p, get v (pn_nodes pn) = Some p ->
          match p with PStop o => exists rep, o = Ok rep /\ rep_outcome rep = OResult (pl_result h v) | _ => True end) /\
       ((forall x, nact r pn x = None) -> all_stopped parties h pn /\ pn_flight pn = [])) /\
    (forall f : nat -> PNet Pr, f 0 = pn0 -> ~ forall i, exists x, nact r (f i) x = Some (f (S i))).
Proof. intros P Pr r sid parties ep h sk H1 H2 H3 H4 H5. exact (@honest_par_drivers P Pr r sid parties ep h sk H1 H2 H3 H4 H5). Qed.
Print Assumptions C60_par_drivers_complete_partial.

(** The example protocol with 3 parties. *)
Notation simple_pnet n := (@honest_pnet toyP (wrap (@simple toyP toyW)) rN sid0 (group n) key (fun _ => @simple_entry toyP toyW (group n))).
Definition presults {Pr : Proto (P := toyP)} (num : Rslt Pr -> N) (o : res LocalError (PNet Pr)) : list N :=
  match o with
  | Ok pn => flat_map (fun kv => match snd kv with PStop (Ok rep) => match rep_outcome rep with OResult x => [num x] | _ => [] end | _ => [] end)
      (to_list (pn_nodes (nauto rN 3 400 pn)))
  | _ => []
  end.
Example C60_case : presults (Pr := wrap (@simple toyP toyW)) (fun x => x) (simple_pnet 3) = [6; 6; 6]%N.
Proof. vm_compute. reflexivity. Qed.
Example C60_case_honest : honest_run rN sid0 (group 3) (fun _ => @simple_entry toyP toyW (group 3)) (@simple_plan toyP toyW (group 3)).
Proof. apply simple_honest; [exact toy_simple_wire|vm_compute; discriminate|vm_compute; repeat constructor]. Qed.

(** C61 is false: the driver may have found the proof of a party's misbehaviour, and then return a report that does not
    mention the party. (The driver is cancelled; the result of processing is still in the channel, which is dropped.) *)
Theorem C61_found_errors_reported_refuted : exists (P : Params) (Pr : Proto) r (s0 : Session Pr) l1 x pm e l2 rep,
  initial s0 /\ par_session r s0 l1 (PRun x) /\ In pm (pp_proc x) /\ pm_res pm = Err (RProtocol e) /\
  par_run r (PRun x) l2 (PStop (Ok rep)) /\
  get (vm_from (pm_msg pm)) (rep_provable rep) = None /\ get (vm_from (pm_msg pm)) (rep_unprovable rep) = None.
Proof. exact forgotten_witness. Qed.
Print Assumptions C61_found_errors_reported_refuted.

(** C61, what holds: everything that has been taken from the channel and recorded is in the report. *)
Theorem C61_recorded_errors_reported_partial : forall (P : Params) (Pr : Proto) r (s0 : Session Pr) l1 x l2 rep,
  initial s0 -> par_session r s0 l1 (PRun x) -> par_run r (PRun x) l2 (PStop (Ok rep)) ->
  (forall v e, has_evidence (DS (pp_s x) (pp_a x) []) v e -> get v (rep_provable rep) = Some e) /\
  (forall v, has_unprovable (DS (pp_s x) (pp_a x) []) v -> exists e, get v (rep_unprovable rep) = Some e).
Proof. exact @par_reports. Qed.
Print Assumptions C61_recorded_errors_reported_partial.

(** The same run, but the result is taken from the channel before the driver is cancelled. *)
Example C61_case : is_some (tpar cfg3n 0 (found ++ [@ATakeProcessed toyP] ++ forgotten)) = true /\
  match tparty cfg3n 0 (found ++ [@ATakeProcessed toyP]) with PRun x => contains (1%N : @Verifier toyP) (a_provable (pp_a x)) | _ => false end = true /\
  match tparty cfg3n 0 (found ++ [@ATakeProcessed toyP] ++ forgotten) with PStop (Ok rep) => contains (1%N : @Verifier toyP) (rep_provable rep) | _ => false end = true.
Proof. vm_compute. auto. Qed.
