(** Properties C42, C48 and C49: networks of honest nodes. *)
From Coq Require Import List NArith Bool Arith.
From Verif Require Import Base BMap Errors RoundId Message Protocol Transcript Evidence Session Typed Simple Dining Spec SpecCrypto
  Network SpecNet Toy ToyCrypto ToySimple NetFacts HonestFacts ToyNet.
Import ListNotations.
Set Implicit Arguments.

(** C42. [honest_run] describes a successful execution of the protocol in lock step, without sessions and network. The
    sessions can then be created, and whatever the schedule of sending, delivery, processing and finalization: no node
    ever records an error or gets into a state in which it can never finalize, and no call of the library fails. *)
Theorem C42_no_error : forall (P : Params) (Pr : Proto) r sid parties (ep : Verifier -> EntryPoint Pr) (h : Plan Pr) sk,
  signers parties sk -> wire_total P -> signatures_correct P -> honest_run r sid parties ep h ->
  exists net0, honest_net r sid parties sk ep = Ok net0 /\
    forall xs net, schedule r net0 xs net -> fine parties net /\
      forall x res, act r net x = Some res -> exists net', res = Ok net'.
Proof. exact @honest_fine. Qed.
Print Assumptions C42_no_error.

(** Nobody is stuck: as long as somebody has no result or a message is in flight, something can happen. *)
Theorem C42_progress : forall (P : Params) (Pr : Proto) r sid parties (ep : Verifier -> EntryPoint Pr) (h : Plan Pr) sk,
  signers parties sk -> wire_total P -> signatures_correct P -> honest_run r sid parties ep h ->
  forall net0, honest_net r sid parties sk ep = Ok net0 ->
  forall xs net, schedule r net0 xs net ->
    (all_ended parties h net /\ flight net = []) \/ exists x net', act r net x = Some (Ok net').
Proof. exact @honest_progress. Qed.
Print Assumptions C42_progress.

(** No schedule goes on forever; together with the previous theorem: every schedule that is not cut short ends with a
    result for everybody. *)
Theorem C42_terminates : forall (P : Params) (Pr : Proto) r sid parties (ep : Verifier -> EntryPoint Pr) (h : Plan Pr) sk,
  signers parties sk -> wire_total P -> signatures_correct P -> honest_run r sid parties ep h ->
  forall net0, honest_net r sid parties sk ep = Ok net0 ->
  forall f : nat -> Net Pr, f 0 = net0 -> ~ forall i, exists x, act r (f i) x = Some (Ok (f (S i))).
Proof. exact @honest_finite. Qed.
Print Assumptions C42_terminates.

(** From every state that can be reached, a state where everybody has the result of the plan can be reached. *)
Theorem C42_completes : forall (P : Params) (Pr : Proto) r sid parties (ep : Verifier -> EntryPoint Pr) (h : Plan Pr) sk,
  signers parties sk -> wire_total P -> signatures_correct P -> honest_run r sid parties ep h ->
  forall net0, honest_net r sid parties sk ep = Ok net0 ->
  forall xs net, schedule r net0 xs net ->
  exists ys net', schedule r net ys net' /\ all_ended parties h net' /\ flight net' = [].
Proof. exact @honest_completes. Qed.
Print Assumptions C42_completes.

(** A node that has ended has the result of the plan. *)
Theorem C42_results : forall (P : Params) (Pr : Proto) r sid parties (ep : Verifier -> EntryPoint Pr) (h : Plan Pr) sk,
  signers parties sk -> wire_total P -> signatures_correct P -> honest_run r sid parties ep h ->
  forall net0, honest_net r sid parties sk ep = Ok net0 ->
  forall xs net v rep, schedule r net0 xs net -> get v (nodes net) = Some (Ended rep) ->
    mem v parties = true /\ rep_outcome rep = OResult (pl_result h v).
Proof. exact @honest_results. Qed.
Print Assumptions C42_results.

(** The conditions of [honest_run] on who sends and echoes to whom hold in particular if every round is all-to-all and
    everybody takes part in the echo rounds. *)
Theorem C42_all_to_all : forall (P : Params) (Pr : Proto) parties (h : Plan Pr), all_to_all parties h -> full_echo parties h ->
  (forall n v u, n <= pl_last h -> mem v parties = true -> mem u (pl_dest h n v) = true -> mem u parties = true /\ u <> v) /\
  (forall n v u, n <= pl_last h -> mem v parties = true -> mem u (pl_from h n v) = true -> mem u parties = true /\ u <> v) /\
  (forall n u v, n <= pl_last h -> mem u parties = true -> mem v parties = true -> mem v (pl_dest h n u) = mem u (pl_from h n v)) /\
  (forall n v u, n <= pl_last h -> mem v parties = true -> echoes h n v = true -> mem u (partners h n v) = true ->
     mem u parties = true /\ u <> v /\ echoes h n u = true /\ mem v (partners h n u) = true) /\
  (forall n v u w, n <= pl_last h -> mem v parties = true -> echoes h n v = true -> mem u (partners h n v) = true ->
     mem w (srem u (echoed h n v)) = (mem w (pl_from h n u) && negb (is_none (pl_echo h n w)))%bool) /\
  in_step parties h.
Proof. exact @all_to_all_shape. Qed.
Print Assumptions C42_all_to_all.

(** The example protocol of simple.rs with three parties meets the hypotheses: two all-to-all rounds, the first one with an
    echo round. One of its schedules. *)
Example C42_case : exists h : Plan (wrap (@simple toyP toyW)),
  signers (group 3) key /\ wire_total toyP /\ signatures_correct toyP /\
  honest_run rN sid0 (group 3) (fun _ => @simple_entry toyP toyW (group 3)) h /\ all_to_all (group 3) h /\
  pl_last h = 1 /\ (forall v, echoes h 0 v = true) /\
  outcomes (net_of (play (started (simple_net 3)) (exchange 3 ++ finish 3 ++ exchange 3 ++ finish 3 ++ exchange 3 ++ finish 3)))
    = [Some 6; Some 6; Some 6]%N.
Proof.
  exists (@simple_plan toyP toyW (group 3)). split; [exact (@toy_signers 3)|]. split; [exact toy_wire|]. split; [exact toy_signatures|].
  split; [apply simple_honest; [exact toy_simple_wire|vm_compute; discriminate|vm_compute; repeat constructor]|].
  split; [intros n v _ _; split; reflexivity|]. split; [reflexivity|]. split; [intros v; vm_compute; reflexivity|]. vm_cast_no_check (eq_refl [Some 6; Some 6; Some 6]%N).
Qed.

(** C48. Three diners; [toss v] and [paid v] are the toss and the payment of diner [v], however the entry points chose
    them; at most one diner paid. Whatever the schedule, nothing goes wrong, nobody is stuck, everything ends, and every
    diner who has a result finds that somebody paid exactly if one of the three did (main, 387-391). *)
Theorem C48_dining : forall (P : Params) (diner : N -> Verifier) (num : Verifier -> N),
  (forall i, (i < 3)%N -> num (diner i) = i) ->
  forall (toss_codec reveal_codec : Codec bool) no_error, codec_ok toss_codec -> codec_ok reveal_codec ->
  let T := dining diner num toss_codec reveal_codec no_error in
  forall r sid (toss paid : Verifier -> bool) (ep : Verifier -> EntryPoint (wrap T)),
  let diners := set_of_list (map diner [0; 1; 2]%N) in
  (forall v, mem v diners = true ->
     ep_make (ep v) (rsub 0 (nr_new r v)) sid v = Ok (box T DR1 (mkDining1 v (toss v) (paid v)) : St (wrap T))) ->
  wire_total P -> signatures_correct P -> forall sk, signers diners sk ->
  (forall i j, (i < 3)%N -> (j < 3)%N -> paid (diner i) = true -> paid (diner j) = true -> i = j) ->
  exists net0, honest_net r sid diners sk ep = Ok net0 /\
    (forall xs net, schedule r net0 xs net ->
       fine diners net /\
       (forall x res, act r net x = Some res -> exists net', res = Ok net') /\
       (forall v rep, get v (nodes net) = Some (Ended rep) -> exists b0 b1 b2, rep_outcome rep = OResult (b0, b1, b2) /\
          (xorb (xorb b0 b1) b2 = true <-> exists i, (i < 3)%N /\ paid (diner i) = true)) /\
       ((forall v, mem v diners = true -> exists rep, get v (nodes net) = Some (Ended rep)) \/ exists x net', act r net x = Some (Ok net'))) /\
    (forall f : nat -> Net (wrap T), f 0 = net0 -> ~ forall i, exists x, act r (f i) x = Some (Ok (f (S i)))).
Proof. exact @dining_runs. Qed.
Print Assumptions C48_dining.

(** The entry point of the example meets the hypotheses: toss and payment are drawn from the randomness it is given, and
    only diner 0 can have paid. *)
Theorem C48_entry_point : forall (P : Params) diner num toss_codec reveal_codec no_error r sid,
  (forall i, (i < 3)%N -> num (diner i) = i) ->
  let T := dining diner num toss_codec reveal_codec no_error in
  let paid := fun v => (N.eqb (num v) 0 && even (rsub 0 (nr_new r v) [0%nat]))%bool in
  (forall v, exists toss, ep_make (dining_entry diner num toss_codec reveal_codec no_error) (rsub 0 (nr_new r v)) sid v =
     Ok (box T DR1 (mkDining1 v toss (paid v)) : St (wrap T))) /\
  (forall i j, (i < 3)%N -> (j < 3)%N -> paid (diner i) = true -> paid (diner j) = true -> i = j) /\
  ((exists i, (i < 3)%N /\ paid (diner i) = true) <-> even (rsub 0 (nr_new r (diner 0%N)) [0]) = true).
Proof. exact @dining_entry_ok. Qed.
Print Assumptions C48_entry_point.

(** Three diners; with this randomness diner 0 paid. *)
Example C48_case :
  (forall i, (i < 3)%N -> (fun v : N => v) ((fun n : N => n) i) = i) /\ codec_ok bool_codec /\
  (forall v : @Verifier toyP, ep_make dinEP (rsub 0 (nr_new rN v)) sid0 v =
     Ok (box dinT DR1 (mkDining1 (v : @Verifier toyP) true (N.eqb v 0)) : St (wrap dinT))) /\
  outcomes (net_of (play (started dining_net)
    (dine 1 ++ finish 3 ++ exchange 3 ++ finish 3))) = [Some (false, false, true); Some (true, false, false); Some (true, false, false)].
Proof.
  split; [reflexivity|]. split; [exact bool_codec_ok|]. split; [intros v; cbn; destruct (N.eqb v 0); reflexivity|].
  vm_cast_no_check (eq_refl [Some (false, false, true); Some (true, false, false); Some (true, false, false)]).
Qed.

(** C49 is false: with 17 parties the sum of the positions of both rounds is 272, which does not fit into a [u8]. *)
Theorem C49_no_overflow_refuted : exists (P : Params) W r sid parties sk net0 xs net v,
  (codec_ok (sw_message1 W) /\ codec_ok (sw_echo1 W) /\ codec_ok (sw_broadcast1 W) /\ codec_ok (sw_message2 W)) /\
  wire_total P /\ signatures_correct P /\ signers parties sk /\ length (elements parties) = 17 /\
  honest_net r sid parties sk (fun _ => simple_entry W parties) = Ok net0 /\
  schedule r net0 xs net /\ act r net (AFinalize v) = Some Panic.
Proof. exact crowd_overflows. Qed.
Print Assumptions C49_no_overflow_refuted.

(** It holds for up to 16 parties. Missing for the full property: the others, for which it is false. The sum of the
    positions 0..n-1 is n(n-1)/2, and the result is that of round 1 plus that of round 2. *)
Theorem C49_sum_partial : forall (P : Params) W,
  codec_ok (sw_message1 W) /\ codec_ok (sw_echo1 W) /\ codec_ok (sw_broadcast1 W) /\ codec_ok (sw_message2 W) ->
  forall r sid parties, wire_total P -> signatures_correct P -> forall sk, signers parties sk ->
  let n := length (elements parties) in n <= 16 ->
  exists net0, honest_net r sid parties sk (fun _ => simple_entry W parties) = Ok net0 /\
    (forall xs net, schedule r net0 xs net ->
       fine parties net /\
       (forall x res, act r net x = Some res -> exists net', res = Ok net') /\
       (forall v rep, get v (nodes net) = Some (Ended rep) -> rep_outcome rep = OResult (N.of_nat n * (N.of_nat n - 1))%N) /\
       ((forall v, mem v parties = true -> exists rep, get v (nodes net) = Some (Ended rep)) \/ exists x net', act r net x = Some (Ok net'))) /\
    (forall f : nat -> Net (wrap (simple W)), f 0 = net0 -> ~ forall i, exists x, act r (f i) x = Some (Ok (f (S i)))).
Proof. exact @simple_runs. Qed.
Print Assumptions C49_sum_partial.

(** The bound is exact: for 17 to 256 parties no party can finish. [pos u] is the position of [u]; in round 2 with the sum
    of round 1, and already in round 1 from 24 parties on. *)
Theorem C49_bound_is_exact : forall (P : Params) W parties v g (ps : bmap Verifier N) (arts : bmap Verifier unit),
  let ids := elements parties in
  let c := mkCtx v (srem v parties) (enum_positions ids) in
  let sum1 := nsum (map (pos parties) ids) in
  length ids <= 256 -> mem v parties = true -> is_map ps (srem v parties) (pos parties) ->
  (2 * sum1 + N.of_nat (length ids) = N.of_nat (length ids) * N.of_nat (length ids))%N /\
  (17 <= length ids -> (sum1 <= u8_max)%N -> t_finalize (simple W) SR2 (mkSimple2 sum1 c) g ps arts = Panic) /\
  (24 <= length ids -> t_finalize (simple W) SR1 c g ps arts = Panic).
Proof. exact @simple_bound. Qed.
Print Assumptions C49_bound_is_exact.

Example C49_case : length (elements (group 16)) = 16 /\
  outcomes (net_of (play (started (simple_net 16)) (exchange 16 ++ finish 16 ++ exchange 16 ++ finish 16 ++ exchange 16 ++ finish 16)))
    = repeat (Some 240%N) 16.
Proof. split; [vm_compute; reflexivity|]. vm_cast_no_check (eq_refl (repeat (Some 240%N) 16)). Qed.
