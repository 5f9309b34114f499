(** The example dining_cryptographers.rs as it is run, and what it keeps secret. *)
From Coq Require Import List Arith NArith Bool.
From Verif Require Import Base BMap Errors RoundId Message Protocol Transcript Evidence Session Spec Typed Network RunSync Simple Dining
  SpecCrypto SpecTyped SpecNet TestParams ToyCodec DiningFacts ToyDining.
Import ListNotations.

(** C91. [main] (dining_cryptographers.rs:360-397): whatever is drawn and whatever messages are picked, [run_sync] terminates
    without error or panic, [results] returns the results of the three diners, and each of them concludes that one of the
    diners paid exactly if diner 0 drew that it paid; the session parameters are the ones of the example. *)
Theorem C91_main : forall r sid picks,
  exists fuel0 reports results, (forall fuel, fuel0 <= fuel ->
      run_sync (P := testP) fuel r picks sid (map (fun v => (v, test_diner)) [0; 1; 2]%N) = Some (Ok reports)) /\
    exec_results reports = Some results /\
    forall v, if N.ltb v 3
      then exists b0 b1 b2, get v results = Some (b0, b1, b2) /\ xorb (xorb b0 b1) b2 = even (rsub 0 (nr_new r 0%N) [0])
      else get v results = None.
Proof. exact test_main. Qed.
Print Assumptions C91_main.

(** The same for any session parameters. *)
Theorem C91_any_parameters : forall (P : Params) (diner : N -> Verifier) (num : Verifier -> N),
  (forall i, (i < 3)%N -> num (diner i) = i) ->
  forall (toss_codec reveal_codec : Codec bool) no_error, codec_ok toss_codec -> codec_ok reveal_codec ->
  wire_total P -> signatures_correct P ->
  let diners := set_of_list (map diner [0; 1; 2]%N) in
  forall sk, signers diners sk -> forall r sid picks,
  exists fuel0 reports results, (forall fuel, fuel0 <= fuel ->
      run_sync fuel r picks sid (map (fun v => (sk v, dining_entry diner num toss_codec reveal_codec no_error)) (elements diners)) = Some (Ok reports)) /\
    exec_results reports = Some results /\
    forall v, if mem v diners
      then exists b0 b1 b2, get v results = Some (b0, b1, b2) /\ xorb (xorb b0 b1) b2 = even (rsub 0 (nr_new r (diner 0%N)) [0])
      else get v results = None.
Proof. exact @dining_main. Qed.
Print Assumptions C91_any_parameters.

(** With the first of these draws diner 0 has paid, with the second one nobody has. *)
Example C91_case : even (rsub 0 (nr_new (draws 0) 0%N) [0]) = true /\
  dinner (draws 0) (fun k => k) (fun _ => test_diner) = [(true, true, true); (true, true, true); (true, true, true)] /\
  even (rsub 0 (nr_new (draws 1) 0%N) [0]) = false /\
  dinner (draws 1) (fun k => k) (fun _ => test_diner) = [(true, true, false); (false, true, true); (false, true, true)].
Proof. exact main_case. Qed.

(** C92. Diner [v] has not paid, its neighbours are [left], whose toss it gets to see, and [right]. Whatever the tosses are,
    flipping the one that [v] does not see and letting [right] pay instead of [left] changes nothing that [v] sees: any two
    messages for [v] of the same sender and round, in any two executions, have the same contents, and the outcome of [v] is
    the same. Since flipping a toss twice changes nothing, the number of tosses that explain what [v] sees is the same for both
    payers. *)
Theorem C92_anonymity : forall (P : Params) (diner : N -> Verifier) (num : Verifier -> N),
  (forall i, (i < 3)%N -> num (diner i) = i) ->
  forall (toss_codec reveal_codec : Codec bool) no_error, codec_ok toss_codec -> codec_ok reveal_codec ->
  let T := dining diner num toss_codec reveal_codec no_error in
  let diners := set_of_list (map diner [0; 1; 2]%N) in
  wire_total P -> signatures_correct P -> forall sk, signers diners sk ->
  forall v, mem v diners = true -> forall toss : Verifier -> bool,
  let left := diner ((num v + 2) mod 3)%N in
  let right := diner ((num v + 1) mod 3)%N in
  let toss' := fun u => if eqb u right then negb (toss u) else toss u in
  forall r r' sid (ep ep' : Verifier -> EntryPoint (wrap T)),
  (forall u, mem u diners = true ->
     ep_make (ep u) (rsub 0 (nr_new r u)) sid u = Ok (box T DR1 (mkDining1 u (toss u) (eqb u left)) : St (wrap T))) ->
  (forall u, mem u diners = true ->
     ep_make (ep' u) (rsub 0 (nr_new r' u)) sid u = Ok (box T DR1 (mkDining1 u (toss' u) (eqb u right)) : St (wrap T))) ->
  forall net0 net0' xs xs' net net',
  honest_net r sid diners sk ep = Ok net0 -> honest_net r' sid diners sk ep' = Ok net0' ->
  schedule r net0 xs net -> schedule r' net0' xs' net' ->
  (forall u m m', In (u, m) (flight net) -> In (u, m') (flight net') -> msg_dest m = v -> msg_dest m' = v ->
     sp_meta (msg_direct m) = sp_meta (msg_direct m') ->
     sp_body (msg_echo m) = sp_body (msg_echo m') /\ sp_body (msg_normal m) = sp_body (msg_normal m') /\
     sp_body (msg_direct m) = sp_body (msg_direct m')) /\
  (forall rep rep', get v (nodes net) = Some (Ended rep) -> get v (nodes net') = Some (Ended rep') -> rep_outcome rep = rep_outcome rep').
Proof. exact @anonymous. Qed.
Print Assumptions C92_anonymity.

(** Diner 0 does not learn whether diner 2 paid, or diner 1; both executions end. *)
Example C92_case :
  (forall v, ep_make (given toss0 (fun u => N.eqb u 2) v) (rsub 0 (nr_new (draws 1) v)) [1; 2]%N v =
     Ok (box test_dining DR1 (@mkDining1 testP v (toss0 v) (N.eqb v 2)) : St (wrap test_dining))) /\
  (forall v, ep_make (given (fun u => if N.eqb u 1 then negb (toss0 u) else toss0 u) (fun u => N.eqb u 1) v) (rsub 0 (nr_new (draws 0) v)) [1; 2]%N v =
     Ok (box test_dining DR1 (@mkDining1 testP v (if N.eqb v 1 then negb (toss0 v) else toss0 v) (N.eqb v 1)) : St (wrap test_dining))) /\
  dinner (draws 1) (fun k => k) (given toss0 (fun u => N.eqb u 2)) = [(true, false, false); (false, false, true); (false, true, false)] /\
  dinner (draws 0) S (given (fun u => if N.eqb u 1 then negb (toss0 u) else toss0 u) (fun u => N.eqb u 1)) = [(true, false, false); (false, false, true); (false, true, false)].
Proof. exact anonymous_case. Qed.
