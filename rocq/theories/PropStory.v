(** Properties C108, C109 and C110: entry points, and what results are made of. *)
From Coq Require Import List NArith Bool.
From Verif Require Import Base BMap Errors RoundId Message Protocol Transcript Evidence Session Typed Simple Dining PartialEcho Bench Chain Extend
  DoubleSimple Spec SpecStory SpecChain SpecNet Exec StoryFacts ClaimFacts Toy ToySimple ToyChain ToyStory.
Import ListNotations.
Set Implicit Arguments.

(** C108. The entry points of the combinators announce the id of the round they make if those they are made from do. *)
Theorem C108_combinators : forall (P : Params),
  (forall (P1 P2 : Proto) (j : Join P1 P2) (ep : EntryPoint P1) (tr : J j), names_its_round ep -> names_its_round (chain_entry j ep tr)) /\
  (forall (T : TProto) (xp : Extendable T), names_its_round (xp_entry xp) -> names_its_round (extendable_entry xp)).
Proof. intros P. split; [exact (@chain_names P)|exact (@extend_names P)]. Qed.
Print Assumptions C108_combinators.

(** Those of the examples, tests and benchmarks do. *)
Theorem C108_examples : forall (P : Params),
  (forall W ids, names_its_round (simple_entry W ids)) /\
  (forall W ids, names_its_round (double_entry W ids)) /\
  (forall diner num toss_codec reveal_codec no_error, names_its_round (dining_entry diner num toss_codec reveal_codec no_error)) /\
  (forall c e s, names_its_round (partial_entry c e s)) /\
  (forall W dc ec e s, names_its_round (bench_entry W dc ec e s)).
Proof. exact @examples_name. Qed.
Print Assumptions C108_examples.

(** So that is the round in which a session starts, and, in a chain, the second part starts in the round that the first
    part's last round declares as its child. *)
Theorem C108_session : forall (P : Params) g sid signer (Pr : Proto) (ep : EntryPoint Pr) s,
  names_its_round ep -> session_new g sid signer ep = Ok s -> s_round_id s = ep_id ep.
Proof. exact @entered. Qed.
Print Assumptions C108_session.

Theorem C108_second_part : forall (P : Params) (P1 P2 : Proto) (j : Join P1 P2) id sr (tr : J j) st st2,
  (forall tr r, names_its_round (mkEP (j_entry j) (fun g sr id => j_make j tr r g sr id))) ->
  SpecChain.next (chain j) (Chain1 j id st sr tr : St (chain j)) (Chain2 j st2 : St (chain j)) ->
  ti_id (tinfo (chain j) (Chain2 j st2)) = group_under (j_entry j) 2.
Proof. exact @second_names. Qed.
Print Assumptions C108_second_part.

(** The first round of the chained example, and of a chain starting with that one. *)
Example C108_case : ep_id dblEP = mkRid 1 [1]%N false /\ s_round_id (dbl_session 0) = mkRid 1 [1]%N false /\
  ep_id (chain_entry (@mkJoin toyP dblPr simPr (rid_new 1) unit (fun _ _ g sr id => ep_make simEP g sr id)) dblEP tt) = mkRid 1 [1; 1]%N false.
Proof. split; [reflexivity|]. split; [toy|reflexivity]. Qed.

(** C109. Whatever the other parties do: the round that a session is in, and the result it reports, are what the rounds of
    the protocol made, one after another, of the messages processed in the session. Each round was finalized with exactly
    one payload of each party it expects, and each payload was made from a message that this party signed for this
    session and this round. *)
Theorem C109_sessions : forall (P : Params) (Pr : Proto) g sid signer (ep : EntryPoint Pr) s es d,
  session_new g sid signer ep = Ok s -> run (start s) es d ->
  exists st0, ep_make ep (rsub 0 g) sid (signer_key signer) = Ok st0 /\
    (exists st, brings es sid st0 st /\ executes (d_s d) st) /\
    (forall g' rep, can_finalize (d_a d) = Yes -> finalize_round (d_s d) g' (d_a d) = Ok (ROFinished rep) ->
       exists st ps arts x, brings es sid st0 st /\ obtained es sid st ps /\ own st arts /\
         finalize Pr st (rsub 0 g') ps arts = Ok (Finished_ x) /\ rep_outcome rep = OResult x).
Proof. exact @whole_story. Qed.
Print Assumptions C109_sessions.

(** For simple.rs: the result is the sum of the positions, own and claimed by the others in the messages of the two
    rounds; everybody else signed a claim in both rounds, stating the right position of the receiver. *)
Theorem C109_simple : forall (P : Params) W parties g sid signer s es (d : DState (wrap (simple W))) g' rep,
  session_new g sid signer (simple_entry W parties) = Ok s -> run (start s) es d ->
  can_finalize (d_a d) = Yes -> finalize_round (d_s d) g' (d_a d) = Ok (ROFinished rep) ->
  let me := signer_key signer in
  let others := elements (srem me parties) in
  exists claim1 claim2 : Verifier -> N,
    (forall v, mem v parties = true -> v <> me ->
       wrote es sid (rid_new 1) (sw_message1 W) v (mkPosition (claim1 v) (pos parties me)) /\
       wrote es sid (rid_new 2) (sw_message2 W) v (mkPosition (claim2 v) (pos parties me))) /\
    let sum := (pos parties me + nsum (map claim1 others) + (pos parties me + nsum (map claim2 others)))%N in
    rep_outcome rep = OResult sum /\ (sum <= 255)%N.
Proof. exact @simple_claims. Qed.
Print Assumptions C109_simple.

(** Party 1 of three claims position 7 in round 2: party 0 reports 3 + 9. If it claims 255 in round 1 - which no check
    turns down - party 0 panics. *)
Example C109_case :
  session_new g0 sid0 (0%N : @Signer toyP) simEP = Ok (sim_session 0) /\
  run (start (sim_session 0)) (trace g0 (start (sim_session 0)) (lied_cmds 3 2 7)) (lied 3 2 7) /\
  can_finalize (d_a (lied 3 2 7)) = Yes /\
  (match finalize_round (d_s (lied 3 2 7)) g0 (d_a (lied 3 2 7)) with
   | Ok (ROFinished r) => Some (rep_outcome r) | _ => None end) = Some (OResult (12%N : Rslt simPr)).
Proof. split; [apply sim_created; toy|]. split; [apply lied_run; toy|]. split; toy. Qed.
Example C109_panic :
  run (start (sim_session 0)) (trace g0 (start (sim_session 0)) (lied_cmds 2 1 255)) (lied 2 1 255) /\
  can_finalize (d_a (lied 2 1 255)) = Yes /\ finalize_round (d_s (lied 2 1 255)) g0 (d_a (lied 2 1 255)) = Panic.
Proof. split; [apply lied_run; toy|]. split; toy. Qed.

(** C110. For dining_cryptographers.rs, whatever the other diners do: a diner reports the bits that the two others
    broadcast in round 2 and its own one, made of its toss, the toss its neighbour told it in round 1, and its payment. *)
Theorem C110_dining : forall (P : Params) diner num toss_codec reveal_codec no_error,
  let T := dining diner num toss_codec reveal_codec no_error in
  forall (ep : EntryPoint (wrap T)) g sid signer s es (d : DState (wrap T)) g' rep me toss paid,
  session_new g sid signer ep = Ok s ->
  ep_make ep (rsub 0 g) sid (signer_key signer) = Ok (box T DR1 (mkDining1 me toss paid) : St (wrap T)) -> run (start s) es d ->
  can_finalize (d_a d) = Yes -> finalize_round (d_s d) g' (d_a d) = Ok (ROFinished rep) ->
  let left := diner ((num me + 2) mod 3)%N in
  let others := set_of_list (map diner (filter (fun i => negb (N.eqb i (num me))) [0; 1; 2]%N)) in
  exists t a b more b0 b1, wrote es sid (rid_new 1) toss_codec left t /\ elements others = a :: b :: more /\
    broadcast es sid (rid_new 2) reveal_codec a b0 /\ broadcast es sid (rid_new 2) reveal_codec b b1 /\
    rep_outcome rep = OResult (b0, b1, xorb (xorb toss t) paid).
Proof. exact @diner_result. Qed.
Print Assumptions C110_dining.

Example C110_case :
  session_new g0 sid0 (0%N : @Signer toyP) dinEP = Ok (din_session 0) /\
  run (start (din_session 0)) (trace g0 (start (din_session 0)) (din_cmds 2)) (din_final 2) /\
  can_finalize (d_a (din_final 2)) = Yes /\
  (match finalize_round (d_s (din_final 2)) g0 (d_a (din_final 2)) with
   | Ok (ROFinished r) => Some (rep_outcome r) | _ => None end) = Some (OResult ((false, false, true) : Rslt (wrap dinT))).
Proof. split; [apply din_created; toy|]. split; [apply din_run; toy|]. split; toy. Qed.
