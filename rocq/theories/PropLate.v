(** Property C137: messages of other rounds, in particular of rounds that are over. *)
From Coq Require Import List NArith Bool.
From Verif Require Import Base BMap Errors RoundId Message Protocol Transcript Evidence Session Spec SpecCrypto SessionFacts RunFacts IntakeFacts Network RunSync Driver SpecDriver
  Par SpecPar SpecForge SpecAgain SpecLate LateFacts Exec Toy ToyNet ToyDriver ToyPar ToyLate.
Import ListNotations.
Set Implicit Arguments.

(** C137. What a session does with an authentic message of another round: it is kept if other parties may be in this round and no message of
    the sender is kept for it; otherwise all it does is that an unprovable error is noted for its sender. *)
Theorem C137_other_round : forall (P : Params) (Pr : Proto) (d : DState Pr) from m rid,
  plain_ids Pr -> (forall mt, ser_meta mt <> None) -> reachable d -> ~ banned (d_s d) (d_a d) from ->
  message_authentic from (s_id (d_s d)) rid m -> rid <> s_round_id (d_s d) ->
  (may_be_active (d_s d) rid -> ~ keeps (d_a d) from rid ->
     exists a', preprocess_message (d_s d) (d_a d) from m = (a', Ok Cached) /\ only_keeps (d_a d) from rid a' /\ keeps a' from rid) /\
  (may_be_active (d_s d) rid -> keeps (d_a d) from rid ->
     exists a', preprocess_message (d_s d) (d_a d) from m = (a', Ok (PreError RE_DupCached)) /\ only_notes (d_a d) from RE_DupCached a') /\
  (~ may_be_active (d_s d) rid ->
     exists a', preprocess_message (d_s d) (d_a d) from m = (a', Ok (PreError RE_WrongRound)) /\ only_notes (d_a d) from RE_WrongRound a').
Proof. exact @other_round. Qed.
Print Assumptions C137_other_round.

(** Party 0 in round 2 of 2; messages of party 1 of the rounds 1 and 3. *)
Definition second_round (c : Cfg) : list (cmd (P := toyP)) := [pre c 1 0; pre c 2 0; CProc 0; CProc 0; CFin].
Definition old_message (k : N) : Message (P := toyP) := tforge 1 sid0 (rid_new k) (Some [5]%N) None None.
Example C137_other_round_case : let d := tfinal cfg3n 0 (second_round cfg3n) in
  plain_ids (toyPr cfg3n) /\ (forall mt, @ser_meta toyP mt <> None) /\ reachable d /\ ~ banned (d_s d) (d_a d) (1%N : @Verifier toyP) /\
  s_round_id (d_s d) = rid_new 2 /\ (forall k, message_authentic (1%N : @Verifier toyP) (s_id (d_s d)) (rid_new k) (old_message k)) /\
  may_be_active (d_s d) (rid_new 1) /\ ~ keeps (d_a d) (1%N : @Verifier toyP) (rid_new 1) /\ ~ may_be_active (d_s d) (rid_new 3) /\
  (let d' := tthen d [CPre (1%N : @Verifier toyP) (old_message 1)] in reachable d' /\ d_s d' = d_s d /\ ~ banned (d_s d') (d_a d') (1%N : @Verifier toyP) /\
     keeps (d_a d') (1%N : @Verifier toyP) (rid_new 1)).
Proof.
  intros d. assert (Hid : s_id (d_s d) = sid0) by toy. assert (Hre : reachable d) by (apply toy_reachable; toy).
  split; [apply toy_plain|]. split; [discriminate|]. split; [exact Hre|]. split; [apply banned_false; toy|]. split; [toy|].
  split; [intros k; refine (eq_ind_r (fun x => message_authentic (1%N : @Verifier toyP) x (rid_new k) (old_message k)) _ Hid); exact (forge_authentic 1 (rid_new k) (Some [5]%N) None None)|]. split; [|split; [|split; [|split; [|split; [|split]]]]].
  - apply active_yes. toy.
  - apply keeps_no. toy.
  - apply active_no. toy.
  - apply then_reachable; [exact Hre|toy].
  - refine (@in_round_session _ _ d (tsteps d [CPre (1%N : @Verifier toyP) (old_message 1)]) _ _ _); [apply then_run; toy|toy].
  - apply banned_false. toy.
  - apply keeps_yes. toy.
Qed.

(** C137. In a protocol of linear rounds, a message of a round that is over is harmless only if this round is the one just before; in a round
    which an echo round follows, or if it is a message of an echo round, not even then. In all other cases its sender is ignored from then on. *)
Theorem C137_linear : forall (P : Params) (Pr : Proto) n (d : DState Pr) from m rid,
  plain_ids Pr -> linear_here n (d_s d) -> (forall mt, ser_meta mt <> None) -> reachable d -> ~ banned (d_s d) (d_a d) from ->
  message_authentic from (s_id (d_s d)) rid m -> before rid (s_round_id (d_s d)) ->
  (forgiven (d_s d) rid -> ~ keeps (d_a d) from rid ->
     exists a', preprocess_message (d_s d) (d_a d) from m = (a', Ok Cached) /\ only_keeps (d_a d) from rid a' /\ keeps a' from rid) /\
  (~ forgiven (d_s d) rid ->
     exists a', preprocess_message (d_s d) (d_a d) from m = (a', Ok (PreError RE_WrongRound)) /\ only_notes (d_a d) from RE_WrongRound a').
Proof. exact @linear_late. Qed.
Print Assumptions C137_linear.

(** A message of round 1 that arrives in round 2: forgiven if no echo round follows (first protocol), not forgiven otherwise (second protocol);
    and one that arrives in the echo round of round 1 (third protocol). *)
Example C137_linear_case :
  (let d := tfinal cfg3n 0 (second_round cfg3n) in linear_here 2 (d_s d) /\ reachable d /\ before (rid_new 1) (s_round_id (d_s d)) /\ forgiven (d_s d) (rid_new 1)) /\
  (let d := tfinal cfg3e 0 (second_round cfg3e) in linear_here 2 (d_s d) /\ reachable d /\ before (rid_new 1) (s_round_id (d_s d)) /\ ~ forgiven (d_s d) (rid_new 1)) /\
  (let d := tfinal cfg3 0 (second_round cfg3) in linear_here 2 (d_s d) /\ reachable d /\ before (rid_new 1) (s_round_id (d_s d)) /\ forgiven (d_s d) (rid_new 1)).
Proof.
  split; [|split]; intros d; [split; [refine (@toy_here cfg3n (d_s d) _); toy|]|split; [refine (@toy_here cfg3e (d_s d) _); toy|]|split; [refine (@toy_here cfg3 (d_s d) _); toy|]];
    (split; [apply toy_reachable; toy|]).
  - split; [apply before_yes; toy|apply forgiven_yes; toy].
  - split; [apply before_yes; toy|apply forgiven_no; toy].
  - split; [apply before_yes; toy|apply forgiven_yes; toy].
Qed.

(** Rounds do not come back: finalizing leads to a later round. Hence a message of a round that is over is never handed out for processing,
    whether it is kept or not. *)
Theorem C137_never_back : forall (P : Params) (Pr : Proto) n (d : DState Pr) es d',
  linear_closed Pr n -> reachable d -> linear_here n (d_s d) -> run d es d' ->
  linear_here n (d_s d') /\
  (s_round_id (d_s d') = s_round_id (d_s d) /\ in_round es \/ before (s_round_id (d_s d)) (s_round_id (d_s d')) /\ ~ in_round es).
Proof. exact @linear_run. Qed.
Print Assumptions C137_never_back.

Theorem C137_never_processed : forall (P : Params) (Pr : Proto) n (d : DState Pr) rid es d' vm,
  linear_closed Pr n -> reachable d -> linear_here n (d_s d) -> before rid (s_round_id (d_s d)) ->
  run d es d' -> In vm (d_todo d') -> m_round (vm_meta vm) <> rid.
Proof. exact @late_never. Qed.
Print Assumptions C137_never_processed.

(** Party 0 gets the message of round 1 again in the echo round of round 1, and then the echo of party 2. *)
Definition echo_of_two : Message (P := toyP) := tmsg (d_s (tfinal cfg3 2 [pre cfg3 0 2; pre cfg3 1 2; CProc 0; CProc 0; CFin])) 0.
Example C137_never_case : let d0 := tfinal cfg3 0 [] in let d := tthen d0 (second_round cfg3) in
  let script := [pre cfg3 1 0; CPre (2%N : @Verifier toyP) echo_of_two] in let d' := tthen d script in
  linear_closed (toyPr cfg3) 2 /\ reachable d0 /\ linear_here 2 (d_s d0) /\ run d0 (tsteps d0 (second_round cfg3)) d /\ ~ in_round (tsteps d0 (second_round cfg3)) /\
  before (s_round_id (d_s d0)) (s_round_id (d_s d)) /\ run d (tsteps d script) d' /\
  map (fun e => match e with EPre v _ o => Some (v, match o with Cached => true | _ => false end) | _ => None end) (tsteps d script) =
  [Some (1%N : @Verifier toyP, true); Some (2%N : @Verifier toyP, false)] /\ map (fun vm => m_round (vm_meta vm)) (d_todo d') = [mkRid 1 [] true].
Proof.
  intros d0 d script d'. split; [exact (@toy_linear_closed cfg3)|]. split; [apply toy_reachable; toy|].
  split; [refine (@toy_here cfg3 (d_s d0) _); toy|].
  split; [apply then_run; toy|]. split; [vm_compute; discriminate|].
  split; [apply before_yes; toy|].
  split; [apply then_run; toy|]. split; toy.
Qed.

(** C137. A driver that gets a message of a round in which nobody should be ignores its sender from then on, and does not finish any round that
    still waits for this sender. *)
Theorem C137_run_session : forall (P : Params) (Pr : Proto) r (s0 : Session Pr) ls s a from m rid,
  plain_ids Pr -> (forall mt, ser_meta mt <> None) -> initial s0 ->
  run_session r s0 ls (DrvWait s a) -> can_finalize a = NotYet -> message_authentic from (s_id s) rid m ->
  rid <> s_round_id s -> ~ may_be_active s rid ->
  exists a', drv_step r (DrvWait s a) (IRecv from m) = Some ([LIn from m], DrvWait s a') /\ banned s a' from /\
    forall l3 s3 a3, drv_run r (DrvWait s a') l3 (DrvWait s3 a3) -> mem from (a_waiting a3) = true -> blocked r (DrvWait s3 a3).
Proof. exact @session_outdated. Qed.
Print Assumptions C137_run_session.

Theorem C137_par_run_session : forall (P : Params) (Pr : Proto) r (s0 : Session Pr) ls x from m rid,
  plain_ids Pr -> (forall mt, ser_meta mt <> None) -> initial s0 ->
  par_session r s0 ls (PRun x) -> listens x -> message_authentic from (s_id (pp_s x)) rid m ->
  rid <> s_round_id (pp_s x) -> ~ may_be_active (pp_s x) rid ->
  exists a', par_step r (PRun x) (AReceive from m) = Some ([LIn from m], PRun (set_acc x a')) /\ banned (pp_s x) a' from /\
    forall l3 z, par_run r (PRun (set_acc x a')) l3 (PRun z) -> lacks z from -> par_blocked r z.
Proof. exact @par_session_outdated. Qed.
Print Assumptions C137_par_run_session.

(** The drivers wait in round 1; a message of round 3 arrives. *)
Example C137_drivers_case :
  (is_some (tdrive cfg3e 0 [@IGo toyP; @IGo toyP]) = true /\
   match tdriver cfg3e 0 [@IGo toyP; @IGo toyP] with
   | DrvWait s a => can_finalize a = NotYet /\ s_id s = sid0 /\ s_round_id s = rid_new 1 /\ ~ may_be_active s (rid_new 3) | _ => False end) /\
  (is_some (tpar cfg3e 0 []) = true /\
   match tparty cfg3e 0 [] with
   | PRun x => listens x /\ s_id (pp_s x) = sid0 /\ s_round_id (pp_s x) = rid_new 1 /\ ~ may_be_active (pp_s x) (rid_new 3) | _ => False end).
Proof.
  split; (split; [vm_compute; reflexivity|]); vm_compute; repeat split; intros [X|[X|X]]; discriminate.
Qed.

(** Therefore the drivers need a transport that does not deliver a message again in a later round either, even for linear protocols of honest
    parties: here party 0 gets the message of round 1 of an honest party again in the next round, which an echo round follows, and is blocked. *)
Theorem C137_again_later : exists (P : Params) (Pr : Proto) n r (s0 s1 : Session Pr) l1 from m l2 s a a' g art,
  plain_ids Pr /\ (forall mt, ser_meta mt <> None) /\ linear_closed Pr n /\ linear_here n s0 /\ initial s0 /\ initial s1 /\ s_id s1 = s_id s0 /\
  s_verifier s1 = from /\ make_message s1 g (s_verifier s0) = Ok (m, art) /\
  run_session r s0 (l1 ++ LIn from m :: l2) (DrvWait s a) /\ rid_round (s_round_id s) = (rid_round (s_round_id s1) + 1)%N /\
  ~ banned s a from /\
  drv_step r (DrvWait s a) (IRecv from m) = Some ([LIn from m], DrvWait s a') /\ blocked r (DrvWait s a').
Proof. exact late_blocks_toy. Qed.
Print Assumptions C137_again_later.
