(** Properties of message intake: C01, C02, C03, C04, C05, C07, C43, C45. *)
From Coq Require Import List NArith Bool.
From Verif Require Import Base BMap Errors RoundId Message Protocol Transcript Evidence Session Spec IntakeFacts Exec Toy.
Import ListNotations.
Set Implicit Arguments.

(** C01. A message is handed out for processing, or cached, only if all three parts are signed by the declared sender for
    this session and the current round (resp. one that may be active at the same time); what is handed out is the input. *)
Theorem C01_only_authentic_messages : forall (P : Params) (Pr : Proto) (s : Session Pr) a from m a' o,
  preprocess_message s a from m = (a', Ok o) ->
  (forall vm, o = ToProcess vm -> message_authentic from (s_id s) (s_round_id s) m /\ is_message_of from m vm) /\
  (o = Cached -> exists rid, message_authentic from (s_id s) rid m /\ rid <> s_round_id s /\ may_be_active s rid).
Proof. exact @only_authentic. Qed.
Print Assumptions C01_only_authentic_messages.

(** C01, along histories: everything ever handed out for processing - directly or from the cache - is authentic for the
    round in which it is handed out. *)
Theorem C01_only_authentic_messages_history : forall (P : Params) (Pr : Proto) (d : DState Pr), reachable d ->
  forall vm, In vm (d_todo d) -> vmessage_authentic (s_id (d_s d)) (s_round_id (d_s d)) vm.
Proof. exact @handed_out_authentic. Qed.
Print Assumptions C01_only_authentic_messages_history.

(** Party 1's round 1 message is handed out by party 0, its round 2 message is cached. *)
Example C01_case :
  let s := tsession cfg3n 0 in
  let r1 := preprocess_message s (make_accumulator s) (1%N : @Verifier toyP) (tmsg (tsession cfg3n 1) 0) in
  let r2 := preprocess_message s (fst r1) (1%N : @Verifier toyP) (tforge 1 sid0 (rid_new 2) (Some [5]%N) None None) in
  o_process (snd r1) = true /\ o_cached (snd r2) = true.
Proof. split; toy. Qed.
Example C01_history_case :
  let d := tfinal cfg3n 0 [pre cfg3n 1 0; pre cfg3n 2 0] in reachable d /\ length (d_todo d) = 2.
Proof. split; [apply toy_reachable; toy|toy]. Qed.

(** C02. A sender with a recorded error gets an error and changes nothing. *)
Theorem C02_banned_inert : forall (P : Params) (Pr : Proto) (s : Session Pr) a from m,
  banned s a from -> preprocess_message s a from m = (a, Ok (PreError RE_Banned)).
Proof. exact @banned_inert. Qed.
Print Assumptions C02_banned_inert.

(** A party sending a message with a wrong session id is banned. *)
Example C02_case : let d := tfinal cfg3n 0 [@CPre toyP 1%N (tforge 1 [8]%N (rid_new 1) None None None)] in
  reachable d /\ banned (d_s d) (d_a d) (1%N : @Verifier toyP).
Proof.
  split; [apply toy_reachable; toy|]. right; right; right. apply contains_ex. toy.
Qed.

(** C03. Along any history recorded evidence stays recorded unchanged, unprovable errors stay recorded, senders stay
    banned, and a report made at the end lists all of them. *)
Theorem C03_errors_never_forgotten : forall (P : Params) (Pr : Proto) (d : DState Pr) es d', run d es d' ->
  (forall v x, has_evidence d v x -> has_evidence d' v x) /\
  (forall v, has_unprovable d v -> has_unprovable d' v) /\
  (forall v, banned (d_s d) (d_a d) v -> banned (d_s d') (d_a d') v) /\
  (forall rep, ends_with d' rep ->
     (forall v x, has_evidence d v x -> get v (rep_provable rep) = Some x) /\
     (forall v, has_unprovable d v -> exists e, get v (rep_unprovable rep) = Some e)).
Proof. exact @errors_kept. Qed.
Print Assumptions C03_errors_never_forgotten.

(** Party 5 (not a participant) is caught with a wrong session id in round 1; the session moves on to round 2 and is
    terminated there. *)
Definition c03_script : list (cmd (P := toyP)) :=
  [pre cfg3n 1 0; pre cfg3n 2 0; CProc 0; CProc 0; @CPre toyP 5%N (tforge 5 [8]%N (rid_new 1) None None None); CFin].
Example C03_case :
  let d := tfinal cfg3n 0 c03_script in
  run (tstart cfg3n 0) (ttrace cfg3n 0 c03_script) d /\ s_round_id (d_s d) = rid_new 2 /\
  has_unprovable d (5%N : @Verifier toyP) /\ exists rep, ends_with d rep.
Proof.
  split; [apply toy_run; toy|]. split; [toy|]. split.
  - left. apply contains_ex. toy.
  - destruct (is_ok_ex (terminate (d_s (tfinal cfg3n 0 c03_script)) (d_a (tfinal cfg3n 0 c03_script)))) as [rep Hr]; [toy|].
    exists rep. right; left. exact Hr.
Qed.

(** C04. The exact effect of [preprocess_message] on the accumulator. *)
Theorem C04_exact_effect : forall (P : Params) (Pr : Proto) (s : Session Pr) a from m a' r,
  preprocess_message s a from m = (a', r) ->
  (* nothing *)
  (a' = a /\ ((banned s a from /\ r = Ok (PreError RE_Banned)) \/ exists e, r = Err e)) \/
  (* one unprovable error *)
  (exists e, r = Ok (PreError e) /\ ~ banned s a from /\
     a' = mkAccum (a_waiting a) (a_expect a) (a_processing a) (a_payloads a) (a_artifacts a) (a_cached a) (a_echo a)
            (a_normal a) (a_direct a) (a_provable a) (insert from e (a_unprovable a))) \/
  (* marked as being processed *)
  (exists vm, r = Ok (ToProcess vm) /\ mem from (a_processing a) = false /\
     a' = mkAccum (a_waiting a) (a_expect a) (sadd from (a_processing a)) (a_payloads a) (a_artifacts a) (a_cached a)
            (a_echo a) (a_normal a) (a_direct a) (a_provable a) (a_unprovable a)) \/
  (* stored in the cache *)
  (exists vm c, r = Ok Cached /\ is_message_of from m vm /\
     (forall rid, get rid c = match get from (a_cached a) with Some c0 => get rid c0 | None => None end \/
                  rid = m_round (sp_meta (msg_direct m))) /\
     get (m_round (sp_meta (msg_direct m))) c = Some vm /\
     match get from (a_cached a) with Some c0 => get (m_round (sp_meta (msg_direct m))) c0 | None => None end = None /\
     a' = mkAccum (a_waiting a) (a_expect a) (a_processing a) (a_payloads a) (a_artifacts a)
            (insert from c (a_cached a)) (a_echo a) (a_normal a) (a_direct a) (a_provable a) (a_unprovable a)).
Proof. exact @exact_effect. Qed.
Print Assumptions C04_exact_effect.

(** Each of the four outcomes occurs. *)
Example C04_case :
  let s := tsession cfg3n 0 in
  let one := (1%N : @Verifier toyP) in
  let r1 := preprocess_message s (make_accumulator s) one (tmsg (tsession cfg3n 1) 0) in
  let r2 := preprocess_message s (fst r1) one (tforge 1 sid0 (rid_new 2) (Some [5]%N) None None) in
  let r3 := preprocess_message s (fst r2) one (tmsg (tsession cfg3n 1) 0) in
  let r4 := preprocess_message s (fst r3) one (tmsg (tsession cfg3n 1) 0) in
  o_process (snd r1) = true /\ o_cached (snd r2) = true /\ o_error (snd r3) = Some RE_DupThisRound /\
  o_error (snd r4) = Some RE_Banned.
Proof. split; [|split; [|split]]; toy. Qed.

(** C05. In every reachable state preprocessing returns normally, whatever the sender and the message. *)
Theorem C05_preprocess_never_fails : forall (P : Params) (Pr : Proto) (d : DState Pr) from m,
  plain_ids Pr -> (forall mt, ser_meta mt <> None) -> reachable d ->
  exists a' o, preprocess_message (d_s d) (d_a d) from m = (a', Ok o).
Proof. exact @preprocess_total. Qed.
Print Assumptions C05_preprocess_never_fails.

(** The hypotheses hold e.g. in an echo round. *)
Example C05_case : plain_ids (toyPr cfg3) /\ (forall mt, @ser_meta toyP mt <> None) /\
  let d := tfinal cfg3 0 [pre cfg3 1 0; pre cfg3 2 0; CProc 0; CProc 0; CFin] in
  reachable d /\ rid_echo (s_round_id (d_s d)) = true.
Proof. split; [apply toy_plain|]. split; [discriminate|]. split; [apply toy_reachable; toy|toy]. Qed.

(** C07. Once a message of [v] has been handed out in this round (cached for some round), any further message of [v] for
    this round (for that round) is rejected and [v] is banned. *)
Theorem C07_at_most_one_message : forall (P : Params) (Pr : Proto) (d0 : DState Pr) es d v m' a' o,
  round_start d0 -> run d0 es d -> in_round es ->
  preprocess_message (d_s d) (d_a d) v m' = (a', Ok o) ->
  ((exists m vm, In (EPre v m (ToProcess vm)) es) ->
     m_round (sp_meta (msg_direct m')) = s_round_id (d_s d) -> exists e, o = PreError e /\ banned (d_s d) a' v) /\
  ((exists m, In (EPre v m Cached) es /\ m_round (sp_meta (msg_direct m)) = m_round (sp_meta (msg_direct m'))) ->
     exists e, o = PreError e /\ banned (d_s d) a' v).
Proof. exact @at_most_one. Qed.
Print Assumptions C07_at_most_one_message.

Example C07_case : let cs := [pre cfg3n 1 0] in
  let d := tfinal cfg3n 0 cs in
  round_start (tstart cfg3n 0) /\ run (tstart cfg3n 0) (ttrace cfg3n 0 cs) d /\ in_round (ttrace cfg3n 0 cs) /\
  (existsb (fun e => match e with EPre 1%N _ (ToProcess _) => true | _ => false end) (ttrace cfg3n 0 cs)) = true /\
  o_error (snd (preprocess_message (d_s d) (d_a d) (1%N : @Verifier toyP) (tmsg (tsession cfg3n 1) 0))) = Some RE_DupThisRound.
Proof. split; [apply toy_start|]. split; [apply toy_run; toy|]. split; [toy|]. split; toy. Qed.

(** C43. *)
Theorem C43_one_artifact_per_destination : forall (P : Params) (Pr : Proto) (a : Accum Pr) dest (x : SArtifact Pr),
  (forall y, get dest (a_artifacts a) = Some y -> exists e, snd (add_artifact a (dest, x)) = Err e) /\
  (get dest (a_artifacts a) = None -> exists a', add_artifact a (dest, x) = (a', Ok tt) /\
     get dest (a_artifacts a') = Some x /\
     (forall v, v <> dest -> get v (a_artifacts a') = get v (a_artifacts a)) /\
     a' = mkAccum (a_waiting a) (a_expect a) (a_processing a) (a_payloads a) (a_artifacts a') (a_cached a) (a_echo a)
            (a_normal a) (a_direct a) (a_provable a) (a_unprovable a)).
Proof. exact @artifact_once. Qed.
Print Assumptions C43_one_artifact_per_destination.

Example C43_case : let a := make_accumulator (tsession cfg3n 0) in
  let x := (@AVal toyP (toyPr cfg3n) 1%N) in
  get (1%N : @Verifier toyP) (a_artifacts a) = None /\
  contains (1%N : @Verifier toyP) (a_artifacts (fst (add_artifact a ((1%N : @Verifier toyP), x)))) = true.
Proof. split; toy. Qed.

(** C45 is false: the destination field of a message is neither signed nor checked. A message party 1 made for party 2 is
    accepted by party 0. *)
Theorem C45_destination_checked_refuted :
  exists (P : Params) (Pr : Proto) (d d' : DState Pr) from m vm, reachable d /\
    step d (EPre from m (ToProcess vm)) d' /\ msg_dest m <> s_verifier (d_s d) /\
    (exists d'', step d' (EProc vm) d'' /\ contains from (a_payloads (d_a d'')) = true).
Proof.
  exists toyP, (toyPr cfg3n), (tstart cfg3n 0).
  set (m := tmsg (tsession cfg3n 1) 2).
  set (d' := DS (d_s (tstart cfg3n 0)) (fst (preprocess_message (d_s (tstart cfg3n 0)) (d_a (tstart cfg3n 0)) (1%N : @Verifier toyP) m))
               (as_verified (1%N : @Verifier toyP) m :: d_todo (tstart cfg3n 0))).
  exists d', (1%N : @Verifier toyP), m, (as_verified (1%N : @Verifier toyP) m).
  split; [apply toy_reachable_start|]. split; [apply pre_process_step; toy|]. split.
  - intros H. assert (Hb : eqb (msg_dest m) (s_verifier (d_s (tstart cfg3n 0))) = false) by toy.
    apply eqb_neq in Hb. auto.
  - exists (DS (d_s d') (fst (add_processed (d_s d') (d_a d') (process_message (d_s d') (as_verified (1%N : @Verifier toyP) m)))) []).
    split; [|toy].
    apply (@step_proc toyP (toyPr cfg3n) (d_s d') (d_a d') [] (as_verified (1%N : @Verifier toyP) m) []).
    destruct (add_processed _ _ _) as [a r] eqn:E. simpl. f_equal.
    destruct (is_ok_ex r) as [[] Hr]; [change r with (snd (a, r)); rewrite <- E; toy|exact Hr].
Qed.
Print Assumptions C45_destination_checked_refuted.
