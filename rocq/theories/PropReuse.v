(** Property C138: executions that use the same session id. *)
From Coq Require Import List NArith Bool.
From Verif Require Import Base BMap Errors RoundId Message Protocol Transcript Evidence Session Spec SpecCrypto SessionFacts RunFacts ReuseFacts Exec Toy ToyCrypto ToyReuse.
Import ListNotations.
Set Implicit Arguments.

(** C138. A message that a party made in one execution, for whomever, is taken for its message of the same round in any other execution with the
    same session id, even of another protocol, and is processed there. *)
Theorem C138_replay : forall (P : Params) (Pr1 Pr2 : Proto) (d1 : DState Pr1) (d0 d2 : DState Pr2) es g dest m art,
  plain_ids Pr2 -> signatures_correct P ->
  reachable d1 -> make_message (d_s d1) g dest = Ok (m, art) ->
  round_start d0 -> run d0 es d2 -> in_round es ->
  s_id (d_s d2) = s_id (d_s d1) -> s_round_id (d_s d2) = s_round_id (d_s d1) ->
  ~ banned (d_s d2) (d_a d2) (s_verifier (d_s d1)) -> (forall m' vm, ~ In (EPre (s_verifier (d_s d1)) m' (ToProcess vm)) es) ->
  exists a' vm, preprocess_message (d_s d2) (d_a d2) (s_verifier (d_s d1)) m = (a', Ok (ToProcess vm)) /\
    is_message_of (s_verifier (d_s d1)) m vm /\
    pm_res (process_message (d_s d2) vm) = rd_receive (s_round (d_s d2)) (s_verifier (d_s d1))
      (mkDynMsg (sp_body (msg_echo m)) (sp_body (msg_normal m)) (sp_body (msg_direct m))).
Proof. exact @reused_accepts. Qed.
Print Assumptions C138_replay.

(** Then the message which the party makes in that execution is turned down, and the party is ignored. *)
Theorem C138_genuine_rejected : forall (P : Params) (Pr : Proto) (d0 d2 d : DState Pr) es m' vm g dest m art,
  plain_ids Pr -> signatures_correct P ->
  reachable d -> make_message (d_s d) g dest = Ok (m, art) ->
  round_start d0 -> run d0 es d2 -> in_round es -> In (EPre (s_verifier (d_s d)) m' (ToProcess vm)) es -> s_round_id (d_s d2) = s_round_id (d_s d) ->
  exists a' e, preprocess_message (d_s d2) (d_a d2) (s_verifier (d_s d)) m = (a', Ok (PreError e)) /\ banned (d_s d2) a' (s_verifier (d_s d)).
Proof. exact @reused_rejects. Qed.
Print Assumptions C138_genuine_rejected.

(** Party 1 has taken part in an execution with input 7, the messages of which carry other values; party 0 is replayed its message in another
    execution. *)
Definition replayed : Message (P := toyP) := tmsg (osession (with_input 7) 1 7) 0.
Example C138_replay_case : let d1 := ostart 1 7 in let es := ttrace cfg3 0 [CPre (1%N : @Verifier toyP) replayed] in let d2 := tfinal cfg3 0 [CPre (1%N : @Verifier toyP) replayed] in
  plain_ids (toyPr cfg3) /\ signatures_correct toyP /\ reachable d1 /\ (exists art, make_message (d_s d1) g0 (0%N : @Verifier toyP) = Ok (replayed, art)) /\
  round_start (tstart cfg3 0) /\ s_id (d_s (tstart cfg3 0)) = s_id (d_s d1) /\ s_round_id (d_s (tstart cfg3 0)) = s_round_id (d_s d1) /\
  ~ banned (d_s (tstart cfg3 0)) (d_a (tstart cfg3 0)) (s_verifier (d_s d1)) /\
  (reachable (tstart cfg3 1) /\ (exists art, make_message (d_s (tstart cfg3 1)) g0 (0%N : @Verifier toyP) = Ok (tmsg (tsession cfg3 1) 0, art)) /\
   tmsg (tsession cfg3 1) 0 <> replayed /\ run (tstart cfg3 0) es d2 /\ in_round es /\ s_round_id (d_s d2) = s_round_id (d_s (tstart cfg3 1)) /\
   map (fun e => match e with EPre v m (ToProcess _) => Some (v, m) | _ => None end) es = [Some (s_verifier (d_s (tstart cfg3 1)), replayed)]).
Proof.
  split; [apply toy_plain|]. split; [exact toy_signatures|]. split; [apply other_reachable|]. split; [apply tmsg_made; toy|]. split; [apply toy_start|].
  split; [toy|]. split; [toy|]. split; [apply banned_false; toy|]. split; [apply toy_reachable_start|]. split; [apply tmsg_made; toy|].
  split; [intros X; apply (f_equal (fun m => sp_body (msg_direct m))) in X; vm_compute in X; discriminate|]. split; [apply toy_run; toy|]. split; [toy|]. split; toy.
Qed.

(** C138. Whoever takes part in two executions with the same session id, and makes different echo broadcasts in the same round of them, can be accused of
    equivocation with evidence that verifies, although it follows the protocol in both (unless the hash function collides). *)
Theorem C138_framed : forall (P : Params) (Pr1 Pr2 : Proto) (d1 : DState Pr1) (Pr : Proto) (d2 : DState Pr2) g dest m art g' dest' m' art' (sd : Shared Pr),
  signatures_correct P -> reachable d1 -> reachable d2 ->
  make_message (d_s d1) g dest = Ok (m, art) -> make_message (d_s d2) g' dest' = Ok (m', art') ->
  s_verifier (d_s d2) = s_verifier (d_s d1) -> s_id (d_s d2) = s_id (d_s d1) -> s_round_id (d_s d2) = s_round_id (d_s d1) ->
  sp_body (msg_echo m) <> sp_body (msg_echo m') ->
  verify_evidence Pr (mkEvidence (s_verifier (d_s d1)) (EvMismatched (s_verifier (d_s d1)) (msg_echo m) (to_signed_hash (msg_echo m')))) sd = Ok tt \/
  collide (content_bytes KEcho (sp_body (msg_echo m'))) (content_bytes KEcho (sp_body (msg_echo m))).
Proof. exact @reused_frames. Qed.
Print Assumptions C138_framed.

Example C138_framed_case : let d1 := ostart 1 7 in let d2 := tstart cfg3 1 in
  signatures_correct toyP /\ reachable d1 /\ reachable d2 /\ (exists art, make_message (d_s d1) g0 (0%N : @Verifier toyP) = Ok (replayed, art)) /\
  (exists art, make_message (d_s d2) g0 (0%N : @Verifier toyP) = Ok (tmsg (tsession cfg3 1) 0, art)) /\
  s_verifier (d_s d2) = s_verifier (d_s d1) /\ s_id (d_s d2) = s_id (d_s d1) /\ s_round_id (d_s d2) = s_round_id (d_s d1) /\
  sp_body (msg_echo replayed) = Some [27]%N /\ sp_body (msg_echo (tmsg (tsession cfg3 1) 0)) = Some [21]%N.
Proof.
  split; [exact toy_signatures|]. split; [apply other_reachable|]. split; [apply toy_reachable_start|]. split; [apply tmsg_made; toy|]. split; [apply tmsg_made; toy|].
  split; [toy|]. split; [toy|]. split; [toy|]. split; toy.
Qed.
