(** Properties of signatures, round identifiers and small data structures: C30, C31, C32, C33, C34, C39, C50, C51, C52. *)
From Coq Require Import List NArith Bool Permutation.
From Verif Require Import Base BMap Errors RoundId Message Protocol Transcript Evidence Session Spec SpecCrypto SerMap
  SignFacts IdFacts Exec Toy ToyCrypto.
Import ListNotations.
Set Implicit Arguments.

(** C30. Equal signed digests: same session, round, kind and payload - or the byte strings named in [parts_collide]
    are a hash collision. *)
Theorem C30_digest_binds : forall (P : Params) k k' m m' b b' d,
  prefix_free_meta P -> part_digest (k := k) m b = Ok d -> part_digest (k := k') m' b' = Ok d ->
  (m_session m = m_session m' /\ m_round m = m_round m' /\ k = k' /\ b = b') \/ parts_collide k k' m m' b b'.
Proof. exact @digest_binding. Qed.
Print Assumptions C30_digest_binds.

(** The same between a message part and an echoed hash. *)
Theorem C30_digest_binds_echoed_hash : forall (P : Params) k m b h d,
  prefix_free_meta P -> part_digest (k := k) m b = Ok d -> message_digest (sh_meta h) (sh_hash h) = Ok d ->
  (sh_meta h = m /\ sh_hash h = hash (content_bytes k b)) \/
  exists mb mb', ser_meta m = Some mb /\ ser_meta (sh_meta h) = Some mb' /\
    collide (signed_bytes mb (hash (content_bytes k b))) (signed_bytes mb' (sh_hash h)).
Proof. exact @digest_binding_hash. Qed.
Print Assumptions C30_digest_binds_echoed_hash.

Example C30_case : prefix_free_meta toyP /\
  is_ok (part_digest (P := toyP) (k := KEcho) (mkMeta sid0 (rid_new 1)) (Some [5]%N)) = true /\
  is_ok (message_digest (P := toyP) (mkMeta sid0 (rid_new 1)) [5; 6]%N) = true.
Proof. split; [apply toy_prefix_free|]. split; toy. Qed.

(** C31. A part (of kind [k']) of a message accepted by a session [d'] from the sender [s_verifier (d_s d)] carries the same
    signature as a part (of kind [k]) of a message made by the session [d]: then it is the same session id, round, kind and
    content - or the parts collide, or the signature is accepted for two different digests. *)
Theorem C31_no_replay : forall (P : Params) (Pr : Proto) (d d' : DState Pr) g dest m art from m' a' o k k',
  prefix_free_meta P -> signatures_correct P -> reachable d -> make_message (d_s d) g dest = Ok (m, art) ->
  preprocess_message (d_s d') (d_a d') from m' = (a', Ok o) -> (o = Cached \/ exists vm, o = ToProcess vm) ->
  from = s_verifier (d_s d) -> sp_sig (msg_part k' m') = sp_sig (msg_part k m) ->
  (s_id (d_s d') = s_id (d_s d) /\ m_round (sp_meta (msg_direct m')) = s_round_id (d_s d) /\ k' = k /\
     sp_body (msg_part k' m') = sp_body (msg_part k m)) \/
  parts_collide k' k (sp_meta (msg_part k' m')) (sp_meta (msg_part k m)) (sp_body (msg_part k' m')) (sp_body (msg_part k m)) \/
  ambiguous from (sp_sig (msg_part k m)).
Proof. exact @no_replay. Qed.
Print Assumptions C31_no_replay.

Example C31_case : prefix_free_meta toyP /\ signatures_correct toyP /\ reachable (tstart cfg3 1) /\
  is_ok (make_message (tsession cfg3 1) g0 (0%N : @Verifier toyP)) = true /\
  match snd (preprocess_message (tsession cfg3 0) (make_accumulator (tsession cfg3 0)) (1%N : @Verifier toyP) (tmsg (tsession cfg3 1) 0)) with
  | Ok (ToProcess _) => true | _ => false end = true.
Proof. split; [apply toy_prefix_free|]. split; [apply toy_signatures|]. split; [apply toy_reachable_start|]. split; toy. Qed.

(** Without an intact signature scheme nothing is promised; a message of another session, unmodified, is always rejected. *)
Theorem C31_other_session_rejected : forall (P : Params) (Pr : Proto) (d : DState Pr) (s' : Session Pr) a' g dest m art from r,
  reachable d -> make_message (d_s d) g dest = Ok (m, art) -> s_id s' <> s_id (d_s d) ->
  snd (preprocess_message s' a' from m) = Ok r -> exists e, r = PreError e.
Proof. exact @other_session_rejected. Qed.
Print Assumptions C31_other_session_rejected.

(** C32. Round identifiers. *)
Theorem C32_split_group : forall r g r', split_group r = Ok (g, r') <-> r = group_under r' g.
Proof. exact split_group_ok. Qed.
Print Assumptions C32_split_group.

Theorem C32_split_fails_only_on_ungrouped : forall r, split_group r <> Panic /\
  ((exists e, split_group r = Err e) <-> rid_groups r = []).
Proof. exact split_group_fails. Qed.
Print Assumptions C32_split_fails_only_on_ungrouped.

Theorem C32_grouping_injective : forall r g r' g', group_under r g = group_under r' g' -> r = r' /\ g = g'.
Proof. exact group_under_inj. Qed.
Print Assumptions C32_grouping_injective.

Theorem C32_echo_inverse : forall r r', (echo r = Ok r' <-> non_echo r' = Ok r) /\
  ((exists e, echo r = Err e) <-> rid_echo r = true) /\ ((exists e, non_echo r = Err e) <-> rid_echo r = false) /\
  echo r <> Panic /\ non_echo r <> Panic.
Proof. exact echo_inverse. Qed.
Print Assumptions C32_echo_inverse.

Theorem C32_echo_commutes_with_grouping : forall r g,
  echo (group_under r g) = (let* e := echo r in Ok (group_under e g)) /\
  non_echo (group_under r g) = (let* e := non_echo r in Ok (group_under e g)).
Proof. exact echo_group. Qed.
Print Assumptions C32_echo_commutes_with_grouping.

(** Any nesting depth: the groups come back in reverse order. *)
Theorem C32_nesting : forall gs r, rid_groups (fold_left group_under gs r) = (rid_groups r ++ gs)%list /\
  fold_right (fun g x => let* r := x in let* (g', r') := split_group r in if N.eqb g g' then Ok r' else Err LE_BadGroup)
    (Ok (fold_left group_under gs r)) gs = Ok r.
Proof. exact nesting. Qed.
Print Assumptions C32_nesting.

Example C32_case : split_group (group_under (group_under (rid_new 3) 1) 2) = Ok (2%N, group_under (rid_new 3) 1) /\
  split_group (rid_new 3) = Err LE_NotInGroup.
Proof. split; reflexivity. Qed.

(** C33. The derived order is a strict total order whose equality is identity. *)
Theorem C33_total_order : forall a b c : RoundId,
  (rid_cmp a b = Eq <-> a = b) /\ (rid_cmp a b = Lt <-> rid_cmp b a = Gt) /\
  (rid_cmp a b = Lt -> rid_cmp b c = Lt -> rid_cmp a c = Lt).
Proof. exact rid_order. Qed.
Print Assumptions C33_total_order.

(** Hence different rounds never share a map entry. *)
Theorem C33_no_shared_entry : forall V (m : bmap RoundId V) r r' x, r <> r' -> get r (insert r' x m) = get r m.
Proof. exact rid_entries. Qed.
Print Assumptions C33_no_shared_entry.

Example C33_case : rid_cmp (rid_new 1) (group_under (rid_new 1) 1) = Lt /\
  rid_cmp (group_under (group_under (rid_new 1) 1) 2) (group_under (group_under (rid_new 1) 2) 1) = Lt.
Proof. split; reflexivity. Qed.

(** C34. Serializable maps. *)
Theorem C34_round_trip : forall K V (OK : Ord K) (m : bmap K V),
  fst (sm_serialize m) = length (snd (sm_serialize m)) /\ sm_deserialize (map Some (snd (sm_serialize m))) = Some m.
Proof. exact @sm_round_trip'. Qed.
Print Assumptions C34_round_trip.

Theorem C34_deserializes_iff_keys_differ : forall K V (OK : Ord K) (l : list (option (K * V))) m,
  sm_deserialize l = Some m <->
  exists kvs, l = map Some kvs /\ NoDup (map fst kvs) /\ forall k v, get k m = Some v <-> In (k, v) kvs.
Proof. exact @sm_deserialize_iff. Qed.
Print Assumptions C34_deserializes_iff_keys_differ.

Theorem C34_succeeds_iff_keys_differ : forall K V (OK : Ord K) (kvs : list (K * V)),
  (exists m, sm_deserialize (map Some kvs) = Some m) <-> NoDup (map fst kvs).
Proof. exact @sm_deserialize_exists. Qed.
Print Assumptions C34_succeeds_iff_keys_differ.

Theorem C34_order_irrelevant : forall K V (OK : Ord K) (kvs kvs' : list (K * V)), Permutation kvs kvs' ->
  sm_deserialize (map Some kvs) = sm_deserialize (map Some kvs').
Proof. exact @sm_order_irrelevant. Qed.
Print Assumptions C34_order_irrelevant.

Example C34_case : sm_deserialize [Some (5, 1); Some (3, 2)]%N = Some (of_list [(3, 2); (5, 1)]%N) /\
  sm_deserialize [Some (5, 1); Some (5, 1)]%N = None.
Proof. split; reflexivity. Qed.

(** C39 is false: party 0 has rejected a message of each other party and can never finish, but reports [Terminated]. *)
Definition c39_script : list (cmd (P := toyP)) :=
  [@CPre toyP 1%N (tforge 1 sid0 (rid_new 1) (Some [98]%N) (Some [1]%N) None);
   @CPre toyP 2%N (tforge 2 sid0 (rid_new 1) (Some [98]%N) (Some [1]%N) None); CProc 0; CProc 0].
Theorem C39_outcome_tells_reason_refuted : exists (P : Params) (Pr : Proto) (d : DState Pr) rep,
  reachable d /\ can_finalize (d_a d) = Never /\ terminate_due_to_errors (d_s d) (d_a d) = Ok rep /\ rep_outcome rep <> ONotEnough.
Proof.
  set (d := tfinal cfg3 0 c39_script). exists toyP, (toyPr cfg3), d.
  assert (H : is_ok (terminate_due_to_errors (d_s d) (d_a d)) = true) by toy.
  apply is_ok_ex in H as [rep H]. exists rep. split; [apply toy_reachable; toy|]. split; [toy|]. split; [exact H|].
  rewrite (terminate_outcome _ _ (or_intror H)). discriminate.
Qed.
Print Assumptions C39_outcome_tells_reason_refuted.

(** C39, what holds: termination by the user reports [Terminated], and only finalization reports a result. Missing: the
    other terminating call reports [Terminated] as well, whatever the reason, so [NotEnoughMessages] is never reported. *)
Theorem C39_outcome_tells_reason_partial : forall (P : Params) (Pr : Proto) (s : Session Pr) a rep,
  (terminate s a = Ok rep -> rep_outcome rep = OTerminated) /\
  (terminate_due_to_errors s a = Ok rep -> rep_outcome rep = OTerminated) /\
  (forall g, finalize_round s g a = Ok (ROFinished rep) -> exists x, rep_outcome rep = OResult x).
Proof. exact @outcome_reason. Qed.
Print Assumptions C39_outcome_tells_reason_partial.

Example C39_case : is_ok (terminate (tsession cfg3 0) (make_accumulator (tsession cfg3 0))) = true.
Proof. toy. Qed.

(** C50. Linear round graphs: rounds 1..n with [new_linear] for 1..n-1 and [new_linear_terminating] for n. *)
Theorem C50_linear_rounds : forall n k, (1 <= k)%N -> (k <= n)%N -> (n <= u8_max)%N ->
  exists t, linear_round n k = Ok t /\ ti_id t = rid_new k /\
    (forall r, mem r (ti_children t) = true <-> (k < n)%N /\ r = rid_new (k + 1)) /\
    (forall r, mem r (ti_parents t) = true <-> (1 < k)%N /\ r = rid_new (k - 1)) /\
    (ti_result t = true <-> k = n) /\
    (forall r, mem r (ti_siblings t) = false) /\
    (forall e, exists rs, simultaneous_rounds t e = Ok rs /\ forall r, mem r rs = true <->
       ((k < n)%N /\ r = rid_new (k + 1)) \/
       (if e then r = mkRid k [] true else (1 < k)%N /\ r = rid_new (k - 1))).
Proof. exact linear_rounds. Qed.
Print Assumptions C50_linear_rounds.

Example C50_case : exists t, linear_round 255 254 = Ok t /\ mem (rid_new 255) (ti_children t) = true.
Proof. eexists. split; [reflexivity|reflexivity]. Qed.

(** Outside a graph of at most 255 rounds: among all round numbers [new_linear] overflows on 255 only, which a linear graph
    never gives it. *)
Theorem C50_overflow_only_at_255 : forall k, (k <= u8_max)%N -> (new_linear k = Panic <-> k = u8_max).
Proof. exact linear_overflow. Qed.
Print Assumptions C50_overflow_only_at_255.

(** C51. *)
Theorem C51_evidence_has_a_trigger : forall (P : Params) v e n d err (t : Transcript) ev,
  api_parts (rq_this (be_required err)) -> new_provable_error v e n d err t = Ok ev ->
  ev_guilty ev = v /\ exists pe, ev_body ev = EvProtocol pe /\
    (pe_direct pe = Some d \/ pe_echo pe = Some e \/ pe_normal pe = Some n).
Proof. exact @evidence_has_trigger. Qed.
Print Assumptions C51_evidence_has_a_trigger.

Theorem C51_api_parts_nonempty : forall p, api_parts p -> rp_echo p = true \/ rp_normal p = true \/ rp_direct p = true.
Proof. exact api_parts_nonempty. Qed.
Print Assumptions C51_api_parts_nonempty.

Theorem C51_api_never_panics : forall p, req_echo <> Panic /\ req_normal <> Panic /\ req_direct <> Panic /\
  and_echo p <> Panic /\ and_normal p <> Panic /\ and_direct p <> Panic.
Proof. exact api_never_panics. Qed.
Print Assumptions C51_api_never_panics.

(** Exactly the named parts are required: those named before, and one more. *)
Theorem C51_api_exact : forall p,
  req_echo = Ok (mkReqParts true false false) /\ req_normal = Ok (mkReqParts false true false) /\
  req_direct = Ok (mkReqParts false false true) /\
  and_echo p = Ok (mkReqParts true (rp_normal p) (rp_direct p)) /\
  and_normal p = Ok (mkReqParts (rp_echo p) true (rp_direct p)) /\
  and_direct p = Ok (mkReqParts (rp_echo p) (rp_normal p) true).
Proof. exact api_exact. Qed.
Print Assumptions C51_api_exact.

Example C51_case : api_parts (mkReqParts true false true) /\
  is_ok (new_provable_error (P := toyP) (1%N : @Verifier toyP) dummy_part dummy_part dummy_part
           (mkBoxedError (mkRequired (mkReqParts true false true) None None) (Some [])) tr_new) = true.
Proof. split; [|toy]. apply api_and_echo with (mkReqParts false false true); [|reflexivity]. now apply api_direct. Qed.

(** C52. All messages a session makes in a round carry the same signed broadcasts and are authentic ... *)
Theorem C52_same_broadcasts : forall (P : Params) (Pr : Proto) (d : DState Pr) g dest m art g' dest' m' art',
  reachable d -> signatures_correct P ->
  make_message (d_s d) g dest = Ok (m, art) -> make_message (d_s d) g' dest' = Ok (m', art') ->
  msg_echo m = msg_echo m' /\ msg_normal m = msg_normal m' /\
  message_authentic (s_verifier (d_s d)) (s_id (d_s d)) (s_round_id (d_s d)) m.
Proof. exact @same_broadcasts. Qed.
Print Assumptions C52_same_broadcasts.

(** ... their contents are what the protocol round made ... *)
Theorem C52_protocol_parts_sent : forall (P : Params) (Pr : Proto) (d : DState Pr) st g dest m art,
  reachable d -> s_round (d_s d) = RMain st -> mem dest (message_destinations (d_s d)) = true ->
  make_message (d_s d) g dest = Ok (m, art) ->
  (exists ge, mk_echo Pr st ge = Ok (sp_body (msg_echo m))) /\ (exists gn, mk_normal Pr st gn = Ok (sp_body (msg_normal m))) /\
  exists gd x, mk_direct Pr st gd dest = Ok (sp_body (msg_direct m), x) /\ art = (dest, AVal x).
Proof. exact @sent_parts. Qed.
Print Assumptions C52_protocol_parts_sent.

(** ... and a session in the same round that has not banned the sender nor taken a message of it hands exactly these to its
    round. *)
Theorem C52_received_unchanged : forall (P : Params) (Pr : Proto) (d d0 d' : DState Pr) es g dest m art,
  plain_ids Pr -> signatures_correct P ->
  reachable d -> make_message (d_s d) g dest = Ok (m, art) -> round_start d0 -> run d0 es d' -> in_round es ->
  s_id (d_s d') = s_id (d_s d) -> s_round_id (d_s d') = s_round_id (d_s d) ->
  ~ banned (d_s d') (d_a d') (s_verifier (d_s d)) ->
  (forall m' vm, ~ In (EPre (s_verifier (d_s d)) m' (ToProcess vm)) es) ->
  exists a' vm, preprocess_message (d_s d') (d_a d') (s_verifier (d_s d)) m = (a', Ok (ToProcess vm)) /\
    is_message_of (s_verifier (d_s d)) m vm /\
    pm_msg (process_message (d_s d') vm) = vm /\
    pm_res (process_message (d_s d') vm) = rd_receive (s_round (d_s d')) (s_verifier (d_s d))
      (mkDynMsg (sp_body (msg_echo m)) (sp_body (msg_normal m)) (sp_body (msg_direct m))).
Proof. exact @receives_what_was_sent. Qed.
Print Assumptions C52_received_unchanged.

Example C52_case : plain_ids (toyPr cfg3) /\ signatures_correct toyP /\ reachable (tstart cfg3 1) /\
  is_ok (make_message (tsession cfg3 1) g0 (0%N : @Verifier toyP)) = true /\
  is_ok (make_message (tsession cfg3 1) g0 (2%N : @Verifier toyP)) = true /\
  round_start (tstart cfg3 0) /\ s_id (tsession cfg3 0) = s_id (tsession cfg3 1) /\
  s_round_id (tsession cfg3 0) = s_round_id (tsession cfg3 1) /\ mem (0%N : @Verifier toyP) (message_destinations (tsession cfg3 1)) = true /\
  match snd (preprocess_message (tsession cfg3 0) (make_accumulator (tsession cfg3 0)) (1%N : @Verifier toyP) (tmsg (tsession cfg3 1) 0)) with
  | Ok (ToProcess _) => true | _ => false end = true.
Proof.
  split; [apply toy_plain|]. split; [apply toy_signatures|]. split; [apply toy_reachable_start|]. split; [toy|]. split; [toy|].
  split; [apply toy_start|]. split; [toy|]. split; [toy|]. split; toy.
Qed.
