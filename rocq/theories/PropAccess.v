(** Properties C89 and C90, and the builders of round graphs (C50). *)
From Coq Require Import List NArith Bool Ascii String.
From Verif Require Import Base BMap Errors RoundId Message Protocol Transcript Evidence Session Typed Simple Spec SpecCrypto SpecEvidence SpecAccess
  TestParams Toy ToySimple ToyAccess SignFacts TestParamsFacts AccessFacts.
Import ListNotations.

(** C89. Different seeds give different session ids, unless the hash collides, ... *)
Theorem C89_seeds_bind : forall (P : Params) s s', session_id_from_seed s = session_id_from_seed s' ->
  s = s' \/ collide (str "SessionId" ++ s) (str "SessionId" ++ s')%list.
Proof. exact @seeds_differ. Qed.
Print Assumptions C89_seeds_bind.

(** ... and they are different from all hashes and digests of messages, unless the hash collides. *)
Theorem C89_separate_domain : forall (P : Params) s,
  (forall k b, session_id_from_seed s = hash (content_bytes k b) -> collide (str "SessionId" ++ s)%list (content_bytes k b)) /\
  (forall mb h, session_id_from_seed s = hash (signed_bytes mb h) -> collide (str "SessionId" ++ s)%list (signed_bytes mb h)).
Proof. exact @seed_domains. Qed.
Print Assumptions C89_separate_domain.

(** A message of a session made from one seed is not accepted by a session made from another. *)
Theorem C89_no_replay : forall (P : Params) (Pr : Proto) seed seed' (d : DState Pr) (s' : Session Pr) a' g dest m art from r,
  reachable d -> s_id (d_s d) = session_id_from_seed seed -> s_id s' = session_id_from_seed seed' -> seed <> seed' ->
  make_message (d_s d) g dest = Ok (m, art) -> snd (preprocess_message s' a' from m) = Ok r ->
  (exists e, r = PreError e) \/ collide (str "SessionId" ++ seed) (str "SessionId" ++ seed')%list.
Proof. exact @seed_no_replay. Qed.
Print Assumptions C89_no_replay.

(** With the digest of the tests (see C77) the session ids of these two seeds are the same. *)
Example C89_case : @session_id_from_seed toyP [1]%N <> @session_id_from_seed toyP [2]%N /\
  @session_id_from_seed testP [1]%N = @session_id_from_seed testP [1; 0]%N.
Proof. split; vm_compute; [discriminate|reflexivity]. Qed.

(** C90. If evidence of a protocol error verifies, the protocol's own check was given messages [es] of which the accessors
    of [EvidenceMessages] return exactly what is in the evidence, and all of it is signed by the guilty party for the session
    and for the round that was asked for. [combined_echos] returns exactly the broadcasts that the guilty party
    echoed, each signed by its sender. *)
Theorem C90_accessors_authentic : forall (P : Params) (T : TProto) ev (sd : Shared (wrap T)) e,
  verify_evidence (wrap T) ev sd = Ok tt -> ev_body ev = EvProtocol e ->
  exists sid rid k es, let v := ev_guilty ev in
    t_info T rid = Some k /\ check_accepts (t_err T k) rid (pe_error e) v sid sd es /\
    (forall m x, es_direct_message m es = Ok x <-> exists p, pe_direct e = Some p /\ signed_for v sid rid p /\ contains_value m (sp_body p) x) /\
    (forall m x, es_echo_broadcast m es = Ok x <-> exists p, pe_echo e = Some p /\ signed_for v sid rid p /\ contains_value m (sp_body p) x) /\
    (forall m x, es_normal_broadcast m es = Ok x <-> exists p, pe_normal e = Some p /\ signed_for v sid rid p /\ contains_value m (sp_body p) x) /\
    (forall m n x, previous_direct_message m es n = Ok x <->
       exists p, get (rid_new n) (pe_directs e) = Some p /\ signed_for v sid (rid_new n) p /\ contains_value m (sp_body p) x) /\
    (forall m n x, previous_echo_broadcast m es n = Ok x <->
       exists p, get (rid_new n) (pe_echos e) = Some p /\ signed_for v sid (rid_new n) p /\ contains_value m (sp_body p) x) /\
    (forall m n x, previous_normal_broadcast m es n = Ok x <->
       exists p, get (rid_new n) (pe_normals e) = Some p /\ signed_for v sid (rid_new n) p /\ contains_value m (sp_body p) x) /\
    (forall m n xs, combined_echos m es n = Ok xs ->
       exists p msg, get (rid_new n) (pe_hashes e) = Some p /\ signed_for v sid (mkRid n [] true) p /\ body_echo_msg (sp_body p) = Some msg /\
         (forall u, get u xs = None <-> get u msg = None) /\
         forall u x, get u xs = Some x -> exists h (q : SPart KEcho), get u msg = Some h /\ hash_signed u h /\ sh_meta h = mkMeta sid (rid_new n) /\
           signed_for u sid (rid_new n) q /\ sh_hash h = hash (content_bytes KEcho (sp_body q)) /\ contains_value m (sp_body q) x).
Proof. exact @accessors. Qed.
Print Assumptions C90_accessors_authentic.

(** Whether [combined_echos] returns something depends only on whether all the broadcasts can be deserialized. *)
Theorem C90_combined_echos : forall (P : Params) m (es : EvMsgs) n ys, combined_echos m es n = Ok ys <->
  exists c, get (rid_new n) (es_combined es) = Some c /\ (forall u, get u ys = None <-> get u c = None) /\
    forall u y, get u ys = Some y -> exists b, get u c = Some b /\ contains_value m b y.
Proof. exact @combined_ok. Qed.
Print Assumptions C90_combined_echos.

(** Evidence for round 2 of simple.rs, with a previous message and echoed broadcasts. *)
Example C90_case : ev_body wrong_evidence = EvProtocol wrong_position /\ verify_evidence (wrap simT) wrong_evidence tt = Ok tt.
Proof. split; [reflexivity|exact wrong_evidence_ok]. Qed.

(** C50. [with_children] and [with_siblings] add rounds and change nothing else. *)
Theorem C50_with_children : forall t nums,
  (forall r, mem r (ti_children (with_children t nums)) = true <-> mem r (ti_children t) = true \/ exists n, mem n nums = true /\ r = rid_new n) /\
  ti_id (with_children t nums) = ti_id t /\ ti_parents (with_children t nums) = ti_parents t /\
  ti_siblings (with_children t nums) = ti_siblings t /\ ti_result (with_children t nums) = ti_result t.
Proof. exact with_children_ok. Qed.
Print Assumptions C50_with_children.

Theorem C50_with_siblings : forall t nums,
  (forall r, mem r (ti_siblings (with_siblings t nums)) = true <-> mem r (ti_siblings t) = true \/ exists n, mem n nums = true /\ r = rid_new n) /\
  ti_id (with_siblings t nums) = ti_id t /\ ti_parents (with_siblings t nums) = ti_parents t /\
  ti_children (with_siblings t nums) = ti_children t /\ ti_result (with_siblings t nums) = ti_result t.
Proof. exact with_siblings_ok. Qed.
Print Assumptions C50_with_siblings.

Example C50_builders_case : elements (ti_children (with_children (new_linear_terminating 2) (set_of_list [4; 3]%N))) = [rid_new 3; rid_new 4].
Proof. reflexivity. Qed.
