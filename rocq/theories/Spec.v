(** Vocabulary of the property statements: authenticity, histories of API calls. No proofs here. *)
From Coq Require Import List NArith Bool Ascii String.
From Verif Require Import Base BMap Errors RoundId Message Protocol Transcript Evidence Session.
Import ListNotations.
Set Implicit Arguments.

Section WithParams.
  Context {P : Params}.

  (** ** Authenticity, spelled out from the signature scheme and the hash function. *)

  (** The hash identifying the content of a message part of kind [k]. *)
  Definition content_hash (k : kind) (b : body) : bytes :=
    hash (str "ProtocolMessagePart" ++ [match k with KEcho => 0 | KNormal => 1 | KDirect => 2 end]%N ++
          match b with
          | None => [0]%N
          | Some p => 1%N :: be64 (N.of_nat (List.length p)) ++ p
          end)%list.

  (** The serialized signature [gb] is a signature by [v] on content hash [h] in session/round [m]. *)
  Definition signs (v : Verifier) (m : Meta) (h gb : bytes) : Prop :=
    exists mb g, ser_meta m = Some mb /\ deser_sig gb = Some g /\
      verify_sig v (hash (str "SignedMessagePartDigest" ++ mb ++ be64 (N.of_nat (List.length h)) ++ h)%list) g = true.

  (** A signed part carries a signature of [v] on its own kind, metadata and content. *)
  Definition part_signed {k} (v : Verifier) (p : SPart k) : Prop :=
    signs v (sp_meta p) (content_hash k (sp_body p)) (sp_sig p).

  (** An echoed hash carries a signature of [v]. *)
  Definition hash_signed (v : Verifier) (h : SHash) : Prop :=
    signs v (sh_meta h) (sh_hash h) (sh_sig h).

  (** All parts of an incoming message are signed by [v] for session [sid] and round [rid]. *)
  Definition message_authentic (v : Verifier) (sid : bytes) (rid : RoundId) (m : Message) : Prop :=
    part_signed v (msg_direct m) /\ part_signed v (msg_echo m) /\ part_signed v (msg_normal m) /\
    sp_meta (msg_direct m) = mkMeta sid rid /\ sp_meta (msg_echo m) = mkMeta sid rid /\
    sp_meta (msg_normal m) = mkMeta sid rid.

  (** The same for a verified message. *)
  Definition vmessage_authentic (sid : bytes) (rid : RoundId) (m : VMessage) : Prop :=
    part_signed (vm_from m) (vm_direct m) /\ part_signed (vm_from m) (vm_echo m) /\
    part_signed (vm_from m) (vm_normal m) /\ vm_meta m = mkMeta sid rid /\
    sp_meta (vm_direct m) = mkMeta sid rid /\ sp_meta (vm_echo m) = mkMeta sid rid /\
    sp_meta (vm_normal m) = mkMeta sid rid.

  (** [vm] is the message [m] attributed to [from], unmodified. *)
  Definition is_message_of (from : Verifier) (m : Message) (vm : VMessage) : Prop :=
    vm_from vm = from /\ vm_direct vm = msg_direct m /\ vm_echo vm = msg_echo m /\ vm_normal vm = msg_normal m /\
    vm_meta vm = sp_meta (msg_direct m).

  Context {Pr : Proto}.

  (** An error is recorded for [v] in the accumulator or in the transcript of earlier rounds. *)
  Definition banned (s : Session Pr) (a : Accum Pr) (v : Verifier) : Prop :=
    (exists e, get v (tr_provable (s_tr s)) = Some e) \/ (exists e, get v (tr_unprovable (s_tr s)) = Some e) \/
    (exists e, get v (a_provable a) = Some e) \/ (exists e, get v (a_unprovable a) = Some e).

  (** The rounds other nodes may be in while this node is in the round of [s]: its siblings, its children, and its echo
      round if there is one, else its parents. *)
  Definition may_be_active (s : Session Pr) (rid : RoundId) : Prop :=
    mem rid (ti_siblings (s_tinfo s)) = true \/ mem rid (ti_children (s_tinfo s)) = true \/
    match s_echo_info s with
    | Some _ => rid = mkRid (rid_round (s_round_id s)) (rid_groups (s_round_id s)) true
    | None => mem rid (ti_parents (s_tinfo s)) = true
    end.

  (** ** Histories of API calls *)

  (** A driver's state: the session, its accumulator, and the verified messages the session has handed out for
      processing ([preprocess_message] or [finalize_round]) that are not yet processed. *)
  Record DState := DS { d_s : Session Pr; d_a : Accum Pr; d_todo : list VMessage }.

  Inductive event :=
  | EPre (from : Verifier) (m : Message) (o : PreOutcome)
  | EProc (m : VMessage)
  | EArt (g : rng) (dest : Verifier) (art : SArtifact Pr)
  | EFin (g : rng).

  (** One successful API call of a driver that processes only messages handed out to it and finalizes only on [Yes].
      Messages may be processed in any order, or never. *)
  Inductive step : DState -> event -> DState -> Prop :=
  | step_pre s a todo from m a' o :
      preprocess_message s a from m = (a', Ok o) ->
      step (DS s a todo) (EPre from m o) (DS s a' (match o with ToProcess vm => vm :: todo | _ => todo end))
  | step_proc s a t1 vm t2 a' :
      add_processed s a (process_message s vm) = (a', Ok tt) ->
      step (DS s a (t1 ++ vm :: t2)) (EProc vm) (DS s a' (t1 ++ t2))
  | step_art s a todo g dest m art a' :
      mem dest (message_destinations s) = true ->
      make_message s g dest = Ok (m, (dest, art)) ->
      add_artifact a (dest, art) = (a', Ok tt) ->
      step (DS s a todo) (EArt g dest art) (DS s a' todo)
  | step_fin s a todo g s' cached :
      can_finalize a = Yes ->
      finalize_round s g a = Ok (ROAnother s' cached) ->
      step (DS s a todo) (EFin g) (DS s' (make_accumulator s') cached).

  (** A history: the events in chronological order. *)
  Inductive run : DState -> list event -> DState -> Prop :=
  | run_nil d : run d [] d
  | run_snoc d es d1 e d2 : run d es d1 -> step d1 e d2 -> run d (es ++ [e]) d2.

  (** A history within one round. *)
  Definition is_fin (e : event) : bool := match e with EFin _ => true | _ => false end.
  Definition in_round (es : list event) : Prop := forallb (fun e => negb (is_fin e)) es = true.

  (** The state right after creating a session, and everything reachable from it. *)
  Definition start (s : Session Pr) : DState := DS s (make_accumulator s) [].
  Definition initial (s : Session Pr) : Prop := exists g sid signer ep, session_new g sid signer ep = Ok s.
  Definition reachable (d : DState) : Prop := exists s es, initial s /\ run (start s) es d.

  (** The state in which a round of a reachable session begins: a fresh accumulator, and the messages returned by
      the previous [finalize_round] waiting to be delivered. *)
  Definition round_start (d : DState) : Prop :=
    (exists s, initial s /\ d = start s) \/
    (exists s a todo g s' c, reachable (DS s a todo) /\ can_finalize a = Yes /\
       finalize_round s g a = Ok (ROAnother s' c) /\ d = DS s' (make_accumulator s') c).

  (** Protocol round ids are ordinary ids, not echo ids. ([RoundId::echo] is private to the library, so a protocol cannot
      build an echo id.) *)
  Definition plain_ids : Prop := forall st : St Pr, rid_echo (ti_id (tinfo Pr st)) = false.

  (** Evidence [e] is recorded for [v]; an unprovable error is recorded for [v]. *)
  Definition has_evidence (d : DState) (v : Verifier) (e : Evidence) : Prop :=
    get v (tr_provable (s_tr (d_s d))) = Some e \/ get v (a_provable (d_a d)) = Some e.
  Definition has_unprovable (d : DState) (v : Verifier) : Prop :=
    (exists e, get v (tr_unprovable (s_tr (d_s d))) = Some e) \/ (exists e, get v (a_unprovable (d_a d)) = Some e).

  (** The report of a session that ends now, in one of the three possible ways. *)
  Definition ends_with (d : DState) (rep : Report (Rslt Pr)) : Prop :=
    (exists g, finalize_round (d_s d) g (d_a d) = Ok (ROFinished rep)) \/
    terminate (d_s d) (d_a d) = Ok rep \/ terminate_due_to_errors (d_s d) (d_a d) = Ok rep.

  (** The transcript and the error contain everything needed to assemble evidence of a protocol error of [v]: the error
      serializes, and the required earlier messages of [v] have been received. *)
  Definition evidence_available (t : Transcript) (v : Verifier) (e : BoxedError) : Prop :=
    be_ser e <> None /\
    (forall prev rid rq, rq_prev (be_required e) = Some prev -> get rid prev = Some rq ->
       (rp_echo rq = true -> exists m p, get rid (tr_echo t) = Some m /\ get v m = Some p) /\
       (rp_normal rq = true -> exists m p, get rid (tr_normal t) = Some m /\ get v m = Some p) /\
       (rp_direct rq = true -> exists m p, get rid (tr_direct t) = Some m /\ get v m = Some p)) /\
    (forall comb rid, rq_comb (be_required e) = Some comb -> mem rid comb = true ->
       rid_echo rid = false /\
       (exists m p, get (mkRid (rid_round rid) (rid_groups rid) true) (tr_normal t) = Some m /\ get v m = Some p) /\
       (exists m, get rid (tr_echo t) = Some m)).

  (** Rounds that take part in echoing accept only messages that do carry an echo broadcast. *)
  Definition echo_rounds_have_broadcasts : Prop := forall st : St Pr,
    (exists targets, ci_part (cinfo Pr st) = EPReceive targets) \/
    (ci_part (cinfo Pr st) = EPDefault /\ exists g b, mk_echo Pr st g = Ok (Some b)) ->
    forall from m p, receive Pr st from m = Ok p -> dm_echo m <> None.

  (** The protocol's own message handling never panics. *)
  Definition receive_total : Prop := forall (st : St Pr) from m, receive Pr st from m <> Panic.

  (** What the history of a round says about a party. *)
  Definition heard (es : list event) (v : Verifier) : Prop :=
    exists vm, In (EProc vm) es /\ vm_from vm = v.
  Definition accepted (s : Session Pr) (es : list event) (v : Verifier) (p : SPayload Pr) : Prop :=
    exists vm, In (EProc vm) es /\ vm_from vm = v /\
      rd_receive (s_round s) v (mkDynMsg (sp_body (vm_echo vm)) (sp_body (vm_normal vm)) (sp_body (vm_direct vm))) = Ok p.
  Definition expected (s : Session Pr) (v : Verifier) : Prop := mem v (ci_expect (s_comm s)) = true.

  (** This session executes an echo round (created by the library, not by the protocol). *)
  Definition in_echo_round (s : Session Pr) : Prop :=
    exists v echos info main ps arts, s_round s = REcho v echos info main ps arts.

  (** The echo round of a round. *)
  Definition echo_of (r : RoundId) : RoundId := mkRid (rid_round r) (rid_groups r) true.

  (** What the protocol's [finalize] may receive for a round with history [es] of session [s]. *)
  Record proper_inputs (s : Session Pr) (st : St Pr) (es : list event) (ps : bmap Verifier (Payload Pr)) (arts : bmap Verifier (Artifact Pr)) : Prop := {
    pi_who : forall v, contains v ps = true <-> mem v (ci_expect (cinfo Pr st)) = true;
    pi_payload : forall v p, get v ps = Some p -> exists vm, In (EProc vm) es /\ vm_from vm = v /\
       vmessage_authentic (s_id s) (ti_id (tinfo Pr st)) vm /\
       receive Pr st v (mkDynMsg (sp_body (vm_echo vm)) (sp_body (vm_normal vm)) (sp_body (vm_direct vm))) = Ok p;
    pi_artifact : forall v x, get v arts = Some x <-> exists g, In (EArt g v (AVal x)) es;
    pi_artifact_made : forall g v x, In (EArt g v (AVal x)) es ->
       mem v (ci_dest (cinfo Pr st)) = true /\ exists b, mk_direct Pr st (rsub 0 g) v = Ok (b, x)
  }.

  (** How the protocol's answer is reported. *)
  Definition reported (out : Outcome (St Pr) (Rslt Pr)) (ro : RoundOutcome Pr) : Prop :=
    match out, ro with
    | AnotherRound st', ROAnother s' _ => s_round s' = RMain st'
    | Finished_ x, ROFinished rep => rep_outcome rep = OResult x
    | _, _ => False
    end.

  (** The number of rounds finalized in a history. *)
  Definition fins (es : list event) : nat := List.length (filter is_fin es).

  (** The message [vm] was cached for round [rid] in the history [es]. *)
  Definition cached_for (es : list event) (rid : RoundId) (vm : VMessage) : Prop :=
    exists m, In (EPre (vm_from vm) m Cached) es /\ m_round (sp_meta (msg_direct m)) = rid /\ is_message_of (vm_from vm) m vm.

  (** ** Sequences of receiving operations, with their outcomes *)
  Inductive op := OPre (from : Verifier) (m : Message) | OAdd (vm : VMessage).
  Inductive op_result := RPre (r : res LocalError PreOutcome) | RAdd (r : res LocalError unit).
  Definition op_sender (o : op) : Verifier := match o with OPre from _ => from | OAdd vm => vm_from vm end.

  Definition do_op (s : Session Pr) (a : Accum Pr) (o : op) : Accum Pr * op_result :=
    match o with
    | OPre from m => let '(a', r) := preprocess_message s a from m in (a', RPre r)
    | OAdd vm => let '(a', r) := add_processed s a (process_message s vm) in (a', RAdd r)
    end.
  Fixpoint do_ops (s : Session Pr) (a : Accum Pr) (l : list op) : Accum Pr * list (Verifier * op_result) :=
    match l with
    | [] => (a, [])
    | o :: l => let '(a', r) := do_op s a o in
                let '(a'', rs) := do_ops s a' l in (a'', (op_sender o, r) :: rs)
    end.
  (** The operations (outcomes) concerning one sender. *)
  Definition ops_of (v : Verifier) (l : list op) : list op := filter (fun o => eqb v (op_sender o)) l.
  Definition results_of (v : Verifier) (l : list (Verifier * op_result)) : list (Verifier * op_result) :=
    filter (fun vr => eqb v (fst vr)) l.
End WithParams.
Arguments DState {P} Pr.
Arguments event {P} Pr.
Arguments plain_ids {P} Pr.
Arguments echo_rounds_have_broadcasts {P} Pr.
Arguments receive_total {P} Pr.
