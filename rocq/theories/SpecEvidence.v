(** Vocabulary of the properties about echo rounds and evidence. No proofs here. *)
From Coq Require Import List NArith Bool.
From Verif Require Import Base BMap Errors RoundId Message Protocol Transcript Evidence Session Spec SpecCrypto.
Import ListNotations.
Set Implicit Arguments.

(** The wire format restores what it serialized (echo round messages). *)
Definition echo_codec (P : Params) : Prop := forall m b, ser_echo m = Some b -> deser_echo b = Some m.

(** The round that an echo round belongs to. *)
Definition main_of (r : RoundId) : RoundId := mkRid (rid_round r) (rid_groups r) false.

Section WithParams.
  Context {P : Params}.

  (** A transcript map contains the part [p] of party [v] for round [rid]. *)
  Definition recorded {k} (m : bmap RoundId (bmap Verifier (SPart k))) (rid : RoundId) (v : Verifier) (p : SPart k) : Prop :=
    exists x, get rid m = Some x /\ get v x = Some p.

  (** Evidence of a malformed message part. *)
  Definition malformed (ev : Evidence) : Prop :=
    match ev_body ev with EvDirect _ | EvEcho _ | EvNormal _ => True | _ => False end.

  (** Evidence body [b] contains a part or hash with a valid signature of [v]. *)
  Definition carries_signature (v : Verifier) (b : EvEnum) : Prop :=
    match b with
    | EvDirect p => part_signed v p
    | EvEcho p => part_signed v p
    | EvNormal p => part_signed v p
    | EvInvalidEcho p _ => part_signed v p
    | EvMismatched _ w h => part_signed v w \/ hash_signed v h
    | EvProtocol e =>
        (exists p, pe_direct e = Some p /\ part_signed v p) \/ (exists p, pe_echo e = Some p /\ part_signed v p) \/
        (exists p, pe_normal e = Some p /\ part_signed v p)
    end.

  (** The parts of a message as given to a round. *)
  Definition contents (m : Message) : DynMsg :=
    mkDynMsg (sp_body (msg_echo m)) (sp_body (msg_normal m)) (sp_body (msg_direct m)).

  (** The required part [o] of an earlier message: the recorded one if it is required, else absent. *)
  Definition required_part {k} (b : bool) (m : bmap RoundId (bmap Verifier (SPart k))) rid v (o : option body) : Prop :=
    if b then exists p, recorded m rid v p /\ o = Some (sp_body p) else o = None.

  (** The earlier messages of [v] required by [q], as recorded in [t]. *)
  Definition required_earlier (t : Transcript) (v : Verifier) (q : Required) (prev : bmap RoundId EvMsg) : Prop :=
    forall rid em, get rid prev = Some em <->
      exists pm rq, rq_prev q = Some pm /\ get rid pm = Some rq /\
        (rp_echo rq = true \/ rp_normal rq = true \/ rp_direct rq = true) /\
        required_part (rp_direct rq) (tr_direct t) rid v (em_direct em) /\
        required_part (rp_normal rq) (tr_normal t) rid v (em_normal em) /\
        required_part (rp_echo rq) (tr_echo t) rid v (em_echo em).

  (** The echo broadcasts of round [rid] that [v] echoed, as recorded in [t]. *)
  Definition echoed_by (t : Transcript) (v : Verifier) (rid : RoundId) (bodies : bmap Verifier body) : Prop :=
    forall u b, get u bodies = Some b <->
      exists n msg p, recorded (tr_normal t) (echo_of rid) v n /\ body_echo_msg (sp_body n) = Some msg /\
        contains u msg = true /\ recorded (tr_echo t) rid u p /\ b = sp_body p.
  Definition required_echoed (t : Transcript) (v : Verifier) (q : Required) (comb : bmap RoundId (bmap Verifier body)) : Prop :=
    forall rid bodies, get rid comb = Some bodies <->
      exists cs, rq_comb q = Some cs /\ mem rid cs = true /\ echoed_by t v rid bodies.

  Context {Pr : Proto}.

  (** In an echo round: the echo broadcast of [v] (in the round being echoed) that this session holds. *)
  Definition held_echo (s : Session Pr) (v : Verifier) (p : SPart KEcho) : Prop :=
    recorded (tr_echo (s_tr s)) (main_of (s_round_id s)) v p.

  (** The protocol round whose broadcasts are being echoed. *)
  Definition echoing (s : Session Pr) (st : St Pr) : Prop :=
    exists v echos info ps arts, s_round s = REcho v echos info (RMain st) ps arts.

  (** The static round information of the protocol agrees with its rounds: a part that a round finds malformed is found
      malformed by the information for that round's id. *)
  Definition info_consistent : Prop := forall st : St Pr, exists ri, round_info Pr (ti_id (tinfo Pr st)) = Some ri /\
    forall from m,
      (receive Pr st from m = Err RDirect -> ri_direct ri (dm_direct m) = Ok tt) /\
      (receive Pr st from m = Err REchoB -> ri_echo ri (dm_echo m) = Ok tt) /\
      (receive Pr st from m = Err RNormal -> ri_normal ri (dm_normal m) = Ok tt).

  (** Protocol rounds report no errors that belong to echo rounds (there is no public way to build one). *)
  Definition no_echo_errors : Prop := forall (st : St Pr) from m e, receive Pr st from m <> Err (REchoRound e).

  (** A protocol does not find its own messages malformed. *)
  Definition own_parts_valid : Prop := forall st : St Pr, exists ri, round_info Pr (ti_id (tinfo Pr st)) = Some ri /\
    (forall g dest b x, mk_direct Pr st g dest = Ok (b, x) -> ri_direct ri b <> Ok tt) /\
    (forall g b, mk_echo Pr st g = Ok b -> ri_echo ri b <> Ok tt) /\
    (forall g b, mk_normal Pr st g = Ok b -> ri_normal ri b <> Ok tt).

  (** Everything signed with the key of [v] is a part of a message that a session of [v] made for one of its destinations. *)
  Definition signs_only_sent_messages (v : Verifier) : Prop := forall k (p : SPart k), part_signed v p ->
    exists (d : DState Pr) g dest m art, reachable d /\ s_verifier (d_s d) = v /\
      mem dest (message_destinations (d_s d)) = true /\ make_message (d_s d) g dest = Ok (m, art) /\
      sp_meta p = sp_meta (msg_part k m) /\ sp_body p = sp_body (msg_part k m).
End WithParams.
Arguments info_consistent {P} Pr.
Arguments no_echo_errors {P} Pr.
Arguments own_parts_valid {P} Pr.
Arguments signs_only_sent_messages {P} Pr v.
