(** The dynamic protocol layer: manul/src/protocol/{round,dyn_round,round_info,evidence,dyn_evidence}.rs. *)
From Coq Require Import List NArith Bool.
From Verif Require Import Base BMap Errors RoundId Message.
Import ListNotations.
Set Implicit Arguments.

(** [RequiredMessageParts] (protocol/evidence.rs:281-285). *)
Record ReqParts := mkReqParts { rp_echo : bool; rp_normal : bool; rp_direct : bool }.

(** protocol/evidence.rs:288-296: the [debug_assert!] is a panic. *)
Definition req_new (e n d : bool) : res LocalError ReqParts :=
  if (e || n || d)%bool then Ok (mkReqParts e n d) else Panic.
(** protocol/evidence.rs:299-326 *)
Definition req_echo : res LocalError ReqParts := req_new true false false.
Definition req_normal : res LocalError ReqParts := req_new false true false.
Definition req_direct : res LocalError ReqParts := req_new false false true.
Definition and_echo (p : ReqParts) : res LocalError ReqParts := req_new true (rp_normal p) (rp_direct p).
Definition and_normal (p : ReqParts) : res LocalError ReqParts := req_new (rp_echo p) true (rp_direct p).
Definition and_direct (p : ReqParts) : res LocalError ReqParts := req_new (rp_echo p) (rp_normal p) true.

(** [RequiredMessages] (protocol/evidence.rs:332-336). *)
Record Required := mkRequired {
  rq_this : ReqParts;
  rq_prev : option (bmap RoundId ReqParts);
  rq_comb : option (bset RoundId)
}.

(** protocol/evidence.rs:361-381 *)
Definition rq_group_under (q : Required) (g : N) : Required :=
  mkRequired (rq_this q)
    (option_map (fun m => of_list (map (fun kv => (group_under (fst kv) g, snd kv)) (to_list m))) (rq_prev q))
    (option_map (fun s => group_set g s) (rq_comb q)).

(** [BoxedProtocolError] (protocol/dyn_evidence.rs:31-34). The boxed error object is represented by the outcome of
    serializing it ([None]: serialization fails); its description is not modelled. *)
Record BoxedError := mkBoxedError { be_required : Required; be_ser : option bytes }.

(** protocol/dyn_evidence.rs:53-58 *)
Definition be_group_under (e : BoxedError) (g : N) : BoxedError :=
  mkBoxedError (rq_group_under (be_required e) g) (be_ser e).

(** [EvidenceProtocolMessage] (protocol/evidence.rs:52-56). *)
Record EvMsg := mkEvMsg { em_direct : option body; em_normal : option body; em_echo : option body }.

(** [DynProtocolMessage] (protocol/message.rs:223-230). *)
Record DynMsg := mkDynMsg { dm_echo : body; dm_normal : body; dm_direct : body }.

(** [FinalizeOutcome] (protocol/round.rs:288-293). *)
Inductive Outcome (S R : Type) := AnotherRound (s : S) | Finished_ (r : R).
Arguments AnotherRound {S R} _.
Arguments Finished_ {S R} _.

Section WithParams.
  Context {P : Params}.

  (** [EchoRoundParticipation] (protocol/round.rs:340-355). *)
  Inductive EchoPart := EPDefault | EPSend | EPReceive (targets : bset Verifier).

  (** [CommunicationInfo] (protocol/round.rs:248-270). *)
  Record CommInfo := mkComm {
    ci_dest : bset Verifier;
    ci_expect : bset Verifier;
    ci_part : EchoPart
  }.

  (** protocol/round.rs:277-283 *)
  Definition regular (others : bset Verifier) : CommInfo := mkComm others others EPDefault.

  (** [EchoRoundError] (session/echo.rs:30-48, 88-92). *)
  Inductive EchoErr :=
  | InvalidEcho (invalid_echo_sender : Verifier)
  | Mismatched (guilty : Verifier) (we_received : SPart KEcho) (echoed_to_us : SHash).

  (** [BoxedReceiveError] (protocol/dyn_round.rs:340-354); deserialization error texts are dropped. *)
  Inductive RecvErr :=
  | RL (e : LocalError)
  | RDirect
  | REchoB
  | RNormal
  | RProtocol (e : BoxedError)
  | RUnprovable (e : RemoteError)
  | REchoRound (e : EchoErr).

  (** protocol/dyn_round.rs:365-371 *)
  Definition re_group_under (g : N) (e : RecvErr) : RecvErr :=
    match e with RProtocol e => RProtocol (be_group_under e g) | e => e end.

  (** [DynRoundInfo] (protocol/round_info.rs:13-44). *)
  Record RInfo (Shared : Type) := mkRInfo {
    ri_direct : body -> res EvidenceError unit;
    ri_echo : body -> res EvidenceError unit;
    ri_normal : body -> res EvidenceError unit;
    ri_verify : RoundId -> bytes -> Verifier -> bytes -> Shared -> EvMsg -> bmap RoundId EvMsg ->
                bmap RoundId (bmap Verifier body) -> res EvidenceError unit
  }.

  (** [Protocol] (protocol/round.rs:296-306) together with the methods of the [DynRound] (protocol/dyn_round.rs:70-109)
      objects of that protocol. [St] is the type of round objects. [Payload]/[Artifact] stand for the contents of the
      boxed [dyn Any] payloads/artifacts its rounds create. User code is total and, except in [ri_verify] (see
      [NoProtocolErrors]), may only fail by returning errors. *)
  Record Proto := mkProto {
    St : Type;
    Rslt : Type;
    Shared : Type;
    Payload : Type;
    Artifact : Type;
    tinfo : St -> TransitionInfo;
    cinfo : St -> CommInfo;
    mk_direct : St -> rng -> Verifier -> res LocalError (body * Artifact);
    mk_echo : St -> rng -> res LocalError body;
    mk_normal : St -> rng -> res LocalError body;
    receive : St -> Verifier -> DynMsg -> res RecvErr Payload;
    finalize : St -> rng -> bmap Verifier Payload -> bmap Verifier Artifact -> res LocalError (Outcome St Rslt);
    round_info : RoundId -> option (RInfo Shared)
  }.

  (** [EntryPoint] (protocol/round.rs:313-331). *)
  Record EntryPoint (Pr : Proto) := mkEP {
    ep_id : RoundId;
    ep_make : rng -> bytes -> Verifier -> res LocalError (St Pr)
  }.
End WithParams.
Arguments mkEP {P Pr} _ _.
Arguments ep_id {P Pr} _.
Arguments ep_make {P Pr} _ _ _ _.
Arguments tinfo {P} _ _.
Arguments cinfo {P} _ _.
Arguments mk_direct {P} _ _ _ _.
Arguments mk_echo {P} _ _ _.
Arguments mk_normal {P} _ _ _.
Arguments receive {P} _ _ _ _.
Arguments finalize {P} _ _ _ _ _.
Arguments round_info {P} _ _.
Arguments mkRInfo {P Shared} _ _ _ _.
Arguments Proto P : clear implicits.
Arguments Proto {P}.
Arguments EchoErr {P}.
Arguments RecvErr {P}.
Arguments CommInfo {P}.
