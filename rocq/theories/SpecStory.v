(** Vocabulary of the properties about what sessions and entry points do, in terms of the rounds. No proofs here. *)
From Coq Require Import List NArith Bool.
From Verif Require Import Base BMap Errors RoundId Message Protocol Transcript Evidence Session Typed Simple Spec.
Import ListNotations.
Set Implicit Arguments.

Section WithParams.
  Context {P : Params}.
  Context (Pr : Proto).

  (** An entry point is right about the id of the round it makes. *)
  Definition names_its_round (ep : EntryPoint Pr) : Prop :=
    forall g sid me st, ep_make ep g sid me = Ok st -> ti_id (tinfo Pr st) = ep_id ep.

  (** In the history [es] of a session with id [sid], the payloads [ps] for round [st] were obtained: one from each
      party the round expects, each from a message that this party signed for this session and this round. *)
  Definition obtained (es : list (event Pr)) (sid : bytes) (st : St Pr) (ps : bmap Verifier (Payload Pr)) : Prop :=
    (forall v, contains v ps = true <-> mem v (ci_expect (cinfo Pr st)) = true) /\
    (forall v p, get v ps = Some p -> exists vm, In (EProc vm) es /\ vm_from vm = v /\
       vmessage_authentic sid (ti_id (tinfo Pr st)) vm /\
       receive Pr st v (mkDynMsg (sp_body (vm_echo vm)) (sp_body (vm_normal vm)) (sp_body (vm_direct vm))) = Ok p).
  (** And the artifacts [arts] were made by the round, for parties it sends messages to. *)
  Definition own (st : St Pr) (arts : bmap Verifier (Artifact Pr)) : Prop :=
    forall v x, get v arts = Some x -> mem v (ci_dest (cinfo Pr st)) = true /\ exists g b, mk_direct Pr st g v = Ok (b, x).

  (** From round [st0], the rounds got to round [st] by these messages. *)
  Inductive brings (es : list (event Pr)) (sid : bytes) : St Pr -> St Pr -> Prop :=
  | brings_refl st : brings es sid st st
  | brings_step st0 st g ps arts st' : brings es sid st0 st -> obtained es sid st ps -> own st arts ->
      finalize Pr st g ps arts = Ok (AnotherRound st') -> brings es sid st0 st'.
End WithParams.
Arguments names_its_round {P Pr} ep.
Arguments obtained {P Pr} es sid st ps.
Arguments own {P Pr} st arts.
Arguments brings {P Pr} es sid _ _.

(** For typed rounds: [q] is what round [x] of kind [k] made of messages signed by their senders for this session and
    this round, one from each party it expects. *)
Definition said {P : Params} (T : TProto) (es : list (event (wrap T))) (sid : bytes) (k : TK T) (x : tst T k) (q : bmap Verifier (ty T (t_pay T k))) : Prop :=
  (forall v, contains v q = true <-> mem v (ci_expect (t_cinfo T k x)) = true) /\
  (forall v y, get v q = Some y -> exists vm d e n, In (EProc vm) es /\ vm_from vm = v /\
     vmessage_authentic sid (ti_id (t_tinfo T k x)) vm /\
     part_deser (t_direct T k) (sp_body (vm_direct vm)) = Some d /\ part_deser (t_echo T k) (sp_body (vm_echo vm)) = Some e /\
     part_deser (t_normal T k) (sp_body (vm_normal vm)) = Some n /\ t_receive T k x v d e n = Ok y).
Arguments said {P} T es sid k x q.

Section Said.
  Context {P : Params}.
  Context {Pr : Proto}.

  (** In the history [es] of a session with id [sid], [v] signed, for this session and round [rid], a direct message
      (a normal broadcast) that is [x] in the wire format [c]. *)
  Definition wrote {M} (es : list (event Pr)) (sid : bytes) (rid : RoundId) (c : Codec M) (v : Verifier) (x : M) : Prop :=
    exists vm b, In (EProc vm) es /\ vm_from vm = v /\ vmessage_authentic sid rid vm /\
      sp_body (vm_direct vm) = Some b /\ c_deser c b = Some x.
  Definition broadcast {M} (es : list (event Pr)) (sid : bytes) (rid : RoundId) (c : Codec M) (v : Verifier) (x : M) : Prop :=
    exists vm b, In (EProc vm) es /\ vm_from vm = v /\ vmessage_authentic sid rid vm /\
      sp_body (vm_normal vm) = Some b /\ c_deser c b = Some x.
End Said.
