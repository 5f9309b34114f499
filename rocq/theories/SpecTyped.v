(** Vocabulary of the properties about typed rounds. No proofs here. *)
From Coq Require Import List NArith Bool.
From Verif Require Import Base BMap Errors RoundId Message Protocol Transcript Evidence Session Typed Spec.
Import ListNotations.
Set Implicit Arguments.

Section Typed.
  Context {P : Params}.
  Context {T : TProto}.

  (** The round information is for the right round types. *)
  Definition info_typed : Prop := forall k (x : tst T k), t_info T (ti_id (t_tinfo T k x)) = Some k.

  (** What is serialized is restored by deserialization. *)
  Definition codec (m : MType) : Prop := match m with NoMsg => True | Msg _ ser deser => forall x b, ser x = Some b -> deser b = Some x end.
  Definition codecs : Prop := forall k, codec (t_direct T k) /\ codec (t_echo T k) /\ codec (t_normal T k).

  (** Rounds that only receive echo broadcasts do have a type for them. *)
  Definition echo_typed : Prop := forall k (x : tst T k) targets, ci_part (t_cinfo T k x) = EPReceive targets -> t_echo T k <> NoMsg.

  (** Typed values as stored by a session. *)
  Definition pay {k} (p : ty T (t_pay T k)) : any T := existT _ (t_pay T k) p.
  Definition artf {k} (p : ty T (t_art T k)) : any T := existT _ (t_art T k) p.

  (** The payloads [qs] and artifacts [as_] hold values of the types of round [x], which came from its own methods. *)
  Definition typed_inputs {k} (x : tst T k) (qs : bmap Verifier (SPayload (wrap T))) (as_ : bmap Verifier (SArtifact (wrap T)))
      (ps : bmap Verifier (ty T (t_pay T k))) (arts : bmap Verifier (ty T (t_art T k))) : Prop :=
    (forall v, get v qs = option_map (fun p => PVal (pay p : Payload (wrap T))) (get v ps)) /\
    (forall v, get v as_ = option_map (fun p => AVal (artf p : Artifact (wrap T))) (get v arts)) /\
    (forall v p, get v ps = Some p -> exists d e n, t_receive T k x v d e n = Ok p) /\
    (forall v y, get v arts = Some y -> exists g m, typed_direct T k x g v = Ok (m, y)).

  (** The protocol round being executed, with the inputs collected for it: those of the accumulator, or, in an echo round,
      those kept from the round that is being echoed. *)
  Definition collected (d : DState (wrap T)) {k} (x : tst T k) (qs : bmap Verifier (SPayload (wrap T))) (as_ : bmap Verifier (SArtifact (wrap T))) : Prop :=
    (s_round (d_s d) = RMain (box T k x : St (wrap T)) /\ qs = a_payloads (d_a d) /\ as_ = a_artifacts (d_a d)) \/
    (exists v e i, s_round (d_s d) = REcho v e i (RMain (box T k x : St (wrap T))) qs as_).

  (** The errors of a round: [NoProtocolErrors] cannot be deserialized from anything, and the checks of other error types
      do not panic. *)
  Definition errors_total : Prop := forall k, match t_err T k with
    | NoErrors deser => forall b, deser b = false
    | Errors _ _ _ _ verify => forall e rid v sid sd es, verify e rid v sid sd es <> Panic
    end.

End Typed.
Arguments info_typed {P} T.
Arguments codecs {P} T.
Arguments echo_typed {P} T.
Arguments errors_total {P} T.
