(** Vocabulary of C90. No proofs here. *)
From Coq Require Import List NArith Bool.
From Verif Require Import Base BMap Errors RoundId Message Protocol Transcript Evidence Typed Spec SpecEvidence.
Import ListNotations.
Set Implicit Arguments.

Section WithParams.
  Context {P : Params}.

  (** The content of a message part is the value [x] of the message type [m]. *)
  Definition contains_value (m : MType) (b : body) : mty m -> Prop :=
    match m return mty m -> Prop with
    | NoMsg => fun _ => b = None
    | Msg _ _ deser => fun x => exists p, b = Some p /\ deser p = Some x
    end.

  (** The part was signed by [v] for round [r] of session [sid]. *)
  Definition signed_for (v : Verifier) (sid : bytes) (r : RoundId) {k} (p : SPart k) : Prop :=
    part_signed v p /\ sp_meta p = mkMeta sid r.

  (** The check of a round's error type accepts: the error part of the evidence is an error of this type, and its own
      verification accepts it for the messages [es]. *)
  Definition check_accepts {Sh} (e : EType Sh) (rid : RoundId) (err : bytes) (v : Verifier) (sid : bytes) (sd : Sh) (es : EvMsgs) : Prop :=
    match e with
    | NoErrors _ => False
    | Errors E _ deser _ verify => exists x : E, deser err = Some x /\ verify x rid v sid sd es = Ok tt
    end.
End WithParams.
