(** Vocabulary of C128 (what the methods of typed rounds return reaches the session). No proofs here. *)
From Coq Require Import List NArith Bool.
From Verif Require Import Base BMap Errors RoundId Message Protocol Transcript Evidence Session Typed SpecTyped.
Import ListNotations.
Set Implicit Arguments.

(** The part [b] of a message is a message [x] of type [m]: an absent part is a [NoMessage]. *)
Definition part_is (m : MType) : body -> mty m -> Prop :=
  match m with
  | NoMsg => fun b _ => b = None
  | Msg T _ deser => fun b (x : T) => exists c, b = Some c /\ deser c = Some x
  end.
Definition no_part (m : MType) (b : body) : Prop := forall x : mty m, ~ part_is m b x.
(** The part [b] made of a message [x]. *)
Definition made_of (m : MType) : mty m -> body -> Prop :=
  match m with
  | NoMsg => fun _ b => b = None
  | Msg T ser _ => fun (x : T) b => exists c, b = Some c /\ ser x = Some c
  end.

Section Wrap.
  Context {P : Params}.
  Context {T : TProto}.

  (** What the session gets for the answer [o] of the round to a message: a payload in a box, the very error, or a provable error in
      its serialized form together with the list of messages it needs. *)
  Definition passed_on {k} (x : tst T k) (o : res (TRecvErr (ety (t_err T k))) (ty T (t_pay T k))) : res RecvErr (any T) -> Prop :=
    match o with
    | Ok p => fun a => a = Ok (pay p)
    | Panic => fun a => a = Panic
    | Err (TLocal e) => fun a => a = Err (RL e)
    | Err (TUnprovable e) => fun a => a = Err (RUnprovable e)
    | Err (TProtocol e) => fun a => exists be, a = Err (RProtocol be) /\
        match t_err T k as t return ety t -> Prop with
        | NoErrors _ => fun y => match y with end
        | Errors _ ser _ required _ => fun y => be_ser be = ser y /\ be_required be = required y (ti_id (t_tinfo T k x))
        end e
    end.
End Wrap.
