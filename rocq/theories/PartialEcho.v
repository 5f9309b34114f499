(** The protocol of the test manul/src/tests/partial_echo.rs, as a typed round. *)
From Coq Require Import List NArith Bool.
From Verif Require Import Base BMap Errors RoundId Message Protocol Typed Simple.
Import ListNotations.
Set Implicit Arguments.

Section WithParams.
  Context {P : Params}.
  (** The wire format for [Round1Echo] (a wrapper around the id), and the deserialization of [NoProtocolErrors]. *)
  Context (echo_codec : Codec Verifier) (no_error : bytes -> bool).

  Inductive PartialK := PR1.
  Inductive PartialTy := PUnit | PNoArt.
  Definition partial_k_dec (a b : PartialK) : {a = b} + {a <> b}. Proof. decide equality. Defined.
  Definition partial_ty_dec (a b : PartialTy) : {a = b} + {a <> b}. Proof. decide equality. Defined.
  Definition partial_ty (t : PartialTy) : Type := unit.

  (** partial_echo.rs:36-47; [Round1] consists of its inputs. *)
  Record Inputs := mkInputs { in_id : Verifier; in_dest : bset Verifier; in_from : bset Verifier; in_part : EchoPart }.

  (** 86-92 *)
  Definition partial_comm (s : Inputs) : CommInfo := mkComm (in_dest s) (in_from s) (in_part s).
  (** 94-105 *)
  Definition partial_mk_echo (s : Inputs) (_ : rng) : res LocalError Verifier :=
    if is_empty (in_dest s) then Panic else Ok (in_id s).
  (** 107-121 *)
  Definition partial_receive (s : Inputs) (from : Verifier) (_ : unit) (sender : Verifier) (_ : unit) : res (TRecvErr Empty_set) unit :=
    if is_empty (in_from s) then Panic
    else if negb (eqb sender from) then Panic
    else if negb (mem from (in_from s)) then Panic
    else Ok tt.

  (** 24-34, 71-131 *)
  Definition partial_echo : TProto := {|
    TK := PartialK; tk_dec := partial_k_dec; TyId := PartialTy; ty_dec := partial_ty_dec; ty := partial_ty;
    noart := PNoArt; noart_val := tt; TRslt := unit; TShared := unit; tst := fun _ => Inputs;
    t_direct := fun _ => NoMsg; t_echo := fun _ => msg echo_codec; t_normal := fun _ => NoMsg; t_err := fun _ => NoErrors no_error;
    t_pay := fun _ => PUnit; t_art := fun _ => PNoArt;
    t_tinfo := fun _ _ => new_linear_terminating 1;
    t_cinfo := fun _ => partial_comm;
    t_mk_direct := fun _ => None; t_mk_echo := fun _ => Some partial_mk_echo; t_mk_normal := fun _ => None;
    t_receive := fun _ => partial_receive;
    t_finalize := fun _ _ _ _ _ => Ok (Finished_ tt);
    t_info := fun rid => if eqb rid (rid_new 1) then Some PR1 else None
  |}.

  (** 54-69 *)
  Definition partial_entry (s : Inputs) : EntryPoint (wrap partial_echo) := {|
    ep_id := rid_new 1;
    ep_make := fun _ _ _ => Ok (box partial_echo PR1 s : St (wrap partial_echo))
  |}.
End WithParams.
