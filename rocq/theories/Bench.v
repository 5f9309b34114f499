(** The protocols of the benchmarks manul/benches/empty_rounds.rs and manul/benches/async_session.rs, as typed rounds.
    The two files differ in the direct message: empty in the first one, the result of some work in the second one. *)
From Coq Require Import List NArith Bool.
From Verif Require Import Base BMap Errors RoundId Message Protocol Typed Simple.
Import ListNotations.
Set Implicit Arguments.

(** What the rounds send as direct message, and how they check it; the argument is [round_counter]. *)
Record Work := mkWork { wk_type : Type; wk_make : N -> res LocalError wk_type; wk_check : N -> wk_type -> res (TRecvErr Empty_set) unit }.

(** empty_rounds.rs:108-122, 169-183 *)
Definition empty_work : Work := mkWork (fun _ => Ok tt) (fun _ _ => Ok tt).

(** async_session.rs:20-28; no product overflows [u128], since [x < 2^64] (see [do_work_small]). *)
Definition work_modulus : N := (N.shiftl 1 64 - 59)%N.
Definition do_work (seed : N) : N := N.iter 1000000 (fun x => N.modulo (x * x) work_modulus)%N seed.
(** async_session.rs:122-140, 188-206; [round_counter + 2] may overflow. *)
Definition async_work : Work :=
  mkWork (fun c => let* s := u8_add c 2 in Ok (do_work s))
         (fun c x => let* s := u8_add c 2 in if N.eqb x (do_work s) then Ok tt else Err (TLocal (LE_Protocol 0))).

Section WithParams.
  Context {P : Params}.
  (** The wire formats of the two message types, and the deserialization of [NoProtocolErrors]. *)
  Context (W : Work) (direct_codec : Codec (wk_type W)) (echo_codec : Codec unit) (no_error : bytes -> bool).

  (** [EmptyRound] and [EmptyRoundWithEcho]. *)
  Inductive BenchK := BEmpty | BEcho.
  Inductive BenchTy := BPay | BArt | BNoArt.
  Definition bench_k_dec (a b : BenchK) : {a = b} + {a <> b}. Proof. decide equality. Defined.
  Definition bench_ty_dec (a b : BenchTy) : {a = b} + {a <> b}. Proof. decide equality. Defined.
  Definition bench_ty (t : BenchTy) : Type := unit.

  (** empty_rounds.rs:42-47 *)
  Record BInputs := mkBInputs { bi_rounds : N; bi_echo : bool; bi_others : bset Verifier }.
  (** empty_rounds.rs:30-40 *)
  Record BState := mkBState { bs_counter : N; bs_inputs : BInputs }.

  (** empty_rounds.rs:96-102, 153-159. [new_linear] overflows for [u8::MAX] only, which the counter does not reach unless
      [rounds_num] is 0 or 255; in the first case nothing gets that far (C75), in the second one this is the last round. *)
  Definition bench_tinfo (s : BState) : TransitionInfo :=
    if N.eqb (bi_rounds (bs_inputs s)) (bs_counter s) then new_linear_terminating (bs_counter s)
    else match new_linear (bs_counter s) with Ok t => t | _ => new_linear_terminating (bs_counter s) end.
  (** empty_rounds.rs:104-106, 161-163 *)
  Definition bench_comm (s : BState) : CommInfo := regular (bi_others (bs_inputs s)).
  (** empty_rounds.rs:165-167; [EmptyRound] does not have this method. *)
  Definition bench_mk_echo (_ : BState) (_ : rng) : res LocalError unit := Ok tt.
  (** empty_rounds.rs:108-114, 169-175 *)
  Definition bench_mk_direct (s : BState) (_ : rng) (_ : Verifier) : res LocalError (wk_type W * unit) :=
    let* x := wk_make W (bs_counter s) in Ok (x, tt).
  (** empty_rounds.rs:116-122, 177-183 *)
  Definition bench_receive (s : BState) (_ : Verifier) (x : wk_type W) (_ _ : unit) : res (TRecvErr Empty_set) unit :=
    wk_check W (bs_counter s) x.
  (** empty_rounds.rs:124-139, 185-200: both rounds go on to an [EmptyRound]. *)
  Definition bench_finalize (s : BState) : res LocalError (Outcome {k : BenchK & BState} unit) :=
    if N.eqb (bs_counter s) (bi_rounds (bs_inputs s)) then Ok (Finished_ tt)
    else let* c := u8_add (bs_counter s) 1 in Ok (AnotherRound (existT _ BEmpty (mkBState c (bs_inputs s)))).

  (** empty_rounds.rs:19-28, 85-201; [round_info] is [unimplemented!()], so that evidence cannot be looked into: the model
      knows no round instead of panicking. *)
  Definition bench : TProto := {|
    TK := BenchK; tk_dec := bench_k_dec; TyId := BenchTy; ty_dec := bench_ty_dec; ty := bench_ty;
    noart := BNoArt; noart_val := tt; TRslt := unit; TShared := unit; tst := fun _ => BState;
    t_direct := fun _ => msg direct_codec; t_echo := fun _ => msg echo_codec; t_normal := fun _ => NoMsg; t_err := fun _ => NoErrors no_error;
    t_pay := fun _ => BPay; t_art := fun _ => BArt;
    t_tinfo := fun _ => bench_tinfo;
    t_cinfo := fun _ => bench_comm;
    t_mk_direct := fun _ => Some bench_mk_direct;
    t_mk_echo := fun k => match k with BEmpty => None | BEcho => Some bench_mk_echo end;
    t_mk_normal := fun _ => None;
    t_receive := fun _ => bench_receive;
    t_finalize := fun _ s _ _ _ => bench_finalize s;
    t_info := fun _ => None
  |}.

  (** empty_rounds.rs:59-83 *)
  Definition bench_entry (s : BInputs) : EntryPoint (wrap bench) := {|
    ep_id := rid_new 1;
    ep_make := fun _ _ _ =>
      Ok (box bench (if bi_echo s then BEcho else BEmpty) (mkBState 1 s) : St (wrap bench))
  |}.
End WithParams.
