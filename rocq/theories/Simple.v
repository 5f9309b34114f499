(** examples/src/simple.rs: the example protocol, as typed rounds. *)
From Coq Require Import List NArith Bool.
From Verif Require Import Base BMap Errors RoundId Message Protocol Typed.
Import ListNotations.
Set Implicit Arguments.

(** The serialization of a type in the wire format of the session ([derive(Serialize, Deserialize)]). *)
Record Codec (T : Type) := mkCodec { c_ser : T -> option bytes; c_deser : bytes -> option T }.
Arguments mkCodec {T} _ _.
Definition msg {T} (c : Codec T) : MType := Msg T (c_ser c) (c_deser c).
Definition codec_ok {T} (c : Codec T) : Prop := forall x, exists b, c_ser c x = Some b /\ c_deser c b = Some x.

(** [u8] values are natural numbers here; addition of [u8]s panics on overflow (in debug builds; release builds wrap). *)
Definition u8_add {E} (a b : N) : res E N := if N.leb (a + b) u8_max then Ok (a + b)%N else Panic.
Definition u8_sum {E} (l : list N) : res E N := fold_res u8_add 0%N l.

Record Position := mkPosition { my_position : N; your_position : N }.  (* Round1Message, Round2Message *)
Record R1Broadcast := mkR1Broadcast { rb_x : N; rb_position : N }.

(** The wire format for the message and error types of the protocol. *)
Record SimpleWire := mkSimpleWire {
  sw_message1 : Codec Position;
  sw_echo1 : Codec N;
  sw_broadcast1 : Codec R1Broadcast;
  sw_message2 : Codec Position;
  sw_error1 : Codec unit;
  sw_error2 : Codec unit
}.

Section WithParams.
  Context {P : Params}.
  Context (W : SimpleWire).

  Inductive SimpleK := SR1 | SR2.
  Inductive SimpleTy := SPay | SUnit | SNoArt.
  Definition simple_k_dec (a b : SimpleK) : {a = b} + {a <> b}. Proof. decide equality. Defined.
  Definition simple_ty_dec (a b : SimpleTy) : {a = b} + {a <> b}. Proof. decide equality. Defined.
  Definition simple_ty (t : SimpleTy) : Type := match t with SPay => N | SUnit => unit | SNoArt => unit end.

  (** simple.rs:103-107, 109-112, 264-268 *)
  Record Ctx := mkCtx { cx_id : Verifier; cx_others : bset Verifier; cx_positions : bmap Verifier N }.
  Record Simple2 := mkSimple2 { s2_sum : N; s2_ctx : Ctx }.
  Definition simple_st (k : SimpleK) : Type := match k with SR1 => Ctx | SR2 => Simple2 end.

  (** [ids_to_positions[id]]: indexing panics when there is no such key. *)
  Definition position {E} (c : Ctx) (v : Verifier) : res E N := match get v (cx_positions c) with Some n => Ok n | None => Panic end.

  (** simple.rs:189-229, 285-320 *)
  Definition simple_direct (c : Ctx) (dest : Verifier) : res LocalError Position :=
    let* m := position c (cx_id c) in let* y := position c dest in Ok (mkPosition m y).
  Definition simple_receive {E} (err : E) (c : Ctx) (m : Position) : res (TRecvErr E) N :=
    let* me := position c (cx_id c) in
    if negb (N.eqb me (your_position m)) then Err (TProtocol err) else Ok (my_position m).
  (** simple.rs:245-246, 333-334 *)
  Definition simple_total (c : Ctx) (ps : bmap Verifier N) : res LocalError N :=
    let* me := position c (cx_id c) in let* sum := u8_sum (map snd (to_list ps)) in u8_add me sum.

  (** simple.rs:30-57, 59-87; [RequiredMessageParts::direct_message()] does not panic. *)
  Definition direct_only : ReqParts := mkReqParts false false true.
  Definition error1 : EType unit :=
    Errors unit (c_ser (sw_error1 W)) (c_deser (sw_error1 W)) (fun _ _ => mkRequired direct_only None None)
      (fun _ _ _ _ _ es => let* _ := es_direct_message (msg (sw_message1 W)) es in Ok tt).
  Definition error2 : EType unit :=
    Errors unit (c_ser (sw_error2 W)) (c_deser (sw_error2 W))
      (fun _ _ => mkRequired direct_only (Some (of_list [(rid_new 1, direct_only)])) (Some (set_of_list [rid_new 1])))
      (fun _ _ _ _ _ es =>
         let* _ := es_direct_message (msg (sw_message2 W)) es in
         let* _ := combined_echos (msg (sw_echo1 W)) es 1 in
         Ok tt).

  (** The round boxed as in [BoxedRound::new] (with a type annotation for the model). *)
  Definition simple_box (k : SimpleK) (x : simple_st k) : {k : SimpleK & simple_st k} := existT _ k x.

  Definition simple_errors (k : SimpleK) : EType unit := match k with SR1 => error1 | SR2 => error2 end.
  Definition simple_message (k : SimpleK) : MType := match k with SR1 => msg (sw_message1 W) | SR2 => msg (sw_message2 W) end.
  Definition simple_echo (k : SimpleK) : MType := match k with SR1 => msg (sw_echo1 W) | SR2 => NoMsg end.
  Definition simple_normal (k : SimpleK) : MType := match k with SR1 => msg (sw_broadcast1 W) | SR2 => NoMsg end.

  Definition simple_tinfo (k : SimpleK) (_ : simple_st k) : TransitionInfo :=
    match k with
    | SR1 => mkTI (rid_new 1) sempty sempty (set_of_list [rid_new 2]) false   (* new_linear(1) *)
    | SR2 => new_linear_terminating 2
    end.
  Definition simple_ctx (k : SimpleK) : simple_st k -> Ctx := match k with SR1 => fun c => c | SR2 => fun s => s2_ctx s end.

  (** simple.rs:178-260, 274-342 *)
  Definition simple : TProto := {|
    TK := SimpleK; tk_dec := simple_k_dec; TyId := SimpleTy; ty_dec := simple_ty_dec; ty := simple_ty;
    noart := SNoArt; noart_val := tt; TRslt := N; TShared := unit; tst := simple_st;
    t_direct := simple_message; t_echo := simple_echo; t_normal := simple_normal; t_err := simple_errors;
    t_pay := fun _ => SPay; t_art := fun _ => SUnit;
    t_tinfo := simple_tinfo;
    t_cinfo := fun k x => regular (cx_others (simple_ctx k x));
    t_mk_direct := fun k => Some match k return simple_st k -> rng -> Verifier -> res LocalError (mty (simple_message k) * unit) with
      | SR1 => fun c _ dest => let* m := simple_direct c dest in Ok (m, tt)
      | SR2 => fun s _ dest => let* m := simple_direct (s2_ctx s) dest in Ok (m, tt)
      end;
    t_mk_echo := fun k => match k return option (simple_st k -> rng -> res LocalError (mty (simple_echo k))) with
      | SR1 => Some (fun c _ => position c (cx_id c))
      | SR2 => None
      end;
    t_mk_normal := fun k => match k return option (simple_st k -> rng -> res LocalError (mty (simple_normal k))) with
      | SR1 => Some (fun c _ => let* m := position c (cx_id c) in Ok (mkR1Broadcast 0 m))
      | SR2 => None
      end;
    t_receive := fun k => match k return simple_st k -> Verifier -> mty (simple_message k) -> mty (simple_echo k) ->
        mty (simple_normal k) -> res (TRecvErr (ety (simple_errors k))) N with
      | SR1 => fun c _ m _ _ => simple_receive (tt : ety error1) c m
      | SR2 => fun s _ m _ _ => simple_receive (tt : ety error2) (s2_ctx s) m
      end;
    t_finalize := fun k => match k return simple_st k -> rng -> bmap Verifier N -> bmap Verifier unit ->
        res LocalError (Outcome {k : SimpleK & simple_st k} N) with
      | SR1 => fun c _ ps _ => let* sum := simple_total c ps in Ok (AnotherRound (simple_box SR2 (mkSimple2 sum c)))
      | SR2 => fun s _ ps _ => let* sum := simple_total (s2_ctx s) ps in
                               let* r := u8_add sum (s2_sum s) in Ok (Finished_ r)
      end;
    (* simple.rs:92-98 *)
    t_info := fun rid => if eqb rid (rid_new 1) then Some SR1 else if eqb rid (rid_new 2) then Some SR2 else None
  |}.

  (** simple.rs:146-176; [idx as u8] wraps. *)
  Definition enum_positions (ids : list Verifier) : bmap Verifier N :=
    of_list (map (fun nv => (snd nv, N.modulo (N.of_nat (fst nv)) 256)) (combine (seq 0 (length ids)) ids)).
  Definition simple_entry (all_ids : bset Verifier) : EntryPoint (wrap simple) := {|
    ep_id := rid_new 1;
    ep_make := fun _ _ id =>
      Ok (simple_box SR1 (mkCtx id (srem id all_ids) (enum_positions (elements all_ids))) : St (wrap simple))
  |}.
End WithParams.
