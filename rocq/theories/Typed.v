(** Typed rounds: the [Round] trait (manul/src/protocol/round.rs), its wrapper into the dynamic layer
    (manul/src/protocol/dyn_round.rs) and its static information (manul/src/protocol/round_info.rs). *)
From Coq Require Import List NArith Bool.
From Verif Require Import Base BMap Errors RoundId Message Protocol.
Import ListNotations.
Set Implicit Arguments.

(** The type of a message part ([Round::DirectMessage] etc.): [NoMessage], or a type with its serialization in the wire
    format of the session. *)
Inductive MType := NoMsg | Msg (T : Type) (ser : T -> option bytes) (deser : bytes -> option T).
Arguments Msg : clear implicits.
Definition mty (m : MType) : Type := match m with NoMsg => unit | Msg T _ _ => T end.

(** protocol/message.rs:50-59 *)
Definition part_new (m : MType) : mty m -> res LocalError body :=
  match m with
  | NoMsg => fun _ => Ok None
  | Msg _ ser _ => fun x => let* b := ok_or (ser x) LE_Serialize in Ok (Some b)
  end.

(** protocol/message.rs:108-122 *)
Definition part_deser (m : MType) (b : body) : option (mty m) :=
  match m with
  | NoMsg => match b with None => Some tt | Some _ => None end
  | Msg _ _ deser => match b with Some p => deser p | None => None end
  end.

(** protocol/dyn_round.rs:171-190: [assert_is_none] (protocol/message.rs:67-75) or [deserialize]. *)
Definition part_receive (m : MType) (b : body) : option (mty m) :=
  match m with
  | NoMsg => if is_none b then Some tt else None
  | Msg T ser deser => part_deser (Msg T ser deser) b
  end.

(** protocol/round_info.rs:55-92 with protocol/message.rs:82-105: [Ok] if the part is not of this type. *)
Definition part_invalid (m : MType) (b : body) : res EvidenceError unit :=
  match m with
  | NoMsg => if is_none b then Err EE_Invalid else Ok tt
  | Msg _ _ _ => match part_deser m b with None => Ok tt | Some _ => Err EE_Invalid end
  end.

Section WithParams.
  Context {P : Params}.

  (** The messages given to [ProtocolError::verify_evidence]: [EvidenceMessages] (protocol/evidence.rs:61-68). *)
  Record EvMsgs := mkEvMsgs {
    es_message : EvMsg;
    es_previous : bmap RoundId EvMsg;
    es_combined : bmap RoundId (bmap Verifier body)
  }.

  (** Accessors, protocol/evidence.rs:93-228. [m] is the message type of the round asked for. *)
  Definition es_part (m : MType) (o : option body) : res EvidenceError (mty m) :=
    let* b := ok_or o EE_Invalid in ok_or (part_deser m b) EE_Invalid.
  Definition es_prev (f : EvMsg -> option body) (m : MType) (es : EvMsgs) (n : N) : res EvidenceError (mty m) :=
    let* em := ok_or (get (rid_new n) (es_previous es)) EE_Invalid in es_part m (f em).
  Definition previous_echo_broadcast := es_prev em_echo.
  Definition previous_normal_broadcast := es_prev em_normal.
  Definition previous_direct_message := es_prev em_direct.
  Definition combined_echos (m : MType) (es : EvMsgs) (n : N) : res EvidenceError (bmap Verifier (mty m)) :=
    let* c := ok_or (get (rid_new n) (es_combined es)) EE_Invalid in
    let* l := map_res (fun kv => let* x := ok_or (part_deser m (snd kv)) EE_Invalid in Ok (fst kv, x)) (to_list c) in
    Ok (of_list l).
  Definition es_direct_message (m : MType) (es : EvMsgs) := es_part m (em_direct (es_message es)).
  Definition es_echo_broadcast (m : MType) (es : EvMsgs) := es_part m (em_echo (es_message es)).
  Definition es_normal_broadcast (m : MType) (es : EvMsgs) := es_part m (em_normal (es_message es)).

  (** [Round::ProtocolError]: [NoProtocolErrors] (protocol/evidence.rs:246-277), for which only deserialization from an
      evidence is possible (it has no public constructor), or a type implementing [ProtocolError] (19-48). *)
  Inductive EType (Shared : Type) :=
  | NoErrors (deser : bytes -> bool)
  | Errors (E : Type) (ser : E -> option bytes) (deser : bytes -> option E) (required : E -> RoundId -> Required)
      (verify : E -> RoundId -> Verifier -> bytes -> Shared -> EvMsgs -> res EvidenceError unit).
  Arguments NoErrors {Shared} _.
  Arguments Errors {Shared} E ser deser required verify.
  Definition ety {Sh} (e : EType Sh) : Type := match e with NoErrors _ => Empty_set | Errors E _ _ _ _ => E end.

  (** [ReceiveError] (protocol/errors.rs:31-39). *)
  Inductive TRecvErr (E : Type) := TLocal (e : LocalError) | TProtocol (e : E) | TUnprovable (e : RemoteError).
  Arguments TLocal {E} _.
  Arguments TUnprovable {E} _.

  (** protocol/dyn_evidence.rs:36-43; the [NoProtocolErrors] case has no values. *)
  Definition box_error {Sh} (e : EType Sh) : ety e -> RoundId -> BoxedError :=
    match e with
    | NoErrors _ => fun x _ => match x with end
    | Errors _ ser _ required _ => fun x rid => mkBoxedError (required x rid) (ser x)
    end.

  (** protocol/dyn_round.rs:357-363 *)
  Definition box_recv {Sh} (e : EType Sh) (rid : RoundId) (r : TRecvErr (ety e)) : RecvErr :=
    match r with
    | TLocal e => RL e
    | TUnprovable e => RUnprovable e
    | TProtocol x => RProtocol (box_error e x rid)
    end.

  (** protocol/round_info.rs:94-118; the methods of [NoProtocolErrors] panic (protocol/evidence.rs:268-276). *)
  Definition verify_error {Sh} (e : EType Sh) (rid : RoundId) (b : bytes) (v : Verifier) (sid : bytes) (sd : Sh) (es : EvMsgs)
    : res EvidenceError unit :=
    match e with
    | NoErrors deser => if deser b then Panic else Err EE_Invalid
    | Errors _ _ deser _ verify => let* x := ok_or (deser b) EE_Invalid in verify x rid v sid sd es
    end.

  (** A protocol made of typed rounds: the Rust types implementing [Round] with this [Protocol] are indexed by [TK]
      (standing for [TypeId]). [TyId] are the [TypeId]s of payload and artifact types. A method that is not implemented
      ([None]) has the default implementation of the trait. *)
  Record TProto := mkTProto {
    TK : Type;
    tk_dec : forall a b : TK, {a = b} + {a <> b};
    TyId : Type;
    ty_dec : forall a b : TyId, {a = b} + {a <> b};
    ty : TyId -> Type;
    noart : TyId;                       (* NoArtifact, protocol/round.rs:51-59 *)
    noart_val : ty noart;
    TRslt : Type;
    TShared : Type;
    tst : TK -> Type;                   (* the round type itself *)
    t_direct : TK -> MType;
    t_echo : TK -> MType;
    t_normal : TK -> MType;
    t_err : TK -> EType TShared;
    t_pay : TK -> TyId;
    t_art : TK -> TyId;
    t_tinfo : forall k, tst k -> TransitionInfo;
    t_cinfo : forall k, tst k -> CommInfo;
    t_mk_direct : forall k, option (tst k -> rng -> Verifier -> res LocalError (mty (t_direct k) * ty (t_art k)));
    t_mk_echo : forall k, option (tst k -> rng -> res LocalError (mty (t_echo k)));
    t_mk_normal : forall k, option (tst k -> rng -> res LocalError (mty (t_normal k)));
    t_receive : forall k, tst k -> Verifier -> mty (t_direct k) -> mty (t_echo k) -> mty (t_normal k) ->
                res (TRecvErr (ety (t_err k))) (ty (t_pay k));
    t_finalize : forall k, tst k -> rng -> bmap Verifier (ty (t_pay k)) -> bmap Verifier (ty (t_art k)) ->
                 res LocalError (Outcome {k : TK & tst k} TRslt);
    t_info : RoundId -> option TK       (* Protocol::round_info: the R of RoundInfo::new::<R>() *)
  }.

  Context (T : TProto).
  (** [BoxedRound] holding a typed round (protocol/dyn_round.rs:234-250, 288-300). *)
  Definition boxed : Type := {k : TK T & tst T k}.
  Definition box k (x : tst T k) : boxed := existT _ k x.

  (** A boxed [dyn Any] value with its [TypeId] (protocol/dyn_round.rs:24-70). *)
  Definition any : Type := {t : TyId T & ty T t}.

  (** [Box<dyn Any>::downcast] (protocol/dyn_round.rs:38-48, 60-69). *)
  Definition any_down (e : LocalError) (t : TyId T) (x : any) : res LocalError (ty T t) :=
    match ty_dec T (projT1 x) t with
    | left H => Ok (eq_rect _ (ty T) (projT2 x) _ H)
    | right _ => Err e
    end.
  Definition down_all (e : LocalError) (t : TyId T) (m : bmap Verifier any) : res LocalError (bmap Verifier (ty T t)) :=
    let* l := map_res (fun kv => let* y := any_down e t (snd kv) in Ok (fst kv, y)) (to_list m) in Ok (of_list l).

  (** The default implementations (protocol/round.rs:144-220). *)
  Definition no_message (m : MType) : res LocalError (mty m) :=
    match m with NoMsg => Ok tt | Msg _ _ _ => Err LE_NotImplemented end.
  Definition typed_direct k (x : tst T k) (g : rng) (dest : Verifier) : res LocalError (mty (t_direct T k) * ty T (t_art T k)) :=
    match t_mk_direct T k with
    | Some f => f x g dest
    | None => let* m := no_message (t_direct T k) in
              match ty_dec T (noart T) (t_art T k) with
              | left H => Ok (m, eq_rect _ (ty T) (noart_val T) _ H)
              | right _ => Err LE_NotImplemented
              end
    end.
  Definition typed_echo k (x : tst T k) (g : rng) : res LocalError (mty (t_echo T k)) :=
    match t_mk_echo T k with Some f => f x g | None => no_message (t_echo T k) end.
  Definition typed_normal k (x : tst T k) (g : rng) : res LocalError (mty (t_normal T k)) :=
    match t_mk_normal T k with Some f => f x g | None => no_message (t_normal T k) end.

  (** [RoundWrapper] (protocol/dyn_round.rs:112-229). *)
  Definition w_direct (b : boxed) (g : rng) (dest : Verifier) : res LocalError (body * any) :=
    let '(existT _ k x) := b in
    let* (m, a) := typed_direct k x g dest in
    let* d := part_new (t_direct T k) m in
    Ok (d, existT _ (t_art T k) a).
  Definition w_echo (b : boxed) (g : rng) : res LocalError body :=
    let '(existT _ k x) := b in let* m := typed_echo k x g in part_new (t_echo T k) m.
  Definition w_normal (b : boxed) (g : rng) : res LocalError body :=
    let '(existT _ k x) := b in let* m := typed_normal k x g in part_new (t_normal T k) m.
  Definition w_receive (b : boxed) (from : Verifier) (m : DynMsg) : res RecvErr any :=
    let '(existT _ k x) := b in
    let* d := ok_or (part_receive (t_direct T k) (dm_direct m)) RDirect in
    let* e := ok_or (part_receive (t_echo T k) (dm_echo m)) REchoB in
    let* n := ok_or (part_receive (t_normal T k) (dm_normal m)) RNormal in
    let* p := map_err (box_recv (t_err T k) (ti_id (t_tinfo T k x))) (t_receive T k x from d e n) in
    Ok (existT _ (t_pay T k) p).
  Definition w_finalize (b : boxed) (g : rng) (ps arts : bmap Verifier any) : res LocalError (Outcome boxed (TRslt T)) :=
    let '(existT _ k x) := b in
    let* ps := down_all LE_PayloadDowncast (t_pay T k) ps in
    let* arts := down_all LE_ArtifactDowncast (t_art T k) arts in
    t_finalize T k x g ps arts.

  (** [RoundInfoObject] (protocol/round_info.rs:46-118). *)
  Definition w_info (k : TK T) : RInfo (TShared T) :=
    mkRInfo (part_invalid (t_direct T k)) (part_invalid (t_echo T k)) (part_invalid (t_normal T k))
      (fun rid b v sid sd m prev comb => verify_error (t_err T k) rid b v sid sd (mkEvMsgs m prev comb)).

  Definition wrap : Proto := {|
    St := boxed; Rslt := TRslt T; Shared := TShared T; Payload := any; Artifact := any;
    tinfo := fun b => t_tinfo T (projT1 b) (projT2 b);
    cinfo := fun b => t_cinfo T (projT1 b) (projT2 b);
    mk_direct := w_direct; mk_echo := w_echo; mk_normal := w_normal;
    receive := w_receive; finalize := w_finalize;
    round_info := fun rid => option_map w_info (t_info T rid)
  |}.
End WithParams.
Arguments NoErrors {P Shared} _.
Arguments Errors {P Shared} E ser deser required verify.
Arguments TLocal {E} _.
Arguments TProtocol {E} _.
Arguments TUnprovable {E} _.
Arguments TProto {P}.
