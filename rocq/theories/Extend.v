(** manul/src/dev/extend.rs: overriding methods of the rounds of a protocol. *)
From Coq Require Import List NArith Bool.
From Verif Require Import Base BMap Errors RoundId Message Protocol Typed.
Import ListNotations.
Set Implicit Arguments.

Section WithParams.
  Context {P : Params}.
  Context (T : TProto).

  (** [RoundExtension] for rounds of type [k] (extend.rs:29-85), as closures over its data. A method that is not
      overridden is [None]. *)
  Record Ext (k : TK T) := mkExt {
    x_normal : option (rng -> tst T k -> res LocalError (mty (t_normal T k)));
    x_echo : option (rng -> tst T k -> res LocalError (mty (t_echo T k)));
    x_direct : option (rng -> tst T k -> Verifier -> res LocalError (mty (t_direct T k) * ty T (t_art T k)));
    x_finalize : option (rng -> tst T k -> bmap Verifier (ty T (t_pay T k)) -> bmap Verifier (ty T (t_art T k)) ->
                         res LocalError (Outcome (boxed T) (TRslt T)))
  }.
  (** With the default implementations (extend.rs:36-84). *)
  Definition ext_normal k (e : Ext k) (g : rng) (x : tst T k) :=
    match x_normal e with Some f => f g x | None => typed_normal T k x g end.
  Definition ext_echo k (e : Ext k) (g : rng) (x : tst T k) :=
    match x_echo e with Some f => f g x | None => typed_echo T k x g end.
  Definition ext_direct k (e : Ext k) (g : rng) (x : tst T k) (dest : Verifier) :=
    match x_direct e with Some f => f g x dest | None => typed_direct T k x g dest end.
  Definition ext_finalize k (e : Ext k) (g : rng) (x : tst T k) ps arts :=
    match x_finalize e with Some f => f g x ps arts | None => t_finalize T k x g ps arts end.

  (** A boxed [DynRoundExtension] (extend.rs:198-215): an extension with its round type. *)
  Definition AnyExt : Type := {k : TK T & Ext k}.
  (** The map from round types to extensions. [TypeId]s are only compared for equality here: nothing depends on the order
      of the entries. *)
  Definition Exts : Type := list (TK T * AnyExt).
  Fixpoint exts_get (k : TK T) (l : Exts) : option AnyExt :=
    match l with
    | [] => None
    | (k', e) :: l => if tk_dec T k k' then Some e else exts_get k l
    end.
  (** [BTreeMap::insert]: a later entry replaces an earlier one. *)
  Definition exts_insert (k : TK T) (e : AnyExt) (l : Exts) : Exts :=
    (k, e) :: filter (fun kv => if tk_dec T k (fst kv) then false else true) l.

  (** The rounds of an extended protocol: a typed [ExtendedRound] (extend.rs:115-126) or a dynamic [PassthroughRound]
      (extend.rs:242-245). *)
  Inductive XRound :=
  | XExtended (k : TK T) (round : tst T k) (extension : Ext k) (extensions : Exts)
  | XPassthrough (round : boxed T) (extensions : Exts).
  Arguments XExtended : clear implicits.

  (** [BoxedTypedRound::downcast] (protocol/dyn_round.rs:316-337). *)
  Definition round_down (k : TK T) (b : boxed T) : option (tst T k) :=
    match tk_dec T (projT1 b) k with
    | left H => Some (eq_rect _ (tst T) (projT2 b) _ H)
    | right _ => None
    end.
  (** extend.rs:226-239 *)
  Definition extend_round (e : AnyExt) (b : boxed T) (exts : Exts) : option XRound :=
    let '(existT _ k e) := e in
    match round_down k b with Some x => Some (XExtended k x e exts) | None => None end.
  (** extend.rs:310-323; rounds of [T] are typed, so [as_typed] succeeds. *)
  Definition wrap_round (b : boxed T) (exts : Exts) : res LocalError XRound :=
    match exts_get (projT1 b) exts with
    | Some e => match extend_round e b exts with
                | Some r => Ok r
                | None => Panic (* the [expect] of line 319 *)
                end
    | None => Ok (XPassthrough b exts)
    end.

  (** extend.rs:191-194, 261-264 *)
  Definition wrap_outcome (exts : Exts) (o : Outcome (boxed T) (TRslt T)) : res LocalError (Outcome XRound (TRslt T)) :=
    match o with
    | Finished_ r => Ok (Finished_ r)
    | AnotherRound b => let* r := wrap_round b exts in Ok (AnotherRound r)
    end.

  (** extend.rs:143-149, 267-273 *)
  Definition x_tinfo (r : XRound) : TransitionInfo :=
    match r with XExtended k x _ _ => t_tinfo T k x | XPassthrough b _ => t_tinfo T (projT1 b) (projT2 b) end.
  Definition x_cinfo (r : XRound) : CommInfo :=
    match r with XExtended k x _ _ => t_cinfo T k x | XPassthrough b _ => t_cinfo T (projT1 b) (projT2 b) end.

  (** extend.rs:168-182 inside a [RoundWrapper] (protocol/dyn_round.rs:142-168), and 275-298. *)
  Definition xr_direct (r : XRound) (g : rng) (dest : Verifier) : res LocalError (body * any T) :=
    match r with
    | XExtended k x e _ =>
        let* (m, a) := ext_direct e g x dest in
        let* d := part_new (t_direct T k) m in
        Ok (d, existT _ (t_art T k) a)
    | XPassthrough b _ => w_direct b g dest
    end.
  Definition xr_echo (r : XRound) (g : rng) : res LocalError body :=
    match r with
    | XExtended k x e _ => let* m := ext_echo e g x in part_new (t_echo T k) m
    | XPassthrough b _ => w_echo b g
    end.
  Definition xr_normal (r : XRound) (g : rng) : res LocalError body :=
    match r with
    | XExtended k x e _ => let* m := ext_normal e g x in part_new (t_normal T k) m
    | XPassthrough b _ => w_normal b g
    end.

  (** extend.rs:151-166 and 300-307. [ExtendedProtocolError] (88-111) has the required messages of the error it wraps, and,
      being a newtype, its serialization. *)
  Definition xr_receive (r : XRound) (from : Verifier) (m : DynMsg) : res RecvErr (any T) :=
    match r with
    | XExtended k x _ _ =>
        let* d := ok_or (part_receive (t_direct T k) (dm_direct m)) RDirect in
        let* e := ok_or (part_receive (t_echo T k) (dm_echo m)) REchoB in
        let* n := ok_or (part_receive (t_normal T k) (dm_normal m)) RNormal in
        let* p := map_err (box_recv (t_err T k) (ti_id (t_tinfo T k x))) (t_receive T k x from d e n) in
        Ok (existT _ (t_pay T k) p)
    | XPassthrough b _ => w_receive b from m
    end.

  (** extend.rs:184-195 inside a [RoundWrapper] (protocol/dyn_round.rs:212-229), and 254-265. *)
  Definition xr_finalize (r : XRound) (g : rng) (ps arts : bmap Verifier (any T)) : res LocalError (Outcome XRound (TRslt T)) :=
    match r with
    | XExtended k x e exts =>
        let* ps := down_all LE_PayloadDowncast (t_pay T k) ps in
        let* arts := down_all LE_ArtifactDowncast (t_art T k) arts in
        let* o := ext_finalize e g x ps arts in
        wrap_outcome exts o
    | XPassthrough b exts => let* o := w_finalize b g ps arts in wrap_outcome exts o
    end.

  (** The protocol itself, and so its round information, is unchanged. *)
  Definition extended : Proto := {|
    St := XRound; Rslt := TRslt T; Shared := TShared T; Payload := any T; Artifact := any T;
    tinfo := x_tinfo; cinfo := x_cinfo; mk_direct := xr_direct; mk_echo := xr_echo; mk_normal := xr_normal;
    receive := xr_receive; finalize := xr_finalize;
    round_info := round_info (wrap T)
  |}.

  (** [ExtendableEntryPoint] (extend.rs:328-365). *)
  Record Extendable := mkExtendable { xp_entry : EntryPoint (wrap T); xp_exts : Exts }.
  Definition extendable_new (ep : EntryPoint (wrap T)) : Extendable := mkExtendable ep [].
  Definition with_extension (xp : Extendable) k (e : Ext k) : Extendable :=
    mkExtendable (xp_entry xp) (exts_insert k (existT _ k e) (xp_exts xp)).
  (** extend.rs:367-385 *)
  Definition extendable_entry (xp : Extendable) : EntryPoint extended :=
    @mkEP P extended (ep_id (xp_entry xp))
      (fun g sr id => let* b := ep_make (xp_entry xp) g sr id in (wrap_round b (xp_exts xp) : res LocalError (St extended))).
End WithParams.
Arguments mkExt {P T k} _ _ _ _.
Arguments x_normal {P T k} _.
Arguments x_echo {P T k} _.
Arguments x_direct {P T k} _.
Arguments x_finalize {P T k} _.
Arguments with_extension {P T} _ {k} _.
Arguments extendable_new {P T} _.
Arguments extendable_entry {P T} _.
Arguments XExtended {P T} k round extension extensions.
