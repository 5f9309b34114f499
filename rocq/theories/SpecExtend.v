(** Vocabulary of the properties about extended protocols. No proofs here. *)
From Coq Require Import List NArith Bool.
From Verif Require Import Base BMap Errors RoundId Message Protocol Transcript Evidence Session Typed Extend.
Import ListNotations.
Set Implicit Arguments.

(** ** What the owner of a session sees *)
Section Service.
  Context {P : Params}.

  (** The calls of the session API. *)
  Inductive call :=
  | KRound                              (* where are we, and whom do we talk to *)
  | KMake (g : rng) (dest : Verifier)   (* make a message, and add its artifact *)
  | KPre (from : Verifier) (m : Message)
  | KProc (vm : VMessage)               (* process a message, and add the result *)
  | KCan
  | KFin (g : rng)
  | KTerminate
  | KTerminateErr.

  (** Their answers; [R] is the result of the protocol. *)
  Inductive answer (R : Type) :=
  | WRound (id : RoundId) (dest expect : bset Verifier)
  | WMade (m : res LocalError (Message * res LocalError unit))
  | WPre (o : res LocalError PreOutcome)
  | WProc (o : res LocalError unit)
  | WCan (c : CanFin)
  | WNext (cached : list VMessage)                (* another round *)
  | WReport (r : res LocalError (Report R)).      (* the end *)
  Arguments WRound {R} _ _ _.
  Arguments WMade {R} _.
  Arguments WPre {R} _.
  Arguments WProc {R} _.
  Arguments WCan {R} _.
  Arguments WNext {R} _.

  (** The answers of a session to calls made one after another, until the session is consumed. *)
  Fixpoint serve {Pr : Proto} (s : Session Pr) (a : Accum Pr) (cs : list call) : list (answer (Rslt Pr)) :=
    match cs with
    | [] => []
    | KRound :: cs => WRound (s_round_id s) (message_destinations s) (a_waiting a) :: serve s a cs
    | KMake g dest :: cs =>
        match make_message s g dest with
        | Ok (m, art) => let '(a', r) := add_artifact a art in WMade (Ok (m, r)) :: serve s a' cs
        | Err e => WMade (Err e) :: serve s a cs
        | Panic => [WMade Panic]
        end
    | KPre from m :: cs => let '(a', o) := preprocess_message s a from m in WPre o :: serve s a' cs
    | KProc vm :: cs => let '(a', o) := add_processed s a (process_message s vm) in WProc o :: serve s a' cs
    | KCan :: cs => WCan (can_finalize a) :: serve s a cs
    | KFin g :: cs =>
        match finalize_round s g a with
        | Ok (ROAnother s' c) => WNext c :: serve s' (make_accumulator s') cs
        | Ok (ROFinished rep) => [WReport (Ok rep)]
        | Err e => [WReport (Err e)]
        | Panic => [WReport Panic]
        end
    | KTerminate :: _ => [WReport (terminate s a)]
    | KTerminateErr :: _ => [WReport (terminate_due_to_errors s a)]
    end.

  (** A session from its creation on. *)
  Definition session {Pr : Proto} (g : rng) (sid : bytes) (signer : Signer) (ep : EntryPoint Pr) (cs : list call)
    : res LocalError (list (answer (Rslt Pr))) :=
    match session_new g sid signer ep with
    | Ok s => Ok (serve s (make_accumulator s) cs)
    | Err e => Err e
    | Panic => Panic
    end.
End Service.
Arguments call {P}.
Arguments answer {P} R.

(** ** Protocols whose rounds give the same answers *)
Section Alike.
  Context {P : Params}.
  Definition rmap {E X Y} (f : X -> Y) (r : res E X) : res E Y :=
    match r with Ok x => Ok (f x) | Err e => Err e | Panic => Panic end.

  (** Two protocols, with maps between their payloads, artifacts and results, and a relation between their rounds. *)
  Context (A B : Proto).
  Context (fp : Payload A -> Payload B) (fa : Artifact A -> Artifact B) (fr : Rslt A -> Rslt B).
  Context (R : St A -> St B -> Prop).

  Definition with_artifact (x : body * Artifact A) : body * Artifact B := (fst x, fa (snd x)).

  (** Outcomes of finalization: the same result, the same error, or related rounds. *)
  Definition orel (o : res LocalError (Outcome (St A) (Rslt A))) (o' : res LocalError (Outcome (St B) (Rslt B))) : Prop :=
    match o, o' with
    | Ok (AnotherRound x), Ok (AnotherRound y) => R x y
    | Ok (Finished_ x), Ok (Finished_ y) => y = fr x
    | Err e, Err e' => e' = e
    | Panic, Panic => True
    | _, _ => False
    end.
  (** Equal answers, up to the maps. *)
  Record alike (x : St A) (y : St B) : Prop := {
    al_t : tinfo B y = tinfo A x;
    al_c : cinfo B y = cinfo A x;
    al_d : forall g v, mk_direct B y g v = rmap with_artifact (mk_direct A x g v);
    al_e : forall g, mk_echo B y g = mk_echo A x g;
    al_n : forall g, mk_normal B y g = mk_normal A x g;
    al_r : forall v m, receive B y v m = rmap fp (receive A x v m);
    al_f : forall g ps arts, orel (finalize A x g ps arts) (finalize B y g (map_values fp ps) (map_values fa arts))
  }.

  (** Reports and answers with the result mapped. *)
  Definition mrep (r : Report (Rslt A)) : Report (Rslt B) :=
    mkReport (match rep_outcome r with OResult x => OResult (fr x) | ONotEnough => ONotEnough | OTerminated => OTerminated end)
      (rep_provable r) (rep_unprovable r) (rep_missing r).
  Definition manswer (w : answer (Rslt A)) : answer (Rslt B) :=
    match w with
    | WRound _ i d e => WRound _ i d e
    | WMade _ m => WMade _ m
    | WPre _ o => WPre _ o
    | WProc _ o => WProc _ o
    | WCan _ c => WCan _ c
    | WNext _ c => WNext _ c
    | WReport r => WReport (rmap mrep r)
    end.
End Alike.

(** ** Rewriting a protocol *)
Section Patch.
  Context {P : Params}.
  Context (T : TProto).

  (** An extension is chosen for some round types. *)
  Definition choice : Type := forall k : TK T, option (Ext T k).

  (** The protocol a developer would have written by hand: the four methods are replaced by those of the chosen extension
      where it has them; everything else is as it was. *)
  Definition patch (c : choice) : TProto := {|
    TK := TK T; tk_dec := tk_dec T; TyId := TyId T; ty_dec := ty_dec T; ty := ty T; noart := noart T; noart_val := noart_val T;
    TRslt := TRslt T; TShared := TShared T; tst := tst T; t_direct := t_direct T; t_echo := t_echo T; t_normal := t_normal T;
    t_err := t_err T; t_pay := t_pay T; t_art := t_art T; t_tinfo := t_tinfo T; t_cinfo := t_cinfo T;
    t_mk_direct := fun k => match c k with
      | Some (mkExt _ _ (Some f) _) => Some (fun x g dest => f g x dest) | _ => t_mk_direct T k end;
    t_mk_echo := fun k => match c k with
      | Some (mkExt _ (Some f) _ _) => Some (fun x g => f g x) | _ => t_mk_echo T k end;
    t_mk_normal := fun k => match c k with
      | Some (mkExt (Some f) _ _ _) => Some (fun x g => f g x) | _ => t_mk_normal T k end;
    t_receive := t_receive T;
    t_finalize := fun k => match c k with
      | Some (mkExt _ _ _ (Some f)) => fun x g ps arts => f g x ps arts | _ => t_finalize T k end;
    t_info := t_info T
  |}.
  (** The entry point, unchanged. *)
  Definition patched (c : choice) (ep : EntryPoint (wrap T)) : EntryPoint (wrap (patch c)) :=
    @mkEP P (wrap (patch c)) (ep_id ep) (ep_make ep).

  (** The last extension registered for a round type. *)
  Fixpoint last_for (l : list (AnyExt T)) (k : TK T) : option (Ext T k) :=
    match l with
    | [] => None
    | existT _ k' e :: l =>
        match last_for l k with
        | Some e => Some e
        | None => match tk_dec T k' k with left H => Some (eq_rect _ (Ext T) e _ H) | right _ => None end
        end
    end.
  (** Registering them one after another. *)
  Definition register (ep : EntryPoint (wrap T)) (l : list (AnyExt T)) : Extendable T :=
    fold_left (fun xp e => with_extension xp (projT2 e)) l (extendable_new ep).

  Definition overrides_nothing {k} (e : Ext T k) : Prop :=
    x_normal e = None /\ x_echo e = None /\ x_direct e = None /\ x_finalize e = None.

  (** The rounds a protocol may ever enter. *)
  Inductive enters (ep : EntryPoint (wrap T)) : boxed T -> Prop :=
  | enters_first g sr id b : ep_make ep g sr id = Ok b -> enters ep b
  | enters_next b g ps arts b' : enters ep b -> finalize (wrap T) b g ps arts = Ok (AnotherRound b') -> enters ep b'.
End Patch.
Arguments patched {P T} c ep.
Arguments register {P T} ep l.
Arguments last_for {P T} l k.
Arguments overrides_nothing {P T k} e.
Arguments enters {P T} ep b.
