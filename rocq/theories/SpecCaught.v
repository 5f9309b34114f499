(** Vocabulary of the properties about executions in which the messages of one party are turned down. No proofs here. *)
From Coq Require Import List NArith Bool.
From Verif Require Import Base BMap Errors RoundId Message Protocol Transcript Evidence Session Spec SpecCrypto Typed Extend SpecExtend Network SpecNet RunSync.
Import ListNotations.
Set Implicit Arguments.

Section WithParams.
  Context {P : Params}.

  (** The protocol with another treatment of received messages. *)
  Definition with_receive (Pr : Proto) (f : St Pr -> Verifier -> DynMsg -> res RecvErr (Payload Pr)) : Proto := {|
    St := St Pr; Rslt := Rslt Pr; Shared := Shared Pr; Payload := Payload Pr; Artifact := Artifact Pr;
    tinfo := tinfo Pr; cinfo := cinfo Pr; mk_direct := mk_direct Pr; mk_echo := mk_echo Pr; mk_normal := mk_normal Pr;
    receive := f; finalize := finalize Pr; round_info := round_info Pr
  |}.
  Definition ep_with {Pr : Proto} f (ep : EntryPoint Pr) : EntryPoint (with_receive Pr f) :=
    mkEP (Pr := with_receive Pr f) (ep_id ep) (ep_make ep).

  Context {Pr : Proto} {f : St Pr -> Verifier -> DynMsg -> res RecvErr (Payload Pr)}.
  Variable sid : bytes.
  Variable parties : bset Verifier.
  Variable h : Plan (with_receive Pr f).
  Variable t : Verifier.
  Variable k : nat.
  Variable sd : Shared Pr.

  (** The messages that [t] sent to [v] before round [k], as far as required by an error. *)
  Definition earlier_messages (v : Verifier) (q : Required) (prev : bmap RoundId EvMsg) : Prop :=
    forall rid em, get rid prev = Some em <->
      exists pm rq j, rq_prev q = Some pm /\ get rid pm = Some rq /\ j < k /\ rid = pl_rid h j /\
        em = mkEvMsg (if rp_direct rq then Some (pl_direct h j t v) else None)
                     (if rp_normal rq then Some (pl_normal h j t) else None)
                     (if rp_echo rq then Some (pl_echo h j t) else None).
  (** The echo broadcasts that [t] received before round [k], as far as required by an error. *)
  Definition echoed_messages (q : Required) (comb : bmap RoundId (bmap Verifier body)) : Prop :=
    forall rid bodies, get rid comb = Some bodies <->
      exists cs j, rq_comb q = Some cs /\ mem rid cs = true /\ j < k /\ rid = pl_rid h j /\
        forall w, get w bodies = if (mem w (pl_from h j t) && negb (is_none (pl_echo h j w)))%bool then Some (pl_echo h j w) else None.

  (** What an error requires was sent. *)
  Definition available (v : Verifier) (q : Required) : Prop :=
    (forall pm rid rq, rq_prev q = Some pm -> get rid pm = Some rq ->
       exists j, j < k /\ rid = pl_rid h j /\ mem t (pl_from h j v) = true /\
         (rp_echo rq = true \/ rp_normal rq = true \/ rp_direct rq = true) /\
         (rp_echo rq = true -> pl_echo h j t <> None) /\ (rp_normal rq = true -> pl_normal h j t <> None) /\
         (rp_direct rq = true -> pl_direct h j t v <> None)) /\
    (forall cs rid, rq_comb q = Some cs -> mem rid cs = true ->
       exists j, j < k /\ rid = pl_rid h j /\ echoes h j v = true /\ mem t (partners h j v) = true).

  (** [v] turns down what [t] sends in round [k], and the protocol agrees, given the messages that the error refers to. *)
  Definition turned_down (v : Verifier) : Prop :=
    exists ri, round_info Pr (pl_rid h k) = Some ri /\
    match receive Pr (pl_state h k v) t (mkDynMsg (pl_echo h k t) (pl_normal h k t) (pl_direct h k t v)) with
    | Err RDirect => ri_direct ri (pl_direct h k t v) = Ok tt
    | Err REchoB => ri_echo ri (pl_echo h k t) = Ok tt
    | Err RNormal => ri_normal ri (pl_normal h k t) = Ok tt
    | Err (RProtocol err) =>
        let this := rq_this (be_required err) in
        api_parts this /\ available v (be_required err) /\
        exists eb, be_ser err = Some eb /\
          forall prev comb, earlier_messages v (be_required err) prev -> echoed_messages (be_required err) comb ->
            ri_verify ri (pl_rid h k) eb t sid sd
              (mkEvMsg (if rp_direct this then Some (pl_direct h k t v) else None)
                       (if rp_normal this then Some (pl_normal h k t) else None)
                       (if rp_echo this then Some (pl_echo h k t) else None)) prev comb = Ok tt
    | _ => False
    end.

  (** In the execution [h] everything is received as by the protocol, up to round [k] and by [t] afterwards, with the
      exception of what [t] sends in that round: that is turned down by everybody. *)
  Record one_fault : Prop := {
    of_round : k <= pl_last h;
    of_party : mem t parties = true;
    of_all : forall v, mem v parties = true -> v <> t -> mem t (pl_from h k v) = true;
    of_rest : forall n v u, n <= pl_last h -> mem v parties = true -> mem u (pl_from h n v) = true ->
      n < k \/ (n = k /\ u <> t) \/ v = t ->
      receive Pr (pl_state h n v) u (mkDynMsg (pl_echo h n u) (pl_normal h n u) (pl_direct h n u v)) = Ok (pl_payload h n v u);
    of_bad : forall v, mem v parties = true -> v <> t -> turned_down v
  }.

  (** What the evidence consists of that [v] gets: the part that is turned down, or the error with the parts it is about. *)
  Definition this_part {kd} (b : body) (p : SPart kd) : Prop := sp_meta p = mkMeta sid (pl_rid h k) /\ sp_body p = b.
  Definition charge (v : Verifier) (ev : Evidence) : Prop :=
    match receive Pr (pl_state h k v) t (mkDynMsg (pl_echo h k t) (pl_normal h k t) (pl_direct h k t v)) with
    | Err RDirect => exists p, ev_body ev = EvDirect p /\ this_part (pl_direct h k t v) p
    | Err REchoB => exists p, ev_body ev = EvEcho p /\ this_part (pl_echo h k t) p
    | Err RNormal => exists p, ev_body ev = EvNormal p /\ this_part (pl_normal h k t) p
    | Err (RProtocol err) => exists e, ev_body ev = EvProtocol e /\ be_ser err = Some (pe_error e) /\
        let this := rq_this (be_required err) in
        (if rp_direct this then exists p, pe_direct e = Some p /\ this_part (pl_direct h k t v) p else pe_direct e = None) /\
        (if rp_echo this then exists p, pe_echo e = Some p /\ this_part (pl_echo h k t) p else pe_echo e = None) /\
        (if rp_normal this then exists p, pe_normal e = Some p /\ this_part (pl_normal h k t) p else pe_normal e = None)
    | _ => False
    end.
  Definition proof_against (v : Verifier) (ev : Evidence) : Prop :=
    ev_guilty ev = t /\ verify_evidence Pr ev sd = Ok tt /\ charge v ev.

  (** Everybody but [t] has convicted [t], with evidence that verifies, and reports nothing else. *)
  Definition convicted_by_all (reports : bmap Verifier (Report (Rslt Pr))) : Prop :=
    (forall v, contains v reports = mem v parties) /\
    (exists rep, get t reports = Some rep /\ rep_provable rep = empty /\ rep_unprovable rep = empty) /\
    forall v, mem v parties = true -> v <> t ->
      exists rep ev, get v reports = Some rep /\ rep_outcome rep = OTerminated /\ rep_provable rep = insert t ev empty /\
        rep_unprovable rep = empty /\ rep_missing rep = empty /\ proof_against v ev.

  Definition accuses_nobody (nd : Node Pr) : Prop :=
    match nd with
    | Running d => a_provable (d_a d) = empty /\ a_unprovable (d_a d) = empty /\
                   tr_provable (s_tr (d_s d)) = empty /\ tr_unprovable (s_tr (d_s d)) = empty
    | Ended rep => rep_provable rep = empty /\ rep_unprovable rep = empty
    end.
  (** The same in a network: nobody but [t] goes on after it has convicted [t], and [t] itself has recorded nothing. *)
  Definition all_have_convicted (net : Net Pr) : Prop :=
    (exists nd, get t (nodes net) = Some nd /\ accuses_nobody nd) /\
    forall v, mem v parties = true -> v <> t ->
      exists d ev, get v (nodes net) = Some (Running d) /\ can_finalize (d_a d) = Never /\
        a_provable (d_a d) = insert t ev empty /\ a_unprovable (d_a d) = empty /\ proof_against v ev.
End WithParams.
Arguments one_fault {P Pr f} sid parties h t k sd.
Arguments proof_against {P Pr f} sid h t k sd v ev.
Arguments convicted_by_all {P Pr f} sid parties h t k sd reports.
Arguments all_have_convicted {P Pr f} sid parties h t k sd net.

(** The execution [h] with other messages of [t] in round [k], which are received according to [f]. *)
Definition replaced {P : Params} {Pr : Proto} (f : St Pr -> Verifier -> DynMsg -> res RecvErr (Payload Pr)) (h : Plan Pr) (t : Verifier) (k : nat)
    (e n : body) (d : Verifier -> body) : Plan (with_receive Pr f) :=
  let here j u := (Nat.eqb j k && eqb u t)%bool in
  @mkPlan P (with_receive Pr f) (pl_last h) (pl_rid h) (pl_part h) (pl_dest h) (pl_from h) (pl_state h)
    (fun j u => if here j u then e else pl_echo h j u)
    (fun j u => if here j u then n else pl_normal h j u)
    (fun j u v => if here j u then d v else pl_direct h j u v)
    (pl_artifact h) (pl_payload h) (pl_result h).

(** The extensions [xs] make [t] send these messages in round [k], and change nothing else. *)
Definition misled {P : Params} {T : TProto} (r : NetRng) (h : Plan (wrap T)) (t : Verifier) (k : nat) (xs : list (AnyExt T))
    (em nm : body) (dm : Verifier -> body) : Prop :=
  (forall j e, j <= pl_last h -> j <> k -> last_for xs (projT1 (pl_state h j t)) = Some e -> overrides_nothing e) /\
  exists e, last_for xs (projT1 (pl_state h k t)) = Some e /\ x_finalize e = None /\
    let K := projT1 (pl_state h k t) in let x := projT2 (pl_state h k t) in
    (if is_empty (pl_dest h k t) then em = None
     else (let* m := ext_echo e (rsub 0 (rsub 1 (entry_rng r h k t))) x in part_new (t_echo T K) m) = Ok em) /\
    (if is_empty (pl_dest h k t) then nm = None
     else (let* m := ext_normal e (rsub 2 (rsub 1 (entry_rng r h k t))) x in part_new (t_normal T K) m) = Ok nm) /\
    (forall u, mem u (pl_dest h k t) = true ->
      (let* (m, a) := ext_direct e (rsub 0 (nr_msg r t (pl_rid h k) u)) x u in
       let* d := part_new (t_direct T K) m in Ok (d, existT (ty T) (t_art T K) a)) = Ok (dm u, pl_artifact h k t u)).
