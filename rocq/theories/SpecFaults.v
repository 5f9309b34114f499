(** Vocabulary of the properties about executions in which any messages of any parties are turned down. No proofs here. *)
From Coq Require Import List NArith Bool.
From Verif Require Import Base BMap Errors RoundId Message Protocol Transcript Evidence Session Spec Network SpecNet SpecCaught.
Import ListNotations.
Set Implicit Arguments.

Section WithParams.
  Context {P : Params}.
  Context {Pr : Proto} {f : St Pr -> Verifier -> DynMsg -> res RecvErr (Payload Pr)}.
  Variable sid : bytes.
  Variable parties : bset Verifier.
  (** An execution in which everything is accepted, the way [f] does. *)
  Variable h : Plan (with_receive Pr f).
  (** The round in which a party turns down a message for the first time, if there is one. *)
  Variable stop : Verifier -> option nat.
  Variable sd : Shared Pr.

  (** What the protocol of [v] says about the messages of [u] of round [n]. *)
  Definition verdict (n : nat) (v u : Verifier) : res RecvErr (Payload Pr) :=
    receive Pr (pl_state h n v) u (mkDynMsg (pl_echo h n u) (pl_normal h n u) (pl_direct h n u v)).
  Definition accepted (n : nat) (v u : Verifier) : bool := match verdict n v u with Ok _ => true | _ => false end.

  Record faults : Prop := {
    (* nothing is turned down before the party stops *)
    fl_before : forall n v u, n <= pl_last h -> mem v parties = true -> mem u (pl_from h n v) = true ->
      match stop v with Some k => n < k | None => True end -> verdict n v u = Ok (pl_payload h n v u);
    (* something is turned down in the round in which it stops *)
    fl_stop : forall v k, mem v parties = true -> stop v = Some k ->
      k <= pl_last h /\ exists u, mem u (pl_from h k v) = true /\ accepted k v u = false;
    (* what is turned down is turned down with an error that the protocol can verify, or without proof *)
    fl_at : forall v k u, mem v parties = true -> stop v = Some k -> mem u (pl_from h k v) = true ->
      verdict k v u = Ok (pl_payload h k v u) \/ turned_down sid h u k sd v \/ exists e, verdict k v u = Err (RUnprovable e)
  }.

  (** Only parties whose messages were turned down are blamed, with evidence that verifies if they are blamed with proof. *)
  Definition blames_rightly (v : Verifier) (prov : bmap Verifier Evidence) (unprov : bmap Verifier RemoteError) : Prop :=
    (forall u ev, get u prov = Some ev ->
       exists k, stop v = Some k /\ mem u (pl_from h k v) = true /\ proof_against sid h u k sd v ev) /\
    (forall u e, get u unprov = Some e ->
       exists k, stop v = Some k /\ mem u (pl_from h k v) = true /\ verdict k v u = Err (RUnprovable e)).
  (** All those are blamed. *)
  Definition blames_fully (v : Verifier) (prov : bmap Verifier Evidence) (unprov : bmap Verifier RemoteError) : Prop :=
    exists k, stop v = Some k /\
      forall u, mem u (pl_from h k v) = true -> (contains u prov || contains u unprov)%bool = negb (accepted k v u).

  (** Nobody stops earlier. *)
  Definition first_to_stop (v : Verifier) : Prop :=
    mem v parties = true /\ exists k, stop v = Some k /\ forall w j, mem w parties = true -> stop w = Some j -> k <= j.

  Definition node_right (v : Verifier) (nd : Node Pr) : Prop :=
    match nd with
    | Running d => blames_rightly v (a_provable (d_a d)) (a_unprovable (d_a d)) /\
                   tr_provable (s_tr (d_s d)) = empty /\ tr_unprovable (s_tr (d_s d)) = empty
    | Ended rep => stop v = None /\ rep_outcome rep = OResult (pl_result h v : Rslt Pr) /\ rep_provable rep = empty /\ rep_unprovable rep = empty
    end.
  (** All parties that stop first have found out everything. *)
  Definition first_are_done (net : Net Pr) : Prop :=
    forall v, first_to_stop v -> exists d, get v (nodes net) = Some (Running d) /\ can_finalize (d_a d) = Never /\
      blames_fully v (a_provable (d_a d)) (a_unprovable (d_a d)).

  (** The report of a party that went on by itself until it ended. *)
  Definition report_right (v : Verifier) (rep : Report (Rslt Pr)) : Prop :=
    match rep_outcome rep with
    | OResult x => stop v = None /\ x = pl_result h v /\ rep_provable rep = empty /\ rep_unprovable rep = empty
    | OTerminated => rep_missing rep = empty /\ blames_rightly v (rep_provable rep) (rep_unprovable rep) /\
                     blames_fully v (rep_provable rep) (rep_unprovable rep)
    | ONotEnough => False
    end.
  (** The reports of all parties, those included that would still be waiting. *)
  Definition reports_right (reports : bmap Verifier (Report (Rslt Pr))) : Prop :=
    (forall v, contains v reports = mem v parties) /\
    forall v rep, get v reports = Some rep ->
      blames_rightly v (rep_provable rep) (rep_unprovable rep) /\
      match rep_outcome rep with
      | OResult x => stop v = None /\ x = pl_result h v
      | OTerminated => True
      | ONotEnough => False
      end /\
      (first_to_stop v -> rep_missing rep = empty /\ blames_fully v (rep_provable rep) (rep_unprovable rep)).
End WithParams.
Arguments faults {P Pr f} sid parties h stop sd.
Arguments first_to_stop {P} parties stop v.
Arguments node_right {P Pr f} sid h stop sd v nd.
Arguments report_right {P Pr f} sid h stop sd v rep.
Arguments reports_right {P Pr f} sid parties h stop sd reports.
Arguments first_are_done {P Pr f} parties h stop net.
