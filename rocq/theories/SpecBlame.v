(** Honest parties among dishonest ones, when messages are attributed correctly: the transport delivers each message from one
    honest party to another at most once and in the name of its sender (in any order, possibly never), and dishonest parties
    can send anything, but only in the name of dishonest parties. One session. No proofs here. *)
From Coq Require Import List NArith Bool Permutation.
From Verif Require Import Base BMap Errors RoundId Message Protocol Transcript Evidence Session Spec SpecCrypto SpecEvidence.
Import ListNotations.
Set Implicit Arguments.

Section WithParams.
  Context {P : Params}.
  Context {Pr : Proto}.

  (** The sessions of the honest parties, and the messages on their way between honest parties: sender, destination, message. *)
  Record CWorld := mkCWorld {
    cw_node : Verifier -> option (DState Pr);
    cw_way : list (Verifier * Verifier * Message)
  }.

  (** Only the session of party [v] changes, to [d]. *)
  Definition changes (w w' : CWorld) (v : Verifier) (d : DState Pr) : Prop :=
    cw_node w' v = Some d /\ forall v', v' <> v -> cw_node w' v' = cw_node w v'.

  (** A session makes a message for one of its destinations; a message of an honest party arrives; any message arrives in
      the name of a dishonest party; a session processes a message that it was told to process, or finalizes a round. *)
  Inductive cstep (honest : Verifier -> bool) (w w' : CWorld) : Prop :=
  | c_send v d g dest m art d' :
      cw_node w v = Some d -> make_message (d_s d) g dest = Ok (m, (dest, art)) ->
      step d (EArt g dest art) d' -> changes w w' v d' ->
      cw_way w' = (if honest dest then [(v, dest, m)] else []) ++ cw_way w -> cstep honest w w'
  | c_deliver u v d m o d' :
      cw_node w v = Some d -> Permutation (cw_way w) ((u, v, m) :: cw_way w') ->
      step d (EPre u m o) d' -> changes w w' v d' -> cstep honest w w'
  | c_lie v d from m o d' :
      cw_node w v = Some d -> honest from = false ->
      step d (EPre from m o) d' -> changes w w' v d' -> cw_way w' = cw_way w -> cstep honest w w'
  | c_local v d e d' :
      cw_node w v = Some d -> (exists vm, e = EProc vm) \/ (exists g, e = EFin g) ->
      step d e d' -> changes w w' v d' -> cw_way w' = cw_way w -> cstep honest w w'.

  (** What happened so far, the latest state of the world first. *)
  Inductive ctrace (honest : Verifier -> bool) (begin : CWorld -> Prop) : list CWorld -> Prop :=
  | ct_start w : begin w -> ctrace honest begin [w]
  | ct_step w ws w' : ctrace honest begin (w :: ws) -> cstep honest w w' -> ctrace honest begin (w' :: w :: ws).

  (** At some point in [ws], the session of party [u] was in state [d]. *)
  Definition cwas (ws : list CWorld) (u : Verifier) (d : DState Pr) : Prop := exists w, In w ws /\ cw_node w u = Some d.

  (** A protocol whose rounds follow each other, in which everybody sends to everybody in each round. [at_ n v st]: [st] is the
      state of party [v] in the [n]-th round. [echoed n]: that round has an echo broadcast. *)
  Record uniform (parties : bset Verifier) (rids : nat -> RoundId) (echoed : nat -> bool)
                 (at_ : nat -> Verifier -> St Pr -> Prop) : Prop := {
    un_two : forall v, exists u, u <> v /\ mem u parties = true;
    un_distinct : forall n k, rids n = rids k -> n = k;
    un_plain : forall n, rid_echo (rids n) = false;
    un_id : forall n v st, at_ n v st -> ti_id (tinfo Pr st) = rids n;
    un_next : forall n v st u st', at_ n v st -> at_ (S n) u st' -> mem (rids (S n)) (ti_children (tinfo Pr st)) = true;
    un_comm : forall n v st, at_ n v st -> cinfo Pr st = mkComm (srem v parties) (srem v parties) EPDefault;
    un_echo : forall n v st g b, at_ n v st -> mk_echo Pr st g = Ok b -> is_none b = negb (echoed n);
    un_receive : forall n v st from m p, at_ n v st -> echoed n = true -> receive Pr st from m = Ok p -> is_none (dm_echo m) = false;
    un_finalize : forall n v st g ps arts st', at_ n v st -> finalize Pr st g ps arts = Ok (AnotherRound st') -> at_ (S n) v st'
  }.

  (** In the beginning all sessions are new, in the first round of the protocol, and nothing is on its way. *)
  Definition cstart (honest : Verifier -> bool) (parties : bset Verifier) (sid : bytes) (at_ : nat -> Verifier -> St Pr -> Prop)
             (w : CWorld) : Prop :=
    cw_way w = [] /\
    forall v d, cw_node w v = Some d -> honest v = true /\ mem v parties = true /\
      exists s st, initial s /\ s_verifier s = v /\ s_id s = sid /\ s_round s = RMain st /\ at_ 0 v st /\ d = start s.

  (** The protocol's own code at [v] answered [e] to a message that [u] made for [v] in the same round. *)
  Definition turned_down (ws : list CWorld) (u v : Verifier) (e : RecvErr) : Prop :=
    exists dU dV st g m art, cwas ws u dU /\ cwas ws v dV /\ s_round (d_s dV) = RMain st /\
      s_round_id (d_s dU) = s_round_id (d_s dV) /\
      make_message (d_s dU) g v = Ok (m, (v, art)) /\ receive Pr st u (contents m) = Err e.

  (** A dishonest party sent [u] and [v] different echo broadcasts in the same round, properly signed. *)
  Definition equivocated (honest : Verifier -> bool) (ws : list CWorld) (u v : Verifier) : Prop :=
    exists dU dV x p q, honest x = false /\ cwas ws u dU /\ cwas ws v dV /\
      in_echo_round (d_s dU) /\ in_echo_round (d_s dV) /\ s_round_id (d_s dU) = s_round_id (d_s dV) /\
      held_echo (d_s dU) x p /\ held_echo (d_s dV) x q /\ part_signed x p /\ part_signed x q /\
      sp_meta p = sp_meta q /\ sp_body p <> sp_body q.

  (** [u] made its message of round [rid] for [v]. *)
  Definition has_sent (ws : list CWorld) (u v : Verifier) (rid : RoundId) : Prop :=
    exists d, cwas ws u d /\ s_round_id (d_s d) = rid /\ contains v (a_artifacts (d_a d)) = true.
  (** It is on its way. *)
  Definition on_way (w : CWorld) (u v : Verifier) (rid : RoundId) : Prop :=
    exists m, In (u, v, m) (cw_way w) /\ m_round (sp_meta (msg_direct m)) = rid.

  (** Whoever left a round had sent all its messages of that round. *)
  Definition diligent (ws : list CWorld) : Prop :=
    forall later w earlier u d d', ws = later ++ w :: earlier -> cw_node w u = Some d' -> cwas earlier u d ->
    s_round_id (d_s d) <> s_round_id (d_s d') ->
    forall v, mem v (message_destinations (d_s d)) = true -> has_sent ws u v (s_round_id (d_s d)).
  (** Nothing left to do but to finalize: nothing is on its way to a session, everything handed out has been processed, and
      everybody has sent all messages of the current round. *)
  Definition at_rest (w : CWorld) : Prop :=
    (forall u v m, In (u, v, m) (cw_way w) -> cw_node w v = None) /\
    forall v d, cw_node w v = Some d -> d_todo d = [] /\
      forall dest, mem dest (message_destinations (d_s d)) = true -> contains dest (a_artifacts (d_a d)) = true.
End WithParams.
Arguments CWorld {P} Pr.
