(** Honest parties that use [run_session], among dishonest parties. As in SpecWorld.v the adversary decides what arrives where
    and when; but what an honest party does with its sessions is what the tokio driver does. No proofs here. *)
From Coq Require Import List NArith Bool.
From Verif Require Import Base BMap Errors RoundId Message Protocol Transcript Evidence Session Spec SpecCrypto Network RunSync Driver SpecDriver SpecWorld SpecEvidence SpecFrame.
Import ListNotations.
Set Implicit Arguments.

Section WithParams.
  Context {P : Params}.
  Context {Pr : Proto}.

  (** The calls of [run_session] of the honest parties (by party and session id), the messages that were put into outgoing
      channels so far with their senders, and the messages that were taken from incoming channels so far. *)
  Record DWorld := mkDWorld {
    dw_node : Verifier -> bytes -> option (Drv Pr);
    dw_sent : list (Verifier * Message);
    dw_seen : list Message
  }.

  (** Any signature of an honest party in [m] is on a digest that this party signed in a message that it sent. *)
  Definition dunforged (honest : Verifier -> Prop) (w : DWorld) (m : Message) : Prop :=
    forall u k, honest u -> part_signed u (msg_part k m) ->
      exists m' k', In (u, m') (dw_sent w) /\ digest_of (msg_part k m) = digest_of (msg_part k' m').

  (** One call of [run_session] goes on with whatever input (a message may claim to be from anybody, a channel may be closed,
      the session may be cancelled), as long as it is not a forged message. *)
  Definition dwstep (honest : Verifier -> Prop) (r : Verifier -> bytes -> NetRng) (w w' : DWorld) : Prop :=
    exists v sid d i ls d', dw_node w v sid = Some d /\ drv_step (r v sid) d i = Some (ls, d') /\
      (forall from m, i = IRecv from m -> dunforged honest w m) /\
      dw_node w' v sid = Some d' /\
      (forall v' sid', (v', sid') <> (v, sid) -> dw_node w' v' sid' = dw_node w v' sid') /\
      dw_sent w' = outs v ls ++ dw_sent w /\
      dw_seen w' = match i with IRecv _ m => m :: dw_seen w | _ => dw_seen w end.

  (** In the beginning all sessions are new, and nothing has been sent. *)
  Definition dwstart (honest : Verifier -> Prop) (w : DWorld) : Prop :=
    dw_sent w = [] /\ dw_seen w = [] /\
    forall v sid d, dw_node w v sid = Some d ->
      honest v /\ exists s, initial s /\ s_verifier s = v /\ s_id s = sid /\ d = drv_enter s [].

  (** What happened so far, the latest state of the world first. *)
  Inductive dwtrace (honest : Verifier -> Prop) (r : Verifier -> bytes -> NetRng) : list DWorld -> Prop :=
  | dwt_start w : dwstart honest w -> dwtrace honest r [w]
  | dwt_step w ws w' : dwtrace honest r (w :: ws) -> dwstep honest r w w' -> dwtrace honest r (w' :: w :: ws).

  (** A part that was received and a part that an honest party sent have colliding hashes. *)
  Definition dcollision (w : DWorld) : Prop := exists u m m' k k',
    In m (dw_seen w) /\ In (u, m') (dw_sent w) /\
    parts_collide k k' (sp_meta (msg_part k m)) (sp_meta (msg_part k' m')) (sp_body (msg_part k m)) (sp_body (msg_part k' m')).

  (** At some point in [ws], the call for session [sid] of party [u] held the session [s]. *)
  Definition drove (ws : list DWorld) (u : Verifier) (sid : bytes) (s : Session Pr) : Prop :=
    exists w d x, In w ws /\ dw_node w u sid = Some d /\ drv_state d = Some x /\ d_s x = s.

  (** [b] is the content of the part of kind [k] of a message that session [sid] of party [u] made in round [rid], for one of
      its destinations. *)
  Definition drove_part (ws : list DWorld) (u : Verifier) (sid : bytes) (rid : RoundId) k (b : body) : Prop :=
    exists s g dest m art, drove ws u sid s /\ s_round_id s = rid /\ mem dest (message_destinations s) = true /\
      make_message s g dest = Ok (m, (dest, art)) /\ b = sp_body (msg_part k m).

  (** Any signature of an honest party in the echo messages that were received is on a digest that this party signed in a
      message that it sent. *)
  Definition dunforged_echoes (honest : Verifier -> Prop) (w : DWorld) : Prop :=
    forall m msg u h, In m (dw_seen w) -> body_echo_msg (sp_body (msg_normal m)) = Some msg -> get u msg = Some h ->
      honest u -> hash_signed u h -> exists m' k, In (u, m') (dw_sent w) /\ digest_of_hash h = digest_of (msg_part k m').

  (** A hash that was received in an echo message collides with a part that an honest party sent. *)
  Definition decho_collision (w : DWorld) : Prop := exists m msg x h u m' k,
    In m (dw_seen w) /\ body_echo_msg (sp_body (msg_normal m)) = Some msg /\ get x msg = Some h /\
    In (u, m') (dw_sent w) /\ hash_collides h (msg_part k m').
End WithParams.
Arguments DWorld {P} Pr.
