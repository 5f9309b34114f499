(** Honest parties among dishonest ones. The library runs only at the honest parties; everything that arrives there is made up by
    an adversary, who sees all messages sent by honest parties, delays, drops, duplicates and redirects them, and sends
    whatever messages it likes in whichever name, but cannot sign with the keys of honest parties. Honest parties may run any
    number of sessions at the same time, with different session ids. No proofs here. *)
From Coq Require Import List NArith Bool.
From Verif Require Import Base BMap Errors RoundId Message Protocol Transcript Evidence Session Spec SpecCrypto.
Import ListNotations.
Set Implicit Arguments.

Section WithParams.
  Context {P : Params}.
  Context {Pr : Proto}.

  (** The sessions of the honest parties (by party and session id), the messages they sent so far with their senders, and
      the messages that arrived so far. *)
  Record World := mkWorld {
    w_node : Verifier -> bytes -> option (DState Pr);
    w_sent : list (Verifier * Message);
    w_seen : list Message
  }.

  (** The digest that is signed in a message part. *)
  Definition digest_of {k} (p : SPart k) : option bytes :=
    match ser_meta (sp_meta p) with
    | Some mb => Some (hash (signed_bytes mb (hash (content_bytes k (sp_body p)))))
    | None => None
    end.

  (** Any signature of an honest party in [m] is on a digest that this party signed in a message that it sent. *)
  Definition unforged (honest : Verifier -> Prop) (w : World) (m : Message) : Prop :=
    forall u k, honest u -> part_signed u (msg_part k m) ->
      exists m' k', In (u, m') (w_sent w) /\ digest_of (msg_part k m) = digest_of (msg_part k' m').

  (** Only the session [sid] of party [v] changes, to [d]. *)
  Definition only_changes (w w' : World) (v : Verifier) (sid : bytes) (d : DState Pr) : Prop :=
    w_node w' v sid = Some d /\ forall v' sid', (v', sid') <> (v, sid) -> w_node w' v' sid' = w_node w v' sid'.

  (** A session makes a message for one of its destinations; any unforged message arrives at a session, in anybody's name;
      a session processes a message that it was told to process, or finalizes a round. *)
  Inductive wstep (honest : Verifier -> Prop) (w w' : World) : Prop :=
  | w_send v sid d g dest m art d' :
      w_node w v sid = Some d -> make_message (d_s d) g dest = Ok (m, (dest, art)) ->
      step d (EArt g dest art) d' -> only_changes w w' v sid d' ->
      w_sent w' = (v, m) :: w_sent w -> w_seen w' = w_seen w -> wstep honest w w'
  | w_arrive v sid d from m o d' :
      w_node w v sid = Some d -> unforged honest w m ->
      step d (EPre from m o) d' -> only_changes w w' v sid d' ->
      w_sent w' = w_sent w -> w_seen w' = m :: w_seen w -> wstep honest w w'
  | w_local v sid d e d' :
      w_node w v sid = Some d -> (exists vm, e = EProc vm) \/ (exists g, e = EFin g) ->
      step d e d' -> only_changes w w' v sid d' ->
      w_sent w' = w_sent w -> w_seen w' = w_seen w -> wstep honest w w'.

  (** In the beginning all sessions are new, and nothing has been sent. *)
  Definition wstart (honest : Verifier -> Prop) (w : World) : Prop :=
    w_sent w = [] /\ w_seen w = [] /\
    forall v sid d, w_node w v sid = Some d ->
      honest v /\ exists s, initial s /\ s_verifier s = v /\ s_id s = sid /\ d = start s.

  (** What happened so far, the latest state of the world first. *)
  Inductive wtrace (honest : Verifier -> Prop) : list World -> Prop :=
  | wt_start w : wstart honest w -> wtrace honest [w]
  | wt_step w ws w' : wtrace honest (w :: ws) -> wstep honest w w' -> wtrace honest (w' :: w :: ws).

  (** A part that arrived and a part that an honest party sent have colliding hashes. *)
  Definition found_collision (w : World) : Prop := exists u m m' k k',
    In m (w_seen w) /\ In (u, m') (w_sent w) /\
    parts_collide k k' (sp_meta (msg_part k m)) (sp_meta (msg_part k' m')) (sp_body (msg_part k m)) (sp_body (msg_part k' m')).

  (** At some point in [ws], session [sid] of party [u] was in state [d]. *)
  Definition was (ws : list World) (u : Verifier) (sid : bytes) (d : DState Pr) : Prop :=
    exists w, In w ws /\ w_node w u sid = Some d.

  (** [b] is the content of the part of kind [k] of a message that session [sid] of party [u] made in round [rid], for one of its
      destinations. *)
  Definition sent_part (ws : list World) (u : Verifier) (sid : bytes) (rid : RoundId) k (b : body) : Prop :=
    exists dU g dest m art, was ws u sid dU /\ s_round_id (d_s dU) = rid /\
      mem dest (message_destinations (d_s dU)) = true /\ make_message (d_s dU) g dest = Ok (m, (dest, art)) /\
      b = sp_body (msg_part k m).

  (** No round follows itself, directly or indirectly. *)
  Definition no_return : Prop := exists rank : RoundId -> nat, forall (st : St Pr) rid,
    mem rid (ti_children (tinfo Pr st)) = true -> rank (ti_id (tinfo Pr st)) < rank rid.
End WithParams.
Arguments World {P} Pr.
Arguments no_return {P} Pr.
