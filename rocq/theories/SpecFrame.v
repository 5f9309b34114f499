(** Vocabulary of the properties about evidence against honest parties. No proofs here. *)
From Coq Require Import List NArith Bool.
From Verif Require Import Base BMap Errors RoundId Message Protocol Transcript Evidence Session Spec SpecCrypto SpecEvidence SpecWorld.
Import ListNotations.
Set Implicit Arguments.

Section WithParams.
  Context {P : Params}.
  Context {Pr : Proto}.

  (** The digest that is signed in a signed message hash. *)
  Definition digest_of_hash (h : SHash) : option bytes :=
    match ser_meta (sh_meta h) with
    | Some mb => Some (hash (signed_bytes mb (sh_hash h)))
    | None => None
    end.

  (** [u] signed this digest in a message that it sent. *)
  Definition signed_in (w : World Pr) (u : Verifier) (D : option bytes) : Prop :=
    exists m k, In (u, m) (w_sent w) /\ D = digest_of (msg_part k m).

  (** Any signature of an honest party in the echo messages that arrived is on a digest that this party signed in a
      message that it sent. *)
  Definition unforged_echoes (honest : Verifier -> Prop) (w : World Pr) : Prop :=
    forall m msg u h, In m (w_seen w) -> body_echo_msg (sp_body (msg_normal m)) = Some msg -> get u msg = Some h ->
      honest u -> hash_signed u h -> signed_in w u (digest_of_hash h).

  (** The digests signed in a message hash and in a message part are the same although what is hashed differs. *)
  Definition hash_collides {k} (h : SHash) (p : SPart k) : Prop := exists mb mb',
    ser_meta (sp_meta p) = Some mb /\ ser_meta (sh_meta h) = Some mb' /\
    collide (signed_bytes mb (hash (content_bytes k (sp_body p)))) (signed_bytes mb' (sh_hash h)).

  (** A hash that arrived in an echo message collides with a part that an honest party sent. *)
  Definition found_echo_collision (w : World Pr) : Prop := exists m msg x h u m' k,
    In m (w_seen w) /\ body_echo_msg (sp_body (msg_normal m)) = Some msg /\ get x msg = Some h /\
    In (u, m') (w_sent w) /\ hash_collides h (msg_part k m').

  (** [h] is the hash of a part of a kind other than the echo broadcast that [u] sent in round [rid] of session [sid]. *)
  Definition hash_of_other_part (ws : list (World Pr)) (u : Verifier) (sid : bytes) (rid : RoundId) (h : SHash) : Prop :=
    exists k b, k <> KEcho /\ sent_part ws u sid rid k b /\
      sh_meta h = mkMeta sid rid /\ sh_hash h = hash (content_bytes k b).
End WithParams.
