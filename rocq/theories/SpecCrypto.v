(** Vocabulary of the properties about signatures, hashes and evidence. No proofs here. *)
From Coq Require Import List NArith Bool Ascii String.
From Verif Require Import Base BMap Errors RoundId Message Protocol Transcript Evidence Session Spec.
Import ListNotations.
Set Implicit Arguments.

Section WithParams.
  Context {P : Params}.

  (** Two given byte strings are a hash collision. *)
  Definition collide (x y : bytes) : Prop := x <> y /\ hash x = hash y.

  (** The bytes that are hashed to obtain the content hash of a message part... *)
  Definition content_bytes (k : kind) (b : body) : bytes :=
    (str "ProtocolMessagePart" ++ [match k with KEcho => 0 | KNormal => 1 | KDirect => 2 end]%N ++
     match b with None => [0]%N | Some p => 1%N :: be64 (N.of_nat (List.length p)) ++ p end)%list.
  (** ... and to obtain the digest that is signed, from the serialized metadata [mb] and the content hash [h]. *)
  Definition signed_bytes (mb h : bytes) : bytes :=
    (str "SignedMessagePartDigest" ++ mb ++ be64 (N.of_nat (List.length h)) ++ h)%list.

  (** The wire format's encoding of metadata is prefix-free (in particular injective). *)
  Definition prefix_free_meta : Prop := forall m m' mb mb' r r',
    ser_meta m = Some mb -> ser_meta m' = Some mb' -> (mb ++ r)%list = (mb' ++ r')%list -> m = m'.

  (** What was signed can be verified. *)
  Definition signatures_correct : Prop := forall r s d g gb,
    sign r s d = Some g -> ser_sig g = Some gb ->
    exists g', deser_sig gb = Some g' /\ verify_sig (signer_key s) d g' = true.

  (** What can go wrong when one of two parts (metadata [m], kind [k], content [b]) is taken for the other:
      a collision of the content hashes, or of the signed digests. *)
  Definition parts_collide (k k' : kind) (m m' : Meta) (b b' : body) : Prop :=
    collide (content_bytes k b) (content_bytes k' b') \/
    exists mb mb', ser_meta m = Some mb /\ ser_meta m' = Some mb' /\
      collide (signed_bytes mb (hash (content_bytes k b))) (signed_bytes mb' (hash (content_bytes k' b'))).

  (** The serialized signature [gb] is accepted under key [v] for two different digests. *)
  Definition ambiguous (v : Verifier) (gb : bytes) : Prop := exists g d d',
    deser_sig gb = Some g /\ d <> d' /\ verify_sig v d g = true /\ verify_sig v d' g = true.

  (** The signed part of kind [k] of a message. *)
  Definition msg_part (k : kind) (m : Message) : SPart k :=
    match k with KDirect => msg_direct m | KEcho => msg_echo m | KNormal => msg_normal m end.
End WithParams.
Arguments prefix_free_meta P : clear implicits.
Arguments signatures_correct P : clear implicits.

(** [RequiredMessageParts] values that can be built with the public constructors. *)
Inductive api_parts : ReqParts -> Prop :=
| api_echo p : req_echo = Ok p -> api_parts p
| api_normal p : req_normal = Ok p -> api_parts p
| api_direct p : req_direct = Ok p -> api_parts p
| api_and_echo p q : api_parts p -> and_echo p = Ok q -> api_parts q
| api_and_normal p q : api_parts p -> and_normal p = Ok q -> api_parts q
| api_and_direct p q : api_parts p -> and_direct p = Ok q -> api_parts q.

(** Round [k] of a protocol of [n] linear rounds (protocol/round_id.rs:210-233): [new_linear] for all but the last. *)
Definition linear_round (n k : N) : res LocalError TransitionInfo :=
  if N.ltb k n then new_linear k else Ok (new_linear_terminating k).
