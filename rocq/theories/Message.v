(** manul/src/protocol/message.rs, manul/src/session/message.rs and the session parameters. *)
From Coq Require Import List NArith Bool Ascii String.
From Verif Require Import Base BMap Errors RoundId.
Import ListNotations.
Set Implicit Arguments.

(** A byte string literal [b"..."]. *)
Definition str (s : string) : bytes := map N_of_ascii (list_ascii_of_string s).

(** [PartKind] (protocol/message.rs:125-130). *)
Inductive kind := KEcho | KNormal | KDirect.

(** The content of [DirectMessage], [EchoBroadcast] or [NormalBroadcast]: [Option<MessagePayload>]
    (protocol/message.rs:163, 183, 203). [None] is [ProtocolMessagePart::none()]. *)
Definition body := option bytes.
Definition is_none (b : body) : bool := match b with None => true | Some _ => false end.

(** protocol/message.rs:140-144 *)
Definition kind_byte (k : kind) : N := match k with KEcho => 0 | KNormal => 1 | KDirect => 2 end%N.

(** What is fed to the digest in protocol/message.rs:138-156. *)
Definition part_preimage (k : kind) (b : body) : bytes :=
  (str "ProtocolMessagePart" ++ [kind_byte k] ++
   match b with
   | None => [0%N]
   | Some p => [1%N] ++ be64 (N.of_nat (List.length p)) ++ p
   end)%list.

(** [MessageMetadata] (session/message.rs:82-85); [SessionId] is a byte string (session/session.rs). *)
Record Meta := mkMeta { m_session : bytes; m_round : RoundId }.
Definition meta_eqb (a b : Meta) : bool :=
  (bytes_eqb (m_session a) (m_session b) && eqb (m_round a) (m_round b))%bool.

Lemma meta_eqb_spec a b : meta_eqb a b = true <-> a = b.
Proof.
  destruct a as [s r], b as [s' r']; unfold meta_eqb; simpl.
  rewrite andb_true_iff, bytes_eqb_spec, eqb_eq. split; [intros [-> ->]; auto | intros H; inv H; auto].
Qed.
Lemma meta_eqb_refl a : meta_eqb a a = true.
Proof. now apply meta_eqb_spec. Qed.
Lemma meta_eqb_false a b : meta_eqb a b = false <-> a <> b.
Proof. rewrite <- meta_eqb_spec. destruct (meta_eqb a b); intuition congruence. Qed.

(** [SignedMessageHash] (session/message.rs:373-378). *)
Record SHash := mkSHash { sh_sig : bytes; sh_meta : Meta; sh_hash : bytes }.

(** [SessionParameters] (session/session.rs) with the traits it bounds, and [WireFormat] applied to the library's types.
    - [signer_key] is [Keypair::verifying_key];
    - [sign r s d] is [RandomizedDigestSigner::try_sign_digest_with_rng] ([None] on error), [verify_sig v d g] is
      [DigestVerifier::verify_digest]; both take the finalized digest here (Rust passes the un-finalized digest object);
    - [hash] is [Digest];
    - [ser_*]/[deser_*] are [WireFormat::serialize]/[WireFormat::deserializer] on the type indicated. [deser_echo]
      includes the duplicate-key check of [SerializableMap] (modelled separately in SerMap.v). *)
Class Params := {
  Verifier : Type;
  OrdVerifier :> Ord Verifier;
  Signer : Type;
  signer_key : Signer -> Verifier;
  Sig : Type;
  sign : rng -> Signer -> bytes -> option Sig;
  verify_sig : Verifier -> bytes -> Sig -> bool;
  hash : bytes -> bytes;
  ser_sig : Sig -> option bytes;
  deser_sig : bytes -> option Sig;
  ser_meta : Meta -> option bytes;
  ser_echo : bmap Verifier SHash -> option bytes;
  deser_echo : bytes -> option (bmap Verifier SHash)
}.

(** [SignedMessagePart<M>] (session/message.rs:76-79, 105-108); the phantom [k] stands for the type [M]. *)
Record SPart (k : kind) := mkSPart { sp_sig : bytes; sp_meta : Meta; sp_body : body }.
Arguments mkSPart {k} _ _ _.

(** [Message] (session/message.rs:225-230). *)
Record Message {P : Params} := mkMessage {
  msg_dest : Verifier;
  msg_direct : SPart KDirect;
  msg_echo : SPart KEcho;
  msg_normal : SPart KNormal
}.

Arguments mkMessage {P} _ _ _ _.
Arguments Message {P}.

(** [VerifiedMessage] (session/message.rs:327-333). The verified parts ([VerifiedMessagePart]) have the same fields as
    the signed ones and are represented by [SPart]. *)
Record VMessage {P : Params} := mkVMessage {
  vm_from : Verifier;
  vm_meta : Meta;
  vm_direct : SPart KDirect;
  vm_echo : SPart KEcho;
  vm_normal : SPart KNormal
}.

Arguments mkVMessage {P} _ _ _ _ _.
Arguments VMessage {P}.

(** [CheckedMessage] (session/message.rs:288-293). *)
Record CMessage := mkCMessage {
  cm_meta : Meta;
  cm_direct : SPart KDirect;
  cm_echo : SPart KEcho;
  cm_normal : SPart KNormal
}.

Section WithParams.
  Context {P : Params}.

  (** protocol/message.rs:138-156 *)
  Definition part_hash (k : kind) (b : body) : bytes := hash (part_preimage k b).

  (** What is fed to the digest in session/message.rs:110-120. *)
  Definition digest_preimage (meta_bytes h : bytes) : bytes :=
    (str "SignedMessagePartDigest" ++ meta_bytes ++ be64 (N.of_nat (List.length h)) ++ h)%list.

  (** session/message.rs:110-120 *)
  Definition message_digest (m : Meta) (h : bytes) : res LocalError bytes :=
    let* mb := ok_or (ser_meta m) LE_Serialize in
    Ok (hash (digest_preimage mb h)).

  (** session/message.rs:123-130 *)
  Definition part_digest {k} (m : Meta) (b : body) : res LocalError bytes :=
    message_digest m (part_hash k b).

  (** session/message.rs:137-157 *)
  Definition sign_part (k : kind) (r : rng) (s : Signer) (sid : bytes) (rid : RoundId) (b : body)
    : res LocalError (SPart k) :=
    let m := mkMeta sid rid in
    let* d := part_digest (k := k) m b in
    let* g := ok_or (sign r s d) LE_Sign in
    let* gb := ok_or (ser_sig g) LE_Serialize in
    Ok (mkSPart gb m b).

  (** The signature check shared by session/message.rs:186-188 and 392-394. *)
  Definition check_sig (v : Verifier) (d : res LocalError bytes) (gb : bytes) : res MVErr unit :=
    let* d := map_err MV_Local d in
    let* g := ok_or (deser_sig gb) MV_InvalidSignature in
    if verify_sig v d g then Ok tt else Err MV_SignatureMismatch.

  (** session/message.rs:179-193 *)
  Definition verify_part {k} (v : Verifier) (p : SPart k) : res MVErr (SPart k) :=
    let* _ := check_sig v (part_digest (k := k) (sp_meta p) (sp_body p)) (sp_sig p) in Ok p.

  (** session/message.rs:159-169 *)
  Definition to_signed_hash {k} (p : SPart k) : SHash :=
    mkSHash (sp_sig p) (sp_meta p) (part_hash k (sp_body p)).

  (** session/message.rs:385-400 *)
  Definition verify_shash (v : Verifier) (h : SHash) : res MVErr SHash :=
    let* _ := check_sig v (message_digest (sh_meta h) (sh_hash h)) (sh_sig h) in Ok h.

  (** session/message.rs:415-422 *)
  Definition is_hash_of {k} (h : SHash) (p : SPart k) : bool :=
    bytes_eqb (part_hash k (sp_body p)) (sh_hash h).

  (** session/message.rs:237-257 *)
  Definition message_new (r : rng) (s : Signer) (sid : bytes) (rid : RoundId) (dest : Verifier)
      (direct : body) (e : SPart KEcho) (n : SPart KNormal) : res LocalError Message :=
    let* d := sign_part KDirect r s sid rid direct in
    Ok (mkMessage dest d e n).

  (** session/message.rs:264-280 *)
  Definition unify_metadata (m : Message) : option CMessage :=
    if negb (meta_eqb (sp_meta (msg_echo m)) (sp_meta (msg_direct m))) then None
    else if negb (meta_eqb (sp_meta (msg_normal m)) (sp_meta (msg_direct m))) then None
    else Some (mkCMessage (sp_meta (msg_direct m)) (msg_direct m) (msg_echo m) (msg_normal m)).

  (** session/session.rs:83-91 *)
  Definition session_id_from_seed (seed : bytes) : bytes := hash (str "SessionId" ++ seed)%list.

  (** session/message.rs:300-318 *)
  Definition verify_message (v : Verifier) (m : CMessage) : res MVErr VMessage :=
    let* d := verify_part v (cm_direct m) in
    let* e := verify_part v (cm_echo m) in
    let* n := verify_part v (cm_normal m) in
    Ok (mkVMessage v (cm_meta m) d e n).
End WithParams.
