(** The JSON values that stand for messages and evidence. Vocabulary of C131; no proofs here. *)
From Coq Require Import List NArith Bool String.
From Verif Require Import Base BMap Errors RoundId Message Protocol Transcript Evidence Text TestParams Json.
Import ListNotations.
Set Implicit Arguments.
Local Open Scope list_scope.

(** [j] has the fields [names], with the values [vals] ([None] where it has none): it is an object where none of them occurs twice, or
    an array of the values. An object may have other fields. *)
Definition has_field (l : list (bytes * json)) (name : string) (v : option json) : Prop :=
  match v with
  | None => ~ In (text_bytes name) (map fst l)
  | Some v => exists l1 l2, l = l1 ++ (text_bytes name, v) :: l2 /\ ~ In (text_bytes name) (map fst (l1 ++ l2))
  end.
Definition has_fields (names : list string) (vals : list (option json)) (j : json) : Prop :=
  (exists l, j = JObj l /\ Forall2 (has_field l) names vals) \/
  (exists l, j = JArr l /\ List.length l = List.length names /\ vals = map Some l).

Definition is_number (j : json) (n : N) : Prop := j = JNum n.
Definition is_bool (j : json) (b : bool) : Prop := j = JBool b.
Definition is_bytes (t : TextEnc) (j : json) (b : bytes) : Prop := exists s, j = JStr s /\ dec t s = Some b.
Definition is_array {A} (is : json -> A -> Prop) (j : json) (xs : list A) : Prop := exists l, j = JArr l /\ Forall2 is l xs.
(** [null] stands for an absent value. *)
Definition is_option {A} (is : json -> A -> Prop) (j : json) (x : option A) : Prop :=
  (j = JNull /\ x = None) \/ (j <> JNull /\ exists y, x = Some y /\ is j y).
(** A field of this type can also be left out. *)
Definition is_optional {A} (is : json -> A -> Prop) (j : option json) (x : option A) : Prop :=
  (j = None /\ x = None) \/ (exists j', j = Some j' /\ is_option is j' x).
(** An array of pairs, with different keys. *)
Definition is_map {K V} {OK : Ord K} (isk : json -> K -> Prop) (isv : json -> V -> Prop) (j : json) (m : bmap K V) : Prop :=
  exists kvs, is_array (fun j kv => exists a b, j = JArr [a; b] /\ isk a (fst kv) /\ isv b (snd kv)) j kvs /\
    NoDup (map fst kvs) /\ forall k v, get k m = Some v <-> In (k, v) kvs.

Section Encodings.
  Variables hex base64 : TextEnc.

  Definition is_rid (j : json) (r : RoundId) : Prop := exists a b c, has_fields ["round"; "groups"; "is_echo"]%string [Some a; Some b; Some c] j /\
    is_number a (rid_round r) /\ is_array is_number b (rid_groups r) /\ is_bool c (rid_echo r).
  Definition is_meta (j : json) (m : Meta) : Prop := exists a b, has_fields ["session_id"; "round_id"]%string [Some a; Some b] j /\
    is_bytes hex a (m_session m) /\ is_rid b (m_round m).
  Definition is_shash (j : json) (h : SHash) : Prop := exists a b c,
    has_fields ["signature"; "metadata"; "message_part_hash"]%string [Some a; Some b; Some c] j /\
    is_bytes hex a (sh_sig h) /\ is_meta b (sh_meta h) /\ is_bytes hex c (sh_hash h).
  Definition is_echo (j : json) (m : bmap N SHash) : Prop := exists a, has_fields ["message_hashes"]%string [Some a] j /\ is_map is_number is_shash a m.
  Definition is_signature (j : json) (g : TestSignature) : Prop := exists a b, has_fields ["signed_by"; "randomness"]%string [Some a; Some b] j /\
    is_number a (signed_by g) /\ is_number b (randomness g).
  Definition is_part {k} (j : json) (p : SPart k) : Prop := exists a b c d,
    has_fields ["signature"; "message_with_metadata"]%string [Some a; Some b] j /\ is_bytes hex a (sp_sig p) /\
    has_fields ["metadata"; "message"]%string [Some c; Some d] b /\ is_meta c (sp_meta p) /\ is_option (is_bytes base64) d (sp_body p).
  Definition is_message (j : json) (m : @Message (jsonP hex)) : Prop := exists a b c d,
    has_fields ["destination"; "direct_message"; "echo_broadcast"; "normal_broadcast"]%string [Some a; Some b; Some c; Some d] j /\
    is_number a (msg_dest m) /\ is_part b (msg_direct m) /\ is_part c (msg_echo m) /\ is_part d (msg_normal m).

  Definition is_proto (j : json) (x : @ProtoEv (jsonP hex)) : Prop := exists a b c d e f g h i,
    has_fields ["error"; "direct_message"; "echo_broadcast"; "normal_broadcast"; "direct_messages"; "echo_broadcasts"; "normal_broadcasts";
                "other_echo_broadcasts"; "echo_hashes"; "phantom"]%string [Some a; b; c; d; Some e; Some f; Some g; Some h; Some i; Some JNull] j /\
    is_bytes base64 a (pe_error x) /\ is_optional is_part b (pe_direct x) /\ is_optional is_part c (pe_echo x) /\ is_optional is_part d (pe_normal x) /\
    is_map is_rid is_part e (pe_directs x) /\ is_map is_rid is_part f (pe_echos x) /\ is_map is_rid is_part g (pe_normals x) /\
    is_map is_rid (is_map is_number is_part) h (pe_others x) /\ is_map is_rid is_part i (pe_hashes x).
  (** The kinds of evidence are told by the name of the only field. *)
  Definition is_kind (name : string) (j j' : json) : Prop := j = JObj [(text_bytes name, j')].
  Definition is_body (j : json) (x : @EvEnum (jsonP hex)) : Prop :=
    match x with
    | EvProtocol e => exists j', is_kind "Protocol" j j' /\ is_proto j' e
    | EvDirect p => exists j', is_kind "InvalidDirectMessage" j j' /\ is_part j' p
    | EvEcho p => exists j', is_kind "InvalidEchoBroadcast" j j' /\ is_part j' p
    | EvNormal p => exists j', is_kind "InvalidNormalBroadcast" j j' /\ is_part j' p
    | EvInvalidEcho p v => exists j' a b c, is_kind "InvalidEcho" j j' /\ has_fields ["normal_broadcast"; "error"]%string [Some a; Some b] j' /\
        is_part a p /\ has_fields ["invalid_echo_sender"]%string [Some c] b /\ is_number c v
    | EvMismatched v p h => exists j' j'' a b c, is_kind "MismatchedBroadcasts" j j' /\ has_fields ["error"]%string [Some j''] j' /\
        has_fields ["guilty_party"; "we_received"; "echoed_to_us"]%string [Some a; Some b; Some c] j'' /\ is_number a v /\ is_part b p /\ is_shash c h
    end.
  Definition is_evidence (utf8 : bytes -> bool) (j : json) (x : bytes * @Evidence (jsonP hex)) : Prop := exists a c,
    has_fields ["guilty_party"; "description"; "evidence"]%string [Some a; Some (JStr (fst x)); Some c] j /\
    is_number a (ev_guilty (snd x)) /\ utf8 (fst x) = true /\ is_body c (ev_body (snd x)).
End Encodings.
