(** [Message] (manul/src/session/message.rs) and [Evidence] (manul/src/session/evidence.rs) as bytes, for the session parameters
    of the tests: what [Serialize] and [Deserialize] derive for them, in the binary format of manul/src/dev/wire_format.rs (see
    TestParams.v for the format itself). An [Option] is a byte 0, or a byte 1 and the value; an enum is the number of the variant
    as a varint, and then the fields of the variant; a [PhantomData] is nothing.
    Simplifications: those of TestParams.v; whether a string is well-formed UTF-8 is a parameter. *)
From Coq Require Import List NArith Bool.
From Verif Require Import Base BMap Errors RoundId Message Protocol Transcript SerMap TestParams.
Import ListNotations.
Set Implicit Arguments.

(** ** Options, maps, strings *)
Definition put_option {A} (put : A -> bytes) (x : option A) : bytes :=
  match x with None => [0%N] | Some x => 1%N :: put x end.
Definition read_option {A} (read : bytes -> option (A * bytes)) (b : bytes) : option (option A * bytes) :=
  and_then (read_byte b) (fun t b =>
    if N.eqb t 0 then Some (None, b)
    else if N.eqb t 1 then and_then (read b) (fun x b => Some (Some x, b))
    else None).

(** [SerializableMap] (utils/serializable_map.rs:58-118, see SerMap.v): the length and the elements. [read_elements] is what the
    successive calls of [next_element] return, and what is left of the input after them. *)
Definition put_map {K V} {OK : Ord K} (put_k : K -> bytes) (put_v : V -> bytes) (m : bmap K V) : bytes :=
  (varint (N.of_nat (fst (sm_serialize m))) ++ flat_map (fun kv => put_k (fst kv) ++ put_v (snd kv)) (snd (sm_serialize m)))%list.
Fixpoint read_elements {A} (read : bytes -> option (A * bytes)) (n : nat) (b : bytes) : list (option A) * bytes :=
  match n with
  | O => ([], b)
  | S n =>
      match read b with
      | Some (x, b) => let (l, b) := read_elements read n b in (Some x :: l, b)
      | None => ([None], b)
      end
  end.
Definition read_map {K V} {OK : Ord K} (read_k : bytes -> option (K * bytes)) (read_v : bytes -> option (V * bytes)) (b : bytes)
    : option (bmap K V * bytes) :=
  and_then (read_varint b) (fun n b =>
    let (l, b) := read_elements (fun b => and_then (read_k b) (fun k b => and_then (read_v b) (fun v b => Some ((k, v), b)))) (N.to_nat n) b in
    match sm_deserialize l with Some m => Some (m, b) | None => None end).

(** ** Messages *)
(** [MessagePart] (protocol/message.rs:13-14, 162-214): the payload, if there is one. *)
Definition put_body (x : body) : bytes := put_option put_bytes x.
Definition read_body (b : bytes) : option (body * bytes) := read_option read_bytes b.
(** [SignedMessagePart] and [MessageWithMetadata] (session/message.rs:75-79, 104-108). *)
Definition put_part {k} (p : SPart k) : bytes := (put_bytes (sp_sig p) ++ put_meta (sp_meta p) ++ put_body (sp_body p))%list.
Definition read_part {k} (b : bytes) : option (SPart k * bytes) :=
  and_then (read_bytes b) (fun g b => and_then (read_meta b) (fun m b => and_then (read_body b) (fun x b => Some (mkSPart g m x, b)))).
(** [TestVerifier] (dev/session_parameters.rs:16-17) *)
Definition put_verifier (v : @Verifier testP) : bytes := [v].
Definition read_verifier (b : bytes) : option (@Verifier testP * bytes) := read_byte b.
(** [Message] (session/message.rs:224-230) *)
Definition put_message (m : @Message testP) : bytes :=
  (put_verifier (msg_dest m) ++ put_part (msg_direct m) ++ put_part (msg_echo m) ++ put_part (msg_normal m))%list.
Definition read_message (b : bytes) : option (@Message testP * bytes) :=
  and_then (read_verifier b) (fun v b => and_then (read_part b) (fun d b => and_then (read_part b) (fun e b => and_then (read_part b) (fun n b =>
    Some (mkMessage v d e n, b))))).

(** ** Evidence *)
(** [ProtocolEvidence] (session/evidence.rs:343-356); the error is a [SerializedProtocolError], that is bytes. *)
Definition put_proto (e : @ProtoEv testP) : bytes :=
  (put_bytes (pe_error e)
   ++ put_option put_part (pe_direct e) ++ put_option put_part (pe_echo e) ++ put_option put_part (pe_normal e)
   ++ put_map put_rid put_part (pe_directs e) ++ put_map put_rid put_part (pe_echos e) ++ put_map put_rid put_part (pe_normals e)
   ++ put_map put_rid (put_map put_verifier put_part) (pe_others e)
   ++ put_map put_rid put_part (pe_hashes e))%list.
Definition read_proto (b : bytes) : option (@ProtoEv testP * bytes) :=
  and_then (read_bytes b) (fun err b =>
  and_then (read_option read_part b) (fun d b => and_then (read_option read_part b) (fun e b => and_then (read_option read_part b) (fun n b =>
  and_then (read_map read_rid read_part b) (fun ds b => and_then (read_map read_rid read_part b) (fun es b => and_then (read_map read_rid read_part b) (fun ns b =>
  and_then (read_map read_rid (read_map read_verifier read_part) b) (fun os b =>
  and_then (read_map read_rid read_part b) (fun hs b =>
    Some (@mkProtoEv testP err d e n ds es ns os hs, b)))))))))).

(** [EvidenceEnum] (session/evidence.rs:213-222) and the structs in it (224-228, 250-254, 261-264, 288-291, 315-318), and
    [InvalidEchoError], [MismatchedBroadcastsError] (session/echo.rs:45-48, 87-92). *)
Definition put_enum (x : @EvEnum testP) : bytes :=
  match x with
  | EvProtocol e => varint 0 ++ put_proto e
  | EvDirect p => varint 1 ++ put_part p
  | EvEcho p => varint 2 ++ put_part p
  | EvNormal p => varint 3 ++ put_part p
  | EvInvalidEcho p v => varint 4 ++ put_part p ++ put_verifier v
  | EvMismatched v p h => varint 5 ++ put_verifier v ++ put_part p ++ put_shash h
  end%list.
Definition read_enum (b : bytes) : option (@EvEnum testP * bytes) :=
  and_then (read_varint b) (fun t b =>
    match t with
    | 0 => and_then (read_proto b) (fun e b => Some (EvProtocol e, b))
    | 1 => and_then (read_part b) (fun p b => Some (EvDirect p, b))
    | 2 => and_then (read_part b) (fun p b => Some (EvEcho p, b))
    | 3 => and_then (read_part b) (fun p b => Some (EvNormal p, b))
    | 4 => and_then (read_part b) (fun p b => and_then (read_verifier b) (fun v b => Some (EvInvalidEcho p v, b)))
    | 5 => and_then (read_verifier b) (fun v b => and_then (read_part b) (fun p b => and_then (read_shash b) (fun h b => Some (EvMismatched v p h, b))))
    | _ => None
    end%N).

(** [Evidence] (session/evidence.rs:28-34); the description, which the model of evidence leaves out, is a string. *)
Section Described.
  Variable utf8 : bytes -> bool.
  Definition read_string (b : bytes) : option (bytes * bytes) :=
    and_then (read_bytes b) (fun s b => if utf8 s then Some (s, b) else None).
  Definition put_evidence (description : bytes) (ev : @Evidence testP) : bytes :=
    (put_verifier (ev_guilty ev) ++ put_bytes description ++ put_enum (ev_body ev))%list.
  Definition read_evidence (b : bytes) : option ((bytes * @Evidence testP) * bytes) :=
    and_then (read_verifier b) (fun v b => and_then (read_string b) (fun s b => and_then (read_enum b) (fun x b =>
      Some ((s, mkEvidence v x), b)))).
End Described.
