(** manul/src/dev/session_parameters.rs with the binary format of manul/src/dev/wire_format.rs: [TestSessionParams<BinaryFormat>].
    [BinaryFormat] is postcard (wire_format.rs:24-38), whose source is not part of the repository; the encoding below is the
    documented one: a [u8] is one byte, a [bool] one byte 0 or 1, an integer or a length is a little-endian base-128 varint,
    byte strings and sequences are preceded by their length, the fields of a struct are concatenated. The deserializer does not
    look at what follows the value it reads (wire_format.rs:33-37 never asks for the rest).
    Simplifications: varints are not limited to 64 bits, [u8] fields are not limited to 256 (as elsewhere in the model). *)
From Coq Require Import List NArith Bool.
From Verif Require Import Base BMap Errors RoundId Message SerMap Simple.
Import ListNotations.
Set Implicit Arguments.

(** ** postcard *)
Fixpoint varint_go (fuel : nat) (n : N) : bytes :=
  match fuel with
  | O => [n]
  | S fuel => if N.ltb n 128 then [n] else (n mod 128 + 128)%N :: varint_go fuel (n / 128)
  end.
Definition varint (n : N) : bytes := varint_go (N.to_nat (N.size n)) n.
Fixpoint read_varint (b : bytes) : option (N * bytes) :=
  match b with
  | [] => None
  | x :: b =>
      if N.ltb x 128 then Some (x, b)
      else match read_varint b with Some (n, b) => Some ((x - 128) + 128 * n, b)%N | None => None end
  end.

Definition read_byte (b : bytes) : option (N * bytes) := match b with [] => None | x :: b => Some (x, b) end.
Definition put_bool (x : bool) : bytes := [if x then 1 else 0]%N.
Definition read_bool (b : bytes) : option (bool * bytes) :=
  match b with [] => None | x :: b => if N.eqb x 0 then Some (false, b) else if N.eqb x 1 then Some (true, b) else None end.

(** Byte strings ([SliceLike] in a binary format) and sequences of [u8] ([TinyVec<[u8; 4]>]) look the same. *)
Definition put_bytes (x : bytes) : bytes := (varint (N.of_nat (length x)) ++ x)%list.
Definition read_bytes (b : bytes) : option (bytes * bytes) :=
  match read_varint b with
  | Some (n, b) => if N.ltb (N.of_nat (length b)) n then None else Some (firstn (N.to_nat n) b, skipn (N.to_nat n) b)
  | None => None
  end.

(** One field after the other. *)
Definition and_then {A B} (x : option (A * bytes)) (f : A -> bytes -> option B) : option B :=
  match x with Some (a, b) => f a b | None => None end.

(** ** The types of the library *)
(** protocol/round_id.rs:15-20 *)
Definition put_rid (r : RoundId) : bytes := (rid_round r :: put_bytes (rid_groups r) ++ put_bool (rid_echo r))%list.
Definition read_rid (b : bytes) : option (RoundId * bytes) :=
  and_then (read_byte b) (fun n b => and_then (read_bytes b) (fun gs b => and_then (read_bool b) (fun e b => Some (mkRid n gs e, b)))).
(** session/message.rs:81-85, session/session.rs:53-54 *)
Definition put_meta (m : Meta) : bytes := (put_bytes (m_session m) ++ put_rid (m_round m))%list.
Definition read_meta (b : bytes) : option (Meta * bytes) :=
  and_then (read_bytes b) (fun sid b => and_then (read_rid b) (fun r b => Some (mkMeta sid r, b))).
(** session/message.rs:372-378 *)
Definition put_shash (h : SHash) : bytes := (put_bytes (sh_sig h) ++ put_meta (sh_meta h) ++ put_bytes (sh_hash h))%list.
Definition read_shash (b : bytes) : option (SHash * bytes) :=
  and_then (read_bytes b) (fun g b => and_then (read_meta b) (fun m b => and_then (read_bytes b) (fun h b => Some (mkSHash g m h, b)))).

(** [EchoRoundMessage] (session/echo.rs:125-130): the sequence that [SerializableMap] writes and reads (SerMap.v). The keys are
    [TestVerifier]s, that is [u8]s. *)
Definition put_entry (kv : N * SHash) : bytes := fst kv :: put_shash (snd kv).
Definition read_entry (b : bytes) : option ((N * SHash) * bytes) :=
  and_then (read_byte b) (fun v b => and_then (read_shash b) (fun h b => Some ((v, h), b))).
(** What the successive calls of [next_element] return. *)
Fixpoint read_entries (n : nat) (b : bytes) : list (option (N * SHash)) :=
  match n with
  | O => []
  | S n => match read_entry b with Some (kv, b) => Some kv :: read_entries n b | None => [None] end
  end.
Definition put_echo (m : bmap N SHash) : bytes :=
  (varint (N.of_nat (fst (sm_serialize m))) ++ flat_map put_entry (snd (sm_serialize m)))%list.
Definition read_echo (b : bytes) : option (bmap N SHash) :=
  match read_varint b with Some (n, b) => sm_deserialize (read_entries (N.to_nat n) b) | None => None end.

(** ** dev/session_parameters.rs *)
(** session_parameters.rs:26-31; [TestSigner] and [TestVerifier] (7-38) are represented by the number in them. *)
Record TestSignature := mkTestSignature { signed_by : N; randomness : N }.
Definition put_signature (g : TestSignature) : bytes := (signed_by g :: varint (randomness g))%list.
Definition read_signature (b : bytes) : option TestSignature :=
  and_then (read_byte b) (fun s b => and_then (read_varint b) (fun x _ => Some (mkTestSignature s x))).
(** session_parameters.rs:40-51; [next_u64] is a draw modulo 2^64. *)
Definition test_sign (r : rng) (s : N) (_ : bytes) : option TestSignature := Some (mkTestSignature s (r [] mod 2 ^ 64)).
(** session_parameters.rs:61-69 *)
Definition test_verify (v : N) (_ : bytes) (g : TestSignature) : bool := N.eqb v (signed_by g).

(** session_parameters.rs:71-94. *)
Record TestHasher := mkTestHasher { cursor : nat; buffer : bytes }.
Definition hasher_default : TestHasher := mkTestHasher 0 (repeat 0%N 32).
Fixpoint xor_at (i : nat) (x : N) (b : bytes) : bytes :=
  match b, i with
  | [], _ => []
  | y :: b, O => N.lxor y x :: b
  | y :: b, S i => y :: xor_at i x b
  end.
Definition hasher_byte (h : TestHasher) (x : N) : TestHasher :=
  mkTestHasher (Nat.modulo (cursor h + 1) 32) (xor_at (cursor h) x (buffer h)).
Definition hasher_update (h : TestHasher) (data : bytes) : TestHasher := fold_left hasher_byte data h.
Definition hasher_finalize (h : TestHasher) : bytes := buffer h.
Definition test_hash (data : bytes) : bytes := hasher_finalize (hasher_update hasher_default data).

(** [TestSessionParams<BinaryFormat>] (session_parameters.rs:100-110). *)
Definition testP : Params := {|
  Verifier := N; OrdVerifier := OrdN; Signer := N; signer_key := fun s => s; Sig := TestSignature;
  sign := test_sign; verify_sig := test_verify; hash := test_hash;
  ser_sig := fun g => Some (put_signature g); deser_sig := read_signature;
  ser_meta := fun m => Some (put_meta m);
  ser_echo := fun m => Some (put_echo m); deser_echo := read_echo
|}.

(** The messages and errors of examples/src/simple.rs in this format (simple.rs:29-30, 60-61, 114-129, 268-272). *)
Definition two_bytes {T} (f : N -> N -> T) (b : bytes) : option T :=
  and_then (read_byte b) (fun x b => and_then (read_byte b) (fun y _ => Some (f x y))).
Definition position_codec : Codec Position := mkCodec (fun m => Some [my_position m; your_position m]) (two_bytes mkPosition).
Definition unit_struct : Codec unit := mkCodec (fun _ => Some []) (fun _ => Some tt).
Definition testW : SimpleWire := {|
  sw_message1 := position_codec;
  sw_echo1 := mkCodec (fun x => Some [x]) (fun b => and_then (read_byte b) (fun x _ => Some x));
  sw_broadcast1 := mkCodec (fun m => Some [rb_x m; rb_position m]) (two_bytes mkR1Broadcast);
  sw_message2 := position_codec;
  sw_error1 := unit_struct;
  sw_error2 := unit_struct
|}.
