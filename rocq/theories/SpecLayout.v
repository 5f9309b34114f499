(** The layout of messages and evidence in the binary format (postcard), for the session parameters of the tests. Vocabulary of C132; no
    proofs here. A layout says which bytes may be used for a value. *)
From Coq Require Import List NArith Bool.
From Verif Require Import Base BMap Errors RoundId Message Protocol Transcript TestParams.
Import ListNotations.
Set Implicit Arguments.
Local Open Scope list_scope.

Definition byte_layout (n : N) (t : bytes) : Prop := t = [n].
(** Seven bits per byte, the least significant ones first; all bytes but the last have 128 added. Superfluous bytes are allowed. (As a
    byte is less than 256, [x] is less than 128.) *)
Inductive int_layout : N -> bytes -> Prop :=
| int_last n : (n < 128)%N -> int_layout n [n]
| int_more x n t : int_layout n t -> int_layout (x + 128 * n) ((128 + x)%N :: t).
Definition bool_layout (x : bool) (t : bytes) : Prop := t = [if x then 1 else 0]%N.
Definition bytes_layout (s : bytes) (t : bytes) : Prop := exists u, int_layout (N.of_nat (length s)) u /\ t = u ++ s.
Section Types.
  Context {A B : Type}.
  Definition option_layout (l : A -> bytes -> Prop) (x : option A) (t : bytes) : Prop :=
    match x with None => t = [0%N] | Some y => exists u, l y u /\ t = 1%N :: u end.
  Definition pair_layout (la : A -> bytes -> Prop) (lb : B -> bytes -> Prop) (x : A * B) (t : bytes) : Prop :=
    exists u v, la (fst x) u /\ lb (snd x) v /\ t = u ++ v.
End Types.
(** The number of entries, and the entries in any order, with different keys. *)
Definition map_layout {K V} {OK : Ord K} (lk : K -> bytes -> Prop) (lv : V -> bytes -> Prop) (m : bmap K V) (t : bytes) : Prop :=
  exists kvs u ts, NoDup (map fst kvs) /\ (forall k v, get k m = Some v <-> In (k, v) kvs) /\
    int_layout (N.of_nat (length kvs)) u /\ Forall2 (pair_layout lk lv) kvs ts /\ t = u ++ concat ts.

Definition rid_layout (r : RoundId) (t : bytes) : Prop := exists a b c,
  byte_layout (rid_round r) a /\ bytes_layout (rid_groups r) b /\ bool_layout (rid_echo r) c /\ t = a ++ b ++ c.
Definition meta_layout (m : Meta) (t : bytes) : Prop := exists a b, bytes_layout (m_session m) a /\ rid_layout (m_round m) b /\ t = a ++ b.
Definition shash_layout (h : SHash) (t : bytes) : Prop := exists a b c,
  bytes_layout (sh_sig h) a /\ meta_layout (sh_meta h) b /\ bytes_layout (sh_hash h) c /\ t = a ++ b ++ c.
Definition part_layout {k} (p : SPart k) (t : bytes) : Prop := exists a b c,
  bytes_layout (sp_sig p) a /\ meta_layout (sp_meta p) b /\ option_layout bytes_layout (sp_body p) c /\ t = a ++ b ++ c.
Definition message_layout (m : @Message testP) (t : bytes) : Prop := exists a b c d,
  byte_layout (msg_dest m) a /\ part_layout (msg_direct m) b /\ part_layout (msg_echo m) c /\ part_layout (msg_normal m) d /\ t = a ++ b ++ c ++ d.

Definition proto_layout (e : @ProtoEv testP) (t : bytes) : Prop := exists a b c d f g h i j,
  bytes_layout (pe_error e) a /\
  option_layout part_layout (pe_direct e) b /\ option_layout part_layout (pe_echo e) c /\ option_layout part_layout (pe_normal e) d /\
  map_layout rid_layout part_layout (pe_directs e) f /\ map_layout rid_layout part_layout (pe_echos e) g /\
  map_layout rid_layout part_layout (pe_normals e) h /\
  map_layout rid_layout (map_layout byte_layout part_layout) (pe_others e) i /\
  map_layout rid_layout part_layout (pe_hashes e) j /\
  t = a ++ b ++ c ++ d ++ f ++ g ++ h ++ i ++ j.
(** The number of the kind of evidence, and its contents. *)
Definition enum_layout (x : @EvEnum testP) (t : bytes) : Prop := exists a b, t = a ++ b /\
  match x with
  | EvProtocol e => int_layout 0 a /\ proto_layout e b
  | EvDirect p => int_layout 1 a /\ part_layout p b
  | EvEcho p => int_layout 2 a /\ part_layout p b
  | EvNormal p => int_layout 3 a /\ part_layout p b
  | EvInvalidEcho p v => int_layout 4 a /\ exists c d, part_layout p c /\ byte_layout v d /\ b = c ++ d
  | EvMismatched v p h => int_layout 5 a /\ exists c d e, byte_layout v c /\ part_layout p d /\ shash_layout h e /\ b = c ++ d ++ e
  end.
Definition evidence_layout (utf8 : bytes -> bool) (x : bytes * @Evidence testP) (t : bytes) : Prop := exists a b c,
  byte_layout (ev_guilty (snd x)) a /\ bytes_layout (fst x) b /\ utf8 (fst x) = true /\ enum_layout (ev_body (snd x)) c /\ t = a ++ b ++ c.
Definition signature_layout (g : TestSignature) (t : bytes) : Prop := exists a b, byte_layout (signed_by g) a /\ int_layout (randomness g) b /\ t = a ++ b.
