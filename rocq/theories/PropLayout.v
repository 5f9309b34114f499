(** Property C132: the bytes which [BinaryFormat] takes for messages and evidence. *)
From Coq Require Import List NArith Bool.
From Verif Require Import Base BMap Errors RoundId Message Protocol Transcript Evidence TestParams Codec SpecLayout LayoutFacts CodecFacts ToyCodec.
Import ListNotations.
Set Implicit Arguments.

(** C132. A message is read exactly from the bytes that are laid out as one; what is left is what follows them. *)
Theorem C132_messages : forall b (m : @Message testP) r,
  read_message b = Some (m, r) <-> exists t, b = (t ++ r)%list /\ message_layout m t.
Proof. exact message_fits. Qed.
Print Assumptions C132_messages.

(** So is evidence, with its description. *)
Theorem C132_evidence : forall utf8 b x r,
  read_evidence utf8 b = Some (x, r) <-> exists t, b = (t ++ r)%list /\ evidence_layout utf8 x t.
Proof. exact evidence_fits. Qed.
Print Assumptions C132_evidence.

(** And what the library itself reads: echo round messages and signatures. *)
Theorem C132_inner :
  (forall b m, @deser_echo testP b = Some m <-> exists t r, b = (t ++ r)%list /\ map_layout byte_layout shash_layout m t) /\
  (forall b g, @deser_sig testP b = Some g <-> exists t r, b = (t ++ r)%list /\ signature_layout g t).
Proof. exact (conj echo_fits signature_fits). Qed.
Print Assumptions C132_inner.

(** The same bytes are not the layout of two messages or two pieces of evidence; all of these have one, the one that is written. *)
Theorem C132_unambiguous : forall utf8,
  (forall (m m' : @Message testP) t, message_layout m t -> message_layout m' t -> m = m') /\
  (forall x y t, evidence_layout utf8 x t -> evidence_layout utf8 y t -> x = y) /\
  (forall m : @Message testP, message_layout m (put_message m)) /\
  (forall s (ev : @Evidence testP), utf8 s = true -> evidence_layout utf8 (s, ev) (put_evidence s ev)).
Proof. exact layouts_unambiguous. Qed.
Print Assumptions C132_unambiguous.

(** A message as it is written, and with a length that has a superfluous byte; and bytes that are no message: a flag of 2, a length
    beyond the end, a last byte missing. *)
Example C132_case :
  read_message [2; 2; 1; 0; 2; 7; 8; 1; 0; 0; 1; 2; 1; 2; 2; 1; 0; 2; 7; 8; 1; 0; 0; 0; 2; 1; 0; 2; 7; 8; 1; 0; 0; 1; 0]%N = Some (a_message, []) /\
  read_message [2; 130; 0; 1; 0; 2; 7; 8; 1; 0; 0; 1; 2; 1; 2; 2; 1; 0; 2; 7; 8; 1; 0; 0; 0; 2; 1; 0; 2; 7; 8; 1; 0; 0; 1; 128; 0; 5]%N = Some (a_message, [5%N]) /\
  read_message [2; 2; 1; 0; 2; 7; 8; 1; 0; 2; 1; 2; 1; 2; 2; 1; 0; 2; 7; 8; 1; 0; 0; 0; 2; 1; 0; 2; 7; 8; 1; 0; 0; 1; 0]%N = None /\
  read_message [2; 99; 1; 0; 2; 7; 8; 1; 0; 0; 1; 2; 1; 2; 2; 1; 0; 2; 7; 8; 1; 0; 0; 0; 2; 1; 0; 2; 7; 8; 1; 0; 0; 1; 0]%N = None /\
  read_message [2; 2; 1; 0; 2; 7; 8; 1; 0; 0; 1; 2; 1; 2; 2; 1; 0; 2; 7; 8; 1; 0; 0; 0; 2; 1; 0; 2; 7; 8; 1; 0; 0; 1]%N = None.
Proof. repeat split; vm_compute; reflexivity. Qed.
