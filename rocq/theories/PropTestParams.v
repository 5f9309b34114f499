(** Properties C77 and C78: the session parameters used by the tests (dev/session_parameters.rs, dev/wire_format.rs). *)
From Coq Require Import List Arith NArith Bool.
From Verif Require Import Base BMap Errors RoundId Message Protocol Session Typed Network RunSync SerMap Simple
  SpecCrypto SpecEvidence SpecNet SpecSync TestParams TestParamsFacts ToyTest.
Import ListNotations.

(** C77. With [TestSessionParams<BinaryFormat>] nothing that the library serializes or signs fails, what is written can be
    read back, what is signed verifies, and the encoding of metadata is prefix-free: the assumptions about the session
    parameters that the other theorems make. *)
Theorem C77_assumptions_hold : wire_total testP /\ signatures_correct testP /\ echo_codec testP /\ prefix_free_meta testP.
Proof. exact (conj test_wire (conj test_signatures (conj test_echo_codec test_prefix_free))). Qed.
Print Assumptions C77_assumptions_hold.

(** Reading takes exactly the bytes that were written and leaves the rest, which is ignored at the end of a value. *)
Theorem C77_metadata_read_back : forall m rest, exists b, @ser_meta testP m = Some b /\ read_meta (b ++ rest) = Some (m, rest).
Proof. exact test_meta. Qed.
Print Assumptions C77_metadata_read_back.

Theorem C77_trailing_bytes_ignored : forall rest,
  (forall m b, @ser_echo testP m = Some b -> @deser_echo testP (b ++ rest) = Some m) /\
  (forall g b, @ser_sig testP g = Some b -> @deser_sig testP (b ++ rest) = Some g).
Proof. exact test_trailing_bytes. Qed.
Print Assumptions C77_trailing_bytes_ignored.

(** A map with a repeated key is not accepted, whatever else is in the message. *)
Theorem C77_duplicate_keys_refused : forall (kvs : list (N * SHash)) rest, ~ NoDup (map fst kvs) ->
  @deser_echo testP (varint (N.of_nat (length kvs)) ++ flat_map put_entry kvs ++ rest)%list = None.
Proof. exact test_duplicates. Qed.
Print Assumptions C77_duplicate_keys_refused.

(** The digest depends only on the bytes fed to it, not on how they are cut into pieces. *)
Theorem C77_digest_of_pieces : forall pieces : list bytes,
  hasher_finalize (fold_left hasher_update pieces hasher_default) = @hash testP (concat pieces).
Proof. exact test_pieces. Qed.
Print Assumptions C77_digest_of_pieces.

(** The output has 32 bytes. *)
Theorem C77_digest_size : forall x, length (@hash testP x) = 32.
Proof. exact test_hash_length. Qed.
Print Assumptions C77_digest_size.

(** Metadata of a second-round echo message in group 3, a signature and an echo message with two entries. *)
Example C77_case :
  @ser_meta testP (mkMeta [7; 8] (mkRid 2 [3] true))%N = Some [2; 7; 8; 2; 1; 3; 1]%N /\
  @ser_sig testP (mkTestSignature 5 300) = Some [5; 172; 2]%N /\
  (exists b, @ser_echo testP echo_two = Some b /\ length b = 21 /\ option_map to_list (@deser_echo testP b) = Some (to_list echo_two)) /\
  @deser_echo testP (2 :: put_entry (1, hash_one) ++ put_entry (1, hash_one))%N = None.
Proof. exact test_case. Qed.

(** What these parameters do not do, so that tests with them cannot tell: a signature is accepted for every content or for
    none, ... *)
Theorem C77_signatures_do_not_bind : forall v gb g d,
  @deser_sig testP gb = Some g -> @verify_sig testP v d g = true -> @ambiguous testP v gb.
Proof. exact test_ambiguous. Qed.
Print Assumptions C77_signatures_do_not_bind.

(** ... everybody can sign for everybody, ... *)
Theorem C77_signatures_can_be_forged : forall v, exists gb g, @deser_sig testP gb = Some g /\ forall d, @verify_sig testP v d g = true.
Proof. exact test_forge. Qed.
Print Assumptions C77_signatures_can_be_forged.

(** ... and for every message part of at least 33 bytes there is another one of the same length with the same hash, so that
    equivocation in an echo broadcast can pass the check of the echo round. *)
Theorem C77_second_preimages : forall k p, 33 <= length p -> exists p', p' <> p /\ length p' = length p /\
  @collide testP (content_bytes k (Some p)) (content_bytes k (Some p')) /\
  forall gb gb' m m', is_hash_of (P := testP) (to_signed_hash (P := testP) (k := k) (mkSPart gb m (Some p))) (mkSPart (k := k) gb' m' (Some p')) = true.
Proof. exact test_undetected. Qed.
Print Assumptions C77_second_preimages.

Example C77_case_hash : @hash testP (content_bytes KEcho (Some (repeat 9%N 33))) = @hash testP (content_bytes KEcho (Some (8 :: repeat 9 31 ++ [8])%N)).
Proof. vm_compute. reflexivity. Qed.

(** C78. simple.rs with the parameters of its tests (simple_test.rs:13-31) and 2 to 16 parties: without any assumption,
    [run_sync] terminates with the result n(n-1) for everybody, whatever is drawn and whatever messages are picked. *)
Theorem C78_simple_with_test_parameters : forall (ids : bset N) r sid picks,
  let n := length (elements ids) in 2 <= n <= 16 ->
  exists fuel0 reports results, (forall fuel, fuel0 <= fuel ->
      run_sync (P := testP) fuel r picks sid (map (fun v => (v, simple_entry (P := testP) testW ids)) (elements ids)) = Some (Ok reports)) /\
    exec_results reports = Some results /\ is_map (P := testP) results ids (fun _ => N.of_nat n * (N.of_nat n - 1))%N.
Proof. exact test_simple. Qed.
Print Assumptions C78_simple_with_test_parameters.

(** The entry points of simple_test.rs (three parties), and some random choices. *)
Example C78_case : length (elements (set_of_list [0; 1; 2]%N)) = 3 /\ test_results (fun k => 3 * k + 1) = [6; 6; 6]%N.
Proof. exact test_simple_case. Qed.
