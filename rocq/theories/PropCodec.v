(** Properties C87 and C88: messages and evidence as bytes, with the session parameters of the tests. *)
From Coq Require Import List Arith NArith Bool.
From Verif Require Import Base BMap Errors RoundId Message Protocol Transcript Evidence Session Typed Simple Dining SpecTyped SerMap
  TestParams TypedFacts TestParamsFacts Codec CodecFacts ToyCodec.
Import ListNotations.

(** C87. What is written as a message or as evidence is read back, whatever follows it. *)
Theorem C87_message_read_back : forall (m : @Message testP) rest, read_message (put_message m ++ rest) = Some (m, rest).
Proof. exact message_ok. Qed.
Print Assumptions C87_message_read_back.

Theorem C87_evidence_read_back : forall (utf8 : bytes -> bool) description (ev : @Evidence testP) rest, utf8 description = true ->
  read_evidence utf8 (put_evidence description ev ++ rest) = Some ((description, ev), rest).
Proof. exact evidence_ok. Qed.
Print Assumptions C87_evidence_read_back.

(** Of a message or evidence nothing can be cut off. *)
Theorem C87_truncation_noticed : forall (utf8 : bytes -> bool) p q, q <> [] ->
  (forall m : @Message testP, put_message m = (p ++ q)%list -> read_message p = None) /\
  (forall description (ev : @Evidence testP), put_evidence description ev = (p ++ q)%list -> read_evidence utf8 p = None).
Proof.
  intros utf8 p q H. split.
  - intros m E. apply (@cut_off _ read_message m p q message_local); [|exact H]. rewrite <- E, <- (app_nil_r (put_message m)). apply message_ok.
  - intros s ev E. exact (@evidence_cut utf8 s ev p q E H).
Qed.
Print Assumptions C87_truncation_noticed.

(** What is read is determined by the bytes taken, whoever wrote them: what comes after them has no influence. *)
Theorem C87_rest_untouched : forall (utf8 : bytes -> bool) b rest,
  (forall m : @Message testP, read_message b = Some (m, rest) ->
     exists taken, b = (taken ++ rest)%list /\ forall rest', read_message (taken ++ rest') = Some (m, rest')) /\
  (forall x, read_evidence utf8 b = Some (x, rest) ->
     exists taken, b = (taken ++ rest)%list /\ forall rest', read_evidence utf8 (taken ++ rest') = Some (x, rest')).
Proof. intros utf8 b rest. split; [exact (fun m => @message_local b m rest)|exact (fun x => @evidence_local utf8 b x rest)]. Qed.
Print Assumptions C87_rest_untouched.

(** The maps in evidence are refused if a round or a party occurs twice. *)
Theorem C87_repeated_keys_refused : forall k rest,
  (forall kvs : list (RoundId * SPart k), ~ NoDup (map fst kvs) ->
     read_map read_rid (@read_part k) (varint (N.of_nat (length kvs)) ++ flat_map (fun kv => put_rid (fst kv) ++ put_part (snd kv)) kvs ++ rest) = None) /\
  (forall kvs : list (@Verifier testP * SPart k), ~ NoDup (map fst kvs) ->
     read_map read_verifier (@read_part k) (varint (N.of_nat (length kvs)) ++ flat_map (fun kv => put_verifier (fst kv) ++ put_part (snd kv)) kvs ++ rest) = None).
Proof.
  exact (fun k rest => conj (fun kvs => repeated_key _ rid_ok (@part_ok k) kvs rest)
                            (fun kvs => repeated_key (@OrdVerifier testP) verifier_ok (@part_ok k) kvs rest)).
Qed.
Print Assumptions C87_repeated_keys_refused.

(** A message with a direct message, no echo broadcast and an empty normal broadcast; evidence with messages of several parties. *)
Example C87_case :
  put_message a_message = [2; 2; 1; 0; 2; 7; 8; 1; 0; 0; 1; 2; 1; 2; 2; 1; 0; 2; 7; 8; 1; 0; 0; 0; 2; 1; 0; 2; 7; 8; 1; 0; 0; 1; 0]%N /\
  read_evidence ascii (put_evidence [72; 105]%N some_evidence ++ [5]%N)%list = Some (([72; 105]%N, some_evidence), [5]%N) /\
  length (put_evidence [72; 105]%N some_evidence) = 69.
Proof. exact codec_case. Qed.

(** C88 is false: there are bytes that can be read as evidence for the dining cryptographers and make the verification panic.
    Here they are 22 bytes; [ascii] accepts strings of ASCII characters, and the description in them is empty. *)
Theorem C88_no_bytes_panic_refuted : exists (b : bytes) description ev, length b = 22 /\
  read_evidence ascii b = Some ((description, ev), []) /\ verify_evidence (wrap test_dining) ev tt = Panic.
Proof. exact (let '(ex_intro _ s (ex_intro _ ev (conj H K))) := bytes_panic in ex_intro _ crash (ex_intro _ s (ex_intro _ ev (conj eq_refl (conj H K))))). Qed.
Print Assumptions C88_no_bytes_panic_refuted.

(** What holds: no bytes do this if the protocol has its own error types and their verification does not panic. *)
Theorem C88_no_bytes_panic_partial : forall (utf8 : bytes -> bool) (T : TProto (P := testP)) (b : bytes) description ev rest (sd : Shared (wrap T)),
  errors_total T -> read_evidence utf8 b = Some ((description, ev), rest) -> verify_evidence (wrap T) ev sd <> Panic.
Proof. exact (fun _ T _ _ ev _ sd H _ => @typed_verify_total testP T ev sd H). Qed.
Print Assumptions C88_no_bytes_panic_partial.

Example C88_case : errors_total (@simple testP testW) /\
  exists b, read_evidence ascii b = Some (([72; 105]%N, some_evidence), []).
Proof.
  split; [exact test_errors_total|]. exists (put_evidence [72; 105]%N some_evidence).
  rewrite <- (app_nil_r (put_evidence _ _)). apply evidence_ok. reflexivity.
Qed.
