(** Properties C94 to C97 and C103: the texts shown to the user. *)
From Coq Require Import List NArith Bool String.
From Verif Require Import Base BMap Errors RoundId Message Protocol Transcript Evidence Session Spec SpecCrypto Typed Simple Extend SpecExtend
  Network SpecNet RunSync Misbehave SpecCaught SimpleTest TestParams Codec Text TextFacts TextKinds
  Toy ToySimple ToyNet ToySync ToyCodec ToyText.
Import ListNotations.
Set Implicit Arguments.
Local Open Scope string_scope.

(** C94. Different round ids have different texts. *)
Theorem C94_text_identifies_round : forall r1 r2 : RoundId, show_rid r1 = show_rid r2 -> r1 = r2.
Proof. exact show_rid_inj. Qed.
Print Assumptions C94_text_identifies_round.

Example C94_case : show_rid (mkRid 3 [2; 10]%N true) = "Round 10-2-3 (echo)" /\ show_rid (rid_new 255) = "Round 255".
Proof. split; vm_compute; reflexivity. Qed.

(** C95. [SessionReport::brief] starts with the outcome, and contains every error and everybody whose messages are missing,
    whatever the texts of errors, ids and results are. *)
Theorem C95_brief_complete : forall (P : Params) (Pr : Proto) (tx : Texts (Rslt Pr)) (rep : Report (Rslt Pr)),
  (forall v ev, get v (rep_provable rep) = Some ev -> contains_text (brief tx rep) ("  " ++ tx_id tx v ++ ": " ++ describe tx ev) = true) /\
  (forall v e, get v (rep_unprovable rep) = Some e -> contains_text (brief tx rep) ("  " ++ tx_id tx v ++ ": Remote error: " ++ tx_remote tx e) = true) /\
  (forall rid vs, get rid (rep_missing rep) = Some vs -> contains_text (brief tx rep) ("  " ++ show_rid rid ++ ": " ++ tx_ids tx vs) = true) /\
  String.prefix ("Result: " ++ outcome_brief tx (rep_outcome rep)) (brief tx rep) = true.
Proof. exact @brief_complete. Qed.
Print Assumptions C95_brief_complete.

(** After an execution by honest parties it is the result and nothing else, whatever messages run_sync picks, and [result]
    returns the result. *)
Theorem C95_honest : forall (P : Params) (Pr : Proto) (tx : Texts (Rslt Pr)) r sid parties (ep : Verifier -> EntryPoint Pr) (h : Plan Pr) sk,
  signers parties sk -> wire_total P -> signatures_correct P -> honest_run r sid parties ep h ->
  forall picks,
  (exists n v u, n <= pl_last h /\ mem v parties = true /\
     (mem u (pl_dest h n v) = true \/ (echoes h n v = true /\ mem u (partners h n v) = true))) ->
  exists fuel0 reports, (forall fuel, fuel0 <= fuel ->
      run_sync fuel r picks sid (map (fun v => (sk v, ep v)) (elements parties)) = Some (Ok reports)) /\
    forall v, mem v parties = true -> exists rep, get v reports = Some rep /\
      report_result rep = Some (pl_result h v) /\ brief tx rep = "Result: Success (" ++ tx_result tx (pl_result h v) ++ ")".
Proof. exact @honest_briefs. Qed.
Print Assumptions C95_honest.

(** If everybody turns down what [t] sends in one round, the others report this and nothing else. *)
Theorem C95_one_fault : forall (P : Params) (Pr : Proto) (tx : Texts (Rslt Pr)) f r sid parties (ep : Verifier -> EntryPoint Pr) (h : Plan (with_receive Pr f)) sk,
  signers parties sk -> wire_total P -> signatures_correct P -> plain_ids Pr ->
  honest_run r sid parties (fun v => ep_with f (ep v)) h ->
  forall t k sd, one_fault sid parties h t k sd -> (exists v, mem v parties = true /\ v <> t) ->
  forall picks, exists fuel0 reports,
    (forall fuel, fuel0 <= fuel -> run_sync fuel r picks sid (map (fun v => (sk v, ep v)) (elements parties)) = Some (Ok reports)) /\
    forall v, mem v parties = true -> v <> t -> exists rep ev, get v reports = Some rep /\ proof_against sid h t k sd v ev /\ report_result rep = None /\
      brief tx rep = "Result: Terminated by the user" ++ newline ++ "Provable errors:" ++ newline ++ "  " ++ tx_id tx t ++ ": " ++ describe tx ev.
Proof. exact @convicted_briefs. Qed.
Print Assumptions C95_one_fault.

(** Three parties of simple.rs; in the second case the last one (whose report is not shown) sends wrong positions. That the
    hypotheses of C95_one_fault can be met is C79_case_network. *)
Example C95_case : briefs (sync_run 3 (fun k => k * k + 5)) = ["Result: Success (6)"; "Result: Success (6)"; "Result: Success (6)"] /\
  firstn 2 toy_reports = [convicting; convicting].
Proof. exact toy_briefs. Qed.

(** C96. The tests of examples/src/simple_test.rs succeed with the texts that they contain, with any number of parties from 2
    to 16, whatever is drawn and in whatever order messages are delivered. *)
Theorem C96_tests_succeed : forall (ids : bset N) r sid picks, 2 <= List.length (elements ids) <= 16 ->
  forall tx : Texts (P := testP) (TRslt (simple (P := testP) testW)),
  (forall b, c_ser (sw_error1 testW) tt = Some b \/ c_ser (sw_error2 testW) tt = Some b -> tx_error tx b = "Invalid position") ->
  (exists fuel0, forall fuel, fuel0 <= fuel ->
     check_evidence_with_extension (P := testP) fuel r picks sid (test_entry_points (P := testP) testW ids (fun v => v))
       (tt : TShared (simple (P := testP) testW)) (SimpleTest.invalid1 (P := testP) testW) (described_as tx "(Round 1): Invalid position") = Some (Ok tt)) /\
  (exists fuel0, forall fuel, fuel0 <= fuel ->
     check_evidence_with_extension (P := testP) fuel r picks sid (test_entry_points (P := testP) testW ids (fun v => v))
       (tt : TShared (simple (P := testP) testW)) (SimpleTest.invalid2 (P := testP) testW) (described_as tx "(Round 2): Invalid position") = Some (Ok tt)).
Proof. exact literal_tests. Qed.
Print Assumptions C96_tests_succeed.

Example C96_case : 2 <= List.length (elements (set_of_list [4; 9; 200]%N)) <= 16 /\
  (forall b, c_ser (sw_error1 testW) tt = Some b \/ c_ser (sw_error2 testW) tt = Some b -> tx_error test_texts b = "Invalid position").
Proof. split; [vm_compute; repeat constructor|reflexivity]. Qed.

(** C97 is false: evidence that verifies can be sent with any description. *)
Theorem C97_description_true_refuted : exists ev : @Evidence testP,
  verify_evidence (wrap (@simple testP testW)) ev tt = Ok tt /\
  describe test_texts ev = "Protocol error (Round 1): Invalid position" /\
  forall (utf8 : bytes -> bool) text, utf8 text = true -> exists b, read_evidence utf8 b = Some ((text, ev), []).
Proof. exact any_description. Qed.
Print Assumptions C97_description_true_refuted.

(** What is left: evidence that is sent as the library made it arrives with its description. *)
Theorem C97_description_kept_partial : forall R (tx : Texts (P := testP) R) (utf8 : bytes -> bool) (ev : @Evidence testP) rest,
  utf8 (text_bytes (describe tx ev)) = true ->
  read_evidence utf8 (put_evidence (text_bytes (describe tx ev)) ev ++ rest)%list = Some ((text_bytes (describe tx ev), ev), rest).
Proof. exact described_evidence. Qed.
Print Assumptions C97_description_kept_partial.

Example C97_case : ToyCodec.ascii (text_bytes (describe test_texts guilty_evidence)) = true /\
  text_bytes (describe test_texts guilty_evidence) = text_bytes "Protocol error (Round 1): Invalid position".
Proof. split; vm_compute; reflexivity. Qed.

(** C103. The description made by the library tells what kind of evidence this is, and the round in case of a protocol error. *)
Theorem C103_description_tells : forall (P : Params) R (tx : Texts (P := P) R) (ev : @Evidence P),
  (forall n, String.prefix ("Protocol error (Round " ++ show_N n ++ "): ") (describe tx ev) = true <->
     exists e, ev_body ev = EvProtocol e /\ n = match trigger_meta e with Some m => rid_round (m_round m) | None => 0%N end) /\
  (String.prefix "Direct message error: " (describe tx ev) = true <-> exists p, ev_body ev = EvDirect p) /\
  (String.prefix "Echo broadcast error: " (describe tx ev) = true <-> exists p, ev_body ev = EvEcho p) /\
  (String.prefix "Normal broadcast error: " (describe tx ev) = true <-> exists p, ev_body ev = EvNormal p) /\
  (describe tx ev = "Invalid message received among the ones echoed" <-> exists a b, ev_body ev = EvInvalidEcho a b) /\
  (describe tx ev = "The echoed message is different from the originally received one" <-> exists a b c, ev_body ev = EvMismatched a b c).
Proof. exact @kinds. Qed.
Print Assumptions C103_description_tells.

Example C103_case : String.prefix "Protocol error (Round 1): " (describe test_texts guilty_evidence) = true /\
  String.prefix "Protocol error (Round 11): " (describe test_texts guilty_evidence) = false.
Proof. split; vm_compute; reflexivity. Qed.
