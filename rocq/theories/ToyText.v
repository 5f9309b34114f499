(** The texts of simple.rs with the session parameters of the tests. Used by PropText.v only. *)
From Coq Require Import List NArith Bool String Ascii Lia.
From Verif Require Import Base BMap Errors RoundId Message Protocol Transcript Evidence Session Spec SpecCrypto Typed Simple Extend SpecExtend
  Network SpecNet RunSync Misbehave SpecCaught SimpleTest CaughtSimple TestParams TestParamsFacts Text TextFacts Codec CodecFacts
  Toy ToyCrypto ToySimple ToyNet ToySync ToyMisbehave ToyCaught ToyCodec.
Import ListNotations.
Set Implicit Arguments.
Local Open Scope string_scope.

Lemma literal_tests (ids : bset N) r sid picks : 2 <= List.length (elements ids) <= 16 ->
  forall tx : Texts (P := testP) (TRslt (simple (P := testP) testW)),
  (forall b, c_ser (sw_error1 testW) tt = Some b \/ c_ser (sw_error2 testW) tt = Some b -> tx_error tx b = "Invalid position") ->
  (exists fuel0, forall fuel, fuel0 <= fuel ->
     check_evidence_with_extension (P := testP) fuel r picks sid (test_entry_points (P := testP) testW ids (fun v => v))
       (tt : TShared (simple (P := testP) testW)) (SimpleTest.invalid1 (P := testP) testW) (described_as tx "(Round 1): Invalid position") = Some (Ok tt)) /\
  (exists fuel0, forall fuel, fuel0 <= fuel ->
     check_evidence_with_extension (P := testP) fuel r picks sid (test_entry_points (P := testP) testW ids (fun v => v))
       (tt : TShared (simple (P := testP) testW)) (SimpleTest.invalid2 (P := testP) testW) (described_as tx "(Round 2): Invalid position") = Some (Ok tt)).
Proof.
  intros Hn tx Htx. destruct (@test_tests ids r sid picks Hn) as [H1 H2]. split.
  - apply H1. apply (@described_accepts testP _ tx 1). auto.
  - apply H2. apply (@described_accepts testP _ tx 2). auto.
Qed.

(** simple.rs:54-57, 84-87; dev/session_parameters.rs:27 (derived [Debug]). *)
Definition show_verifier (v : N) : string := "TestVerifier(" ++ show_N v ++ ")".
Definition simple_texts (P : Params) (id : @Verifier P -> string) : Texts (P := P) N :=
  @mkTexts P N (fun _ => "Invalid position") (fun _ => "The payload was expected to be Some") id
    (fun s => "{" ++ String.concat ", " (map id (elements s)) ++ "}") show_N (fun _ => "").
Definition test_texts : Texts (P := testP) N := simple_texts testP show_verifier.
Definition toy_texts : Texts (P := toyP) N := simple_texts toyP show_verifier.

(** What the parties report when the last one sends wrong positions in round [k], and when nobody does. *)
Definition briefs (o : option (res LocalError (bmap (@Verifier toyP) (Report (P := toyP) N)))) : list string :=
  match o with Some (Ok reports) => map (fun kv => brief toy_texts (snd kv)) (to_list reports) | _ => [] end.
Definition toy_reports : list string :=
  match extend_one (T := simT) (make_entry_points 3) (fun xp => with_extension xp invalid1) with
  | Ok (_, modified) => briefs (run_sync (Pr := extended simT) 40 rN (fun k => k * k + 5) sid0 (map (fun p => (fst p, extendable_entry (snd p))) modified))
  | _ => []
  end.
Definition convicting : string :=
  "Result: Terminated by the user" ++ newline ++ "Provable errors:" ++ newline ++ "  TestVerifier(2): Protocol error (Round 1): Invalid position".
Lemma toy_briefs : briefs (sync_run 3 (fun k => k * k + 5)) = ["Result: Success (6)"; "Result: Success (6)"; "Result: Success (6)"] /\
  firstn 2 toy_reports = [convicting; convicting].
Proof.
  split; [vm_cast_no_check (eq_refl ["Result: Success (6)"; "Result: Success (6)"; "Result: Success (6)"])|vm_cast_no_check (eq_refl [convicting; convicting])].
Qed.

(** Evidence that party 2 claims to have, and to be sending to, position 1. *)
Definition guilty_part : option (SPart KDirect) :=
  match sign_part (P := testP) KDirect (fun _ => 0%N) (2%N : @Signer testP) [7; 8]%N (rid_new 1) (Some [1; 1]%N) with Ok p => Some p | _ => None end.
Definition guilty_evidence : @Evidence testP :=
  @mkEvidence testP 2%N (EvProtocol (@mkProtoEv testP [] guilty_part None None empty empty empty empty empty)).
Definition proves : bool := match verify_evidence (wrap (@simple testP testW)) guilty_evidence tt with Ok tt => true | _ => false end.
Lemma proves_it : proves = true.
Proof. vm_compute. reflexivity. Qed.
Lemma any_description : exists ev : @Evidence testP,
  verify_evidence (wrap (@simple testP testW)) ev tt = Ok tt /\
  describe test_texts ev = "Protocol error (Round 1): Invalid position" /\
  forall (utf8 : bytes -> bool) text, utf8 text = true -> exists b, read_evidence utf8 b = Some ((text, ev), []).
Proof.
  exists guilty_evidence. split; [|split].
  - pose proof proves_it as H. unfold proves in H. destruct (verify_evidence _ _ _) as [[]| |]; congruence.
  - vm_compute. reflexivity.
  - intros utf8 text H. exists (put_evidence text guilty_evidence). rewrite <- (app_nil_r (put_evidence _ _)). apply evidence_ok. exact H.
Qed.

Lemma described_evidence R (tx : Texts (P := testP) R) (utf8 : bytes -> bool) (ev : @Evidence testP) rest :
  utf8 (text_bytes (describe tx ev)) = true ->
  read_evidence utf8 (put_evidence (text_bytes (describe tx ev)) ev ++ rest)%list = Some ((text_bytes (describe tx ev), ev), rest).
Proof. intros H. apply evidence_ok. exact H. Qed.
