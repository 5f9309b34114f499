(** Messages and evidence as bytes: concrete values. Used by PropCodec.v only. *)
From Coq Require Import List Arith NArith Bool.
From Verif Require Import Base BMap Errors RoundId Message Protocol Transcript Evidence Session Typed Simple Dining Spec SpecTyped SerMap
  IntakeFacts HistoryFacts TestParams TestParamsFacts TypedFacts Codec CodecFacts ToySimple.
Import ListNotations.
Set Implicit Arguments.

Definition ascii (b : bytes) : bool := forallb (fun x => N.ltb x 128) b.

Definition a_part {k} (x : body) : SPart k := mkSPart [1; 0]%N (mkMeta [7; 8]%N (rid_new 1)) x.
Definition a_message : @Message testP := @mkMessage testP 2%N (a_part (Some [1; 2]%N)) (a_part None) (a_part (Some [])).
Definition some_evidence : @Evidence testP :=
  @mkEvidence testP 1%N (EvProtocol (@mkProtoEv testP [4]%N (Some (a_part (Some [1; 2]%N))) None None
    (of_list [(rid_new 1, a_part None)]) empty empty
    (of_list [(rid_new 1, of_list [(3%N : @Verifier testP, a_part (Some [9]%N)); (4%N : @Verifier testP, a_part None)])]) empty)).

Lemma codec_case :
  put_message a_message = [2; 2; 1; 0; 2; 7; 8; 1; 0; 0; 1; 2; 1; 2; 2; 1; 0; 2; 7; 8; 1; 0; 0; 0; 2; 1; 0; 2; 7; 8; 1; 0; 0; 1; 0]%N /\
  read_evidence ascii (put_evidence [72; 105]%N some_evidence ++ [5]%N)%list = Some (([72; 105]%N, some_evidence), [5]%N) /\
  length (put_evidence [72; 105]%N some_evidence) = 69.
Proof. split; [vm_compute; reflexivity|]. split; [apply evidence_ok; reflexivity|vm_compute; reflexivity]. Qed.

(** The dining cryptographers with the session parameters of the tests; [NoProtocolErrors] is a [PhantomData], and reading it
    takes no bytes. *)
Definition test_bool : Codec bool :=
  mkCodec (fun x => Some (put_bool x)) (fun b => and_then (read_bool b) (fun x _ => Some x)).
Definition test_dining : TProto (P := testP) := @dining testP (fun n => n) (fun v => v) test_bool test_bool (fun _ => true).
Definition crash : bytes := [1; 0; 0; 0; 1; 2; 1; 0; 0; 1; 0; 0; 1; 1; 1; 0; 0; 0; 0; 0; 0; 0]%N.
Definition crashes : bool :=
  match read_evidence ascii crash with
  | Some ((_, ev), []) => match verify_evidence (wrap test_dining) ev tt with Panic => true | _ => false end
  | _ => false
  end.
Lemma crash_works : crashes = true.
Proof. vm_compute. reflexivity. Qed.
Lemma bytes_panic : exists description ev, read_evidence ascii crash = Some ((description, ev), []) /\ verify_evidence (wrap test_dining) ev tt = Panic.
Proof.
  pose proof crash_works as H. unfold crashes in H. destruct (read_evidence ascii crash) as [[[s ev] [|]]|]; try discriminate.
  exists s, ev. split; [reflexivity|]. destruct (verify_evidence (wrap test_dining) ev tt); try discriminate. reflexivity.
Qed.

Lemma test_errors_total : errors_total (@simple testP testW).
Proof.
  assert (D : forall A (x : A), @Ok EvidenceError A x <> Panic) by discriminate.
  assert (C : forall m (es : EvMsgs (P := testP)) n, combined_echos m es n <> Panic).
  { intros m es n. unfold combined_echos. apply bind_no_panic; [apply ok_or_no_panic|]. intros c. apply bind_no_panic; [|discriminate].
    induction (to_list c) as [|[u b] l IH]; simpl; [discriminate|]. apply bind_no_panic; [|intros z; apply bind_no_panic; [exact IH|discriminate]].
    apply bind_no_panic; [apply ok_or_no_panic|discriminate]. }
  intros [|]; cbn -[es_direct_message combined_echos bind]; intros e rid v sid sd es.
  - apply bind_no_panic; [exact (@es_part_no_panic (msg TestParams.position_codec) _)|]. intros; apply D.
  - apply bind_no_panic; [exact (@es_part_no_panic (msg TestParams.position_codec) _)|]. intros _. apply bind_no_panic; [exact (C (msg (sw_echo1 testW)) es 1%N)|]. intros; apply D.
Qed.
