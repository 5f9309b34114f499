(** Property C67: the checks of dev/misbehave.rs. *)
From Coq Require Import List NArith Bool.
From Verif Require Import Base BMap Errors RoundId Message Protocol Transcript Evidence Session Typed Simple Extend SpecExtend SpecCrypto
  Network SpecNet RunSync Misbehave MisbehaveFacts Toy ToySimple ToyNet ToyMisbehave.
Import ListNotations.
Set Implicit Arguments.

(** C67. [check_evidence] succeeds exactly if there is a report of the target, in which nobody is accused, and every other
    report has one provable error, against the target, which has the right description and can be verified. *)
Theorem C67_check_evidence : forall (P : Params) (Pr : Proto) describes target (reports : bmap Verifier (Report (Rslt Pr))) sd,
  check_evidence describes target reports sd = Ok tt <->
  (exists rep, get target reports = Some rep /\ rep_provable rep = empty) /\
  forall v rep, v <> target -> get v reports = Some rep ->
    exists ev, get target (rep_provable rep) = Some ev /\ (forall u, u <> target -> get u (rep_provable rep) = None) /\
      describes ev = true /\ verify_evidence Pr ev sd = Ok tt.
Proof. exact @check_ok. Qed.
Print Assumptions C67_check_evidence.

(** When it fails, what the error says is the case. *)
Theorem C67_errors_are_true : forall (P : Params) (Pr : Proto) describes target (reports : bmap Verifier (Report (Rslt Pr))) sd e,
  check_evidence describes target reports sd = Err e ->
  match e with
  | CE_NoReport => get target reports = None
  | CE_NothingReported v => v <> target /\ exists rep, get v reports = Some rep /\ rep_provable rep = empty
  | CE_TooMuchReported v => v <> target /\ exists rep, get v reports = Some rep /\
      exists x y ev ev', x <> y /\ get x (rep_provable rep) = Some ev /\ get y (rep_provable rep) = Some ev'
  | CE_OtherReported v => v <> target /\ exists rep, get v reports = Some rep /\ get target (rep_provable rep) = None /\
      exists x ev, get x (rep_provable rep) = Some ev
  | CE_Description v => v <> target /\ exists rep ev, get v reports = Some rep /\ get target (rep_provable rep) = Some ev /\ describes ev = false
  | CE_Unverified v => v <> target /\ exists rep ev x, get v reports = Some rep /\ get target (rep_provable rep) = Some ev /\
      verify_evidence Pr ev sd = Err x
  | CE_NoEntryPoints | CE_Run _ => False
  end.
Proof. exact @check_err. Qed.
Print Assumptions C67_errors_are_true.

(** It panics if somebody is accused in the report of the target, and otherwise only if the verification of some evidence
    does (see C54). *)
Theorem C67_panics : forall (P : Params) (Pr : Proto) describes target (reports : bmap Verifier (Report (Rslt Pr))) sd,
  ((exists rep, get target reports = Some rep /\ rep_provable rep <> empty) -> check_evidence describes target reports sd = Panic) /\
  (check_evidence describes target reports sd = Panic ->
   (exists rep, get target reports = Some rep /\ rep_provable rep <> empty) \/
   (exists v rep ev, v <> target /\ get v reports = Some rep /\ get target (rep_provable rep) = Some ev /\ verify_evidence Pr ev sd = Panic)).
Proof.
  intros P Pr describes target reports sd. split.
  - intros (rep & H & N). exact (check_asserts describes target reports sd H N).
  - exact (@check_panic P Pr describes target reports sd).
Qed.
Print Assumptions C67_panics.

(** [extend_one] modifies the last entry point, and returns the id of its signer. *)
Theorem C67_extend_one : forall (P : Params) (T : TProto) front signer ep (f : Extendable T -> Extendable T),
  extend_one (front ++ [(signer, ep)]) f =
    Ok (signer_key signer, map (fun p => (fst p, extendable_new (snd p))) front ++ [(signer, f (extendable_new ep))]) /\
  extend_one [] f = Err CE_NoEntryPoints.
Proof. intros P T front signer ep f. exact (conj (extend_one_ok front signer ep f) (extend_one_nil f)). Qed.
Print Assumptions C67_extend_one.

(** The whole check succeeds only if in an execution in which the last party is extended, and no other, that party is
    convicted by all others, with evidence valid for the unmodified protocol. *)
Theorem C67_check_with_extensions : forall (P : Params) (T : TProto) fuel r picks sid (eps : list (Signer * EntryPoint (wrap T))) sd extend describes,
  check_evidence_with_extensions fuel r picks sid eps sd extend describes = Some (Ok tt) ->
  exists front signer ep reports, eps = front ++ [(signer, ep)] /\
    run_sync (Pr := extended T) fuel r picks sid
      (map (fun p => (fst p, extendable_entry (extendable_new (snd p)))) front ++ [(signer, extendable_entry (extend (extendable_new ep)))])
      = Some (Ok reports) /\
    (exists rep, get (signer_key signer) reports = Some rep /\ rep_provable rep = empty) /\
    forall v rep, v <> signer_key signer -> get v reports = Some rep ->
      exists ev, get (signer_key signer) (rep_provable rep) = Some ev /\
        (forall u, u <> signer_key signer -> get u (rep_provable rep) = None) /\
        describes ev = true /\ verify_evidence (wrap T) ev sd = Ok tt.
Proof. exact @check_whole_spelled. Qed.
Print Assumptions C67_check_with_extensions.

(** It does not succeed without misbehaviour: if the extensions override nothing in the rounds of an honest execution, it
    always ends with the complaint that nothing was reported. *)
Theorem C67_no_alarm_without_misbehaviour : forall (P : Params) (T : TProto) r sid parties (ep : Verifier -> EntryPoint (wrap T)) (h : Plan (wrap T)) sk,
  signers parties sk -> wire_total P -> signatures_correct P -> honest_run r sid parties ep h ->
  forall (xs : list (AnyExt T)) (sd : TShared T) describes picks, 2 <= length (elements parties) ->
  (exists n v u, n <= pl_last h /\ mem v parties = true /\
     (mem u (pl_dest h n v) = true \/ (echoes h n v = true /\ mem u (partners h n v) = true))) ->
  (forall n v e, n <= pl_last h -> mem v parties = true -> last_for xs (projT1 (pl_state h n v)) = Some e -> overrides_nothing e) ->
  exists fuel0 v, mem v parties = true /\ forall fuel, fuel0 <= fuel ->
    check_evidence_with_extensions fuel r picks sid (map (fun v => (sk v, ep v)) (elements parties)) sd
      (fun xp => fold_left (fun xp e => with_extension xp (projT2 e)) xs xp) describes = Some (Err (CE_NothingReported v)).
Proof. exact @alarm_needs_misbehaviour. Qed.
Print Assumptions C67_no_alarm_without_misbehaviour.

(** The two tests of simple_test.rs succeed (with some random choices), also with four parties; with another expected
    description they do not, and neither does one in which nothing is overridden. *)
Example C67_case :
  test 3 (fun k => k * k + 5) invalid1 (in_round 1) = Some (Ok tt) /\
  test 3 (fun k => k * k + 5) invalid2 (in_round 2) = Some (Ok tt) /\
  test 4 (fun k => 3 * k + 1) invalid2 (in_round 2) = Some (Ok tt) /\
  test 3 (fun k => k * k + 5) invalid2 (in_round 1) = Some (Err (CE_Description (0%N : @Verifier toyP))) /\
  test 3 (fun k => k * k + 5) nothing2 (in_round 2) = Some (Err (CE_NothingReported (0%N : @Verifier toyP))).
Proof. repeat split; toy. Qed.
