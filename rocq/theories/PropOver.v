(** Property C136: making entry points of composed protocols extendable. *)
From Coq Require Import List NArith Bool.
From Verif Require Import Base BMap Errors RoundId Message Protocol Transcript Evidence Session Spec Exec Typed Simple Chain DoubleSimple Extend Network RunSync Misbehave SpecExtend ExtendFacts
  Over SpecOver OverFacts Toy ToySimple ToyChain ToyExtend ToyOver.
Import ListNotations.
Set Implicit Arguments.

(** C136 is false: [ExtendableEntryPoint] does not take every entry point. The chained example protocol runs to its result;
    made extendable, with no extension at all, its session cannot even be created. *)
Theorem C136_any_protocol_extendable_refuted :
  exists (P : Params) (P1 P2 : Proto) (j : Join P1 P2) (ep : EntryPoint (chain j)) g sid signer cs,
    (exists ws rep r, session g sid signer ep cs = Ok ws /\ In (WReport (Ok rep)) ws /\ rep_outcome rep = OResult r) /\
    session g sid signer (extend_chained ep) cs = Err LE_NotTyped.
Proof. exact dbl_not_extendable. Qed.
Print Assumptions C136_any_protocol_extendable_refuted.

(** It is so for every chained protocol: no session of it is ever created once it is made extendable, and where one would
    have been created, the answer is the error about dynamic rounds. *)
Theorem C136_chained_never : forall (P : Params) (P1 P2 : Proto) (j : Join P1 P2) (ep : EntryPoint (chain j)) g sid signer,
  (forall s, session_new g sid signer (extend_chained ep) <> Ok s) /\
  (forall s, session_new g sid signer ep = Ok s -> session_new g sid signer (extend_chained ep) = Err LE_NotTyped).
Proof. exact @chained_never. Qed.
Print Assumptions C136_chained_never.

Example C136_chained_never_case :
  is_ok (session_new g0 sid0 (0%N : @Signer toyP) dblEP) = true /\
  match session_new g0 sid0 (0%N : @Signer toyP) (extend_chained dblEP) with Err LE_NotTyped => true | _ => false end = true.
Proof. split; toy. Qed.

(** So the checks of evidence in dev/misbehave.rs never succeed for chained protocols, whatever the extensions, messages and
    reports would be; if the first entry point makes a round, they fail with that error. *)
Theorem C136_no_evidence_checks : forall (P : Params) (P1 P2 : Proto) (j : Join P1 P2) fuel r picks sid
    (eps : list (Signer * EntryPoint (chain j))) sd describes,
  check_chained fuel r picks sid eps sd describes <> Some (Ok tt) /\
  (forall p ps x, eps = p :: ps -> ep_make (snd p) (rsub 0 (nr_new r (signer_key (fst p)))) sid (signer_key (fst p)) = Ok x ->
    check_chained fuel r picks sid eps sd describes = Some (Err (CE_Run LE_NotTyped))).
Proof. exact @check_chained_never. Qed.
Print Assumptions C136_no_evidence_checks.

Example C136_no_evidence_checks_case :
  is_ok (ep_make dblEP (rsub 0 g0) sid0 (0%N : @Verifier toyP)) = true.
Proof. toy. Qed.

(** Nor can an extendable entry point be made extendable again, if it does not extend the first round. *)
Theorem C136_twice_never : forall (P : Params) (T : TProto) (ep : EntryPoint (wrap T)) (l : list (AnyExt T)) g sid signer b,
  ep_make ep (rsub 0 g) sid (signer_key signer) = Ok b -> last_for l (projT1 b) = None ->
  session_new g sid signer (extend_extended (register ep l)) = Err LE_NotTyped.
Proof. exact @twice_never. Qed.
Print Assumptions C136_twice_never.

Example C136_twice_never_case :
  match ep_make simEP (rsub 0 g0) sid0 (0%N : @Verifier toyP) with
  | Ok b => match last_for [an wrong2] (projT1 b) with None => true | Some _ => false end | _ => false end = true /\
  is_ok (session_new g0 sid0 (0%N : @Signer toyP) (extendable_entry (register simEP [an wrong2]))) = true /\
  match session_new g0 sid0 (0%N : @Signer toyP) (extend_extended (register simEP [an wrong2])) with Err LE_NotTyped => true | _ => false end = true.
Proof. split; [|split]; toy. Qed.

(** If all rounds that are ever entered are extended already, the second wrapping changes nothing: its own extensions have
    no effect. *)
Theorem C136_twice_ignored : forall (P : Params) (T : TProto) (ep : EntryPoint (wrap T)) (l : list (AnyExt T)) g sid signer cs,
  (forall b, enters (patched (last_for l) ep) b -> last_for l (projT1 b) <> None) ->
  session g sid signer (extend_extended (register ep l)) cs = session g sid signer (extendable_entry (register ep l)) cs.
Proof. exact @twice_all. Qed.
Print Assumptions C136_twice_ignored.

(** Both round types of simple.rs extended; and, where the second is not, an error in the middle of the execution. *)
Example C136_twice_ignored_case :
  (forall b, enters (patched (last_for [an wrong1; an wrong2]) simEP) b -> last_for [an wrong1; an wrong2] (projT1 b) <> None) /\
  look (session g0 sid0 (0%N : @Signer toyP) (extend_extended (register simEP [an wrong1; an wrong2])) (sim_calls 3)) =
    [Sent (Some [9; 9]); Sent (Some [9; 9]); Entered; Sent None; Sent None; Entered; Sent (Some [7; 7]); Sent (Some [7; 7]); Result 106]%N /\
  look (session g0 sid0 (0%N : @Signer toyP) (extend_extended (register simEP [an wrong1])) (sim_calls 3)) =
    [Sent (Some [9; 9]); Sent (Some [9; 9]); Entered; Sent None; Sent None; Other]%N.
Proof. split; [|split; toy]. intros [[|] r] _; cbn; discriminate. Qed.

(** What does hold (besides C46 and C47): the two protocols of a chain can be extended each for itself, before they are
    chained, and this has exactly the effect of chaining the protocols rewritten by hand. Missing: see above. *)
Theorem C136_parts_extendable_partial : forall (P : Params) (T1 T2 : TProto) rid J (mk : J -> TRslt T1 -> EntryPoint (wrap T2))
    (ep : EntryPoint (wrap T1)) (l1 : list (AnyExt T1)) (l2 : list (AnyExt T2)) tr g sid signer cs,
  session g sid signer (chain_entry (chain_of_extended rid mk l2) (extendable_entry (register ep l1)) tr) cs =
  session g sid signer (chain_entry (chain_of_patched rid mk (last_for l1) (last_for l2)) (patched (last_for l1) ep) tr) cs.
Proof. exact @parts_extended. Qed.
Print Assumptions C136_parts_extendable_partial.

(** Round 1 of the first execution and round 2 of the second one extended. *)
Example C136_parts_extendable_case :
  look (session g0 sid0 (0%N : @Signer toyP) (dbl_parts [an wrong1] [an worse2]) (dbl_calls 6)) =
    [Sent (Some [9; 9]); Sent (Some [9; 9]); Entered; Sent None; Sent None; Entered; Sent (Some [0; 1]); Sent (Some [0; 2]); Entered;
     Sent (Some [0; 1]); Sent (Some [0; 2]); Entered; Sent None; Sent None; Entered; Sent (Some [8; 8]); Sent (Some [8; 8]); Result 6]%N.
Proof. toy. Qed.
