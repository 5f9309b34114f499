(** Properties C46, C47 and C62: extended protocols. *)
From Coq Require Import List NArith Bool.
From Verif Require Import Base BMap Errors RoundId Message Protocol Transcript Evidence Session Typed Simple Extend SpecExtend SimFacts ExtendFacts
  Toy ToySimple ToyChain ToyExtend.
Import ListNotations.
Set Implicit Arguments.

(** C62. If the rounds of two protocols give the same answers (up to maps between their payloads, artifacts and results),
    sessions of them are indistinguishable: the same answers to any sequence of calls. *)
Theorem C62_sessions_depend_on_rounds_only : forall (P : Params) (A B : Proto) fp fa fr (R : St A -> St B -> Prop),
  (forall x y, R x y -> alike A B fp fa fr R x y) ->
  forall g sid signer (ep : EntryPoint A) (ep' : EntryPoint B) cs,
  (match ep_make ep (rsub 0 g) sid (signer_key signer), ep_make ep' (rsub 0 g) sid (signer_key signer) with
   | Ok x, Ok y => R x y | Err e, Err e' => e' = e | Panic, Panic => True | _, _ => False end) ->
  session g sid signer ep' cs = rmap (map (manswer A B fr)) (session g sid signer ep cs).
Proof. exact @session_sim. Qed.
Print Assumptions C62_sessions_depend_on_rounds_only.

(** The example protocol, and the same reporting only whether its result (here 6) is even. *)
Example C62_case :
  (forall x y, y = x -> alike simPr evenPr (fun p => p) (fun a => a) N.even (fun x y => y = x) x y) /\
  look (session g0 sid0 (0%N : @Signer toyP) simEP (sim_calls 3)) =
    [Sent (Some [0; 1]); Sent (Some [0; 2]); Entered; Sent None; Sent None; Entered; Sent (Some [0; 1]); Sent (Some [0; 2]); Result 6]%N /\
  (match session g0 sid0 (0%N : @Signer toyP) evenEP (sim_calls 3) with
   | Ok ws => match last ws (WCan _ Yes) with WReport (Ok r) => Some (rep_outcome r) | _ => None end
   | _ => None end) = Some (OResult (true : Rslt evenPr)).
Proof. split; [exact even_alike|]. split; toy. Qed.

(** C47. A session of an extended protocol behaves exactly as a session of the protocol in which, in every round type an
    extension was registered for, the methods overridden by (the last such) extension are replaced, and nothing else. This
    is so in whatever order rounds of extended and other types follow each other. *)
Theorem C47_extensions_apply : forall (P : Params) (T : TProto) (ep : EntryPoint (wrap T)) (l : list (AnyExt T)) g sid signer cs,
  session g sid signer (extendable_entry (register ep l)) cs = session g sid signer (patched (last_for l) ep) cs.
Proof. exact @extended_session. Qed.
Print Assumptions C47_extensions_apply.

(** An extension of round 2 only: round 1 and its echo round are as before, round 2 has its messages and result. Of two
    extensions for one round the one registered last counts. *)
Example C47_case :
  look (session g0 sid0 (0%N : @Signer toyP) (extendable_entry (register simEP [an wrong2])) (sim_calls 3)) =
    [Sent (Some [0; 1]); Sent (Some [0; 2]); Entered; Sent None; Sent None; Entered; Sent (Some [7; 7]); Sent (Some [7; 7]); Result 106]%N /\
  look (session g0 sid0 (0%N : @Signer toyP) (extendable_entry (register simEP [an wrong2; an wrong1; an worse2])) (sim_calls 3)) =
    [Sent (Some [9; 9]); Sent (Some [9; 9]); Entered; Sent None; Sent None; Entered; Sent (Some [8; 8]); Sent (Some [8; 8]); Result 6]%N.
Proof. split; toy. Qed.

(** C46. If the extensions registered for the rounds that are ever entered override nothing (in particular, if there are
    none), a session of the extended protocol behaves exactly as one of the original protocol. *)
Theorem C46_inert_extensions : forall (P : Params) (T : TProto) (ep : EntryPoint (wrap T)) (l : list (AnyExt T)) g sid signer cs,
  (forall b e, enters ep b -> last_for l (projT1 b) = Some e -> overrides_nothing e) ->
  session g sid signer (extendable_entry (register ep l)) cs = session g sid signer ep cs.
Proof.
  intros P T ep l g sid signer cs H. transitivity (session g sid signer (patched (last_for l) ep) cs).
  - exact (@extended_session P T ep l g sid signer cs).
  - exact (@inert_session P T ep (last_for l) g sid signer cs H).
Qed.
Print Assumptions C46_inert_extensions.

(** Two extensions that override nothing; one that overrides something in a round that is not entered. *)
Example C46_case :
  (forall b e, enters simEP b -> last_for [an (idle SR2); an (idle SR1)] (projT1 b) = Some e -> overrides_nothing e) /\
  (forall b e, enters lateEP b -> last_for [an wrong1] (projT1 b) = Some e -> overrides_nothing e).
Proof.
  split.
  - intros [[|] r] e _; cbn; intros H; injection H as <-; repeat split.
  - intros b e He H. pose proof (late_rounds He) as Hb. destruct b as [k r]. cbn [projT1] in Hb. subst k. discriminate.
Qed.

(** Evidence is checked as for the original protocol, whatever the extensions. *)
Theorem C46_same_evidence_checks : forall (P : Params) (T : TProto) ev (sd : TShared T),
  verify_evidence (extended T) ev sd = verify_evidence (wrap T) ev sd.
Proof. intros P T ev sd. exact eq_refl. Qed.
Print Assumptions C46_same_evidence_checks.
