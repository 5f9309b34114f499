(** Properties C44 and C54, and the hypotheses of other properties for protocols made of typed rounds. *)
From Coq Require Import List NArith Bool.
From Verif Require Import Base BMap Errors RoundId Message Protocol Transcript Evidence Session Typed Simple Dining Spec SpecCrypto SpecEvidence SpecTyped
  Exec Toy ToyCrypto ToySimple TypedFacts.
Import ListNotations.
Set Implicit Arguments.

(** C44. In every reachable state of a protocol made of typed rounds a protocol round [x] is being executed (possibly in
    its echo round); its collected payloads and artifacts all have the types declared by that round, and were created by
    that round's own [receive_message] and [make_direct_message]. Finalizing the session's round is therefore a call of
    the round's [finalize] with exactly these values: no downcast fails. *)
Theorem C44_downcasts_succeed : forall (P : Params) (T : TProto) (d : DState (wrap T)), reachable d ->
  exists k (x : tst T k) qs as_, collected d x qs as_ /\
  exists ps arts, typed_inputs x qs as_ ps arts /\
    forall g, rd_finalize (s_round (d_s d)) g (a_payloads (d_a d)) (a_artifacts (d_a d)) = t_finalize T k x g ps arts.
Proof. exact @all_downcasts_succeed. Qed.
Print Assumptions C44_downcasts_succeed.

(** In the example protocol: two payloads and two artifacts in round 1; the same in its echo round. *)
Example C44_case :
  reachable (sim_final 0 sim_round1) /\ reachable (sim_final 0 (sim_round1 ++ [CFin])) /\
  map fst (to_list (a_payloads (d_a (sim_final 0 sim_round1)))) = [1; 2]%N /\
  map fst (to_list (a_artifacts (d_a (sim_final 0 sim_round1)))) = [1; 2]%N /\
  (match s_round (d_s (sim_final 0 (sim_round1 ++ [CFin]))) with
   | REcho _ _ _ _ ps _ => map fst (to_list ps)
   | _ => []
   end) = [1; 2]%N.
Proof. split; [apply sim_reachable; toy|]. split; [apply sim_reachable; toy|]. split; [toy|]. split; toy. Qed.

(** C54 is false: for a round with [NoProtocolErrors], evidence whose error part deserializes to [NoProtocolErrors] makes
    [verify] panic. The evidence needs a message signed by the accused, which any receiver of a message has. Here the
    protocol is the dining cryptographers example, and the accused party only sent a correct message. *)
Theorem C54_verify_never_panics_refuted : exists (P : Params) (T : TProto) (ev : Evidence) (sd : Shared (wrap T)) (d : DState (wrap T)) g dest m art e,
  (* an honest party made a message for another party *)
  reachable d /\ mem dest (message_destinations (d_s d)) = true /\ make_message (d_s d) g dest = Ok (m, art) /\
  (* the receiver puts a part of it into evidence *)
  ev = mkEvidence (s_verifier (d_s d)) (EvProtocol (mkProtoEv e (Some (msg_direct m)) None None empty empty empty empty empty)) /\
  verify_evidence (wrap T) ev sd = Panic.
Proof. exact dining_evidence_panics. Qed.
Print Assumptions C54_verify_never_panics_refuted.

(** What holds: for protocols made of typed rounds whose error types do not have this problem verification never panics. *)
Theorem C54_verify_never_panics_partial : forall (P : Params) (T : TProto) (ev : Evidence) (sd : Shared (wrap T)),
  errors_total T -> verify_evidence (wrap T) ev sd <> Panic.
Proof. exact @typed_verify_total. Qed.
Print Assumptions C54_verify_never_panics_partial.

Example C54_case : errors_total simT.
Proof. exact sim_errors_total. Qed.

(** For any protocol: verification panics only if a check of the protocol's own round information does. *)
Theorem C54_panics_come_from_the_protocol : forall (P : Params) (Pr : Proto) ev (sd : Shared Pr),
  verify_evidence Pr ev sd = Panic ->
  exists rid ri, round_info Pr rid = Some ri /\
    ((exists b, ri_direct ri b = Panic \/ ri_echo ri b = Panic \/ ri_normal ri b = Panic) \/
     (exists e v sid m prev comb, ri_verify ri rid e v sid sd m prev comb = Panic)).
Proof. exact @verify_panics. Qed.
Print Assumptions C54_panics_come_from_the_protocol.

(** The hypotheses about protocols used by C20, C24, C26 and C28 hold for protocols made of typed rounds, if the round
    information is for the right rounds and the wire format is lossless. *)
Theorem C24_typed_rounds_consistent : forall (P : Params) (T : TProto),
  (info_typed T -> info_consistent (wrap T)) /\
  no_echo_errors (wrap T) /\
  (info_typed T -> codecs T -> own_parts_valid (wrap T)) /\
  (echo_typed T -> echo_rounds_have_broadcasts (wrap T)).
Proof. exact @typed_hypotheses. Qed.
Print Assumptions C24_typed_rounds_consistent.

Example C24_typed_case : info_typed simT /\ codecs simT /\ echo_typed simT.
Proof. exact sim_hypotheses. Qed.
