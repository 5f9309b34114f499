(** manul/src/dev/extend.rs used on entry points whose rounds are not all typed: those of chained protocols, and those of
    protocols extended already. *)
From Coq Require Import List NArith Bool.
From Verif Require Import Base BMap Errors RoundId Message Protocol Transcript Evidence Session Typed Chain Extend Network RunSync Misbehave.
Import ListNotations.
Set Implicit Arguments.

Section WithParams.
  Context {P : Params}.

  Section Over.
    (** A protocol, and which of its rounds are made with [BoxedRound::new] (the others with [BoxedRound::new_dynamic];
        protocol/dyn_round.rs:244-253). *)
    Context (D : Proto) (typed : St D -> bool).

    (** extend.rs:310-323. [as_typed] (protocol/dyn_round.rs:269-276) fails for a dynamic round before any extension is
        looked up. The typed rounds there are here are [ExtendedRound]s, whose type is private (extend.rs:115), so that
        there is no extension for it, and the result is a [PassthroughRound], which is the round itself as far as its
        methods but [finalize] go (extend.rs:247-308). The map of extensions is thus never used, and left out. *)
    Definition over_round (x : St D) : res LocalError (St D) := if typed x then Ok x else Err LE_NotTyped.

    (** extend.rs:254-265 *)
    Definition over_finalize (x : St D) (g : rng) (ps : bmap Verifier (Payload D)) (arts : bmap Verifier (Artifact D))
      : res LocalError (Outcome (St D) (Rslt D)) :=
      let* o := finalize D x g ps arts in
      match o with
      | Finished_ r => Ok (Finished_ r)
      | AnotherRound y => let* y := over_round y in Ok (AnotherRound y)
      end.

    Definition over : Proto := {|
      St := St D; Rslt := Rslt D; Shared := Shared D; Payload := Payload D; Artifact := Artifact D;
      tinfo := tinfo D; cinfo := cinfo D; mk_direct := mk_direct D; mk_echo := mk_echo D; mk_normal := mk_normal D;
      receive := receive D; finalize := over_finalize; round_info := round_info D
    |}.

    (** extend.rs:367-385 *)
    Definition over_entry (ep : EntryPoint D) : EntryPoint over :=
      @mkEP P over (ep_id ep) (fun g sr id => let* x := ep_make ep g sr id in (over_round x : res LocalError (St over))).
  End Over.

  (** All rounds of chained protocols are dynamic (combinators/chain.rs:309, 436, 447, 456). *)
  Definition chain_typed (P1 P2 : Proto) (j : Join P1 P2) (x : St (chain j)) : bool := false.
  (** [ExtendedRound]s are typed (extend.rs:238), [PassthroughRound]s are not (extend.rs:321). *)
  Definition extended_typed (T : TProto) (x : St (extended T)) : bool :=
    match x with XExtended _ _ _ _ => true | XPassthrough _ _ => false end.

  (** [ExtendableEntryPoint] around the entry point of a chained, and of an extended, protocol. *)
  Definition extend_chained (P1 P2 : Proto) (j : Join P1 P2) (ep : EntryPoint (chain j)) := over_entry (@chain_typed P1 P2 j) ep.
  Definition extend_extended (T : TProto) (xp : Extendable T) := over_entry (@extended_typed T) (extendable_entry xp).

  (** dev/misbehave.rs:122-138 ([extend_one] of lines 18-41 included) for a chained protocol; the extensions registered for the
      last party are not used. *)
  Definition check_chained (P1 P2 : Proto) (j : Join P1 P2) (fuel : nat) (r : NetRng) (picks : nat -> nat) (sid : bytes)
      (entry_points : list (Signer * EntryPoint (chain j))) (sd : Shared (chain j)) (describes : Evidence -> bool)
    : option (res (CheckError Verifier) unit) :=
    match pop_last entry_points with
    | None => Some (Err CE_NoEntryPoints)
    | Some (rest, (signer, ep)) =>
        match run_sync fuel r picks sid (map (fun p => (fst p, extend_chained (snd p))) rest ++ [(signer, extend_chained ep)]) with
        | None => None
        | Some (Ok reports) => Some (check_evidence describes (signer_key signer) reports sd)
        | Some (Err e) => Some (Err (CE_Run e))
        | Some Panic => Some Panic
        end
    end.
End WithParams.
