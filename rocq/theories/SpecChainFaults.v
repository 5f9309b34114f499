(** Vocabulary of the properties about executions of chained protocols in which messages are turned down. No proofs here. *)
From Coq Require Import List NArith Bool.
From Verif Require Import Base BMap Errors RoundId Message Protocol Transcript Evidence Session Spec Network SpecNet Chain SpecCaught SpecFaults SpecCompose.
Import ListNotations.
Set Implicit Arguments.

Section WithParams.
  Context {P : Params} {P1 P2 : Proto}.
  Context (j : Join P1 P2).
  Context (f1 : St P1 -> Verifier -> DynMsg -> res RecvErr (Payload P1)).
  Context (f2 : St P2 -> Verifier -> DynMsg -> res RecvErr (Payload P2)).

  (** The treatment of received messages in a chain, given the treatments in its parts. *)
  Definition both (s : St (chain j)) (from : Verifier) (m : DynMsg) : res RecvErr (Payload (chain j)) :=
    match s with
    | Chain1 _ _ st _ _ => let* p := map_err (re_group_under 1) (f1 st from m) in Ok (inl p)
    | Chain2 _ st => let* p := map_err (re_group_under 2) (f2 st from m) in Ok (inr p)
    end.

  Variable sid : bytes.
  Variable tr : Verifier -> J j.
  Variable h1 : Plan (with_receive P1 f1).
  Variable h2 : Plan (with_receive P2 f2).

  (** The execution [h1] of the first protocol followed by the execution [h2] of the second. *)
  Definition in_turn {A} (n : nat) (a b : nat -> A) : A := if Nat.leb n (pl_last h1) then a n else b (n - S (pl_last h1)).
  Definition after : Plan (with_receive (chain j) both) := @mkPlan P (with_receive (chain j) both) (S (pl_last h1 + pl_last h2))
    (fun n => in_turn n (fun k => group_under (pl_rid h1 k) 1) (fun k => group_under (pl_rid h2 k) 2))
    (fun n v => in_turn n (fun k => pl_part h1 k v) (fun k => pl_part h2 k v))
    (fun n v => in_turn n (fun k => pl_dest h1 k v) (fun k => pl_dest h2 k v))
    (fun n v => in_turn n (fun k => pl_from h1 k v) (fun k => pl_from h2 k v))
    (fun n v => in_turn n (fun k => (Chain1 j v (pl_state h1 k v) sid (tr v) : St (chain j))) (fun k => (Chain2 j (pl_state h2 k v) : St (chain j))))
    (fun n v => in_turn n (fun k => pl_echo h1 k v) (fun k => pl_echo h2 k v))
    (fun n v => in_turn n (fun k => pl_normal h1 k v) (fun k => pl_normal h2 k v))
    (fun n v u => in_turn n (fun k => pl_direct h1 k v u) (fun k => pl_direct h2 k v u))
    (fun n v u => in_turn n (fun k => (inl (pl_artifact h1 k v u) : Artifact (chain j))) (fun k => (inr (pl_artifact h2 k v u) : Artifact (chain j))))
    (fun n v u => in_turn n (fun k => (inl (pl_payload h1 k v u) : Payload (chain j))) (fun k => (inr (pl_payload h2 k v u) : Payload (chain j))))
    (pl_result h2).

  (** Who turns down something in the first protocol stops there; otherwise in the second. *)
  Definition stop_after (stop1 stop2 : Verifier -> option nat) (v : Verifier) : option nat :=
    match stop1 v with Some k => Some k | None => option_map (fun k => S (pl_last h1) + k) (stop2 v) end.
End WithParams.
