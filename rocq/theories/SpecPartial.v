(** Vocabulary of the properties about partial participation in echo rounds. No proofs here. *)
From Coq Require Import List NArith Bool.
From Verif Require Import Base BMap Errors RoundId Message Protocol Transcript Session Spec Network SpecNet Typed Simple PartialEcho.
Import ListNotations.
Set Implicit Arguments.

Section WithParams.
  Context {P : Params}.

  (** Does the party take part in the echo round, and with whom? *)
  Definition in_echo_round (s : Inputs) : bool :=
    match in_part s with EPDefault => negb (is_empty (in_dest s)) | EPSend => false | EPReceive _ => true end.
  Definition echo_peers (s : Inputs) : bset Verifier :=
    match in_part s with EPReceive targets => targets | _ => in_dest s end.

  (** The inputs of the parties fit together. *)
  Record consistent (parties : bset Verifier) (inputs : Verifier -> Inputs) : Prop := {
    cs_id : forall v, mem v parties = true -> in_id (inputs v) = v;
    (* messages are expected exactly from those who send them *)
    cs_dest : forall v u, mem v parties = true -> mem u (in_dest (inputs v)) = true -> mem u parties = true /\ u <> v;
    cs_from : forall v u, mem v parties = true -> mem u (in_from (inputs v)) = true -> mem u parties = true;
    cs_agree : forall v u, mem v parties = true -> mem u parties = true ->
      mem u (in_dest (inputs v)) = mem v (in_from (inputs u));
    (* taking part in the echo round is mutual *)
    cs_peers : forall v u, mem v parties = true -> in_echo_round (inputs v) = true -> mem u (echo_peers (inputs v)) = true ->
      mem u parties = true /\ u <> v /\ in_echo_round (inputs u) = true /\ mem v (echo_peers (inputs u)) = true;
    (* those who take part have received from the same senders (a sender has not received from itself) *)
    cs_senders : forall v u w, mem v parties = true -> in_echo_round (inputs v) = true -> mem u (echo_peers (inputs v)) = true ->
      w <> u -> (mem w (in_from (inputs u)) = true <->
                 mem w (in_from (inputs v)) = true \/ (w = v /\ in_part (inputs v) = EPDefault))
  }.

  (** Before it sends in the round after [n], [v] has heard from [u]: in the echo round of round [n], if [u] has one; otherwise
      in round [n], or in its echo round from somebody who has heard from [u] in round [n]. *)
  Definition heard {Pr : Proto} (h : Plan Pr) (n : nat) (v u : Verifier) : Prop :=
    if echoes h n u then echoes h n v = true /\ mem u (partners h n v) = true
    else mem u (pl_from h n v) = true \/
         (echoes h n v = true /\ exists w, mem w (partners h n v) = true /\ mem u (pl_from h n w) = true).
  (** Before a party sends to [u] in an echo round, it has heard from [u] in the round; before it sends to [u] in the next
      round, it has [heard] from [u]. Everybody starts in the first round, so there is no need to hear that [u] is in it. *)
  Definition waits {Pr : Proto} (parties : bset Verifier) (h : Plan Pr) : Prop :=
    (forall n v u, n <= pl_last h -> mem v parties = true -> echoes h n v = true -> mem u (partners h n v) = true ->
       n = 0 \/ mem u (pl_from h n v) = true) /\
    (forall n v u, S n <= pl_last h -> mem v parties = true -> mem u (pl_dest h (S n) v) = true ->
       n = 0 /\ echoes h n u = false \/ heard h n v u).
  (** The same without the exception for the first round. *)
  Definition always_waits {Pr : Proto} (parties : bset Verifier) (h : Plan Pr) : Prop :=
    (forall n v u, n <= pl_last h -> mem v parties = true -> echoes h n v = true -> mem u (partners h n v) = true ->
       mem u (pl_from h n v) = true) /\
    (forall n v u, S n <= pl_last h -> mem v parties = true -> mem u (pl_dest h (S n) v) = true -> heard h n v u).

  (** A node that goes on to its next round takes along every message that it has kept for later. *)
  Definition keeps {Pr : Proto} (r : NetRng) (net : Net Pr) : Prop := forall v d net',
    get v (nodes net) = Some (Running d) -> act r net (AFinalize v) = Some (Ok net') ->
    forall u c rid m, get u (a_cached (d_a d)) = Some c -> get rid c = Some m ->
      exists d', get v (nodes net') = Some (Running d') /\ In m (d_todo d').
End WithParams.
