(** Property C104: parties that give up waiting. *)
From Coq Require Import List NArith Bool.
From Verif Require Import Base BMap Errors RoundId Message Protocol Transcript Evidence Session Spec SpecCrypto Typed Simple
  Network SpecNet SpecTimeout TimeoutFacts Toy ToyCrypto ToySimple HonestFacts ToyNet.
Import ListNotations.
Set Implicit Arguments.

(** C104. Everybody is honest; messages are delivered in any order, or never, and parties stop at any time (what is never
    delivered stays in flight; who has stopped does nothing any more in [xs]). Whoever gives up waiting at any moment
    gets a report that blames nobody, and that says exactly whose message has not been processed: it has not been made yet, it
    is still on the way, or it has just arrived. *)
Theorem C104_timeouts : forall (P : Params) (Pr : Proto) r sid parties (ep : Verifier -> EntryPoint Pr) (h : Plan Pr) sk,
  signers parties sk -> wire_total P -> signatures_correct P -> honest_run r sid parties ep h ->
  exists net0, honest_net r sid parties sk ep = Ok net0 /\
    forall xs net v d, schedule r net0 xs net -> get v (nodes net) = Some (Running d) ->
      exists rep, terminate (d_s d) (d_a d) = Ok rep /\ rep_outcome rep = OTerminated /\
        rep_provable rep = empty /\ rep_unprovable rep = empty /\
        (forall rid u, reported_missing rep rid u <->
           rid = s_round_id (d_s d) /\ expected (d_s d) u /\
           (~ has_sent r net0 xs u v rid \/ on_the_way net u v rid \/ unprocessed d u)).
Proof. exact @timeouts. Qed.
Print Assumptions C104_timeouts.

(** Five parties; party 0 has processed the message of 1, the one of 2 has arrived, the one of 3 is on the way. *)
Definition half_way : list (action (P := toyP)) :=
  [@ASend toyP 1%N 0%N; ADeliver 0; @AProcess toyP 0%N 0; @ASend toyP 2%N 0%N; ADeliver 0; @ASend toyP 3%N 0%N].
Example C104_case :
  signers (group 5) key /\ wire_total toyP /\ signatures_correct toyP /\
  honest_run rN sid0 (group 5) (fun _ => @simple_entry toyP toyW (group 5)) (@simple_plan toyP toyW (group 5)) /\
  match play (started (simple_net 5)) half_way with
  | Some net => match get (0%N : @Verifier toyP) (nodes net) with
                | Some (Running d) => match terminate (d_s d) (d_a d) with
                                      | Ok rep => map (fun kv => (fst kv, elements (snd kv))) (to_list (rep_missing rep))
                                      | _ => []
                                      end
                | _ => []
                end
  | None => []
  end = [(rid_new 1, [2; 3; 4]%N)].
Proof.
  split; [exact (@toy_signers 5)|]. split; [exact toy_wire|]. split; [exact toy_signatures|].
  split; [apply simple_honest; [exact toy_simple_wire|vm_compute; discriminate|vm_compute; repeat constructor]|].
  vm_cast_no_check (eq_refl [(rid_new 1, [2; 3; 4]%N)]).
Qed.
