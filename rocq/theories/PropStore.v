(** The property about the amount of what a session stores. *)
From Coq Require Import List NArith Bool.
From Verif Require Import Base BMap Errors RoundId Message Protocol Transcript Evidence Session Spec SpecStore StoreFacts Exec Toy ToyStore.
Import ListNotations.

(** C86: false. Messages of parties that do not take part in the protocol are stored: whatever the number of parties
    that the session expects messages from, messages of others can make it store any number of things. Each of them is
    accepted as a message for the next round. *)
Theorem C86_bounded_storage_refuted : exists (P : Params) (Pr : Proto) (s : Session Pr), initial s /\ length (elements (ci_expect (s_comm s))) = 2 /\
  forall n, exists es d, run (start s) es d /\ (forall e, In e es -> exists from m, e = EPre from m Cached) /\
    (forall from m o, In (EPre from m o) es -> mem from (ci_expect (s_comm s)) = false /\ from <> s_verifier s) /\ n <= stored d.
Proof. exact outsiders_stored. Qed.
Print Assumptions C86_bounded_storage_refuted.

(** C86, what holds: there is a limit for each sender, however many messages it sends. In the current round it is the number of
    rounds whose messages may be cached, plus nine; in every earlier round three signed parts (and one of the party itself). *)
Theorem C86_bounded_storage_partial : forall (P : Params) (Pr : Proto) (senders : bset Verifier) (s : Session Pr) es d,
  initial s -> run (start s) es d -> only_from senders es ->
  stored d <= length (elements senders) * (9 + other_rounds (d_s d)) /\
  archived (s_tr (d_s d)) <= fins es * (3 * length (elements senders) + 1) + 2 * length (elements senders).
Proof. exact @bounded_storage. Qed.
Print Assumptions C86_bounded_storage_partial.

(** In the second round party 1 sends a message of the first round twice, party 2 one of the second round three times: one
    is cached, one waits to be processed (and is marked), and there is an error for each. *)
Definition store_script : list (cmd (P := toyP)) :=
  [pre cfg3n 1 0; pre cfg3n 2 0; CProc 0; CProc 0; CFin; pre cfg3n 1 0; pre cfg3n 1 0; @CPre toyP 2%N (early 2); @CPre toyP 2%N (early 2); @CPre toyP 2%N (early 2)].
Example C86_case : let d := tfinal cfg3n 0 store_script in
  run (tstart cfg3n 0) (ttrace cfg3n 0 store_script) d /\ length (ttrace cfg3n 0 store_script) = 10 /\ fins (ttrace cfg3n 0 store_script) = 1 /\
  stored d = 5 /\ archived (s_tr (d_s d)) = 3 /\ other_rounds (d_s d) = 2.
Proof. split; [apply toy_run; toy|]. split; [toy|]. split; [toy|]. split; [toy|]. split; toy. Qed.
