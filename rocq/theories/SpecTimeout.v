(** Vocabulary of the property about parties that give up waiting. No proofs here. *)
From Coq Require Import List NArith Bool.
From Verif Require Import Base BMap Errors RoundId Message Protocol Transcript Evidence Session Spec Network.
Import ListNotations.
Set Implicit Arguments.

Section WithParams.
  Context {P : Params} {Pr : Proto}.

  (** In the execution [xs] the party [u] has made its message for [v] of the round [rid]. *)
  Definition has_sent (r : NetRng) (net0 : Net Pr) (xs : list action) (u v : Verifier) (rid : RoundId) : Prop :=
    exists xs1 xs2 net1 d, xs = xs1 ++ ASend u v :: xs2 /\ schedule r net0 xs1 net1 /\
      get u (nodes net1) = Some (Running d) /\ s_round_id (d_s d) = rid.
  (** That message has not been delivered. *)
  Definition on_the_way (net : Net Pr) (u v : Verifier) (rid : RoundId) : Prop :=
    exists m, In (u, m) (flight net) /\ msg_dest m = v /\ m_round (sp_meta (msg_direct m)) = rid.
  (** It has been delivered, but not yet processed. *)
  Definition unprocessed (d : DState Pr) (u : Verifier) : Prop := exists m, In m (d_todo d) /\ vm_from m = u.

  (** The report says that the message of [u] of round [rid] is missing. *)
  Definition reported_missing (rep : Report (Rslt Pr)) (rid : RoundId) (u : Verifier) : Prop :=
    exists vs, get rid (rep_missing rep) = Some vs /\ mem u vs = true.
End WithParams.
