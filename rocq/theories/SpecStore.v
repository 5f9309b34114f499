(** Vocabulary of the properties about what a session stores. No proofs here. *)
From Coq Require Import List NArith Bool.
From Verif Require Import Base BMap Errors RoundId Message Protocol Transcript Evidence Session Spec.
Import ListNotations.
Set Implicit Arguments.

Section WithParams.
  Context {P : Params}.
  Context {Pr : Proto}.

  Definition entries {K V} `{Ord K} (m : bmap K V) : nat := length (to_list m).
  (** The number of values in a map of maps. *)
  Definition entries2 {K K' V} `{Ord K} `{Ord K'} (m : bmap K (bmap K' V)) : nat := list_sum (map (fun kv => entries (snd kv)) (to_list m)).

  (** How many things are stored, in this round, because messages were received: messages that wait to be processed, cached
      messages, marks, payloads, parts of messages, errors. *)
  Definition stored (d : DState Pr) : nat :=
    length (d_todo d) + entries2 (a_cached (d_a d)) + length (elements (a_processing (d_a d))) + entries (a_payloads (d_a d)) +
    entries (a_echo (d_a d)) + entries (a_normal (d_a d)) + entries (a_direct (d_a d)) + entries (a_provable (d_a d)) + entries (a_unprovable (d_a d)).

  (** How many things are in the transcript of the earlier rounds. *)
  Definition archived (t : Transcript) : nat :=
    entries2 (tr_echo t) + entries2 (tr_normal t) + entries2 (tr_direct t) + entries (tr_provable t) + entries (tr_unprovable t).

  (** An upper limit for the number of other rounds whose messages are cached. *)
  Definition other_rounds (s : Session Pr) : nat :=
    length (elements (ti_siblings (s_tinfo s))) + length (elements (ti_children (s_tinfo s))) + length (elements (ti_parents (s_tinfo s))) + 1.

  (** All messages received in the history come from [senders]. *)
  Definition only_from (senders : bset Verifier) (es : list (event Pr)) : Prop :=
    forall from m o, In (EPre from m o) es -> mem from senders = true.
End WithParams.
