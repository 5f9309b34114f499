(** examples/src/simple_chain.rs: the example protocol run twice in sequence. *)
From Coq Require Import List NArith Bool.
From Verif Require Import Base BMap Errors RoundId Message Protocol Typed Simple Chain.
Import ListNotations.
Set Implicit Arguments.

Section WithParams.
  Context {P : Params}.
  Context (W : SimpleWire).
  Notation S := (wrap (simple W)).

  (** [DoubleSimpleProtocolTransition] (simple_chain.rs:50-64): the first result is ignored. *)
  Definition double_join : Join S S := @mkJoin P S S (rid_new 1) (bset Verifier)
    (fun all_ids _ g sr id => ep_make (simple_entry W all_ids) g sr id).
  Definition double_simple : Proto := chain double_join.

  (** [DoubleSimpleEntryPoint] (simple_chain.rs:24-48) *)
  Definition double_entry (all_ids : bset Verifier) : EntryPoint double_simple :=
    chain_entry double_join (simple_entry W all_ids) (all_ids : J double_join).
End WithParams.
