(** Extensions of the chained example protocol. Used only by [Example]s and witnesses. *)
From Coq Require Import List NArith Bool.
From Verif Require Import Base BMap Errors RoundId Message Protocol Transcript Evidence Session Spec Exec Typed Simple Chain DoubleSimple Extend SpecExtend Over SpecOver
  Toy ToySimple ToyChain ToyExtend.
Import ListNotations.
Set Implicit Arguments.

Definition dbl_calls (n : nat) : list (call (P := toyP)) := calls (start (dbl_session 0)) (dbl_cmds n).

(** The parts of the chained example, extended. *)
Definition dbl_mk (ids : bset (@Verifier toyP)) (r : TRslt simT) : EntryPoint (wrap simT) := @simple_entry toyP toyW ids.
Definition dbl_parts (l1 l2 : list (AnyExt simT)) : EntryPoint (chain (chain_of_extended (rid_new 1) dbl_mk l2)) :=
  chain_entry (chain_of_extended (rid_new 1) dbl_mk l2) (extendable_entry (register simEP l1)) (sim_ids : J (chain_of_extended (rid_new 1) dbl_mk l2)).

Lemma dbl_not_extendable : exists (P : Params) (P1 P2 : Proto) (j : Join P1 P2) (ep : EntryPoint (chain j)) g sid signer cs,
    (exists ws rep r, session g sid signer ep cs = Ok ws /\ In (WReport (Ok rep)) ws /\ rep_outcome rep = OResult r) /\
    session g sid signer (extend_chained ep) cs = Err LE_NotTyped.
Proof.
  exists toyP, simPr, simPr, (@double_join toyP toyW), dblEP, g0, sid0, (0%N : @Signer toyP), (dbl_calls 6). split; [|toy].
  assert (C : (match session g0 sid0 (0%N : @Signer toyP) dblEP (dbl_calls 6) with
     | Ok ws => match last ws (WCan _ Yes) with WReport (Ok r) => Some (rep_outcome r) | _ => None end
     | _ => None end) = Some (OResult (6%N : Rslt dblPr))) by toy.
  destruct (session g0 sid0 (0%N : @Signer toyP) dblEP (dbl_calls 6)) as [ws| |] eqn:E; try discriminate.
  destruct (last ws (WCan _ Yes)) as [| | | | | |[rep| |]] eqn:L; try discriminate. exists ws, rep, 6%N. split; [exact E|]. split.
  - assert (H : In (last ws (WCan _ Yes)) ws).
    { destruct ws as [|w ws]; [discriminate|]. rewrite (app_removelast_last (WCan _ Yes) (l := w :: ws)) at 2 by discriminate.
      apply in_or_app. right. left. reflexivity. }
    rewrite L in H. exact H.
  - now injection C.
Qed.
