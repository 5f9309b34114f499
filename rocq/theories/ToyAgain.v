(** A concrete run of [run_session] that is blocked by a message delivered twice. *)
From Coq Require Import List NArith Bool.
From Verif Require Import Base BMap Errors RoundId Message Protocol Transcript Evidence Session Spec IntakeFacts Network SpecNet RunSync Driver
  SpecDriver SpecForge SpecAgain SessionFacts RunFacts ForgeFacts AgainFacts Exec Toy ToyNet ToyDriver ToyStranger.
Import ListNotations.
Set Implicit Arguments.

Definition first_message : Message (P := toyP) := tmsg (tsession cfg3n 1) 0.
(** What arrives after it; the last message to arrive is the one of party 2 in the second round. *)
Definition again_rest : list (input (P := toyP)) := [rx cfg3n 2 0; @IGo toyP; @IGo toyP; @IGo toyP; second 2; second 1].

Definition received {Pr : Proto (P := toyP)} (ls : list (dlabel Pr)) : list (@Verifier toyP * Message) := flat_map (fun l => match l with LIn v m => [(v, m)] | _ => [] end) ls.
Definition has_cancel {Pr : Proto (P := toyP)} (ls : list (dlabel Pr)) : bool := existsb (fun l => match l with LCancel => true | _ => false end) ls.
Lemma received_in {Pr : Proto (P := toyP)} (ls : list (dlabel Pr)) v m : In (LIn v m) ls <-> In (v, m) (received ls).
Proof.
  unfold received. rewrite in_flat_map. split.
  - intros H. exists (LIn v m). simpl; auto.
  - intros (l & Hl & H). destruct l; simpl in H; try tauto. destruct H as [H|[]]. now inv H.
Qed.
Lemma no_cancel {Pr : Proto (P := toyP)} (ls : list (dlabel Pr)) : has_cancel ls = false -> ~ In LCancel ls.
Proof. intros H X. assert (Y : has_cancel ls = true) by (apply existsb_exists; eauto). congruence. Qed.

Lemma again_blocks_toy : exists (P : Params) (Pr : Proto) r (s0 : Session Pr) l1 from m s a l2 rep x a' l3 s3 a3,
  plain_ids Pr /\ (forall mt, ser_meta mt <> None) /\ initial s0 /\ run_session r s0 (l1 ++ [LIn from m]) (DrvWait s a) /\
  drv_run r (DrvWait s a) l2 (DrvDone (Ok rep)) /\ rep_outcome rep = OResult x /\ ~ In LCancel l2 /\
  drv_step r (DrvWait s a) (IRecv from m) = Some ([LIn from m], DrvWait s a') /\
  drv_run r (DrvWait s a') l3 (DrvWait s3 a3) /\ ~ In LCancel l3 /\
  (forall v m', In (LIn v m') l2 -> In (LIn v m') l3) /\ blocked r (DrvWait s3 a3).
Proof.
  assert (R : run_session rN (tsession cfg3n 0) (tlabels cfg3n 0 stranger_before) (tdriver cfg3n 0 stranger_before)) by (apply tdrive_run; vm_compute; reflexivity).
  assert (C0 : exists l, tlabels cfg3n 0 stranger_before = l ++ [LIn (1%N : @Verifier toyP) first_message]).
  { exists (firstn 3 (tlabels cfg3n 0 stranger_before)).
    assert (E : skipn 3 (tlabels cfg3n 0 stranger_before) = [LIn (1%N : @Verifier toyP) first_message]) by (vm_compute; reflexivity). now rewrite <- E, firstn_skipn. }
  assert (C1 : completed_drv (drive rN (tdriver cfg3n 0 stranger_before) (again_rest ++ [@IGo toyP])) = true) by (vm_compute; reflexivity).
  assert (C2 : match tdriver cfg3n 0 stranger_before with DrvWait s a => match can_finalize a with NotYet => true | _ => false end | _ => false end = true) by (vm_compute; reflexivity).
  assert (C3 : match drive rN (tdriver cfg3n 0 stranger_before) (again_rest ++ [@IGo toyP]), drive rN (tdriver cfg3n 0 stranger_before) (@IRecv toyP 1%N first_message :: again_rest) with
               | Some (l2, _), Some (l3, DrvWait s a) => received l3 = (1%N : @Verifier toyP, first_message) :: received l2 /\ has_cancel l2 = false /\ has_cancel l3 = false /\ mem (1%N : @Verifier toyP) (a_waiting a) = true
               | _, _ => False end).
  { vm_compute. repeat split; reflexivity. }
  revert C0 R C1 C2 C3. generalize first_message again_rest (tlabels cfg3n 0 stranger_before) (tdriver cfg3n 0 stranger_before).
  intros m i2 ls d [l1 ->] R C1 C2 C3. destruct d as [| |s a|]; try discriminate C2.
  destruct (can_finalize a) eqn:Y; try discriminate C2. clear C2.
  destruct (drive rN (DrvWait s a) (i2 ++ [@IGo toyP])) as [[l2 d2]|] eqn:E1; [|discriminate C1]. pose proof (drive_run _ _ _ E1) as R1.
  cbn [completed_drv] in C1. destruct d2 as [| | |[rep| |]]; try discriminate C1. destruct (rep_outcome rep) as [x| |] eqn:Eo; try discriminate C1. clear C1.
  destruct (@session_again toyP (toyPr cfg3n) rN (tsession cfg3n 0) l1 (1%N : @Verifier toyP) m [] s a) as (a' & St & Bn & Bl); auto.
  { apply toy_plain. } { discriminate. } { apply toy_initial. } { intros s' []. }
  cbn [drive] in C3. rewrite St in C3. destruct (drive rN (DrvWait s a') i2) as [[l3 d3]|] eqn:E2; [|destruct C3]. pose proof (drive_run _ _ _ E2) as R2.
  destruct d3 as [| |s3 a3|]; try destruct C3. destruct H0 as (H1 & H2 & H3). cbn [app received flat_map] in H. injection H as H.
  exists toyP, (toyPr cfg3n), rN, (tsession cfg3n 0), l1, (1%N : @Verifier toyP), m, s, a, l2, rep, x, a', l3, s3, a3.
  split; [apply toy_plain|]. split; [discriminate|]. split; [apply toy_initial|]. split; [exact R|]. split; [exact R1|]. split; [exact Eo|].
  split; [now apply no_cancel|]. split; [exact St|]. split; [exact R2|]. split; [apply no_cancel; exact H2|]. split; [|exact (Bl _ _ _ R2 H3)].
  intros v m' Hi. apply received_in. apply received_in in Hi. change (received l3 = received l2) in H. now rewrite H.
Qed.
