(** A concrete run of [run_session] that is stopped by a message of a stranger. *)
From Coq Require Import List NArith Bool.
From Verif Require Import Base BMap Errors RoundId Message Protocol Transcript Evidence Session Spec IntakeFacts Network SpecNet RunSync Driver
  SpecDriver RunFacts Exec Toy ToyNet ToyDriver.
Import ListNotations.
Set Implicit Arguments.

Lemma fin_round_start {P : Params} {Pr : Proto} (d : DState Pr) g d' : reachable d -> step d (EFin g) d' -> round_start d'.
Proof. intros Hr Hs. inv Hs. right. eauto 12. Qed.

Definition stranger_before : list (input (P := toyP)) := [@IGo toyP; @IGo toyP; rx cfg3n 1 0].
Definition stranger_after : list (input (P := toyP)) := [rx cfg3n 2 0; @IGo toyP; @IGo toyP; @IGo toyP; second 2; second 1; @IGo toyP].
Definition strange_message : Message (P := toyP) := tforge 5 sid0 (rid_new 1) (Some [5]%N) None None.
Definition stranger : input (P := toyP) := @IRecv toyP 5%N strange_message.

Definition stopped {Pr : Proto (P := toyP)} (o : option (list (dlabel Pr) * Drv Pr)) : bool :=
  match o with Some ([LIn _ _], DrvDone (Err LE_NotExpected)) => true | _ => false end.
Definition completed_drv {Pr : Proto (P := toyP)} (o : option (list (dlabel Pr) * Drv Pr)) : bool :=
  match o with Some (_, DrvDone (Ok rep)) => match rep_outcome rep with OResult _ => true | _ => false end | _ => false end.

Lemma stranger_stops_toy : exists (P : Params) (Pr : Proto) r (s0 : Session Pr) ls s a from m ls' rep x,
  initial s0 /\ run_session r s0 ls (DrvWait s a) /\ ~ expected s from /\
  drv_step r (DrvWait s a) (IRecv from m) = Some ([LIn from m], DrvDone (Err LE_NotExpected)) /\
  drv_run r (DrvWait s a) ls' (DrvDone (Ok rep)) /\ rep_outcome rep = OResult x.
Proof.
  assert (R : run_session rN (tsession cfg3n 0) (tlabels cfg3n 0 stranger_before) (tdriver cfg3n 0 stranger_before)) by (apply tdrive_run; vm_compute; reflexivity).
  assert (C : (waiting (tdriver cfg3n 0 stranger_before) && stopped (drv_step rN (tdriver cfg3n 0 stranger_before) (@IRecv toyP 5%N strange_message)) &&
     completed_drv (drive rN (tdriver cfg3n 0 stranger_before) stranger_after) &&
     match tdriver cfg3n 0 stranger_before with DrvWait s _ => negb (mem (5%N : @Verifier toyP) (ci_expect (s_comm s))) | _ => false end)%bool = true)
    by (vm_compute; reflexivity).
  revert R C. generalize (tlabels cfg3n 0 stranger_before) (tdriver cfg3n 0 stranger_before). intros ls d R C.
  apply andb_prop in C as [C C4]. apply andb_prop in C as [C C3]. apply andb_prop in C as [C1 C2].
  destruct d as [| |s a|]; try discriminate.
  destruct (drive rN (DrvWait s a) stranger_after) as [[ls' d']|] eqn:E; [|discriminate C3]. pose proof (drive_run _ _ _ E) as R'. cbn [completed_drv] in C3.
  destruct d' as [| | |[rep| |]]; try discriminate C3. destruct (rep_outcome rep) as [x| |] eqn:Eo; try discriminate C3.
  exists toyP, (toyPr cfg3n), rN, (tsession cfg3n 0), ls, s, a, (5%N : @Verifier toyP), strange_message, ls', rep, x.
  split; [apply toy_initial|]. split; [exact R|]. split.
  { unfold expected. intros X. rewrite X in C4. discriminate C4. }
  split; [|split; auto]. clear - C2 C1. revert C2. generalize strange_message. intros m C2. cbn [drv_step] in *. cbn [waiting] in C1.
  destruct (can_finalize a); try discriminate C1.
  destruct (drv_try _ _) as [| | |[|[]|]]; try discriminate C2. reflexivity.
Qed.
