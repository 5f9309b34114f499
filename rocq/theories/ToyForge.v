(** A concrete run of [run_session] that is blocked by a message without signatures. *)
From Coq Require Import List NArith Bool.
From Verif Require Import Base BMap Errors RoundId Message Protocol Transcript Evidence Session Spec IntakeFacts Network SpecNet RunSync Driver
  SpecDriver SpecForge SessionFacts RunFacts ForgeFacts Exec Toy ToyNet ToyDriver ToyStranger.
Import ListNotations.
Set Implicit Arguments.

Definition unsigned {k} : SPart k := mkSPart [] (mkMeta sid0 (rid_new 1)) (Some [5]%N).
Definition forgery : Message (P := toyP) := @mkMessage toyP 0%N unsigned unsigned unsigned.
Lemma forgery_forged {Pr : Proto} (s : Session Pr) v : forged s (v : @Verifier toyP) forgery.
Proof. intros rid ((mb & g & _ & D & _) & _). discriminate D. Qed.

Lemma forgery_blocks_toy : exists (P : Params) (Pr : Proto) r (s0 : Session Pr) ls s a from m a' ls' rep x,
  plain_ids Pr /\ (forall mt, ser_meta mt <> None) /\ initial s0 /\ run_session r s0 ls (DrvWait s a) /\ forged s from m /\
  drv_run r (DrvWait s a) ls' (DrvDone (Ok rep)) /\ rep_outcome rep = OResult x /\ ~ In LCancel ls' /\
  drv_step r (DrvWait s a) (IRecv from m) = Some ([LIn from m], DrvWait s a') /\ blocked r (DrvWait s a').
Proof.
  assert (R : run_session rN (tsession cfg3n 0) (tlabels cfg3n 0 stranger_before) (tdriver cfg3n 0 stranger_before)) by (apply tdrive_run; vm_compute; reflexivity).
  assert (C : (match tdriver cfg3n 0 stranger_before with DrvWait s a => mem (2%N : @Verifier toyP) (a_waiting a) && negb (tr_is_banned (s_tr s) (2%N : @Verifier toyP) || a_is_banned a (2%N : @Verifier toyP)) | _ => false end &&
     completed_drv (drive rN (tdriver cfg3n 0 stranger_before) stranger_after) &&
     match drive rN (tdriver cfg3n 0 stranger_before) stranger_after with Some (l, _) => negb (existsb (fun b => match b with LCancel => true | _ => false end) l) | None => false end)%bool = true)
    by (vm_compute; reflexivity).
  revert R C. generalize (tlabels cfg3n 0 stranger_before) (tdriver cfg3n 0 stranger_before). intros ls d R C.
  apply andb_prop in C as [C C3]. apply andb_prop in C as [C1 C2]. destruct d as [| |s a|]; try discriminate. apply andb_prop in C1 as [C0 C1].
  destruct (drive rN (DrvWait s a) stranger_after) as [[ls' d']|] eqn:E; [|discriminate C2]. pose proof (drive_run _ _ _ E) as R'. cbn [completed_drv] in C2.
  destruct d' as [| | |[rep| |]]; try discriminate C2. destruct (rep_outcome rep) as [x| |] eqn:Eo; try discriminate C2.
  assert (Nb : ~ banned s a (2%N : @Verifier toyP)) by (intros X; apply banned_bool in X; rewrite X in C1; discriminate C1).
  assert (Nc : ~ In LCancel ls').
  { intros X. apply negb_true_iff in C3. assert (Y : existsb (fun b : dlabel (toyPr cfg3n) => match b with LCancel => true | _ => false end) ls' = true) by (apply existsb_exists; eauto). congruence. }
  destruct (@forged_blocks toyP (toyPr cfg3n) rN (tsession cfg3n 0) ls s a 2%N forgery) as (a' & S1 & _ & S2); auto.
  - apply toy_plain.
  - discriminate.
  - apply toy_initial.
  - apply forgery_forged.
  - exists toyP, (toyPr cfg3n), rN, (tsession cfg3n 0), ls, s, a, (2%N : @Verifier toyP), forgery, a', ls', rep, x.
    split; [apply toy_plain|]. split; [discriminate|]. split; [apply toy_initial|]. split; [exact R|]. split; [apply forgery_forged|]. auto 6.
Qed.
