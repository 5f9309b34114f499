(** Drivers with the concrete parameters of Toy.v. Used only by [Example]s and witnesses. *)
From Coq Require Import List NArith Bool Arith Lia.
From Verif Require Import Base BMap Errors RoundId Message Protocol Transcript Evidence Session Spec SpecCrypto Typed SpecTyped Simple
  IntakeFacts Network SpecNet RunSync Driver SpecDriver Exec Toy ToyCrypto ToySimple HonestFacts ToyNet.
Import ListNotations.
Set Implicit Arguments.

Section Drive.
  Context {P : Params}.
  Context {Pr : Proto}.
  Variable r : NetRng.

  Fixpoint drive (d : Drv Pr) (l : list input) : option (list (dlabel Pr) * Drv Pr) :=
    match l with
    | [] => Some ([], d)
    | i :: l =>
        match drv_step r d i with
        | None => None
        | Some (ls, d1) => match drive d1 l with None => None | Some (ls', d') => Some (ls ++ ls', d') end
        end
    end.

  Lemma drv_run_cons (d d1 d2 : Drv Pr) i ls ls' : drv_step r d i = Some (ls, d1) -> drv_run r d1 ls' d2 -> drv_run r d (ls ++ ls') d2.
  Proof.
    intros H R. induction R as [d1|d1 la da j lb db Ra IH Hs].
    - rewrite app_nil_r. change ls with ([] ++ ls). eapply drun_snoc; [constructor|exact H].
    - rewrite app_assoc. eapply drun_snoc; [apply IH, H|exact Hs].
  Qed.
  Lemma drive_run l : forall (d d' : Drv Pr) ls, drive d l = Some (ls, d') -> drv_run r d ls d'.
  Proof.
    induction l as [|i l IH]; intros d d' ls E; cbn [drive] in E; [apply (f_equal (fun o => match o with Some p => p | None => (ls, d') end)) in E;
      apply (f_equal fst) in E as E1; apply (f_equal snd) in E; cbn [fst snd] in *; subst; constructor|].
    destruct (drv_step r d i) as [[l1 d1]|] eqn:Es; [|discriminate]. destruct (drive d1 l) as [[l2 d2]|] eqn:Ed; [|discriminate].
    assert (ls = l1 ++ l2 /\ d' = d2) as [-> ->] by (split; congruence). eapply drv_run_cons; eauto.
  Qed.

  Fixpoint dplay (net : DNet Pr) (xs : list daction) : option (DNet Pr) :=
    match xs with
    | [] => Some net
    | x :: xs => match dact r net x with Some net1 => dplay net1 xs | None => None end
    end.
  (** Let everybody go on as long as somebody can, then deliver the oldest message. *)
  Definition dnext (net : DNet Pr) : option (DNet Pr) :=
    let tries := map (fun kv => DGo (fst kv)) (to_list (dn_nodes net)) ++ [DDeliver 0] in
    fold_left (fun o x => match o with Some _ => o | None => dact r net x end) tries None.
  Fixpoint dauto (n : nat) (net : DNet Pr) : DNet Pr :=
    match n with O => net | S n => match dnext net with Some net' => dauto n net' | None => net end end.

  Lemma dsched_app (net net1 net2 : DNet Pr) xs ys : dschedule r net xs net1 -> dschedule r net1 ys net2 -> dschedule r net (xs ++ ys) net2.
  Proof.
    intros H K. induction K as [net1|net1 ys neta y netb Ka IH Hs]; [now rewrite app_nil_r|].
    rewrite app_assoc. econstructor; eauto.
  Qed.
  Lemma dnext_act (net net' : DNet Pr) : dnext net = Some net' -> exists x, dact r net x = Some net'.
  Proof.
    unfold dnext. generalize (map (fun kv : Verifier * Drv Pr => DGo (fst kv)) (to_list (dn_nodes net)) ++ [DDeliver 0]). intros l.
    assert (H : forall l o, (forall n, o = Some n -> exists x, dact r net x = Some n) ->
      fold_left (fun o x => match o with Some _ => o | None => dact r net x end) l o = Some net' -> exists x, dact r net x = Some net').
    { clear l. induction l as [|x l IH]; intros o Ho E; cbn [fold_left] in E; [now apply Ho|].
      eapply IH; [|exact E]. intros n En. destruct o; [now apply Ho|]. eauto. }
    apply H. discriminate.
  Qed.
  Lemma dauto_sched n : forall net : DNet Pr, exists xs, dschedule r net xs (dauto n net).
  Proof.
    induction n as [|n IH]; intros net; cbn [dauto]; [exists []; constructor|].
    destruct (dnext net) as [net'|] eqn:E; [|exists []; constructor]. destruct (dnext_act _ E) as [x Hx]. destruct (IH net') as [xs H].
    exists ([x] ++ xs). eapply dsched_app; [|exact H]. change [x] with ([] ++ [x]). econstructor; [constructor|exact Hx].
  Qed.
End Drive.



(** [run_session] of a party of Toy.v. *)
Definition tdrive (c : Cfg) (me : N) (l : list (input (P := toyP))) : option (list (dlabel (toyPr c)) * Drv (toyPr c)) :=
  drive rN (drv_enter (tsession c me) []) l.
Definition tlabels (c : Cfg) (me : N) l : list (dlabel (toyPr c)) := LEnter (tsession c me) :: match tdrive c me l with Some (ls, _) => ls | None => [] end.
Definition tdriver (c : Cfg) (me : N) l : Drv (toyPr c) := match tdrive c me l with Some (_, d) => d | None => DrvDone Panic end.

Lemma tdrive_run c me l : is_some (tdrive c me l) = true -> run_session rN (tsession c me) (tlabels c me l) (tdriver c me l).
Proof.
  unfold tlabels, tdriver. destruct (tdrive c me l) as [[ls d]|] eqn:E; [|discriminate]. intros _. exists ls. split; auto. exact (drive_run _ _ _ E).
Qed.

(** What [me] receives from [from] in round 1. *)
Definition rx (c : Cfg) (from me : N) : input (P := toyP) := @IRecv toyP from (tmsg (tsession c from) me).

(** The message of [from] to party 0 in round 2. *)
Definition second (from : N) : input (P := toyP) :=
  @IRecv toyP from (tmsg (d_s (tfinal cfg3n from (map (fun v => pre cfg3n v from) (elements (others3 from)) ++ [CProc 0; CProc 0; CFin]))) 0).
(** A complete run of party 0. *)
Definition good_inputs : list (input (P := toyP)) :=
  [@IGo toyP; @IGo toyP; rx cfg3n 1 0; rx cfg3n 2 0; @IGo toyP; @IGo toyP; @IGo toyP; second 2; second 1; @IGo toyP].

(** Party 1 sends an echo-round message too early (it is cached) and its message of round 1 twice; after the transition
    to the echo round the cached message turns out to be wrong. *)
Definition early_echo : Message (P := toyP) := tforge 1 sid0 (echo_of (rid_new 1)) None None (Some (toy_ser_echo empty)).
Definition bad_echo_inputs : list (input (P := toyP)) :=
  [@IGo toyP; @IGo toyP; rx cfg3 1 0; @IRecv toyP 1%N early_echo; rx cfg3 1 0; rx cfg3 2 0; @IGo toyP; @IGo toyP; @IGo toyP; @IGo toyP].

Definition waiting {c} (d : Drv (toyPr c)) : bool :=
  match d with DrvWait _ a => match can_finalize a with NotYet => true | _ => false end | _ => false end.
Definition blames {c} (d : Drv (toyPr c)) (v : N) : bool := match d with DrvWait _ a => contains (v : @Verifier toyP) (a_unprovable a) | _ => false end.
Definition lost {c} (d : Drv (toyPr c)) : bool :=
  match d with DrvWait s a => match terminate_due_to_errors s a with Err LE_TrUnprovable => true | _ => false end | _ => false end.

Lemma bad_echo_cancelled : exists (P : Params) (Pr : Proto) r (s0 : Session Pr) ls s a v e,
  initial s0 /\ run_session r s0 ls (DrvWait s a) /\ has_unprovable (DS s a []) v /\
  drv_step r (DrvWait s a) ICancel = Some ([LCancel; LGiveUp s a], DrvDone (Err e)).
Proof.
  assert (R : run_session rN (tsession cfg3 0) (tlabels cfg3 0 bad_echo_inputs) (tdriver cfg3 0 bad_echo_inputs)) by (apply tdrive_run; vm_compute; reflexivity).
  assert (C : (waiting (tdriver cfg3 0 bad_echo_inputs) && blames (tdriver cfg3 0 bad_echo_inputs) 1 && lost (tdriver cfg3 0 bad_echo_inputs))%bool = true)
    by (vm_compute; reflexivity).
  revert R C. generalize (tlabels cfg3 0 bad_echo_inputs) (tdriver cfg3 0 bad_echo_inputs). intros ls d R C.
  apply andb_prop in C as [C C3]. apply andb_prop in C as [C1 C2]. destruct d as [| |s a|]; try discriminate.
  cbn [waiting blames lost] in *. exists toyP, (toyPr cfg3), rN, (tsession cfg3 0), ls, s, a, (1%N : @Verifier toyP), LE_TrUnprovable.
  split; [apply toy_initial|]. split; [exact R|]. split; [right; cbn [d_a]; now apply contains_get|].
  cbn [drv_step]. destruct (can_finalize a); try discriminate. destruct (terminate_due_to_errors s a) as [|[]|]; try discriminate. reflexivity.
Qed.
