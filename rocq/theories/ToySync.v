(** [run_sync] with the concrete parameters of Toy.v. Used only by [Example]s and witnesses. *)
From Coq Require Import List NArith Bool Arith Lia.
From Verif Require Import Base BMap Errors RoundId Message Protocol Transcript Evidence Session Spec SpecCrypto Typed SpecTyped Simple
  Network SpecNet RunSync SpecSync Toy ToyCrypto ToySimple HonestFacts ToyNet RunSyncFacts.
Import ListNotations.
Set Implicit Arguments.

Notation sync_run n picks := (@run_sync toyP (wrap (@simple toyP toyW)) 40 rN picks sid0
  (map (fun v => (key v, @simple_entry toyP toyW (group n))) (elements (group n)))).
Definition sync_results (o : option (res LocalError (bmap (@Verifier toyP) (Report (P := toyP) N)))) : list N :=
  match o with
  | Some (Ok reports) => flat_map (fun kv => match rep_outcome (snd kv) with OResult x => [x] | _ => [] end) (to_list reports)
  | _ => []
  end.

(** Two messages of party 1, one of party 0. *)
Definition mailA : RMsg (P := toyP) := @mkRMsg toyP 1%N 0%N dummy_msg.
Definition mailB : RMsg (P := toyP) := @mkRMsg toyP 0%N 1%N dummy_msg.
Definition mailC : RMsg (P := toyP) := @mkRMsg toyP 1%N 2%N dummy_msg.

Section SimpleSync.
  Context {P : Params}.
  Variable W : SimpleWire.
  Hypothesis HW : codec_ok (sw_message1 W) /\ codec_ok (sw_echo1 W) /\ codec_ok (sw_broadcast1 W) /\ codec_ok (sw_message2 W).
  Variable r : NetRng.
  Variable sid : bytes.
  Variable parties : bset Verifier.
  Hypothesis Hwire : wire_total P.
  Hypothesis Hsig : signatures_correct P.
  Variable sk : Verifier -> Signer.
  Hypothesis Hsk : signers parties sk.

  Lemma simple_run_sync : let n := length (elements parties) in 2 <= n <= 16 ->
    forall picks, exists fuel0 reports results, (forall fuel, fuel0 <= fuel ->
      run_sync fuel r picks sid (map (fun v => (sk v, simple_entry W parties)) (elements parties)) = Some (Ok reports)) /\
    exec_results reports = Some results /\ is_map results parties (fun _ => N.of_nat n * (N.of_nat n - 1))%N.
  Proof.
    intros n Hn picks. destruct (result_eq parties ltac:(fold n; lia)) as [E1 E2]. pose proof (simple_honest W HW r sid parties E2 ltac:(fold n; lia)) as HR.
    destruct (run_sync_completes Hsk Hwire Hsig HR picks) as (fuel0 & reports & results & H1 & _ & _ & H2 & H3).
    - destruct (elements parties) as [|v [|u l]] eqn:El; [subst n; simpl in Hn; lia|subst n; simpl in Hn; lia|]. exists 0, v, u. cbn [pl_last pl_dest simple_plan].
      split; [auto|]. split; [apply in_elements; rewrite El; now left|]. left. rewrite mem_rem. pose proof (NoDup_elements parties) as Hnd. rewrite El in Hnd.
      apply NoDup_cons_iff in Hnd as [Hv _]. rewrite (proj2 (eqb_neq u v)); [|intros ->; apply Hv; now left]. simpl. apply in_elements. rewrite El. right. now left.
    - exists fuel0, reports, results. split; auto. split; auto. intros v. rewrite (H3 v). destruct (mem v parties); auto. f_equal. exact E1.
  Qed.
End SimpleSync.

Lemma run_sync_no_panic {P : Params} {Pr : Proto} r sid parties (ep : Verifier -> EntryPoint Pr) (h : Plan Pr) sk :
  signers parties sk -> wire_total P -> signatures_correct P -> honest_run r sid parties ep h ->
  forall picks,
  (exists n v u, n <= pl_last h /\ mem v parties = true /\
     (mem u (pl_dest h n v) = true \/ (echoes h n v = true /\ mem u (partners h n v) = true))) ->
  exists fuel0 reports, forall fuel, fuel0 <= fuel ->
    run_sync fuel r picks sid (map (fun v => (sk v, ep v)) (elements parties)) = Some (Ok reports).
Proof.
  intros H1 H2 H3 H4 picks H5. destruct (run_sync_completes H1 H2 H3 H4 picks H5) as (fuel0 & reports & results & H & _). eauto.
Qed.

Lemma lonely_honest : honest_run rN sid0 (group 1) (fun _ => @simple_entry toyP toyW (group 1)) (@simple_plan toyP toyW (group 1)).
Proof. apply simple_honest; [exact toy_simple_wire|vm_compute; discriminate|vm_compute; repeat constructor]. Qed.
Lemma lonely_silent : ~ exists n v u, n <= pl_last (@simple_plan toyP toyW (group 1)) /\ mem v (group 1) = true /\
  (mem u (pl_dest (@simple_plan toyP toyW (group 1)) n v) = true \/
   (echoes (@simple_plan toyP toyW (group 1)) n v = true /\ mem u (partners (@simple_plan toyP toyW (group 1)) n v) = true)).
Proof.
  intros (n & v & u & _ & Hv & Hu'). assert (Hu : mem u (pl_dest (@simple_plan toyP toyW (group 1)) n v) = true) by (destruct Hu' as [Hu|[_ Hu]]; exact Hu). cbn [pl_dest simple_plan] in Hu. rewrite mem_rem in Hu. apply andb_prop in Hu as [Hne Hu].
  assert (K : forall w, mem w (group 1) = true -> w = (0%N : @Verifier toyP)) by (intros w Hw; apply mem_set_of_list in Hw as [<-|[]]; reflexivity).
  rewrite (K v Hv), (K u Hu) in Hne. rewrite eqb_refl in Hne. discriminate.
Qed.
Lemma lonely_run_sync : exists (P : Params) W r sid parties sk,
  (codec_ok (sw_message1 W) /\ codec_ok (sw_echo1 W) /\ codec_ok (sw_broadcast1 W) /\ codec_ok (sw_message2 W)) /\
  wire_total P /\ signatures_correct P /\ signers parties sk /\ length (elements parties) = 1 /\
  (exists h, honest_run r sid parties (fun _ => simple_entry W parties) h) /\
  forall picks, exists fuel0, forall fuel, fuel0 <= fuel ->
    run_sync fuel r picks sid (map (fun v => (sk v, simple_entry W parties)) (elements parties)) = Some Panic.
Proof.
  exists toyP, toyW, rN, sid0, (group 1), key. split; [exact toy_simple_wire|]. split; [exact toy_wire|]. split; [exact toy_signatures|].
  split; [exact (@toy_signers 1)|]. split; [vm_compute; reflexivity|]. split; [eexists; exact lonely_honest|].
  intros picks. exact (run_sync_panics (@toy_signers 1) toy_wire toy_signatures lonely_honest picks lonely_silent).
Qed.
