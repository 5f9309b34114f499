(** Executions of the protocol of tests/partial_echo.rs. *)
From Coq Require Import List Arith NArith Bool Lia.
From Verif Require Import Base BMap Errors RoundId Message Protocol Transcript Evidence Session Typed Simple Spec SpecCrypto SpecTyped
  Network SpecNet TypedFacts NetFacts HonestFacts RunSync RunSyncFacts PartialEcho SpecPartial.
Import ListNotations.
Set Implicit Arguments.

Section Partial.
  Context {P : Params}.
  Variables (echo_codec : Codec Verifier) (no_error : bytes -> bool).
  Hypothesis Hc : codec_ok echo_codec.
  Variable r : NetRng.
  Variable sid : bytes.
  Variable parties : bset Verifier.
  Variable inputs : Verifier -> Inputs.
  Hypothesis HC : consistent parties inputs.

  Notation TP := (partial_echo echo_codec no_error).

  Definition partial_plan : Plan (wrap TP) := {|
    pl_last := 0;
    pl_rid := fun _ => rid_new 1;
    pl_part := fun _ v => in_part (inputs v);
    pl_dest := fun _ v => in_dest (inputs v);
    pl_from := fun _ v => in_from (inputs v);
    pl_state := fun _ v => (box TP PR1 (inputs v) : St (wrap TP));
    pl_echo := fun _ v => if is_empty (in_dest (inputs v)) then None else enc echo_codec v;
    pl_normal := fun _ _ => None;
    pl_direct := fun _ _ _ => None;
    pl_artifact := fun _ _ _ => (existT (ty TP) PNoArt tt : Artifact (wrap TP));
    pl_payload := fun _ _ _ => (existT (ty TP) PUnit tt : Payload (wrap TP));
    pl_result := fun _ => (tt : Rslt (wrap TP))
  |}.

  Lemma mem_not_empty (s : bset Verifier) u : mem u s = true -> is_empty s = false.
  Proof.
    intros H. destruct (is_empty s) eqn:E; auto. rewrite is_empty_get in E. unfold mem, contains in H. rewrite E in H. discriminate.
  Qed.
  Lemma partial_echo_some v : is_none (pl_echo partial_plan 0 v) = is_empty (in_dest (inputs v)).
  Proof.
    cbn [pl_echo partial_plan]. destruct (is_empty (in_dest (inputs v))); [reflexivity|].
    destruct (@enc_ok _ echo_codec v Hc) as (b & _ & -> & _). reflexivity.
  Qed.
  Lemma partial_echoes n v : echoes partial_plan n v = in_echo_round (inputs v).
  Proof.
    unfold echoes, in_echo_round. change (pl_echo partial_plan n v) with (pl_echo partial_plan 0 v). rewrite partial_echo_some. reflexivity.
  Qed.
  Lemma partial_partners n v : partners partial_plan n v = echo_peers (inputs v).
  Proof. reflexivity. Qed.
  Lemma from_not_self v u : mem v parties = true -> mem u (in_from (inputs v)) = true -> mem u parties = true /\ u <> v.
  Proof.
    intros Hv Hu. pose proof (cs_from HC _ _ Hv Hu) as Hp. split; auto.
    rewrite <- (cs_agree HC _ _ Hp Hv) in Hu. apply (cs_dest HC _ _ Hp) in Hu as [_ Hu]. congruence.
  Qed.

  Lemma partial_honest : honest_run r sid parties (fun v => partial_entry echo_codec no_error (inputs v)) partial_plan.
  Proof.
    assert (H0 : forall n, n <= pl_last partial_plan -> n = 0) by (cbn [pl_last partial_plan]; intros; lia).
    split; [constructor|].
    - reflexivity.
    - intros n k Hn Hk _. rewrite (H0 n Hn), (H0 k Hk). reflexivity.
    - reflexivity.
    - intros n v Hn. cbn [pl_last partial_plan] in Hn. lia.
    - reflexivity.
    - intros n v u _ Hv Hu. exact (cs_dest HC v u Hv Hu).
    - intros n v u _ Hv Hu. exact (from_not_self v u Hv Hu).
    - intros n u v _ Hu Hv. exact (cs_agree HC u v Hu Hv).
    - intros n v u _ Hv. rewrite !partial_echoes, !partial_partners. exact (cs_peers HC v u Hv).
    - intros n v u w Hn Hv He Hu. rewrite (H0 n Hn) in *. rewrite partial_echoes in He. rewrite partial_partners in Hu.
      rewrite partial_echo_some. cbn [pl_from partial_plan]. rewrite mem_rem.
      destruct (cs_peers HC v u Hv He Hu) as (Hup & _ & _ & _). destruct (eqb_spec w u) as [E|Hne].
      + rewrite E. symmetry. apply andb_false_iff. left. destruct (mem u (in_from (inputs u))) eqn:Em; auto.
        destruct (from_not_self _ _ Hup Em) as [_ F]. congruence.
      + cbn [negb andb]. pose proof (@cs_senders _ _ _ HC v u w Hv He Hu Hne) as Hs.
        assert (Hd : mem w (in_from (inputs u)) = true -> is_empty (in_dest (inputs w)) = false).
        { intros Hw. pose proof (cs_from HC _ _ Hup Hw) as Hwp. apply (mem_not_empty _ u). now rewrite (cs_agree HC _ _ Hwp Hup). }
        replace (mem w (in_from (inputs u)) && negb (is_empty (in_dest (inputs w))))%bool with (mem w (in_from (inputs u))).
        2:{ destruct (mem w (in_from (inputs u))) eqn:Ew; [now rewrite Hd|reflexivity]. }
        unfold echoed. cbn [pl_part pl_from partial_plan]. unfold in_echo_round in He.
        destruct (in_part (inputs v)) as [| |ts] eqn:Ep; try discriminate.
        * rewrite mem_add. destruct (eqb_spec w v) as [E|Hwv].
          -- symmetry. apply Hs. right. auto.
          -- apply eq_true_iff_eq. rewrite Hs. cbn [orb]. intuition congruence.
        * apply eq_true_iff_eq. rewrite Hs. intuition discriminate.
    - reflexivity.
    - intros n v Hn Hv. rewrite (H0 n Hn). cbn [pl_dest pl_echo pl_state partial_plan]. destruct (is_empty (in_dest (inputs v))) eqn:Ee; [reflexivity|].
      cbn [mk_echo wrap w_echo box typed_echo t_mk_echo partial_echo t_echo]. unfold partial_mk_echo. rewrite Ee. cbn [bind].
      rewrite (cs_id HC _ Hv). destruct (@enc_ok _ echo_codec v Hc) as (b & E1 & E & _). cbn [part_new msg]. rewrite E1, E. reflexivity.
    - intros n v Hn Hv. cbn [pl_dest partial_plan]. destruct (is_empty (in_dest (inputs v))); reflexivity.
    - intros n v u Hn Hv Hu. reflexivity.
    - intros n v u Hn Hv Hu. rewrite (H0 n Hn). cbn [pl_from pl_echo pl_normal pl_direct pl_payload pl_state partial_plan] in *.
      destruct (from_not_self _ _ Hv Hu) as [Hup Hne].
      assert (Hd : is_empty (in_dest (inputs u)) = false). { apply (mem_not_empty _ v). now rewrite (cs_agree HC _ _ Hup Hv). }
      rewrite Hd. destruct (@enc_ok _ echo_codec u Hc) as (b & _ & -> & D).
      cbn [receive wrap w_receive box dm_direct dm_echo dm_normal partial_echo t_direct t_echo t_normal part_receive part_deser msg ok_or t_receive is_none bind].
      rewrite D. cbn [ok_or bind]. unfold partial_receive. rewrite (mem_not_empty _ _ Hu), eqb_refl, Hu. reflexivity.
    - intros n v ps arts Hn Hv Hps Harts.
      destruct (@w_finalize_map P TP PR1 (inputs v) (rsub 0 (nr_fin r v (final_rid partial_plan n v))) ps arts _ (fun _ => tt) _ (fun _ => tt) Hps Harts) as (ps' & arts' & _ & _ & E).
      etransitivity; [exact E|]. rewrite (H0 n Hn). reflexivity.
    - apply heard_in_step. split.
      + intros n v u Hn _ _ _. left. exact (H0 n Hn).
      + intros n v u Hn. cbn [pl_last partial_plan] in Hn. lia.
  Qed.

  Hypothesis Hwire : wire_total P.
  Hypothesis Hsig : signatures_correct P.
  Variable sk : Verifier -> Signer.
  Hypothesis Hsk : signers parties sk.

  Lemma partial_runs : let ep := fun v => partial_entry echo_codec no_error (inputs v) in
    exists net0, honest_net r sid parties sk ep = Ok net0 /\
    (forall xs net, schedule r net0 xs net ->
       fine parties net /\
       (forall x res, act r net x = Some res -> exists net', res = Ok net') /\
       ((forall v, mem v parties = true -> exists rep, get v (nodes net) = Some (Ended rep) /\ rep_outcome rep = OResult tt) \/
        exists x net', act r net x = Some (Ok net'))) /\
    (forall f : nat -> Net (wrap TP), f 0 = net0 -> ~ forall i, exists x, act r (f i) x = Some (Ok (f (S i)))).
  Proof.
    intros ep. pose proof partial_honest as HR.
    destruct (honest_fine sk Hsk Hwire Hsig HR) as (net0 & E & H). exists net0. split; auto. split.
    - intros xs net Hs. destruct (H xs net Hs) as [H1 H2]. split; auto. split; auto.
      destruct (honest_progress sk Hsk Hwire Hsig HR E Hs) as [[Ha _]|Ha]; auto. left. intros v Hv.
      destruct (Ha v Hv) as (rep & Hg & Ho & _). exists rep. split; [exact Hg|exact Ho].
    - exact (honest_finite sk Hsk Hwire Hsig HR E).
  Qed.

  Lemma partial_run_sync picks : let ep := fun v => partial_entry echo_codec no_error (inputs v) in
    (exists v u, mem v parties = true /\ mem u (in_dest (inputs v)) = true) ->
    exists fuel0 reports results, (forall fuel, fuel0 <= fuel ->
      run_sync fuel r picks sid (map (fun v => (sk v, ep v)) (elements parties)) = Some (Ok reports)) /\
    exec_results reports = Some results /\ is_map results parties (fun _ => tt).
  Proof.
    intros ep (v & u & Hv & Hu).
    destruct (run_sync_completes Hsk Hwire Hsig partial_honest picks) as (fuel0 & reports & results & H1 & _ & _ & H2 & H3).
    - exists 0, v, u. split; [apply le_n|]. split; [exact Hv|]. left. exact Hu.
    - exists fuel0, reports, results. split; [exact H1|]. split; [exact H2|exact H3].
  Qed.
End Partial.

Lemma in_step_runs {P : Params} (Pr : Proto) r sid parties (ep : Verifier -> EntryPoint Pr) (h : Plan Pr) sk :
  signers parties sk -> wire_total P -> signatures_correct P -> lock_step r sid parties ep h -> in_step parties h ->
  exists net0, honest_net r sid parties sk ep = Ok net0 /\
    (forall xs net, schedule r net0 xs net ->
       fine parties net /\
       (forall x res, act r net x = Some res -> exists net', res = Ok net') /\
       ((all_ended parties h net /\ flight net = []) \/ exists x net', act r net x = Some (Ok net'))) /\
    (forall f : nat -> Net Pr, f 0 = net0 -> ~ forall i, exists x, act r (f i) x = Some (Ok (f (S i)))).
Proof.
  intros Hsk Hwire Hsig HL HS. assert (HR : honest_run r sid parties ep h) by (split; assumption).
  destruct (honest_fine sk Hsk Hwire Hsig HR) as (net0 & E & H). exists net0. split; auto. split.
  - intros xs net Hs. destruct (H xs net Hs) as [H1 H2]. split; auto. split; auto. exact (honest_progress sk Hsk Hwire Hsig HR E Hs).
  - exact (honest_finite sk Hsk Hwire Hsig HR E).
Qed.
Lemma one_round_in_step {P : Params} (Pr : Proto) parties (h : Plan Pr) : pl_last h = 0 -> in_step parties h.
Proof. intros H. apply heard_in_step. split; intros n v u Hn; rewrite H in Hn; [left|]; lia. Qed.
