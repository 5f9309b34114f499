(** dev/tokio.rs when messages are turned down: what [run_async] returns, and when it returns. *)
From Coq Require Import List NArith Bool Arith Lia Permutation.
From Verif Require Import Base BMap Errors RoundId Message Protocol Transcript Evidence Session Spec SpecCrypto Extend SpecExtend
  MessageFacts SessionFacts RunFacts Network SpecNet NetFacts RunSync RunSyncFacts SpecCaught SpecFaults FaultFacts CaughtFacts
  Driver SpecDriver DriverFacts DriverNetFacts CaughtDriver Async SpecAsync AsyncFacts AsyncNetFacts SpecAsyncFaults.
Import ListNotations.
Set Implicit Arguments.

Section Faults.
  Context {P : Params}.
  Context {Pr : Proto}.
  Variable f : St Pr -> Verifier -> DynMsg -> res RecvErr (Payload Pr).
  Variable r : NetRng.
  Variable sid : bytes.
  Variable parties : bset Verifier.
  Variable ep : Verifier -> EntryPoint Pr.
  Variable h : Plan (with_receive Pr f).
  Variable sk : Verifier -> Signer.
  Variable cap : nat.
  Hypothesis Hsk : signers parties sk.
  Hypothesis Hwire : wire_total P.
  Hypothesis Hsig : signatures_correct P.
  Hypothesis Hpl : plain_ids Pr.
  Hypothesis HR : honest_run r sid parties (fun v => ep_with f (ep v)) h.
  Variable stop : Verifier -> option nat.
  Variable sd : Shared Pr.
  Hypothesis HF : faults sid parties h stop sd.

  Notation ks := (elements parties).
  Notation party v := (mem v parties = true).
  Notation caught := (CN sid parties h sk stop sd).
  Notation step_ := (@caught_step P Pr f r sid parties ep h sk Hsk Hwire Hsig Hpl HR stop sd HF).
  Notation id_ := (@caught_id P Pr f sid parties h sk stop sd).
  Notation never_ := (@caught_never P Pr f r sid parties ep h sk HR stop sd).
  Notation acc_ := (@caught_acc P Pr f r sid parties ep h sk Hsk Hwire Hsig Hpl HR stop sd HF).
  Notation rel_ := (crel (caught_rep sid h stop sd)).
  Notation dn a net := (mkDNet (an_nodes a) (flight net)).

  (** Whatever drives the nodes. *)
  Record fcore (a : ANet Pr) (net : Net Pr) : Prop := {
    fi_caught : caught net;
    fi_done : forall v o, get v (an_nodes a) = Some (DrvDone o) -> exists rep nd, o = Ok rep /\ get v (nodes net) = Some nd /\
      (nd = Ended rep \/ gave_up (caught_rep sid h stop sd) v rep nd);
    fi_wf : awf ks a;
    fi_flight : Permutation (map strip (waiting ks a)) (flight net);
    fi_to : forall o, In o (waiting ks a) -> mo_to o = msg_dest (mo_message o);
    fi_disp : disp_fine a
  }.
  Record finv (a : ANet Pr) (net : Net Pr) : Prop := {
    fi_core : fcore a net;
    fi_rel : rel_ (dn a net) net
  }.
  Lemma finv_intro a net : caught net -> rel_ (dn a net) net -> awf ks a -> Permutation (map strip (waiting ks a)) (flight net) ->
    (forall o, In o (waiting ks a) -> mo_to o = msg_dest (mo_message o)) -> disp_fine a -> finv a net.
  Proof.
    intros H1 H2 H3 H4 H5 H6. constructor; auto. constructor; auto. intros v o Hv. destruct (cr_some H2 _ Hv) as (nd & Hnd & Hc).
    cbn [cnode] in Hc. destruct o as [rep|e|]; try contradiction. eauto 6.
  Qed.
  (** The measure: a step of the network, a driver that gives up, a step of the dispatcher. *)
  Definition less (a' : ANet Pr) (net' : Net Pr) (a : ANet Pr) (net : Net Pr) : Prop :=
    later r net' net \/ net' = net /\ (running ks (dn a' net) < running ks (dn a net) \/ an_nodes a' = an_nodes a /\ dmu a' < dmu a).

  Lemma fdisp_core a net i a' : fcore a net -> disp_step cap a i = Some a' -> failed (an_disp a') \/ fcore a' net.
  Proof.
    intros I E. pose proof (@disp_wf _ _ cap _ _ i _ (fi_wf I) E) as W. destruct (@disp_conserves _ _ cap _ _ i _ (fi_wf I) E) as (lost & Hp & [Hl|Hl]); auto.
    pose proof (@disp_nodes _ _ cap _ i _ E) as En.
    assert (F : failed (an_disp a') \/ disp_fine a').
    { unfold disp_fine. rewrite En. unfold disp_step in E. destruct (an_disp a) as [|ms|[|x ms]|ms o|ms|o] eqn:Ed; try discriminate.
      - destruct (an_out a); [destruct (all_done _) eqn:Ea; [|discriminate]|]; apply some_inj in E; subst a'; cbn [an_disp]; auto.
      - destruct (an_out a); apply some_inj in E; subst a'; cbn [an_disp]; auto.
      - apply some_inj in E; subst a'; cbn [an_disp]; auto.
      - destruct (swap_remove i (x :: ms)) as [[o ms']|]; [|discriminate]. apply some_inj in E; subst a'; cbn [an_disp]; auto.
      - destruct (get (mo_to o) (an_in a)) as [q|]; [|apply some_inj in E; subst a'; cbn [an_disp failed]; auto].
        destruct (get (mo_to o) (an_nodes a)) as [[]|]; try (apply some_inj in E; subst a'; cbn [an_disp failed]; auto; fail);
          (destruct (Nat.ltb (length q) cap); [|discriminate]; apply some_inj in E; subst a'; cbn [an_disp failed]; auto).
      - destruct (an_out a); apply some_inj in E; subst a'; cbn [an_disp]; auto. }
    destruct F as [F|F]; auto. right. subst lost. rewrite app_nil_r in Hp. constructor; auto.
    - apply I.
    - rewrite En. apply I.
    - etransitivity; [|apply (fi_flight I)]. apply Permutation_map. now symmetry.
    - intros o Ho. apply (fi_to I). eapply Permutation_in; [symmetry; exact Hp|exact Ho].
  Qed.
  Lemma fdisp a net i a' : finv a net -> disp_step cap a i = Some a' -> failed (an_disp a') \/ finv a' net.
  Proof.
    intros I E. destruct (fdisp_core i (fi_core I) E) as [|C]; auto. right. constructor; auto. rewrite (@disp_nodes _ _ cap _ i _ E). apply I.
  Qed.

  Lemma fkeys a net v : finv a net -> contains v (an_nodes a) = true -> In v ks.
  Proof. intros I Hv. apply (aw_node (fi_wf (fi_core I))). apply contains_get in Hv as [d Hd]. congruence. Qed.

  Lemma fnode a net v d i ls d' : finv a net -> get v (an_nodes a) = Some d -> node_input cap a v d = Some i -> drv_step r d i = Some (ls, d') ->
    forall a', aact r cap a (ANode v) = Some (map (pair v) ls, a') -> an_nodes a' = insert v d' (an_nodes a) -> an_disp a' = an_disp a ->
    exists net', finv a' net' /\ less a' net' a net.
  Proof.
    intros I Hv Hi Hs a' Hact En Ed. pose proof (@act_wf _ _ r cap _ _ (ANode v) _ _ (fi_wf (fi_core I)) Hact) as W.
    destruct (@act_conserves _ _ r cap _ _ (ANode v) _ _ (fi_wf (fi_core I)) Hact) as (lost & Hp & Hl).
    assert (Hnd : drv_done d = false) by (destruct d; auto; discriminate).
    assert (Hend : disp_done (an_disp a) = false).
    { pose proof (fi_disp (fi_core I)) as F. unfold disp_fine in F. destruct (an_disp a) as [| | | | |[u|e|]]; auto; [|contradiction|contradiction].
      rewrite (@all_done_node _ _ _ _ _ F Hv) in Hnd. discriminate. }
    assert (F : disp_fine a'). { unfold disp_fine. rewrite Ed. destruct (an_disp a); auto. discriminate. }
    assert (lost = []) as ->. { destruct Hl as [Hl|Hl]; auto. rewrite Ed in Hl. destruct (an_disp a); try contradiction. discriminate. }
    rewrite app_nil_r in Hp. clear Hl. pose proof (@step_labels _ _ r _ _ _ _ Hs) as Hlab.
    assert (Hless : forall net' fl, onward r ks (dn a net) net (mkDNet (insert v d' (an_nodes a)) fl) net' -> less a' net' a net).
    { intros net' fl [L|[-> L]]; [now left|right]. split; auto. left. unfold running in L |- *. cbn [dn_nodes] in L |- *. now rewrite En. }
    assert (Kgo : i = IGo -> exists net', finv a' net' /\ less a' net' a net).
    { intros ->. destruct (@cgo_sim _ _ r caught step_ id_ _ never_ v _ net d ls d' (fi_caught (fi_core I)) (fi_rel I) Hv Hs ks) as (net' & L & Hg & R);
        [eapply fkeys; [exact I|apply contains_get; eauto]|].
      cbn [dn_nodes dn_flight] in L, R. pose proof (cr_flight R) as Hf. cbn [dn_flight] in Hf.
      destruct (taken_none v _ Hlab) as [Ht _]. rewrite Ht in Hp. cbn [app] in Hp. destruct (@go_outs _ _ r v _ _ _ Hs) as [O1 O2].
      exists net'. split; [apply finv_intro; auto|exact (Hless _ _ L)].
      - rewrite En, <- Hf. exact R.
      - rewrite <- Hp, map_app, O1, <- Hf. apply Permutation_app_tail, (fi_core I).
      - intros o Ho. apply (Permutation_in _ (Permutation_sym Hp)) in Ho. apply in_app_or in Ho as [Ho|Ho]; [now apply (fi_to (fi_core I))|now apply O2]. }
    destruct i as [| |from m| |]; [apply Kgo; reflexivity| | | |].
    - unfold node_input in Hi. rewrite Hend in Hi. destruct d as [| |s ac|]; try (destruct (Nat.ltb _ _); discriminate); try discriminate.
      destruct (can_finalize ac); try discriminate. destruct (get v (an_in a)) as [[|[]]|]; discriminate.
    - subst ls. cbn [map sent_in taken_in flat_map fst snd app] in Hp. rewrite app_nil_r in Hp.
      assert (Ho : In (mkOut from v m) (waiting ks a)) by (eapply Permutation_in; [symmetry; exact Hp|now left]).
      pose proof (fi_to (fi_core I) _ Ho) as Ht. cbn [mo_to mo_message] in Ht.
      assert (Hin : In (from, m) (flight net)). { eapply Permutation_in; [apply (fi_flight (fi_core I))|]. exact (in_map strip _ _ Ho). }
      destruct (take_nth_in _ _ Hin) as (j & rest & Hj).
      assert (Hd : dact r (dn a net) (DDeliver j) = Some (mkDNet (insert v d' (an_nodes a)) rest)).
      { cbn [dact dn_flight dn_nodes]. rewrite Hj, <- Ht, Hv, Hs. destruct d; [reflexivity|reflexivity|reflexivity|discriminate]. }
      destruct (@cstep_sim _ _ r caught step_ id_ _ never_ (DDeliver j) _ _ net (fi_caught (fi_core I)) (fi_rel I) Hd ks) as (net' & L & Hg & R);
        [cbn [dn_nodes]; intros w; exact (fkeys w I)|].
      pose proof (cr_flight R) as Hf. cbn [dn_flight] in Hf. exists net'. split; [apply finv_intro; auto|exact (Hless _ _ L)].
      + rewrite En, <- Hf. exact R.
      + rewrite <- Hf. apply Permutation_cons_inv with (a := (from, m)). rewrite <- (take_nth_perm _ _ Hj), <- (fi_flight (fi_core I)), Hp. reflexivity.
      + intros o Ho'. apply (fi_to (fi_core I)). eapply Permutation_in; [symmetry; exact Hp|now right].
    - unfold node_input in Hi. rewrite Hend in Hi. destruct d as [| |s ac|]; try (destruct (Nat.ltb _ _); discriminate); try discriminate.
      destruct (can_finalize ac); try discriminate. destruct (get v (an_in a)) as [[|[]]|]; discriminate.
    - unfold node_input in Hi. rewrite Hend in Hi. destruct d as [| |s ac|]; try (destruct (Nat.ltb _ _); discriminate); try discriminate.
      destruct (can_finalize ac); try discriminate. destruct (get v (an_in a)) as [[|[]]|]; discriminate.
  Qed.

  Lemma fact a net x ls a' : finv a net -> aact r cap a x = Some (ls, a') -> failed (an_disp a') \/ exists net', finv a' net' /\ less a' net' a net.
  Proof.
    intros I E. destruct x as [v|i].
    - right. pose proof E as E0. cbn [aact] in E. destruct (get v (an_nodes a)) as [d|] eqn:Hv; [|discriminate]. destruct (node_input cap a v d) as [i|] eqn:Hi; [|discriminate].
      destruct (drv_step r d i) as [[ls0 d']|] eqn:Hs; [|discriminate]. apply stp_inj in E as [-> E].
      apply (@fnode a net v d i ls0 d' I Hv Hi Hs a' E0); subst a'; reflexivity.
    - cbn [aact] in E. destruct (disp_step cap a i) as [a1|] eqn:E1; [|discriminate]. apply stp_inj in E as [_ ->].
      destruct (fdisp i I E1) as [F|I']; auto. right. exists net. split; auto. right. split; auto. right. split; [exact (@disp_nodes _ _ cap _ i _ E1)|exact (@disp_less _ _ cap a i a1 E1)].
  Qed.
  Lemma stays_failed (a : ANet Pr) x ls a' : failed (an_disp a) -> aact r cap a x = Some (ls, a') -> failed (an_disp a').
  Proof.
    intros F E. destruct x as [v|i]; cbn [aact] in E.
    - destruct (get v (an_nodes a)) as [d|]; [|discriminate]. destruct (node_input cap a v d) as [i|]; [|discriminate].
      destruct (drv_step r d i) as [[ls0 d']|]; [|discriminate]. apply stp_inj in E as [_ ->]. exact F.
    - unfold disp_step in E. destruct (an_disp a); try contradiction. discriminate.
  Qed.
  Lemma fsched a0 net0 tr a : finv a0 net0 -> aschedule r cap a0 tr a -> failed (an_disp a) \/ exists net, finv a net.
  Proof.
    intros I H. induction H as [a|a tr a1 x ls a2 H IH Hx]; [eauto|]. destruct (IH I) as [F|[net1 I1]]; [left; exact (@stays_failed _ x _ _ F Hx)|].
    destruct (fact x I1 Hx) as [F|(net2 & I2 & _)]; eauto.
  Qed.

  Lemma fstarted : exists a net, honest_anet r sid parties sk ep = Ok a /\ finv a net.
  Proof.
    destruct (@cnet_started P Pr f r sid parties ep h sk Hsk Hwire Hsig HR stop sd) as (d0 & net & Ed & Hg & R).
    unfold honest_dnet, dnet_start in Ed. rewrite starts_same in Ed.
    destruct (map_res _ _) as [l|e|] eqn:El; try discriminate. cbn [bind] in Ed. injection Ed as <-.
    assert (Hks : map (fun p : Signer * EntryPoint Pr => signer_key (fst p)) (map (fun v => (sk v, ep v)) ks) = ks).
    { rewrite map_map. cbn [fst]. transitivity (map (fun v : Verifier => v) ks); [|apply map_id]. apply map_ext_in. intros v Hv. apply Hsk. now apply in_elements. }
    assert (Ea : exists a, honest_anet r sid parties sk ep = Ok a /\ an_nodes a = of_list (map (fun vs => (fst vs, drv_enter (snd vs) [])) l)).
    { unfold honest_anet, anet_start. rewrite El. cbn [bind]. eexists. split; reflexivity. }
    destruct Ea as (a & Ea & Hn). exists a, net. split; auto. unfold honest_anet in Ea.
    assert (Hnd : NoDup (map (fun p : Signer * EntryPoint Pr => signer_key (fst p)) (map (fun v => (sk v, ep v)) ks))) by (rewrite Hks; apply NoDup_elements).
    destruct (@anet_start_ok _ _ r sid _ _ Hnd Ea) as (W & H1 & H2 & H3 & _).
    rewrite Hks in W. pose proof (cr_flight R) as Hf. cbn [dn_flight] in Hf. pose proof (waiting_start ks a H1 H2 H3) as Hw.
    apply finv_intro; auto.
    - rewrite Hn, <- Hf. exact R.
    - rewrite Hw, <- Hf. reflexivity.
    - rewrite Hw. intros o [].
    - unfold disp_fine. now rewrite H2.
  Qed.

  (** ** What it returns *)
  Lemma fnodes a net v d : fcore a net -> get v (an_nodes a) = Some d ->
    match d with DrvDone (Ok rep) => report_right sid h stop sd v rep | DrvDone _ => False | _ => True end.
  Proof.
    intros I Hd. destruct d as [s a' dest dests c|s a' vm c|s a'|o]; auto. destruct (fi_done I _ Hd) as (rep & nd & -> & Ev & Hc). destruct (fi_caught I) as (H & ph & C).
    pose proof (@all_right P Pr f sid parties h sk stop sd net H ph v nd C Ev) as Ha.
    unfold report_right. destruct Hc as [->|(x & _ & _ & _ & (Ho & Hm & Hb1 & Hb2))]; [|rewrite Ho; auto].
    cbn [node_right] in Ha. destruct Ha as (H1 & -> & H3 & H4). auto.
  Qed.
  Lemma freturned a net reports : fcore a net -> async_returns a = Some (Ok reports) -> every_report_right sid parties h stop sd reports.
  Proof.
    intros I Ho. destruct (returns_ok _ Ho) as [_ Hr]. split.
    - intros v. specialize (Hr v). pose proof (aw_node (fi_wf I) v) as Hk. rewrite in_elements in Hk.
      destruct (get v (an_nodes a)) as [d|].
      + destruct Hr as (rep & _ & Hr). transitivity true; [apply contains_get; eauto|]. symmetry. apply Hk. discriminate.
      + transitivity false; [now apply contains_false|]. destruct (mem v parties); auto. destruct (proj2 Hk eq_refl eq_refl).
    - intros v rep Hrep. specialize (Hr v). destruct (get v (an_nodes a)) as [d|] eqn:Hd; [|congruence].
      destruct Hr as (rep' & -> & Hr). assert (rep' = rep) by congruence. subst rep'. exact (fnodes v I Hd).
  Qed.

  Lemma async_reports : exists a0, honest_anet r sid parties sk ep = Ok a0 /\
    forall tr a reports, aschedule r cap a0 tr a -> async_returns a = Some (Ok reports) -> every_report_right sid parties h stop sd reports.
  Proof.
    destruct fstarted as (a0 & net0 & E & I). exists a0. split; auto. intros tr a reports Hs Ho.
    destruct (fsched I Hs) as [F|[net I']]; [|exact (freturned (fi_core I') Ho)].
    destruct (returns_ok _ Ho) as [Hd _]. rewrite Hd in F. contradiction.
  Qed.

  (** ** Nobody goes past a round *)
  Section Same.
    Variable k : nat.
    Hypothesis Hk : nobody_goes_past parties h stop k.

    (** What is on the way is for a party that has not given up. *)
    Lemma quiet_flight M H ph u m d : CI sid parties h sk stop sd M H ph -> In (u, m) (flight M) -> get (msg_dest m) (nodes M) = Some (Running d) -> can_finalize (d_a d) = Never -> False.
    Proof.
      intros C Hin Ev Hn. set (v := msg_dest m) in *. pose proof (ci_inv C) as I.
      destruct (@never_conv P Pr f sid parties h sk stop sd M H ph v d C Ev Hn) as (d' & k' & Ev' & Hv & Hst & Hp & A & _ & _ & _ & GA).
      assert (k' = k) by (destruct (Hk v Hv) as [E|[E _]]; congruence). subst k'.
      rewrite <- (ci_flight C) in Hin. destruct (ni_flight I _ _ Hin) as (g & Hg & Hu & Gm & Hd). fold v in Gm, Hd.
      assert (Hpv : pvalid h v g).
      { split; auto. intros Eb. unfold dst in Hd. rewrite Eb in Hd. destruct (echoes h (fst g) u) eqn:Ee; [|discriminate].
        now destruct (hr_partners (proj1 HR) (fst g) u v Hg Hu Ee Hd) as (_ & _ & E & _). }
      assert (Hc : 1 <= cnt_fl (flight H) u v (prid h g)).
      { apply in_split in Hin as (l1 & l2 & ->). change ((u, m) :: l2) with ([(u, m)] ++ l2). rewrite !cnt_fl_app, cnt_fl_one.
        assert (m_round (sp_meta (msg_direct m)) = prid h g) as -> by (destruct Gm as (_ & (_ & _ & _ & -> & _) & _); reflexivity).
        fold v. rewrite !eqb_refl. simpl. lia. }
      pose proof (ni_count I u Hu Hv Hpv) as Hcnt. rewrite Hp in Hcnt.
      destruct (Nat.leb_spec (prank (k, false)) (prank g)) as [Hle|]; [|lia].
      destruct (sent h H ph u g v) eqn:Es; [|simpl in Hcnt; lia]. simpl in Hcnt.
      destruct (@sent_dst _ _ sid parties h sk H ph u g v I Hu Es) as [_ Hgu].
      (* the sender has not gone past the round *)
      assert (Eg : g = (k, false)).
      { destruct (Hk u Hu) as [Hsu|(Hsu & Hlast & He)].
        - pose proof (ci_nodes C u) as K. pose proof (ni_node I u Hu) as Hnu. unfold onodrel, nodrel in K.
          destruct (get u (nodes H)) as [[du'|rep']|]; [| |contradiction]; destruct (get u (nodes M)) as [[du|rep]|] eqn:Eu; try contradiction; [|destruct K; congruence].
          destruct K as (_ & _ & [[_ K]|(k' & Hk' & K & _)]).
          + specialize (K k Hsu). lia.
          + assert (k' = k) by congruence. subst k'. rewrite K in Hgu. apply prank_inj. lia.
        - destruct g as [n b]. cbn [fst] in Hg. unfold prank in Hle. cbn [fst snd b2n] in Hle. assert (n = k) by (destruct b; cbn [b2n] in Hle; lia). subst n.
          destruct b; auto. unfold dst in Hd. cbn [fst snd] in Hd. rewrite He in Hd. discriminate. }
      subst g. assert (Hf : mem u (pl_from h k v) = true).
      { unfold dst in Hd. cbn [fst snd] in Hd. cbn [fst] in Hg. now rewrite <- (hr_agree (proj1 HR) k u v Hg Hu Hv). }
      pose proof (@never_got P Pr f sid parties h sk stop sd M H ph v d d' k u C Ev Hn Hp A GA Hf) as Hgot.
      unfold held in Hcnt. rewrite Ev', Hp, Nat.eqb_refl, Hgot in Hcnt. cbn [b2n] in Hcnt. lia.
    Qed.

    Lemma flive a net : fcore a net -> live parties a.
    Proof.
      intros I o Ho. pose proof (fi_to I _ Ho) as Ht. destruct (fi_caught I) as (H & ph & C).
      assert (Hin : In (strip o) (flight net)) by (eapply Permutation_in; [apply (fi_flight I)|]; now apply in_map).
      pose proof Hin as Hin'. rewrite <- (ci_flight C) in Hin'.
      destruct (@flight_facts _ _ r sid parties _ h sk HR H ph _ _ (ci_inv C) Hin') as (_ & Hp & _ & [x Hx] & _). cbn [strip] in *. rewrite <- Ht in *.
      apply in_elements in Hp. pose proof (proj2 (aw_node (fi_wf I) (mo_to o)) Hp) as Hne.
      destruct (get (mo_to o) (an_nodes a)) as [d|] eqn:Ed; [|contradiction]. exists d. split; auto. split; auto.
      destruct d as [| | |oo]; try reflexivity. exfalso. destruct (fi_done I _ Ed) as (rep & nd & _ & Ev & Hc).
      pose proof (ci_nodes C (mo_to o)) as K. rewrite Ev, Hx in K. cbn [onodrel] in K. destruct Hc as [->|(y & -> & _ & Hn & _)]; [contradiction|].
      eapply (@quiet_flight net H ph); [exact C|exact Hin|cbn [strip]; rewrite <- Ht; exact Ev|exact Hn].
    Qed.
    Lemma ffew a net v : fcore a net -> length (filter (fun o => eqb (mo_to o) v) (waiting ks a)) <= 2 * (length (elements parties) - 1).
    Proof.
      intros I. rewrite (waiting_meant v _ (fi_to I) (fi_flight I)). destruct (fi_caught I) as (H & ph & C). rewrite <- (ci_flight C).
      exact (@few_in_flight _ _ r sid parties _ h sk HR H ph v (ci_inv C)).
    Qed.
    Lemma fnever_disp a net i a' : fcore a net -> disp_step cap a i = Some a' -> failed (an_disp a') -> False.
    Proof.
      intros I E1 F. unfold disp_step in E1.
      destruct (an_disp a) as [|ms|[|x ms]|ms o|ms|o] eqn:Ed; try discriminate.
      - destruct (an_out a); [destruct (all_done _) eqn:Ea; [|discriminate]|]; apply some_inj in E1; subst a'; contradiction.
      - destruct (an_out a); apply some_inj in E1; subst a'; contradiction.
      - apply some_inj in E1; subst a'; contradiction.
      - destruct (swap_remove i (x :: ms)) as [[o ms']|]; [|discriminate]. apply some_inj in E1; subst a'; contradiction.
      - assert (Ho : In o (waiting ks a)). { unfold waiting. rewrite Ed. cbn [disp_msgs]. apply in_or_app. right. now left. }
        destruct (flive I o Ho) as (d & Hd & Hdd & Hin). pose proof (proj2 (aw_in (fi_wf I) _) Hin) as Hq.
        destruct (get (mo_to o) (an_in a)) as [q|]; [|contradiction]. rewrite Hd in E1.
        destruct d; try discriminate; (destruct (Nat.ltb (length q) cap); [|discriminate]); apply some_inj in E1; subst a'; contradiction.
      - destruct (an_out a); apply some_inj in E1; subst a'; contradiction.
    Qed.
    Lemma fnever a net x ls a' : finv a net -> aact r cap a x = Some (ls, a') -> exists net', finv a' net' /\ less a' net' a net.
    Proof.
      intros I E. destruct (fact x I E) as [F|]; auto. exfalso. destruct x as [v|i].
      - cbn [aact] in E. destruct (get v (an_nodes a)) as [d|]; [|discriminate]. destruct (node_input cap a v d) as [i|]; [|discriminate].
        destruct (drv_step r d i) as [[ls0 d']|]; [|discriminate]. apply stp_inj in E as [_ ->]. cbn [an_disp] in F.
        pose proof (fi_disp (fi_core I)) as D. unfold disp_fine in D. unfold failed in F. destruct (an_disp a) as [| | | | |[]]; contradiction.
      - cbn [aact] in E. destruct (disp_step cap a i) as [a1|] eqn:E1; [|discriminate]. apply stp_inj in E as [_ ->]. exact (fnever_disp i (fi_core I) E1 F).
    Qed.

    Hypothesis Hcap : 0 < cap.
    Hypothesis Hfew : 2 * (length (elements parties) - 1) <= cap.

    Lemma fend a net u : fcore a net -> an_disp a = DispEnd (Ok u) -> async_returns a <> None.
    Proof.
      intros I Hend. pose proof (fi_disp I) as F. unfold disp_fine in F. rewrite Hend in F.
      assert (Hpre : forall v d, In (v, d) (to_list (an_nodes a)) -> match d with DrvDone (Ok _) => True | DrvDone _ => False | _ => True end).
      { intros v d Hin. apply in_to_list in Hin. pose proof (fnodes v I Hin) as H. destruct d as [| | |[rep|e|]]; auto. }
      pose proof (@await_cases _ _ _ empty Hpre) as Hc. unfold async_returns. rewrite Hend. destruct (await_nodes _ _) as [[x|e|]|]; try discriminate; try contradiction.
      destruct Hc as (v & d & Hin & Hd). apply in_to_list in Hin. rewrite (@all_done_node _ _ _ _ _ F Hin) in Hd. discriminate.
    Qed.
    Lemma freturns_ok a net o : fcore a net -> async_returns a = Some o -> exists reports, o = Ok reports /\ every_report_right sid parties h stop sd reports.
    Proof.
      intros I Ho. assert (Hok : exists reports, o = Ok reports).
      { assert (Hpre : forall v d, In (v, d) (to_list (an_nodes a)) -> match d with DrvDone (Ok _) => True | DrvDone _ => False | _ => True end).
        { intros v d Hin. apply in_to_list in Hin. pose proof (fnodes v I Hin) as H. destruct d as [| | |[rep|e|]]; auto. }
        pose proof (@await_cases _ _ _ empty Hpre) as Hc. unfold async_returns in Ho. destruct (await_nodes _ _) as [[x|e|]|]; try contradiction; [|destruct (an_disp a) as [| | | | |[]]; discriminate].
        pose proof (fi_disp I) as F. unfold disp_fine in F. destruct (an_disp a) as [| | | | |[u|e|]]; try discriminate; try contradiction. exists x. congruence. }
      destruct Hok as [reports ->]. exists reports. split; auto. exact (freturned I Ho).
    Qed.

    Lemma nobody_waits net v d : caught net -> resting net -> get v (nodes net) = Some (Running d) -> can_finalize (d_a d) = NotYet -> False.
    Proof.
      intros (H & ph & C) [Hfl Hrest] Ev Hny.
      eapply (@waits_low P Pr f r sid parties ep h sk HR stop sd HF net H ph v C (conj Hfl Hrest)).
      - unfold waits. rewrite Ev. now rewrite Hny.
      - intros w j Hw' Hj. assert (j = k) by (destruct (Hk w Hw') as [E|[E _]]; congruence). subst j.
        destruct (@CI_both P Pr f sid parties h sk stop sd net H ph v _ C Ev) as (d' & _ & Hv & _ & _ & A & Hpv & _).
        destruct (Hk v Hv) as [Hsv|(Hsv & Hlast & He)].
        + destruct A as [[_ A]|(k' & Hk' & A & _)]; [specialize (A k Hsv); lia|]. rewrite A. assert (k' = k) by congruence. subst k'. lia.
        + destruct Hpv as [H1 H2]. destruct (ph v) as [n b]. cbn [fst snd] in *. unfold prank. cbn [fst snd b2n]. destruct b; cbn [b2n]; [|lia].
          assert (n <> k) by (intros ->; rewrite H2 in He by reflexivity; discriminate). lia.
    Qed.
    Lemma fstuck a net : finv a net -> async_stuck r cap a -> async_returns a <> None.
    Proof.
      intros I Hst. pose proof (fi_core I) as K.
      assert (Hdisp : forall i, disp_step cap a i = None). { intros i. specialize (Hst (ADisp i)). cbn [aact] in Hst. destruct (disp_step cap a i); congruence. }
      pose proof (flive K) as L.
      destruct (@disp_stuck_gen P Pr parties cap Hcap Hfew a (fi_wf K) (fi_disp K) L (fun v => Nat.le_trans _ _ _ (ffew v K) Hfew) Hdisp) as [[u Hend]|(Ed & Eo & Ea)]; [exact (fend K Hend)|exfalso].
      destruct (@stuck_quiet P Pr r parties cap Hcap a L Hst Ed Eo) as [Hgo Hw].
      pose proof (fi_flight K) as Hf. rewrite Hw in Hf. apply Permutation_nil in Hf.
      assert (Hx : forall x, dact r (dn a net) x = None).
      { intros [v|j]; cbn [dact dn_nodes dn_flight].
        - destruct (get v (an_nodes a)) as [d|] eqn:Hd; auto. now rewrite (Hgo v d Hd).
        - rewrite Hf. now destruct j. }
      destruct (@drivers_rest _ _ r caught step_ _ _ net (fi_caught K) (fi_rel I) Hx) as [Hfl Hrest].
      apply not_true_iff_false in Ea. apply Ea. apply all_done_iff. intros v d Hd.
      destruct (cr_some (fi_rel I) _ Hd) as (nd & Ev & Hc). destruct d as [s ac dest dests c|s ac vm c|s ac|oo]; [| | |reflexivity]; exfalso; pose proof (Hgo v _ Hd) as Hg; cbn [drv_step] in Hg.
      - destruct (make_message _ _ _) as [[]| |] in Hg; discriminate Hg.
      - discriminate Hg.
      - destruct Hc as (_ & x & Ex & ->). cbn [drv_state] in Ex. injection Ex as <-.
        assert (Hny : can_finalize ac = NotYet). { destruct (can_finalize ac); auto; [|discriminate]. destruct (finalize_round _ _ _) as [[]| |] in Hg; discriminate Hg. }
        apply (@nobody_waits net v _ (fi_caught K) (conj Hfl Hrest) Ev Hny).
    Qed.

    Lemma ffinite net : caught net -> forall a, finv a net -> forall c : nat -> ANet Pr, c 0 = a -> ~ forall i, exists x ls, aact r cap (c i) x = Some (ls, c (S i)).
    Proof.
      intros Hg. pose proof (@later_acc _ _ r caught acc_ net Hg) as HA. revert Hg. induction HA as [net _ IH]. intros Hg a.
      remember (running ks (dn a net)) as n eqn:En. revert a En. induction n as [n IHn] using (well_founded_induction lt_wf). intros a.
      remember (dmu a) as l eqn:El. revert a El. induction l as [l IHl] using (well_founded_induction lt_wf). intros a El En I c E Hall.
      destruct (Hall 0) as (x & ls & Hx). rewrite E in Hx. destruct (fnever x I Hx) as (net' & I' & [L|[-> [L|[Hn L]]]]).
      - apply (IH net' L (fi_caught (fi_core I')) _ I' (fun i => c (S i)) eq_refl). intros i. apply Hall.
      - apply (IHn (running ks (dn (c 1) net)) ltac:(lia) (c 1) eq_refl I' (fun i => c (S i)) eq_refl). intros i. apply Hall.
      - subst l. apply (IHl (dmu (c 1)) L (c 1) eq_refl) with (c := fun i => c (S i)); auto.
        + rewrite En. unfold running. cbn [dn_nodes]. now rewrite Hn.
    Qed.

    Lemma async_completes : exists a0, honest_anet r sid parties sk ep = Ok a0 /\
      (forall tr a, aschedule r cap a0 tr a ->
         (forall o, async_returns a = Some o -> exists reports, o = Ok reports /\ every_report_right sid parties h stop sd reports) /\
         (async_stuck r cap a -> async_returns a <> None)) /\
      (forall c : nat -> ANet Pr, c 0 = a0 -> ~ forall i, exists x ls, aact r cap (c i) x = Some (ls, c (S i))).
    Proof.
      destruct fstarted as (a0 & net0 & E & I). exists a0. split; auto. split.
      - intros tr a Hs. assert (K : exists net, finv a net).
        { induction Hs as [a|a tr a1 x ls a2 Hs IH Hx]; [eauto|]. destruct (IH E I) as [net1 I1]. destruct (fnever x I1 Hx) as (net2 & I2 & _). eauto. }
        destruct K as [net I']. split; [intros o; exact (freturns_ok (fi_core I'))|exact (fstuck I')].
      - intros c Hc. exact (ffinite (fi_caught (fi_core I)) I c Hc).
    Qed.
  End Same.
End Faults.
