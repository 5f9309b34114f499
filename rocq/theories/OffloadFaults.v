(** [run_async] with [offload_processing = true] when messages are turned down. *)
From Coq Require Import List NArith Bool Arith Lia Permutation.
From Verif Require Import Base BMap Errors RoundId Message Protocol Transcript Evidence Session Spec SpecCrypto Extend SpecExtend
  MessageFacts SessionFacts RunFacts Network SpecNet NetFacts RunSync RunSyncFacts SpecCaught SpecFaults FaultFacts CaughtFacts
  Driver SpecDriver DriverFacts DriverNetFacts CaughtDriver Par SpecPar ParFacts ParDeadFacts ParNetFacts CaughtPar
  Async SpecAsync AsyncFacts AsyncNetFacts SpecAsyncFaults AsyncFaults Offload SpecOffload OffloadFacts OffloadNetFacts.
Import ListNotations.
Set Implicit Arguments.

Section Faults.
  Context {P : Params}.
  Context {Pr : Proto}.
  Variable f : St Pr -> Verifier -> DynMsg -> res RecvErr (Payload Pr).
  Variable r : NetRng.
  Variable sid : bytes.
  Variable parties : bset Verifier.
  Variable ep : Verifier -> EntryPoint Pr.
  Variable h : Plan (with_receive Pr f).
  Variable sk : Verifier -> Signer.
  Variable cap : nat.
  Hypothesis Hsk : signers parties sk.
  Hypothesis Hwire : wire_total P.
  Hypothesis Hsig : signatures_correct P.
  Hypothesis Hpl : plain_ids Pr.
  Hypothesis HR : honest_run r sid parties (fun v => ep_with f (ep v)) h.
  Variable stop : Verifier -> option nat.
  Variable sd : Shared Pr.
  Hypothesis HF : faults sid parties h stop sd.

  Notation ks := (elements parties).
  Notation party v := (mem v parties = true).
  Notation caught := (CN sid parties h sk stop sd).
  Notation step_ := (@caught_step P Pr f r sid parties ep h sk Hsk Hwire Hsig Hpl HR stop sd HF).
  Notation id_ := (@caught_id P Pr f sid parties h sk stop sd).
  Notation never_ := (@caught_never P Pr f r sid parties ep h sk HR stop sd).
  Notation acc_ := (@caught_acc P Pr f r sid parties ep h sk Hsk Hwire Hsig Hpl HR stop sd HF).
  Notation rel_ := (cprel r ks (caught_rep sid h stop sd)).
  Notation pn a net := (mkPNet (on_nodes a) (flight net)).
  Let Hnd : NoDup ks. Proof. apply NoDup_elements. Qed.

  Record ofinv (a : ONet Pr) (net : Net Pr) : Prop := {
    of_core : fcore sid parties h sk stop sd (seen a) net;
    of_rel : rel_ (pn a net) net
  }.
  Lemma ofinv_intro a net : caught net -> rel_ (pn a net) net -> awf ks (seen a) -> Permutation (map (@strip P) (waiting ks (seen a))) (flight net) ->
    (forall o, In o (waiting ks (seen a)) -> mo_to o = msg_dest (mo_message o)) -> disp_fine (seen a) -> ofinv a net.
  Proof.
    intros H1 H2 H3 H4 H5 H6. constructor; auto. constructor; auto. intros v o Hv. rewrite seen_get in Hv.
    destruct (get v (on_nodes a)) as [p|] eqn:Hp; [|discriminate]. apply some_inj in Hv. destruct (cpr_some H2 _ Hp) as (_ & nd & Hnd' & Hc).
    destruct p as [x|o']; [discriminate Hv|]. cbn [seen_node] in Hv. injection Hv as ->. cbn [cpnode] in Hc. destruct o as [rep|e|]; try contradiction. eauto 6.
  Qed.
  Definition oless (a' : ONet Pr) (net' : Net Pr) (a : ONet Pr) (net : Net Pr) : Prop :=
    later r net' net \/ net' = net /\ (csum ks (on_nodes a') < csum ks (on_nodes a) \/ on_nodes a' = on_nodes a /\ dmu (seen a') < dmu (seen a)).

  Lemma ofnode a net x v act p ls p' : ofinv a net -> node_action cap a x = Some (v, act) -> get v (on_nodes a) = Some p -> par_step r p act = Some (ls, p') ->
    exists net', ofinv (after a v ls p') net' /\ oless (after a v ls p') net' a net.
  Proof.
    intros I Ha Hv Hs. pose proof (of_core I) as C. pose proof (after_wf _ ls p' (fi_wf C) Hv) as W.
    pose proof (@node_conserves P Pr ks (seen a) v ls (an_nodes (seen (after a v ls p'))) (fi_wf C) (@action_takes P Pr r cap a x v act p ls p' Ha Hs)) as Hp.
    change (mkANet (an_nodes (seen (after a v ls p'))) (an_out (seen a) ++ flat_map (out_of v) ls) (an_disp (seen a))
      (match get v (an_in (seen a)) with Some q => if existsb takes ls then insert v (tl q) (an_in (seen a)) else an_in (seen a) | None => an_in (seen a) end))
      with (seen (after a v ls p')) in Hp.
    destruct p as [st|o]; [|discriminate Hs].
    assert (Hend : disp_done (on_disp a) = false).
    { pose proof (fi_disp C) as F. unfold disp_fine in F. cbn [seen an_disp] in F. destruct (on_disp a) as [| | | | |[u|e|]]; auto; [|contradiction|contradiction].
      assert (K := @all_done_node P Pr _ v (seen_node (PRun st)) F). change (map_values seen_node (on_nodes a)) with (an_nodes (seen a)) in K. rewrite seen_get, Hv in K. specialize (K eq_refl). discriminate. }
    assert (F : disp_fine (seen (after a v ls p'))). { unfold disp_fine. cbn [seen after an_disp on_disp]. destruct (on_disp a); auto. discriminate. }
    destruct (cpr_some (of_rel I) _ Hv) as (_ & nd & Hnd' & [Hst _]).
    assert (Hless : forall net' fl, cmoved r ks (mkPNet (insert v p' (on_nodes a)) fl) (pn a net) net' net -> oless (after a v ls p') net' a net).
    { intros net' fl [L|[-> L]]; [now left|right]. split; auto. }
    assert (Kown : own act = true -> (forall l, In l ls -> takes l = false) -> exists net', ofinv (after a v ls p') net' /\ oless (after a v ls p') net' a net).
    { intros Ho Hl. destruct (@cown_sim P Pr r caught ks Hnd step_ id_ _ never_ v _ net st act ls p' (fi_caught C) (of_rel I) Hv Ho Hs) as (net' & Hg & R & M).
      cbn [pn_nodes pn_flight] in R, M. pose proof (cpr_flight R) as Hf. cbn [pn_flight] in Hf. destruct (@outs_sent P Pr r v st act ls p' (cg_inv Hst) Hs) as [O1 O2].
      destruct (taken_none v _ Hl) as [Ht _]. rewrite Ht in Hp. cbn [app] in Hp.
      exists net'. split; [|exact (Hless _ _ M)]. apply ofinv_intro; auto.
      - cbn [after on_nodes]. rewrite <- Hf. exact R.
      - rewrite <- Hp, map_app, O1, <- Hf. apply Permutation_app_tail, C.
      - intros o Ho'. apply (Permutation_in _ (Permutation_sym Hp)) in Ho'. apply in_app_or in Ho' as [Ho'|Ho']; [now apply (fi_to C)|now apply O2]. }
    pose proof (@par_labels P Pr r _ _ _ _ Hs) as Hl.
    destruct x as [w y|w|w|i]; cbn [node_action] in Ha.
    - destruct (by_itself y) eqn:Eb; [|discriminate]. assert (w = v /\ y = act) as [-> ->] by (split; congruence).
      apply Kown; [destruct act; try discriminate Eb; reflexivity|]. destruct act; try discriminate Eb; exact Hl.
    - rewrite Hend in Ha. destruct (Nat.ltb _ _); [|discriminate]. assert (w = v /\ act = APut true) as [-> ->] by (split; congruence). apply Kown; [reflexivity|exact Hl].
    - rewrite Hend in Ha. destruct (get w (on_in a)) as [[|[from m] q]|] eqn:Eq; try discriminate. assert (w = v /\ act = AReceive from m) as [-> ->] by (split; congruence).
      cbn beta iota in Hl. subst ls. cbn [map sent_in taken_in flat_map fst snd app] in Hp. rewrite app_nil_r in Hp.
      assert (Ho : In (mkOut from v m) (waiting ks (seen a))) by (eapply Permutation_in; [symmetry; exact Hp|now left]).
      pose proof (fi_to C _ Ho) as Ht. cbn [mo_to mo_message] in Ht.
      assert (Hin : In (from, m) (flight net)). { eapply Permutation_in; [apply (fi_flight C)|]. exact (in_map (@strip P) _ _ Ho). }
      destruct (take_nth_in _ _ Hin) as (j & rest & Hj).
      assert (Hd : nact r (pn a net) (NDeliver j) = Some (mkPNet (insert v p' (on_nodes a)) rest)).
      { cbn [nact pn_flight pn_nodes]. rewrite Hj, <- Ht, Hv, Hs. reflexivity. }
      destruct (@cnstep_sim P Pr r caught ks Hnd step_ id_ _ never_ (NDeliver j) _ _ net (fi_caught C) (of_rel I) Hd) as (net' & Hg & R & M).
      pose proof (cpr_flight R) as Hf. cbn [pn_flight] in Hf. exists net'. split; [|exact (Hless _ _ M)]. apply ofinv_intro; auto.
      + cbn [after on_nodes]. rewrite <- Hf. exact R.
      + rewrite <- Hf. apply Permutation_cons_inv with (a := (from, m)). rewrite <- (take_nth_perm _ _ Hj), <- (fi_flight C), Hp. reflexivity.
      + intros o Ho'. apply (fi_to C). eapply Permutation_in; [symmetry; exact Hp|now right].
    - discriminate.
  Qed.

  Lemma ofact a net x ls a' : ofinv a net -> oact r cap a x = Some (ls, a') ->
    (exists i, disp_step cap (seen a) i = Some (seen a') /\ failed (an_disp (seen a'))) \/ exists net', ofinv a' net' /\ oless a' net' a net.
  Proof.
    intros I E. destruct (@oact_cases P Pr r cap _ _ _ _ E) as [(i & _ & _ & Ed & En)|(v & act & p & ls0 & p' & Ha & Hv & Hs & _ & ->)].
    - destruct (@fdisp_core P Pr f sid parties h sk cap stop sd (seen a) net i (seen a') (of_core I) Ed) as [F|C]; [eauto|]. right. exists net. split.
      + constructor; auto. rewrite En. apply I.
      + right. split; auto. right. split; [exact En|exact (@disp_less P Pr cap _ i _ Ed)].
    - right. exact (@ofnode a net x v act p ls0 p' I Ha Hv Hs).
  Qed.
  Lemma ofsched a0 net0 tr a : ofinv a0 net0 -> oschedule r cap a0 tr a -> failed (on_disp a) \/ exists net, ofinv a net.
  Proof.
    intros I H. induction H as [a|a tr a1 x ls a2 H IH Hx]; [eauto|]. destruct (IH I) as [F|[net1 I1]]; [left; exact (@ofailed_stays P Pr r cap _ _ _ _ Hx F)|].
    destruct (ofact x I1 Hx) as [(i & _ & F)|(net2 & I2 & _)]; eauto.
  Qed.

  Lemma ofstarted : exists a net, honest_onet r sid parties sk ep = Ok a /\ ofinv a net.
  Proof.
    destruct (@cpnet_started P Pr f r sid parties ep h sk Hsk Hwire Hsig HR stop sd) as (pn0 & net & Ed & Hg & R).
    unfold honest_pnet, pnet_start in Ed. rewrite ostarts_same in Ed.
    destruct (map_res _ _) as [l|e|] eqn:El; try discriminate. cbn [bind] in Ed. injection Ed as <-.
    assert (Hks : map (fun p : Signer * EntryPoint Pr => signer_key (fst p)) (map (fun v => (sk v, ep v)) ks) = ks).
    { rewrite map_map. cbn [fst]. transitivity (map (fun v : Verifier => v) ks); [|apply map_id]. apply map_ext_in. intros v Hv. apply Hsk. now apply in_elements. }
    assert (Ea : exists a, honest_onet r sid parties sk ep = Ok a /\ on_nodes a = of_list (map (fun vs => (fst vs, PRun (par_enter (snd vs) []))) l)).
    { unfold honest_onet, onet_start. rewrite El. cbn [bind]. eexists. split; reflexivity. }
    destruct Ea as (a & Ea & Hn). exists a, net. split; auto. unfold honest_onet in Ea.
    assert (Hd : NoDup (map (fun p : Signer * EntryPoint Pr => signer_key (fst p)) (map (fun v => (sk v, ep v)) ks))) by (rewrite Hks; exact Hnd).
    destruct (@onet_start_ok P Pr r sid _ _ Hd Ea) as (W & H1 & H2 & H3 & _).
    rewrite Hks in W. pose proof (cpr_flight R) as Hf. cbn [pn_flight] in Hf. pose proof (@waiting_start P Pr ks (seen a) H1 H2 H3) as Hw.
    apply ofinv_intro; auto.
    - rewrite Hn, <- Hf. exact R.
    - rewrite Hw, <- Hf. reflexivity.
    - rewrite Hw. intros o [].
    - unfold disp_fine. cbn [seen an_disp]. now rewrite H2.
  Qed.

  Lemma offload_reports : exists a0, honest_onet r sid parties sk ep = Ok a0 /\
    forall tr a reports, oschedule r cap a0 tr a -> offload_returns a = Some (Ok reports) -> every_report_right sid parties h stop sd reports.
  Proof.
    destruct ofstarted as (a0 & net0 & E & I). exists a0. split; auto. intros tr a reports Hs Ho.
    destruct (ofsched I Hs) as [F|[net I']]; [|exact (@freturned P Pr f sid parties h sk stop sd _ _ _ (of_core I') Ho)].
    destruct (@returns_ok P Pr (seen a) _ Ho) as [Hd _]. cbn [seen an_disp] in Hd. rewrite Hd in F. contradiction.
  Qed.

  Section Same.
    Variable k : nat.
    Hypothesis Hk : nobody_goes_past parties h stop k.
    Hypothesis Hcap : 0 < cap.
    Hypothesis Hfew : 2 * (length (elements parties) - 1) <= cap.
    Hypothesis Hfew1 : length (elements parties) <= 101.
    Notation cap_ := (@caught_cap P Pr f r sid parties ep h sk HR Hfew1 stop sd : forall net v d, caught net -> get v (nodes net) = Some (Running d) -> _).

    Lemma ofnever a net x ls a' : ofinv a net -> oact r cap a x = Some (ls, a') -> exists net', ofinv a' net' /\ oless a' net' a net.
    Proof.
      intros I E. destruct (ofact x I E) as [(i & Ed & F)|]; auto. exfalso.
      exact (@fnever_disp P Pr f r sid parties ep h sk cap HR stop sd k Hk _ _ i _ (of_core I) Ed F).
    Qed.

    Lemma ofstuck a net : ofinv a net -> offload_stuck r cap a -> offload_returns a <> None.
    Proof.
      intros I Hst. pose proof (of_core I) as C.
      assert (Hdisp : forall i, disp_step cap (seen a) i = None). { intros i. specialize (Hst (ODisp i)). cbn [oact] in Hst. destruct (disp_step cap (seen a) i); congruence. }
      assert (Hnode : forall x v act p, node_action cap a x = Some (v, act) -> get v (on_nodes a) = Some p -> par_step r p act = None).
      { intros x v act p Ha Hv. specialize (Hst x). destruct x as [w y|w|w|i]; [| | |discriminate Ha]; unfold oact in Hst; rewrite Ha, Hv in Hst;
          (destruct (par_step r p act) as [[ls p']|]; [discriminate|reflexivity]). }
      pose proof (@flive P Pr f r sid parties ep h sk HR stop sd k Hk _ _ C) as L.
      destruct (@disp_stuck_gen P Pr parties cap Hcap Hfew (seen a) (fi_wf C) (fi_disp C) L
        (fun v => Nat.le_trans _ _ _ (@ffew P Pr f r sid parties ep h sk HR stop sd _ _ v C) Hfew) Hdisp) as [[u Hend]|(Ed & Eo & Ea)];
        [exact (@fend P Pr f sid parties h sk stop sd _ _ u C Hend)|exfalso].
      cbn [seen an_disp] in Ed. cbn [seen an_out] in Eo.
      assert (Hown : forall v p act, get v (on_nodes a) = Some p -> own act = true -> par_step r p act = None).
      { intros v p act Hv Ho. destruct (by_itself act) eqn:Eb; [apply (Hnode (OSelf v act) v act p); auto; cbn [node_action]; now rewrite Eb|].
        destruct act as [i|i| |[]| |from m| | |]; try discriminate. apply (Hnode (OSend v) v (APut true) p); auto. cbn [node_action]. rewrite Ed, Eo. cbn [disp_done length].
        assert (Nat.ltb 0 cap = true) as -> by now apply Nat.ltb_lt. reflexivity. }
      assert (Hq : forall v, In v ks -> in_msgs (seen a) v = []).
      { intros v Hv. unfold in_msgs. cbn [seen an_in]. destruct (get v (on_in a)) as [[|[u m] q]|] eqn:Eq; auto. exfalso.
        assert (Ho : In (mkOut u v m) (waiting ks (seen a))).
        { unfold waiting. cbn [seen an_out an_disp]. rewrite Eo, Ed. cbn [disp_msgs app]. apply in_flat_map. exists v. split; auto. unfold in_msgs. cbn [seen an_in]. rewrite Eq. now left. }
        destruct (L _ Ho) as (d & Hd & Hdd & _). cbn [mo_to] in Hd. rewrite seen_get in Hd.
        destruct (get v (on_nodes a)) as [p|] eqn:Hp; [|discriminate]. apply some_inj in Hd. subst d. destruct p as [st|o]; [|discriminate Hdd].
        destruct (cpr_some (of_rel I) _ Hp) as (_ & nd & Hnd' & [Hg (todo & Ht & ->)]). destruct (cap_ net _ _ (fi_caught C) Hnd') as [Hc1 Hc2]. cbn [d_s d_todo] in Hc1, Hc2.
        rewrite (Permutation_length Ht) in Hc2. destruct (cown_progress Hg Hc1 Hc2) as [(act & ls & p' & Ho' & Hs)|(K1 & K2 & K3 & _)].
        - rewrite (Hown v _ act Hp Ho') in Hs. discriminate.
        - assert (K := Hnode (ORecv v) v (AReceive u m) (PRun st)). cbn [node_action] in K. rewrite Eq in K. specialize (K eq_refl Hp). cbn [par_step] in K. rewrite K3, K1, K2 in K. discriminate. }
      pose proof (@nothing_waiting P Pr parties (seen a) Ed Eo Hq) as Hw.
      pose proof (fi_flight C) as Hf. rewrite Hw in Hf. apply Permutation_nil in Hf.
      assert (Hx : forall y, nact r (pn a net) y = None).
      { intros [v act|j]; cbn [nact pn_nodes pn_flight].
        - destruct (get v (on_nodes a)) as [p|] eqn:Hp; auto. destruct (own act) eqn:Ho; auto. now rewrite (Hown v p act Hp Ho).
        - rewrite Hf. now destruct j. }
      destruct (@par_rest _ _ r caught _ step_ _ cap_ _ net (fi_caught C) (of_rel I) Hx) as [Hrest Hny].
      apply not_true_iff_false in Ea. apply Ea. apply all_done_iff. intros v d Hd. rewrite seen_get in Hd. destruct (get v (on_nodes a)) as [p|] eqn:Hp; [|discriminate].
      apply some_inj in Hd. subst d. destruct p as [st|o]; [exfalso|reflexivity].
      destruct (cpr_some (of_rel I) _ Hp) as (_ & nd & Hnd' & [_ (todo & _ & ->)]).
      exact (@nobody_waits P Pr f r sid parties ep h sk cap HR stop sd HF k Hk Hcap Hfew net v _ (fi_caught C) Hrest Hnd' (Hny _ _ Hp)).
    Qed.

    Lemma offinite net : caught net -> forall a, ofinv a net -> forall c : nat -> ONet Pr, c 0 = a -> ~ forall i, exists x ls, oact r cap (c i) x = Some (ls, c (S i)).
    Proof.
      intros Hg. pose proof (@later_acc _ _ r caught acc_ net Hg) as HA. revert Hg. induction HA as [net _ IH]. intros Hg a.
      remember (csum ks (on_nodes a)) as n eqn:En. revert a En. induction n as [n IHn] using (well_founded_induction lt_wf). intros a.
      remember (dmu (seen a)) as l eqn:El. revert a El. induction l as [l IHl] using (well_founded_induction lt_wf). intros a El En I c E Hall.
      destruct (Hall 0) as (x & ls & Hx). rewrite E in Hx. destruct (ofnever x I Hx) as (net' & I' & [L|[-> [L|[Hn L]]]]).
      - apply (IH net' L (fi_caught (of_core I')) _ I' (fun i => c (S i)) eq_refl). intros i. apply Hall.
      - apply (IHn (csum ks (on_nodes (c 1))) ltac:(lia) (c 1) eq_refl I' (fun i => c (S i)) eq_refl). intros i. apply Hall.
      - subst l. apply (IHl (dmu (seen (c 1))) L (c 1) eq_refl) with (c := fun i => c (S i)); auto. now rewrite Hn.
    Qed.

    Lemma offload_completes : exists a0, honest_onet r sid parties sk ep = Ok a0 /\
      (forall tr a, oschedule r cap a0 tr a ->
         (forall o, offload_returns a = Some o -> exists reports, o = Ok reports /\ every_report_right sid parties h stop sd reports) /\
         (offload_stuck r cap a -> offload_returns a <> None)) /\
      (forall c : nat -> ONet Pr, c 0 = a0 -> ~ forall i, exists x ls, oact r cap (c i) x = Some (ls, c (S i))).
    Proof.
      destruct ofstarted as (a0 & net0 & E & I). exists a0. split; auto. split.
      - intros tr a Hs. assert (K : exists net, ofinv a net).
        { induction Hs as [a|a tr a1 x ls a2 Hs IH Hx]; [eauto|]. destruct (IH E I) as [net1 I1]. destruct (ofnever x I1 Hx) as (net2 & I2 & _). eauto. }
        destruct K as [net I']. split; [|exact (ofstuck I')].
        intros o. exact (@freturns_ok P Pr f sid parties h sk stop sd _ _ o (of_core I')).
      - intros c Hc. exact (offinite (fi_caught (of_core I)) I c Hc).
    Qed.
  End Same.
End Faults.
