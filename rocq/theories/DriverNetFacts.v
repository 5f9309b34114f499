(** Networks in which every node is driven by [run_session]: their executions are schedules of Network.v. *)
From Coq Require Import List NArith Bool Arith Lia Permutation.
From Verif Require Import Base BMap Errors RoundId Message Protocol Transcript Evidence Session Spec SpecCrypto
  MessageFacts SessionFacts RunFacts Network SpecNet NetFacts RunSync RunSyncFacts Driver SpecDriver DriverFacts.
Import ListNotations.
Set Implicit Arguments.

Section Sim.
  Context {P : Params}.
  Context {Pr : Proto}.
  Variable r : NetRng.

  Variable G : Net Pr -> Prop.
  Hypothesis Gstep : forall net x o, G net -> act r net x = Some o -> exists net', o = Ok net' /\ G net'.
  Hypothesis Gid : forall net v d, G net -> get v (nodes net) = Some (Running d) -> s_verifier (d_s d) = v.
  Hypothesis Gnever : forall net v d, G net -> get v (nodes net) = Some (Running d) -> can_finalize (d_a d) <> Never.
  Hypothesis Gacc : forall net, G net -> Acc (follows r) net.

  (** The node of Network.v with a driver in this state. *)
  Definition dnode (d : Drv Pr) (nd : Node Pr) : Prop :=
    match d with
    | DrvDone (Ok rep) => nd = Ended rep
    | DrvDone _ => False
    | _ => dinv d /\ exists x, drv_state d = Some x /\ nd = Running x
    end.
  Record drel (dn : DNet Pr) (net : Net Pr) : Prop := {
    dr_flight : dn_flight dn = flight net;
    dr_none : forall v, get v (dn_nodes dn) = None -> get v (nodes net) = None;
    dr_some : forall v d, get v (dn_nodes dn) = Some d -> exists nd, get v (nodes net) = Some nd /\ dnode d nd
  }.

  Lemma drel_upd dn net v d nd fl nds : drel dn net -> dnode d nd -> get v nds = Some nd ->
    (forall w, w <> v -> get w nds = get w (nodes net)) -> drel (mkDNet (insert v d (dn_nodes dn)) fl) (mkNet nds fl).
  Proof.
    intros [_ H1 H2] Hd Hv Ho. constructor; cbn [dn_flight flight dn_nodes nodes]; auto.
    - intros w. rewrite get_insert. destruct (eqb_spec w v) as [->|Hn]; [discriminate|]. rewrite (Ho w Hn). apply H1.
    - intros w d'. rewrite get_insert. destruct (eqb_spec w v) as [->|Hn]; [intros E; inv E; eauto|]. rewrite (Ho w Hn). apply H2.
  Qed.
  Lemma dnode_run d x : dinv d -> drv_state d = Some x -> dnode d (Running x).
  Proof. intros I Hx. destruct d as [s a dest dests c|s a vm c|s a|o]; try (split; eauto); discriminate. Qed.
  Lemma dnode_state d x nd : drv_state d = Some x -> dnode d nd -> dinv d /\ nd = Running x.
  Proof. destruct d as [s a dest dests c|s a vm c|s a|o]; try discriminate; intros E (I & y & Ey & ->); rewrite Ey in E; inv E; auto. Qed.

  Lemma go_sim v dn net d ls d' : G net -> drel dn net -> get v (dn_nodes dn) = Some d -> drv_step r d IGo = Some (ls, d') ->
    exists net', later r net' net /\ G net' /\ drel (mkDNet (insert v d' (dn_nodes dn)) (dn_flight dn ++ outs v ls)) net'.
  Proof.
    intros Hg R Hv Hs. destruct (dr_some R v Hv) as (nd & Hnd & Hd).
    assert (Hone : forall x net1, act r net x = Some (Ok net1) -> later r net1 net) by (intros x net1 Hx; exists x, []; econstructor; [exact Hx|constructor]).
    destruct (drv_state d) as [x|] eqn:Ex; [|destruct d; discriminate]. destruct (dnode_state _ _ Ex Hd) as [I ->].
    destruct (@step_state _ _ r _ IGo _ _ I Hs) as [I' _]. pose proof (Gid _ Hg Hnd) as Hid.
    destruct d as [s a dest dests c|s a vm c|s a|o]; inversion Ex; subst x; clear Ex; cbn [drv_step] in Hs; cbn [d_s] in Hid.
    - destruct I as (_ & Hl & _). destruct (Hl dest (or_introl eq_refl)) as [Hm Ha].
      assert (Hact : exists o, act r net (ASend v dest) = Some o) by (cbn [act]; rewrite Hnd; cbn [d_s d_a]; rewrite Hm, Ha; cbn; eauto).
      destruct Hact as [o Hact]. destruct (Gstep _ Hg Hact) as (net1 & -> & Hg1). pose proof (Hone _ _ Hact) as L.
      cbn [act] in Hact. rewrite Hnd in Hact. cbn [d_s d_a d_todo] in Hact. rewrite Hm, Ha in Hact. cbn [negb andb] in Hact. apply some_inj in Hact.
      rewrite Hid in Hs. destruct (make_message s (nr_msg r v (s_round_id s) dest) dest) as [[m pa]|e|]; try discriminate. cbn [bind] in Hact.
      unfold with_accum in Hact. destruct (add_artifact a pa) as [a1 [[]|e|]]; try discriminate. cbn [bind] in Hact. injection Hact as <-.
      stp Hs. cbn [acc_call bind drv_try fst] in *. eexists. split; [exact L|]. split; [exact Hg1|].
      rewrite (dr_flight R). cbn [outs flat_map app]. eapply drel_upd; [exact R| |apply get_insert_eq|intros w Hw; now apply get_insert_ne].
      apply dnode_run; auto. apply state_send.
    - assert (Hact : exists o, act r net (AProcess v 0) = Some o) by (cbn [act]; rewrite Hnd; cbn; eauto).
      destruct Hact as [o Hact]. destruct (Gstep _ Hg Hact) as (net1 & -> & Hg1). pose proof (Hone _ _ Hact) as L.
      cbn [act] in Hact. rewrite Hnd in Hact. cbn [d_s d_a d_todo take_nth] in Hact. apply some_inj in Hact. unfold with_accum in Hact.
      unfold deliver_one in Hs. destruct (add_processed s a (process_message s vm)) as [a1 [[]|e|]]; try discriminate. cbn [bind] in Hact. injection Hact as <-.
      stp Hs. cbn [acc_call bind drv_try fst] in *. eexists. split; [exact L|]. split; [exact Hg1|].
      cbn [outs flat_map app]. rewrite app_nil_r, (dr_flight R). unfold set_node. eapply drel_upd; [exact R| |apply get_insert_eq|intros w Hw; now apply get_insert_ne].
      apply dnode_run; auto. apply state_apply.
    - destruct (can_finalize a) eqn:Ec; try discriminate; [|destruct (Gnever _ Hg Hnd); exact Ec]. cbn [dinv] in I.
      assert (Hact : exists o, act r net (AFinalize v) = Some o) by (cbn [act]; rewrite Hnd; cbn [d_a]; rewrite Ec, I; eauto).
      destruct Hact as [o Hact]. destruct (Gstep _ Hg Hact) as (net1 & -> & Hg1). pose proof (Hone _ _ Hact) as L.
      cbn [act] in Hact. rewrite Hnd in Hact. cbn [d_s d_a d_todo] in Hact. rewrite Ec, I in Hact. apply some_inj in Hact. rewrite Hid in Hs.
      destruct (finalize_round s (nr_fin r v (s_round_id s)) a) as [ro|e|]; try discriminate. cbn [bind] in Hact. injection Hact as <-.
      exists (set_node net v (match ro with ROFinished rep => Ended rep | ROAnother s' c => Running (DS s' (make_accumulator s') c) end)).
      split; [exact L|]. split; [exact Hg1|]. unfold set_node. rewrite (dr_flight R).
      destruct ro as [rep|s' c]; stp Hs; cbn [outs flat_map app]; rewrite app_nil_r; (eapply drel_upd; [exact R| |apply get_insert_eq|intros w Hw; now apply get_insert_ne]).
      + reflexivity.
      + apply dnode_run; auto. apply state_send.
  Qed.

  Lemma dstep_sim x dn dn' net : G net -> drel dn net -> dact r dn x = Some dn' ->
    exists net', later r net' net /\ G net' /\ drel dn' net'.
  Proof.
    intros Hg R. destruct x as [v|i]; cbn [dact].
    - destruct (get v (dn_nodes dn)) as [d|] eqn:Hv; try discriminate. destruct (drv_step r d IGo) as [[ls d']|] eqn:Hs; try discriminate.
      intros E. apply some_inj in E. subst dn'. exact (@go_sim v dn net d ls d' Hg R Hv Hs).
    - destruct (take_nth i (dn_flight dn)) as [[[from m] rest]|] eqn:Et; try discriminate.
      destruct (get (msg_dest m) (dn_nodes dn)) as [d|] eqn:Hv; try discriminate. destruct (dr_some R _ Hv) as (nd & Hnd & Hd).
      assert (Hact : exists o, act r net (ADeliver i) = Some o).
      { cbn [act]. rewrite <- (dr_flight R), Et, Hnd. destruct nd; eauto. }
      destruct Hact as [o Hact]. destruct (Gstep _ Hg Hact) as (net1 & -> & Hg1). pose proof Hact as Hact0.
      cbn [act] in Hact. rewrite <- (dr_flight R), Et, Hnd in Hact.
      destruct d as [s a dest dests c|s a vm c|s a|o]; cbn [drv_step]; try discriminate.
      + destruct Hd as (I & x & Ex & ->). inversion Ex; subst x; clear Ex. cbn [d_s d_a d_todo] in Hact. apply some_inj in Hact. unfold with_accum in Hact.
        destruct (can_finalize a) eqn:Ec; try discriminate.
        destruct (preprocess_message s a from m) as [a1 [o|e|]] eqn:Epm; try discriminate. cbn [bind] in Hact. injection Hact as <-.
        pose proof (preprocessed_arts _ _ _ _ Epm) as Ha1.
        assert (I1 : all_sent (DS s a1 []) = true). { apply all_sent_iff. rewrite Ha1. apply (all_sent_iff s a []). exact I. }
        cbn [acc_call bind drv_try fst snd]. intros E. apply some_inj in E. subst dn'.
        destruct o as [vm| |].
        * assert (Hact1 : exists o, act r (mkNet (insert (msg_dest m) (Running (DS s a1 [vm])) (nodes net)) rest) (AProcess (msg_dest m) 0) = Some o).
          { cbn [act nodes]. rewrite get_insert_eq. cbn. eauto. }
          destruct Hact1 as [o Hact1]. destruct (Gstep _ Hg1 Hact1) as (net2 & -> & Hg2). pose proof Hact1 as Hact2.
          cbn [act nodes] in Hact1. rewrite get_insert_eq in Hact1. cbn [d_s d_a d_todo take_nth] in Hact1. apply some_inj in Hact1.
          unfold with_accum, set_node in Hact1. unfold deliver_one. destruct (add_processed s a1 (process_message s vm)) as [a2 [[]|e|]] eqn:Ea; try discriminate.
          cbn [bind nodes flight] in Hact1. injection Hact1 as <-. cbn [acc_call bind drv_try fst].
          eexists. split; [exists (ADeliver i), [AProcess (msg_dest m) 0]; econstructor; [exact Hact0|]; econstructor; [exact Hact2|constructor]|].
          split; [exact Hg2|]. eapply drel_upd; [exact R| |apply get_insert_eq|].
          -- apply dnode_run; [|reflexivity]. cbn [dinv]. apply all_sent_iff. rewrite (processed_arts _ _ _ Ea). now apply (all_sent_iff s a1 []).
          -- intros w Hw. rewrite (get_insert_ne _ _ Hw). now apply get_insert_ne.
        * eexists. split; [exists (ADeliver i), []; econstructor; [exact Hact0|constructor]|]. split; [exact Hg1|].
          eapply drel_upd; [exact R| |apply get_insert_eq|intros w Hw; now apply get_insert_ne]. now apply dnode_run.
        * eexists. split; [exists (ADeliver i), []; econstructor; [exact Hact0|constructor]|]. split; [exact Hg1|].
          eapply drel_upd; [exact R| |apply get_insert_eq|intros w Hw; now apply get_insert_ne]. now apply dnode_run.
      + intros E. apply some_inj in E. subst dn'. cbn [dnode] in Hd. destruct o as [rep|e|]; try contradiction. subst nd. apply some_inj in Hact. injection Hact as <-.
        eexists. split; [exists (ADeliver i), []; econstructor; [exact Hact0|constructor]|]. split; [exact Hg1|].
        constructor; cbn [dn_flight flight dn_nodes nodes]; auto; apply R.
  Qed.

  (** If something can happen in the network, then a driver can go on. *)
  Lemma dstep_back dn net x o : G net -> drel dn net -> act r net x = Some o -> exists y dn', dact r dn y = Some dn'.
  Proof.
    intros Hg R Hx. destruct (Gstep _ Hg Hx) as (net' & -> & _).
    assert (Kgo : forall v d, get v (dn_nodes dn) = Some d -> (exists ls d', drv_step r d IGo = Some (ls, d')) -> exists y dn', dact r dn y = Some dn').
    { intros v d Hv (ls & d' & Hs). exists (DGo v). cbn [dact]. rewrite Hv, Hs. eauto. }
    assert (Ksend : forall (s : Session Pr) a dest dests c, exists ls d', drv_step r (DrvSend s a dest dests c) IGo = Some (ls, d')).
    { intros. cbn [drv_step]. destruct (make_message _ _ _) as [[m pa]|e|]; eauto. }
    assert (Kapply : forall (s : Session Pr) a vm c, exists ls d', drv_step r (DrvApply s a vm c) IGo = Some (ls, d')) by (intros; cbn [drv_step]; eauto).
    assert (Knode : forall v x, get v (nodes net) = Some (Running x) -> exists d, get v (dn_nodes dn) = Some d /\ dinv d /\ drv_state d = Some x).
    { clear x Hx. intros v x Hv. destruct (get v (dn_nodes dn)) as [d|] eqn:Hd; [|rewrite (dr_none R v Hd) in Hv; discriminate].
      exists d. split; auto. destruct (dr_some R v Hd) as (nd & Hnd & Hdn). rewrite Hv in Hnd. inv Hnd.
      destruct (drv_state d) as [y|] eqn:Ey.
      - destruct (dnode_state _ _ Ey Hdn) as [I E]. inv E. auto.
      - destruct d as [| | |[rep|e|]]; try discriminate Ey; simpl in Hdn; [discriminate Hdn|contradiction|contradiction]. }
    destruct x as [v u|i|v i|v]; cbn [act] in Hx.
    - destruct (get v (nodes net)) as [[x|rep]|] eqn:Ev; try discriminate. destruct (Knode v x Ev) as (d & Hd & I & Hst). apply (Kgo v d Hd).
      destruct (mem u (message_destinations (d_s x))) eqn:Hu; [|discriminate]. destruct (contains u (a_artifacts (d_a x))) eqn:Ha; [discriminate|].
      destruct d as [s a dest dests c|s a vm c|s a|o]; auto; [|discriminate]. inv Hst. cbn [dinv] in I. pose proof (proj1 (all_sent_iff _ _ _) I u Hu). simpl in *. congruence.
    - destruct (take_nth i (flight net)) as [[[from m] rest]|] eqn:Et; try discriminate.
      destruct (get (msg_dest m) (dn_nodes dn)) as [d|] eqn:Hd; [|rewrite (dr_none R _ Hd) in Hx; discriminate].
      destruct d as [s a dest dests c|s a vm c|s a|o].
      + apply (Kgo _ _ Hd). auto.
      + apply (Kgo _ _ Hd). auto.
      + destruct (can_finalize a) eqn:Ec.
        * apply (Kgo _ _ Hd). cbn [drv_step]. rewrite Ec. destruct (finalize_round _ _ _) as [[rep|s' c]|e|]; eauto.
        * exists (DDeliver i). cbn [dact]. rewrite (dr_flight R), Et, Hd. cbn [drv_step]. rewrite Ec. eauto.
        * apply (Kgo _ _ Hd). cbn [drv_step]. rewrite Ec. eauto.
      + exists (DDeliver i). cbn [dact]. rewrite (dr_flight R), Et, Hd. eauto.
    - destruct (get v (nodes net)) as [[x|rep]|] eqn:Ev; try discriminate. destruct (Knode v x Ev) as (d & Hd & I & Hst). apply (Kgo v d Hd).
      destruct d as [s a dest dests c|s a vm c|s a|o]; auto; [|discriminate]. inv Hst. cbn [d_todo] in Hx. destruct i; discriminate.
    - destruct (get v (nodes net)) as [[x|rep]|] eqn:Ev; try discriminate. destruct (Knode v x Ev) as (d & Hd & I & Hst). apply (Kgo v d Hd).
      destruct d as [s a dest dests c|s a vm c|s a|o]; auto; [|discriminate]. inv Hst. cbn [d_a] in Hx. cbn [drv_step].
      destruct (can_finalize a) eqn:Ec; try discriminate. clear Hx. destruct (finalize_round _ _ _) as [[rep|s' c]|e|]; eauto.
  Qed.

  Lemma dsched_sim dn xs dn' net : G net -> drel dn net -> dschedule r dn xs dn' -> exists net', G net' /\ drel dn' net'.
  Proof.
    intros Hg R H. induction H as [|dn xs dn1 x dn2 H IH Hx]; [eauto|]. destruct (IH R) as (net1 & Hg1 & R1).
    destruct (dstep_sim x Hg1 R1 Hx) as (net2 & _ & Hg2 & R2). eauto.
  Qed.
  Lemma dnet_finite net : G net -> forall dn, drel dn net -> forall f : nat -> DNet Pr, f 0 = dn -> ~ forall i, exists x, dact r (f i) x = Some (f (S i)).
  Proof.
    intros Hg. pose proof (@later_acc _ _ r G Gacc net Hg) as HA. revert Hg. induction HA as [net _ IH]. intros Hg dn R f E Hall.
    destruct (Hall 0) as [x Hx]. rewrite E in Hx. destruct (dstep_sim x Hg R Hx) as (net' & L & Hg' & R').
    apply (IH net' L Hg' _ R' (fun i => f (S i)) eq_refl). intros i. apply Hall.
  Qed.
End Sim.

Section Honest.
  Context {P : Params}.
  Context {Pr : Proto}.
  Variable r : NetRng.
  Variable sid : bytes.
  Variable parties : bset Verifier.
  Variable ep : Verifier -> EntryPoint Pr.
  Variable h : Plan Pr.
  Variable sk : Verifier -> Signer.
  Hypothesis Hsk : signers parties sk.
  Hypothesis Hwire : wire_total P.
  Hypothesis Hsig : signatures_correct P.
  Hypothesis HR : honest_run r sid parties ep h.

  Notation good := (good_net sid parties h sk).

  Lemma dstarts : forall ps l', map_res (fun p : Signer * EntryPoint Pr =>
      let* s := session_new (nr_new r (signer_key (fst p))) sid (fst p) (snd p) in Ok (signer_key (fst p), Running (start s))) ps = Ok l' ->
    exists l, map_res (fun p : Signer * EntryPoint Pr =>
      let* s := session_new (nr_new r (signer_key (fst p))) sid (fst p) (snd p) in Ok (signer_key (fst p), drv_enter s [])) ps = Ok l /\
    map fst l = map fst l' /\ forall v d, In (v, d) l -> exists nd, In (v, nd) l' /\ dnode d nd.
  Proof.
    induction ps as [|[k e] ps IH]; intros l' E; [inv E; exists []; repeat split; auto; contradiction|].
    cbn [map_res fst snd] in *. destruct (session_new _ _ _ _) as [s|er|]; try discriminate. cbn [bind] in *.
    destruct (map_res _ _) as [l1|er|]; try discriminate. cbn [bind] in E. inv E. destruct (IH _ eq_refl) as (l & -> & H1 & H2). cbn [bind].
    eexists. split; [reflexivity|]. split; [simpl; now rewrite H1|]. intros v d [E|Hin].
    - apply (f_equal snd) in E as E2. apply (f_equal fst) in E. cbn [fst snd] in *. subst v d. exists (Running (start s)). split; [now left|].
      apply dnode_run; [apply dinv_enter|apply state_send].
    - destruct (H2 v d Hin) as (nd & Hn & Hd). exists nd. split; auto. now right.
  Qed.

  Lemma dnet_started : exists dn net, honest_dnet r sid parties sk ep = Ok dn /\ good net /\ drel dn net.
  Proof.
    destruct (start_ok sk Hsk Hwire Hsig HR) as (net0 & E0 & I0). pose proof E0 as E1. unfold net_start in E1.
    destruct (map_res _ _) as [l'|e|] eqn:El; try discriminate. cbn [bind] in E1. injection E1 as <-.
    destruct (@net_start_nodes _ _ r sid parties ep sk Hsk (elements parties)) with (l' := l') as [Hk _]; [intros v; apply in_elements|exact El|].
    destruct (dstarts _ El) as (l & Ed & H1 & H2). unfold honest_dnet, dnet_start. rewrite Ed. cbn [bind].
    exists (mkDNet (of_list l) []), (mkNet (of_list l') []). split; auto. split; [eexists; exact I0|].
    assert (Hnd : NoDup (map fst l)) by (rewrite H1, Hk; apply NoDup_elements).
    constructor; cbn [dn_flight flight dn_nodes nodes]; auto.
    - intros v Hv. apply get_of_list_none. rewrite <- H1. intros Hin. apply in_map_iff in Hin as ([w d] & Ew & Hin). simpl in Ew. subst w.
      rewrite (proj2 (get_of_list_nodup _ _ _ Hnd) Hin) in Hv. discriminate.
    - intros v d Hv. assert (Hin : In (v, d) l) by now apply get_of_list_nodup.
      destruct (H2 v d Hin) as (nd & Hn & Hd). exists nd. split; auto. apply get_of_list_nodup; auto. now rewrite <- H1.
  Qed.

  Lemma honest_drivers : exists dn0, honest_dnet r sid parties sk ep = Ok dn0 /\
    (forall xs dn, dschedule r dn0 xs dn ->
       (forall v d, get v (dn_nodes dn) = Some d -> match d with DrvDone o => exists rep, o = Ok rep /\ rep_outcome rep = OResult (pl_result h v) | _ => True end) /\
       ((forall x, dact r dn x = None) -> all_returned parties h dn /\ dn_flight dn = [])) /\
    (forall f : nat -> DNet Pr, f 0 = dn0 -> ~ forall i, exists x, dact r (f i) x = Some (f (S i))).
  Proof.
    destruct dnet_started as (dn0 & net0 & E & Hg & R). exists dn0. split; auto.
    assert (Gs : forall net x o, good net -> act r net x = Some o -> exists net', o = Ok net' /\ good net') by (intros net x o; exact (good_step Hsk Hwire Hsig HR x (o := o))).
    assert (Gi : forall net v d, good net -> get v (nodes net) = Some (Running d) -> s_verifier (d_s d) = v) by (intros net v d; apply good_node; auto).
    assert (Gn : forall net v d, good net -> get v (nodes net) = Some (Running d) -> can_finalize (d_a d) <> Never) by (intros net v d; apply good_never; auto).
    assert (Ga : forall net, good net -> Acc (follows r) net) by (intros net; exact (good_acc_net Hsk Hwire Hsig HR (net := net))).
    split.
    - intros xs dn Hs. destruct (@dsched_sim _ _ r good Gs Gi Gn dn0 xs dn net0 Hg R Hs) as (net & Hg' & R'). split.
      + intros v d Hd. destruct d as [| | |o]; auto. destruct (dr_some R' v Hd) as (nd & Hnd & Hn). cbn [dnode] in Hn.
        destruct o as [rep|e|]; try contradiction. subst nd. exists rep. split; auto. destruct Hg' as [ph I].
        destruct (mem v parties) eqn:Hv; [|rewrite (ni_none I v Hv) in Hnd; discriminate]. pose proof (ni_node I v Hv) as Hn. rewrite Hnd in Hn. apply Hn.
      + intros Hstop. destruct Hg' as [ph I]. destruct (progress Hsk Hwire Hsig HR I) as [[Hend Hfl]|(x & net2 & Hx)].
        * split; [|now rewrite (dr_flight R')]. intros v Hv. destruct (Hend v Hv) as (rep & Hrep & Ho & Hno). exists rep. split; auto.
          destruct (get v (dn_nodes dn)) as [d|] eqn:Hd; [|rewrite (dr_none R' v Hd) in Hrep; discriminate].
          destruct (dr_some R' v Hd) as (nd & Hnd & Hdn). rewrite Hrep in Hnd. inv Hnd.
          destruct d as [s a dest dests c|s a vm c|s a|[rep'|e|]]; simpl in Hdn; try contradiction; try (destruct Hdn as (_ & y & _ & Ey); discriminate Ey).
          now inv Hdn.
        * destruct (@dstep_back _ _ r good Gs dn net x _ (ex_intro _ ph I) R' Hx) as (y & dn' & Hy). rewrite Hstop in Hy. discriminate.
    - exact (@dnet_finite _ _ r good Gs Gi Gn Ga net0 Hg dn0 R).
  Qed.
End Honest.
