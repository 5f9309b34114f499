(** Networks in which every node is driven by [run_session] and messages are turned down: their executions
    are schedules of Network.v, in which nodes that have given up are left alone. *)
From Coq Require Import List NArith Bool Arith Lia Permutation.
From Verif Require Import Base BMap Errors RoundId Message Protocol Transcript Evidence Session Spec SpecCrypto Extend SpecExtend
  MessageFacts SessionFacts RunFacts Network SpecNet NetFacts RunSync RunSyncFacts SpecCaught SpecFaults FaultFacts CaughtFacts Driver SpecDriver DriverFacts DriverNetFacts.
Import ListNotations.
Set Implicit Arguments.

Section Sim.
  Context {P : Params}.
  Context {Pr : Proto}.
  Variable r : NetRng.

  Variable G : Net Pr -> Prop.
  Hypothesis Gstep : forall net x o, G net -> act r net x = Some o -> exists net', o = Ok net' /\ G net'.
  Hypothesis Gid : forall net v d, G net -> get v (nodes net) = Some (Running d) -> s_verifier (d_s d) = v.
  Variable Rep : Verifier -> Report (Rslt Pr) -> Prop.
  Hypothesis Gnever : forall net v d, G net -> get v (nodes net) = Some (Running d) -> can_finalize (d_a d) = Never ->
    exists rep, terminate_due_to_errors (d_s d) (d_a d) = Ok rep /\ Rep v rep.
  Hypothesis Gacc : forall net, G net -> Acc (follows r) net.

  Definition gave_up (v : Verifier) (rep : Report (Rslt Pr)) (nd : Node Pr) : Prop :=
    exists x, nd = Running x /\ all_sent x = true /\ can_finalize (d_a x) = Never /\ Rep v rep.
  Definition cnode (v : Verifier) (d : Drv Pr) (nd : Node Pr) : Prop :=
    match d with
    | DrvDone (Ok rep) => nd = Ended rep \/ gave_up v rep nd
    | DrvDone _ => False
    | _ => dinv d /\ exists x, drv_state d = Some x /\ nd = Running x
    end.
  Record crel (dn : DNet Pr) (net : Net Pr) : Prop := {
    cr_flight : dn_flight dn = flight net;
    cr_none : forall v, get v (dn_nodes dn) = None -> get v (nodes net) = None;
    cr_some : forall v d, get v (dn_nodes dn) = Some d -> exists nd, get v (nodes net) = Some nd /\ cnode v d nd
  }.
  Lemma cnode_dnode v d nd : dnode d nd -> cnode v d nd.
  Proof. destruct d as [| | |[]]; simpl; auto. Qed.
  Lemma crel_upd dn net v d nd fl nds : crel dn net -> cnode v d nd -> get v nds = Some nd ->
    (forall w, w <> v -> get w nds = get w (nodes net)) -> crel (mkDNet (insert v d (dn_nodes dn)) fl) (mkNet nds fl).
  Proof.
    intros [_ H1 H2] Hd Hv Ho. constructor; cbn [dn_flight flight dn_nodes nodes]; auto.
    - intros w. rewrite get_insert. destruct (eqb_spec w v) as [->|Hn]; [discriminate|]. rewrite (Ho w Hn). apply H1.
    - intros w d'. rewrite get_insert. destruct (eqb_spec w v) as [->|Hn]; [intros E; inv E; eauto|]. rewrite (Ho w Hn). apply H2.
  Qed.
  Lemma cnode_run v d x : dinv d -> drv_state d = Some x -> cnode v d (Running x).
  Proof. intros I Hx. destruct d as [s a dest dests c|s a vm c|s a|o]; try (split; eauto); discriminate. Qed.
  Lemma cnode_state v d x nd : drv_state d = Some x -> cnode v d nd -> dinv d /\ nd = Running x.
  Proof. destruct d as [s a dest dests c|s a vm c|s a|o]; try discriminate; intros E (I & y & Ey & ->); rewrite Ey in E; inv E; auto. Qed.

  (** How many drivers are running. *)
  Definition busy (m : bmap Verifier (Drv Pr)) (v : Verifier) : bool := match get v m with Some (DrvDone _) => false | _ => true end.
  Definition running (ks : list Verifier) (dn : DNet Pr) : nat := List.length (filter (busy (dn_nodes dn)) ks).
  Lemma filter_less (f g : Verifier -> bool) ks v : In v ks -> f v = true -> g v = false -> (forall w, w <> v -> g w = f w) ->
    List.length (filter g ks) < List.length (filter f ks).
  Proof.
    intros Hin Hf Hg Ho. assert (Hle : forall l, List.length (filter g l) <= List.length (filter f l)).
    { induction l as [|w l IH]; cbn; auto. destruct (eqb_spec w v) as [->|Hn]; [rewrite Hf, Hg; cbn; lia|]. rewrite (Ho w Hn). destruct (f w); cbn; lia. }
    induction ks as [|w ks IH]; [contradiction|]. cbn. destruct Hin as [->|Hin].
    - rewrite Hf, Hg. cbn. specialize (Hle ks). lia.
    - specialize (IH Hin). destruct (eqb_spec w v) as [->|Hn]; [rewrite Hf, Hg; cbn; lia|]. rewrite (Ho w Hn). destruct (f w); cbn; lia.
  Qed.
  (** The network goes on, or a driver gives up. *)
  Definition onward (ks : list Verifier) (dn : DNet Pr) (net : Net Pr) (dn' : DNet Pr) (net' : Net Pr) : Prop :=
    later r net' net \/ (net' = net /\ running ks dn' < running ks dn).

  Lemma cgo_sim v dn net d ls d' : G net -> crel dn net -> get v (dn_nodes dn) = Some d -> drv_step r d IGo = Some (ls, d') ->
    forall ks, In v ks ->
    exists net', onward ks dn net (mkDNet (insert v d' (dn_nodes dn)) (dn_flight dn ++ outs v ls)) net' /\ G net' /\
      crel (mkDNet (insert v d' (dn_nodes dn)) (dn_flight dn ++ outs v ls)) net'.
  Proof.
    intros Hg R Hv Hs ks Hks. destruct (cr_some R v Hv) as (nd & Hnd & Hd).
    assert (Hone : forall x net1, act r net x = Some (Ok net1) -> later r net1 net) by (intros x net1 Hx; exists x, []; econstructor; [exact Hx|constructor]).
    destruct (drv_state d) as [x|] eqn:Ex; [|destruct d; discriminate]. destruct (@cnode_state v d x nd Ex Hd) as [I ->].
    destruct (@step_state _ _ r _ IGo _ _ I Hs) as [I' _]. pose proof (Gid _ Hg Hnd) as Hid.
    destruct d as [s a dest dests c|s a vm c|s a|o]; inversion Ex; subst x; clear Ex; cbn [drv_step] in Hs; cbn [d_s] in Hid.
    - destruct I as (_ & Hl & _). destruct (Hl dest (or_introl eq_refl)) as [Hm Ha].
      assert (Hact : exists o, act r net (ASend v dest) = Some o) by (cbn [act]; rewrite Hnd; cbn [d_s d_a]; rewrite Hm, Ha; cbn; eauto).
      destruct Hact as [o Hact]. destruct (Gstep _ Hg Hact) as (net1 & -> & Hg1). pose proof (Hone _ _ Hact) as L.
      cbn [act] in Hact. rewrite Hnd in Hact. cbn [d_s d_a d_todo] in Hact. rewrite Hm, Ha in Hact. cbn [negb andb] in Hact. apply some_inj in Hact.
      rewrite Hid in Hs. destruct (make_message s (nr_msg r v (s_round_id s) dest) dest) as [[m pa]|e|]; try discriminate. cbn [bind] in Hact.
      unfold with_accum in Hact. destruct (add_artifact a pa) as [a1 [[]|e|]]; try discriminate. cbn [bind] in Hact. injection Hact as <-.
      stp Hs. cbn [acc_call bind drv_try fst] in *. eexists. split; [left; exact L|]. split; [exact Hg1|].
      rewrite (cr_flight R). cbn [outs flat_map app]. eapply crel_upd; [exact R| |apply get_insert_eq|intros w Hw; now apply get_insert_ne].
      apply cnode_run; auto. apply state_send.
    - assert (Hact : exists o, act r net (AProcess v 0) = Some o) by (cbn [act]; rewrite Hnd; cbn; eauto).
      destruct Hact as [o Hact]. destruct (Gstep _ Hg Hact) as (net1 & -> & Hg1). pose proof (Hone _ _ Hact) as L.
      cbn [act] in Hact. rewrite Hnd in Hact. cbn [d_s d_a d_todo take_nth] in Hact. apply some_inj in Hact. unfold with_accum in Hact.
      unfold deliver_one in Hs. destruct (add_processed s a (process_message s vm)) as [a1 [[]|e|]]; try discriminate. cbn [bind] in Hact. injection Hact as <-.
      stp Hs. cbn [acc_call bind drv_try fst] in *. eexists. split; [left; exact L|]. split; [exact Hg1|].
      cbn [outs flat_map app]. rewrite app_nil_r, (cr_flight R). unfold set_node. eapply crel_upd; [exact R| |apply get_insert_eq|intros w Hw; now apply get_insert_ne].
      apply cnode_run; auto. apply state_apply.
    - cbn [dinv] in I. destruct (can_finalize a) eqn:Ec; try discriminate;
        [|destruct (Gnever _ Hg Hnd Ec) as (rep & Er & Hrep); cbn [d_s d_a] in Er; rewrite Er in Hs; stp Hs; exists net; split; [right; split; [reflexivity|]|split; [exact Hg|]];
          [apply filter_less with (v := v); unfold busy; cbn [dn_nodes];
             [exact Hks|now rewrite Hv|now rewrite get_insert_eq|intros w Hw; now rewrite (get_insert_ne _ _ Hw)]|];
          cbn [outs flat_map app]; rewrite app_nil_r; constructor; cbn [dn_flight dn_nodes]; [apply R| |];
          [intros w; rewrite get_insert; destruct (eqb_spec w v) as [->|Hn]; [discriminate|apply R]|];
          intros w d'; rewrite get_insert; destruct (eqb_spec w v) as [->|Hn]; [|apply R]; intros E; inv E;
          exists (Running (DS s a [])); split; [exact Hnd|]; right; exists (DS s a []); auto].
      assert (Hact : exists o, act r net (AFinalize v) = Some o) by (cbn [act]; rewrite Hnd; cbn [d_a]; rewrite Ec, I; eauto).
      destruct Hact as [o Hact]. destruct (Gstep _ Hg Hact) as (net1 & -> & Hg1). pose proof (Hone _ _ Hact) as L.
      cbn [act] in Hact. rewrite Hnd in Hact. cbn [d_s d_a d_todo] in Hact. rewrite Ec, I in Hact. apply some_inj in Hact. rewrite Hid in Hs.
      destruct (finalize_round s (nr_fin r v (s_round_id s)) a) as [ro|e|]; try discriminate. cbn [bind] in Hact. injection Hact as <-.
      exists (set_node net v (match ro with ROFinished rep => Ended rep | ROAnother s' c => Running (DS s' (make_accumulator s') c) end)).
      split; [left; exact L|]. split; [exact Hg1|]. unfold set_node. rewrite (cr_flight R).
      destruct ro as [rep|s' c]; stp Hs; cbn [outs flat_map app]; rewrite app_nil_r; (eapply crel_upd; [exact R| |apply get_insert_eq|intros w Hw; now apply get_insert_ne]).
      + left; reflexivity.
      + apply cnode_run; auto. apply state_send.
  Qed.

  Lemma cstep_sim x dn dn' net : G net -> crel dn net -> dact r dn x = Some dn' ->
    forall ks, (forall v, contains v (dn_nodes dn) = true -> In v ks) ->
    exists net', onward ks dn net dn' net' /\ G net' /\ crel dn' net'.
  Proof.
    intros Hg R. destruct x as [v|i]; cbn [dact].
    - destruct (get v (dn_nodes dn)) as [d|] eqn:Hv; try discriminate. destruct (drv_step r d IGo) as [[ls d']|] eqn:Hs; try discriminate.
      intros E ks Hks. apply some_inj in E. subst dn'. exact (@cgo_sim v dn net d ls d' Hg R Hv Hs ks (Hks v (proj2 (contains_get _ _) (ex_intro _ d Hv)))).
    - destruct (take_nth i (dn_flight dn)) as [[[from m] rest]|] eqn:Et; try discriminate.
      destruct (get (msg_dest m) (dn_nodes dn)) as [d|] eqn:Hv; try discriminate. destruct (cr_some R _ Hv) as (nd & Hnd & Hd).
      assert (Hact : exists o, act r net (ADeliver i) = Some o).
      { cbn [act]. rewrite <- (cr_flight R), Et, Hnd. destruct nd; eauto. }
      destruct Hact as [o Hact]. destruct (Gstep _ Hg Hact) as (net1 & -> & Hg1). pose proof Hact as Hact0.
      cbn [act] in Hact. rewrite <- (cr_flight R), Et, Hnd in Hact.
      destruct d as [s a dest dests c|s a vm c|s a|o]; cbn [drv_step]; try discriminate.
      + destruct Hd as (I & x & Ex & ->). inversion Ex; subst x; clear Ex. cbn [d_s d_a d_todo] in Hact. apply some_inj in Hact. unfold with_accum in Hact.
        destruct (can_finalize a) eqn:Ec; try discriminate.
        destruct (preprocess_message s a from m) as [a1 [o|e|]] eqn:Epm; try discriminate. cbn [bind] in Hact. injection Hact as <-.
        pose proof (preprocessed_arts _ _ _ _ Epm) as Ha1.
        assert (I1 : all_sent (DS s a1 []) = true). { apply all_sent_iff. rewrite Ha1. apply (all_sent_iff s a []). exact I. }
        cbn [acc_call bind drv_try fst snd]. intros E ks _. apply some_inj in E. subst dn'.
        destruct o as [vm| |].
        * assert (Hact1 : exists o, act r (mkNet (insert (msg_dest m) (Running (DS s a1 [vm])) (nodes net)) rest) (AProcess (msg_dest m) 0) = Some o).
          { cbn [act nodes]. rewrite get_insert_eq. cbn. eauto. }
          destruct Hact1 as [o Hact1]. destruct (Gstep _ Hg1 Hact1) as (net2 & -> & Hg2). pose proof Hact1 as Hact2.
          cbn [act nodes] in Hact1. rewrite get_insert_eq in Hact1. cbn [d_s d_a d_todo take_nth] in Hact1. apply some_inj in Hact1.
          unfold with_accum, set_node in Hact1. unfold deliver_one. destruct (add_processed s a1 (process_message s vm)) as [a2 [[]|e|]] eqn:Ea; try discriminate.
          cbn [bind nodes flight] in Hact1. injection Hact1 as <-. cbn [acc_call bind drv_try fst].
          eexists. split; [left; exists (ADeliver i), [AProcess (msg_dest m) 0]; econstructor; [exact Hact0|]; econstructor; [exact Hact2|constructor]|].
          split; [exact Hg2|]. eapply crel_upd; [exact R| |apply get_insert_eq|].
          -- apply cnode_run; [|reflexivity]. cbn [dinv]. apply all_sent_iff. rewrite (processed_arts _ _ _ Ea). now apply (all_sent_iff s a1 []).
          -- intros w Hw. rewrite (get_insert_ne _ _ Hw). now apply get_insert_ne.
        * eexists. split; [left; exists (ADeliver i), []; econstructor; [exact Hact0|constructor]|]. split; [exact Hg1|].
          eapply crel_upd; [exact R| |apply get_insert_eq|intros w Hw; now apply get_insert_ne]. now apply cnode_run.
        * eexists. split; [left; exists (ADeliver i), []; econstructor; [exact Hact0|constructor]|]. split; [exact Hg1|].
          eapply crel_upd; [exact R| |apply get_insert_eq|intros w Hw; now apply get_insert_ne]. now apply cnode_run.
      + intros E ks _. apply some_inj in E. subst dn'. cbn [cnode] in Hd. destruct o as [rep|e|]; try contradiction.
        assert (K : exists nd1, get (msg_dest m) (nodes net1) = Some nd1 /\ cnode (msg_dest m) (DrvDone (Ok rep)) nd1 /\ flight net1 = rest /\
          forall w, w <> msg_dest m -> get w (nodes net1) = get w (nodes net)).
        { destruct Hd as [->|(x & -> & Hs & Hc & Hr)]; apply some_inj in Hact.
          - injection Hact as <-. exists (Ended rep). split; auto. split; [now left|auto].
          - unfold with_accum in Hact. destruct (preprocess_message (d_s x) (d_a x) from m) as [a1 [o|e|]] eqn:Epm; try discriminate.
            cbn [bind] in Hact. injection Hact as <-. eexists. split; [apply get_insert_eq|]. split; [|split; [reflexivity|intros w Hw; now apply get_insert_ne]].
            right. eexists. split; [reflexivity|]. pose proof (preprocessed_arts _ _ _ _ Epm) as Ha1. destruct (preprocessed_can _ _ _ _ Epm) as (H1 & H2 & H3).
            unfold all_sent in *. cbn [d_s d_a]. rewrite Ha1. split; auto. split; auto. revert Hc. unfold can_finalize. now rewrite H1, H2, H3. }
        destruct K as (nd1 & K1 & K2 & K3 & K4).
        exists net1. split; [left; exists (ADeliver i), []; econstructor; [exact Hact0|constructor]|]. split; [exact Hg1|].
        constructor; cbn [dn_flight flight dn_nodes nodes]; auto.
        * intros w Hw. destruct (eqb_spec w (msg_dest m)) as [->|Hn]; [congruence|]. rewrite (K4 w Hn). now apply R.
        * intros w d Hw. destruct (eqb_spec w (msg_dest m)) as [->|Hn]; [rewrite Hv in Hw; inv Hw; eauto|]. rewrite (K4 w Hn). now apply R.
  Qed.


  (** If no driver can go on, all have given up or wait, and nothing is in flight. *)
  Lemma drivers_rest dn net : G net -> crel dn net -> (forall x, dact r dn x = None) -> flight net = [] /\
    forall v d, get v (nodes net) = Some (Running d) -> all_sent d = true /\
      (d_todo d = [] /\ can_finalize (d_a d) = NotYet \/ can_finalize (d_a d) = Never).
  Proof.
    intros Hg R Hx.
    assert (Kgo : forall v d, get v (dn_nodes dn) = Some d -> drv_step r d IGo = None).
    { intros v d Hv. specialize (Hx (DGo v)). cbn [dact] in Hx. rewrite Hv in Hx. destruct (drv_step r d IGo) as [[ls d']|]; [discriminate|reflexivity]. }
    assert (Kd : forall v d, get v (dn_nodes dn) = Some d -> match d with DrvWait s a => can_finalize a = NotYet | DrvDone _ => True | _ => False end).
    { intros v d Hv. apply Kgo in Hv. destruct d as [s a dest dests c|s a vm c|s a|o]; auto; cbn [drv_step] in Hv; [discriminate|discriminate|].
      destruct (can_finalize a); auto; [|discriminate]. destruct (finalize_round _ _ _) as [[]| |]; discriminate. }
    split.
    - rewrite <- (cr_flight R). destruct (dn_flight dn) as [|[from m] fl] eqn:Ef; auto. exfalso. pose proof (Hx (DDeliver 0)) as H0. cbn [dact] in H0. rewrite Ef in H0. cbn [take_nth] in H0.
      destruct (get (msg_dest m) (dn_nodes dn)) as [d|] eqn:Hd.
      + specialize (Kd _ _ Hd). destruct d as [s a dest dests c|s a vm c|s a|o]; try contradiction; [|discriminate]. cbn [drv_step] in H0. rewrite Kd in H0. discriminate.
      + apply (cr_none R) in Hd. assert (Hact : act r net (ADeliver 0) = Some Panic) by (cbn [act]; rewrite <- (cr_flight R), Ef; cbn [take_nth]; now rewrite Hd).
        destruct (Gstep _ Hg Hact) as (n & E & _). discriminate.
    - intros v d Hv. destruct (get v (dn_nodes dn)) as [dr|] eqn:Hd; [|apply (cr_none R) in Hd; congruence].
      pose proof (Kd _ _ Hd) as K. destruct (cr_some R _ Hd) as (nd & E & Hn). rewrite Hv in E. injection E as <-.
      destruct dr as [s a dest dests c|s a vm c|s a|[rep|e|]]; try contradiction.
      + destruct (@cnode_state v (DrvWait s a) _ _ eq_refl Hn) as [I E]. injection E as ->. split; [exact I|]. left. auto.
      + destruct Hn as [E|(x & E & H1 & H2 & _)]; [discriminate|]. injection E as ->. auto.
  Qed.

  Lemma crel_keys x (dn dn' : DNet Pr) : dact r dn x = Some dn' -> forall v, contains v (dn_nodes dn') = contains v (dn_nodes dn).
  Proof.
    destruct x as [v|i]; cbn [dact].
    - destruct (get v (dn_nodes dn)) as [d|] eqn:Hv; try discriminate. destruct (drv_step r d IGo) as [[ls d']|]; try discriminate. intros E w. inv E. cbn [dn_nodes].
      rewrite contains_insert. destruct (eqb_spec w v) as [->|]; auto. symmetry. apply contains_get. eauto.
    - destruct (take_nth i (dn_flight dn)) as [[[from m] rest]|]; try discriminate. destruct (get (msg_dest m) (dn_nodes dn)) as [d|] eqn:Hv; try discriminate.
      assert (K : forall d' w, contains w (insert (msg_dest m) d' (dn_nodes dn)) = contains w (dn_nodes dn)).
      { intros d' w. rewrite contains_insert. destruct (eqb_spec w (msg_dest m)) as [->|]; auto. symmetry. apply contains_get. eauto. }
      destruct d as [s a dest dests c|s a vm c|s a|o]; try (intros E w; inv E; reflexivity);
        (destruct (drv_step r _ _) as [[ls d']|]; [|discriminate]; intros E w; inv E; apply K).
  Qed.
  Lemma csched_sim dn xs dn' net : G net -> crel dn net -> dschedule r dn xs dn' -> exists net', G net' /\ crel dn' net'.
  Proof.
    intros Hg R H. induction H as [|dn xs dn1 x dn2 H IH Hx]; [eauto|]. destruct (IH R) as (net1 & Hg1 & R1).
    destruct (@cstep_sim x dn1 dn2 net1 Hg1 R1 Hx (keys (dn_nodes dn1)) (fun v => proj2 (in_keys v _))) as (net2 & _ & Hg2 & R2). eauto.
  Qed.
  Lemma cnet_finite ks net : G net -> forall dn, crel dn net -> (forall v, contains v (dn_nodes dn) = true -> In v ks) ->
    forall f : nat -> DNet Pr, f 0 = dn -> ~ forall i, exists x, dact r (f i) x = Some (f (S i)).
  Proof.
    intros Hg. pose proof (@later_acc _ _ r G Gacc net Hg) as HA. revert Hg. induction HA as [net _ IH]. intros Hg dn.
    remember (running ks dn) as n eqn:En. revert dn En. induction n as [n IHn] using (well_founded_induction lt_wf). intros dn En R Hks f E Hall.
    destruct (Hall 0) as [x Hx]. rewrite E in Hx. destruct (@cstep_sim x dn (f 1) net Hg R Hx ks Hks) as (net' & L & Hg' & R').
    assert (Hks' : forall v, contains v (dn_nodes (f 1)) = true -> In v ks) by (intros v; rewrite (@crel_keys x dn (f 1) Hx); apply Hks).
    destruct L as [L|[-> L]].
    - apply (IH net' L Hg' _ R' Hks' (fun i => f (S i)) eq_refl). intros i. apply Hall.
    - apply (IHn (running ks (f 1)) ltac:(lia) (f 1) eq_refl R' Hks' (fun i => f (S i)) eq_refl). intros i. apply Hall.
  Qed.
End Sim.

Section Faults.
  Context {P : Params}.
  Context {Pr : Proto}.
  Variable f : St Pr -> Verifier -> DynMsg -> res RecvErr (Payload Pr).
  Variable r : NetRng.
  Variable sid : bytes.
  Variable parties : bset Verifier.
  Variable ep : Verifier -> EntryPoint Pr.
  Variable h : Plan (with_receive Pr f).
  Variable sk : Verifier -> Signer.
  Hypothesis Hsk : signers parties sk.
  Hypothesis Hwire : wire_total P.
  Hypothesis Hsig : signatures_correct P.
  Hypothesis Hpl : plain_ids Pr.
  Hypothesis HR : honest_run r sid parties (fun v => ep_with f (ep v)) h.
  Variable stop : Verifier -> option nat.
  Variable sd : Shared Pr.
  Hypothesis HF : faults sid parties h stop sd.

  Notation caught := (CN sid parties h sk stop sd).
  Notation step_ := (@caught_step P Pr f r sid parties ep h sk Hsk Hwire Hsig Hpl HR stop sd HF).
  Notation id_ := (@caught_id P Pr f sid parties h sk stop sd).
  Notation never_ := (@caught_never P Pr f r sid parties ep h sk HR stop sd).
  Notation acc_ := (@caught_acc P Pr f r sid parties ep h sk Hsk Hwire Hsig Hpl HR stop sd HF).
  Notation rel_ := (crel (caught_rep sid h stop sd)).

  Lemma cnet_started : exists dn net, honest_dnet r sid parties sk ep = Ok dn /\ caught net /\ rel_ dn net.
  Proof.
    destruct (@caught_start P Pr f r sid parties ep h sk Hsk Hwire Hsig HR stop sd) as (l' & H0 & El & Hk & _ & C0 & _). unfold mknode in El.
    destruct (dstarts r sid _ El) as (l & Ed & H1 & H2). unfold honest_dnet, dnet_start. rewrite Ed. cbn [bind].
    exists (mkDNet (of_list l) []), (mkNet (of_list l') []). split; auto. split; [exists H0; eauto|].
    assert (Hnd : NoDup (map fst l)) by (rewrite H1, Hk; apply NoDup_elements).
    constructor; cbn [dn_flight flight dn_nodes nodes]; auto.
    - intros v Hv. apply get_of_list_none. rewrite <- H1. intros Hin. apply in_map_iff in Hin as ([w d] & Ew & Hin). simpl in Ew. subst w.
      rewrite (proj2 (get_of_list_nodup _ _ _ Hnd) Hin) in Hv. discriminate.
    - intros v d Hv. assert (Hin : In (v, d) l) by now apply get_of_list_nodup.
      destruct (H2 v d Hin) as (nd & Hn & Hd). exists nd. split; [|now apply cnode_dnode]. apply get_of_list_nodup; auto. now rewrite <- H1.
  Qed.

  Lemma drivers_blame : exists dn0, honest_dnet r sid parties sk ep = Ok dn0 /\
    (forall xs dn, dschedule r dn0 xs dn ->
       (forall v, contains v (dn_nodes dn) = mem v parties) /\
       (forall v d, get v (dn_nodes dn) = Some d ->
          match d with
          | DrvDone o => exists rep, o = Ok rep /\ report_right sid h stop sd v rep
          | _ => exists x, drv_state d = Some x /\ node_right sid h stop sd v (Running x)
          end) /\
       ((forall x, dact r dn x = None) -> dn_flight dn = [] /\
          forall v, first_to_stop parties stop v -> exists o, get v (dn_nodes dn) = Some (DrvDone o))) /\
    (forall c : nat -> DNet Pr, c 0 = dn0 -> ~ forall i, exists x, dact r (c i) x = Some (c (S i))).
  Proof.
    destruct cnet_started as (dn0 & net0 & E0 & Hg0 & R0). exists dn0. split; auto. split.
    - intros xs dn Hs. destruct (@csched_sim _ _ r caught step_ id_ _ never_ dn0 xs dn net0 Hg0 R0 Hs) as (net & Hg & R). split; [|split].
      + intros v. destruct Hg as (H & ph & C). pose proof (ci_nodes C v) as K. destruct (mem v parties) eqn:Hv.
        * pose proof (ni_node (ci_inv C) v Hv) as Hn. destruct (get v (dn_nodes dn)) as [d|] eqn:Hd; [apply contains_get; eauto|].
          apply (cr_none R) in Hd. rewrite Hd in K. destruct (get v (nodes H)); contradiction.
        * rewrite (ni_none (ci_inv C) v Hv) in K. apply contains_false. destruct (get v (dn_nodes dn)) as [d|] eqn:Hd; auto.
          destruct (cr_some R _ Hd) as (nd & Hnd & _). rewrite Hnd in K. contradiction.
      + intros v d Hd. destruct Hg as (H & ph & C). destruct (cr_some R _ Hd) as (nd & Ev & Hc).
        pose proof (@all_right P Pr f sid parties h sk stop sd net H ph v nd C Ev) as Ha.
        destruct d as [s a dest dests c|s a vm c|s a|[rep|e|]]; try contradiction; try (destruct Hc as (_ & x & Ex & ->); eauto).
        exists rep. split; auto. unfold report_right. destruct Hc as [->|(x & _ & _ & _ & (Ho & Hm & Hb1 & Hb2))]; [|rewrite Ho; auto].
        cbn [node_right] in Ha. destruct Ha as (H1 & -> & H3 & H4). auto.
      + intros Hx. destruct (@drivers_rest _ _ r caught step_ _ dn net Hg R Hx) as [Hfl Hrest]. split; [now rewrite (cr_flight R)|].
        intros v Hfst. destruct Hg as (H & ph & C). destruct (@all_caught P Pr f r sid parties ep h sk HR stop sd HF net H ph v C (conj Hfl Hrest) Hfst) as (d & Ev & Hn).
        destruct (get v (dn_nodes dn)) as [dr|] eqn:Hd; [|apply (cr_none R) in Hd; congruence].
        pose proof (Hx (DGo v)) as Hgo. cbn [dact] in Hgo. rewrite Hd in Hgo.
        destruct (cr_some R _ Hd) as (nd & E & Hc). rewrite Ev in E. injection E as <-.
        destruct dr as [s a dest dests c|s a vm c|s a|o]; [| | |eauto]; exfalso.
        * cbn [drv_step] in Hgo. destruct (make_message _ _ _) as [[]| |] in Hgo; discriminate Hgo.
        * cbn [drv_step] in Hgo. discriminate Hgo.
        * destruct Hc as (_ & x & Ex & E). cbn [drv_state] in Ex. injection Ex as <-. injection E as ->. cbn [d_a] in Hn. cbn [drv_step] in Hgo. rewrite Hn in Hgo. discriminate.
    - intros c Hc. refine (@cnet_finite _ _ r caught step_ id_ _ never_ acc_ (keys (dn_nodes dn0)) net0 Hg0 dn0 R0 _ c Hc). intros v. apply in_keys.
  Qed.
End Faults.

Section Convict.
  Context {P : Params}.
  Context {Pr : Proto}.
  Variable f : St Pr -> Verifier -> DynMsg -> res RecvErr (Payload Pr).
  Variable r : NetRng.
  Variable sid : bytes.
  Variable parties : bset Verifier.
  Variable ep : Verifier -> EntryPoint Pr.
  Variable h : Plan (with_receive Pr f).
  Variable sk : Verifier -> Signer.
  Hypothesis Hsk : signers parties sk.
  Hypothesis Hwire : wire_total P.
  Hypothesis Hsig : signatures_correct P.
  Hypothesis Hpl : plain_ids Pr.
  Hypothesis HR : honest_run r sid parties (fun v => ep_with f (ep v)) h.
  Variable t : Verifier.
  Variable k : nat.
  Variable sd : Shared Pr.
  Hypothesis HF : one_fault sid parties h t k sd.

  Lemma drivers_convict : exists dn0, honest_dnet r sid parties sk ep = Ok dn0 /\
    (forall xs dn, dschedule r dn0 xs dn ->
       (forall v o, get v (dn_nodes dn) = Some (DrvDone o) -> v <> t -> exists rep ev, o = Ok rep /\ rep_outcome rep = OTerminated /\
          rep_provable rep = insert t ev empty /\ rep_unprovable rep = empty /\ rep_missing rep = empty /\ proof_against sid h t k sd v ev) /\
       (exists d, get t (dn_nodes dn) = Some d /\
          match d with
          | DrvDone o => exists rep, o = Ok rep /\ accuses_nobody (Ended rep)
          | _ => exists x, drv_state d = Some x /\ accuses_nobody (Running x)
          end) /\
       ((forall x, dact r dn x = None) -> dn_flight dn = [] /\ forall v, mem v parties = true -> v <> t -> exists o, get v (dn_nodes dn) = Some (DrvDone o))) /\
    (forall c : nat -> DNet Pr, c 0 = dn0 -> ~ forall i, exists x, dact r (c i) x = Some (c (S i))).
  Proof.
    destruct (@drivers_blame P Pr f r sid parties ep h sk Hsk Hwire Hsig Hpl HR (stops t k) sd (as_faults HF)) as (dn0 & E0 & H & Hfin). exists dn0. split; auto. split; auto.
    intros xs dn Hs. destruct (H xs dn Hs) as (H0 & H1 & H2). split; [|split].
    - intros v o Hv Hvt. assert (Hp : mem v parties = true) by (rewrite <- H0; apply contains_get; eauto).
      destruct (H1 v _ Hv) as (rep & -> & Hr). unfold report_right in Hr.
      destruct (rep_outcome rep) as [x| |] eqn:Eo; try contradiction; [destruct Hr as [Hr _]; rewrite (stops_k k Hvt) in Hr; discriminate|].
      destruct Hr as (Hm & Hb1 & Hb2). destruct (blames_t HF Hp Hvt Hb1 Hb2) as (ev & E1 & E2 & E3). exists rep, ev. auto 10.
    - pose proof (H0 t) as Ht. rewrite (of_party HF) in Ht. apply contains_get in Ht as [d Ed]. pose proof (H1 t d Ed) as Hd. exists d. split; auto.
      destruct d; try (destruct Hd as (x & Ex & Hx); exists x; split; auto; exact (@right_nobody P Pr f sid h t k sd _ Hx)). destruct Hd as (rep & -> & Hr). exists rep. split; auto. unfold report_right in Hr. cbn [accuses_nobody].
      destruct (rep_outcome rep) as [x| |]; try contradiction; [tauto|]. destruct Hr as (_ & Hr & _). exact (blames_none Hr).
    - intros Hx. destruct (H2 Hx) as [H3 H4]. split; auto. intros v Hv Hvt. apply H4. now apply as_first.
  Qed.
End Convict.
