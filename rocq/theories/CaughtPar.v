(** Networks in which every node is driven by [par_run_session] and messages are turned down: their
    executions are schedules of Network.v, in which nodes that have given up are left alone. *)
From Coq Require Import List NArith Bool Arith Lia Permutation.
From Verif Require Import Base BMap Errors RoundId Message Protocol Transcript Evidence Session Spec SpecCrypto Extend SpecExtend
  MessageFacts SessionFacts RunFacts Network SpecNet NetFacts RunSync RunSyncFacts SpecCaught SpecFaults FaultFacts CaughtFacts Driver SpecDriver DriverFacts DriverNetFacts
  Par SpecPar ParFacts ParDeadFacts ParNetFacts CaughtDriver.
Import ListNotations.
Set Implicit Arguments.

Section Sim.
  Context {P : Params}.
  Context {Pr : Proto}.
  Variable r : NetRng.

  Variable G : Net Pr -> Prop.
  Variable keys : list Verifier.
  Hypothesis Hkeys : NoDup keys.
  Hypothesis Gstep : forall net x o, G net -> act r net x = Some o -> exists net', o = Ok net' /\ G net'.
  Hypothesis Gid : forall net v d, G net -> get v (nodes net) = Some (Running d) -> s_verifier (d_s d) = v.
  Variable Rep : Verifier -> Report (Rslt Pr) -> Prop.
  Hypothesis Gnever : forall net v d, G net -> get v (nodes net) = Some (Running d) -> can_finalize (d_a d) = Never ->
    exists rep, terminate_due_to_errors (d_s d) (d_a d) = Ok rep /\ Rep v rep.
  Hypothesis Gacc : forall net, G net -> Acc (follows r) net.
  Hypothesis Gcap : forall net v d, G net -> get v (nodes net) = Some (Running d) ->
    length (elements (message_destinations (d_s d))) <= capacity /\ length (d_todo d) <= capacity.

  Record cgood (x : PState Pr) : Prop := {
    cg_inv : pinv r x;
    cg_hand : handy x;
    cg_c : forall o, In (CEnd o) (pp_c x) -> o = Ok tt;
    cg_p : forall o, In (PEnd o) (pp_p x) -> o = Ok tt;
    cg_phase : match pp_phase x with Loop => True | JoinC b | JoinP b | Drain b => b = false -> can_finalize (pp_a x) = Never end
  }.
  (** The node of Network.v with a driver in this state. *)
  Definition cpnode (v : Verifier) (p : Par Pr) (nd : Node Pr) : Prop :=
    match p with
    | PStop (Ok rep) => nd = Ended rep \/ gave_up Rep v rep nd
    | PStop _ => False
    | PRun x => cgood x /\ exists todo, Permutation todo (handed x) /\ nd = Running (DS (pp_s x) (pp_a x) todo)
    end.
  Record cprel (pn : PNet Pr) (net : Net Pr) : Prop := {
    cpr_flight : pn_flight pn = flight net;
    cpr_none : forall v, get v (pn_nodes pn) = None -> get v (nodes net) = None;
    cpr_some : forall v p, get v (pn_nodes pn) = Some p -> In v keys /\ exists nd, get v (nodes net) = Some nd /\ cpnode v p nd
  }.
  Definition cweight (p : Par Pr) : nat := match p with PRun x => S (weight x) | PStop _ => 0 end.
  Definition csum (m : bmap Verifier (Par Pr)) : nat := list_sum (map (fun v => match get v m with Some p => cweight p | None => 0 end) keys).

  Lemma csum_insert m v p p' : In v keys -> get v m = Some p -> cweight p' < cweight p -> csum (insert v p' m) < csum m.
  Proof.
    unfold csum. intros Hin Hv Hlt. induction Hkeys as [|u l Hn Hnd IH]; [contradiction|]. cbn [map list_sum fold_right].
    assert (Hsame : ~ In v l -> map (fun v0 => match get v0 (insert v p' m) with Some p0 => cweight p0 | None => 0 end) l =
                    map (fun v0 => match get v0 m with Some p0 => cweight p0 | None => 0 end) l).
    { intros Hv'. apply map_ext_in. intros w Hw. rewrite get_insert_ne; auto. intros ->. auto. }
    rewrite get_insert. destruct (eqb_spec u v) as [->|Hne].
    - rewrite (Hsame Hn), Hv. simpl. lia.
    - destruct Hin as [E|Hin]; [congruence|]. specialize (IH Hnd Hin). simpl in IH |- *. apply Nat.add_lt_mono_l. exact IH.
  Qed.

  Lemma cprel_upd pn net v p nd fl nds : cprel pn net -> In v keys -> cpnode v p nd -> get v nds = Some nd ->
    (forall w, w <> v -> get w nds = get w (nodes net)) -> cprel (mkPNet (insert v p (pn_nodes pn)) fl) (mkNet nds fl).
  Proof.
    intros [_ H1 H2] Hk Hd Hv Ho. constructor; cbn [pn_flight flight pn_nodes nodes]; auto.
    - intros w. rewrite get_insert. destruct (eqb_spec w v) as [->|Hn]; [discriminate|]. rewrite (Ho w Hn). apply H1.
    - intros w d'. rewrite get_insert. destruct (eqb_spec w v) as [->|Hn]; [intros E; inv E; eauto|]. rewrite (Ho w Hn). apply H2.
  Qed.

  Definition cmoved (pn' pn : PNet Pr) (net' net : Net Pr) : Prop := later r net' net \/ (net' = net /\ csum (pn_nodes pn') < csum (pn_nodes pn)).

  Lemma csilent v pn net x act y : G net -> cprel pn net -> get v (pn_nodes pn) = Some (PRun x) ->
    par_step r (PRun x) act = Some ([], PRun y) -> pp_s y = pp_s x -> pp_a y = pp_a x -> Permutation (handed x) (handed y) ->
    (forall o, In (CEnd o) (pp_c y) -> o = Ok tt) -> (forall o, In (PEnd o) (pp_p y) -> o = Ok tt) ->
    match pp_phase y with Loop => True | JoinC b | JoinP b | Drain b => b = false -> can_finalize (pp_a y) = Never end ->
    exists net', G net' /\ cprel (mkPNet (insert v (PRun y) (pn_nodes pn)) (pn_flight pn ++ [])) net' /\
      cmoved (mkPNet (insert v (PRun y) (pn_nodes pn)) (pn_flight pn ++ [])) pn net' net.
  Proof.
    intros Hg R Hv Hs E1 E2 Hh Hc Hp Hph. apply (@par_step_pst _ _ r) in Hs. destruct (cpr_some R v Hv) as (Hk & nd & Hnd & [Hx (todo & Ht & ->)]).
    exists net. split; auto. rewrite app_nil_r. split.
    - assert (K : cprel (mkPNet (insert v (PRun y) (pn_nodes pn)) (flight net)) (mkNet (nodes net) (flight net))).
      { eapply cprel_upd; [exact R|exact Hk| |exact Hnd|auto]. split.
        - constructor; auto; [exact (pst_pinv Hs (cg_inv Hx))|exact (pst_handy Hs (cg_hand Hx))].
        - exists todo. rewrite E1, E2. split; auto. eapply perm_trans; eauto. }
      rewrite (cpr_flight R). destruct net. exact K.
    - right. split; auto. cbn [pn_nodes]. apply (@csum_insert _ v (PRun x)); auto. cbn [cweight]. rewrite <- Nat.succ_lt_mono. exact (weight_step Hs eq_refl eq_refl).
  Qed.

  Lemma added_can (a a1 : Accum Pr) pa : add_artifact a pa = (a1, Ok tt) -> can_finalize a1 = can_finalize a.
  Proof. unfold add_artifact. destruct (contains _ _); [discriminate|]. intros E. injection E as <-. apply can_finalize_art. Qed.

  (** What the network says about the tasks. *)
  Lemma ccan_make net v (s : Session Pr) a todo dest : G net -> get v (nodes net) = Some (Running (DS s a todo)) ->
    mem dest (message_destinations s) = true -> contains dest (a_artifacts a) = false ->
    exists m pa a1, mk r s dest = Ok (m, pa) /\ add_artifact a pa = (a1, Ok tt) /\
      act r net (ASend v dest) = Some (Ok (mkNet (insert v (Running (DS s a1 todo)) (nodes net)) (flight net ++ [(v, m)]))).
  Proof.
    intros Hg Hnd Hm Ha. pose proof (Gid _ Hg Hnd) as Hid. cbn [d_s] in Hid.
    assert (Hact : exists o, act r net (ASend v dest) = Some o) by (cbn [act]; rewrite Hnd; cbn [d_s d_a]; rewrite Hm, Ha; cbn; eauto).
    destruct Hact as [o Hact]. destruct (Gstep _ Hg Hact) as (net1 & -> & Hg1). pose proof Hact as Hact0.
    cbn [act] in Hact. rewrite Hnd in Hact. cbn [d_s d_a d_todo] in Hact. rewrite Hm, Ha in Hact. cbn [negb andb] in Hact. apply some_inj in Hact.
    unfold mk. rewrite Hid. destruct (make_message s (nr_msg r v (s_round_id s) dest) dest) as [[m pa]|e|]; try discriminate. cbn [bind] in Hact.
    unfold with_accum in Hact. destruct (add_artifact a pa) as [a1 [[]|e|]] eqn:Ea; try discriminate. cbn [bind] in Hact. injection Hact as <-.
    exists m, pa, a1. auto.
  Qed.
  Lemma ccan_process net v (s : Session Pr) a todo i vm rest : G net -> get v (nodes net) = Some (Running (DS s a todo)) ->
    take_nth i todo = Some (vm, rest) -> exists a1, add_processed s a (process_message s vm) = (a1, Ok tt) /\
      act r net (AProcess v i) = Some (Ok (set_node net v (Running (DS s a1 rest)))).
  Proof.
    intros Hg Hnd Ht.
    assert (Hact : exists o, act r net (AProcess v i) = Some o) by (cbn [act]; rewrite Hnd; cbn [d_todo]; rewrite Ht; eauto).
    destruct Hact as [o Hact]. destruct (Gstep _ Hg Hact) as (net1 & -> & Hg1). pose proof Hact as Hact0.
    cbn [act] in Hact. rewrite Hnd in Hact. cbn [d_s d_a d_todo] in Hact. rewrite Ht in Hact. apply some_inj in Hact. unfold with_accum in Hact.
    destruct (add_processed s a (process_message s vm)) as [a1 [[]|e|]] eqn:Ea; try discriminate. cbn [bind] in Hact. injection Hact as <-.
    exists a1. auto.
  Qed.

  Lemma cone (net : Net Pr) x net1 : act r net x = Some (Ok net1) -> later r net1 net.
  Proof. intros Hx. exists x, []. econstructor; [exact Hx|constructor]. Qed.

  Lemma cown_sim v pn net x act ls p' : G net -> cprel pn net -> get v (pn_nodes pn) = Some (PRun x) -> own act = true ->
    par_step r (PRun x) act = Some (ls, p') ->
    exists net', G net' /\ cprel (mkPNet (insert v p' (pn_nodes pn)) (pn_flight pn ++ outs v ls)) net' /\
      cmoved (mkPNet (insert v p' (pn_nodes pn)) (pn_flight pn ++ outs v ls)) pn net' net.
  Proof.
    intros Hg R Hv Ho Hs. destruct (cpr_some R v Hv) as (Hk & nd & Hnd & [Hx (todo & Ht & ->)]). pose proof Hs as Hs0.
    pose proof (cg_inv Hx) as I. pose proof (Gid _ Hg Hnd) as Hid. cbn [d_s] in Hid.
    assert (Hgo : forall dest, In dest (to_go x) -> exists m pa a1, mk r (pp_s x) dest = Ok (m, pa) /\ add_artifact (pp_a x) pa = (a1, Ok tt) /\
      Network.act r net (ASend v dest) = Some (Ok (mkNet (insert v (Running (DS (pp_s x) a1 todo)) (nodes net)) (flight net ++ [(v, m)])))).
    { intros dest Hin. destruct (pi_todo I dest Hin) as [Hm Ha]. eapply ccan_make; eauto. }
    destruct act as [i|i| |[]| |from m| | |]; try discriminate Ho; clear Ho; cbn [par_step] in Hs.
    - (* creation tasks *)
      destruct (nth_error (pp_c x) i) as [[dest|dest m pa|o]|] eqn:En; try discriminate.
      + destruct (set_nth_split i (pp_c x) (mk_task r (pp_s x) dest) En) as (l1 & l2 & E1 & E2).
        assert (Hin : In dest (to_go x)). { unfold to_go. rewrite E1. apply in_app_iff. left. rewrite pend_c_app. apply in_app_iff. right. now left. }
        destruct (Hgo dest Hin) as (m & pa & a1 & Hmk & _). unfold mk_task in E2. rewrite Hmk in E2. unfold mk in Hmk. rewrite Hmk, E2 in Hs. stp Hs.
        apply (@csilent v pn net x _ _ Hg R Hv Hs0 eq_refl eq_refl); cbn [set_c pp_c pp_p pp_phase]; [apply Permutation_refl| |exact (cg_p Hx)|exact (cg_phase Hx)].
        intros o Hin'. apply (cg_c Hx). rewrite E1. apply in_app_iff in Hin' as [H|[H|H]]; [|discriminate|]; apply in_app_iff; [auto|right; now right].
      + destruct (Nat.ltb _ _) eqn:El; try discriminate. destruct (set_nth_split i (pp_c x) (CEnd (Ok tt)) En) as (l1 & l2 & E1 & E2).
        rewrite E2 in Hs. stp Hs. apply (@csilent v pn net x _ _ Hg R Hv Hs0 eq_refl eq_refl);
          cbn [set_c set_out pp_c pp_p pp_phase]; [apply Permutation_refl| |exact (cg_p Hx)|exact (cg_phase Hx)].
        intros o Hin'. apply in_app_iff in Hin' as [H|[H|H]]; [|now inv H|]; apply (cg_c Hx); rewrite E1; apply in_app_iff; [auto|right; now right].
    - (* processing tasks *)
      destruct (nth_error (pp_p x) i) as [[vm|pm|o]|] eqn:En; try discriminate.
      + destruct (set_nth_split i (pp_p x) (hd_task (pp_s x) vm) En) as (l1 & l2 & E1 & E2).
        assert (Hin : In vm todo).
        { apply (Permutation_in _ (Permutation_sym Ht)). unfold handed. rewrite E1, flat_map_app. apply in_app_iff. left. apply in_app_iff. right. now left. }
        destruct (take_in _ _ Hin) as (j & rest & Etk & _). destruct (ccan_process _ _ Hg Hnd Etk) as (a1 & Ha & _).
        assert (Hnp : pm_res (process_message (pp_s x) vm) <> Panic).
        { intros Hp. unfold add_processed in Ha. rewrite Hp in Ha. destruct (contains _ _); [discriminate|]. destruct (negb _); discriminate. }
        assert (Ehd : hd_task (pp_s x) vm = PSend (process_message (pp_s x) vm)) by (unfold hd_task; destruct (pm_res (process_message (pp_s x) vm)); congruence).
        cbn zeta in Hs. fold (hd_task (pp_s x) vm) in Hs. rewrite E2 in Hs. rewrite Ehd in *. stp Hs.
        apply (@csilent v pn net x _ _ Hg R Hv Hs0 eq_refl eq_refl);
          cbn [set_p pp_c pp_p pp_phase]; [|exact (cg_c Hx)| |exact (cg_phase Hx)].
        * unfold handed. cbn [set_p pp_p pp_proc]. rewrite E1, !flat_map_app. apply Permutation_refl.
        * intros o Hin'. apply (cg_p Hx). rewrite E1. apply in_app_iff in Hin' as [H|[H|H]]; [|discriminate|]; apply in_app_iff; [auto|right; now right].
      + destruct (Nat.ltb _ _) eqn:El; try discriminate. destruct (set_nth_split i (pp_p x) (PEnd (Ok tt)) En) as (l1 & l2 & E1 & E2).
        rewrite E2 in Hs. stp Hs. apply (@csilent v pn net x _ _ Hg R Hv Hs0 eq_refl eq_refl);
          cbn [set_p set_proc pp_c pp_p pp_phase]; [|exact (cg_c Hx)| |exact (cg_phase Hx)].
        * unfold handed. cbn [set_p set_proc pp_p pp_proc]. rewrite E1, !flat_map_app, map_app. cbn [flat_map app map].
          rewrite <- !app_assoc. apply Permutation_app_head. cbn [app].
          rewrite app_assoc. apply Permutation_cons_append.
        * intros o Hin'. apply in_app_iff in Hin' as [H|[H|H]]; [|now inv H|]; apply (cg_p Hx); rewrite E1; apply in_app_iff; [auto|right; now right].
    - (* beginning to send *)
      destruct (pp_hand x); try discriminate. destruct (pp_out x); try discriminate. destruct (looks x); try discriminate. stp Hs.
      apply (@csilent v pn net x _ _ Hg R Hv Hs0 eq_refl eq_refl); [apply Permutation_refl|apply Hx..].
    - (* sending *)
      destruct (pp_hand x) eqn:Eh; try discriminate. unfold put_out in Hs. destruct (pp_out x) as [|[[dest m] pa] out] eqn:Eo; try discriminate. stp Hs.
      assert (Hin : In dest (to_go x)) by (unfold to_go; rewrite Eo; apply in_app_iff; right; now left).
      destruct (Hgo dest Hin) as (m' & pa' & a1 & Hmk & Ha & Hact). rewrite (pi_out I dest m pa) in Hmk; [|rewrite Eo; now left]. inv Hmk.
      rewrite Ha in *. cbn [acc_call bind par_try fst] in *. destruct (Gstep _ Hg Hact) as (net1 & E & Hg1). inv E.
      eexists. split; [exact Hg1|]. cbn [outs flat_map app]. rewrite (cpr_flight R). split; [|left; exact (cone _ _ Hact)].
      eapply cprel_upd; [exact R|exact Hk| |apply get_insert_eq|intros w Hw; now apply get_insert_ne].
      split; [|exists todo; auto]. constructor; cbn [set_acc set_hand set_out pp_c pp_p pp_phase pp_a]; [| |apply Hx|apply Hx|].
      + exact (pst_pinv (@par_step_pst _ _ r _ _ _ _ Hs0) I).
      + exact (pst_handy (@par_step_pst _ _ r _ _ _ _ Hs0) (cg_hand Hx)).
      + rewrite (added_can Ha). exact (cg_phase Hx).
    - (* processed messages *)
      destruct (pp_hand x) eqn:Eh; try discriminate. destruct (pp_phase x) eqn:Ep; try discriminate. destruct (can_finalize (pp_a x)) eqn:Ec; try discriminate.
      destruct (pp_proc x) as [|pm q] eqn:Eq; try discriminate. stp Hs.
      assert (Epm : pm = process_message (pp_s x) (pm_msg pm)) by (apply (pi_proc I); rewrite Eq; now left).
      assert (Hin : In (pm_msg pm) todo).
      { apply (Permutation_in _ (Permutation_sym Ht)). unfold handed. rewrite Eq. apply in_app_iff. right. now left. }
      destruct (take_in _ _ Hin) as (j & rest & Etk & Hrest). destruct (ccan_process _ _ Hg Hnd Etk) as (a1 & Ha & Hact). rewrite <- Epm in Ha.
      rewrite Ha in *. cbn [acc_call bind par_try fst] in *. destruct (Gstep _ Hg Hact) as (net1 & E & Hg1). inv E.
      eexists. split; [exact Hg1|]. cbn [outs flat_map app]. rewrite app_nil_r, (cpr_flight R). split; [|left; exact (cone _ _ Hact)].
      unfold set_node. eapply cprel_upd; [exact R|exact Hk| |apply get_insert_eq|intros w Hw; now apply get_insert_ne].
      split; [|exists rest; split; auto].
      + constructor; cbn [set_acc set_proc pp_c pp_p pp_phase]; [| |apply Hx|apply Hx|now rewrite Ep]; [exact (pst_pinv (@par_step_pst _ _ r _ _ _ _ Hs0) I)|].
        exact (pst_handy (@par_step_pst _ _ r _ _ _ _ Hs0) (cg_hand Hx)).
      + unfold handed in *. rewrite Eq in Ht. cbn [set_acc set_proc pp_p pp_proc map] in *.
        apply (Permutation_cons_inv (a := pm_msg pm)). eapply perm_trans; [apply Permutation_sym, Hrest|]. eapply perm_trans; [exact Ht|].
        apply Permutation_sym, Permutation_middle.
    - (* the driver *)
      destruct (pp_hand x) eqn:Eh; try discriminate. pose proof (cg_phase Hx) as Hph. pose proof (pi_phase I) as Hpi. destruct (pp_phase x) as [|b|b|b] eqn:Ep.
      + assert (Kb : forall b, (b = false -> can_finalize (pp_a x) = Never) -> Some ([], PRun (set_phase x (JoinC b))) = Some (ls, p') ->
          exists net', G net' /\ cprel (mkPNet (insert v p' (pn_nodes pn)) (pn_flight pn ++ outs v ls)) net' /\
            cmoved (mkPNet (insert v p' (pn_nodes pn)) (pn_flight pn ++ outs v ls)) pn net' net).
        { intros b Hb E. stp E. apply (@csilent v pn net x _ _ Hg R Hv Hs0 eq_refl eq_refl); cbn [set_phase pp_c pp_p pp_phase pp_a]; [apply Permutation_refl|apply Hx|apply Hx|exact Hb]. }
        destruct (can_finalize (pp_a x)) eqn:Ec; try discriminate; eapply Kb; try exact Hs; auto. discriminate.
      + destruct (pp_c x) as [|[dest|dest m pa|o] c] eqn:Ec; try discriminate; stp Hs.
        * apply (@csilent v pn net x _ _ Hg R Hv Hs0 eq_refl eq_refl); cbn [set_phase pp_c pp_p pp_phase]; [apply Permutation_refl|apply Hx|apply Hx|exact Hph].
        * assert (o = Ok tt) as -> by (apply (cg_c Hx); rewrite Ec; now left). cbn [joined] in *.
          apply (@csilent v pn net x _ _ Hg R Hv Hs0 eq_refl eq_refl); cbn [set_c pp_c pp_p pp_phase]; [apply Permutation_refl| |apply Hx|now rewrite Ep].
          intros o Hin. apply (cg_c Hx). rewrite Ec. now right.
      + destruct (pp_p x) as [|[dest|pm|o] c] eqn:Ec; try discriminate; stp Hs.
        * apply (@csilent v pn net x _ _ Hg R Hv Hs0 eq_refl eq_refl); cbn [set_phase pp_c pp_p pp_phase]; [apply Permutation_refl|apply Hx|apply Hx|exact Hph].
        * assert (o = Ok tt) as -> by (apply (cg_p Hx); rewrite Ec; now left). cbn [joined] in *.
          apply (@csilent v pn net x _ _ Hg R Hv Hs0 eq_refl eq_refl); cbn [set_p pp_c pp_p pp_phase]; [|apply Hx| |now rewrite Ep].
          -- unfold handed. cbn [set_p pp_p pp_proc]. rewrite Ec. apply Permutation_refl.
          -- intros o Hin. apply (cg_p Hx). rewrite Ec. now right.
      + destruct (pp_out x) eqn:Eo; try discriminate. destruct Hpi as (_ & _ & Hy).
        assert (Hall : all_sent (DS (pp_s x) (pp_a x) todo) = true) by (apply all_sent_iff; exact (drained I Ep Eo)).
        destruct b.
        2: { destruct (Gnever _ Hg Hnd (Hph eq_refl)) as (rep & Er & Hrep). cbn [d_s d_a] in Er. rewrite Er in Hs. stp Hs.
          exists net. split; [exact Hg|]. cbn [outs flat_map app]. rewrite app_nil_r. split.
          - constructor; cbn [pn_flight pn_nodes]; [apply R| |].
            + intros w. rewrite get_insert. destruct (eqb_spec w v) as [->|Hn]; [discriminate|apply R].
            + intros w p. rewrite get_insert. destruct (eqb_spec w v) as [->|Hn]; [|apply R]. intros E. injection E as <-. split; auto.
              exists (Running (DS (pp_s x) (pp_a x) todo)). split; [exact Hnd|]. right. eexists. split; [reflexivity|]. auto.
          - right. split; auto. cbn [pn_nodes]. apply (@csum_insert _ v (PRun x)); auto. cbn [cweight]. lia. }
        specialize (Hy eq_refl).
        assert (Hact : exists o, act r net (AFinalize v) = Some o) by (cbn [act]; rewrite Hnd; cbn [d_a]; rewrite Hy, Hall; eauto).
        destruct Hact as [o Hact]. destruct (Gstep _ Hg Hact) as (net1 & -> & Hg1). pose proof (cone _ _ Hact) as L.
        cbn [act] in Hact. rewrite Hnd in Hact. cbn [d_s d_a d_todo] in Hact. rewrite Hy, Hall in Hact. apply some_inj in Hact. rewrite Hid in Hs.
        destruct (finalize_round (pp_s x) (nr_fin r v (s_round_id (pp_s x))) (pp_a x)) as [ro|e|]; try discriminate. cbn [bind] in Hact. injection Hact as <-.
        exists (set_node net v (match ro with ROFinished rep => Ended rep | ROAnother s' c => Running (DS s' (make_accumulator s') c) end)).
        split; [exact Hg1|]. unfold set_node. rewrite (cpr_flight R).
        destruct ro as [rep|s' c]; stp Hs; cbn [outs flat_map app]; rewrite app_nil_r; (split; [|left; exact L]);
          (eapply cprel_upd; [exact R|exact Hk| |apply get_insert_eq|intros w Hw; now apply get_insert_ne]).
        * left. reflexivity.
        * split; [|exists c; split; [rewrite handed_enter; apply Permutation_refl|reflexivity]].
          constructor; cbn [par_enter pp_c pp_p pp_phase]; [apply pinv_enter|apply handy_enter| | |exact Logic.I]; intros o Hin; apply in_map_iff in Hin as (y & E & _); discriminate E.
  Qed.

  Lemma cnstep_sim y pn pn' net : G net -> cprel pn net -> nact r pn y = Some pn' ->
    exists net', G net' /\ cprel pn' net' /\ cmoved pn' pn net' net.
  Proof.
    intros Hg R. destruct y as [v x|i]; cbn [nact].
    - destruct (get v (pn_nodes pn)) as [p|] eqn:Hv; try discriminate. destruct (own x) eqn:Ho; try discriminate.
      destruct (par_step r p x) as [[ls p']|] eqn:Hs; try discriminate. intros E. apply some_inj in E. subst pn'.
      destruct p as [st|o]; [|discriminate Hs]. exact (@cown_sim v pn net st x ls p' Hg R Hv Ho Hs).
    - destruct (take_nth i (pn_flight pn)) as [[[from m] rest]|] eqn:Et; try discriminate.
      destruct (get (msg_dest m) (pn_nodes pn)) as [p|] eqn:Hv; try discriminate. destruct (cpr_some R _ Hv) as (Hk & nd & Hnd & Hd).
      assert (Hact : exists o, act r net (ADeliver i) = Some o).
      { cbn [act]. rewrite <- (cpr_flight R), Et, Hnd. destruct nd; eauto. }
      destruct Hact as [o Hact]. destruct (Gstep _ Hg Hact) as (net1 & -> & Hg1). pose proof (cone _ _ Hact) as L.
      cbn [act] in Hact. rewrite <- (cpr_flight R), Et, Hnd in Hact. destruct p as [x|o].
      + destruct Hd as [Hx (todo & Ht & ->)]. cbn [d_s d_a d_todo] in Hact. apply some_inj in Hact. unfold with_accum in Hact.
        destruct (par_step r (PRun x) (AReceive from m)) as [[ls p']|] eqn:Hs; try discriminate. pose proof Hs as Hs0. cbn [par_step] in Hs.
        destruct (pp_hand x) eqn:Eh; try discriminate. destruct (pp_phase x) eqn:Ep; try discriminate. destruct (can_finalize (pp_a x)) eqn:Ec; try discriminate.
        destruct (preprocess_message (pp_s x) (pp_a x) from m) as [a1 [o|e|]] eqn:Epm; try discriminate. cbn [bind] in Hact. injection Hact as <-.
        cbn [acc_call bind par_try fst snd] in Hs. stp Hs. intros E. apply some_inj in E. subst pn'.
        eexists. split; [exact Hg1|]. split; [|left; exact L].
        eapply cprel_upd; [exact R|exact Hk| |apply get_insert_eq|intros w Hw; now apply get_insert_ne].
        split; [|exists (match o with ToProcess vm => vm :: todo | _ => todo end); split; [|destruct o; reflexivity]].
        * constructor; [exact (pst_pinv (@par_step_pst _ _ r _ _ _ _ Hs0) (cg_inv Hx))|exact (pst_handy (@par_step_pst _ _ r _ _ _ _ Hs0) (cg_hand Hx))|..]; destruct o; cbn [set_p set_acc pp_c pp_p pp_phase]; try apply Hx; try (now rewrite Ep).
          intros o Hin. apply in_app_iff in Hin as [Hin|[E|[]]]; [now apply (cg_p Hx)|discriminate E].
        * destruct o as [vm| |]; try exact Ht. unfold handed in *. cbn [set_p set_acc pp_p pp_proc]. rewrite flat_map_app. cbn [flat_map app].
          eapply perm_trans; [apply perm_skip, Ht|]. rewrite <- app_assoc. cbn [app]. apply Permutation_middle.
      + intros E. apply some_inj in E. subst pn'. cbn [cpnode] in Hd. destruct o as [rep|e|]; try contradiction.
        assert (K : exists nd1, get (msg_dest m) (nodes net1) = Some nd1 /\ cpnode (msg_dest m) (PStop (Ok rep)) nd1 /\ flight net1 = rest /\
          forall w, w <> msg_dest m -> get w (nodes net1) = get w (nodes net)).
        { destruct Hd as [->|(x & -> & Hs & Hc & Hr)]; apply some_inj in Hact.
          - injection Hact as <-. exists (Ended rep). split; auto. split; [now left|auto].
          - unfold with_accum in Hact. destruct (preprocess_message (d_s x) (d_a x) from m) as [a1 [o|e|]] eqn:Epm; try discriminate.
            cbn [bind] in Hact. injection Hact as <-. eexists. split; [apply get_insert_eq|]. split; [|split; [reflexivity|intros w Hw; now apply get_insert_ne]].
            right. eexists. split; [reflexivity|]. pose proof (preprocessed_arts _ _ _ _ Epm) as Ha1. destruct (preprocessed_can _ _ _ _ Epm) as (H1 & H2 & H3).
            unfold all_sent in *. cbn [d_s d_a]. rewrite Ha1. split; auto. split; auto. revert Hc. unfold can_finalize. now rewrite H1, H2, H3. }
        destruct K as (nd1 & K1 & K2 & K3 & K4).
        exists net1. split; [exact Hg1|]. split; [|left; exact L].
        constructor; cbn [pn_flight flight pn_nodes nodes]; auto.
        * intros w Hw. destruct (eqb_spec w (msg_dest m)) as [->|Hn]; [congruence|]. rewrite (K4 w Hn). now apply R.
        * intros w d Hw. destruct (eqb_spec w (msg_dest m)) as [->|Hn]; [rewrite Hv in Hw; inv Hw; eauto|]. rewrite (K4 w Hn). now apply R.
  Qed.

  (** A driver that cannot go on by itself has sent and processed everything, and waits for messages. *)
  Lemma cown_progress (x : PState Pr) : cgood x -> length (elements (message_destinations (pp_s x))) <= capacity -> length (handed x) <= capacity ->
    (exists act ls p, own act = true /\ par_step r (PRun x) act = Some (ls, p)) \/
    (pp_phase x = Loop /\ can_finalize (pp_a x) = NotYet /\ pp_hand x = false /\ to_go x = [] /\ handed x = []).
  Proof.
    intros Hx Hd Hh. pose proof (cg_inv Hx) as I. pose proof (to_go_bound I) as Hb. unfold to_go in *. rewrite app_length, map_length in Hb.
    unfold handed in *. rewrite app_length, map_length in Hh.
    pose proof (channel_bound x) as Hcb. destruct (pp_hand x) eqn:Eh; [left; destruct (@can_put P Pr r x (cg_hand Hx) Eh) as (ls & p & Hp); exists (APut true); eauto|].
    destruct (pp_phase x) as [|b|b|b] eqn:Hp.
    - destruct (can_finalize (pp_a x)) eqn:Hc; try (left; exists AGo; cbn [par_step]; rewrite Eh, Hp, Hc; eauto; fail).
      destruct (pp_out x) as [|[[dest m] pa] out] eqn:Eo; [|left; exists ATakeOut; cbn [par_step]; rewrite Eh, Eo; unfold looks; rewrite Hp, Hc; eauto].
      destruct (pp_proc x) as [|pm q] eqn:Eq; [|left; exists ATakeProcessed; cbn [par_step]; rewrite Eh, Hp, Hc, Eq; eauto].
      assert (Kc : pend_c (pp_c x) = [] \/ exists i t, nth_error (pp_c x) i = Some t /\ match t with CEnd _ => False | _ => True end).
      { clear. induction (pp_c x) as [|t c IH]; auto. destruct t as [dest|dest m pa|o].
        - right. exists 0. eexists. split; [reflexivity|exact Logic.I].
        - right. exists 0. eexists. split; [reflexivity|exact Logic.I].
        - destruct IH as [IH|(i & t & E & H)]; [left; exact IH|right; exists (S i), t; auto]. }
      assert (Kp : pend_p (pp_p x) = [] \/ exists i t, nth_error (pp_p x) i = Some t /\ match t with PEnd _ => False | _ => True end).
      { clear. induction (pp_p x) as [|t c IH]; auto. destruct t as [vm|pm|o].
        - right. exists 0. eexists. split; [reflexivity|exact Logic.I].
        - right. exists 0. eexists. split; [reflexivity|exact Logic.I].
        - destruct IH as [IH|(i & t & E & H)]; [left; exact IH|right; exists (S i), t; auto]. }
      destruct Kc as [Kc|(i & t & Et & Hnt)]; [|left; exists (ACreate i); cbn [par_step]; rewrite Et; destruct t; try contradiction; [eauto|]; unfold in_channel; rewrite Eh, Eo; cbn; eauto].
      destruct Kp as [Kp|(i & t & Et & Hnt)]; [|left; exists (AHandle i); cbn [par_step]; rewrite Et; destruct t; try contradiction; [eauto|rewrite Eq; cbn; eauto]].
      right. split; auto. split; auto. split; auto. rewrite Kc. split; auto. cbn [map]. rewrite app_nil_r. exact Kp.
    - left. destruct (pp_c x) as [|[dest|dest m pa|o] c] eqn:Hc.
      + exists AGo. cbn [par_step]. rewrite Eh, Hp, Hc. eauto.
      + exists (ACreate 0). cbn [par_step]. rewrite Hc. cbn [nth_error]. eauto.
      + exists (ACreate 0). cbn [par_step]. rewrite Hc. cbn [nth_error]. cbn [pend_c flat_map app length] in Hb. rewrite (proj2 (Nat.ltb_lt _ _)); [eauto|lia].
      + exists AGo. cbn [par_step]. rewrite Eh, Hp, Hc. eauto.
    - left. destruct (pp_p x) as [|[vm|pm|o] c] eqn:Hc.
      + exists AGo. cbn [par_step]. rewrite Eh, Hp, Hc. eauto.
      + exists (AHandle 0). cbn [par_step]. rewrite Hc. cbn [nth_error]. eauto.
      + exists (AHandle 0). cbn [par_step]. rewrite Hc. cbn [nth_error]. cbn [flat_map app length] in Hh. rewrite (proj2 (Nat.ltb_lt _ _)); [eauto|lia].
      + exists AGo. cbn [par_step]. rewrite Eh, Hp, Hc. eauto.
    - left. destruct (pp_out x) as [|[[dest m] pa] out] eqn:Ho.
      + exists AGo. cbn [par_step]. rewrite Eh, Hp, Ho. destruct b; eauto. destruct (finalize_round _ _ _) as [[rep|s c]|e|]; eauto 6.
      + exists ATakeOut. cbn [par_step]. rewrite Eh, Ho. unfold looks. rewrite Hp. eauto.
  Qed.

  (** If no driver can go on, all have given up or wait, and nothing is in flight. *)
  Lemma par_rest pn net : G net -> cprel pn net -> (forall y, nact r pn y = None) ->
    (flight net = [] /\ forall v d, get v (nodes net) = Some (Running d) -> all_sent d = true /\
      (d_todo d = [] /\ can_finalize (d_a d) = NotYet \/ can_finalize (d_a d) = Never)) /\
    forall v st, get v (pn_nodes pn) = Some (PRun st) -> can_finalize (pp_a st) = NotYet.
  Proof.
    intros Hg R Hx.
    assert (Kgo : forall v st, get v (pn_nodes pn) = Some (PRun st) -> exists d, get v (nodes net) = Some (Running d) /\
       pp_phase st = Loop /\ can_finalize (pp_a st) = NotYet /\ pp_hand st = false /\ d_s d = pp_s st /\ d_a d = pp_a st /\ all_sent d = true /\ d_todo d = []).
    { intros v st Hv. destruct (cpr_some R v Hv) as (_ & nd & Hnd & [Hst (todo & Ht & ->)]).
      exists (DS (pp_s st) (pp_a st) todo). split; auto.
      destruct (Gcap _ Hg Hnd) as [Hc1 Hc2]. cbn [d_s d_a d_todo] in *. rewrite (Permutation_length Ht) in Hc2.
      destruct (cown_progress Hst Hc1 Hc2) as [(a & ls & p & Ho & Hs)|(H1 & H2 & Hhd & H3 & H4)].
      - exfalso. specialize (Hx (NStep v a)). cbn [nact] in Hx. rewrite Hv, Ho, Hs in Hx. discriminate.
      - split; auto. split; auto. split; auto. split; auto. split; auto. split.
        + apply all_sent_iff. intros u Hu. destruct (pi_all (cg_inv Hst) u Hu) as [H|[H|(e & H & Hne)]]; auto; [rewrite H3 in H; contradiction|].
          destruct Hne. exact (cg_c Hst _ H).
        + rewrite H4 in Ht. apply Permutation_nil. now apply Permutation_sym. }
    split; [split|].
    - rewrite <- (cpr_flight R). destruct (pn_flight pn) as [|[from m] fl] eqn:Ef; auto. exfalso. pose proof (Hx (NDeliver 0)) as H0. cbn [nact] in H0. rewrite Ef in H0. cbn [take_nth] in H0.
      destruct (get (msg_dest m) (pn_nodes pn)) as [[st|o]|] eqn:Hd; try discriminate.
      + destruct (Kgo _ _ Hd) as (d & _ & K1 & K2 & K3 & _). cbn [par_step] in H0. rewrite K3, K1, K2 in H0. discriminate.
      + apply (cpr_none R) in Hd. assert (Hact : act r net (ADeliver 0) = Some Panic) by (cbn [act]; rewrite <- (cpr_flight R), Ef; cbn [take_nth]; now rewrite Hd).
        destruct (Gstep _ Hg Hact) as (n & E & _). discriminate.
    - intros v d Hv. destruct (get v (pn_nodes pn)) as [[st|o]|] eqn:Hd; [| |apply (cpr_none R) in Hd; congruence].
      + destruct (Kgo _ _ Hd) as (d' & E & _ & K1 & _ & _ & K2 & K3 & K4). rewrite Hv in E. injection E as <-. rewrite K2. auto.
      + destruct (cpr_some R _ Hd) as (_ & nd & E & Hn). rewrite Hv in E. injection E as <-. cbn [cpnode] in Hn. destruct o as [rep|e|]; try contradiction.
        destruct Hn as [E|(x & E & H1 & H2 & _)]; [discriminate|]. injection E as ->. auto.
    - intros v st Hv. destruct (Kgo _ _ Hv) as (_ & _ & _ & K & _). exact K.
  Qed.

  Lemma cnsched_sim pn xs pn' net : G net -> cprel pn net -> nschedule r pn xs pn' -> exists net', G net' /\ cprel pn' net'.
  Proof.
    intros Hg R H. induction H as [|pn xs pn1 x pn2 H IH Hx]; [eauto|]. destruct (IH R) as (net1 & Hg1 & R1).
    destruct (cnstep_sim x Hg1 R1 Hx) as (net2 & Hg2 & R2 & _). eauto.
  Qed.
  Lemma cpnet_finite net : G net -> forall pn, cprel pn net -> forall f : nat -> PNet Pr, f 0 = pn -> ~ forall i, exists x, nact r (f i) x = Some (f (S i)).
  Proof.
    intros Hg. pose proof (@later_acc _ _ r G Gacc net Hg) as HA. revert Hg. induction HA as [net _ IH]. intros Hg pn.
    remember (csum (pn_nodes pn)) as n eqn:En. revert pn En. induction n as [n IHn] using lt_wf_ind. intros pn -> R f E Hall.
    destruct (Hall 0) as [x Hx]. rewrite E in Hx. destruct (cnstep_sim x Hg R Hx) as (net' & Hg' & R' & [L|[-> L]]).
    - apply (IH net' L Hg' _ R' (fun i => f (S i)) eq_refl). intros i. apply Hall.
    - apply (IHn _ L _ eq_refl R' (fun i => f (S i)) eq_refl). intros i. apply Hall.
  Qed.
End Sim.

Section Faults.
  Context {P : Params}.
  Context {Pr : Proto}.
  Variable f : St Pr -> Verifier -> DynMsg -> res RecvErr (Payload Pr).
  Variable r : NetRng.
  Variable sid : bytes.
  Variable parties : bset Verifier.
  Variable ep : Verifier -> EntryPoint Pr.
  Variable h : Plan (with_receive Pr f).
  Variable sk : Verifier -> Signer.
  Hypothesis Hsk : signers parties sk.
  Hypothesis Hwire : wire_total P.
  Hypothesis Hsig : signatures_correct P.
  Hypothesis Hpl : plain_ids Pr.
  Hypothesis HR : honest_run r sid parties (fun v => ep_with f (ep v)) h.
  Hypothesis Hfew : length (elements parties) <= 101.
  Variable stop : Verifier -> option nat.
  Variable sd : Shared Pr.
  Hypothesis HF : faults sid parties h stop sd.

  Notation caught := (CN sid parties h sk stop sd).
  Notation step_ := (@caught_step P Pr f r sid parties ep h sk Hsk Hwire Hsig Hpl HR stop sd HF).
  Notation id_ := (@caught_id P Pr f sid parties h sk stop sd).
  Notation never_ := (@caught_never P Pr f r sid parties ep h sk HR stop sd).
  Notation acc_ := (@caught_acc P Pr f r sid parties ep h sk Hsk Hwire Hsig Hpl HR stop sd HF).
  Notation rel_ := (cprel r (elements parties) (caught_rep sid h stop sd)).

  Lemma caught_cap net v d : caught net -> get v (nodes net) = Some (Running d) ->
    length (elements (message_destinations (d_s d))) <= capacity /\ length (d_todo d) <= capacity.
  Proof.
    intros (H & ph & C) Hv. destruct (@CI_both P Pr f sid parties h sk stop sd net H ph v d C Hv) as (d' & Hv' & _ & S & Et & _).
    destruct (@good_cap P _ r sid parties _ h sk HR Hfew H v d') as [K1 K2]; [exists ph; apply C|exact Hv'|].
    rewrite Et in K2. split; [|exact K2]. destruct S as (_ & _ & _ & _ & Hc & _). unfold message_destinations in *. now rewrite Hc in K1.
  Qed.

  Lemma cpnode_pnode v (p : Par Pr) nd : pnode r p nd -> cpnode r (caught_rep sid h stop sd) v p nd.
  Proof.
    destruct p as [x|[rep|e|]]; cbn [pnode cpnode]; auto. intros ([H1 H2 H3 H4 H5] & K). split; auto. constructor; auto.
    destruct (pp_phase x); auto; subst; discriminate.
  Qed.
  Lemma cpnet_started : exists pn net, honest_pnet r sid parties sk ep = Ok pn /\ caught net /\ rel_ pn net.
  Proof.
    destruct (@caught_start P Pr f r sid parties ep h sk Hsk Hwire Hsig HR stop sd) as (l' & H0 & El & Hk & _ & C0 & _). unfold mknode in El.
    destruct (pstarts r sid _ El) as (l & Ed & H1 & H2). unfold honest_pnet, pnet_start. rewrite Ed. cbn [bind].
    exists (mkPNet (of_list l) []), (mkNet (of_list l') []). split; auto. split; [exists H0; eauto|].
    assert (Hnd : NoDup (map fst l)) by (rewrite H1, Hk; apply NoDup_elements).
    constructor; cbn [pn_flight flight pn_nodes nodes]; auto.
    - intros v Hv. apply get_of_list_none. rewrite <- H1. intros Hin. apply in_map_iff in Hin as ([w d] & Ew & Hin). simpl in Ew. subst w.
      rewrite (proj2 (get_of_list_nodup _ _ _ Hnd) Hin) in Hv. discriminate.
    - intros v d Hv. assert (Hin : In (v, d) l) by now apply get_of_list_nodup.
      split; [rewrite <- Hk, <- H1; apply in_map_iff; exists (v, d); auto|].
      destruct (H2 v d Hin) as (nd & Hn & Hd). exists nd. split; [|now apply cpnode_pnode]. apply get_of_list_nodup; auto. now rewrite <- H1.
  Qed.

  Lemma par_drivers_blame : exists pn0, honest_pnet r sid parties sk ep = Ok pn0 /\
    (forall xs pn, nschedule r pn0 xs pn ->
       (forall v, contains v (pn_nodes pn) = mem v parties) /\
       (forall v d, get v (pn_nodes pn) = Some d ->
          match d with
          | PStop o => exists rep, o = Ok rep /\ report_right sid h stop sd v rep
          | PRun x => node_right sid h stop sd v (Running (DS (pp_s x) (pp_a x) (handed x)))
          end) /\
       ((forall x, nact r pn x = None) -> pn_flight pn = [] /\
          forall v, first_to_stop parties stop v -> exists o, get v (pn_nodes pn) = Some (PStop o))) /\
    (forall c : nat -> PNet Pr, c 0 = pn0 -> ~ forall i, exists x, nact r (c i) x = Some (c (S i))).
  Proof.
    destruct cpnet_started as (pn0 & net0 & E0 & Hg0 & R0). exists pn0. split; auto. split.
    - intros xs pn Hs. destruct (@cnsched_sim _ _ r caught (elements parties) (NoDup_elements _) step_ id_ _ never_ pn0 xs pn net0 Hg0 R0 Hs) as (net & Hg & R). split; [|split].
      + intros v. destruct Hg as (H & ph & C). pose proof (ci_nodes C v) as K. destruct (mem v parties) eqn:Hv.
        * pose proof (ni_node (ci_inv C) v Hv) as Hn. destruct (get v (pn_nodes pn)) as [d|] eqn:Hd; [apply contains_get; eauto|].
          apply (cpr_none R) in Hd. rewrite Hd in K. destruct (get v (nodes H)); contradiction.
        * rewrite (ni_none (ci_inv C) v Hv) in K. apply contains_false. destruct (get v (pn_nodes pn)) as [d|] eqn:Hd; auto.
          destruct (cpr_some R _ Hd) as (_ & nd & Hnd & _). rewrite Hnd in K. contradiction.
      + intros v p Hd. destruct Hg as (H & ph & C). destruct (cpr_some R _ Hd) as (_ & nd & Ev & Hc).
        pose proof (@all_right P Pr f sid parties h sk stop sd net H ph v nd C Ev) as Ha.
        destruct p as [x|[rep|e|]]; try contradiction.
        * destruct Hc as (_ & todo & _ & ->). exact Ha.
        * exists rep. split; auto. unfold report_right. destruct Hc as [->|(x & _ & _ & _ & (Ho & Hm & Hb1 & Hb2))]; [|rewrite Ho; auto].
          cbn [node_right] in Ha. destruct Ha as (H1 & -> & H3 & H4). auto.
      + intros Hx. destruct (@par_rest _ _ r caught _ step_ _ caught_cap pn net Hg R Hx) as [[Hfl Hrest] Hw]. split; [now rewrite (cpr_flight R)|].
        intros v Hfst. destruct Hg as (H & ph & C). destruct (@all_caught P Pr f r sid parties ep h sk HR stop sd HF net H ph v C (conj Hfl Hrest) Hfst) as (d & Ev & Hn).
        destruct (get v (pn_nodes pn)) as [p|] eqn:Hd; [|apply (cpr_none R) in Hd; congruence].
        destruct (cpr_some R _ Hd) as (_ & nd & E & Hc). rewrite Ev in E. injection E as <-.
        destruct p as [x|o]; [|eauto]. exfalso. destruct Hc as (_ & todo & _ & E). injection E as ->. cbn [d_a] in Hn. rewrite (Hw _ _ Hd) in Hn. discriminate.
    - intros c Hc. exact (@cpnet_finite _ _ r caught (elements parties) (NoDup_elements _) step_ id_ _ never_ acc_ net0 Hg0 pn0 R0 c Hc).
  Qed.
End Faults.

Section Convict.
  Context {P : Params}.
  Context {Pr : Proto}.
  Variable f : St Pr -> Verifier -> DynMsg -> res RecvErr (Payload Pr).
  Variable r : NetRng.
  Variable sid : bytes.
  Variable parties : bset Verifier.
  Variable ep : Verifier -> EntryPoint Pr.
  Variable h : Plan (with_receive Pr f).
  Variable sk : Verifier -> Signer.
  Hypothesis Hsk : signers parties sk.
  Hypothesis Hwire : wire_total P.
  Hypothesis Hsig : signatures_correct P.
  Hypothesis Hpl : plain_ids Pr.
  Hypothesis HR : honest_run r sid parties (fun v => ep_with f (ep v)) h.
  Hypothesis Hfew : length (elements parties) <= 101.
  Variable t : Verifier.
  Variable k : nat.
  Variable sd : Shared Pr.
  Hypothesis HF : one_fault sid parties h t k sd.

  Lemma par_drivers_convict : exists pn0, honest_pnet r sid parties sk ep = Ok pn0 /\
    (forall xs pn, nschedule r pn0 xs pn ->
       (forall v o, get v (pn_nodes pn) = Some (PStop o) -> v <> t -> exists rep ev, o = Ok rep /\ rep_outcome rep = OTerminated /\
          rep_provable rep = insert t ev empty /\ rep_unprovable rep = empty /\ rep_missing rep = empty /\ proof_against sid h t k sd v ev) /\
       (exists p, get t (pn_nodes pn) = Some p /\
          match p with
          | PStop o => exists rep, o = Ok rep /\ accuses_nobody (Ended rep)
          | PRun x => accuses_nobody (Running (DS (pp_s x) (pp_a x) (handed x)))
          end) /\
       ((forall x, nact r pn x = None) -> pn_flight pn = [] /\ forall v, mem v parties = true -> v <> t -> exists o, get v (pn_nodes pn) = Some (PStop o))) /\
    (forall c : nat -> PNet Pr, c 0 = pn0 -> ~ forall i, exists x, nact r (c i) x = Some (c (S i))).
  Proof.
    destruct (@par_drivers_blame P Pr f r sid parties ep h sk Hsk Hwire Hsig Hpl HR Hfew (stops t k) sd (as_faults HF)) as (dn0 & E0 & H & Hfin). exists dn0. split; auto. split; auto.
    intros xs dn Hs. destruct (H xs dn Hs) as (H0 & H1 & H2). split; [|split].
    - intros v o Hv Hvt. assert (Hp : mem v parties = true) by (rewrite <- H0; apply contains_get; eauto).
      destruct (H1 v _ Hv) as (rep & -> & Hr). unfold report_right in Hr.
      destruct (rep_outcome rep) as [x| |] eqn:Eo; try contradiction; [destruct Hr as [Hr _]; rewrite (stops_k k Hvt) in Hr; discriminate|].
      destruct Hr as (Hm & Hb1 & Hb2). destruct (blames_t HF Hp Hvt Hb1 Hb2) as (ev & E1 & E2 & E3). exists rep, ev. auto 10.
    - pose proof (H0 t) as Ht. rewrite (of_party HF) in Ht. apply contains_get in Ht as [d Ed]. pose proof (H1 t d Ed) as Hd. exists d. split; auto.
      destruct d; try (exact (@right_nobody P Pr f sid h t k sd _ Hd)). destruct Hd as (rep & -> & Hr). exists rep. split; auto. unfold report_right in Hr. cbn [accuses_nobody].
      destruct (rep_outcome rep) as [x| |]; try contradiction; [tauto|]. destruct Hr as (_ & Hr & _). exact (blames_none Hr).
    - intros Hx. destruct (H2 Hx) as [H3 H4]. split; auto. intros v Hv Hvt. apply H4. now apply as_first.
  Qed.
End Convict.
