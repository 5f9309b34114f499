(** Networks in which every node is driven by [par_run_session]: their executions are schedules of Network.v. *)
From Coq Require Import List NArith Bool Arith Lia Permutation.
From Verif Require Import Base BMap Errors RoundId Message Protocol Transcript Evidence Session Spec SpecCrypto
  MessageFacts SessionFacts RunFacts Network SpecNet NetFacts RunSync RunSyncFacts Driver SpecDriver DriverFacts DriverNetFacts
  Par SpecPar ParFacts ParDeadFacts.
Import ListNotations.
Set Implicit Arguments.

Lemma take_in {A} (x : A) l : In x l -> exists i rest, take_nth i l = Some (x, rest) /\ Permutation l (x :: rest).
Proof.
  induction l as [|y l IH]; intros [].
  - subst y. exists 0, l. auto.
  - destruct (IH H) as (i & rest & E & Hp). exists (S i), (y :: rest). cbn [take_nth]. rewrite E. split; auto.
    eapply perm_trans; [apply perm_skip, Hp|apply perm_swap].
Qed.

Section Sim.
  Context {P : Params}.
  Context {Pr : Proto}.
  Variable r : NetRng.

  Variable G : Net Pr -> Prop.
  Variable keys : list Verifier.
  Hypothesis Hkeys : NoDup keys.
  Hypothesis Gstep : forall net x o, G net -> act r net x = Some o -> exists net', o = Ok net' /\ G net'.
  Hypothesis Gid : forall net v d, G net -> get v (nodes net) = Some (Running d) -> s_verifier (d_s d) = v.
  Hypothesis Gnever : forall net v d, G net -> get v (nodes net) = Some (Running d) -> can_finalize (d_a d) <> Never.
  Hypothesis Gacc : forall net, G net -> Acc (follows r) net.
  Hypothesis Gcap : forall net v d, G net -> get v (nodes net) = Some (Running d) ->
    length (elements (message_destinations (d_s d))) <= capacity /\ (can_finalize (d_a d) = Yes -> length (d_todo d) <= capacity).

  Record pgood (x : PState Pr) : Prop := {
    pg_inv : pinv r x;
    pg_hand : handy x;
    pg_c : forall o, In (CEnd o) (pp_c x) -> o = Ok tt;
    pg_p : forall o, In (PEnd o) (pp_p x) -> o = Ok tt;
    pg_phase : match pp_phase x with Loop => True | JoinC b | JoinP b | Drain b => b = true end
  }.
  (** The node of Network.v with a driver in this state. *)
  Definition pnode (p : Par Pr) (nd : Node Pr) : Prop :=
    match p with
    | PStop (Ok rep) => nd = Ended rep
    | PStop _ => False
    | PRun x => pgood x /\ exists todo, Permutation todo (handed x) /\ nd = Running (DS (pp_s x) (pp_a x) todo)
    end.
  Record prel (pn : PNet Pr) (net : Net Pr) : Prop := {
    pr_flight : pn_flight pn = flight net;
    pr_none : forall v, get v (pn_nodes pn) = None -> get v (nodes net) = None;
    pr_some : forall v p, get v (pn_nodes pn) = Some p -> In v keys /\ exists nd, get v (nodes net) = Some nd /\ pnode p nd
  }.
  Definition pweight (p : Par Pr) : nat := match p with PRun x => weight x | PStop _ => 0 end.
  Definition wsum (m : bmap Verifier (Par Pr)) : nat := list_sum (map (fun v => match get v m with Some p => pweight p | None => 0 end) keys).

  Lemma wsum_insert m v p p' : In v keys -> get v m = Some p -> pweight p' < pweight p -> wsum (insert v p' m) < wsum m.
  Proof.
    unfold wsum. intros Hin Hv Hlt. induction Hkeys as [|u l Hn Hnd IH]; [contradiction|]. cbn [map list_sum fold_right].
    assert (Hsame : ~ In v l -> map (fun v0 => match get v0 (insert v p' m) with Some p0 => pweight p0 | None => 0 end) l =
                    map (fun v0 => match get v0 m with Some p0 => pweight p0 | None => 0 end) l).
    { intros Hv'. apply map_ext_in. intros w Hw. rewrite get_insert_ne; auto. intros ->. auto. }
    rewrite get_insert. destruct (eqb_spec u v) as [->|Hne].
    - rewrite (Hsame Hn), Hv. simpl. lia.
    - destruct Hin as [E|Hin]; [congruence|]. specialize (IH Hnd Hin). simpl in IH |- *. apply Nat.add_lt_mono_l. exact IH.
  Qed.

  Lemma prel_upd pn net v p nd fl nds : prel pn net -> In v keys -> pnode p nd -> get v nds = Some nd ->
    (forall w, w <> v -> get w nds = get w (nodes net)) -> prel (mkPNet (insert v p (pn_nodes pn)) fl) (mkNet nds fl).
  Proof.
    intros [_ H1 H2] Hk Hd Hv Ho. constructor; cbn [pn_flight flight pn_nodes nodes]; auto.
    - intros w. rewrite get_insert. destruct (eqb_spec w v) as [->|Hn]; [discriminate|]. rewrite (Ho w Hn). apply H1.
    - intros w d'. rewrite get_insert. destruct (eqb_spec w v) as [->|Hn]; [intros E; inv E; eauto|]. rewrite (Ho w Hn). apply H2.
  Qed.

  Definition moved (pn' pn : PNet Pr) (net' net : Net Pr) : Prop := later r net' net \/ (net' = net /\ wsum (pn_nodes pn') < wsum (pn_nodes pn)).

  Lemma silent_sim v pn net x act y : G net -> prel pn net -> get v (pn_nodes pn) = Some (PRun x) ->
    par_step r (PRun x) act = Some ([], PRun y) -> pp_s y = pp_s x -> pp_a y = pp_a x -> Permutation (handed x) (handed y) ->
    (forall o, In (CEnd o) (pp_c y) -> o = Ok tt) -> (forall o, In (PEnd o) (pp_p y) -> o = Ok tt) ->
    match pp_phase y with Loop => True | JoinC b | JoinP b | Drain b => b = true end ->
    exists net', G net' /\ prel (mkPNet (insert v (PRun y) (pn_nodes pn)) (pn_flight pn ++ [])) net' /\
      moved (mkPNet (insert v (PRun y) (pn_nodes pn)) (pn_flight pn ++ [])) pn net' net.
  Proof.
    intros Hg R Hv Hs E1 E2 Hh Hc Hp Hph. apply (@par_step_pst _ _ r) in Hs. destruct (pr_some R v Hv) as (Hk & nd & Hnd & [Hx (todo & Ht & ->)]).
    exists net. split; auto. rewrite app_nil_r. split.
    - assert (K : prel (mkPNet (insert v (PRun y) (pn_nodes pn)) (flight net)) (mkNet (nodes net) (flight net))).
      { eapply prel_upd; [exact R|exact Hk| |exact Hnd|auto]. split.
        - constructor; auto; [exact (pst_pinv Hs (pg_inv Hx))|exact (pst_handy Hs (pg_hand Hx))].
        - exists todo. rewrite E1, E2. split; auto. eapply perm_trans; eauto. }
      rewrite (pr_flight R). destruct net. exact K.
    - right. split; auto. cbn [pn_nodes]. apply (@wsum_insert _ v (PRun x)); auto. cbn [pweight]. exact (weight_step Hs eq_refl eq_refl).
  Qed.

  (** What the network says about the tasks. *)
  Lemma can_make net v (s : Session Pr) a todo dest : G net -> get v (nodes net) = Some (Running (DS s a todo)) ->
    mem dest (message_destinations s) = true -> contains dest (a_artifacts a) = false ->
    exists m pa a1, mk r s dest = Ok (m, pa) /\ add_artifact a pa = (a1, Ok tt) /\
      act r net (ASend v dest) = Some (Ok (mkNet (insert v (Running (DS s a1 todo)) (nodes net)) (flight net ++ [(v, m)]))).
  Proof.
    intros Hg Hnd Hm Ha. pose proof (Gid _ Hg Hnd) as Hid. cbn [d_s] in Hid.
    assert (Hact : exists o, act r net (ASend v dest) = Some o) by (cbn [act]; rewrite Hnd; cbn [d_s d_a]; rewrite Hm, Ha; cbn; eauto).
    destruct Hact as [o Hact]. destruct (Gstep _ Hg Hact) as (net1 & -> & Hg1). pose proof Hact as Hact0.
    cbn [act] in Hact. rewrite Hnd in Hact. cbn [d_s d_a d_todo] in Hact. rewrite Hm, Ha in Hact. cbn [negb andb] in Hact. apply some_inj in Hact.
    unfold mk. rewrite Hid. destruct (make_message s (nr_msg r v (s_round_id s) dest) dest) as [[m pa]|e|]; try discriminate. cbn [bind] in Hact.
    unfold with_accum in Hact. destruct (add_artifact a pa) as [a1 [[]|e|]] eqn:Ea; try discriminate. cbn [bind] in Hact. injection Hact as <-.
    exists m, pa, a1. auto.
  Qed.
  Lemma can_process net v (s : Session Pr) a todo i vm rest : G net -> get v (nodes net) = Some (Running (DS s a todo)) ->
    take_nth i todo = Some (vm, rest) -> exists a1, add_processed s a (process_message s vm) = (a1, Ok tt) /\
      act r net (AProcess v i) = Some (Ok (set_node net v (Running (DS s a1 rest)))).
  Proof.
    intros Hg Hnd Ht.
    assert (Hact : exists o, act r net (AProcess v i) = Some o) by (cbn [act]; rewrite Hnd; cbn [d_todo]; rewrite Ht; eauto).
    destruct Hact as [o Hact]. destruct (Gstep _ Hg Hact) as (net1 & -> & Hg1). pose proof Hact as Hact0.
    cbn [act] in Hact. rewrite Hnd in Hact. cbn [d_s d_a d_todo] in Hact. rewrite Ht in Hact. apply some_inj in Hact. unfold with_accum in Hact.
    destruct (add_processed s a (process_message s vm)) as [a1 [[]|e|]] eqn:Ea; try discriminate. cbn [bind] in Hact. injection Hact as <-.
    exists a1. auto.
  Qed.

  Lemma one (net : Net Pr) x net1 : act r net x = Some (Ok net1) -> later r net1 net.
  Proof. intros Hx. exists x, []. econstructor; [exact Hx|constructor]. Qed.

  Lemma own_sim v pn net x act ls p' : G net -> prel pn net -> get v (pn_nodes pn) = Some (PRun x) -> own act = true ->
    par_step r (PRun x) act = Some (ls, p') ->
    exists net', G net' /\ prel (mkPNet (insert v p' (pn_nodes pn)) (pn_flight pn ++ outs v ls)) net' /\
      moved (mkPNet (insert v p' (pn_nodes pn)) (pn_flight pn ++ outs v ls)) pn net' net.
  Proof.
    intros Hg R Hv Ho Hs. destruct (pr_some R v Hv) as (Hk & nd & Hnd & [Hx (todo & Ht & ->)]). pose proof Hs as Hs0.
    pose proof (pg_inv Hx) as I. pose proof (Gid _ Hg Hnd) as Hid. cbn [d_s] in Hid.
    assert (Hgo : forall dest, In dest (to_go x) -> exists m pa a1, mk r (pp_s x) dest = Ok (m, pa) /\ add_artifact (pp_a x) pa = (a1, Ok tt) /\
      Network.act r net (ASend v dest) = Some (Ok (mkNet (insert v (Running (DS (pp_s x) a1 todo)) (nodes net)) (flight net ++ [(v, m)])))).
    { intros dest Hin. destruct (pi_todo I dest Hin) as [Hm Ha]. eapply can_make; eauto. }
    destruct act as [i|i| |[]| |from m| | |]; try discriminate Ho; clear Ho; cbn [par_step] in Hs.
    - (* creation tasks *)
      destruct (nth_error (pp_c x) i) as [[dest|dest m pa|o]|] eqn:En; try discriminate.
      + destruct (set_nth_split i (pp_c x) (mk_task r (pp_s x) dest) En) as (l1 & l2 & E1 & E2).
        assert (Hin : In dest (to_go x)). { unfold to_go. rewrite E1. apply in_app_iff. left. rewrite pend_c_app. apply in_app_iff. right. now left. }
        destruct (Hgo dest Hin) as (m & pa & a1 & Hmk & _). unfold mk_task in E2. rewrite Hmk in E2. unfold mk in Hmk. rewrite Hmk, E2 in Hs. stp Hs.
        apply (@silent_sim v pn net x _ _ Hg R Hv Hs0 eq_refl eq_refl); cbn [set_c pp_c pp_p pp_phase]; [apply Permutation_refl| |exact (pg_p Hx)|exact (pg_phase Hx)].
        intros o Hin'. apply (pg_c Hx). rewrite E1. apply in_app_iff in Hin' as [H|[H|H]]; [|discriminate|]; apply in_app_iff; [auto|right; now right].
      + destruct (Nat.ltb _ _) eqn:El; try discriminate. destruct (set_nth_split i (pp_c x) (CEnd (Ok tt)) En) as (l1 & l2 & E1 & E2).
        rewrite E2 in Hs. stp Hs. apply (@silent_sim v pn net x _ _ Hg R Hv Hs0 eq_refl eq_refl);
          cbn [set_c set_out pp_c pp_p pp_phase]; [apply Permutation_refl| |exact (pg_p Hx)|exact (pg_phase Hx)].
        intros o Hin'. apply in_app_iff in Hin' as [H|[H|H]]; [|now inv H|]; apply (pg_c Hx); rewrite E1; apply in_app_iff; [auto|right; now right].
    - (* processing tasks *)
      destruct (nth_error (pp_p x) i) as [[vm|pm|o]|] eqn:En; try discriminate.
      + destruct (set_nth_split i (pp_p x) (hd_task (pp_s x) vm) En) as (l1 & l2 & E1 & E2).
        assert (Hin : In vm todo).
        { apply (Permutation_in _ (Permutation_sym Ht)). unfold handed. rewrite E1, flat_map_app. apply in_app_iff. left. apply in_app_iff. right. now left. }
        destruct (take_in _ _ Hin) as (j & rest & Etk & _). destruct (can_process _ _ Hg Hnd Etk) as (a1 & Ha & _).
        assert (Hnp : pm_res (process_message (pp_s x) vm) <> Panic).
        { intros Hp. unfold add_processed in Ha. rewrite Hp in Ha. destruct (contains _ _); [discriminate|]. destruct (negb _); discriminate. }
        assert (Ehd : hd_task (pp_s x) vm = PSend (process_message (pp_s x) vm)) by (unfold hd_task; destruct (pm_res (process_message (pp_s x) vm)); congruence).
        cbn zeta in Hs. fold (hd_task (pp_s x) vm) in Hs. rewrite E2 in Hs. rewrite Ehd in *. stp Hs.
        apply (@silent_sim v pn net x _ _ Hg R Hv Hs0 eq_refl eq_refl);
          cbn [set_p pp_c pp_p pp_phase]; [|exact (pg_c Hx)| |exact (pg_phase Hx)].
        * unfold handed. cbn [set_p pp_p pp_proc]. rewrite E1, !flat_map_app. apply Permutation_refl.
        * intros o Hin'. apply (pg_p Hx). rewrite E1. apply in_app_iff in Hin' as [H|[H|H]]; [|discriminate|]; apply in_app_iff; [auto|right; now right].
      + destruct (Nat.ltb _ _) eqn:El; try discriminate. destruct (set_nth_split i (pp_p x) (PEnd (Ok tt)) En) as (l1 & l2 & E1 & E2).
        rewrite E2 in Hs. stp Hs. apply (@silent_sim v pn net x _ _ Hg R Hv Hs0 eq_refl eq_refl);
          cbn [set_p set_proc pp_c pp_p pp_phase]; [|exact (pg_c Hx)| |exact (pg_phase Hx)].
        * unfold handed. cbn [set_p set_proc pp_p pp_proc]. rewrite E1, !flat_map_app, map_app. cbn [flat_map app map].
          rewrite <- !app_assoc. apply Permutation_app_head. cbn [app].
          rewrite app_assoc. apply Permutation_cons_append.
        * intros o Hin'. apply in_app_iff in Hin' as [H|[H|H]]; [|now inv H|]; apply (pg_p Hx); rewrite E1; apply in_app_iff; [auto|right; now right].
    - (* beginning to send *)
      destruct (pp_hand x); try discriminate. destruct (pp_out x); try discriminate. destruct (looks x); try discriminate. stp Hs.
      apply (@silent_sim v pn net x _ _ Hg R Hv Hs0 eq_refl eq_refl); [apply Permutation_refl|apply Hx..].
    - (* sending *)
      destruct (pp_hand x) eqn:Eh; try discriminate. unfold put_out in Hs. destruct (pp_out x) as [|[[dest m] pa] out] eqn:Eo; try discriminate. stp Hs.
      assert (Hin : In dest (to_go x)) by (unfold to_go; rewrite Eo; apply in_app_iff; right; now left).
      destruct (Hgo dest Hin) as (m' & pa' & a1 & Hmk & Ha & Hact). rewrite (pi_out I dest m pa) in Hmk; [|rewrite Eo; now left]. inv Hmk.
      rewrite Ha in *. cbn [acc_call bind par_try fst] in *. destruct (Gstep _ Hg Hact) as (net1 & E & Hg1). inv E.
      eexists. split; [exact Hg1|]. cbn [outs flat_map app]. rewrite (pr_flight R). split; [|left; exact (one _ _ Hact)].
      eapply prel_upd; [exact R|exact Hk| |apply get_insert_eq|intros w Hw; now apply get_insert_ne].
      split; [|exists todo; auto]. constructor; cbn [set_acc set_hand set_out pp_c pp_p pp_phase]; [| |apply Hx..].
      + exact (pst_pinv (@par_step_pst _ _ r _ _ _ _ Hs0) I).
      + exact (pst_handy (@par_step_pst _ _ r _ _ _ _ Hs0) (pg_hand Hx)).
    - (* processed messages *)
      destruct (pp_hand x) eqn:Eh; try discriminate. destruct (pp_phase x) eqn:Ep; try discriminate. destruct (can_finalize (pp_a x)) eqn:Ec; try discriminate.
      destruct (pp_proc x) as [|pm q] eqn:Eq; try discriminate. stp Hs.
      assert (Epm : pm = process_message (pp_s x) (pm_msg pm)) by (apply (pi_proc I); rewrite Eq; now left).
      assert (Hin : In (pm_msg pm) todo).
      { apply (Permutation_in _ (Permutation_sym Ht)). unfold handed. rewrite Eq. apply in_app_iff. right. now left. }
      destruct (take_in _ _ Hin) as (j & rest & Etk & Hrest). destruct (can_process _ _ Hg Hnd Etk) as (a1 & Ha & Hact). rewrite <- Epm in Ha.
      rewrite Ha in *. cbn [acc_call bind par_try fst] in *. destruct (Gstep _ Hg Hact) as (net1 & E & Hg1). inv E.
      eexists. split; [exact Hg1|]. cbn [outs flat_map app]. rewrite app_nil_r, (pr_flight R). split; [|left; exact (one _ _ Hact)].
      unfold set_node. eapply prel_upd; [exact R|exact Hk| |apply get_insert_eq|intros w Hw; now apply get_insert_ne].
      split; [|exists rest; split; auto].
      + constructor; cbn [set_acc set_proc pp_c pp_p pp_phase]; [| |apply Hx..]; [exact (pst_pinv (@par_step_pst _ _ r _ _ _ _ Hs0) I)|].
        exact (pst_handy (@par_step_pst _ _ r _ _ _ _ Hs0) (pg_hand Hx)).
      + unfold handed in *. rewrite Eq in Ht. cbn [set_acc set_proc pp_p pp_proc map] in *.
        apply (Permutation_cons_inv (a := pm_msg pm)). eapply perm_trans; [apply Permutation_sym, Hrest|]. eapply perm_trans; [exact Ht|].
        apply Permutation_sym, Permutation_middle.
    - (* the driver *)
      destruct (pp_hand x) eqn:Eh; try discriminate. pose proof (pg_phase Hx) as Hph. pose proof (pi_phase I) as Hpi. destruct (pp_phase x) as [|b|b|b] eqn:Ep.
      + destruct (can_finalize (pp_a x)) eqn:Ec; try discriminate; [|destruct (Gnever _ Hg Hnd); exact Ec]. stp Hs.
        apply (@silent_sim v pn net x _ _ Hg R Hv Hs0 eq_refl eq_refl); cbn [set_phase pp_c pp_p pp_phase]; [apply Permutation_refl|apply Hx|apply Hx|reflexivity].
      + subst b. destruct (pp_c x) as [|[dest|dest m pa|o] c] eqn:Ec; try discriminate; stp Hs.
        * apply (@silent_sim v pn net x _ _ Hg R Hv Hs0 eq_refl eq_refl); cbn [set_phase pp_c pp_p pp_phase]; [apply Permutation_refl|apply Hx|apply Hx|reflexivity].
        * assert (o = Ok tt) as -> by (apply (pg_c Hx); rewrite Ec; now left). cbn [joined] in *.
          apply (@silent_sim v pn net x _ _ Hg R Hv Hs0 eq_refl eq_refl); cbn [set_c pp_c pp_p pp_phase]; [apply Permutation_refl| |apply Hx|now rewrite Ep].
          intros o Hin. apply (pg_c Hx). rewrite Ec. now right.
      + subst b. destruct (pp_p x) as [|[dest|pm|o] c] eqn:Ec; try discriminate; stp Hs.
        * apply (@silent_sim v pn net x _ _ Hg R Hv Hs0 eq_refl eq_refl); cbn [set_phase pp_c pp_p pp_phase]; [apply Permutation_refl|apply Hx|apply Hx|reflexivity].
        * assert (o = Ok tt) as -> by (apply (pg_p Hx); rewrite Ec; now left). cbn [joined] in *.
          apply (@silent_sim v pn net x _ _ Hg R Hv Hs0 eq_refl eq_refl); cbn [set_p pp_c pp_p pp_phase]; [|apply Hx| |now rewrite Ep].
          -- unfold handed. cbn [set_p pp_p pp_proc]. rewrite Ec. apply Permutation_refl.
          -- intros o Hin. apply (pg_p Hx). rewrite Ec. now right.
      + subst b. destruct (pp_out x) eqn:Eo; try discriminate. destruct Hpi as (_ & _ & Hy). specialize (Hy eq_refl).
        assert (Hall : all_sent (DS (pp_s x) (pp_a x) todo) = true) by (apply all_sent_iff; exact (drained I Ep Eo)).
        assert (Hact : exists o, act r net (AFinalize v) = Some o) by (cbn [act]; rewrite Hnd; cbn [d_a]; rewrite Hy, Hall; eauto).
        destruct Hact as [o Hact]. destruct (Gstep _ Hg Hact) as (net1 & -> & Hg1). pose proof (one _ _ Hact) as L.
        cbn [act] in Hact. rewrite Hnd in Hact. cbn [d_s d_a d_todo] in Hact. rewrite Hy, Hall in Hact. apply some_inj in Hact. rewrite Hid in Hs.
        destruct (finalize_round (pp_s x) (nr_fin r v (s_round_id (pp_s x))) (pp_a x)) as [ro|e|]; try discriminate. cbn [bind] in Hact. injection Hact as <-.
        exists (set_node net v (match ro with ROFinished rep => Ended rep | ROAnother s' c => Running (DS s' (make_accumulator s') c) end)).
        split; [exact Hg1|]. unfold set_node. rewrite (pr_flight R).
        destruct ro as [rep|s' c]; stp Hs; cbn [outs flat_map app]; rewrite app_nil_r; (split; [|left; exact L]);
          (eapply prel_upd; [exact R|exact Hk| |apply get_insert_eq|intros w Hw; now apply get_insert_ne]).
        * reflexivity.
        * split; [|exists c; split; [rewrite handed_enter; apply Permutation_refl|reflexivity]].
          constructor; cbn [par_enter pp_c pp_p pp_phase]; [apply pinv_enter|apply handy_enter| | |exact Logic.I]; intros o Hin; apply in_map_iff in Hin as (y & E & _); discriminate E.
  Qed.

  Lemma nstep_sim y pn pn' net : G net -> prel pn net -> nact r pn y = Some pn' ->
    exists net', G net' /\ prel pn' net' /\ moved pn' pn net' net.
  Proof.
    intros Hg R. destruct y as [v x|i]; cbn [nact].
    - destruct (get v (pn_nodes pn)) as [p|] eqn:Hv; try discriminate. destruct (own x) eqn:Ho; try discriminate.
      destruct (par_step r p x) as [[ls p']|] eqn:Hs; try discriminate. intros E. apply some_inj in E. subst pn'.
      destruct p as [st|o]; [|discriminate Hs]. exact (@own_sim v pn net st x ls p' Hg R Hv Ho Hs).
    - destruct (take_nth i (pn_flight pn)) as [[[from m] rest]|] eqn:Et; try discriminate.
      destruct (get (msg_dest m) (pn_nodes pn)) as [p|] eqn:Hv; try discriminate. destruct (pr_some R _ Hv) as (Hk & nd & Hnd & Hd).
      assert (Hact : exists o, act r net (ADeliver i) = Some o).
      { cbn [act]. rewrite <- (pr_flight R), Et, Hnd. destruct nd; eauto. }
      destruct Hact as [o Hact]. destruct (Gstep _ Hg Hact) as (net1 & -> & Hg1). pose proof (one _ _ Hact) as L.
      cbn [act] in Hact. rewrite <- (pr_flight R), Et, Hnd in Hact. destruct p as [x|o].
      + destruct Hd as [Hx (todo & Ht & ->)]. cbn [d_s d_a d_todo] in Hact. apply some_inj in Hact. unfold with_accum in Hact.
        destruct (par_step r (PRun x) (AReceive from m)) as [[ls p']|] eqn:Hs; try discriminate. pose proof Hs as Hs0. cbn [par_step] in Hs.
        destruct (pp_hand x) eqn:Eh; try discriminate. destruct (pp_phase x) eqn:Ep; try discriminate. destruct (can_finalize (pp_a x)) eqn:Ec; try discriminate.
        destruct (preprocess_message (pp_s x) (pp_a x) from m) as [a1 [o|e|]] eqn:Epm; try discriminate. cbn [bind] in Hact. injection Hact as <-.
        cbn [acc_call bind par_try fst snd] in Hs. stp Hs. intros E. apply some_inj in E. subst pn'.
        eexists. split; [exact Hg1|]. split; [|left; exact L].
        eapply prel_upd; [exact R|exact Hk| |apply get_insert_eq|intros w Hw; now apply get_insert_ne].
        split; [|exists (match o with ToProcess vm => vm :: todo | _ => todo end); split; [|destruct o; reflexivity]].
        * constructor; [exact (pst_pinv (@par_step_pst _ _ r _ _ _ _ Hs0) (pg_inv Hx))|exact (pst_handy (@par_step_pst _ _ r _ _ _ _ Hs0) (pg_hand Hx))|..]; destruct o; cbn [set_p set_acc pp_c pp_p pp_phase]; try apply Hx.
          intros o Hin. apply in_app_iff in Hin as [Hin|[E|[]]]; [now apply (pg_p Hx)|discriminate E].
        * destruct o as [vm| |]; try exact Ht. unfold handed in *. cbn [set_p set_acc pp_p pp_proc]. rewrite flat_map_app. cbn [flat_map app].
          eapply perm_trans; [apply perm_skip, Ht|]. rewrite <- app_assoc. cbn [app]. apply Permutation_middle.
      + intros E. apply some_inj in E. subst pn'. cbn [pnode] in Hd. destruct o as [rep|e|]; try contradiction. subst nd. apply some_inj in Hact. injection Hact as <-.
        eexists. split; [exact Hg1|]. split; [|left; exact L]. constructor; cbn [pn_flight flight pn_nodes nodes]; auto; apply R.
  Qed.

  (** A driver that cannot go on by itself has sent and processed everything, and waits for messages. *)
  Lemma own_progress (x : PState Pr) : pgood x -> length (elements (message_destinations (pp_s x))) <= capacity ->
    (can_finalize (pp_a x) = Yes -> length (handed x) <= capacity) ->
    (exists act ls p, own act = true /\ par_step r (PRun x) act = Some (ls, p)) \/
    (pp_phase x = Loop /\ can_finalize (pp_a x) = NotYet /\ pp_hand x = false /\ to_go x = [] /\ handed x = []).
  Proof.
    intros Hx Hd Hh. pose proof (pg_inv Hx) as I. pose proof (to_go_bound I) as Hb. unfold to_go in *. rewrite app_length, map_length in Hb.
    unfold handed in *. rewrite app_length, map_length in Hh. pose proof (pi_phase I) as Hph. pose proof (pg_phase Hx) as Htrue.
    pose proof (channel_bound x) as Hcb. destruct (pp_hand x) eqn:Eh; [left; destruct (@can_put P Pr r x (pg_hand Hx) Eh) as (ls & p & Hp); exists (APut true); eauto|].
    destruct (pp_phase x) as [|b|b|b] eqn:Hp.
    - destruct (can_finalize (pp_a x)) eqn:Hc; try (left; exists AGo; cbn [par_step]; rewrite Eh, Hp, Hc; eauto; fail).
      destruct (pp_out x) as [|[[dest m] pa] out] eqn:Eo; [|left; exists ATakeOut; cbn [par_step]; rewrite Eh, Eo; unfold looks; rewrite Hp, Hc; eauto].
      destruct (pp_proc x) as [|pm q] eqn:Eq; [|left; exists ATakeProcessed; cbn [par_step]; rewrite Eh, Hp, Hc, Eq; eauto].
      assert (Kc : pend_c (pp_c x) = [] \/ exists i t, nth_error (pp_c x) i = Some t /\ match t with CEnd _ => False | _ => True end).
      { clear. induction (pp_c x) as [|t c IH]; auto. destruct t as [dest|dest m pa|o].
        - right. exists 0. eexists. split; [reflexivity|exact Logic.I].
        - right. exists 0. eexists. split; [reflexivity|exact Logic.I].
        - destruct IH as [IH|(i & t & E & H)]; [left; exact IH|right; exists (S i), t; auto]. }
      assert (Kp : pend_p (pp_p x) = [] \/ exists i t, nth_error (pp_p x) i = Some t /\ match t with PEnd _ => False | _ => True end).
      { clear. induction (pp_p x) as [|t c IH]; auto. destruct t as [vm|pm|o].
        - right. exists 0. eexists. split; [reflexivity|exact Logic.I].
        - right. exists 0. eexists. split; [reflexivity|exact Logic.I].
        - destruct IH as [IH|(i & t & E & H)]; [left; exact IH|right; exists (S i), t; auto]. }
      destruct Kc as [Kc|(i & t & Et & Hnt)]; [|left; exists (ACreate i); cbn [par_step]; rewrite Et; destruct t; try contradiction; [eauto|]; unfold in_channel; rewrite Eh, Eo; cbn; eauto].
      destruct Kp as [Kp|(i & t & Et & Hnt)]; [|left; exists (AHandle i); cbn [par_step]; rewrite Et; destruct t; try contradiction; [eauto|rewrite Eq; cbn; eauto]].
      right. split; auto. split; auto. split; auto. rewrite Kc. split; auto. cbn [map]. rewrite app_nil_r. exact Kp.
    - left. destruct (pp_c x) as [|[dest|dest m pa|o] c] eqn:Hc.
      + exists AGo. cbn [par_step]. rewrite Eh, Hp, Hc. eauto.
      + exists (ACreate 0). cbn [par_step]. rewrite Hc. cbn [nth_error]. eauto.
      + exists (ACreate 0). cbn [par_step]. rewrite Hc. cbn [nth_error]. cbn [pend_c flat_map app length] in Hb. rewrite (proj2 (Nat.ltb_lt _ _)); [eauto|lia].
      + exists AGo. cbn [par_step]. rewrite Eh, Hp, Hc. eauto.
    - left. destruct (pp_p x) as [|[vm|pm|o] c] eqn:Hc.
      + exists AGo. cbn [par_step]. rewrite Eh, Hp, Hc. eauto.
      + exists (AHandle 0). cbn [par_step]. rewrite Hc. cbn [nth_error]. eauto.
      + exists (AHandle 0). cbn [par_step]. rewrite Hc. cbn [nth_error]. specialize (Hh (proj2 Hph Htrue)). cbn [flat_map app length] in Hh. rewrite (proj2 (Nat.ltb_lt _ _)); [eauto|lia].
      + exists AGo. cbn [par_step]. rewrite Eh, Hp, Hc. eauto.
    - left. destruct (pp_out x) as [|[[dest m] pa] out] eqn:Ho.
      + exists AGo. cbn [par_step]. rewrite Eh, Hp, Ho. destruct b; eauto. destruct (finalize_round _ _ _) as [[rep|s c]|e|]; eauto 6.
      + exists ATakeOut. cbn [par_step]. rewrite Eh, Ho. unfold looks. rewrite Hp. eauto.
  Qed.

  (** If something can happen in the network, then a driver can go on. *)
  Lemma nstep_back pn net x o : G net -> prel pn net -> act r net x = Some o -> exists y pn', nact r pn y = Some pn'.
  Proof.
    intros Hg R Hx.
    assert (Kgo : forall v st d, get v (pn_nodes pn) = Some (PRun st) -> get v (nodes net) = Some (Running d) ->
      (exists y pn', nact r pn y = Some pn') \/
      (pp_phase st = Loop /\ can_finalize (d_a d) = NotYet /\ pp_hand st = false /\ d_s d = pp_s st /\ d_a d = pp_a st /\
       (forall u, mem u (message_destinations (d_s d)) = true -> contains u (a_artifacts (d_a d)) = true) /\ d_todo d = [])).
    { intros v st d Hv Hnd. destruct (pr_some R v Hv) as (_ & nd & Hnd' & [Hst (todo & Ht & ->)]). rewrite Hnd in Hnd'. inv Hnd'.
      destruct (Gcap _ Hg Hnd) as [Hc1 Hc2]. cbn [d_s d_a d_todo] in *. rewrite (Permutation_length Ht) in Hc2.
      destruct (own_progress Hst Hc1 Hc2) as [(a & ls & p & Ho & Hs)|(H1 & H2 & Hhd & H3 & H4)].
      - left. exists (NStep v a). cbn [nact]. rewrite Hv, Ho, Hs. eauto.
      - right. split; auto. split; auto. split; auto. split; auto. split; auto. split.
        + intros u Hu. destruct (pi_all (pg_inv Hst) u Hu) as [H|[H|(e & H & Hne)]]; auto; [rewrite H3 in H; contradiction|].
          destruct Hne. exact (pg_c Hst _ H).
        + rewrite H4 in Ht. apply Permutation_nil. now apply Permutation_sym. }
    assert (Knode : forall v d, get v (nodes net) = Some (Running d) -> exists st, get v (pn_nodes pn) = Some (PRun st)).
    { intros v d Hnd. destruct (get v (pn_nodes pn)) as [p|] eqn:Hp; [|rewrite (pr_none R v Hp) in Hnd; discriminate].
      destruct (pr_some R v Hp) as (_ & nd & Hnd' & Hpn). rewrite Hnd in Hnd'. inv Hnd'.
      destruct p as [st|[rep|e|]]; [eauto|discriminate Hpn|contradiction Hpn|contradiction Hpn]. }
    destruct x as [v u|i|v i|v]; cbn [act] in Hx.
    - destruct (get v (nodes net)) as [[d|rep]|] eqn:Ev; try discriminate. destruct (Knode v d Ev) as (st & Hst).
      destruct (Kgo v st d Hst Ev) as [K|(_ & _ & _ & _ & _ & K & _)]; auto.
      destruct (mem u (message_destinations (d_s d))) eqn:Hu; [|discriminate]. rewrite (K u Hu) in Hx. discriminate.
    - destruct (take_nth i (flight net)) as [[[from m] rest]|] eqn:Et; try discriminate.
      destruct (get (msg_dest m) (pn_nodes pn)) as [[st|o']|] eqn:Hd.
      + destruct (pr_some R _ Hd) as (_ & nd & Hnd & [Hst (todo & Ht & ->)]).
        destruct (Kgo _ st _ Hd Hnd) as [K|(K1 & K2 & K3 & _)]; auto. cbn [d_a] in K2.
        exists (NDeliver i). cbn [nact]. rewrite (pr_flight R), Et, Hd. cbn [par_step]. rewrite K3, K1, K2. eauto.
      + exists (NDeliver i). cbn [nact]. rewrite (pr_flight R), Et, Hd. eauto.
      + destruct (@Gstep net (ADeliver i) o Hg) as (net' & -> & _); [cbn [act]; rewrite Et; exact Hx|].
        rewrite (pr_none R _ Hd) in Hx. discriminate.
    - destruct (get v (nodes net)) as [[d|rep]|] eqn:Ev; try discriminate. destruct (Knode v d Ev) as (st & Hst).
      destruct (Kgo v st d Hst Ev) as [K|(_ & _ & _ & _ & _ & _ & K)]; auto. rewrite K in Hx. destruct i; discriminate.
    - destruct (get v (nodes net)) as [[d|rep]|] eqn:Ev; try discriminate. destruct (Knode v d Ev) as (st & Hst).
      destruct (Kgo v st d Hst Ev) as [K|(_ & K & _)]; auto. rewrite K in Hx. discriminate.
  Qed.

  Lemma nsched_sim pn xs pn' net : G net -> prel pn net -> nschedule r pn xs pn' -> exists net', G net' /\ prel pn' net'.
  Proof.
    intros Hg R H. induction H as [|pn xs pn1 x pn2 H IH Hx]; [eauto|]. destruct (IH R) as (net1 & Hg1 & R1).
    destruct (nstep_sim x Hg1 R1 Hx) as (net2 & Hg2 & R2 & _). eauto.
  Qed.
  Lemma pnet_acc net : G net -> forall pn, prel pn net -> Acc (fun b a : PNet Pr => exists x, nact r a x = Some b) pn.
  Proof.
    intros Hg. pose proof (@later_acc _ _ r G Gacc net Hg) as HA. revert Hg. induction HA as [net _ IH]. intros Hg pn.
    remember (wsum (pn_nodes pn)) as n eqn:En. revert pn En. induction n as [n IHn] using lt_wf_ind. intros pn -> R. constructor. intros pn' [x Hx].
    destruct (nstep_sim x Hg R Hx) as (net' & Hg' & R' & [L|[-> L]]); [exact (IH net' L Hg' _ R')|exact (IHn _ L _ eq_refl R')].
  Qed.
  Lemma pnet_finite net : G net -> forall pn, prel pn net -> forall f : nat -> PNet Pr, f 0 = pn -> ~ forall i, exists x, nact r (f i) x = Some (f (S i)).
  Proof.
    intros Hg pn R. pose proof (pnet_acc Hg R) as HA. clear R. induction HA as [pn _ IH]. intros f E Hall.
    apply (IH (f 1)) with (f := fun i => f (S i)); auto. rewrite <- E. apply Hall.
  Qed.
End Sim.

Section Honest.
  Context {P : Params}.
  Context {Pr : Proto}.
  Variable r : NetRng.
  Variable sid : bytes.
  Variable parties : bset Verifier.
  Variable ep : Verifier -> EntryPoint Pr.
  Variable h : Plan Pr.
  Variable sk : Verifier -> Signer.
  Hypothesis Hsk : signers parties sk.
  Hypothesis Hwire : wire_total P.
  Hypothesis Hsig : signatures_correct P.
  Hypothesis HR : honest_run r sid parties ep h.

  Notation good := (good_net sid parties h sk).

  Section Few.
  Hypothesis Hfew : length (elements parties) <= 101.

  Lemma few v l : mem v parties = true -> NoDup l -> (forall u, In u l -> mem u parties = true /\ u <> v) -> length l <= capacity.
  Proof.
    intros Hv Hnd Hl. assert (H : length (v :: l) <= length (elements parties)).
    { apply NoDup_incl_length; [constructor; auto; intros Hin; destruct (Hl v Hin); congruence|].
      intros u [<-|Hin]; apply in_elements; auto. now apply Hl. }
    simpl in H. unfold capacity. lia.
  Qed.

  Lemma good_cap net v d : good net -> get v (nodes net) = Some (Running d) ->
    length (elements (message_destinations (d_s d))) <= capacity /\ length (d_todo d) <= capacity.
  Proof.
    intros [ph I] Hv. destruct (mem v parties) eqn:Hp; [|rewrite (ni_none I v Hp) in Hv; discriminate].
    pose proof (ni_node I v Hp) as Hn. rewrite Hv in Hn. destruct Hn as (Hf & Gs & A). pose proof Hf as [Hf1 _]. split.
    - unfold message_destinations. rewrite (gs_comm Gs). cbn [ci_dest]. apply (@few v); auto; [apply NoDup_elements|].
      intros u Hu. apply in_elements in Hu. eapply (dst_party HR); eauto.
    - assert (Hex : forall m, In m (d_todo d) -> mem (vm_from m) parties = true /\ vm_from m <> v).
      { intros m Hm. destruct (ga_todo A m Hm) as [_ Hm']. eapply (exp_party HR); eauto. }
      rewrite <- (map_length vm_from). apply (@few v); auto.
      + assert (K : forall u, mem u parties = true -> cnt_todo (d_todo d) u <= 1).
        { intros u Hu. pose proof (@ni_count _ _ _ _ _ _ _ _ I u v (ph v) Hu Hp Hf) as C. unfold held in C. rewrite Hv, !Nat.eqb_refl, Nat.leb_refl in C.
          unfold b2n in C. destruct (sent _ _ _ _ _ _); lia. }
        assert (K2 : forall u, In u (map vm_from (d_todo d)) -> cnt_todo (d_todo d) u <= 1).
        { intros u Hu. apply in_map_iff in Hu as (m & <- & Hm). apply K. now apply Hex. }
        clear -K2. induction (d_todo d) as [|m l IH]; cbn [map]; [constructor|]. constructor.
        * intros Hin. specialize (K2 (vm_from m) (or_introl eq_refl)). unfold cnt_todo in K2. cbn [filter] in K2. rewrite eqb_refl in K2. cbn [length] in K2.
          apply in_map_iff in Hin as (m' & Em & Hm'). assert (Hf : In m' (filter (fun m0 => eqb (vm_from m0) (vm_from m)) l)).
          { apply filter_In. split; auto. rewrite Em. apply eqb_refl. }
          destruct (filter _ l); [contradiction|]. simpl in K2. lia.
        * apply IH. intros u Hu. specialize (K2 u (or_intror Hu)). unfold cnt_todo in *. cbn [filter] in K2. destruct (eqb _ _); simpl in K2; lia.
      + intros u Hu. apply in_map_iff in Hu as (m & <- & Hm). now apply Hex.
  Qed.

  Lemma few_few : few_destinations parties h.
  Proof.
    intros k v Hk Hv. split; [|intros He]; apply (@few v); auto; try apply NoDup_elements; intros u Hu; apply in_elements in Hu.
    - exact (@dst_party _ _ _ _ _ _ _ HR (k, false) v u Hk Hv Hu).
    - apply (@dst_party _ _ _ _ _ _ _ HR (k, true) v u Hk Hv). unfold dst. cbn [fst snd]. now rewrite He.
  Qed.
  End Few.

  Lemma few_cap net v d : few_destinations parties h -> good net -> get v (nodes net) = Some (Running d) ->
    length (elements (message_destinations (d_s d))) <= capacity /\ (can_finalize (d_a d) = Yes -> length (d_todo d) <= capacity).
  Proof.
    intros Hfew [ph I] Hv. destruct (mem v parties) eqn:Hp; [|rewrite (ni_none I v Hp) in Hv; discriminate].
    pose proof (ni_node I v Hp) as Hn. rewrite Hv in Hn. destruct Hn as (Hf & Gs & A). pose proof Hf as [Hf1 Hf2]. split.
    - unfold message_destinations. rewrite (gs_comm Gs). cbn [ci_dest]. destruct (Hfew _ v Hf1 Hp) as [K1 K2].
      unfold dst. destruct (snd (ph v)); [|exact K1]. rewrite Hf2; auto.
    - intros Hy. destruct (d_todo d) as [|m l] eqn:Ed; [simpl; unfold capacity; lia|]. exfalso.
      destruct (ga_todo A m) as [_ Hm]; [now left|]. pose proof (yes_complete A Hy _ Hm) as Hc. destruct (@exp_party _ _ _ _ _ _ _ HR (ph v) v (vm_from m) Hf1 Hp Hm) as [Hu _].
      pose proof (@ni_count _ _ _ _ _ _ _ _ I (vm_from m) v (ph v) Hu Hp Hf) as C. unfold held in C. rewrite Hv, !Nat.eqb_refl, Nat.leb_refl, Ed, Hc in C.
      unfold cnt_todo in C. cbn [filter] in C. rewrite eqb_refl in C. cbn [length] in C. unfold b2n in C. destruct (sent _ _ _ _ _ _); lia.
  Qed.

  Lemma pstarts : forall ps l', map_res (fun p : Signer * EntryPoint Pr =>
      let* s := session_new (nr_new r (signer_key (fst p))) sid (fst p) (snd p) in Ok (signer_key (fst p), Running (start s))) ps = Ok l' ->
    exists l, map_res (fun p : Signer * EntryPoint Pr =>
      let* s := session_new (nr_new r (signer_key (fst p))) sid (fst p) (snd p) in Ok (signer_key (fst p), PRun (par_enter s []))) ps = Ok l /\
    map fst l = map fst l' /\ forall v d, In (v, d) l -> exists nd, In (v, nd) l' /\ pnode r d nd.
  Proof.
    induction ps as [|[k e] ps IH]; intros l' E; [inv E; exists []; repeat split; auto; contradiction|].
    cbn [map_res fst snd] in *. destruct (session_new _ _ _ _) as [s|er|]; try discriminate. cbn [bind] in *.
    destruct (map_res _ _) as [l1|er|]; try discriminate. cbn [bind] in E. inv E. destruct (IH _ eq_refl) as (l & -> & H1 & H2). cbn [bind].
    eexists. split; [reflexivity|]. split; [simpl; now rewrite H1|]. intros v d [E|Hin].
    - apply (f_equal snd) in E as E2. apply (f_equal fst) in E. cbn [fst snd] in *. subst v d. exists (Running (start s)). split; [now left|].
      split; [|exists []; split; [rewrite handed_enter; constructor|reflexivity]].
      constructor; cbn [par_enter pp_c pp_p pp_phase]; [apply pinv_enter|apply handy_enter| | |exact Logic.I]; intros o Hin; apply in_map_iff in Hin as (y & E & _); discriminate E.
    - destruct (H2 v d Hin) as (nd & Hn & Hd). exists nd. split; auto. now right.
  Qed.

  Lemma pnet_started : exists pn net, honest_pnet r sid parties sk ep = Ok pn /\ good net /\ prel r (elements parties) pn net.
  Proof.
    destruct (start_ok sk Hsk Hwire Hsig HR) as (net0 & E0 & I0). pose proof E0 as E1. unfold net_start in E1.
    destruct (map_res _ _) as [l'|e|] eqn:El; try discriminate. cbn [bind] in E1. injection E1 as <-.
    destruct (@net_start_nodes _ _ r sid parties ep sk Hsk (elements parties)) with (l' := l') as [Hk _]; [intros v; apply in_elements|exact El|].
    destruct (pstarts _ El) as (l & Ed & H1 & H2). unfold honest_pnet, pnet_start. rewrite Ed. cbn [bind].
    exists (mkPNet (of_list l) []), (mkNet (of_list l') []). split; auto. split; [eexists; exact I0|].
    assert (Hnd : NoDup (map fst l)) by (rewrite H1, Hk; apply NoDup_elements).
    constructor; cbn [pn_flight flight pn_nodes nodes]; auto.
    - intros v Hv. apply get_of_list_none. rewrite <- H1. intros Hin. apply in_map_iff in Hin as ([w d] & Ew & Hin). simpl in Ew. subst w.
      rewrite (proj2 (get_of_list_nodup _ _ _ Hnd) Hin) in Hv. discriminate.
    - intros v d Hv. assert (Hin : In (v, d) l) by now apply get_of_list_nodup.
      split; [rewrite <- Hk, <- H1; apply in_map_iff; exists (v, d); auto|].
      destruct (H2 v d Hin) as (nd & Hn & Hd). exists nd. split; auto. apply get_of_list_nodup; auto. now rewrite <- H1.
  Qed.

  Lemma honest_par_any : exists pn0, honest_pnet r sid parties sk ep = Ok pn0 /\
    (forall xs pn, nschedule r pn0 xs pn ->
       (forall v p, get v (pn_nodes pn) = Some p -> match p with PStop o => exists rep, o = Ok rep /\ rep_outcome rep = OResult (pl_result h v) /\ no_errors (Ended rep) | _ => True end) /\
       Acc (fun b a : PNet Pr => exists x, nact r a x = Some b) pn /\
       (few_destinations parties h -> (all_stopped parties h pn /\ pn_flight pn = []) \/ exists x pn', nact r pn x = Some pn')) /\
    (forall f : nat -> PNet Pr, f 0 = pn0 -> ~ forall i, exists x, nact r (f i) x = Some (f (S i))).
  Proof.
    destruct pnet_started as (pn0 & net0 & E & Hg & R). exists pn0. split; auto.
    assert (Gs : forall net x o, good net -> act r net x = Some o -> exists net', o = Ok net' /\ good net') by (intros net x o; exact (good_step Hsk Hwire Hsig HR x (o := o))).
    assert (Gi : forall net v d, good net -> get v (nodes net) = Some (Running d) -> s_verifier (d_s d) = v) by (intros net v d; apply good_node; auto).
    assert (Gn : forall net v d, good net -> get v (nodes net) = Some (Running d) -> can_finalize (d_a d) <> Never) by (intros net v d; apply good_never; auto).
    assert (Ga : forall net, good net -> Acc (follows r) net) by (intros net; exact (good_acc_net Hsk Hwire Hsig HR (net := net))).
    pose proof (NoDup_elements parties) as Hk.
    split.
    - intros xs pn Hs. destruct (@nsched_sim _ _ r good (elements parties) Hk Gs Gi Gn pn0 xs pn net0 Hg R Hs) as (net & Hg' & R'). split; [|split].
      + intros v d Hd. destruct d as [|o]; auto. destruct (pr_some R' v Hd) as (_ & nd & Hnd & Hn). cbn [pnode] in Hn.
        destruct o as [rep|e|]; try contradiction. subst nd. exists rep. split; auto. destruct Hg' as [ph I].
        destruct (mem v parties) eqn:Hv; [|rewrite (ni_none I v Hv) in Hnd; discriminate]. pose proof (ni_node I v Hv) as Hn. rewrite Hnd in Hn. split; apply Hn.
      + exact (@pnet_acc _ _ r good (elements parties) Hk Gs Gi Gn Ga net Hg' pn R').
      + intros Hfew. pose proof Hg' as [ph I]. destruct (progress Hsk Hwire Hsig HR I) as [[Hend Hfl]|(x & net2 & Hx)].
        * left. split; [|now rewrite (pr_flight R')]. intros v Hv. destruct (Hend v Hv) as (rep & Hrep & Ho & Hno). exists rep. split; auto.
          destruct (get v (pn_nodes pn)) as [d|] eqn:Hd; [|rewrite (pr_none R' v Hd) in Hrep; discriminate].
          destruct (pr_some R' v Hd) as (_ & nd & Hnd & Hdn). rewrite Hrep in Hnd. inv Hnd.
          destruct d as [x|[rep'|e|]]; simpl in Hdn; try contradiction; try (destruct Hdn as (_ & y & _ & Ey); discriminate Ey).
          now inv Hdn.
        * right. exact (@nstep_back _ _ r good (elements parties) Gs (fun net v d => @few_cap net v d Hfew) pn net x _ Hg' R' Hx).
    - exact (@pnet_finite _ _ r good (elements parties) Hk Gs Gi Gn Ga net0 Hg pn0 R).
  Qed.

  Lemma honest_par_few : few_destinations parties h -> exists pn0, honest_pnet r sid parties sk ep = Ok pn0 /\
    (forall xs pn, nschedule r pn0 xs pn ->
       (forall v p, get v (pn_nodes pn) = Some p -> match p with PStop o => exists rep, o = Ok rep /\ rep_outcome rep = OResult (pl_result h v) | _ => True end) /\
       ((forall x, nact r pn x = None) -> all_stopped parties h pn /\ pn_flight pn = [])) /\
    (forall f : nat -> PNet Pr, f 0 = pn0 -> ~ forall i, exists x, nact r (f i) x = Some (f (S i))).
  Proof.
    intros Hfew. destruct honest_par_any as (pn0 & E & H & Hf). exists pn0. split; auto. split; auto. intros xs pn Hs. destruct (H xs pn Hs) as (H1 & _ & H2). split.
    - intros v p Hp. specialize (H1 v p Hp). destruct p; auto. destruct H1 as (rep & ? & ? & _). eauto.
    - intros Hstop. destruct (H2 Hfew) as [K|(x & pn' & Hx)]; auto. rewrite Hstop in Hx. discriminate.
  Qed.
  Lemma honest_par_drivers : length (elements parties) <= 101 -> exists pn0, honest_pnet r sid parties sk ep = Ok pn0 /\
    (forall xs pn, nschedule r pn0 xs pn ->
       (forall v p, get v (pn_nodes pn) = Some p -> match p with PStop o => exists rep, o = Ok rep /\ rep_outcome rep = OResult (pl_result h v) | _ => True end) /\
       ((forall x, nact r pn x = None) -> all_stopped parties h pn /\ pn_flight pn = [])) /\
    (forall f : nat -> PNet Pr, f 0 = pn0 -> ~ forall i, exists x, nact r (f i) x = Some (f (S i))).
  Proof. intros H. exact (honest_par_few (few_few H)). Qed.

  (** Whatever has happened, everybody can still come to the end. *)
  Lemma honest_par_end pn0 : few_destinations parties h -> honest_pnet r sid parties sk ep = Ok pn0 ->
    forall xs pn, nschedule r pn0 xs pn -> exists ys pn', nschedule r pn ys pn' /\ all_stopped parties h pn'.
  Proof.
    intros Hfew E xs pn Hs. destruct honest_par_any as (pn1 & E1 & H & _). assert (pn1 = pn0) as -> by congruence. clear E1.
    destruct (H xs pn Hs) as (_ & HA & _). revert xs Hs. induction HA as [pn _ IH]. intros xs Hs.
    destruct (H xs pn Hs) as (_ & _ & K). destruct (K Hfew) as [[Hend _]|(x & pn' & Hx)]; [exists [], pn; split; [constructor|auto]|].
    destruct (IH pn' (ex_intro _ x Hx) (xs ++ [x])) as (ys & pn2 & S & Hst); [econstructor; eauto|].
    exists (x :: ys), pn2. split; auto. clear -Hx S. revert S. induction 1 as [|b ys c y d S IH Hy]; [change [x] with ([] ++ [x]); econstructor; [constructor|exact Hx]|].
    change (x :: ys ++ [y]) with ((x :: ys) ++ [y]). econstructor; eauto.
  Qed.
End Honest.
