(** What the drivers do is a history of the session (C124). *)
From Coq Require Import List NArith Bool Permutation.
From Verif Require Import Base BMap Errors RoundId Message Protocol Transcript Evidence Session Spec SpecCause Network SpecNet RunSync Driver SpecDriver Par
  SpecPar SpecParFailure SpecAgree SpecPerform SpecMissing SessionFacts FinalizeFacts RunFacts HistoryFacts IntakeFacts CauseFacts DriverFacts ParFacts AgreeFacts.
Import ListNotations.
Set Implicit Arguments.

Section WithParams.
  Context {P : Params}.
  Context {Pr : Proto}.
  Variable r : NetRng.
  Implicit Types (s : Session Pr) (l ls : list (dlabel Pr)) (es : list (event Pr)).

  Lemma performs_duty b d es ls d' : performs b r d es ls d' -> duty r d es d' /\ received_in es = inbox ls.
  Proof.
    induction 1 as [|es ls d1 from m o d2 H [I J] S N|es ls d1 from m vm d2 d3 H [I J] E S S'|es ls d1 vm d2 H [I J] S|es ls d1 g dest m x d2 H [I J] E M S
      |es ls d1 g d2 H [I J] E A S|es ls d1 H [I J] E].
    - split; [constructor|reflexivity].
    - rewrite received_app, inbox_app, J. split; [|reflexivity]. eapply duty_snoc; eauto. exact Logic.I.
    - rewrite received_app, inbox_app, J. split; [|reflexivity].
      change [@EPre P Pr from m (ToProcess vm); EProc vm] with ([@EPre P Pr from m (ToProcess vm)] ++ [EProc vm]). rewrite app_assoc.
      eapply duty_snoc; [eapply duty_snoc; [exact I|exact S|exact Logic.I]|exact S'|exact Logic.I].
    - rewrite received_app, inbox_app, J. split; [|reflexivity]. eapply duty_snoc; eauto. exact Logic.I.
    - rewrite received_app, inbox_app, J. split; [|reflexivity]. eapply duty_snoc; eauto.
    - rewrite received_app, inbox_app, J. split; [|reflexivity]. eapply duty_snoc; eauto. split; auto.
    - rewrite inbox_app, J. cbn [inbox flat_map]. rewrite app_nil_r. auto.
  Qed.

  (** ** [run_session] *)
  Lemma step_performs d0 (d : Drv Pr) i ls (d' : Drv Pr) : dinv d -> drv_step r d i = Some (ls, d') -> 
    forall x x' es l, drv_state d = Some x -> drv_state d' = Some x' -> performs true r d0 es l x -> exists es', performs true r d0 es' (l ++ ls) x'.
  Proof.
    destruct d as [s a dest dests c|s a vm c|s a|o]; intros I; cbn [drv_step]; try discriminate.
    - destruct I as (Hnd & Hl & Hc). destruct i; try discriminate; intros E.
      + destruct (make_message s _ dest) as [[m pa]|e|] eqn:Em; apply stp_inj in E as [-> ->]; try (intros x x' es l _ E; discriminate E).
        destruct (acc_call (add_artifact a pa)) as [[a1 []]|e|] eqn:Ea; cbn [drv_try fst]; try (intros x x' es l _ E; discriminate E).
        apply acc_call_ok in Ea. pose proof (proj2 (made_msg _ _ _ Em)) as Hpa.
        destruct pa as [u art]. cbn [fst] in Hpa. subst u. intros x x' es l E E' H. inv E. rewrite state_send in E'. inv E'.
        eexists. eapply pf_sent; [exact H|reflexivity|exact Em|]. eapply step_art; eauto. apply Hl. now left.
      + apply stp_inj in E as [-> ->]. destruct (make_message s _ dest) as [[m pa]|e|]; intros x x' es l _ E; discriminate E.
    - destruct i; try discriminate. intros E. apply stp_inj in E as [-> ->]. destruct (deliver_one s a vm) as [a1|e|] eqn:Ed; cbn [drv_try]; try (intros x x' es l _ E; discriminate E).
      apply deliver_ok in Ed. intros x x' es l E E' H. inv E. rewrite state_apply in E'. inv E'. eexists. eapply pf_processed; [exact H|].
      exact (@step_proc _ _ s a [] vm c _ Ed).
    - destruct (can_finalize a) eqn:Ec; destruct i as [| |from m| |]; try discriminate.
      + destruct (finalize_round s _ a) as [[rep|s1 c]|e|] eqn:Ef; intros E; apply stp_inj in E as [-> ->]; try (intros x x' es l _ E; discriminate E).
        intros x x' es l E E' H. inv E. unfold drv_enter in E'. rewrite state_send in E'. inv E'.
        assert (St : step (DS s a []) (EFin (nr_fin r (s_verifier s) (s_round_id s))) (DS s1 (make_accumulator s1) c)) by (eapply step_fin; eauto).
        eexists. exact (pf_next H eq_refl (proj1 (all_sent_iff s a []) I) St).
      + intros E. apply stp_inj in E as [-> ->]. destruct (acc_call (preprocess_message s a from m)) as [[a1 o]|e|] eqn:Ep; cbn [drv_try snd fst]; try (intros x x' es l _ E; discriminate E).
        apply acc_call_ok in Ep. destruct o as [vm| |].
        * destruct (deliver_one s a1 vm) as [a2|e|] eqn:Ed; cbn [drv_try]; try (intros x x' es l _ E; discriminate E).
          apply deliver_ok in Ed. intros x x' es l E E' H. inv E. inv E'. eexists.
          eapply pf_answered; [exact H|reflexivity|exact (@step_pre _ _ s a [] from m _ _ Ep)|exact (@step_proc _ _ s a1 [] vm [] _ Ed)].
        * intros x x' es l E E' H. inv E. inv E'. eexists. eapply pf_received; [exact H|exact (@step_pre _ _ s a [] from m _ _ Ep)|discriminate].
        * intros x x' es l E E' H. inv E. inv E'. eexists. eapply pf_received; [exact H|exact (@step_pre _ _ s a [] from m _ _ Ep)|discriminate].
      + intros E. apply stp_inj in E as [-> ->]. intros x x' es l _ E; discriminate E.
      + intros E. apply stp_inj in E as [-> ->]. intros x x' es l _ E; discriminate E.
      + intros E. apply stp_inj in E as [-> ->]. intros x x' es l _ E; discriminate E.
  Qed.

  Lemma run_performs s0 ls d x : run_session r s0 ls d -> drv_state d = Some x -> exists es ls', ls = LEnter s0 :: ls' /\ performs true r (start s0) es ls' x.
  Proof.
    intros (ls' & -> & H) E. enough (K : exists es, performs true r (start s0) es ls' x) by (destruct K as [es K]; eauto).
    remember (drv_enter s0 []) as d0 eqn:E0. revert x E. induction H as [d|d ls d1 i lx d2 Hr IH Hs]; intros x E; subst.
    - unfold drv_enter in E. rewrite state_send in E. inv E. exists []. constructor.
    - specialize (IH eq_refl). assert (I1 : dinv d1) by exact (proj1 (run_dinv Hr (dinv_enter s0 []))).
      destruct (drv_state d1) as [x1|] eqn:E1; [|destruct d1; discriminate].
      destruct (IH x1 eq_refl) as [es H]. exact (@step_performs _ d1 i lx d2 I1 Hs x1 x es ls E1 E H).
  Qed.

  Lemma run_closes s0 ls rep : run_session r s0 ls (DrvDone (Ok rep)) ->
    exists es l1 l2 d, ls = LEnter s0 :: l1 ++ l2 /\ performs true r (start s0) es l1 d /\ closes d r rep l2.
  Proof.
    intros (ls' & -> & H). apply run_last in H as [H|(l1 & d & i & l2 & H & Hs & ->)]; [exfalso; unfold drv_enter in H; destruct (elements _); discriminate|].
    pose proof (step_returns r d i Hs) as (s & a & -> & Hc).
    assert (I : dinv (DrvWait s a)) by exact (proj1 (run_dinv H (dinv_enter s0 []))).
    destruct (run_performs (ex_intro _ l1 (conj eq_refl H)) eq_refl) as (es & l & E & K). injection E as <-.
    exists es, l1, l2, (DS s a []). split; auto. split; auto.
    pose proof (proj1 (all_sent_iff s a []) I) as Al.
    cbn [drv_step] in Hs. unfold closes. cbn [d_s d_a]. destruct (can_finalize a) eqn:Ec; destruct i as [| |from m| |]; try discriminate.
    - left. destruct (finalize_round s _ a) as [[rep'|s1 c]|e|] eqn:Ef; apply stp_inj in Hs as [-> Hs]; try discriminate Hs; [inv Hs; auto|].
      exfalso. unfold drv_enter in Hs. destruct (elements _); [destruct c|]; discriminate.
    - exfalso. apply stp_inj in Hs as [_ Hs]. destruct (acc_call _) as [[a1 o]|e|]; cbn [drv_try snd fst] in Hs; try discriminate Hs.
      destruct o as [vm| |]; try discriminate Hs. destruct (deliver_one s a1 vm); discriminate Hs.
    - right. apply stp_inj in Hs as [-> Hs]. injection Hs as ->. auto.
    - right. apply stp_inj in Hs as [-> Hs]. injection Hs as ->. auto.
  Qed.

  (** ** [par_run_session] *)
  Lemma pst_performs d0 x ls p : pst r x ls p -> pinv r x -> forall todo rest es l, Permutation todo (handed x ++ rest) ->
    performs false r d0 es l (DS (pp_s x) (pp_a x) todo) ->
    match p with
    | PRun y => exists es' todo' rest', performs false r d0 es' (l ++ ls) (DS (pp_s y) (pp_a y) todo') /\ Permutation todo' (handed y ++ rest')
    | PStop _ => True
    end.
  Proof.
    intros H I todo rest es l Ht Hpf. unfold handed in *.
    assert (K0 : forall z, handed z = handed x -> pp_s z = pp_s x -> pp_a z = pp_a x ->
      exists es' todo' rest', performs false r d0 es' (l ++ []) (DS (pp_s z) (pp_a z) todo') /\ Permutation todo' (handed z ++ rest')).
    { intros z E1 E2 E3. exists es, todo, rest. rewrite E1, E2, E3, app_nil_r. split; [exact Hpf|exact Ht]. }
    unfold handed in K0.
    destruct H as [l1 dest l2 E|l1 dest m pa l2 E Hl|l1 vm l2 E|l1 pm l2 E Hl|b Hp Hc Hh|Hp Hc Hh|b Hp E Hh|b c Hp E Hh|b Hp E Hh|b c Hp E Hh|e
      |dest m pa out a E Hp Ea|dest m pa out o E Ea Ho|pm q a Hp Hc E Ea Hh|from m a o Hp Hc Ea Hh|la o Hl Ho|o Hp E Ho|s c Hp E Ef|Hp E|Hpk Hlk Hhd]; auto.
    - unfold hd_task. destruct (pm_res (process_message (pp_s x) vm)) eqn:Er.
      + apply K0; auto. cbn [set_p pp_p pp_proc]. rewrite E. now rewrite !flat_map_app.
      + apply K0; auto. cbn [set_p pp_p pp_proc]. rewrite E. now rewrite !flat_map_app.
      + exists es, todo, (vm :: rest). split; [rewrite app_nil_r; exact Hpf|]. cbn [set_p pp_p pp_proc]. rewrite E, flat_map_app in Ht. rewrite flat_map_app. cbn [flat_map app] in *.
        eapply Permutation_trans; [exact Ht|]. rewrite <- !app_assoc. simpl. apply Permutation_app_head.
        rewrite !app_assoc. apply Permutation_middle.
    - exists es, todo, rest. split; [rewrite app_nil_r; exact Hpf|]. cbn [set_p set_proc pp_p pp_proc]. rewrite E, flat_map_app in Ht. rewrite flat_map_app, map_app. cbn [flat_map app map] in *.
      eapply Permutation_trans; [exact Ht|]. rewrite <- !app_assoc. simpl. apply Permutation_app_head. rewrite !app_assoc. apply Permutation_middle.
    - exists es, todo, rest. split; [|exact Ht]. cbn [set_phase pp_s pp_a]. apply pf_cancelled; auto.
    - apply K0; auto. cbn [set_p pp_p pp_proc]. now rewrite E.
    - pose proof (pi_out I dest m pa ltac:(rewrite E; now left)) as Mk. pose proof (proj2 (made_msg _ _ _ Mk)) as Hpa. destruct pa as [u art]. simpl in Hpa. subst u.
      exists (es ++ [EArt (nr_msg r (s_verifier (pp_s x)) (s_round_id (pp_s x)) dest) dest art]), todo, rest. split; [|exact Ht].
      eapply pf_sent; [exact Hpf|reflexivity|exact Mk|]. cbn [set_acc set_hand set_out pp_s pp_a]. eapply step_art; [|exact Mk|exact Ea].
      apply (pi_todo I). unfold to_go. rewrite E. apply in_app_iff. right. now left.
    - assert (Hpm : pm = process_message (pp_s x) (pm_msg pm)) by (apply (pi_proc I); rewrite E; now left).
      rewrite E in Ht. cbn [map] in Ht. assert (Hin : In (pm_msg pm) todo).
      { apply (Permutation_in _ (Permutation_sym Ht)). rewrite !in_app_iff. simpl. auto. }
      apply in_split in Hin as (t1 & t2 & ->). exists (es ++ [EProc (pm_msg pm)]), (t1 ++ t2), rest. split.
      + eapply pf_processed; [exact Hpf|]. eapply step_proc. cbn [set_acc set_proc pp_s pp_a]. rewrite <- Hpm. exact Ea.
      + cbn [set_acc set_proc pp_p pp_proc]. rewrite <- app_assoc in Ht |- *. simpl in Ht. exact (Permutation_app_inv _ _ _ _ _ Ht).
    - exists (es ++ [EPre from m o]). eexists. exists rest. assert (E1 : forall (o : PreOutcome), pp_s (match o with ToProcess vm => set_p (set_acc x a) (pp_p x ++ [PMake vm]) | _ => set_acc x a end) = pp_s x /\
        pp_a (match o with ToProcess vm => set_p (set_acc x a) (pp_p x ++ [PMake vm]) | _ => set_acc x a end) = a) by (intros []; auto).
      destruct (E1 o) as [-> ->]. split; [eapply pf_received; [exact Hpf|eapply step_pre, Ea|discriminate]|]. destruct o as [vm| |]; cbn [set_p set_acc pp_p pp_proc]; auto.
      rewrite flat_map_app. cbn [flat_map app]. rewrite <- !app_assoc. simpl. apply Permutation_cons_app. rewrite <- app_assoc in Ht. exact Ht.
    - assert (Y : can_finalize (pp_a x) = Yes) by (pose proof (pi_phase I) as K; rewrite Hp in K; destruct K as (_ & _ & K); auto).
      exists (es ++ [EFin (nr_fin r (s_verifier (pp_s x)) (s_round_id (pp_s x)))]), c, []. split.
      + assert (St : step (DS (pp_s x) (pp_a x) todo) (EFin (nr_fin r (s_verifier (pp_s x)) (s_round_id (pp_s x)))) (DS s (make_accumulator s) c)) by (eapply step_fin; eauto).
        exact (pf_next Hpf eq_refl (drained I Hp E) St).
      + cbn [par_enter pp_p pp_proc map]. rewrite !app_nil_r. assert (Ec : flat_map (fun t : ptask Pr => match t with PMake vm => [vm] | PSend pm => [pm_msg pm] | PEnd _ => [] end) (map PMake c) = c).
        { clear. induction c as [|y c IH]; simpl; auto. now rewrite IH. } rewrite Ec. apply Permutation_refl.
  Qed.

  Lemma prun_performs s0 ls p : par_run r (PRun (par_enter s0 [])) ls p -> forall y, p = PRun y ->
    exists es todo rest, performs false r (start s0) es ls (DS (pp_s y) (pp_a y) todo) /\ Permutation todo (handed y ++ rest).
  Proof.
    intros H. remember (PRun (par_enter s0 [])) as p0 eqn:E0. induction H as [p|p ls p1 act lx p2 Hr IH Hs]; intros y E; subst.
    - inv E. exists [], [], []. split; [constructor|]. apply Permutation_refl.
    - destruct p1 as [x1|o]; [|discriminate Hs]. destruct (IH eq_refl x1 eq_refl) as (es & t1 & rest1 & H1 & Q1).
      pose proof (prun_pinv Hr (pinv_enter r s0 [])) as I1. destruct (pst_performs (par_step_pst _ _ _ Hs) I1 _ Q1 H1) as (es' & t2 & rest2 & H2 & Q2). eauto.
  Qed.

  Lemma par_performs s0 ls x : par_session r s0 ls (PRun x) ->
    exists es ls' todo, ls = LEnter s0 :: ls' /\ performs false r (start s0) es ls' (DS (pp_s x) (pp_a x) todo) /\ incl (handed x) todo.
  Proof.
    intros (ls' & -> & H). destruct (prun_performs H eq_refl) as (es & todo & rest & K & Q). exists es, ls', todo. split; auto. split; auto.
    intros vm Hin. apply (Permutation_in _ (Permutation_sym Q)). apply in_app_iff. auto.
  Qed.

  Lemma par_closes s0 ls rep : par_session r s0 ls (PStop (Ok rep)) ->
    exists es l1 l2 d, ls = LEnter s0 :: l1 ++ l2 /\ performs false r (start s0) es l1 d /\ closes d r rep l2.
  Proof.
    intros (ls' & -> & H). apply prun_last in H as [H|(l1 & p1 & act & l2 & H & Hs & ->)]; [discriminate|].
    destruct p1 as [x|o]; [|discriminate Hs]. assert (I : pinv r x) by exact (prun_pinv H (pinv_enter r s0 [])).
    destruct (prun_performs H eq_refl) as (es & todo & rest & K & _). exists es, l1, l2, (DS (pp_s x) (pp_a x) todo). split; auto. split; auto.
    apply par_step_pst in Hs. unfold closes. cbn [d_s d_a].
    inversion Hs as [| | | | | | | | | | | |dest m pa out o E Ea Ho| | |la o Hl Ho|o Hp E Ho| |Hp E K1 K2|]; subst.
    - destruct (Ho rep eq_refl).
    - destruct (Ho rep eq_refl).
    - left. split; auto. split; [pose proof (pi_phase I) as Q; rewrite Hp in Q; apply Q; reflexivity|]. split; [exact (drained I Hp E)|auto].
    - right. split; auto. split; [exact (drained I Hp E)|auto].
  Qed.

  (** ** Blame *)
  Lemma closes_ends (d : DState Pr) rep l : closes d r rep l -> Spec.ends_with d rep.
  Proof. intros [(_ & _ & _ & H)|(_ & _ & H)]; [left; eauto|right; right; exact H]. Qed.
  Lemma ends_blame (d : DState Pr) rep v : Spec.ends_with d rep -> blamed_in rep v <-> banned (d_s d) (d_a d) v.
  Proof.
    intros E. apply ends_report in E as (t & o & Hc & ->). rewrite <- (closed_banned _ _ _ Hc). unfold blamed_in, tr_is_banned. cbn [report_new rep_provable rep_unprovable].
    now rewrite orb_true_iff.
  Qed.

  Lemma called_closes b s0 ls rep : called b r s0 ls rep ->
    exists es l1 l2 d, ls = LEnter s0 :: l1 ++ l2 /\ performs b r (start s0) es l1 d /\ closes d r rep l2.
  Proof. destruct b; [apply run_closes|apply par_closes]. Qed.

  Lemma called_blames b s0 ls rep : initial s0 -> called b r s0 ls rep ->
    exists es l1 l2 d, ls = LEnter s0 :: l1 ++ l2 /\ performs b r (start s0) es l1 d /\ closes d r rep l2 /\ forall v,
      (blamed_in rep v <-> (exists m e, In (EPre v m (PreError e)) es /\ e <> RE_Banned) \/ (exists vm d1 e, vm_from vm = v /\ answered s0 es d vm d1 (Err e))) /\
      (forall ev, get v (rep_provable rep) = Some ev ->
        exists vm d1 e, vm_from vm = v /\ answered s0 es d vm d1 (Err e) /\ provable e /\ evidence_shows vm e ev).
  Proof.
    intros Hi H. destruct (@called_closes b s0 ls rep H) as (es & l1 & l2 & d & E & K & C). exists es, l1, l2, d. split; auto. split; auto. split; auto. intros v.
    pose proof (duty_run (proj1 (performs_duty K))) as R. pose proof (closes_ends C) as En. split.
    - rewrite (ends_blame _ En). apply banned_iff; auto.
    - intros ev Hev. apply (@evidence_cause _ _ s0 es d v ev Hi R). apply ends_report in En as (t & o & Hc & ->). cbn [report_new rep_provable] in Hev.
      apply close_round_ok in Hc. apply (up_provable Hc) in Hev. exact Hev.
  Qed.
End WithParams.
