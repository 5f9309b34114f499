(** The messages that the reports of the drivers list as missing (C122). *)
From Coq Require Import List NArith Bool Permutation.
From Verif Require Import Base BMap Errors RoundId Message Protocol Transcript Evidence Session Spec Network SpecTimeout RunSync Driver SpecDriver Par
  SpecMissing SessionFacts FinalizeFacts RunFacts HistoryFacts RoundFacts IntakeFacts BlameFacts DriverFacts ParFacts.
Import ListNotations.
Set Implicit Arguments.

Section WithParams.
  Context {P : Params}.
  Context {Pr : Proto}.
  Variable r : NetRng.
  Implicit Types (s : Session Pr) (l ls : list (dlabel Pr)) (es : list (event Pr)).

  (** What a report lists. *)
  Lemma report_missing (d : DState Pr) rep : reachable d -> ends_with d rep -> forall rid u,
    reported_missing rep rid u <-> rid = s_round_id (d_s d) /\ mem u (a_waiting (d_a d)) = true.
  Proof.
    intros R E rid u. apply ends_report in E as (t & o & Hc & ->). apply close_round_ok in Hc. unfold reported_missing. cbn [report_new rep_missing].
    rewrite (up_missing Hc), (reachable_no_missing R). destruct (is_empty (a_waiting (d_a d))) eqn:Ee.
    - split; [intros (vs & H & _); rewrite get_empty in H; discriminate|]. intros [_ H]. rewrite is_empty_get in Ee. unfold mem in H.
      apply contains_get in H as [x Hx]. congruence.
    - rewrite get_insert. destruct (eqb_spec rid (s_round_id (d_s d))) as [->|N].
      + split; [intros (vs & H & M); inv H; auto|]. intros [_ H]. eauto.
      + split; [intros (vs & H & _); rewrite get_empty in H; discriminate|]. intros [H _]. contradiction.
  Qed.

  (** ** The last round *)
  Lemma round_extend ls s l lx : last_round ls s l -> (forall s', ~ In (LEnter s') lx) -> last_round (ls ++ lx) s (l ++ lx).
  Proof.
    intros [[b ->] N] Nx. split.
    - exists b. now rewrite <- app_assoc.
    - intros s' H. apply in_app_iff in H as [H|H]; [eapply N|eapply Nx]; eauto.
  Qed.
  Lemma round_new ls s a s' : last_round (ls ++ [LFinalize s a; LEnter s']) s' [].
  Proof. split; [|intros ? []]. exists (ls ++ [LFinalize s a]). now rewrite <- app_assoc. Qed.

  (** ** [run_session] *)
  Definition track s l (x : DState Pr) : Prop := exists d0 es, round_start d0 /\ run d0 es x /\ in_round es /\ d_s x = s /\
    (forall u, heard es u -> arrived s l u) /\ (forall u, arrived s l u -> heard es u \/ banned (d_s x) (d_a x) u).

  Lemma banned_run (d : DState Pr) es d' v : run d es d' -> banned (d_s d) (d_a d) v -> banned (d_s d') (d_a d') v.
  Proof. induction 1 as [d|d es d1 e d2 R IH S]; auto. intros H. exact (banned_step S (IH H)). Qed.
  Lemma arrived_app s l lx u : arrived s (l ++ lx) u <-> arrived s l u \/ arrived s lx u.
  Proof.
    unfold arrived, processed_from. split.
    - intros [(m & H & A)|(vm & H & E)]; apply in_app_iff in H as [H|H]; [left|right|left|right]; eauto.
    - intros [[(m & H & A)|(vm & H & E)]|[(m & H & A)|(vm & H & E)]]; [left; exists m|right; exists vm|left; exists m|right; exists vm]; rewrite in_app_iff; auto.
  Qed.
  Lemma heard_app es es' v : heard (es ++ es') v <-> heard es v \/ heard es' v.
  Proof.
    unfold heard. split.
    - intros (vm & H & E). apply in_app_iff in H as [H|H]; eauto.
    - intros [(vm & H & E)|(vm & H & E)]; exists vm; rewrite in_app_iff; auto.
  Qed.
  Lemma track_extend s l x lx es x' : track s l x -> run x es x' -> in_round es ->
    (forall u, heard es u -> arrived s lx u) -> (forall u, arrived s lx u -> heard es u \/ banned (d_s x') (d_a x') u) -> track s (l ++ lx) x'.
  Proof.
    intros (d0 & e0 & S & R & I & E & H1 & H2) R' I' N1 N2. exists d0, (e0 ++ es). split; auto. split; [eapply RunFacts.run_app; eauto|].
    split; [apply in_round_app; auto|]. split; [rewrite (in_round_session R' I'); auto|]. split.
    - intros u H. apply arrived_app. apply heard_app in H as [H|H]; auto.
    - intros u H. rewrite heard_app. apply arrived_app in H as [H|H].
      + destruct (H2 u H) as [K|K]; auto. right. eapply banned_run; eauto.
      + destruct (N2 u H); auto.
  Qed.

  Ltac silent := let K := fresh in intros ? [(? & [K|[]] & _)|(? & [K|[]] & _)]; discriminate K.

  Lemma step_track (d : Drv Pr) i lx d' s l x x' ls : reachable x -> dinv d -> drv_step r d i = Some (lx, d') -> drv_state d = Some x -> drv_state d' = Some x' ->
    track s l x -> last_round ls s l -> exists s' l', last_round (ls ++ lx) s' l' /\ track s' l' x'.
  Proof.
    intros Re I Hs E E' T L.
    assert (K : forall es, run x es x' -> in_round es -> (forall s', ~ In (LEnter s') lx) ->
      (forall u, heard es u -> arrived s lx u) -> (forall u, arrived s lx u -> heard es u \/ banned (d_s x') (d_a x') u) ->
      exists s' l', last_round (ls ++ lx) s' l' /\ track s' l' x').
    { intros es R In0 N H1 H2. exists s, (l ++ lx). split; [apply round_extend; auto|eapply track_extend; eauto]. }
    assert (Es : d_s x = s) by (destruct T as (? & ? & _ & _ & _ & T & _); exact T).
    destruct d as [s1 a dest dests c|s1 a vm c|s1 a|o]; cbn [drv_step] in Hs; try discriminate; cbn [drv_state] in E; inv E; cbn [d_s] in *.
    - destruct I as (Hnd & Hl & Hc). destruct i; try discriminate.
      + destruct (make_message s1 _ dest) as [[m pa]|e|] eqn:Em; apply stp_inj in Hs as [-> ->]; try discriminate E'.
        destruct (acc_call (add_artifact a pa)) as [[a1 []]|e|] eqn:Ea; cbn [drv_try fst] in E'; try discriminate E'.
        apply acc_call_ok in Ea. pose proof (proj2 (made_msg _ _ _ Em)) as Hpa.
        destruct pa as [u art]. cbn [fst] in Hpa. subst u. rewrite state_send in E'. inv E'.
        apply (K [EArt (nr_msg r (s_verifier s1) (s_round_id s1) dest) dest art]).
        * apply run_one. eapply step_art; eauto. apply Hl. now left.
        * reflexivity.
        * intros ? [H|[]]; discriminate.
        * intros u (? & [H|[]] & _); discriminate.
        * silent.
      + apply stp_inj in Hs as [-> ->]. destruct (make_message s1 _ dest) as [[m pa]|e|]; discriminate E'.
    - destruct i; try discriminate. apply stp_inj in Hs as [-> ->]. destruct (deliver_one s1 a vm) as [a1|e|] eqn:Ed; cbn [drv_try] in E'; try discriminate E'.
      apply deliver_ok in Ed. rewrite state_apply in E'. inv E'. apply (K [EProc vm]).
      + apply run_one. exact (@step_proc _ _ s1 a [] vm c _ Ed).
      + reflexivity.
      + intros ? [H|[]]; discriminate.
      + intros u (w & [H|[]] & <-). inv H. right. exists w. split; auto. now left.
      + intros u [(m & [H|[]] & _)|(w & [H|[]] & <-)]; [discriminate|]. inv H. left. exists w. split; auto. now left.
    - destruct (can_finalize a) eqn:Ec; destruct i as [| |from m| |]; try discriminate.
      + destruct (finalize_round s1 _ a) as [[rep|s2 c]|e|] eqn:Ef; apply stp_inj in Hs as [-> ->]; try discriminate E'.
        unfold drv_enter in E'. rewrite state_send in E'. inv E'. exists s2, []. split; [apply round_new|].
        exists (DS s2 (make_accumulator s2) c), []. split; [|split; [constructor|split; [reflexivity|split; [reflexivity|split]]]].
        * right. exists s1, a, []. eauto 10.
        * intros u (? & [] & _).
        * intros u [(? & [] & _)|(? & [] & _)].
      + apply stp_inj in Hs as [-> ->]. destruct (acc_call (preprocess_message s1 a from m)) as [[a1 o]|e|] eqn:Ep; cbn [drv_try snd fst] in E'; try discriminate E'.
        apply acc_call_ok in Ep. pose proof (preprocess_cases _ _ _ _ Ep) as Hc. destruct o as [vm| |].
        * destruct (deliver_one s1 a1 vm) as [a2|e|] eqn:Ed; cbn [drv_try] in E'; try discriminate E'.
          apply deliver_ok in Ed. inv E'. apply (K [EPre from m (ToProcess vm); EProc vm]).
          -- change [@EPre P Pr from m (ToProcess vm); EProc vm] with ([@EPre P Pr from m (ToProcess vm)] ++ [EProc vm]).
             eapply run_snoc; [apply run_one; exact (@step_pre _ _ s1 a [] from m _ _ Ep)|exact (@step_proc _ _ s1 a1 [] vm [] _ Ed)].
          -- reflexivity.
          -- intros ? [H|[]]; discriminate.
          -- intros u (w & [H|[H|[]]] & <-); inv H. inv Hc. cbn [vm_from]. left. exists m. split; auto. now left.
          -- intros u [(m' & [H|[]] & _)|(w & [H|[]] & _)]; [|discriminate]. inv H. inv Hc. left. eexists. split; [right; left; reflexivity|reflexivity].
        * inv E'. apply (K [EPre from m Cached]).
          -- apply run_one. exact (@step_pre _ _ s1 a [] from m _ _ Ep).
          -- reflexivity.
          -- intros ? [H|[]]; discriminate.
          -- intros u (w & [H|[]] & _); discriminate.
          -- intros u [(m' & [H|[]] & A)|(w & [H|[]] & _)]; [|discriminate]. inv H. inv Hc. exfalso.
             destruct A as (_ & _ & _ & A & _). match goal with H : message_authentic _ _ rid _ |- _ => destruct H as (_ & _ & _ & B & _) end. congruence.
        * inv E'. apply (K [EPre from m (PreError e)]).
          -- apply run_one. exact (@step_pre _ _ s1 a [] from m _ _ Ep).
          -- reflexivity.
          -- intros ? [H|[]]; discriminate.
          -- intros u (w & [H|[]] & _); discriminate.
          -- intros u [(m' & [H|[]] & A)|(w & [H|[]] & _)]; [|discriminate]. inv H. right. cbn [d_s d_a]. inv Hc; auto.
             right; right; right. cbn [set_unprovable a_unprovable]. rewrite get_insert_eq. eauto.
      + apply stp_inj in Hs as [-> ->]. discriminate E'.
      + apply stp_inj in Hs as [-> ->]. discriminate E'.
      + apply stp_inj in Hs as [-> ->]. discriminate E'.
  Qed.

  Lemma session_track s0 ls d x : initial s0 -> run_session r s0 ls d -> drv_state d = Some x ->
    exists s l, last_round ls s l /\ track s l x.
  Proof.
    intros Hi (ls' & -> & H). remember (drv_enter s0 []) as d0 eqn:E0. revert x. induction H as [d|d ls d1 i lx d2 Hr IH Hs]; intros x E; subst.
    - unfold drv_enter in E. rewrite state_send in E. inv E. exists s0, []. split; [split; [now exists []|intros ? []]|].
      exists (start s0), []. split; [left; eauto|]. split; [constructor|]. split; [reflexivity|]. split; [reflexivity|]. split.
      + intros u (? & [] & _).
      + intros u [(? & [] & _)|(? & [] & _)].
    - specialize (IH eq_refl). destruct (drv_state d1) as [x1|] eqn:E1; [|destruct d1; discriminate].
      assert (R1 : run_session r s0 (LEnter s0 :: ls) d1) by (exists ls; auto).
      destruct (IH x1 eq_refl) as (s & l & L & T). change (LEnter s0 :: ls ++ lx) with ((LEnter s0 :: ls) ++ lx).
      eapply step_track; eauto. + exact (session_state Hi R1 E1). + exact (session_dinv R1).
  Qed.

  Lemma session_missing s0 ls rep : initial s0 -> run_session r s0 ls (DrvDone (Ok rep)) -> exists s l, last_round ls s l /\ forall rid u,
    (reported_missing rep rid u -> rid = s_round_id s /\ expected s u /\ (~ blamed_in rep u -> ~ arrived s l u)) /\
    (rid = s_round_id s -> expected s u -> ~ arrived s l u -> reported_missing rep rid u).
  Proof.
    intros Hi Hrun. pose proof Hrun as (ls' & -> & H). apply run_last in H as [H|(l1 & d & i & l2 & H & Hs & ->)]; [exfalso; unfold drv_enter in H; destruct (elements _); discriminate|].
    assert (R1 : run_session r s0 (LEnter s0 :: l1) d) by (exists l1; auto).
    pose proof (step_returns r d i Hs) as (s & a & -> & Hc).
    destruct (session_track Hi R1 eq_refl) as (s1 & l & L & d0 & es & S & R & In0 & Es & H1 & H2). cbn [d_s d_a] in *. subst s1.
    pose proof (session_state Hi R1 eq_refl) as Re.
    assert (Ends : ends_with (DS s a []) rep) by (destruct Hc as [(_ & g & Hf)|(_ & Ht)]; [left; eauto|right; right; exact Ht]).
    assert (N : forall y, In y l2 -> match y with LFinalize _ _ | LGiveUp _ _ | LCancel => True | _ => False end).
    { cbn [drv_step] in Hs. destruct (can_finalize a); destruct i as [| |from m| |]; try discriminate.
      - destruct (finalize_round s _ a) as [[rep'|s2 c]|e|]; apply stp_inj in Hs as [-> Hs]; try discriminate Hs; [intros y [<-|[]]; exact I|].
        exfalso. unfold drv_enter in Hs. destruct (elements _); [destruct c|]; discriminate.
      - apply stp_inj in Hs as [_ Hs]. exfalso. destruct (acc_call _) as [[a1 o]|e|]; cbn [drv_try snd fst] in Hs; try discriminate Hs.
        destruct o as [vm| |]; try discriminate Hs. destruct (deliver_one s a1 vm); discriminate Hs.
      - apply stp_inj in Hs as [-> _]. intros y [<-|[<-|[]]]; exact I.
      - apply stp_inj in Hs as [-> _]. intros y [<-|[]]; exact I. }
    assert (A : forall u, arrived s (l ++ l2) u <-> arrived s l u).
    { intros u. rewrite arrived_app. split; auto. intros [K|[(m & K & _)|(vm & K & _)]]; auto; destruct (N _ K). }
    exists s, (l ++ l2). split; [change (LEnter s0 :: l1 ++ l2) with ((LEnter s0 :: l1) ++ l2); apply round_extend; auto; intros s' K; exact (N _ K)|].
    intros rid u. rewrite A, (report_missing Re Ends). cbn [d_s d_a].
    assert (F : d_a d0 = make_accumulator (d_s d0)) by (apply round_start_fresh; auto).
    destruct (round_hist F R In0) as [Hh _]. pose proof (in_round_session R In0) as E0. cbn [d_s d_a] in Hh, E0.
    assert (W : mem u (a_waiting a) = true <-> expected s u /\ ~ heard es u) by (rewrite E0; apply (h_waiting Hh)).
    split.
    - intros [-> K]. apply W in K as [K1 K2]. split; auto. split; auto. intros Nb K. destruct (H2 u K) as [K'|K']; [contradiction|].
      destruct (session_reports Hi R1 eq_refl (l2 := l2) (rep := rep)) as [S1 S2]; [change l2 with ([] ++ l2); eapply drun_snoc; [constructor|exact Hs]|].
      apply Nb. unfold banned in K'. unfold blamed_in. rewrite !contains_get. unfold has_evidence, has_unprovable in S1, S2. cbn [d_s d_a] in S1, S2.
      destruct K' as [[e K']|[K'|[[e K']|K']]]; [left; exists e; apply S1; auto|right; apply S2; auto|left; exists e; apply S1; auto|right; apply S2; auto].
    - intros -> K1 K2. split; auto. apply W. split; auto.
  Qed.

  (** Nobody is reported missing by a driver that was not cancelled. *)
  Lemma no_one_waits (a : Accum Pr) u : can_finalize a = Never -> mem u (a_waiting a) = true -> False.
  Proof.
    unfold can_finalize. destruct (forallb _ _); [discriminate|]. destruct (is_empty (a_waiting a)) eqn:Ee; [|discriminate].
    intros _ H. rewrite is_empty_get in Ee. unfold mem in H. apply contains_get in H as [x Hx]. congruence.
  Qed.
  Lemma none_missing (d : DState Pr) u : reachable d -> can_finalize (d_a d) = Yes -> mem u (a_waiting (d_a d)) = true -> False.
  Proof.
    intros Re Y H. destruct (reachable_round Re) as (d0 & es & R1 & R2 & R3). pose proof (yes_waiting_empty R1 R2 R3 Y) as Ee.
    rewrite is_empty_get in Ee. unfold mem in H. apply contains_get in H as [x Hx]. congruence.
  Qed.
  Lemma session_cancelled s0 ls rep rid u : initial s0 -> run_session r s0 ls (DrvDone (Ok rep)) -> reported_missing rep rid u -> In LCancel ls.
  Proof.
    intros Hi (ls' & -> & H) M. apply run_last in H as [H|(l1 & d & i & l2 & H & Hs & ->)]; [exfalso; unfold drv_enter in H; destruct (elements _); discriminate|].
    assert (R1 : run_session r s0 (LEnter s0 :: l1) d) by (exists l1; auto).
    pose proof (step_returns r d i Hs) as (s & a & -> & Hc). pose proof (session_state Hi R1 eq_refl) as Re.
    assert (Ends : ends_with (DS s a []) rep) by (destruct Hc as [(_ & g & Hf)|(_ & Ht)]; [left; eauto|right; right; exact Ht]).
    apply (report_missing Re Ends) in M as [_ M]. cbn [d_a] in M. right. apply in_app_iff. right. destruct Hc as [(E & _)|(E & _)].
    - assert (Hin : In (LFinalize s a) l2) by (rewrite E; now left). destruct (@step_finalizes _ _ r (DrvWait s a) i l2 _ s a Hs Hin) as [_ Y].
      destruct (none_missing _ Re Y M).
    - destruct (@step_gives_up _ _ r (DrvWait s a) i l2 _ s a Hs E) as (_ & [Y|Y] & _); auto. destruct (no_one_waits _ _ Y M).
  Qed.

  (** ** [par_run_session] *)
  Definition ptrack s l (x : PState Pr) : Prop :=
    pp_s x = s /\ forall u, mem u (a_waiting (pp_a x)) = true <-> expected s u /\ ~ processed_from l u.

  Lemma processed_app l lx u : processed_from (l ++ lx) u <-> processed_from l u \/ processed_from lx u.
  Proof.
    unfold processed_from. split.
    - intros (vm & H & E). apply in_app_iff in H as [H|H]; eauto.
    - intros [(vm & H & E)|(vm & H & E)]; exists vm; rewrite in_app_iff; auto.
  Qed.
  Lemma processed_none u : ~ processed_from (Pr := Pr) [] u. Proof. intros (? & [] & _). Qed.

  Lemma pst_track x lx y s l ls : pst r x lx (PRun y) -> pinv r x -> ptrack s l x -> last_round ls s l ->
    exists s' l', last_round (ls ++ lx) s' l' /\ ptrack s' l' y.
  Proof.
    intros H I [E W] L.
    assert (K : (forall s', ~ In (LEnter s') lx) -> (forall vm, ~ In (LApply vm) lx) -> pp_s y = pp_s x -> a_waiting (pp_a y) = a_waiting (pp_a x) ->
      exists s' l', last_round (ls ++ lx) s' l' /\ ptrack s' l' y).
    { intros N N' E1 E2. exists s, (l ++ lx). split; [apply round_extend; auto|]. split; [congruence|]. intros u. rewrite E2, W, processed_app.
      assert (~ processed_from lx u) by (intros (vm & Hin & _); exact (N' _ Hin)). tauto. }
    assert (Q0 : forall s', ~ In (@LEnter P Pr s') []) by (intros ? []). assert (Q1 : forall vm, ~ In (@LApply P Pr vm) []) by (intros ? []).
    inversion H as [| | | | | | | | | |
      |dest m pa out a Eo Hp Ea| |pm q a Hp Hc Eo Ea Hh|from m a o Hp Hc Ea Hh| | |s2 c Hp Eo Ef| |]; subst lx; subst.
    all: try (apply K; auto; fail).
    - apply K; auto; intros ? [?|[]]; discriminate.
    - apply add_artifact_ok in Ea as [_ ->]. apply K; auto; intros ? [?|[]]; discriminate.
    - assert (Hpm : pm = process_message (pp_s x) (pm_msg pm)) by (apply (pi_proc I); rewrite Eo; now left).
      rewrite Hpm in Ea. apply add_processed_ok in Ea as (_ & _ & Ea). exists (pp_s x), (l ++ [LApply (pm_msg pm)]).
      split; [apply round_extend; auto; intros ? [?|[]]; discriminate|]. split; [reflexivity|]. intros u. cbn [set_acc set_proc pp_a].
      assert (E2 : a_waiting a = srem (vm_from (pm_msg pm)) (a_waiting (pp_a x))) by (inv Ea; reflexivity).
      rewrite E2, mem_rem, andb_true_iff, W, processed_app, negb_true_iff.
      assert (E3 : processed_from [@LApply P Pr (pm_msg pm)] u <-> u = vm_from (pm_msg pm)).
      { split; [intros (vm & [Q|[]] & <-); now inv Q|]. intros ->. eexists. split; [now left|reflexivity]. }
      rewrite E3. destruct (eqb_spec u (vm_from (pm_msg pm))); intuition congruence.
    - pose proof (preprocess_cases _ _ _ _ Ea) as Hcs. apply K; try (intros ? [?|[]]; discriminate); [destruct o; reflexivity|].
      inv Hcs; reflexivity.
    - exists s2, []. split; [apply round_new|]. split; [reflexivity|]. intros u. cbn [par_enter pp_a]. unfold expected.
      pose proof (@processed_none u). cbn [make_accumulator a_waiting]. tauto.
  Qed.

  Lemma par_track s0 ls x : par_session r s0 ls (PRun x) -> exists s l, last_round ls s l /\ ptrack s l x.
  Proof.
    intros (ls' & -> & H). remember (PRun (par_enter s0 [])) as p0 eqn:E0. remember (PRun x) as p eqn:E. revert x E.
    induction H as [p|p ls p1 act lx p2 Hr IH Hs]; intros x ->; subst.
    - inv E0. exists s0, []. split; [split; [now exists []|intros ? []]|]. split; [reflexivity|]. intros u. pose proof (@processed_none u).
      cbn [par_enter pp_a make_accumulator a_waiting]. unfold expected. tauto.
    - destruct p1 as [x1|o]; [|discriminate Hs]. destruct (IH eq_refl x1 eq_refl) as (s & l & L & T).
      change (LEnter s0 :: ls ++ lx) with ((LEnter s0 :: ls) ++ lx). eapply pst_track; eauto; [exact (par_step_pst _ _ _ Hs)|].
      apply (session_pinv (s0 := s0) (ls := LEnter s0 :: ls)). exists ls. auto.
  Qed.

  Lemma par_missing s0 ls rep : initial s0 -> par_session r s0 ls (PStop (Ok rep)) -> exists s l, last_round ls s l /\ forall rid u,
    (reported_missing rep rid u <-> rid = s_round_id s /\ expected s u /\ ~ processed_from l u) /\ (reported_missing rep rid u -> In LCancel ls).
  Proof.
    intros Hi (ls' & -> & H). apply prun_last in H as [H|(l1 & p1 & act & l2 & H & Hs & ->)]; [discriminate|].
    destruct p1 as [x|o]; [|discriminate Hs]. assert (Hx : par_session r s0 (LEnter s0 :: l1) (PRun x)) by (now exists l1).
    destruct (par_track Hx) as (s & l & L & E & W). destruct (par_state Hi Hx) as (todo & Re & _).
    pose proof (par_step_pst _ _ _ Hs) as Hp. pose proof (pst_returns Hp) as Hc.
    assert (Ends : ends_with (DS (pp_s x) (pp_a x) todo) rep) by (destruct Hc as [(_ & g & Hf)|(_ & Ht)]; [left; eauto|right; right; exact Ht]).
    assert (N : forall y, In y l2 -> match y with LFinalize _ _ | LGiveUp _ _ => True | _ => False end) by (destruct Hc as [(-> & _)|(-> & _)]; intros y [<-|[]]; exact I).
    exists s, (l ++ l2). split; [change (LEnter s0 :: l1 ++ l2) with ((LEnter s0 :: l1) ++ l2); apply round_extend; auto; intros s' K; exact (N _ K)|].
    intros rid u. rewrite (report_missing Re Ends), processed_app. cbn [d_s d_a]. rewrite W, E.
    assert (~ processed_from l2 u) by (intros (vm & Hin & _); exact (N _ Hin)). split; [tauto|].
    intros (_ & M1 & M2). assert (M : mem u (a_waiting (pp_a x)) = true) by (apply W; auto).
    destruct Hc as [(El & g & Hf)|(El & Ht)].
    - assert (Hin : In (LFinalize (pp_s x) (pp_a x)) l2) by (rewrite El; now left).
      destruct (pst_finalizes _ _ Hp Hin) as (_ & _ & Ph & _). pose proof (pi_phase (session_pinv Hx)) as K. rewrite Ph in K. destruct K as (_ & _ & K).
      destruct (none_missing u Re (K eq_refl) M).
    - assert (Hin : In (LGiveUp (pp_s x) (pp_a x)) (LEnter s0 :: l1 ++ l2)) by (right; apply in_app_iff; right; rewrite El; now left).
      assert (Hy : par_session r s0 (LEnter s0 :: l1 ++ l2) (PStop (Ok rep))) by (exists (l1 ++ l2); split; auto; eapply prun_snoc; eauto).
      destruct (par_gives_up _ _ Hi Hy Hin) as ([K|K] & _); auto. destruct (no_one_waits _ _ K M).
  Qed.
End WithParams.
