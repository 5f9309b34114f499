(** Why [par_run_session] fails. *)
From Coq Require Import List NArith Bool Permutation.
From Verif Require Import Base BMap Errors RoundId Message Protocol Transcript Evidence Session Spec SpecCause SpecExact
  Network SpecNet RunSync Driver SpecDriver SpecFailure Par SpecPar SpecParFailure MessageFacts SessionFacts RunFacts IntakeFacts RoundFacts FinalizeFacts
  HistoryFacts LocalFacts DriverFacts CauseFacts ExactFacts FailureFacts ParFacts.
Import ListNotations.
Set Implicit Arguments.

Section Failure.
  Context {P : Params}.
  Context {Pr : Proto}.
  Variable r : NetRng.
  Implicit Types (s : Session Pr) (a : Accum Pr) (d : DState Pr) (es : list (event Pr)) (x : PState Pr).

  (** Where the results of the tasks come from. *)
  Definition ends_ok x : Prop :=
    (forall e, In (CEnd (Err e)) (pp_c x) -> exists g dest, make_message (pp_s x) g dest = Err e) /\
    (In (CEnd Panic) (pp_c x) -> exists g dest, make_message (pp_s x) g dest = Panic) /\
    (forall e, ~ In (PEnd (Err e)) (pp_p x)) /\
    (In (PEnd Panic) (pp_p x) -> exists vm, round_answers (pp_s x) vm = Panic).

  Lemma ends_enter s c : ends_ok (par_enter s c).
  Proof.
    unfold ends_ok, par_enter. cbn [pp_c pp_p pp_s].
    split; [|split; [|split]]; intros; intros; [| |intros H|]; try match goal with H : In _ _ |- _ => apply in_map_iff in H as (? & H & _) end; discriminate.
  Qed.

  Lemma pst_ends x ls p : pst r x ls p -> ends_ok x -> match p with PRun y => ends_ok y | PStop _ => True end.
  Proof.
    intros H (E1 & E2 & E3 & E4).
    destruct H as [l1 dest l2 E|l1 dest m pa l2 E Hl|l1 vm l2 E|l1 pm l2 E Hl|b Hp Hc Hh|Hp Hc Hh|b Hp E Hh|b c Hp E Hh|b Hp E Hh|b c Hp E Hh|e
      |dest m pa out a E Hp Ea|dest m pa out o E Ea Ho|pm q a Hp Hc E Ea Hh|from m a o Hp Hc Ea Hh|l o Hl Ho|o Hp E Ho|s c Hp E Ef|Hp E|Hpk Hlk Hhd]; auto;
      try (split; [|split; [|split]]; assumption);
      try (unfold ends_ok; cbn [set_c set_p set_out set_proc pp_s pp_c pp_p]; rewrite E in *; clear E).
    - assert (K : forall o, In (CEnd o) (l1 ++ mk_task r (pp_s x) dest :: l2) -> In (CEnd o) (l1 ++ CMake dest :: l2) \/ mk_task r (pp_s x) dest = CEnd o).
      { intros o. rewrite !in_app_iff. simpl. intuition. }
      unfold mk_task, mk in K. split; [|split; [|split]]; auto.
      + intros e Hin. apply K in Hin as [Hin|Hin]; auto. unfold mk_task, mk in *. destruct (make_message _ _ _) as [[]|y|] eqn:Em; inv Hin. eauto.
      + intros Hin. apply K in Hin as [Hin|Hin]; auto. unfold mk_task, mk in *. destruct (make_message _ _ _) as [[]|y|] eqn:Em; inv Hin. eauto.
    - assert (K : forall o, In (CEnd o) (l1 ++ CEnd (Ok tt) :: l2) -> In (CEnd o) (l1 ++ CSend dest m pa :: l2) \/ o = Ok tt).
      { intros o. rewrite !in_app_iff. simpl. intuition congruence. }
      split; [|split; [|split]]; auto.
      + intros e Hin. apply K in Hin as [Hin|Hin]; auto. discriminate.
      + intros Hin. apply K in Hin as [Hin|Hin]; auto. discriminate.
    - assert (K : forall o, In (PEnd o) (l1 ++ hd_task (pp_s x) vm :: l2) -> In (PEnd o) (l1 ++ PMake vm :: l2) \/ hd_task (pp_s x) vm = PEnd o).
      { intros o. rewrite !in_app_iff. simpl. intuition. }
      split; [|split; [|split]]; auto.
      + intros e Hin. apply K in Hin as [Hin|Hin]; [eapply E3; eauto|]. unfold hd_task in Hin. destruct (pm_res _); discriminate.
      + intros Hin. apply K in Hin as [Hin|Hin]; auto. exists vm. unfold hd_task in Hin.
        unfold round_answers. unfold process_message in *. cbn [pm_res] in *. destruct (rd_receive _ _ _); try discriminate. reflexivity.
    - assert (K : forall o, In (PEnd o) (l1 ++ PEnd (Ok tt) :: l2) -> In (PEnd o) (l1 ++ PSend pm :: l2) \/ o = Ok tt).
      { intros o. rewrite !in_app_iff. simpl. intuition congruence. }
      split; [|split; [|split]]; auto.
      + intros e Hin. apply K in Hin as [Hin|Hin]; [eapply E3; eauto|]. discriminate.
      + intros Hin. apply K in Hin as [Hin|Hin]; auto. discriminate.
    - split; [|split; [|split]]; auto; intros; try apply E1; try apply E2; now right.
    - split; [|split; [|split]]; auto.
      + intros e Hin. apply (E3 e). now right.
      + intros Hin. apply E4. now right.
    - destruct o as [vm| |]; try (split; [|split; [|split]]; assumption). split; [|split; [|split]]; auto; cbn [set_p set_acc pp_p pp_s].
      + intros e Hin. apply in_app_iff in Hin as [Hin|[Hin|[]]]; [eapply E3; eauto|discriminate].
      + intros Hin. apply in_app_iff in Hin as [Hin|[Hin|[]]]; [auto|discriminate].
    - apply ends_enter.
  Qed.

  Lemma session_ends s0 ls x : par_session r s0 ls (PRun x) -> ends_ok x.
  Proof.
    intros (ls' & _ & H). revert H. assert (K : match PRun (par_enter s0 []) with PRun y => ends_ok y | PStop _ => True end) by apply ends_enter.
    revert K. generalize (PRun (par_enter s0 [])). intros p K H.
    assert (G : forall q, par_run r p ls' q -> match q with PRun y => ends_ok y | PStop _ => True end).
    { clear H x. intros q H. induction H as [p|p l0 p1 act lx p2 Hr IH Hs]; auto. specialize (IH K).
      destruct p1 as [x1|o]; [|discriminate Hs]. exact (pst_ends (par_step_pst _ _ _ Hs) IH). }
    exact (G _ H).
  Qed.

  Lemma par_done {A} (z : res LocalError A) (k : A -> Par Pr) e : par_try z k = PStop (Err e) ->
    z = Err e \/ exists y, z = Ok y /\ k y = PStop (Err e).
  Proof. destruct z as [y|y|]; cbn [par_try]; intros H; [right; eauto|left|discriminate]. congruence. Qed.

  Lemma par_session_fails s0 ls e : plain_ids Pr -> (forall mt, ser_meta mt <> None) -> initial s0 ->
    par_session r s0 ls (PStop (Err e)) ->
    exists ls1 l d0 es x, ls = ls1 ++ l /\ par_in_course r s0 ls1 d0 es x /\
      (own_failure (pp_s x) e \/ task_failure (pp_s x) e \/ channel_failure l e \/ remote_failure d0 es l).
  Proof.
    intros Hp Hw Hi (ls' & -> & H).
    apply prun_last in H as [H|(l1 & p & act & l2 & H & Hstep & ->)]; [discriminate|].
    destruct p as [x|o]; [|discriminate Hstep].
    assert (R : par_session r s0 (LEnter s0 :: l1) (PRun x)) by (exists l1; auto).
    pose proof (session_pinv R) as I. destruct (session_ends R) as (E1 & E2 & E3 & E4).
    destruct (par_state Hi R) as (todo & Hre & Hinc). destruct (reachable_round Hre) as (d0 & es & K1 & K2 & K3).
    exists (LEnter s0 :: l1), l2, d0, es, x. split; [reflexivity|]. split; [repeat split; eauto|].
    cbn [par_step] in Hstep. destruct act as [i|i| |sent| |from m| | |].
    - destruct (nth_error (pp_c x) i) as [[dest|dest m pa|o]|]; try discriminate. destruct (Nat.ltb _ _); discriminate.
    - destruct (nth_error (pp_p x) i) as [[dest|pm|o]|]; try discriminate. destruct (Nat.ltb _ _); discriminate.
    - destruct (pp_hand x); try discriminate. destruct (pp_out x); try discriminate. destruct (looks x); discriminate.
    - destruct (pp_hand x); try discriminate. unfold put_out in Hstep. destruct (pp_out x) as [|[[dest m] pa] out] eqn:Eo; try discriminate.
      destruct sent; injection Hstep as <- Hd.
      + exfalso. apply par_done in Hd as [Hd|(y & _ & Hd)]; [|discriminate].
        assert (Hin : In (dest, m, pa) (pp_out x)) by (rewrite Eo; now left).
        pose proof (proj2 (made_msg _ _ _ (pi_out I _ _ _ Hin))) as Hpa.
        assert (Hn : contains dest (a_artifacts (pp_a x)) = false).
        { apply (pi_todo I). unfold to_go. apply in_app_iff. right. apply in_map_iff. exists (dest, m, pa). auto. }
        rewrite <- Hpa in Hn. unfold add_artifact in Hd. cbn [acc_call] in Hd. rewrite Hn in Hd. discriminate.
      + inv Hd. right. right. left. split; eauto.
    - destruct (pp_hand x); try discriminate. destruct (pp_phase x); try discriminate. destruct (can_finalize (pp_a x)); try discriminate.
      destruct (pp_proc x) as [|pm q] eqn:Eq; try discriminate. injection Hstep as <- Hd.
      apply par_done in Hd as [Hd|(y & _ & Hd)]; [|discriminate].
      assert (Hpm : pm = process_message (pp_s x) (pm_msg pm)) by (apply (pi_proc I); rewrite Eq; now left).
      assert (Hin : In (pm_msg pm) todo). { apply Hinc. unfold handed. rewrite Eq. apply in_app_iff. right. now left. }
      apply in_split in Hin as (t1 & t2 & Ht).
      assert (Hd' : deliver_one (pp_s x) (pp_a x) (pm_msg pm) = Err e).
      { unfold deliver_one. rewrite <- Hpm. destruct (acc_call _) as [[]|y|]; try discriminate. cbn [bind]. inv Hd. reflexivity. }
      destruct (@deliver_fails _ _ d0 es (DS (pp_s x) (pp_a x) todo) t1 (pm_msg pm) t2 e [LApply (pm_msg pm)] K1 K2 K3 Ht (or_introl eq_refl) Hd'); auto.
    - destruct (pp_hand x); try discriminate. destruct (pp_phase x); try discriminate. destruct (can_finalize (pp_a x)); try discriminate.
      injection Hstep as <- Hd. exfalso. destruct (preprocess_total from m Hp Hw Hre) as (a1 & o & Hpre). simpl in Hpre.
      rewrite Hpre in Hd. discriminate.
    - destruct (pp_hand x); try discriminate. destruct (pp_phase x); try discriminate. destruct (can_finalize (pp_a x)); try discriminate.
      injection Hstep as <- <-. right. right. left. split; auto.
    - destruct (pp_hand x); try discriminate. destruct (pp_phase x); try discriminate. destruct (can_finalize (pp_a x)); discriminate.
    - destruct (pp_hand x); try discriminate. destruct (pp_phase x) as [|b|b|b].
      + destruct (can_finalize (pp_a x)); discriminate.
      + destruct (pp_c x) as [|[dest|dest m pa|o] c] eqn:Ec; try discriminate. injection Hstep as <- Hd.
        destruct o as [y|y|]; cbn [joined] in Hd; try discriminate; injection Hd as <-.
        * destruct (E1 y (or_introl eq_refl)) as (g & dest & Hm). left. exact (Own_message _ _ _ Hm).
        * right. left. split; auto. left. apply E2. now left.
      + destruct (pp_p x) as [|[dest|pm|o] c] eqn:Ec; try discriminate. injection Hstep as <- Hd.
        destruct o as [y|y|]; cbn [joined] in Hd; try discriminate; injection Hd as <-.
        * exfalso. exact (E3 y (or_introl eq_refl)).
        * right. left. split; auto. right. apply E4. now left.
      + destruct (pp_out x); try discriminate. destruct b.
        * destruct (finalize_round _ _ _) as [[rep|s c]|y|] eqn:Ef; try discriminate. injection Hstep as <- <-.
          destruct (@finalize_fails _ _ d0 es (DS (pp_s x) (pp_a x) todo) _ y K1 K2 K3 Ef) as [F|F]; auto. right. right. right. now apply Remote_again.
        * injection Hstep as <- Hd. unfold terminate_due_to_errors, terminate_inner in Hd.
          destruct (close_round (pp_s x) (pp_a x)) as [t|y|] eqn:Ec; try discriminate. inv Hd.
          destruct (@close_fails _ _ d0 es (DS (pp_s x) (pp_a x) todo) e K1 K2 K3 Ec).
          -- left. now apply Own_repeats.
          -- right. right. right. now apply Remote_again.
  Qed.

  (** ** Strangers *)
  Lemma unexpected_stops s0 ls x pm q : initial s0 -> par_session r s0 ls (PRun x) ->
    pp_phase x = Loop -> can_finalize (pp_a x) = NotYet -> pp_hand x = false -> pp_proc x = pm :: q -> ~ expected (pp_s x) (vm_from (pm_msg pm)) ->
    par_step r (PRun x) ATakeProcessed = Some ([LApply (pm_msg pm)], PStop (Err LE_NotExpected)).
  Proof.
    intros Hi R Hph Hc Hh Eq He. cbn [par_step]. rewrite Hph, Hc, Hh, Eq. do 2 f_equal.
    destruct (par_state Hi R) as (todo & Hre & Hinc). destruct (reachable_round Hre) as (d0 & es & K1 & K2 & K3).
    destruct (round_hist (round_start_fresh K1) K2 K3) as [HH Hss]. rewrite <- Hss in HH. cbn [d_s d_a] in HH.
    unfold add_processed. destruct (contains (vm_from (pm_msg pm)) (a_payloads (pp_a x))) eqn:Ep.
    { exfalso. apply He. apply contains_get in Ep as [p Ep]. apply (h_payload HH) in Ep as (w & W1 & <- & _). apply (h_heard HH). exists w. auto. }
    destruct (mem (vm_from (pm_msg pm)) (a_waiting (pp_a x))) eqn:Ew; [exfalso; apply He; apply (h_waiting HH) in Ew; tauto|]. reflexivity.
  Qed.

  Lemma received_to_process d0 es d from m : plain_ids Pr -> (forall mt, ser_meta mt <> None) -> reachable d ->
    round_start d0 -> run d0 es d -> in_round es ->
    message_authentic from (s_id (d_s d)) (s_round_id (d_s d)) m -> ~ banned (d_s d) (d_a d) from -> mem from (a_processing (d_a d)) = false ->
    exists a', preprocess_message (d_s d) (d_a d) from m = (a', Ok (ToProcess (as_verified from m))) /\
      a_processing a' = sadd from (a_processing (d_a d)) /\ can_finalize a' = can_finalize (d_a d).
  Proof.
    intros Hp Hw Hre K1 K2 K3 Ha Hb Hn. destruct (preprocess_total from m Hp Hw Hre) as (a1 & o & Hpre).
    assert (Ho : forall e, o <> PreError e).
    { intros e ->. pose proof (error_reason_round from m K1 K2 K3 Hpre) as Hr. destruct Ha as (S1 & S2 & S3 & M1 & M2 & M3).
      inversion Hr; subst.
      - contradiction.
      - match goal with X : forall sid rid, ~ carries _ _ _ |- _ => apply (X (s_id (d_s d)) (s_round_id (d_s d))) end. repeat split; auto.
      - match goal with X : carries _ _ _ |- _ => destruct X as [X _] end. congruence.
      - destruct (round_hist (round_start_fresh K1) K2 K3) as [Hh _].
        assert (X : mem from (a_processing (d_a d)) = true) by (apply (h_processing Hh); eauto). congruence.
      - match goal with X : carries _ _ _ |- _ => destruct X as [X _] end. congruence.
      - match goal with X : carries _ _ _ |- _ => destruct X as [X _] end. congruence.
      - destruct S1 as (? & ? & _ & S1 & _), S2 as (? & ? & _ & S2 & _), S3 as (? & ? & _ & S3 & _). intuition congruence.
      - tauto. }
    pose proof (preprocess_cases _ _ _ _ Hpre) as Hcs. inv Hcs; try (exfalso; eapply Ho; reflexivity).
    - exists (set_processing (d_a d) (sadd from (a_processing (d_a d)))). split; [exact Hpre|]. split; reflexivity.
    - exfalso. destruct Ha as (_ & _ & _ & M1 & _), H1 as (_ & _ & _ & M2 & _). congruence.
  Qed.

  Lemma nth_error_end {A} (l : list A) y : nth_error (l ++ [y]) (length l) = Some y.
  Proof. induction l; simpl; auto. Qed.
  Lemma set_nth_end {A} (l : list A) y z : set_nth (length l) z (l ++ [y]) = l ++ [z].
  Proof. induction l; simpl; congruence. Qed.

  Lemma prun_app (p p1 p2 : Par Pr) l1 l2 : par_run r p l1 p1 -> par_run r p1 l2 p2 -> par_run r p (l1 ++ l2) p2.
  Proof.
    intros H H2. induction H2 as [q|q la pa j lb pb Ra IH Hs]; [now rewrite app_nil_r|]. rewrite app_assoc. eapply prun_snoc; eauto.
  Qed.

  (** A message of somebody not expected can stop the driver at once. *)
  Lemma stranger_may_stop s0 ls x from m : plain_ids Pr -> (forall mt, ser_meta mt <> None) -> initial s0 -> par_session r s0 ls (PRun x) ->
    pp_phase x = Loop -> can_finalize (pp_a x) = NotYet -> pp_hand x = false -> pp_proc x = [] ->
    message_authentic from (s_id (pp_s x)) (s_round_id (pp_s x)) m -> ~ banned (pp_s x) (pp_a x) from ->
    mem from (a_processing (pp_a x)) = false -> ~ expected (pp_s x) from -> round_answers (pp_s x) (as_verified from m) <> Panic ->
    par_run r (PRun x) [LIn from m; LApply (as_verified from m)] (PStop (Err LE_NotExpected)).
  Proof.
    intros Hp Hw Hi R Hph Hc Hh Hq Ha Hb Hn He Hnp.
    destruct (par_state Hi R) as (todo & Hre & Hinc). destruct (reachable_round Hre) as (d0 & es & K1 & K2 & K3).
    destruct (@received_to_process d0 es (DS (pp_s x) (pp_a x) todo) from m Hp Hw Hre K1 K2 K3 Ha Hb Hn) as (a' & Hpre & _ & Hc'). cbn [d_s d_a] in Hpre, Hc'.
    set (vm := as_verified from m) in *. set (pm := process_message (pp_s x) vm).
    set (x1 := set_p (set_acc x a') (pp_p x ++ [PMake vm])).
    assert (S1 : par_step r (PRun x) (AReceive from m) = Some ([LIn from m], PRun x1)).
    { cbn [par_step]. rewrite Hph, Hc, Hh, Hpre. reflexivity. }
    set (x2 := set_p x1 (pp_p x ++ [PSend pm])).
    assert (S2 : par_step r (PRun x1) (AHandle (length (pp_p x))) = Some ([], PRun x2)).
    { cbn [par_step]. unfold x1 at 1. cbn [set_p pp_p]. rewrite nth_error_end. unfold x2, pm. do 3 f_equal. unfold x1. cbn [set_p set_acc pp_p pp_s]. rewrite set_nth_end.
      unfold round_answers in Hnp. unfold process_message in Hnp |- *. cbn [pm_res] in Hnp |- *. destruct (rd_receive _ _ _); try contradiction; reflexivity. }
    set (x3 := set_proc (set_p x2 (pp_p x ++ [PEnd (Ok tt)])) [pm]).
    assert (S3 : par_step r (PRun x2) (AHandle (length (pp_p x))) = Some ([], PRun x3)).
    { cbn [par_step]. unfold x2 at 1. cbn [set_p pp_p]. rewrite nth_error_end. unfold x2 at 1, x1 at 1. cbn [set_p set_acc pp_proc]. rewrite Hq. cbn [length Nat.ltb Nat.leb capacity].
      unfold x3. unfold x2 at 1 2 3, x1 at 1 2 3. cbn [set_p set_acc pp_p pp_proc]. rewrite Hq, set_nth_end. reflexivity. }
    assert (R3 : par_run r (PRun x) [LIn from m] (PRun x3)).
    { change [@LIn P Pr from m] with ((([] ++ [@LIn P Pr from m]) ++ []) ++ []). eapply prun_snoc; [|exact S3]. eapply prun_snoc; [|exact S2]. eapply prun_snoc; [constructor|exact S1]. }
    change [@LIn P Pr from m; LApply vm] with ([@LIn P Pr from m] ++ [LApply vm]). eapply prun_snoc; [exact R3|].
    apply (@unexpected_stops s0 (ls ++ [LIn from m]) x3 pm []); auto.
    - destruct R as (l0 & -> & R). exists (l0 ++ [LIn from m]). split; auto. eapply prun_app; eauto.
    - cbn. now rewrite Hc'.
  Qed.
End Failure.
