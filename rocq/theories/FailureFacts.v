(** Why [run_session] fails. *)
From Coq Require Import List NArith Bool.
From Verif Require Import Base BMap Errors RoundId Message Protocol Transcript Evidence Session Spec SpecCause SpecExact
  Network SpecNet RunSync Driver SpecDriver SpecFailure MessageFacts SessionFacts RunFacts IntakeFacts RoundFacts FinalizeFacts
  HistoryFacts LocalFacts DriverFacts CauseFacts ExactFacts.
Import ListNotations.
Set Implicit Arguments.

Section Failure.
  Context {P : Params}.
  Context {Pr : Proto}.
  Implicit Types (s : Session Pr) (a : Accum Pr) (d : DState Pr) (es : list (event Pr)).

  Lemma close_fails d0 es d e : round_start d0 -> run d0 es d -> in_round es -> close_round (d_s d) (d_a d) = Err e ->
    contains (s_round_id (d_s d)) (tr_echo (s_tr (d_s d))) = true \/ blamed_again d0 es.
  Proof.
    intros Hs Hr Hin H. destruct (contains (s_round_id (d_s d)) (tr_echo (s_tr (d_s d)))) eqn:E; auto. right.
    apply (terminate_fails_iff Hs Hr Hin E). unfold terminate, terminate_inner. rewrite H. simpl. eauto.
  Qed.

  Lemma finalize_fails d0 es d g e : round_start d0 -> run d0 es d -> in_round es -> finalize_round (d_s d) g (d_a d) = Err e ->
    own_failure (d_s d) e \/ blamed_again d0 es.
  Proof.
    intros Hs Hr Hin H. unfold finalize_round in H. destruct (close_round (d_s d) (d_a d)) as [t|x|] eqn:Ec; cbn [bind] in H; [|inv H|discriminate].
    2:{ destruct (close_fails Hs Hr Hin Ec); auto. left. now apply Own_repeats. }
    left. pose proof (up_echo (close_round_ok _ _ Ec)) as Ue. destruct (s_echo_info (d_s d)) as [info|] eqn:Ei.
    - unfold tr_echo_broadcasts in H. rewrite Ue, get_insert, eqb_refl in H. cbn [bind ok_or] in H.
      destruct (rd_tinfo _) as [ti|x|] eqn:Et in H; cbn [bind] in H; [|inv H|discriminate].
      + destruct (new_for_next_round _ _ _ _ _) as [s'|x|] eqn:En in H; cbn [bind] in H; try discriminate. inv H. eapply Own_echo; eauto.
      + eapply (@Own_echo _ _ _ _ g _ _ _ _ t); [exact Ei|]. unfold new_for_next_round. rewrite Et. reflexivity.
    - destruct (rd_finalize _ _ _ _) as [out|x|] eqn:Ef; cbn [bind] in H; [|inv H|discriminate].
      + destruct out as [st|x]; [|discriminate]. destruct (mem _ _) eqn:Em; cbn [negb] in H.
        * destruct (new_for_next_round _ _ _ _ _) as [s'|x|] eqn:En in H; cbn [bind] in H; try discriminate. inv H. eapply Own_next; eauto.
        * eapply Own_transition; eauto.
      + eapply Own_finalize; eauto.
  Qed.

  Lemma deliver_fails d0 es d t1 vm t2 e l : round_start d0 -> run d0 es d -> in_round es -> d_todo d = t1 ++ vm :: t2 ->
    processing l vm -> deliver_one (d_s d) (d_a d) vm = Err e -> own_failure (d_s d) e \/ remote_failure d0 es l.
  Proof.
    intros Hs Hr Hin Ht Hl H. pose proof (in_round_session Hr Hin) as Hss.
    assert (Hf : exists a', add_processed (d_s d) (d_a d) (process_message (d_s d) vm) = (a', Err e)).
    { unfold deliver_one in H. destruct (add_processed _ _ _) as [a' [b|x|]]; cbn [acc_call bind] in H; try discriminate. inv H. eauto. }
    destruct Hf as [a' Hf]. destruct (mem (vm_from vm) (ci_expect (s_comm (d_s d)))) eqn:Ex.
    2:{ right. apply (@Remote_unexpected _ _ _ _ _ vm); auto. unfold expected. rewrite <- Hss. congruence. }
    assert (Hh : heard es (vm_from vm) \/ ~ heard es (vm_from vm)).
    { destruct (round_hist (round_start_fresh Hs) Hr Hin) as [Hh Hss']. rewrite <- Hss' in Hh.
      destruct (mem (vm_from vm) (a_waiting (d_a d))) eqn:Ew; [right; apply (h_waiting Hh) in Ew; tauto|].
      left. destruct (existsb (fun x => match x with EProc w => eqb (vm_from w) (vm_from vm) | _ => false end) es) eqn:Eb.
      - apply existsb_exists in Eb as ([| w | | ] & Hw & Hq); try discriminate. exists w. split; [exact Hw|now apply eqb_eq].
      - exfalso. rewrite <- not_true_iff_false in Ew. apply Ew. apply (h_waiting Hh). split; auto. intros (w & Hw & Hq).
        rewrite <- not_true_iff_false in Eb. apply Eb. apply existsb_exists. exists (EProc w). split; auto. now apply eqb_eq. }
    destruct Hh as [Hh|Hh]; [right; exact (@Remote_second _ _ _ _ _ vm Hl Hh)|]. left.
    unfold add_processed, process_message in Hf. cbn [pm_msg pm_res] in Hf. fold (round_answers (d_s d) vm) in Hf.
    destruct (round_hist (round_start_fresh Hs) Hr Hin) as [HH Hss']. rewrite <- Hss' in HH.
    assert (H1 : contains (vm_from vm) (a_payloads (d_a d)) = false).
    { apply contains_false. destruct (get _ _) eqn:E; auto. apply (h_payload HH) in E. destruct Hh. destruct E as (w & ? & ? & _). exists w. auto. }
    assert (H2 : mem (vm_from vm) (a_waiting (d_a d)) = true) by (apply (h_waiting HH); auto).
    assert (H3 : contains (vm_from vm) (a_provable (d_a d)) = false).
    { apply contains_false. destruct (get _ _) eqn:E; auto. apply (h_provable HH) in E. destruct Hh. tauto. }
    rewrite H1, H2 in Hf. cbn [negb] in Hf. unfold register_provable in Hf. cbn [set_waiting a_provable] in Hf. rewrite H3 in Hf.
    destruct (round_answers (d_s d) vm) as [p|[x| | | |b|x|x]|] eqn:Ea; try discriminate.
    - inv Hf. eapply Own_answer; eauto.
    - eapply Own_evidence; [exact Ea|]. intros Hav.
      destruct (@evidence_available_ok _ _ _ b (vm_echo vm) (vm_normal vm) (vm_direct vm) Hav) as [ev Hev]. rewrite Hev in Hf. discriminate.
  Qed.

  Lemma is_message_verified from m : is_message_of from m (as_verified from m).
  Proof. unfold is_message_of, as_verified. simpl. auto. Qed.

  Lemma done_err {A} (x : res LocalError A) (k : A -> Drv Pr) e : drv_try x k = DrvDone (Err e) ->
    x = Err e \/ exists y, x = Ok y /\ k y = DrvDone (Err e).
  Proof. destruct x as [y|y|]; cbn [drv_try]; intros H; [right; eauto|left|discriminate]. congruence. Qed.
  Lemma send_not_done s a l c o : drv_send s a l c <> DrvDone o.
  Proof. destruct l; [destruct c|]; discriminate. Qed.
  Lemma apply_not_done s a c o : drv_apply s a c <> DrvDone o.
  Proof. destruct c; discriminate. Qed.

  Lemma run_session_fails r s0 ls e : plain_ids Pr -> (forall mt, ser_meta mt <> None) -> initial s0 ->
    run_session r s0 ls (DrvDone (Err e)) ->
    exists ls1 l d0 es x, ls = ls1 ++ l /\ in_course r s0 ls1 d0 es x /\
      (own_failure (d_s x) e \/ channel_failure l e \/ remote_failure d0 es l).
  Proof.
    intros Hp Hw Hi (ls' & -> & H).
    apply run_last in H as [H|(l1 & d & i & l2 & H & Hstep & ->)]; [exfalso; eapply send_not_done; exact H|].
    assert (R : run_session r s0 (LEnter s0 :: l1) d) by (exists l1; auto).
    pose proof (session_dinv R) as I.
    assert (C : forall x, drv_state d = Some x -> exists d0 es, in_course r s0 (LEnter s0 :: l1) d0 es x).
    { intros x Hx. destruct (reachable_round (session_state Hi R Hx)) as (d0 & es & H1 & H2 & H3). exists d0, es. split; eauto. }
    assert (Go : forall x d0 es, in_course r s0 (LEnter s0 :: l1) d0 es x ->
      own_failure (d_s x) e \/ channel_failure l2 e \/ remote_failure d0 es l2 ->
      exists ls1 l d0 es x, LEnter s0 :: l1 ++ l2 = ls1 ++ l /\ in_course r s0 ls1 d0 es x /\
      (own_failure (d_s x) e \/ channel_failure l e \/ remote_failure d0 es l)).
    { intros x d0 es H1 H2. exists (LEnter s0 :: l1), l2, d0, es, x. auto. }
    destruct d as [s a dest dests c|s a vm c|s a|o]; cbn [drv_step] in Hstep; [| | |discriminate].
    - destruct (C _ eq_refl) as (d0 & es & K). apply (Go _ _ _ K). clear Go C. simpl.
      destruct i; try discriminate.
      + destruct (make_message s _ dest) as [[m pa]|x|] eqn:Em; injection Hstep as <- Hd; try discriminate.
        * exfalso. apply done_err in Hd as [Hd|(y & _ & Hd)]; [|eapply send_not_done; exact Hd].
          destruct I as (_ & Hl & _). destruct (Hl dest (or_introl eq_refl)) as [_ Hn]. rewrite <- (proj2 (made_msg _ _ _ Em)) in Hn.
          unfold add_artifact in Hd. cbn [acc_call] in Hd. rewrite Hn in Hd. discriminate.
        * inv Hd. left. eapply Own_message; eauto.
      + destruct (make_message s _ dest) as [[m pa]|x|] eqn:Em; injection Hstep as <- Hd; cbn [drv_try] in Hd; try discriminate; try (injection Hd as Hd); subst e.
        * right. left. split; eauto.
        * left. eapply Own_message; eauto.
    - destruct i; try discriminate. injection Hstep as <- Hd. destruct (C _ eq_refl) as (d0 & es & K). apply (Go _ _ _ K). clear Go C.
      apply done_err in Hd as [Hd|(y & _ & Hd)]; [|exfalso; eapply apply_not_done; exact Hd].
      destruct K as (_ & K1 & K2 & K3).
      destruct (@deliver_fails d0 es (DS s a (vm :: c)) [] vm c e [LApply vm] K1 K2 K3 eq_refl (or_introl eq_refl) Hd); auto.
    - destruct (C _ eq_refl) as (d0 & es & K). apply (Go _ _ _ K). clear Go C. destruct K as (_ & K1 & K2 & K3).
      assert (Give : terminate_due_to_errors s a = Err e -> own_failure s e \/ blamed_again d0 es).
      { unfold terminate_due_to_errors, terminate_inner. intros Ht. destruct (close_round s a) as [t|x|] eqn:Ec; try discriminate. inv Ht.
        destruct (close_fails K1 K2 K3 Ec); auto. left. now apply Own_repeats. }
      destruct (can_finalize a); destruct i as [| |from m| |]; try discriminate.
      + destruct (finalize_round s _ a) as [[rep|s1 c]|x|] eqn:Ef; injection Hstep as <- Hd; try discriminate.
        * exfalso. eapply send_not_done; exact Hd.
        * inv Hd. destruct (finalize_fails _ K1 K2 K3 Ef); auto. right. right. now apply Remote_again.
      + injection Hstep as <- Hd. simpl.
        destruct (preprocess_total from m Hp Hw (session_state Hi R eq_refl)) as (a1 & o & Hpre). simpl in Hpre.
        rewrite Hpre in Hd. cbn [acc_call bind drv_try fst snd] in Hd.
        destruct o as [vm| |]; try discriminate. apply done_err in Hd as [Hd|(y & _ & Hd)]; [|discriminate].
        assert (Ev : vm = as_verified from m).
        { pose proof (preprocess_cases _ _ _ _ Hpre) as Hc. inv Hc. reflexivity. }
        assert (K2' : run d0 (es ++ [EPre from m (ToProcess vm)]) (DS s a1 [vm])).
        { eapply run_snoc; [exact K2|]. exact (@step_pre _ _ s a [] from m _ _ Hpre). }
        assert (K3' : in_round (es ++ [EPre from m (ToProcess vm)])).
        { unfold in_round in *. rewrite forallb_app, K3. reflexivity. }
        assert (Hl : processing (Pr := Pr) [LIn from m] vm).
        { right. exists m. rewrite Ev. split; auto. apply is_message_verified. }
        destruct (@deliver_fails d0 _ (DS s a1 [vm]) [] vm [] e _ K1 K2' K3' eq_refl Hl Hd) as [F|F]; auto. right. right.
        destruct F as [w F1 F2|w F1 F2|F].
        * exact (@Remote_unexpected _ _ _ _ _ w F1 F2).
        * apply (@Remote_second _ _ _ _ _ w); auto. destruct F2 as (w' & F2 & F3). exists w'. split; auto. apply in_snoc in F2 as [F2|F2]; auto. discriminate.
        * apply Remote_again. destruct F as (w & u & F2 & F3 & F4). exists w, u. split; auto. split; auto. apply in_snoc in F3 as [F3|F3]; auto. discriminate.
      + injection Hstep as <- Hd. inv Hd. right. left. split; auto.
      + injection Hstep as <- Hd. destruct (Give Hd); auto. right. right. now apply Remote_again.
      + injection Hstep as <- Hd. destruct (Give Hd); auto. right. right. now apply Remote_again.
  Qed.

  (** ** Strangers *)
  Lemma processing_expected r s0 ls (d : Drv Pr) x : initial s0 -> run_session r s0 ls d -> drv_state d = Some x ->
    forall v, mem v (a_processing (d_a x)) = true -> expected (d_s x) v.
  Proof.
    intros Hi (ls' & -> & H). revert x. remember (drv_enter s0 []) as di eqn:E. induction H as [d|d l1 d1 i l2 d2 Hr IH Hs]; intros x Hx v Hv.
    - subst d. unfold drv_enter in Hx. rewrite state_send in Hx. inv Hx. simpl in Hv. rewrite mem_empty in Hv. discriminate.
    - specialize (IH E). subst d. assert (R : run_session r s0 (LEnter s0 :: l1) d1) by (exists l1; auto).
      assert (W : forall s a c vm a', drv_state d1 = Some (DS s a c) -> add_processed s a (process_message s vm) = (a', Ok tt) -> expected s (vm_from vm)).
      { intros s a c vm a' Hd Ha. pose proof (session_state Hi R Hd) as Hre. destruct (reachable_round Hre) as (d0 & es & K1 & K2 & K3).
        destruct (round_hist (round_start_fresh K1) K2 K3) as [Hh Hss]. rewrite <- Hss in Hh. apply add_processed_ok in Ha as (_ & Hw & _).
        apply (h_waiting Hh) in Hw. tauto. }
      destruct d1 as [s a dest dests c|s a vm c|s a|o]; cbn [drv_step] in Hs; [| | |discriminate].
      + specialize (IH _ eq_refl). destruct i; try discriminate.
        * destruct (make_message s _ dest) as [[m pa]|y|]; apply stp_inj in Hs as [-> ->]; try discriminate.
          destruct (acc_call (add_artifact a pa)) as [[a1 []]|y|] eqn:Ea; try discriminate. cbn [drv_try fst] in Hx. rewrite state_send in Hx. inv Hx.
          apply acc_call_ok in Ea. apply add_artifact_ok in Ea as [_ ->]. apply IH. exact Hv.
        * destruct (make_message s _ dest) as [[m pa]|y|]; apply stp_inj in Hs as [-> ->]; discriminate.
      + specialize (IH _ eq_refl). destruct i; try discriminate. apply stp_inj in Hs as [-> ->].
        destruct (deliver_one s a vm) as [a1|y|] eqn:Ed; try discriminate. cbn [drv_try] in Hx. rewrite state_apply in Hx. inv Hx.
        apply deliver_ok, add_processed_ok in Ed as (_ & _ & Hc). apply IH. inv Hc; exact Hv.
      + specialize (IH _ eq_refl). destruct (can_finalize a); destruct i as [| |from m| |]; try discriminate.
        * destruct (finalize_round s _ a) as [[rep|s1 c]|y|]; apply stp_inj in Hs as [-> ->]; try discriminate.
          unfold drv_enter in Hx. rewrite state_send in Hx. inv Hx. simpl in Hv. rewrite mem_empty in Hv. discriminate.
        * apply stp_inj in Hs as [-> ->]. destruct (acc_call (preprocess_message s a from m)) as [[a1 o]|y|] eqn:Ep; try discriminate.
          apply acc_call_ok in Ep. pose proof (preprocess_cases _ _ _ _ Ep) as Hc. cbn [drv_try fst snd] in Hx. destruct o as [vm| |].
          -- destruct (deliver_one s a1 vm) as [a2|y|] eqn:Ed; try discriminate. cbn [drv_try] in Hx. inv Hx. apply deliver_ok in Ed. cbn [d_s d_a] in *.
             assert (He : expected s (vm_from vm)).
             { pose proof (session_state Hi R eq_refl) as Hre. destruct (reachable_round Hre) as (d0 & es & K1 & K2 & K3).
               destruct (round_hist (round_start_fresh K1) K2 K3) as [Hh Hss]. rewrite <- Hss in Hh. apply add_processed_ok in Ed as (_ & Hw & _).
               inv Hc. apply (h_waiting Hh) in Hw. tauto. }
             apply add_processed_ok in Ed as (_ & _ & Hc2). inv Hc. cbn [vm_from] in He.
             assert (Hv' : mem v (sadd from (a_processing a)) = true) by (inv Hc2; exact Hv).
             rewrite mem_add in Hv'. destruct (eqb_spec v from) as [->|]; auto.
          -- inv Hx. inv Hc. apply IH. exact Hv.
          -- inv Hx. inv Hc; apply IH; exact Hv.
        * apply stp_inj in Hs as [-> ->]. discriminate.
        * apply stp_inj in Hs as [-> ->]. discriminate.
        * apply stp_inj in Hs as [-> ->]. discriminate.
  Qed.

  Lemma stranger_stops r s0 ls s a from m : plain_ids Pr -> (forall mt, ser_meta mt <> None) -> initial s0 ->
    run_session r s0 ls (DrvWait s a) -> can_finalize a = NotYet ->
    message_authentic from (s_id s) (s_round_id s) m -> ~ banned s a from -> ~ expected s from ->
    drv_step r (DrvWait s a) (IRecv from m) = Some ([LIn from m], DrvDone (Err LE_NotExpected)).
  Proof.
    intros Hp Hw Hi R Hc Ha Hb He. pose proof (session_state Hi R eq_refl) as Hre.
    destruct (preprocess_total from m Hp Hw Hre) as (a1 & o & Hpre). cbn [d_s d_a] in Hpre.
    destruct (reachable_round Hre) as (d0 & es & K1 & K2 & K3). cbn [drv_step]. rewrite Hc, Hpre. cbn [acc_call bind drv_try fst snd].
    assert (Ho : forall e, o <> PreError e).
    { intros e ->. pose proof (error_reason_round from m K1 K2 K3 Hpre) as Hr. destruct Ha as (S1 & S2 & S3 & M1 & M2 & M3).
      inversion Hr; subst; cbn [d_s d_a] in *.
      - contradiction.
      - match goal with X : forall sid rid, ~ carries _ _ _ |- _ => apply (X (s_id s) (s_round_id s)) end. repeat split; auto.
      - match goal with X : carries _ _ _ |- _ => destruct X as [X _] end. congruence.
      - apply He. eapply (processing_expected Hi R eq_refl). cbn [d_a]. destruct (round_hist (round_start_fresh K1) K2 K3) as [Hh _].
        apply (h_processing Hh). eauto.
      - match goal with X : carries _ _ _ |- _ => destruct X as [X _] end. congruence.
      - match goal with X : carries _ _ _ |- _ => destruct X as [X _] end. congruence.
      - destruct S1 as (? & ? & _ & S1 & _), S2 as (? & ? & _ & S2 & _), S3 as (? & ? & _ & S3 & _). intuition congruence.
      - tauto. }
    pose proof (preprocess_cases _ _ _ _ Hpre) as Hcs. inv Hcs; try (exfalso; eapply Ho; reflexivity).
    - destruct (round_hist (round_start_fresh K1) K2 K3) as [Hh Hss]. rewrite <- Hss in Hh. cbn [d_s d_a] in Hh.
      unfold deliver_one, add_processed, process_message. cbn [pm_msg vm_from set_processing a_payloads a_waiting].
      destruct (contains from (a_payloads a)) eqn:Ep.
      { exfalso. apply He. apply contains_get in Ep as [p Ep]. apply (h_payload Hh) in Ep as (w & W1 & <- & _).
        apply (h_heard Hh). exists w. auto. }
      destruct (mem from (a_waiting a)) eqn:Ew; [exfalso; apply He; apply (h_waiting Hh) in Ew; tauto|]. reflexivity.
    - exfalso. destruct Ha as (_ & _ & _ & M1 & _), H1 as (_ & _ & _ & M2 & _). congruence.
  Qed.
End Failure.
