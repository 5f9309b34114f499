(** The contents of transcripts. *)
From Coq Require Import List NArith Bool.
From Verif Require Import Base BMap Errors RoundId Message Protocol Transcript Evidence Session Spec SpecEvidence SpecRecord MessageFacts
  SessionFacts RunFacts IntakeFacts RoundFacts FinalizeFacts HistoryFacts.
Import ListNotations.
Set Implicit Arguments.

Section Record_.
  Context {P : Params}.
  Context {Pr : Proto}.
  Implicit Types (d : DState Pr) (es : list (event Pr)).

  Lemma was_accepted_iff sr es v {k} (proj : VMessage -> SPart k) p : part_accepted sr es v proj p <-> was_accepted sr es v proj p.
  Proof.
    unfold part_accepted, was_accepted, answer. split.
    - intros (vm & x & H1 & H2 & H3 & H4 & H5). exists vm, x. subst v. repeat split; auto. destruct (sp_body p); [discriminate|discriminate H5].
    - intros (vm & x & H1 & H2 & H3 & H4 & H5). exists vm, x. subst v. repeat split; auto. destruct (sp_body p); auto. congruence.
  Qed.

  (** The transcript after a finalization. *)
  Lemma fin_updated d g d' : step d (EFin g) d' ->
    updated (s_tr (d_s d)) (s_round_id (d_s d)) (s_verifier (d_s d)) (s_echo (d_s d)) (a_echo (d_a d)) (a_normal (d_a d)) (a_direct (d_a d))
      (a_provable (d_a d)) (a_unprovable (d_a d)) (a_waiting (d_a d)) (s_tr (d_s d')).
  Proof.
    intros H. inv H. simpl. match goal with X : finalize_round _ _ _ = _ |- _ => apply finalize_another in X end.
    match goal with X : fin_cases _ _ _ _ _ |- _ => destruct X as [t info echos Hc Hi Hg C _|t st Hc Hi Hf Hm C _] end;
      rewrite (cr_tr C); now apply close_round_ok.
  Qed.
  Lemma nofin_same d e d' : step d e d' -> is_fin e = false -> d_s d' = d_s d.
  Proof. intros H E. inv H; auto; discriminate. Qed.

  (** Splitting off the current round. *)
  Lemma current s es d : run (start s) es d -> exists es0 er d0, es = es0 ++ er /\ (es0 = [] \/ exists es' g', es0 = es' ++ [EFin g']) /\
    in_round er /\ run (start s) es0 d0 /\ run d0 er d /\ d_a d0 = make_accumulator (d_s d0).
  Proof.
    intros Hr. remember (start s) as di eqn:E. induction Hr as [d|d es d1 e d2 Hr IH Hs].
    - exists [], [], d. subst. repeat split; auto; constructor.
    - specialize (IH E). destruct IH as (es0 & er & d0 & -> & Hb & Hin & H0 & H1 & Ha). destruct (is_fin e) eqn:Ef.
      + destruct e as [| | |g]; try discriminate. exists ((es0 ++ er) ++ [EFin g]), [], d2. rewrite app_nil_r.
        split; auto. split; [right; eauto|]. split; [reflexivity|]. split; [eapply run_snoc; eauto|]. split; [constructor|]. inv Hs; reflexivity.
      + exists es0, (er ++ [e]), d0. rewrite app_assoc. split; auto. split; auto. split; [|split; auto; split; auto; eapply run_snoc; eauto].
        apply in_round_app. split; auto. unfold in_round. simpl. now rewrite Ef.
  Qed.

  Lemma completed_more s es d e d' sr er ar : completed s es d sr er ar -> step d e d' -> completed s (es ++ [e]) d' sr er ar.
  Proof.
    intros (es0 & d0 & d1 & g & d2 & es2 & E & H1 & H2 & H3 & H4 & H5 & H6 & H7) Hs. exists es0, d0, d1, g, d2, (es2 ++ [e]). subst es.
    split; [now rewrite <- !app_assoc, <- app_comm_cons|]. repeat (split; auto). eapply run_snoc; eauto.
  Qed.
  Lemma completed_now s es d g d' : run (start s) es d -> step d (EFin g) d' ->
    exists er, completed s (es ++ [EFin g]) d' (d_s d) er (d_a d) /\ hist (d_s d) er (d_a d).
  Proof.
    intros Hr Hs. destruct (current Hr) as (es0 & er & d0 & -> & Hb & Hin & H0 & H1 & Ha).
    destruct (round_hist Ha H1 Hin) as [Hh E]. exists er. split; [|now rewrite E in *].
    exists es0, d0, d, g, d', []. rewrite <- app_assoc. repeat split; auto. constructor.
  Qed.
  Lemma completed_hist s es d sr er ar : completed s es d sr er ar ->
    exists d1 g d2 es2, step d1 (EFin g) d2 /\ run d2 es2 d /\ d_s d1 = sr /\ d_a d1 = ar /\ hist sr er ar.
  Proof.
    intros (es0 & d0 & d1 & g & d2 & es2 & E & Hb & Hin & H0 & H1 & Hs & H2 & <- & <-).
    assert (Ha : d_a d0 = make_accumulator (d_s d0)).
    { destruct Hb as [->|(es' & g' & ->)].
      - apply run_nil_inv in H0. subst. reflexivity.
      - apply run_snoc_inv in H0 as (dx & _ & Hx). inv Hx. reflexivity. }
    destruct (round_hist Ha H1 Hin) as [Hh Es]. exists d1, g, d2, es2. auto.
  Qed.

  (** Nothing is removed or replaced. *)
  Lemma stays_echo d es d' rid m : run d es d' -> get rid (tr_echo (s_tr (d_s d))) = Some m -> get rid (tr_echo (s_tr (d_s d'))) = Some m.
  Proof.
    intros Hr H. induction Hr as [d|d es d1 e d2 Hr IH Hs]; auto. specialize (IH H). destruct (is_fin e) eqn:Ef.
    - destruct e as [| | |g]; try discriminate. pose proof (fin_updated Hs) as U. rewrite (up_echo U), get_insert.
      destruct (eqb_spec rid (s_round_id (d_s d1))) as [->|]; auto. pose proof (up_echo_new U). congruence.
    - now rewrite (nofin_same Hs Ef).
  Qed.
  Lemma stays d es d' rid : run d es d' -> contains rid (tr_echo (s_tr (d_s d))) = true ->
    get rid (tr_normal (s_tr (d_s d'))) = get rid (tr_normal (s_tr (d_s d))) /\
    get rid (tr_direct (s_tr (d_s d'))) = get rid (tr_direct (s_tr (d_s d))).
  Proof.
    intros Hr H. apply contains_get in H as [m H]. induction Hr as [d|d es d1 e d2 Hr IH Hs]; auto. destruct (IH H) as [I1 I2].
    pose proof (stays_echo rid Hr H) as H'. destruct (is_fin e) eqn:Ef.
    - destruct e as [| | |g]; try discriminate. pose proof (fin_updated Hs) as U. rewrite (up_normal U), (up_direct U), !get_insert.
      destruct (eqb_spec rid (s_round_id (d_s d1))) as [->|]; auto. pose proof (up_echo_new U). congruence.
    - now rewrite (nofin_same Hs Ef).
  Qed.
  Lemma stays_errors d es d' v : run d es d' ->
    (forall e, get v (tr_provable (s_tr (d_s d))) = Some e -> get v (tr_provable (s_tr (d_s d'))) = Some e) /\
    (forall e, get v (tr_unprovable (s_tr (d_s d))) = Some e -> get v (tr_unprovable (s_tr (d_s d'))) = Some e).
  Proof.
    intros Hr. induction Hr as [d|d es d1 e d2 Hr [I1 I2] Hs]; auto. destruct (is_fin e) eqn:Ef.
    - destruct e as [| | |g]; try discriminate. pose proof (fin_updated Hs) as U. split; intros e He; [apply (up_provable U)|apply (up_unprovable U)]; auto.
    - rewrite (nofin_same Hs Ef). auto.
  Qed.

  Section Parts.
    Context {k : kind} (sel : Transcript -> bmap RoundId (bmap Verifier (SPart k))) (asel : Accum Pr -> bmap Verifier (SPart k)) (proj : VMessage -> SPart k).
    Hypothesis Hup : forall d g d', step d (EFin g) d' -> sel (s_tr (d_s d')) = insert (s_round_id (d_s d)) (asel (d_a d)) (sel (s_tr (d_s d))).
    Hypothesis Hstay : forall d es d' rid, run d es d' -> contains rid (tr_echo (s_tr (d_s d))) = true ->
      get rid (sel (s_tr (d_s d'))) = get rid (sel (s_tr (d_s d))).
    Hypothesis Hhist : forall s es a, hist s es a -> forall v p, get v (asel a) = Some p <-> part_accepted s es v proj p.
    Hypothesis Hnew : sel tr_new = empty.

    Lemma parts_record s es d rid v p : initial s -> run (start s) es d ->
      recorded (sel (s_tr (d_s d))) rid v p <->
      exists sr er ar, completed s es d sr er ar /\ s_round_id sr = rid /\ was_accepted sr er v proj p.
    Proof.
      intros Hi Hr. split.
      - remember (start s) as di eqn:E. induction Hr as [d|d es d1 e d2 Hr IH Hs].
        + intros (m & Hm & _). exfalso. subst d. destruct Hi as (g & sid & signer & ep & Hn). apply session_new_ok in Hn as (st & _ & C).
          simpl in Hm. rewrite (cr_tr C), Hnew, get_empty in Hm. discriminate.
        + specialize (IH E). subst d. destruct (is_fin e) eqn:Ef.
          * destruct e as [| | |g]; try discriminate. intros (m & Hm & Hp). rewrite (Hup Hs), get_insert in Hm.
            destruct (eqb_spec rid (s_round_id (d_s d1))) as [->|Hne].
            -- inv Hm. destruct (completed_now Hr Hs) as (er & Hc & Hh). exists (d_s d1), er, (d_a d1). split; auto. split; auto.
               apply was_accepted_iff. now apply (Hhist Hh).
            -- destruct IH as (sr & er & ar & Hc & H1 & H2); [exists m; auto|]. exists sr, er, ar. split; auto. eapply completed_more; eauto.
          * rewrite (nofin_same Hs Ef). intros H. destruct (IH H) as (sr & er & ar & Hc & H1 & H2). exists sr, er, ar. split; auto.
            eapply completed_more; eauto.
      - intros (sr & er & ar & Hc & Hrid & Ha). destruct (completed_hist Hc) as (d1 & g & d2 & es2 & Hs & H2 & <- & <- & Hh).
        exists (asel (d_a d1)). split.
        + rewrite (Hstay rid H2).
          * rewrite (Hup Hs), get_insert, Hrid, eqb_refl. reflexivity.
          * rewrite (up_echo (fin_updated Hs)). unfold contains. now rewrite get_insert, Hrid, eqb_refl.
        + apply (Hhist Hh). now apply was_accepted_iff.
    Qed.
  End Parts.

  Lemma echo_record s es d rid v p : initial s -> run (start s) es d ->
    recorded (tr_echo (s_tr (d_s d))) rid v p <->
    exists sr er ar, completed s es d sr er ar /\ s_round_id sr = rid /\
      ((v = s_verifier sr /\ p = s_echo sr) \/ (v <> s_verifier sr /\ was_accepted sr er v (@vm_echo _) p)).
  Proof.
    intros Hi Hr. split.
    - remember (start s) as di eqn:E. induction Hr as [d|d es d1 e d2 Hr IH Hs].
      + intros (m & Hm & _). exfalso. subst d. destruct Hi as (g & sid & signer & ep & Hn). apply session_new_ok in Hn as (st & _ & C).
        simpl in Hm. rewrite (cr_tr C) in Hm. cbn [tr_echo tr_new] in Hm. rewrite get_empty in Hm. discriminate.
      + specialize (IH E). subst d. destruct (is_fin e) eqn:Ef.
        * destruct e as [| | |g]; try discriminate. intros (m & Hm & Hp). rewrite (up_echo (fin_updated Hs)), get_insert in Hm.
          destruct (eqb_spec rid (s_round_id (d_s d1))) as [->|Hne].
          -- inv Hm. destruct (completed_now Hr Hs) as (er & Hc & Hh). exists (d_s d1), er, (d_a d1). split; auto. split; auto.
             rewrite get_insert in Hp. destruct (eqb_spec v (s_verifier (d_s d1))) as [->|Hv]; [inv Hp; auto|].
             right. split; auto. apply was_accepted_iff. now apply (h_echo Hh).
          -- destruct IH as (sr & er & ar & Hc & H1 & H2); [exists m; auto|]. exists sr, er, ar. split; auto. eapply completed_more; eauto.
        * rewrite (nofin_same Hs Ef). intros H. destruct (IH H) as (sr & er & ar & Hc & H1 & H2). exists sr, er, ar. split; auto.
          eapply completed_more; eauto.
    - intros (sr & er & ar & Hc & Hrid & Ha). destruct (completed_hist Hc) as (d1 & g & d2 & es2 & Hs & H2 & <- & <- & Hh).
      exists (insert (s_verifier (d_s d1)) (s_echo (d_s d1)) (a_echo (d_a d1))). split.
      + apply (stays_echo rid H2). rewrite (up_echo (fin_updated Hs)), get_insert, Hrid, eqb_refl. reflexivity.
      + rewrite get_insert. destruct Ha as [[-> ->]|[Hv Ha]]; [now rewrite eqb_refl|].
        destruct (eqb_spec v (s_verifier (d_s d1))); [contradiction|]. apply (h_echo Hh). now apply was_accepted_iff.
  Qed.

  Lemma normal_record s es d rid v p : initial s -> run (start s) es d ->
    recorded (tr_normal (s_tr (d_s d))) rid v p <->
    exists sr er ar, completed s es d sr er ar /\ s_round_id sr = rid /\ was_accepted sr er v (@vm_normal _) p.
  Proof.
    apply (@parts_record _ (@tr_normal _) (@a_normal _ _)); auto.
    - intros d0 g d' H. exact (up_normal (fin_updated H)).
    - intros d0 es0 d' rid0 H1 H2. exact (proj1 (stays rid0 H1 H2)).
    - intros s0 es0 a H. exact (h_normal H).
  Qed.
  Lemma direct_record s es d rid v p : initial s -> run (start s) es d ->
    recorded (tr_direct (s_tr (d_s d))) rid v p <->
    exists sr er ar, completed s es d sr er ar /\ s_round_id sr = rid /\ was_accepted sr er v (@vm_direct _) p.
  Proof.
    apply (@parts_record _ (@tr_direct _) (@a_direct _ _)); auto.
    - intros d0 g d' H. exact (up_direct (fin_updated H)).
    - intros d0 es0 d' rid0 H1 H2. exact (proj2 (stays rid0 H1 H2)).
    - intros s0 es0 a H. exact (h_direct H).
  Qed.

  Lemma error_record s es d v : initial s -> run (start s) es d ->
    (forall e, get v (tr_provable (s_tr (d_s d))) = Some e <-> exists sr er ar, completed s es d sr er ar /\ get v (a_provable ar) = Some e) /\
    (forall e, get v (tr_unprovable (s_tr (d_s d))) = Some e <-> exists sr er ar, completed s es d sr er ar /\ get v (a_unprovable ar) = Some e).
  Proof.
    intros Hi Hr. split; intros e; split.
    - remember (start s) as di eqn:E. induction Hr as [d|d es d1 e1 d2 Hr IH Hs]; intros Hg.
      + exfalso. subst d. destruct Hi as (g & sid & signer & ep & Hn). apply session_new_ok in Hn as (st & _ & C).
        simpl in Hg. rewrite (cr_tr C) in Hg. cbn [tr_provable tr_new] in Hg. rewrite get_empty in Hg. discriminate.
      + specialize (IH E). subst d. assert (K : get v (tr_provable (s_tr (d_s d1))) = Some e ->
          exists sr er ar, completed s (es ++ [e1]) d2 sr er ar /\ get v (a_provable ar) = Some e).
        { intros H. destruct (IH H) as (sr & er & ar & Hc & H1). exists sr, er, ar. split; auto. eapply completed_more; eauto. }
        destruct (is_fin e1) eqn:Ef; [|rewrite (nofin_same Hs Ef) in Hg; auto].
        destruct e1 as [| | |g]; try discriminate. apply (up_provable (fin_updated Hs)) in Hg as [Hg|Hg]; auto.
        destruct (completed_now Hr Hs) as (er & Hc & _). eauto.
    - intros (sr & er & ar & Hc & Ha). destruct (completed_hist Hc) as (d1 & g & d2 & es2 & Hs & H2 & <- & <- & Hh).
      apply (stays_errors v H2). apply (up_provable (fin_updated Hs)). auto.
    - remember (start s) as di eqn:E. induction Hr as [d|d es d1 e1 d2 Hr IH Hs]; intros Hg.
      + exfalso. subst d. destruct Hi as (g & sid & signer & ep & Hn). apply session_new_ok in Hn as (st & _ & C).
        simpl in Hg. rewrite (cr_tr C) in Hg. cbn [tr_unprovable tr_new] in Hg. rewrite get_empty in Hg. discriminate.
      + specialize (IH E). subst d. assert (K : get v (tr_unprovable (s_tr (d_s d1))) = Some e ->
          exists sr er ar, completed s (es ++ [e1]) d2 sr er ar /\ get v (a_unprovable ar) = Some e).
        { intros H. destruct (IH H) as (sr & er & ar & Hc & H1). exists sr, er, ar. split; auto. eapply completed_more; eauto. }
        destruct (is_fin e1) eqn:Ef; [|rewrite (nofin_same Hs Ef) in Hg; auto].
        destruct e1 as [| | |g]; try discriminate. apply (up_unprovable (fin_updated Hs)) in Hg as [Hg|Hg]; auto.
        destruct (completed_now Hr Hs) as (er & Hc & _). eauto.
    - intros (sr & er & ar & Hc & Ha). destruct (completed_hist Hc) as (d1 & g & d2 & es2 & Hs & H2 & <- & <- & Hh).
      apply (stays_errors v H2). apply (up_unprovable (fin_updated Hs)). auto.
  Qed.
  Lemma report_record s es d rep v : initial s -> run (start s) es d -> ends_with d rep ->
    (forall e, get v (rep_provable rep) = Some e <->
       (exists sr er ar, completed s es d sr er ar /\ get v (a_provable ar) = Some e) \/ get v (a_provable (d_a d)) = Some e) /\
    (forall e, get v (rep_unprovable rep) = Some e <->
       (exists sr er ar, completed s es d sr er ar /\ get v (a_unprovable ar) = Some e) \/ get v (a_unprovable (d_a d)) = Some e).
  Proof.
    intros Hi Hr He. destruct (ends_report He) as (t & o & Ht & ->). apply close_round_ok in Ht. destruct (error_record v Hi Hr) as [H1 H2].
    simpl. split; intros e; [rewrite (up_provable Ht), H1|rewrite (up_unprovable Ht), H2]; reflexivity.
  Qed.
End Record_.
