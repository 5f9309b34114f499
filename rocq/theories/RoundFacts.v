(** Proofs about rounds: can_finalize, accounting, finalization, transitions, echo rounds, the cache. *)
From Coq Require Import List NArith Bool Permutation.
From Verif Require Import Base BMap Errors RoundId Message Protocol Transcript Evidence Session Spec
  MessageFacts SessionFacts RunFacts IntakeFacts.
Import ListNotations.
Set Implicit Arguments.

Section WithParams.
  Context {P : Params}.
  Context {Pr : Proto}.
  Implicit Types (s : Session Pr) (a : Accum Pr) (d : DState Pr) (es : list (event Pr)).

  Lemma round_history d0 es d : round_start d0 -> run d0 es d -> in_round es -> hist (d_s d) es (d_a d).
  Proof.
    intros Hs Hr Hin. destruct (round_hist (round_start_fresh Hs) Hr Hin) as [H Hss]. now rewrite Hss.
  Qed.

  (** ** can_finalize *)
  Lemma yes_iff a : can_finalize a = Yes <-> forall v, mem v (a_expect a) = true -> contains v (a_payloads a) = true.
  Proof.
    unfold can_finalize. destruct (forallb _ _) eqn:E.
    - split; auto. intros _ v Hv. rewrite forallb_forall in E. apply E. now apply in_elements.
    - split.
      + destruct (negb _); discriminate.
      + intros H. exfalso. assert (Hx : forallb (fun k => contains k (a_payloads a)) (elements (a_expect a)) = true).
        { apply forallb_forall. intros v Hv. apply H. now apply in_elements. }
        congruence.
  Qed.

  Lemma notyet_iff a : can_finalize a = NotYet <-> can_finalize a <> Yes /\ exists v, mem v (a_waiting a) = true.
  Proof.
    unfold can_finalize. destruct (forallb _ _); [split; [discriminate|tauto]|].
    destruct (is_empty (a_waiting a)) eqn:E; simpl.
    - split; [discriminate|]. intros (_ & v & Hv). rewrite is_empty_get in E. unfold mem in Hv.
      apply contains_get in Hv as [x Hx]. congruence.
    - split; auto. intros _. split; [discriminate|]. apply not_empty_ex in E as (v & x & Hx). exists v.
      unfold mem. apply contains_get; eauto.
  Qed.

  Lemma all_or_some (p : Verifier -> bool) (l : list Verifier) :
    (forall v, In v l -> p v = true) \/ (exists v, In v l /\ p v = false).
  Proof.
    induction l as [|x l IH]; simpl; [left; tauto|]. destruct (p x) eqn:E.
    - destruct IH as [IH|(v & H1 & H2)]; [left|right; eauto]. intros v [<-|Hv]; auto.
    - right; eauto.
  Qed.

  Lemma heard_dec es v : heard es v \/ ~ heard es v.
  Proof.
    induction es as [|e es IH]; [right; intros (? & [] & _)|].
    destruct IH as [(vm & Hi & Hf)|IH]; [left; exists vm; simpl; auto|].
    destruct e as [| vm | |]; try (right; intros (vm' & [He|Hi] & Hf); [discriminate|apply IH; exists vm'; auto]).
    destruct (ord_dec (vm_from vm) v) as [E|E]; [left; exists vm; simpl; auto|].
    right; intros (vm' & [He|Hi] & Hf); [congruence|apply IH; exists vm'; auto].
  Qed.

  Lemma can_finalize_meaning d0 es d :
    round_start d0 -> run d0 es d -> in_round es ->
    let all_ok := forall v, expected (d_s d) v -> exists p, accepted (d_s d) es v p in
    (can_finalize (d_a d) = Yes <-> all_ok) /\
    (can_finalize (d_a d) = NotYet <-> ~ all_ok /\ exists v, expected (d_s d) v /\ ~ heard es v) /\
    (can_finalize (d_a d) = Never <-> ~ all_ok /\ forall v, expected (d_s d) v -> heard es v) /\
    (can_finalize (d_a d) = Never ->
       exists v, expected (d_s d) v /\ heard es v /\ (forall p, ~ accepted (d_s d) es v p) /\ banned (d_s d) (d_a d) v).
  Proof.
    intros Hs Hr Hin all_ok. pose proof (round_history Hs Hr Hin) as H.
    assert (HY : can_finalize (d_a d) = Yes <-> all_ok).
    { rewrite yes_iff, (h_expect H). unfold all_ok, expected.
      split; intros Hx v Hv; specialize (Hx v Hv).
      - apply contains_get in Hx as [p Hp]. exists p. now apply (h_payload H).
      - destruct Hx as [p Hp]. apply (h_payload H) in Hp. apply contains_get; eauto. }
    assert (HN : can_finalize (d_a d) = NotYet <-> ~ all_ok /\ exists v, expected (d_s d) v /\ ~ heard es v).
    { rewrite notyet_iff, HY. split; intros [H1 (v & Hv)]; split; auto; exists v; now apply (h_waiting H). }
    assert (HNev : can_finalize (d_a d) = Never <-> ~ all_ok /\ forall v, expected (d_s d) v -> heard es v).
    { split.
      - intros E. split; [rewrite <- HY; congruence|]. intros v Hv.
        assert (Hw : mem v (a_waiting (d_a d)) = false).
        { destruct (mem v (a_waiting (d_a d))) eqn:Ew; auto. exfalso.
          assert (can_finalize (d_a d) = NotYet) by (apply notyet_iff; split; [congruence|eauto]). congruence. }
        destruct (heard_dec es v) as [Hd|Hd]; auto.
        rewrite (proj2 (h_waiting H v)) in Hw by auto. discriminate.
      - intros [H1 H2]. destruct (can_finalize (d_a d)) eqn:E; auto.
        + exfalso. apply H1, HY. reflexivity.
        + exfalso. destruct (proj1 HN eq_refl) as (_ & v & Hv & Hh). auto. }
    split; [auto|]. split; [auto|]. split; [auto|].
    intros E. apply HNev in E as [H1 H2].
    destruct (all_or_some (fun v => contains v (a_payloads (d_a d))) (elements (a_expect (d_a d)))) as [Hall|(v & Hv & Hp)].
    - exfalso. apply H1, HY, yes_iff. intros v Hv. apply Hall. now apply in_elements.
    - apply in_elements in Hv. rewrite (h_expect H) in Hv. apply contains_false in Hp.
      exists v. split; auto. split; [apply H2; auto|]. split.
      + intros p Ha. apply (h_payload H) in Ha. congruence.
      + destruct (h_rejected H (H2 v Hv) Hp) as [Hx|Hx]; unfold banned; auto.
  Qed.

  (** ** Monotonicity *)
  Lemma payload_step d e d' v p : step d e d' -> is_fin e = false ->
    get v (a_payloads (d_a d)) = Some p -> get v (a_payloads (d_a d')) = Some p.
  Proof.
    intros H He Hg. inv H; simpl in *; try discriminate.
    - apply preprocess_cases in H0. inv H0; auto.
    - apply add_processed_ok in H0 as (Hn & _ & Hc). inv Hc; simpl; auto.
      rewrite get_insert. destruct (eqb_spec v (vm_from vm)) as [->|]; auto. congruence.
    - apply add_artifact_ok in H2 as [_ ->]. auto.
  Qed.

  Lemma expect_step d e d' : step d e d' -> is_fin e = false -> a_expect (d_a d') = a_expect (d_a d).
  Proof.
    intros H He. inv H; simpl in *; try discriminate.
    - apply preprocess_cases in H0. inv H0; auto.
    - apply add_processed_ok in H0 as (Hn & _ & Hc). inv Hc; simpl; auto.
    - apply add_artifact_ok in H2 as [_ ->]. auto.
  Qed.

  Lemma progress_kept d es d' : run d es d' -> in_round es ->
    (forall v p, get v (a_payloads (d_a d)) = Some p -> get v (a_payloads (d_a d')) = Some p) /\
    (can_finalize (d_a d) = Yes -> can_finalize (d_a d') = Yes).
  Proof.
    intros Hr Hin.
    assert (H : (forall v p, get v (a_payloads (d_a d)) = Some p -> get v (a_payloads (d_a d')) = Some p) /\
                a_expect (d_a d') = a_expect (d_a d)).
    { induction Hr as [d|d es d1 e d2 Hr IH Hs]; auto.
      apply in_round_app in Hin as [Hin He]. destruct (IH Hin) as [H1 H2].
      assert (Hf : is_fin e = false) by (unfold in_round in He; simpl in He; destruct (is_fin e); auto).
      split.
      - intros v p Hp. eapply payload_step; eauto.
      - rewrite (expect_step Hs Hf). auto. }
    destruct H as [H1 H2]. split; auto. rewrite !yes_iff, H2. intros Hy v Hv.
    specialize (Hy v Hv). apply contains_get in Hy as [p Hp]. apply contains_get; eauto.
  Qed.

  (** ** Waiting for banned parties *)
  Lemma unprovable_origin d0 es d v e :
    round_start d0 -> run d0 es d -> in_round es ->
    get v (a_unprovable (d_a d)) = Some e ->
    heard es v \/ exists m e', In (EPre v m (PreError e')) es.
  Proof.
    intros Hs Hr. pose proof (round_start_fresh Hs) as Hfr. clear Hs. revert e.
    induction Hr as [d|d es d1 ev d2 Hr IH Hstep]; intros e Hin Hg.
    - rewrite Hfr in Hg. simpl in Hg. rewrite get_empty in Hg. discriminate.
    - apply in_round_app in Hin as [Hin He].
      assert (Hf : is_fin ev = false) by (unfold in_round in He; simpl in He; destruct (is_fin ev); auto).
      assert (Hold : forall e, get v (a_unprovable (d_a d1)) = Some e ->
        heard (es ++ [ev]) v \/ exists m e', In (EPre v m (PreError e')) (es ++ [ev])).
      { intros e0 H0. destruct (IH Hfr e0 Hin H0) as [Hh|(m & e' & Hm)].
        - left. apply heard_snoc; auto.
        - right. exists m, e'. apply in_snoc; auto. }
      inv Hstep; simpl in *; try discriminate.
      + apply preprocess_cases in H. inversion H; subst; simpl in *; eauto.
        rewrite get_insert in Hg. destruct (eqb_spec v from) as [->|]; eauto.
        right. exists m, e0. apply in_snoc; auto.
      + apply add_processed_ok in H as (Hn & _ & Hc). inversion Hc; subst; simpl in *; eauto.
        rewrite get_insert in Hg. destruct (eqb_spec v (vm_from vm)) as [->|]; eauto.
        left. apply heard_snoc. eauto.
      + apply add_artifact_ok in H1 as [_ ->]. simpl in *. eauto.
  Qed.

  Lemma awaited_not_banned d0 es d :
    round_start d0 -> run d0 es d -> in_round es ->
    (forall v, expected (d_s d) v -> ~ banned (d_s d0) (d_a d0) v) ->
    (forall v m e, expected (d_s d) v -> ~ In (EPre v m (PreError e)) es) ->
    can_finalize (d_a d) = NotYet ->
    exists v, expected (d_s d) v /\ ~ heard es v /\ ~ banned (d_s d) (d_a d) v.
  Proof.
    intros Hs Hr Hin Hb Hp Hn. pose proof (round_history Hs Hr Hin) as H.
    destruct (round_hist (round_start_fresh Hs) Hr Hin) as [_ Hss].
    pose proof (can_finalize_meaning Hs Hr Hin) as (_ & HN & _). apply HN in Hn as (_ & v & Hv & Hh).
    exists v. split; auto. split; auto. intros [Hx|[Hx|[[e Hx]|[e Hx]]]].
    - apply (Hb v Hv). left. now rewrite <- Hss.
    - apply (Hb v Hv). right; left. now rewrite <- Hss.
    - apply (h_provable H) in Hx as [Hx _]. auto.
    - destruct (unprovable_origin _ Hs Hr Hin Hx) as [?|(m & e' & Hm)]; auto. eapply Hp; eauto.
  Qed.

  (** ** Accounting *)
  Lemma accounting d0 es d :
    round_start d0 -> run d0 es d -> in_round es ->
    (forall v, (expected (d_s d) v /\ ~ heard es v) \/
               (expected (d_s d) v /\ exists p, accepted (d_s d) es v p) \/
               (expected (d_s d) v /\ heard es v /\ (forall p, ~ accepted (d_s d) es v p) /\ banned (d_s d) (d_a d) v) \/
               (~ expected (d_s d) v /\ ~ heard es v /\ forall p, ~ accepted (d_s d) es v p)) /\
    (forall v p, accepted (d_s d) es v p -> heard es v) /\
    (forall rep, ends_with d rep ->
       (forall v, (exists m, get (s_round_id (d_s d)) (rep_missing rep) = Some m /\ mem v m = true) <->
                  expected (d_s d) v /\ ~ heard es v) /\
       (get (s_round_id (d_s d)) (rep_missing rep) <> None -> exists v, expected (d_s d) v /\ ~ heard es v) /\
       (forall rid, rid <> s_round_id (d_s d) -> get rid (rep_missing rep) = get rid (tr_missing (s_tr (d_s d))))).
  Proof.
    intros Hs Hr Hin. pose proof (round_history Hs Hr Hin) as H.
    split; [|split].
    - intros v. destruct (heard_dec es v) as [Hh|Hh].
      + pose proof (h_heard H Hh) as He. destruct (get v (a_payloads (d_a d))) as [p|] eqn:E.
        * right; left. split; auto. exists p. now apply (h_payload H).
        * right; right; left. split; auto. split; auto. split.
          -- intros p Hp. apply (h_payload H) in Hp. congruence.
          -- destruct (h_rejected H Hh E); unfold banned; auto.
      + assert (Hna : forall p, ~ accepted (d_s d) es v p) by (intros p Hp; apply Hh; eapply accepted_heard; eauto).
        unfold expected. destruct (mem v (ci_expect (s_comm (d_s d)))) eqn:E; [left; auto|].
        right; right; right. split; [discriminate|auto].
    - intros v p. apply accepted_heard.
    - intros rep He. apply ends_report in He as (t & o & Hc & ->). apply close_round_ok in Hc. simpl.
      rewrite (up_missing Hc). pose proof (up_missing_new Hc) as Hnew.
      destruct (is_empty (a_waiting (d_a d))) eqn:Ee.
      + rewrite Hnew. split; [|split; [congruence|auto]].
        intros v. split; [intros (m & Hm & _); discriminate|].
        intros Hv. apply (h_waiting H) in Hv. rewrite is_empty_get in Ee. unfold mem in Hv.
        apply contains_get in Hv as [x Hx]. congruence.
      + rewrite get_insert_eq. split; [|split].
        * intros v. rewrite <- (h_waiting H). split; [intros (m & Hm & Hx); congruence|eauto].
        * intros _. apply not_empty_ex in Ee as (v & x & Hx). exists v. apply (h_waiting H). unfold mem.
          apply contains_get; eauto.
        * intros rid Hne. now rewrite get_insert_ne.
  Qed.

  Lemma yes_waiting_empty d0 es d :
    round_start d0 -> run d0 es d -> in_round es -> can_finalize (d_a d) = Yes -> is_empty (a_waiting (d_a d)) = true.
  Proof.
    intros Hs Hr Hin Hy. pose proof (round_history Hs Hr Hin) as H.
    pose proof (can_finalize_meaning Hs Hr Hin) as (HY & _). pose proof (proj1 HY Hy) as Hall.
    destruct (is_empty (a_waiting (d_a d))) eqn:E; auto. apply not_empty_ex in E as (v & x & Hx).
    assert (Hw : mem v (a_waiting (d_a d)) = true) by (apply contains_get; eauto).
    apply (h_waiting H) in Hw as [He Hh]. destruct (Hall v He) as [p Hp]. destruct Hh. eapply accepted_heard; eauto.
  Qed.

  (** Rounds closed on [Yes] leave no missing messages. *)
  Lemma reachable_no_missing d : reachable d -> tr_missing (s_tr (d_s d)) = empty.
  Proof.
    intros (s & es & Hi & Hr). remember (start s) as d0 eqn:E. revert E.
    induction Hr as [d|d es d1 e d2 Hr IH Hs]; intros ->.
    - simpl. destruct Hi as (g & sid & signer & ep & H). apply session_new_ok in H as (st & _ & C).
      rewrite (cr_tr C). reflexivity.
    - specialize (IH eq_refl). assert (Hre : reachable d1) by (exists s, es; auto).
      inv Hs; simpl in *; auto.
      destruct (reachable_round Hre) as (d0 & es0 & H1 & H2 & H3).
      pose proof (yes_waiting_empty H1 H2 H3 H) as Hw. simpl in Hw.
      pose proof (finalize_another _ _ _ H0) as Hf.
      destruct Hf as [t info echos Hc _ _ C _|t st Hc _ _ _ C _]; rewrite (cr_tr C), (up_missing (close_round_ok _ _ Hc)), Hw; auto.
  Qed.
End WithParams.
