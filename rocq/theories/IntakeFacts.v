(** Proofs of the properties of [preprocess_message] and of recorded errors. *)
From Coq Require Import List NArith Bool.
From Verif Require Import Base BMap Errors RoundId Message Protocol Transcript Evidence Session Spec
  MessageFacts SessionFacts RunFacts.
Import ListNotations.
Set Implicit Arguments.

Section WithParams.
  Context {P : Params}.
  Context {Pr : Proto}.
  Implicit Types (s : Session Pr) (a : Accum Pr) (d : DState Pr) (es : list (event Pr)).

  Lemma window_active s rid : window s rid -> may_be_active s rid.
  Proof.
    intros (acc & Hs & Hm). pose proof (proj1 (simultaneous_window _ _ Hs rid) Hm) as H. unfold may_be_active.
    destruct (s_echo_info s); tauto.
  Qed.

  Lemma only_authentic s a from m a' o :
    preprocess_message s a from m = (a', Ok o) ->
    (forall vm, o = ToProcess vm -> message_authentic from (s_id s) (s_round_id s) m /\ is_message_of from m vm) /\
    (o = Cached -> exists rid, message_authentic from (s_id s) rid m /\ rid <> s_round_id s /\ may_be_active s rid).
  Proof.
    intros H. apply preprocess_cases in H. inv H; (split; [intros vm E|intros E]); try discriminate.
    - inv E. split; auto. eapply message_is_message; eauto.
    - exists rid. split; auto. split; auto. now apply window_active.
  Qed.

  Lemma handed_out_authentic d : reachable d ->
    (forall vm, In vm (d_todo d) -> vmessage_authentic (s_id (d_s d)) (s_round_id (d_s d)) vm).
  Proof. intros H. apply (as_todo (reachable_authentic H)). Qed.

  Lemma banned_inert s a from m : banned s a from ->
    preprocess_message s a from m = (a, Ok (PreError RE_Banned)).
  Proof. intros H. unfold preprocess_message. apply banned_bool in H. now rewrite H. Qed.

  Lemma evidence_step d e d' v x : step d e d' -> has_evidence d v x -> has_evidence d' v x.
  Proof.
    intros H [Ht|Ha]; inv H; unfold has_evidence; simpl in *; auto.
    - pose proof (finalize_another _ _ _ H1) as Hf.
      left. destruct Hf as [t info echos Hc _ _ C _|t st Hc _ _ _ C _]; rewrite (cr_tr C);
        apply (up_provable (close_round_ok _ _ Hc)); auto.
    - right. apply preprocess_cases in H0. inv H0; auto.
    - right. apply add_processed_ok in H0 as (_ & _ & Hc). inv Hc; auto.
      simpl. rewrite get_insert. destruct (eqb_spec v (vm_from vm)) as [->|]; auto. congruence.
    - right. apply add_artifact_ok in H2 as [_ ->]. auto.
    - pose proof (finalize_another _ _ _ H1) as Hf.
      left. destruct Hf as [t info echos Hc _ _ C _|t st Hc _ _ _ C _]; rewrite (cr_tr C);
        apply (up_provable (close_round_ok _ _ Hc)); auto.
  Qed.

  Lemma unprovable_step d e d' v : step d e d' -> has_unprovable d v -> has_unprovable d' v.
  Proof.
    intros H [[x Hx]|[x Hx]]; inv H; unfold has_unprovable; simpl in *; eauto.
    - pose proof (finalize_another _ _ _ H1) as Hf.
      left. exists x. destruct Hf as [t info echos Hc _ _ C _|t st Hc _ _ _ C _]; rewrite (cr_tr C);
        apply (up_unprovable (close_round_ok _ _ Hc)); auto.
    - right. apply preprocess_cases in H0. inv H0; simpl; eauto.
      rewrite get_insert. destruct (eqb v from); eauto.
    - right. apply add_processed_ok in H0 as (_ & _ & Hc). inv Hc; simpl; eauto.
      rewrite get_insert. destruct (eqb v (vm_from vm)); eauto.
    - right. apply add_artifact_ok in H2 as [_ ->]. eauto.
    - pose proof (finalize_another _ _ _ H1) as Hf.
      left. exists x. destruct Hf as [t info echos Hc _ _ C _|t st Hc _ _ _ C _]; rewrite (cr_tr C);
        apply (up_unprovable (close_round_ok _ _ Hc)); auto.
  Qed.

  Lemma errors_run d es d' : run d es d' ->
    (forall v x, has_evidence d v x -> has_evidence d' v x) /\ (forall v, has_unprovable d v -> has_unprovable d' v).
  Proof.
    induction 1 as [|d es d1 e d2 H [IH1 IH2] Hs]; auto. split; intros.
    - eapply evidence_step; eauto.
    - eapply unprovable_step; eauto.
  Qed.

  Lemma ends_report d rep : ends_with d rep -> exists t o,
    close_round (d_s d) (d_a d) = Ok t /\ rep = report_new o t.
  Proof.
    intros [(g & H)|[H|H]].
    - apply finalize_finished in H as (t & x & Hc & _ & _ & ->). eauto.
    - unfold terminate, terminate_inner in H. apply bind_ok in H as (t & Hc & H). inv H. eauto.
    - unfold terminate_due_to_errors, terminate_inner in H. apply bind_ok in H as (t & Hc & H). inv H. eauto.
  Qed.

  Lemma errors_kept d es d' : run d es d' ->
    (forall v x, has_evidence d v x -> has_evidence d' v x) /\
    (forall v, has_unprovable d v -> has_unprovable d' v) /\
    (forall v, banned (d_s d) (d_a d) v -> banned (d_s d') (d_a d') v) /\
    (forall rep, ends_with d' rep ->
       (forall v x, has_evidence d v x -> get v (rep_provable rep) = Some x) /\
       (forall v, has_unprovable d v -> exists e, get v (rep_unprovable rep) = Some e)).
  Proof.
    intros Hr. destruct (errors_run Hr) as [H1 H2]. split; [auto|]. split; [auto|]. split.
    - intros v Hb. assert (Hx : (exists x, has_evidence d v x) \/ has_unprovable d v).
      { unfold banned, has_evidence, has_unprovable in *. firstorder. }
      destruct Hx as [[x Hx]|Hx].
      + apply H1 in Hx. unfold banned, has_evidence in *. firstorder.
      + apply H2 in Hx. unfold banned, has_unprovable in *. firstorder.
    - intros rep He. apply ends_report in He as (t & o & Hc & ->). apply close_round_ok in Hc. simpl. split.
      + intros v x Hx. apply H1 in Hx. apply (up_provable Hc). exact Hx.
      + intros v Hx. apply H2 in Hx as [[e Hx]|[e Hx]]; exists e; apply (up_unprovable Hc); auto.
  Qed.

  Lemma exact_effect s a from m a' r :
    preprocess_message s a from m = (a', r) ->
    (* nothing *)
    (a' = a /\ ((banned s a from /\ r = Ok (PreError RE_Banned)) \/ exists e, r = Err e)) \/
    (* one unprovable error *)
    (exists e, r = Ok (PreError e) /\ ~ banned s a from /\
       a' = mkAccum (a_waiting a) (a_expect a) (a_processing a) (a_payloads a) (a_artifacts a) (a_cached a) (a_echo a)
              (a_normal a) (a_direct a) (a_provable a) (insert from e (a_unprovable a))) \/
    (* marked as being processed *)
    (exists vm, r = Ok (ToProcess vm) /\ mem from (a_processing a) = false /\
       a' = mkAccum (a_waiting a) (a_expect a) (sadd from (a_processing a)) (a_payloads a) (a_artifacts a) (a_cached a)
              (a_echo a) (a_normal a) (a_direct a) (a_provable a) (a_unprovable a)) \/
    (* stored in the cache *)
    (exists vm c, r = Ok Cached /\ is_message_of from m vm /\
       (forall rid, get rid c = match get from (a_cached a) with Some c0 => get rid c0 | None => None end \/
                    rid = m_round (sp_meta (msg_direct m))) /\
       get (m_round (sp_meta (msg_direct m))) c = Some vm /\
       match get from (a_cached a) with Some c0 => get (m_round (sp_meta (msg_direct m))) c0 | None => None end = None /\
       a' = mkAccum (a_waiting a) (a_expect a) (a_processing a) (a_payloads a) (a_artifacts a)
              (insert from c (a_cached a)) (a_echo a) (a_normal a) (a_direct a) (a_provable a) (a_unprovable a)).
  Proof.
    intros H. apply preprocess_cases in H. inv H.
    - left; auto.
    - left; eauto.
    - right; left. exists e; auto.
    - right; right; left. eauto.
    - right; right; right. destruct H1 as (A1 & A2 & A3 & A4 & A5 & A6).
      assert (Hr : m_round (sp_meta (msg_direct m)) = rid) by (rewrite A4; reflexivity).
      eexists _, _. split; [reflexivity|]. rewrite Hr. split; [apply (message_is_message (sid:=s_id s) (rid:=rid)); repeat split; auto|].
      split; [|split; [|split; [|reflexivity]]].
      + intros rid'. rewrite get_insert. destruct (eqb_spec rid' rid) as [->|Hne]; auto.
        left. destruct (get from (a_cached a)); auto.
      + apply get_insert_eq.
      + unfold message_is_cached in H4. destruct (get from (a_cached a)) as [c|]; auto. now apply contains_false.
  Qed.

  Lemma plain_window d : plain_ids Pr -> reachable d ->
    s_echo_info (d_s d) <> None -> rid_echo (s_round_id (d_s d)) = false.
  Proof.
    intros Hp Hr He. pose proof (reachable_sinv Hr) as I.
    destruct (si_shape I) as [st Hs|echos info st ps arts Hs Hn]; [|congruence].
    pose proof (si_tinfo I) as Ht. rewrite Hs in Ht. simpl in Ht. inv Ht. unfold s_round_id. rewrite <- H0. apply Hp.
  Qed.

  Lemma preprocess_total d from m :
    plain_ids Pr -> (forall mt, ser_meta mt <> None) -> reachable d ->
    exists a' o, preprocess_message (d_s d) (d_a d) from m = (a', Ok o).
  Proof.
    intros Hp Hser Hr. destruct (preprocess_message (d_s d) (d_a d) from m) as [a' r] eqn:E.
    pose proof (preprocess_cases _ _ _ _ E) as Hc.
    inversion Hc as [Hb|e0 Hb Hl|e0 Hb|Hb Hau Hpr|rid0 Hb Hau Hne0 Hw Hmc]; subst; eauto.
    exfalso. destruct Hl as [[e' He']|(_ & _ & _ & Hl)]; [|eapply Hser; eauto].
    destruct (@simultaneous_total (s_tinfo (d_s d)) (match s_echo_info (d_s d) with Some _ => true | None => false end)) as [acc Ha].
    - intros Hx. apply (plain_window Hp Hr). destruct (s_echo_info (d_s d)); discriminate.
    - congruence.
  Qed.

  Lemma at_most_one d0 es d v m' a' o :
    round_start d0 -> run d0 es d -> in_round es ->
    preprocess_message (d_s d) (d_a d) v m' = (a', Ok o) ->
    ((exists m vm, In (EPre v m (ToProcess vm)) es) ->
       m_round (sp_meta (msg_direct m')) = s_round_id (d_s d) -> exists e, o = PreError e /\ banned (d_s d) a' v) /\
    ((exists m, In (EPre v m Cached) es /\ m_round (sp_meta (msg_direct m)) = m_round (sp_meta (msg_direct m'))) ->
       exists e, o = PreError e /\ banned (d_s d) a' v).
  Proof.
    intros Hs Hr Hin Hp. destruct (round_hist (round_start_fresh Hs) Hr Hin) as [H Hss]. rewrite <- Hss in H.
    pose proof (preprocess_cases _ _ _ _ Hp) as Hc.
    assert (Hrej : forall e a1, a1 = set_unprovable (d_a d) (insert v e (a_unprovable (d_a d))) -> banned (d_s d) a1 v).
    { intros e a1 ->. unfold banned. right; right; right. exists e. simpl. apply get_insert_eq. }
    inversion Hc as [Hb|e0 Hb Hl|e0 Hb|Hb Hau Hpr|rid0 Hb Hau Hne0 Hw Hmc]; subst.
    - split; eauto.
    - split; intros; exists e0; split; auto; eapply Hrej; eauto.
    - split.
      + intros Hx _. apply (h_processing H) in Hx. congruence.
      + intros (m & Hm & Hrd). exfalso.
        destruct Hau as (_ & _ & _ & A4 & _). rewrite A4 in Hrd. simpl in Hrd.
        (* a cached message is never for the current round *)
        assert (Hca : reachable d) by (eapply reachable_run; eauto; now apply round_start_reachable).
        pose proof (as_cache (reachable_authentic Hca)) as Hok.
        assert (Hex : exists c, get v (a_cached (d_a d)) = Some c /\
                  get (s_round_id (d_s d)) c = Some (mkVMessage v (sp_meta (msg_direct m)) (msg_direct m) (msg_echo m) (msg_normal m))).
        { apply (h_cached H). exists m. split; auto. split; auto. unfold is_message_of; simpl; auto. }
        destruct Hex as (c & H1 & H2). destruct (Hok _ _ _ _ H1 H2) as (_ & _ & Hne). congruence.
    - destruct Hau as (_ & _ & _ & A4 & _). split.
      + intros _ Hx. rewrite A4 in Hx. simpl in Hx. congruence.
      + intros (m & Hm & Hrd). exfalso. rewrite A4 in Hrd. simpl in Hrd.
        assert (Hex : exists c, get v (a_cached (d_a d)) = Some c /\
                  get rid0 c = Some (mkVMessage v (sp_meta (msg_direct m)) (msg_direct m) (msg_echo m) (msg_normal m))).
        { apply (h_cached H). exists m. split; auto. split; auto. unfold is_message_of; simpl; auto. }
        destruct Hex as (c & H1 & H2). unfold message_is_cached in Hmc. rewrite H1 in Hmc.
        apply contains_false in Hmc. congruence.
  Qed.

  Lemma artifact_once a dest (x : SArtifact Pr) :
    (forall y, get dest (a_artifacts a) = Some y -> exists e, snd (add_artifact a (dest, x)) = Err e) /\
    (get dest (a_artifacts a) = None -> exists a', add_artifact a (dest, x) = (a', Ok tt) /\
       get dest (a_artifacts a') = Some x /\
       (forall v, v <> dest -> get v (a_artifacts a') = get v (a_artifacts a)) /\
       a' = mkAccum (a_waiting a) (a_expect a) (a_processing a) (a_payloads a) (a_artifacts a') (a_cached a) (a_echo a)
              (a_normal a) (a_direct a) (a_provable a) (a_unprovable a)).
  Proof.
    unfold add_artifact; simpl. split.
    - intros y Hy. exists LE_DupArtifact. replace (contains dest (a_artifacts a)) with true; auto.
      symmetry. apply contains_get; eauto.
    - intros Hn. apply contains_false in Hn. rewrite Hn. eexists. split; [reflexivity|]. simpl.
      split; [apply get_insert_eq|]. split; [intros; now apply get_insert_ne|reflexivity].
  Qed.

  (** The only ways adding a processed message can fail locally, for a message from a party that the round expects and
      has not heard from. *)
  Lemma add_ok d0 es d t1 vm t2 :
    round_start d0 -> run d0 es d -> in_round es -> d_todo d = t1 ++ vm :: t2 ->
    expected (d_s d) (vm_from vm) -> ~ heard es (vm_from vm) ->
    let r := rd_receive (s_round (d_s d)) (vm_from vm)
               (mkDynMsg (sp_body (vm_echo vm)) (sp_body (vm_normal vm)) (sp_body (vm_direct vm))) in
    r <> Panic -> (forall e, r <> Err (RL e)) ->
    (forall e, r = Err (RProtocol e) -> exists ev,
       new_provable_error (vm_from vm) (vm_echo vm) (vm_normal vm) (vm_direct vm) e (s_tr (d_s d)) = Ok ev) ->
    exists a', add_processed (d_s d) (d_a d) (process_message (d_s d) vm) = (a', Ok tt).
  Proof.
    intros Hs Hr Hin Ht He Hh r Hp Hl Hev. destruct (round_hist (round_start_fresh Hs) Hr Hin) as [H Hss].
    rewrite <- Hss in H.
    unfold add_processed, process_message. cbn [pm_msg pm_res]. fold r.
    assert (H1 : contains (vm_from vm) (a_payloads (d_a d)) = false).
    { apply contains_false. destruct (get _ _) eqn:E; auto. apply (h_payload H) in E. destruct Hh.
      eapply accepted_heard; eauto. }
    assert (H2 : mem (vm_from vm) (a_waiting (d_a d)) = true) by (apply (h_waiting H); auto).
    assert (H3 : contains (vm_from vm) (a_provable (d_a d)) = false).
    { apply contains_false. destruct (get _ _) eqn:E; auto. apply (h_provable H) in E. destruct Hh. tauto. }
    rewrite H1, H2. cbn [negb].
    destruct r as [p|[e| | | |e|e|e]|] eqn:Er; eauto; try congruence.
    - unfold register_provable. cbn [set_waiting a_provable]. rewrite H3. eauto.
    - unfold register_provable. cbn [set_waiting a_provable]. rewrite H3. eauto.
    - unfold register_provable. cbn [set_waiting a_provable]. rewrite H3. eauto.
    - destruct (Hev e eq_refl) as [ev ->]. unfold register_provable. cbn [set_waiting a_provable]. rewrite H3. eauto.
    - unfold register_provable. cbn [set_waiting a_provable]. rewrite H3. eauto.
  Qed.

  Definition as_verified (from : Verifier) (m : Message) : VMessage :=
    mkVMessage from (sp_meta (msg_direct m)) (msg_direct m) (msg_echo m) (msg_normal m).

  Definition o_process (r : res LocalError PreOutcome) : bool := match r with Ok (ToProcess _) => true | _ => false end.
  Definition o_cached (r : res LocalError PreOutcome) : bool := match r with Ok Cached => true | _ => false end.
  Definition o_error (r : res LocalError PreOutcome) : option RemoteError := match r with Ok (PreError e) => Some e | _ => None end.

  Lemma pre_process_step d from m : o_process (snd (preprocess_message (d_s d) (d_a d) from m)) = true ->
    step d (EPre from m (ToProcess (as_verified from m)))
      (DS (d_s d) (fst (preprocess_message (d_s d) (d_a d) from m)) (as_verified from m :: d_todo d)).
  Proof.
    destruct d as [s a todo]. cbn [d_s d_a d_todo].
    destruct (preprocess_message s a from m) as [a' r] eqn:E. simpl. intros H.
    pose proof (preprocess_cases _ _ _ _ E) as Hc.
    inversion Hc; subst; try discriminate.
    exact (step_pre (o := ToProcess (as_verified from m)) _ _ _ _ _ E).
  Qed.

  Definition is_some {A} (x : option A) : bool := match x with Some _ => true | None => false end.
End WithParams.
