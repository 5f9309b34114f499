(** Invariants of histories of API calls. *)
From Coq Require Import List NArith Bool.
From Verif Require Import Base BMap Errors RoundId Message Protocol Transcript Evidence Session Spec MessageFacts SessionFacts.
Import ListNotations.
Set Implicit Arguments.

Section WithParams.
  Context {P : Params}.
  Context {Pr : Proto}.
  Implicit Types (s : Session Pr) (a : Accum Pr) (d : DState Pr) (es : list (event Pr)).

  (** ** Histories *)

  Lemma run_app d es d1 es' d2 : run d es d1 -> run d1 es' d2 -> run d (es ++ es') d2.
  Proof.
    intros H1 H2. revert H1. induction H2 as [|d1 es' d2 e d3 H2 IH H3]; intros H1.
    - now rewrite app_nil_r.
    - rewrite app_assoc. econstructor; eauto.
  Qed.

  Lemma run_snoc_inv d es e d' : run d (es ++ [e]) d' -> exists d1, run d es d1 /\ step d1 e d'.
  Proof.
    intros H. remember (es ++ [e]) as l eqn:E. destruct H as [d|d es0 d1 e0 d2 H1 H2].
    - destruct es; discriminate.
    - apply app_inj_tail in E as [-> ->]. eauto.
  Qed.

  Lemma run_split d es1 es2 d' : run d (es1 ++ es2) d' -> exists d1, run d es1 d1 /\ run d1 es2 d'.
  Proof.
    revert d'. induction es2 as [|e es2 IH] using rev_ind; intros d' H.
    - rewrite app_nil_r in H. eexists; split; eauto. constructor.
    - rewrite app_assoc in H. apply run_snoc_inv in H as (d1 & H1 & H2).
      destruct (IH _ H1) as (d0 & H3 & H4). exists d0; split; auto. econstructor; eauto.
  Qed.

  Lemma run_one d e d' : step d e d' -> run d [e] d'.
  Proof. intros H. apply (@run_snoc _ _ d [] d e d'); auto. constructor. Qed.

  Lemma run_nil_inv d d' : run d [] d' -> d' = d.
  Proof. intros H. remember [] as l eqn:E. destruct H as [d|d es d1 e d2 H1 H2]; auto. destruct es; discriminate. Qed.

  Lemma run_cons_inv d e es d' : run d (e :: es) d' -> exists d1, step d e d1 /\ run d1 es d'.
  Proof.
    intros H. change (e :: es) with ([e] ++ es) in H. apply run_split in H as (d1 & H1 & H2).
    change [e] with ([] ++ [e]) in H1. apply run_snoc_inv in H1 as (d0 & H0 & H1).
    exists d1; split; auto. apply run_nil_inv in H0. now subst.
  Qed.

  Lemma in_round_app es es' : in_round (es ++ es') <-> in_round es /\ in_round es'.
  Proof. unfold in_round. rewrite forallb_app, andb_true_iff. tauto. Qed.

  Lemma in_round_session d es d' : run d es d' -> in_round es -> d_s d' = d_s d.
  Proof.
    induction 1 as [|d es d1 e d2 H IH Hs]; intros Hr; auto.
    apply in_round_app in Hr as [Hr He]. rewrite <- (IH Hr). inv Hs; auto. discriminate.
  Qed.

  (** Every reachable state belongs to a round with a well-defined history. *)
  Lemma reachable_round d : reachable d -> exists d0 es, round_start d0 /\ run d0 es d /\ in_round es.
  Proof.
    intros (s & es & Hi & Hr). revert Hi Hr. remember (start s) as d0 eqn:E. intros Hi Hr. revert E Hi.
    induction Hr as [d0|d0 es d1 e d2 H IH Hs]; intros -> Hi.
    - exists (start s), []. split; [left; eauto|]. split; [constructor|reflexivity].
    - specialize (IH eq_refl Hi) as (d0 & es' & H1 & H2 & H3).
      destruct (is_fin e) eqn:Ef.
      + inv Hs; try discriminate.
        exists (DS s' (make_accumulator s') cached), []. split; [|split; [constructor|reflexivity]].
        right. exists s0, a, todo, g, s', cached. repeat split; auto. exists s, es. auto.
      + exists d0, (es' ++ [e]). split; auto. split; [econstructor; eauto|].
        apply in_round_app. split; auto. unfold in_round; simpl. now rewrite Ef.
  Qed.

  Lemma round_start_reachable d : round_start d -> reachable d.
  Proof.
    intros [(s & Hi & ->)|(s & a & todo & g & s' & c & (s0 & es & Hi & Hr) & Hy & Hf & ->)].
    - exists s, []. split; auto. constructor.
    - exists s0, (es ++ [EFin g]). split; auto. econstructor; eauto. now econstructor.
  Qed.

  Lemma reachable_run d es d' : reachable d -> run d es d' -> reachable d'.
  Proof. intros (s & es0 & Hi & Hr) H. exists s, (es0 ++ es). split; auto. eapply run_app; eauto. Qed.

  (** A fresh accumulator at the start of each round. *)
  Lemma round_start_fresh d : round_start d -> d_a d = make_accumulator (d_s d).
  Proof. intros [(s & Hi & ->)|(s & a & todo & g & s' & c & _ & _ & _ & ->)]; auto. Qed.

  (** ** Session invariant *)

  Inductive shape s : Prop :=
  | shape_main st : s_round s = RMain st -> shape s
  | shape_echo echos info st ps arts :
      s_round s = REcho (s_verifier s) echos info (RMain st) ps arts -> s_echo_info s = None -> shape s.

  Record sinv s : Prop := {
    si_verifier : s_verifier s = signer_key (s_signer s);
    si_tinfo : rd_tinfo (s_round s) = Ok (s_tinfo s);
    si_comm : s_comm s = rd_cinfo (s_round s);
    si_shape : shape s;
    si_echo_meta : sp_meta (s_echo s) = mkMeta (s_id s) (s_round_id s);
    si_normal_meta : sp_meta (s_normal s) = mkMeta (s_id s) (s_round_id s);
    si_einfo : s_echo_info s = make_echo_info (s_verifier s) (s_comm s) (sp_body (s_echo s))
  }.

  Lemma created_sinv g sid signer (r : Round Pr) t s : created g sid signer r t s ->
    shape s -> sinv s.
  Proof.
    intros C Hs. constructor; auto.
    - rewrite (cr_verifier C), (cr_signer C); auto.
    - rewrite (cr_round C). apply (cr_tinfo C).
    - rewrite (cr_comm C), (cr_round C); auto.
    - pose proof (sign_part_ok _ _ _ _ _ (cr_echo C)) as [H _]. rewrite (cr_id C). exact H.
    - pose proof (sign_part_ok _ _ _ _ _ (cr_normal C)) as [H _]. rewrite (cr_id C). exact H.
    - rewrite (cr_verifier C), (cr_comm C). apply (cr_einfo C).
  Qed.

  Lemma created_main g sid signer st t s : created g sid signer (RMain st) t s -> sinv s.
  Proof. intros C. eapply created_sinv; eauto. eapply shape_main. apply (cr_round C). Qed.

  Lemma created_echo g sid signer v echos info st ps arts t s :
    v = signer_key signer ->
    created g sid signer (REcho v echos info (RMain st) ps arts) t s -> sinv s /\ s_echo_info s = None.
  Proof.
    intros Hv C.
    assert (E : s_echo_info s = None).
    { rewrite (cr_einfo C). unfold make_echo_info. simpl.
      pose proof (cr_echo_body C) as H. simpl in H. destruct (is_empty _).
      - rewrite H; auto.
      - inv H; auto. }
    split; auto. eapply created_sinv; eauto. eapply shape_echo; eauto.
    rewrite (cr_round C), (cr_verifier C), Hv. reflexivity.
  Qed.

  Lemma sinv_step d e d' : step d e d' -> sinv (d_s d) -> sinv (d_s d').
  Proof.
    intros H I. inv H; simpl in *; auto.
    apply finalize_another in H1 as [t info echos Hc Hi Hg C _|t st Hc Hi Hf Hm C _].
    - destruct (si_shape I) as [st Hs|echos' info' st ps arts Hs Hn]; [|congruence].
      rewrite Hs in C. apply created_echo in C; [apply C|]. apply (si_verifier I).
    - eapply created_main; eauto.
  Qed.

  Lemma sinv_initial s : initial s -> sinv s.
  Proof.
    intros (g & sid & signer & ep & H). apply session_new_ok in H as (st & _ & C). eapply created_main; eauto.
  Qed.

  Lemma reachable_sinv d : reachable d -> sinv (d_s d).
  Proof.
    intros (s & es & Hi & Hr). revert Hi. remember (start s) as d0 eqn:E. revert E.
    induction Hr; intros -> Hi; simpl.
    - now apply sinv_initial.
    - eapply sinv_step; eauto.
  Qed.

  (** The session id, signer and key never change. *)
  Lemma step_identity d e d' : step d e d' -> sinv (d_s d) ->
    s_id (d_s d') = s_id (d_s d) /\ s_signer (d_s d') = s_signer (d_s d) /\ s_verifier (d_s d') = s_verifier (d_s d).
  Proof.
    intros H I. inv H; simpl in *; auto.
    apply finalize_another in H1 as [t info echos Hc Hi Hg C _|t st Hc Hi Hf Hm C _];
      rewrite (cr_id C), (cr_signer C), (cr_verifier C), (si_verifier I); auto.
  Qed.

  (** ** The cache and the messages handed out are authentic *)

  Definition cache_ok s (c : bmap Verifier (bmap RoundId VMessage)) : Prop :=
    forall v m rid vm, get v c = Some m -> get rid m = Some vm ->
      vm_from vm = v /\ vmessage_authentic (s_id s) rid vm /\ rid <> s_round_id s.

  Record authentic_state d : Prop := {
    as_todo : forall vm, In vm (d_todo d) -> vmessage_authentic (s_id (d_s d)) (s_round_id (d_s d)) vm;
    as_cache : cache_ok (d_s d) (a_cached (d_a d))
  }.

  Lemma message_vmessage v sid rid m : message_authentic v sid rid m ->
    vmessage_authentic sid rid (mkVMessage v (sp_meta (msg_direct m)) (msg_direct m) (msg_echo m) (msg_normal m)).
  Proof. intros (H1 & H2 & H3 & H4 & H5 & H6). unfold vmessage_authentic; simpl. repeat split; auto. Qed.

  Lemma message_is_message v sid rid m : message_authentic v sid rid m ->
    is_message_of v m (mkVMessage v (sp_meta (msg_direct m)) (msg_direct m) (msg_echo m) (msg_normal m)).
  Proof. intros H. unfold is_message_of; simpl. auto. Qed.

  Lemma authentic_step d e d' : step d e d' -> sinv (d_s d) -> authentic_state d -> authentic_state d'.
  Proof.
    intros H I [Ht Hc]. inv H; simpl in *.
    - apply preprocess_cases in H0. inv H0; constructor; simpl; auto.
      + intros vm [<-|Hv]; auto. now apply message_vmessage.
      + intros v m0 rid0 vm. rewrite get_insert. destruct (eqb_spec v from) as [->|Hne]; [|apply Hc].
        intros E. inv E. rewrite get_insert. destruct (eqb_spec rid0 rid) as [->|Hr].
        * intros E. inv E. simpl. split; auto. split; auto. now apply message_vmessage.
        * destruct (get from (a_cached a)) eqn:E; [eapply Hc; eauto|]. now rewrite get_empty.
    - constructor; simpl.
      + intros vm' Hv. apply Ht. rewrite in_app_iff in *. simpl. tauto.
      + apply add_processed_ok in H0 as (_ & _ & H0). inv H0; simpl; auto.
    - apply add_artifact_ok in H2 as [_ ->]. constructor; auto.
    - pose proof (finalize_another _ _ _ H1) as Hf.
      assert (Hid : s_id s' = s_id s).
      { destruct Hf as [t info echos Hcl Hi Hg C _|t st Hcl Hi Hf Hm C _]; apply (cr_id C). }
      constructor; simpl.
      + intros vm Hv. rewrite Hid.
        assert (Hin : In vm (filter_messages (a_cached a) (s_round_id s'))).
        { destruct Hf as [t info echos Hcl Hi Hg C ->|t st Hcl Hi Hf Hm C ->]; auto. apply filter_In in Hv. tauto. }
        apply in_filter_messages in Hin as (v & m & H2 & H3). eapply Hc; eauto.
      + intros v m rid vm. rewrite get_empty. discriminate.
  Qed.

  Lemma reachable_authentic d : reachable d -> authentic_state d.
  Proof.
    intros (s & es & Hi & Hr). revert Hi. remember (start s) as d0 eqn:E. revert E.
    induction Hr; intros -> Hi; simpl.
    - constructor; simpl; [tauto|]. intros v m rid vm. rewrite get_empty. discriminate.
    - eapply authentic_step; eauto. apply reachable_sinv. exists s, es; auto.
  Qed.

  (** ** History of one round *)

  Definition part_accepted s es (v : Verifier) {k} (proj : VMessage -> SPart k) (p : SPart k) : Prop :=
    exists vm x, In (EProc vm) es /\ vm_from vm = v /\ answer s vm = Ok x /\ p = proj vm /\ is_none (sp_body p) = false.

  Record hist s es a : Prop := {
    h_expect : a_expect a = ci_expect (s_comm s);
    h_waiting : forall v, mem v (a_waiting a) = true <-> expected s v /\ ~ heard es v;
    h_heard : forall v, heard es v -> expected s v;
    h_unique : forall vm vm', In (EProc vm) es -> In (EProc vm') es -> vm_from vm = vm_from vm' -> vm = vm';
    h_payload : forall v p, get v (a_payloads a) = Some p <-> accepted s es v p;
    h_rejected : forall v, heard es v -> get v (a_payloads a) = None ->
      (exists e, get v (a_provable a) = Some e) \/ (exists e, get v (a_unprovable a) = Some e);
    h_artifact : forall v x, get v (a_artifacts a) = Some x <-> exists g, In (EArt g v x) es;
    h_processing : forall v, mem v (a_processing a) = true <-> exists m vm, In (EPre v m (ToProcess vm)) es;
    h_cached : forall v rid vm, (exists c, get v (a_cached a) = Some c /\ get rid c = Some vm) <->
      exists m, In (EPre v m Cached) es /\ m_round (sp_meta (msg_direct m)) = rid /\ is_message_of v m vm;
    h_echo : forall v p, get v (a_echo a) = Some p <-> part_accepted s es v (@vm_echo _) p;
    h_normal : forall v p, get v (a_normal a) = Some p <-> part_accepted s es v (@vm_normal _) p;
    h_direct : forall v p, get v (a_direct a) = Some p <-> part_accepted s es v (@vm_direct _) p;
    h_provable : forall v e, get v (a_provable a) = Some e -> heard es v /\ get v (a_payloads a) = None
  }.

  Lemma in_snoc {A} (x y : A) l : In x (l ++ [y]) <-> In x l \/ x = y.
  Proof. rewrite in_app_iff. simpl. intuition. Qed.

  Lemma heard_snoc es e v : heard (es ++ [e]) v <-> heard es v \/ (exists vm, e = EProc vm /\ vm_from vm = v).
  Proof.
    unfold heard. split.
    - intros (vm & H & Hv). apply in_snoc in H as [H|H]; eauto.
    - intros [(vm & H & Hv)|(vm & -> & Hv)]; exists vm; rewrite in_snoc; auto.
  Qed.

  Lemma accepted_snoc s es e v p : accepted s (es ++ [e]) v p <->
    accepted s es v p \/ (exists vm, e = EProc vm /\ vm_from vm = v /\ answer s vm = Ok p).
  Proof.
    unfold accepted, answer. split.
    - intros (vm & H & Hv & Ha). apply in_snoc in H as [H|H]; eauto. subst. right; eauto.
    - intros [(vm & H & Hv & Ha)|(vm & -> & Hv & Ha)]; exists vm; rewrite in_snoc; subst; auto.
  Qed.

  Lemma part_snoc s es e v k (proj : VMessage -> SPart k) p : part_accepted s (es ++ [e]) v proj p <->
    part_accepted s es v proj p \/
    (exists vm x, e = EProc vm /\ vm_from vm = v /\ answer s vm = Ok x /\ p = proj vm /\ is_none (sp_body p) = false).
  Proof.
    unfold part_accepted. split.
    - intros (vm & x & H & Hr). apply in_snoc in H as [H|H]; [left|right]; eauto.
    - intros [(vm & x & H & Hr)|(vm & x & -> & Hr)]; exists vm, x; rewrite in_snoc; auto.
  Qed.

  Lemma get_ins_part {k} (from v : Verifier) (p : SPart k) m :
    get v (ins_part from p m) = if (eqb v from && negb (is_none (sp_body p)))%bool then Some p else get v m.
  Proof.
    unfold ins_part. destruct (is_none (sp_body p)); simpl.
    - now rewrite andb_false_r.
    - rewrite get_insert. now rewrite andb_true_r.
  Qed.

  Lemma accepted_heard s es v p : accepted s es v p -> heard es v.
  Proof. intros (vm & H & Hv & _). exists vm; auto. Qed.
  Lemma part_heard s es v k (proj : VMessage -> SPart k) p : part_accepted s es v proj p -> heard es v.
  Proof. intros (vm & x & H & Hv & _). exists vm; auto. Qed.

  Lemma hist_step s es a todo e a' todo' :
    step (DS s a todo) e (DS s a' todo') -> is_fin e = false -> hist s es a -> hist s (es ++ [e]) a'.
  Proof.
    intros Hs He H. inv Hs; [| | |discriminate].
    - (* preprocess: only errors, processing and cache change *)
      assert (NH : forall v, heard (es ++ [EPre from m o]) v <-> heard es v).
      { intros v. rewrite heard_snoc. split; auto. intros [?|(vm & Heq & _)]; [auto|discriminate]. }
      assert (NA : forall v p, accepted s (es ++ [EPre from m o]) v p <-> accepted s es v p).
      { intros v p. rewrite accepted_snoc. split; auto. intros [?|(vm & Heq & _)]; [auto|discriminate]. }
      assert (NP : forall v k (proj : VMessage -> SPart k) p,
                 part_accepted s (es ++ [EPre from m o]) v proj p <-> part_accepted s es v proj p).
      { intros v k proj p. rewrite part_snoc. split; auto. intros [?|(vm & x & Heq & _)]; [auto|discriminate]. }
      assert (NR : forall v x, (exists g, In (EArt g v x) (es ++ [EPre from m o])) <-> exists g, In (EArt g v x) es).
      { intros v x. split; intros [g Hg]; exists g; rewrite in_snoc in *; [destruct Hg as [?|Hg]; [auto|discriminate]|auto]. }
      assert (NU : forall vm, In (EProc vm) (es ++ [EPre from m o]) <-> In (EProc vm) es).
      { intros vm. rewrite in_snoc. split; auto. intros [?|Heq]; [auto|discriminate]. }
      pose proof (preprocess_cases _ _ _ _ H4) as Hc.
      assert (Hsame : a_expect a' = a_expect a /\ a_waiting a' = a_waiting a /\ a_payloads a' = a_payloads a /\
                      a_artifacts a' = a_artifacts a /\ a_echo a' = a_echo a /\ a_normal a' = a_normal a /\
                      a_direct a' = a_direct a /\ a_provable a' = a_provable a).
      { inv Hc; simpl; repeat split. }
      destruct Hsame as (S1 & S2 & S3 & S4 & S5 & S6 & S7 & S8).
      constructor; rewrite ?S1, ?S2, ?S3, ?S4, ?S5, ?S6, ?S7, ?S8.
      + apply (h_expect H).
      + intros v. rewrite NH. apply (h_waiting H).
      + intros v. rewrite NH. apply (h_heard H).
      + intros vm vm'. rewrite !NU. apply (h_unique H).
      + intros v p. rewrite NA. apply (h_payload H).
      + intros v. rewrite NH. intros Hh Hn. destruct (h_rejected H Hh Hn) as [[e1 He1]|[e1 He1]]; [eauto|].
        right. inv Hc; simpl; eauto. rewrite get_insert. destruct (eqb v from); eauto.
      + intros v x. rewrite NR. apply (h_artifact H).
      + intros v. 
        transitivity (mem v (a_processing a) = true \/ exists vm, o = ToProcess vm /\ v = from).
        * inv Hc; simpl.
          -- split; auto. intros [?|(vm & Heq & _)]; [auto|discriminate].
          -- split; auto. intros [?|(vm & Heq & _)]; [auto|discriminate].
          -- rewrite mem_add, orb_true_iff, eqb_eq. split; [intros [->|?]; eauto|intros [?|(vm & _ & ->)]; auto].
          -- split; auto. intros [?|(vm & Heq & _)]; [auto|discriminate].
        * rewrite (h_processing H). split.
          -- intros [(m' & vm & Hin)|(vm & -> & ->)]; [exists m', vm|exists m, vm]; rewrite in_snoc; auto.
          -- intros (m' & vm & Hin). rewrite in_snoc in Hin. destruct Hin as [Hin|Hin]; [eauto|]. inv Hin. eauto.
      + intros v rid vm.
        transitivity ((exists c, get v (a_cached a) = Some c /\ get rid c = Some vm) \/
                      (o = Cached /\ v = from /\ m_round (sp_meta (msg_direct m)) = rid /\ is_message_of v m vm)).
        * inversion Hc as [Hb|e0 Hb Hl|e0 Hb|Hb Hau Hpr|rid0 Hb Hau Hne0 Hw Hmc]; subst; clear Hc; simpl.
          -- split; auto. intros [?|(Heq & _)]; [auto|discriminate].
          -- split; auto. intros [?|(Heq & _)]; [auto|discriminate].
          -- split; auto. intros [?|(Heq & _)]; [auto|discriminate].
          -- destruct Hau as (A1 & A2 & A3 & A4 & A5 & A6).
             assert (Hr : m_round (sp_meta (msg_direct m)) = rid0) by (rewrite A4; auto).
             rewrite get_insert. destruct (eqb_spec v from) as [->|Hne].
             ++ split.
                ** intros (c & Hcc & Hg). inv Hcc. rewrite get_insert in Hg.
                   destruct (eqb_spec rid (m_round (sp_meta (msg_direct m)))) as [->|Hne].
                   --- inv Hg. right. repeat split; auto.
                   --- left. destruct (get from (a_cached a)) as [c|]; [eauto|]. rewrite get_empty in Hg; discriminate.
                ** intros [(c & Hcc & Hg)|(_ & _ & Hr' & Hm)].
                   --- eexists; split; [reflexivity|]. rewrite Hcc, get_insert.
                       destruct (eqb_spec rid rid0) as [->|Hne]; auto.
                       unfold message_is_cached in Hmc. rewrite Hcc in Hmc. apply contains_false in Hmc. congruence.
                   --- eexists; split; [reflexivity|]. rewrite get_insert. subst rid. rewrite Hr, eqb_refl.
                       destruct vm; unfold is_message_of in Hm; simpl in Hm.
                       destruct Hm as (M1 & M2 & M3 & M4 & M5). congruence.
             ++ split; auto. intros [?|(_ & ? & _)]; [auto|congruence].
        * rewrite (h_cached H). split.
          -- intros [(m' & Hin & Hx)|(-> & -> & Hx)]; [exists m'|exists m]; rewrite in_snoc; auto.
          -- intros (m' & Hin & Hx). rewrite in_snoc in Hin. destruct Hin as [Hin|Hin]; [left; eauto|]. inv Hin. right; auto.
      + intros v p. rewrite NP. apply (h_echo H).
      + intros v p. rewrite NP. apply (h_normal H).
      + intros v p. rewrite NP. apply (h_direct H).
      + intros v e1. rewrite NH. apply (h_provable H).
    - (* process + add *)
      apply add_processed_ok in H4 as (Hnp & Hw & Hc).
      apply (h_waiting H) in Hw as [Hexp Hnh].
      assert (NR : forall v x, (exists g, In (EArt g v x) (es ++ [EProc vm])) <-> exists g, In (EArt g v x) es).
      { intros v x. split; intros [g Hg]; exists g; rewrite in_snoc in *; [destruct Hg as [?|Hg]; [auto|discriminate]|auto]. }
      assert (NH : forall v, heard (es ++ [EProc vm]) v <-> heard es v \/ v = vm_from vm).
      { intros v. rewrite heard_snoc. split; (intros [?|Hx]; [auto|right]).
        - destruct Hx as (vm' & Heq & Hv). congruence.
        - subst; eauto. }
      assert (NA : forall v p, accepted s (es ++ [EProc vm]) v p <-> accepted s es v p \/ (v = vm_from vm /\ answer s vm = Ok p)).
      { intros v p. rewrite accepted_snoc. split; (intros [?|Hx]; [auto|right]).
        - destruct Hx as (vm' & Heq & Hv & Ha). inv Heq. auto.
        - destruct Hx as [-> Ha]. eauto. }
      assert (NP : forall v k (proj : VMessage -> SPart k) p,
                 part_accepted s (es ++ [EProc vm]) v proj p <-> part_accepted s es v proj p \/
                 (v = vm_from vm /\ (exists x, answer s vm = Ok x) /\ p = proj vm /\ is_none (sp_body p) = false)).
      { intros v k proj p. rewrite part_snoc. split; (intros [?|Hx]; [auto|right]).
        - destruct Hx as (vm' & x & Heq & Hv & Ha & Hp & Hb). inv Heq. eauto.
        - destruct Hx as (-> & (x & Ha) & -> & Hb). exists vm, x. auto. }
      assert (Hsame : a_expect a' = a_expect a /\ a_waiting a' = srem (vm_from vm) (a_waiting a) /\
                      a_artifacts a' = a_artifacts a /\ a_processing a' = a_processing a /\ a_cached a' = a_cached a)
        by (inv Hc; simpl; auto).
      destruct Hsame as (S1 & S2 & S3 & S4 & S5).
      assert (Hpay : forall v p, get v (a_payloads a') = Some p <-> accepted s (es ++ [EProc vm]) v p).
      { intros v p. rewrite NA, <- (h_payload H). destruct Hc as [p0 Ha|e0 ev Ha _ _|e0 Ha]; simpl.
        - rewrite get_insert. destruct (eqb_spec v (vm_from vm)) as [->|Hne].
          + rewrite Hnp, Ha. split; [intros E; inv E; auto|intros [E|[_ E]]; [discriminate|inv E; auto]].
          + split; auto. intros [?|[? _]]; [auto|congruence].
        - rewrite Ha. split; auto. intros [?|[_ ?]]; [auto|discriminate].
        - rewrite Ha. split; auto. intros [?|[_ ?]]; [auto|discriminate]. }
      assert (Hparts : forall v,
        (forall p, get v (a_echo a') = Some p <-> part_accepted s (es ++ [EProc vm]) v (@vm_echo _) p) /\
        (forall p, get v (a_normal a') = Some p <-> part_accepted s (es ++ [EProc vm]) v (@vm_normal _) p) /\
        (forall p, get v (a_direct a') = Some p <-> part_accepted s (es ++ [EProc vm]) v (@vm_direct _) p)).
      { intros v.
        assert (Hno : forall k (proj : VMessage -> SPart k) p, ~ part_accepted s es (vm_from vm) proj p)
          by (intros k proj p Hx; apply Hnh; eapply part_heard; eauto).
        destruct Hc as [p0 Ha|e0 ev Ha _ _|e0 Ha]; simpl.
        - assert (Hone : forall k (proj : VMessage -> SPart k) m,
            (forall v p, get v m = Some p <-> part_accepted s es v proj p) ->
            forall p, get v (ins_part (vm_from vm) (proj vm) m) = Some p <-> part_accepted s (es ++ [EProc vm]) v proj p).
          { intros k proj m Hm p. rewrite NP, get_ins_part, <- Hm.
            destruct (eqb_spec v (vm_from vm)) as [->|Hne]; simpl.
            - assert (Hg : get (vm_from vm) m = None).
              { destruct (get (vm_from vm) m) eqn:E; auto. apply Hm in E. destruct (Hno _ _ _ E). }
              destruct (is_none (sp_body (proj vm))) eqn:Eb; simpl; rewrite Hg.
              + split; [discriminate|]. intros [?|(_ & _ & -> & ?)]; [auto|congruence].
              + split; [|intros [?|(_ & _ & -> & _)]; [discriminate|auto]].
                intros E; inv E. right. eauto.
            - split; auto. intros [?|(? & _)]; [auto|congruence]. }
          split; [|split]; apply Hone; [apply (h_echo H)|apply (h_normal H)|apply (h_direct H)].
        - split; [|split]; intros p; rewrite NP; [rewrite <- (h_echo H)|rewrite <- (h_normal H)|rewrite <- (h_direct H)];
            (split; auto; intros [?|(_ & (x & Hx) & _)]; [auto|congruence]).
        - split; [|split]; intros p; rewrite NP; [rewrite <- (h_echo H)|rewrite <- (h_normal H)|rewrite <- (h_direct H)];
            (split; auto; intros [?|(_ & (x & Hx) & _)]; [auto|congruence]). }
      constructor; rewrite ?S1, ?S2, ?S3, ?S4, ?S5.
      + apply (h_expect H).
      + intros v. rewrite mem_rem, andb_true_iff, NH, (h_waiting H), negb_true_iff, eqb_neq. tauto.
      + intros v. rewrite NH. intros [Hh| ->]; auto. now apply (h_heard H).
      + intros vm1 vm2. rewrite !in_snoc. intros [H1|H1] [H2|H2] E.
        * eapply (h_unique H); eauto.
        * inv H2. exfalso. apply Hnh. exists vm1; auto.
        * inv H1. exfalso. apply Hnh. exists vm2; auto.
        * congruence.
      + exact Hpay.
      + intros v. rewrite NH. intros Hh Hn.
        destruct (ord_dec v (vm_from vm)) as [->|Hne].
        * destruct Hc as [p0 Ha|e0 ev Ha _ _|e0 Ha]; simpl in *.
          -- rewrite get_insert_eq in Hn. discriminate.
          -- left. exists ev. apply get_insert_eq.
          -- right. exists e0. apply get_insert_eq.
        * destruct Hh as [Hh|Hh]; [|congruence].
          destruct Hc as [p0 Ha|e0 ev Ha _ _|e0 Ha]; simpl in *.
          -- rewrite get_insert_ne in Hn; auto. now apply (h_rejected H).
          -- rewrite get_insert_ne; auto. now apply (h_rejected H).
          -- rewrite get_insert_ne; auto. now apply (h_rejected H).
      + intros v x. rewrite NR. apply (h_artifact H).
      + intros v. rewrite (h_processing H). split; intros (m & vm' & Hin); exists m, vm'; rewrite in_snoc in *.
        * auto.
        * destruct Hin as [?|?]; [auto|discriminate].
      + intros v rid vm'. rewrite (h_cached H). split; intros (m & Hin & Hx); exists m; rewrite in_snoc in *.
        * auto.
        * destruct Hin as [?|?]; [auto|discriminate].
      + intros v; apply (Hparts v).
      + intros v; apply (Hparts v).
      + intros v; apply (Hparts v).
      + intros v e1 He1. rewrite NH.
        destruct (ord_dec v (vm_from vm)) as [->|Hne].
        * split; auto. destruct (get (vm_from vm) (a_payloads a')) as [p|] eqn:Ep; auto. exfalso.
          apply Hpay, NA in Ep as [Ep|[_ Ep]].
          -- apply Hnh. eapply accepted_heard; eauto.
          -- destruct Hc as [p0 Ha|e0 ev Ha _ _|e0 Ha]; try congruence. simpl in He1.
             apply (h_provable H) in He1 as [Hh _]. auto.
        * assert (Hg : get v (a_provable a) = Some e1).
          { destruct Hc as [p0 Ha|e0 ev Ha _ _|e0 Ha]; simpl in *; auto. now rewrite get_insert_ne in He1. }
          apply (h_provable H) in Hg as [Hh Hn]. split; auto.
          destruct Hc as [p0 Ha|e0 ev Ha _ _|e0 Ha]; simpl in *; auto. now rewrite get_insert_ne.
    - (* artifact *)
      match goal with Hx : add_artifact _ _ = _ |- _ => apply add_artifact_ok in Hx as [Hn ->] end. simpl in Hn.
      assert (NH : forall v, heard (es ++ [EArt g dest art]) v <-> heard es v).
      { intros v. rewrite heard_snoc. split; auto. intros [?|(vm & Heq & _)]; [auto|discriminate]. }
      assert (NA : forall v p, accepted s (es ++ [EArt g dest art]) v p <-> accepted s es v p).
      { intros v p. rewrite accepted_snoc. split; auto. intros [?|(vm & Heq & _)]; [auto|discriminate]. }
      assert (NP : forall v k (proj : VMessage -> SPart k) p,
                 part_accepted s (es ++ [EArt g dest art]) v proj p <-> part_accepted s es v proj p).
      { intros v k proj p. rewrite part_snoc. split; auto. intros [?|(vm & x & Heq & _)]; [auto|discriminate]. }
      assert (NU : forall vm, In (EProc vm) (es ++ [EArt g dest art]) <-> In (EProc vm) es).
      { intros vm. rewrite in_snoc. split; auto. intros [?|Heq]; [auto|discriminate]. }
      constructor; simpl.
      + apply (h_expect H).
      + intros v. rewrite NH. apply (h_waiting H).
      + intros v. rewrite NH. apply (h_heard H).
      + intros vm vm'. rewrite !NU. apply (h_unique H).
      + intros v p. rewrite NA. apply (h_payload H).
      + intros v. rewrite NH. apply (h_rejected H).
      + intros v x. rewrite get_insert. destruct (eqb_spec v dest) as [->|Hne].
        * split.
          -- intros E; inv E. exists g. apply in_snoc; auto.
          -- intros (g' & Hin). apply in_snoc in Hin as [Hin|Hin]; [|inv Hin; auto].
             assert (Hx : get dest (a_artifacts a) = Some x) by (apply (h_artifact H); eauto). congruence.
        * rewrite (h_artifact H). split; intros (g' & Hin); exists g'; rewrite in_snoc in *; auto.
          destruct Hin as [Hin|Hin]; auto. inv Hin. congruence.
      + intros v. rewrite (h_processing H). split; intros (m' & vm' & Hin); exists m', vm'; rewrite in_snoc in *.
        * auto.
        * destruct Hin as [?|?]; [auto|discriminate].
      + intros v rid vm'. rewrite (h_cached H). split; intros (m' & Hin & Hx); exists m'; rewrite in_snoc in *.
        * auto.
        * destruct Hin as [?|?]; [auto|discriminate].
      + intros v p. rewrite NP. apply (h_echo H).
      + intros v p. rewrite NP. apply (h_normal H).
      + intros v p. rewrite NP. apply (h_direct H).
      + intros v e1. rewrite NH. apply (h_provable H).
  Qed.

  Lemma hist_start s : hist s [] (make_accumulator s).
  Proof.
    assert (NH : forall v, ~ heard (Pr := Pr) [] v) by (intros v (vm & [] & _)).
    constructor; simpl; auto; intros.
    - unfold expected. split; [intros; split; auto|tauto].
    - destruct (NH _ H).
    - contradiction.
    - rewrite get_empty. split; [discriminate|intros (vm & [] & _)].
    - destruct (NH _ H).
    - rewrite get_empty. split; [discriminate|intros (g & [])].
    - split; [discriminate|intros (m & vm & [])].
    - split; [intros (c & Hc & _); rewrite get_empty in Hc; discriminate|intros (m & [] & _)].
    - rewrite get_empty. split; [discriminate|intros (vm & x & [] & _)].
    - rewrite get_empty. split; [discriminate|intros (vm & x & [] & _)].
    - rewrite get_empty. split; [discriminate|intros (vm & x & [] & _)].
    - rewrite get_empty in H. discriminate.
  Qed.

  Lemma round_hist d es d' : d_a d = make_accumulator (d_s d) -> run d es d' -> in_round es ->
    hist (d_s d) es (d_a d') /\ d_s d' = d_s d.
  Proof.
    intros Hd Hr. induction Hr as [d|d es d1 e d2 H IH Hs]; intros Hin.
    - rewrite Hd. split; auto. apply hist_start.
    - apply in_round_app in Hin as [Hin He]. destruct (IH Hd Hin) as [Hh Hss].
      assert (Hf : is_fin e = false).
      { unfold in_round in He. simpl in He. destruct (is_fin e); auto. }
      assert (Hss2 : d_s d2 = d_s d1) by (inv Hs; auto; discriminate).
      split; [|congruence]. rewrite <- Hss in *.
      destruct d1 as [s1 a1 t1], d2 as [s2 a2 t2]; simpl in *. subst s2.
      eapply hist_step; eauto.
  Qed.
End WithParams.
