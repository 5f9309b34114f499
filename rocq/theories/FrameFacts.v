(** Facts about evidence against honest parties. *)
From Coq Require Import List NArith Bool Lia.
From Verif Require Import Base BMap Errors RoundId Message Protocol Transcript Evidence Session Spec SpecCrypto SpecEvidence
  SpecWorld SpecFrame MessageFacts SessionFacts RunFacts IntakeFacts RoundFacts FinalizeFacts HistoryFacts SignFacts EchoFacts
  EvidenceFacts GuiltFacts WorldFacts.
Import ListNotations.
Set Implicit Arguments.

Section WithParams.
  Context {P : Params}.
  Context {Pr : Proto}.

  Lemma err_inj {E A} (x y : E) : @Err E A x = Err y -> x = y.
  Proof. congruence. Qed.
  Implicit Types (s : Session Pr) (a : Accum Pr) (d : DState Pr) (es : list (event Pr)) (w : World Pr) (ws : list (World Pr)).

  (** ** Any message can be used against its sender *)
  Lemma every_message_frames d g dest m art k sd : signatures_correct P -> reachable d -> make_message (d_s d) g dest = Ok (m, art) ->
    k <> KEcho ->
    verify_evidence Pr (mkEvidence (s_verifier (d_s d)) (EvMismatched (s_verifier (d_s d)) (msg_echo m) (to_signed_hash (msg_part k m)))) sd = Ok tt \/
    collide (content_bytes KEcho (sp_body (msg_echo m))) (content_bytes k (sp_body (msg_part k m))).
  Proof.
    intros Hsig Hre Hm Hk. destruct (@made_message _ _ _ _ _ _ _ Hre Hsig Hm) as ((S1 & S2 & S3 & M1 & M2 & M3) & _).
    assert (Sk : part_signed (s_verifier (d_s d)) (msg_part k m)) by (destruct k; auto).
    assert (Mk : sp_meta (msg_part k m) = sp_meta (msg_echo m)) by (destruct k; simpl; congruence).
    unfold verify_evidence. cbn [ev_body]. unfold verify_mismatched.
    rewrite (proj2 (verify_part_ok _ (msg_echo m) _) (conj eq_refl S2)). cbn [map_err bind].
    rewrite (proj2 (verify_shash_ok _ (to_signed_hash (msg_part k m)) _) (conj eq_refl (proj2 (shash_signed _ _) Sk))). cbn [map_err bind].
    cbn [to_signed_hash sh_meta]. rewrite Mk, meta_eqb_refl.
    destruct (is_hash_of (to_signed_hash (msg_part k m)) (msg_echo m)) eqn:E; [|left; reflexivity]. right.
    unfold is_hash_of in E. apply bytes_eqb_spec in E. cbn [to_signed_hash sh_hash] in E.
    rewrite <- !content_hash_eq in E. destruct (content_hash_binding _ _ _ _ E) as [[Ek _]|C].
    - congruence.
    - destruct C as [C1 C2]. split; auto.
  Qed.

  (** ** What an honest party signed *)
  Context (honest : Verifier -> Prop).

  Lemma digest_eq_part {k k'} (p : SPart k) (p' : SPart k') D : digest_of p = digest_of p' ->
    part_digest (k := k) (sp_meta p) (sp_body p) = Ok D -> part_digest (k := k') (sp_meta p') (sp_body p') = Ok D.
  Proof.
    unfold digest_of, part_digest, message_digest. intros Hdig HD.
    destruct (ser_meta (sp_meta p)) as [mb|]; [|discriminate].
    destruct (ser_meta (sp_meta p')) as [mb'|]; [|discriminate].
    cbn [ok_or bind] in HD |- *. injection HD as <-. injection Hdig as Hdig. f_equal. symmetry. exact Hdig.
  Qed.

  Lemma digest_eq_hash {k'} (h : SHash) (p' : SPart k') : digest_of_hash h = digest_of p' -> ser_meta (sh_meta h) <> None ->
    exists D, message_digest (sh_meta h) (sh_hash h) = Ok D /\ part_digest (k := k') (sp_meta p') (sp_body p') = Ok D.
  Proof.
    unfold digest_of_hash, digest_of, part_digest, message_digest. intros Hdig Hn.
    destruct (ser_meta (sh_meta h)) as [mb|]; [|congruence].
    destruct (ser_meta (sp_meta p')) as [mb'|]; [|discriminate].
    cbn [ok_or bind]. injection Hdig as Hdig. eexists. split; [reflexivity|]. f_equal. symmetry. exact Hdig.
  Qed.

  (** A signed part. *)
  Lemma signed_part_sent w ws u k (p : SPart k) : prefix_free_meta P -> wtrace honest (w :: ws) -> part_signed u p ->
    signed_in w u (digest_of p) ->
    (exists m k', In (u, m) (w_sent w) /\ parts_collide k k' (sp_meta p) (sp_meta (msg_part k' m)) (sp_body p) (sp_body (msg_part k' m))) \/
    sent_part (w :: ws) u (m_session (sp_meta p)) (m_round (sp_meta p)) k (sp_body p).
  Proof.
    intros Hp Ht HS (m & k' & Hsent & Hdig).
    destruct (wi_sent (trace_winv Ht) _ _ Hsent) as (sid' & dU & g & dest & art & Hwas & Hdest & Hmk).
    destruct (was_honest Ht Hwas) as (_ & Hv & Hsid & Hre).
    destruct (signed_digest HS) as (D & sg & HD & _ & _).
    pose proof (@make_message_meta _ _ _ _ _ _ _ k' Hre Hmk) as HM'.
    destruct (@digest_binding _ _ _ _ _ _ _ _ Hp HD (digest_eq_part _ _ Hdig HD)) as [(E1 & E2 & E3 & E4)|C].
    - right. subst k'. rewrite HM' in E1, E2. simpl in E1, E2. rewrite E1, E2, E4.
      rewrite Hsid. exists dU, g, dest, m, art. auto 6.
    - left. exists m, k'. auto.
  Qed.

  (** A signed hash. *)
  Lemma signed_hash_sent w ws u h : prefix_free_meta P -> wtrace honest (w :: ws) -> hash_signed u h ->
    signed_in w u (digest_of_hash h) ->
    (exists m k, In (u, m) (w_sent w) /\ hash_collides h (msg_part k m)) \/
    exists k b, sent_part (w :: ws) u (m_session (sh_meta h)) (m_round (sh_meta h)) k b /\ sh_hash h = hash (content_bytes k b).
  Proof.
    intros Hp Ht HS (m & k' & Hsent & Hdig).
    destruct (wi_sent (trace_winv Ht) _ _ Hsent) as (sid' & dU & g & dest & art & Hwas & Hdest & Hmk).
    destruct (was_honest Ht Hwas) as (_ & Hv & Hsid & Hre).
    assert (Hn : ser_meta (sh_meta h) <> None) by (eapply signs_not_local; exact HS).
    destruct (digest_eq_hash _ _ Hdig Hn) as (D & HD & HD').
    pose proof (@make_message_meta _ _ _ _ _ _ _ k' Hre Hmk) as HM'.
    destruct (@digest_binding_hash _ _ _ _ _ _ Hp HD' HD) as [(E1 & E2)|C].
    - right. exists k', (sp_body (msg_part k' m)). split; auto. rewrite E1, HM'. simpl. rewrite Hsid. exists dU, g, dest, m, art. auto 6.
    - left. exists m, k'. auto.
  Qed.

  (** The echo broadcasts that a session sends in one round. *)
  Lemma one_echo_broadcast ws u sid rid b b' : plain_ids Pr -> no_return Pr -> wtrace honest ws ->
    sent_part ws u sid rid KEcho b -> sent_part ws u sid rid KEcho b' -> b = b'.
  Proof.
    intros Hpl Hnr Ht (d1 & g1 & dest1 & m1 & art1 & W1 & R1 & D1 & M1 & ->) (d2 & g2 & dest2 & m2 & art2 & W2 & R2 & D2 & M2 & ->).
    destruct (@make_message_parts _ _ _ _ _ _ _ M1) as [E1 _]. destruct (@make_message_parts _ _ _ _ _ _ _ M2) as [E2 _].
    cbn [msg_part]. rewrite E1, E2. now rewrite (@same_session _ _ _ _ _ _ d1 d2 Hpl Hnr Ht W1 W2) by congruence.
  Qed.

  (** ** Evidence of a broadcast mismatch, wherever it comes from *)
  Lemma mismatch_against_honest w ws u ev sd p h : prefix_free_meta P -> plain_ids Pr -> no_return Pr ->
    wtrace honest (w :: ws) -> verify_evidence Pr ev sd = Ok tt -> ev_body ev = EvMismatched u p h ->
    signed_in w u (digest_of p) -> signed_in w u (digest_of_hash h) ->
    (exists m k, In (u, m) (w_sent w) /\
       (parts_collide KEcho k (sp_meta p) (sp_meta (msg_part k m)) (sp_body p) (sp_body (msg_part k m)) \/ hash_collides h (msg_part k m))) \/
    hash_of_other_part (w :: ws) u (m_session (sp_meta p)) (m_round (sp_meta p)) h.
  Proof.
    intros Hp Hpl Hnr Ht Hv Hb Hdp Hdh. destruct (verified_mismatched _ _ Hv Hb) as (Sp & Sh & Em & Hne).
    destruct (@signed_part_sent w ws u KEcho p Hp Ht Sp Hdp) as [(m & k & H1 & H2)|S1]; [left; eauto|].
    destruct (@signed_hash_sent w ws u h Hp Ht Sh Hdh) as [(m & k & H1 & H2)|(k & b & S2 & E)]; [left; eauto|].
    right. exists k, b. rewrite Em. split; [|split; [exact S2|split; [now destruct (sh_meta h)|exact E]]].
    intros ->. apply Hne. rewrite E. rewrite Em in S1. now rewrite (one_echo_broadcast Hpl Hnr Ht S1 S2).
  Qed.

  (** ** Where a session's evidence and transcript come from *)
  Lemma step_back w w' v sid d : wstep honest w w' -> w_node w' v sid = Some d ->
    w_node w v sid = Some d \/ exists d0 e, w_node w v sid = Some d0 /\ step d0 e d.
  Proof.
    assert (K : forall v0 sid0 d0 e d0', w_node w v0 sid0 = Some d0 -> step d0 e d0' -> only_changes w w' v0 sid0 d0' ->
                w_node w' v sid = Some d -> w_node w v sid = Some d \/ exists d0 e, w_node w v sid = Some d0 /\ step d0 e d).
    { intros v0 sid0 d0 e d0' H0 Hst [H1 H2] H.
      destruct (ord_dec v v0) as [->|Hne]; [destruct (bytes_dec sid sid0) as [->|Hne]|].
      - assert (d0' = d) by congruence. subst d0'. right. eauto.
      - left. rewrite <- H2; congruence.
      - left. rewrite <- H2; congruence. }
    intros Hs Hnode. destruct Hs as [? ? ? ? ? ? ? ? H1 H2 H3 H4 _ _|? ? ? ? ? ? ? H1 H2 H3 H4 _ _|? ? ? ? ? H1 H2 H3 H4 _ _];
      exact (K _ _ _ _ _ H1 H3 H4 Hnode).
  Qed.

  Lemma step_incl w w' : wstep honest w w' -> incl (w_seen w) (w_seen w') /\ incl (w_sent w) (w_sent w').
  Proof.
    intros Hs. destruct Hs as [? ? ? ? ? ? ? ? _ _ _ _ E1 E2|? ? ? ? ? ? ? _ _ _ _ E1 E2|? ? ? ? ? _ _ _ _ E1 E2]; rewrite E1, E2;
      split; try apply incl_refl; apply incl_tl, incl_refl.
  Qed.

  Lemma was_cons w ws v sid d : was ws v sid d -> was (w :: ws) v sid d.
  Proof. intros (w1 & H1 & H2). exists w1. simpl. auto. Qed.

  (** The processing that led to a piece of evidence, and everything that had arrived by then. *)
  Lemma evidence_made w ws v sid d x ev : wtrace honest (w :: ws) -> w_node w v sid = Some d -> has_evidence d x ev ->
    exists d1 vm s es, was (w :: ws) v sid d1 /\ initial s /\ run (start s) es d1 /\
      (forall from m o, In (EPre from m o) es -> In m (w_seen w) /\ unforged honest w m) /\
      In vm (d_todo d1) /\ vm_from vm = x /\ makes_evidence (d_s d1) vm ev.
  Proof.
    intros Ht. remember (w :: ws) as l eqn:E. revert w ws E d.
    induction Ht as [w0 H0|w0 ws0 w0' Ht IH Hs]; intros w ws E d Hn Hev; inv E.
    - destruct H0 as (_ & _ & H0). destruct (H0 _ _ _ Hn) as (_ & s & Hi & _ & _ & ->). exfalso.
      destruct Hi as (g & sid' & sg & ep & Hi). apply session_new_ok in Hi as (st & _ & C).
      unfold has_evidence in Hev. simpl in Hev. rewrite (cr_tr C) in Hev. simpl in Hev. rewrite !get_empty in Hev. destruct Hev; discriminate.
    - destruct (step_incl Hs) as [I1 I2].
      assert (Old : forall d0, w_node w0 v sid = Some d0 -> has_evidence d0 x ev ->
        exists d1 vm s es, was (w :: w0 :: ws0) v sid d1 /\ initial s /\ run (start s) es d1 /\
      (forall from m o, In (EPre from m o) es -> In m (w_seen w) /\ unforged honest w m) /\
      In vm (d_todo d1) /\ vm_from vm = x /\ makes_evidence (d_s d1) vm ev).
      { intros d0 Hn0 Hev0. destruct (IH _ _ eq_refl _ Hn0 Hev0) as (d1 & vm & s & es & H1 & H2 & H3 & H4 & H5).
        exists d1, vm, s, es. split; [now apply was_cons|]. split; auto. split; auto. split; auto.
        intros from m o Hin. destruct (H4 _ _ _ Hin) as [A B]. split; auto. eapply unforged_mono; eauto. }
      destruct (@step_back _ _ _ _ _ Hs Hn) as [Hn0|(d0 & e & Hn0 & Hst)]; [eauto|].
      destruct (wi_node (trace_winv Ht) _ _ Hn0) as (_ & _ & _ & s & es & Hi & Hr & Hall).
      assert (Hre : reachable d0) by (exists s, es; auto).
      destruct (@evidence_step_origin _ _ d0 e d x ev Hre Hst Hev) as [H|(vm & H1 & H2 & H3)]; [eauto|].
      exists d0, vm, s, es. split; [exists w0; split; simpl; auto|]. split; auto. split; auto. split; auto.
      intros from m o Hin. destruct (Hall _ _ _ Hin) as [A B]. split; auto. eapply unforged_mono; eauto.
  Qed.

  (** The transcript's echo broadcasts of other parties arrived... *)
  Lemma transcript_arrived s es d rid x p : initial s -> run (start s) es d ->
    recorded (tr_echo (s_tr (d_s d))) rid x p -> x <> s_verifier (d_s d) ->
    exists vm, from_arrival es vm /\ vm_from vm = x /\ vm_echo vm = p.
  Proof.
    intros Hi Hr. remember (start s) as d0 eqn:E0. revert E0 rid x p.
    induction Hr as [d0|d0 es d1 e d2 Hr IH Hs]; intros -> rid x p Hrec Hx.
    - exfalso. destruct Hi as (g & sid' & sg & ep & Hi). apply session_new_ok in Hi as (st & _ & C).
      simpl in Hrec. rewrite (cr_tr C) in Hrec. destruct Hrec as (y & Hy & _). simpl in Hy. rewrite get_empty in Hy. discriminate.
    - assert (Old : recorded (tr_echo (s_tr (d_s d1))) rid x p -> x <> s_verifier (d_s d1) ->
                    exists vm, from_arrival (es ++ [e]) vm /\ vm_from vm = x /\ vm_echo vm = p).
      { intros H1 H2. destruct (IH eq_refl _ _ _ H1 H2) as (vm & H3 & H4). exists vm. split; auto. now apply from_snoc. }
      assert (Hre : reachable d1) by (exists s, es; auto).
      destruct (step_identity Hs (reachable_sinv Hre)) as (_ & _ & Hv). rewrite Hv in Hx.
      destruct (is_fin e) eqn:Ef.
      + destruct e; try discriminate. destruct (fin_cases_step Hs) as (_ & _ & Hf).
        assert (Hcl : exists t, close_round (d_s d1) (d_a d1) = Ok t /\ s_tr (d_s d2) = t).
        { destruct Hf as [t ? ? Hc _ _ C _|t ? Hc _ _ _ C _]; exists t; split; auto; apply (cr_tr C). }
        destruct Hcl as (t & Hc & Htr). pose proof (close_round_ok _ _ Hc) as U. rewrite Htr, (up_echo U) in Hrec.
        apply recorded_insert in Hrec as [[-> Hp]|[_ Hrec]]; [|auto].
        rewrite get_insert_ne in Hp by auto.
        destruct (run_last_round Hi Hr) as (es1 & d0 & es2 & -> & Hs0 & Hr2 & Hin2).
        apply (h_echo (round_history Hs0 Hr2 Hin2)) in Hp as (vm & y & H1 & H2 & _ & H3 & _).
        exists vm. split; [|auto]. apply from_snoc. apply (og_proc (run_origins Hr)). apply in_or_app; auto.
      + apply Old; auto. replace (d_s d1) with (d_s d2); auto. inv Hs; auto; discriminate.
  Qed.

  (** ... and the party's own is the one it was sending. *)
  Lemma transcript_own w ws v sid d rid p : wtrace honest (w :: ws) -> w_node w v sid = Some d ->
    recorded (tr_echo (s_tr (d_s d))) rid v p ->
    exists d', was (w :: ws) v sid d' /\ s_round_id (d_s d') = rid /\ p = s_echo (d_s d').
  Proof.
    intros Ht. remember (w :: ws) as l eqn:E. revert w ws E d rid p.
    induction Ht as [w0 H0|w0 ws0 w0' Ht IH Hs]; intros w ws E d rid p Hn Hrec; inv E.
    - destruct H0 as (_ & _ & H0). destruct (H0 _ _ _ Hn) as (_ & s & Hi & _ & _ & ->). exfalso.
      destruct Hi as (g & sid' & sg & ep & Hi). apply session_new_ok in Hi as (st & _ & C).
      simpl in Hrec. rewrite (cr_tr C) in Hrec. destruct Hrec as (y & Hy & _). simpl in Hy. rewrite get_empty in Hy. discriminate.
    - assert (Old : forall d0, w_node w0 v sid = Some d0 -> recorded (tr_echo (s_tr (d_s d0))) rid v p ->
        exists d', was (w :: w0 :: ws0) v sid d' /\ s_round_id (d_s d') = rid /\ p = s_echo (d_s d')).
      { intros d0 Hn0 Hr0. destruct (IH _ _ eq_refl _ _ _ Hn0 Hr0) as (d' & H1 & H2). exists d'. split; [now apply was_cons|auto]. }
      destruct (@step_back _ _ _ _ _ Hs Hn) as [Hn0|(d0 & e & Hn0 & Hst)]; [eauto|].
      destruct (wi_node (trace_winv Ht) _ _ Hn0) as (_ & Hv & _).
      destruct (is_fin e) eqn:Ef.
      + destruct e; try discriminate. destruct (fin_cases_step Hst) as (_ & _ & Hf).
        assert (Hcl : exists t, close_round (d_s d0) (d_a d0) = Ok t /\ s_tr (d_s d) = t).
        { destruct Hf as [t ? ? Hc _ _ C _|t ? Hc _ _ _ C _]; exists t; split; auto; apply (cr_tr C). }
        destruct Hcl as (t & Hc & Htr). pose proof (close_round_ok _ _ Hc) as U. rewrite Htr, (up_echo U) in Hrec.
        apply recorded_insert in Hrec as [[-> Hp]|[_ Hrec]]; [|eauto].
        rewrite Hv, get_insert_eq in Hp. exists d0. split; [exists w0; split; simpl; auto|]. split; congruence.
      + apply (Old d0); auto. replace (d_s d0) with (d_s d); auto. inv Hst; auto; discriminate.
  Qed.

  (** Parts of a message of an honest party that arrived. *)
  Lemma arrival_sent w ws es vm u sid rid k : prefix_free_meta P -> wtrace honest (w :: ws) ->
    (forall from m o, In (EPre from m o) es -> In m (w_seen w) /\ unforged honest w m) ->
    from_arrival es vm -> vm_from vm = u -> honest u -> vmessage_authentic sid rid vm ->
    found_collision w \/ sent_part (w :: ws) u sid rid k (sp_body (match k return SPart k with KDirect => vm_direct vm | KEcho => vm_echo vm | KNormal => vm_normal vm end)).
  Proof.
    intros Hp Ht Hall (m & o & Hin & Hm) Hf Hu (A1 & A2 & A3 & _ & M1 & M2 & M3). rewrite Hf in *.
    destruct Hm as (_ & Ed & Ee & En & _). rewrite Ed, Ee, En in *.
    destruct (Hall _ _ _ Hin) as [Hseen Hunf].
    assert (HS : part_signed u (msg_part k m)) by (destruct k; auto).
    assert (HM : sp_meta (msg_part k m) = mkMeta sid rid) by (destruct k; auto).
    destruct (@signed_part_sent w ws u k (msg_part k m) Hp Ht HS (Hunf u k Hu HS)) as [(m' & k' & H1 & H2)|H].
    - left. exists u, m, m', k, k'. auto.
    - right. rewrite HM in H. destruct k; exact H.
  Qed.

  Lemma arrival_message w ws es vm u sid rid : prefix_free_meta P -> plain_ids Pr -> no_return Pr -> wtrace honest (w :: ws) ->
    (forall from m o, In (EPre from m o) es -> In m (w_seen w) /\ unforged honest w m) ->
    from_arrival es vm -> vm_from vm = u -> honest u -> vmessage_authentic sid rid vm ->
    found_collision w \/ exists dU g dest m art, was (w :: ws) u sid dU /\ s_round_id (d_s dU) = rid /\
      mem dest (message_destinations (d_s dU)) = true /\ make_message (d_s dU) g dest = Ok (m, (dest, art)) /\
      contents m = mkDynMsg (sp_body (vm_echo vm)) (sp_body (vm_normal vm)) (sp_body (vm_direct vm)).
  Proof.
    intros Hp Hpl Hnr Ht Hall Hfr Hf Hu Hau.
    pose proof (fun k => @arrival_sent w ws es vm u sid rid k Hp Ht Hall Hfr Hf Hu Hau) as K.
    destruct (K KEcho) as [C|(d1 & g1 & dest1 & m1 & art1 & W1 & R1 & D1 & M1 & E1)]; auto.
    destruct (K KNormal) as [C|(d2 & g2 & dest2 & m2 & art2 & W2 & R2 & D2 & M2 & E2)]; auto.
    destruct (K KDirect) as [C|(d3 & g3 & dest3 & m3 & art3 & W3 & R3 & D3 & M3 & E3)]; auto. right.
    exists d3, g3, dest3, m3, art3. do 4 (split; auto).
    destruct (@make_message_parts _ _ _ _ _ _ _ M1) as [F1 _]. destruct (@make_message_parts _ _ _ _ _ _ _ M2) as [_ F2].
    destruct (@make_message_parts _ _ _ _ _ _ _ M3) as [F3 F4].
    unfold contents. rewrite E1, E2, E3. cbn [msg_part]. rewrite F1, F2, F3, F4.
    rewrite (@same_session _ _ _ _ _ _ d1 d3 Hpl Hnr Ht W1 W3) by congruence.
    rewrite (@same_session _ _ _ _ _ _ d2 d3 Hpl Hnr Ht W2 W3) by congruence. reflexivity.
  Qed.

  (** ** Earlier states of the world *)
  Lemma trace_at w ws w1 : wtrace honest (w :: ws) -> In w1 (w :: ws) ->
    exists ws1, wtrace honest (w1 :: ws1) /\ incl (w1 :: ws1) (w :: ws) /\ incl (w_seen w1) (w_seen w) /\ incl (w_sent w1) (w_sent w).
  Proof.
    intros Ht. remember (w :: ws) as l eqn:E. revert w ws E.
    induction Ht as [w0 H0|w0 ws0 w0' Ht IH Hs]; intros w ws E Hi; inv E.
    - destruct Hi as [->|[]]. exists []. split; [now constructor|]. repeat split; apply incl_refl.
    - destruct Hi as [->|Hi].
      + exists (w0 :: ws0). split; [econstructor; eauto|]. repeat split; apply incl_refl.
      + destruct (IH _ _ eq_refl Hi) as (ws1 & H1 & H2 & H3 & H4). destruct (step_incl Hs) as [I1 I2].
        exists ws1. split; auto. split; [apply incl_tl; auto|]. split; eapply incl_tran; eauto.
  Qed.

  Lemma was_run w ws v sid d : wtrace honest (w :: ws) -> was (w :: ws) v sid d ->
    exists s es, initial s /\ run (start s) es d /\
      forall from m o, In (EPre from m o) es -> In m (w_seen w) /\ unforged honest w m.
  Proof.
    intros Ht (w1 & Hi & Hn). destruct (trace_at Ht Hi) as (ws1 & H1 & _ & H3 & H4).
    destruct (wi_node (trace_winv H1) _ _ Hn) as (_ & _ & _ & s & es & Hs & Hr & Hall). exists s, es. split; auto. split; auto.
    intros from m o Hin. destruct (Hall _ _ _ Hin) as [A B]. split; auto. eapply unforged_mono; eauto.
  Qed.

  (** Content of the echo broadcast of [u] in round [rid] of session [sid]. *)
  Definition echo_content ws u sid rid (b : body) : Prop :=
    exists d, was ws u sid d /\ s_round_id (d_s d) = rid /\ b = sp_body (s_echo (d_s d)).

  Lemma sent_echo_content ws u sid rid b : sent_part ws u sid rid KEcho b -> echo_content ws u sid rid b.
  Proof.
    intros (d & g & dest & m & art & W & R & D & M & ->). exists d. split; auto. split; auto. cbn [msg_part].
    now destruct (@make_message_parts _ _ _ _ _ _ _ M) as [-> _].
  Qed.

  Lemma one_echo_content ws u sid rid b b' : plain_ids Pr -> no_return Pr -> wtrace honest ws ->
    echo_content ws u sid rid b -> echo_content ws u sid rid b' -> b = b'.
  Proof.
    intros Hpl Hnr Ht (d1 & W1 & R1 & ->) (d2 & W2 & R2 & ->).
    now rewrite (@same_session _ _ _ _ _ _ d1 d2 Hpl Hnr Ht W1 W2) by congruence.
  Qed.

  Lemma held_origin w ws v sid d rid u p : prefix_free_meta P -> wtrace honest (w :: ws) -> was (w :: ws) v sid d -> honest u ->
    recorded (tr_echo (s_tr (d_s d))) rid u p ->
    found_collision w \/ echo_content (w :: ws) u sid rid (sp_body p).
  Proof.
    intros Hp Ht Hw Hu Hrec. destruct (was_honest Ht Hw) as (_ & Hv & Hsid & Hre).
    destruct (ord_dec u v) as [->|Hne].
    - right. destruct Hw as (w1 & Hi & Hn). destruct (trace_at Ht Hi) as (ws1 & H1 & H2 & _).
      destruct (@transcript_own _ _ _ _ _ _ _ H1 Hn Hrec) as (d' & (w2 & Hi2 & Hn2) & R & ->). exists d'. split; auto. exists w2. auto.
    - destruct (was_run Ht Hw) as (s & es & Hi & Hr & Hall).
      destruct (@transcript_arrived _ _ _ _ _ _ Hi Hr Hrec) as (vm & (m & o & Hin & Hm) & Hf & He); [congruence|].
      destruct Hm as (_ & _ & Ee & _). rewrite Ee in He. subst p.
      destruct (@ti_echos _ _ _ (reachable_tinv Hre) _ _ _ Hrec) as [Hmeta Hsg].
      assert (Hss : part_signed u (msg_part KEcho m)) by (apply Hsg; right; congruence).
      destruct (Hall _ _ _ Hin) as [Hseen Hunf].
      destruct (@signed_part_sent w ws u KEcho (msg_part KEcho m) Hp Ht Hss (Hunf u KEcho Hu Hss)) as [(m' & k' & H1 & H2)|H].
      + left. exists u, m, m', KEcho, k'. auto.
      + right. apply sent_echo_content. cbn [msg_part] in H. rewrite Hmeta in H. cbn [m_session m_round] in H. rewrite Hsid in H. exact H.
  Qed.

  (** ** The evidence of honest parties against honest parties *)
  Lemma evidence_against_honest w ws v sid d x ev : prefix_free_meta P -> echo_codec P -> signatures_correct P ->
    plain_ids Pr -> no_return Pr -> no_echo_errors Pr -> (forall u, honest u \/ ~ honest u) ->
    wtrace honest (w :: ws) -> unforged_echoes honest w -> w_node w v sid = Some d -> has_evidence d x ev -> honest (ev_guilty ev) ->
    found_collision w \/ found_echo_collision w \/
    (x = ev_guilty ev /\ exists d1 st dU g dest m art err, was (w :: ws) v sid d1 /\ s_round (d_s d1) = RMain st /\
       was (w :: ws) x sid dU /\ s_round_id (d_s dU) = s_round_id (d_s d1) /\
       mem dest (message_destinations (d_s dU)) = true /\ make_message (d_s dU) g dest = Ok (m, (dest, art)) /\
       receive Pr st x (contents m) = Err err) \/
    (~ honest x /\ exists d1 p h, was (w :: ws) v sid d1 /\ in_echo_round (d_s d1) /\ ev_body ev = EvMismatched (ev_guilty ev) p h /\
       held_echo (d_s d1) (ev_guilty ev) p /\
       hash_of_other_part (w :: ws) (ev_guilty ev) sid (main_of (s_round_id (d_s d1))) h).
  Proof.
    intros Hp Hcod Hsig Hpl Hnr Hno Hdec Ht Hue Hn Hev Hg.
    destruct (@evidence_made _ _ _ _ _ _ _ Ht Hn Hev) as (d1 & vm & s & es & Hw & Hi & Hr & Hall & Hin & Hf & e & Ha & He).
    destruct (was_honest Ht Hw) as (_ & Hv & Hsid & Hre). pose proof (handed_out_authentic Hre _ Hin) as Hau. rewrite Hsid in Hau.
    pose proof (og_todo (run_origins Hr) _ Hin) as Hfr.
    (* what happens when the sender is honest *)
    assert (K : honest x -> found_collision w \/
       (exists st dU g dest m art err, s_round (d_s d1) = RMain st /\
       was (w :: ws) x sid dU /\ s_round_id (d_s dU) = s_round_id (d_s d1) /\
       mem dest (message_destinations (d_s dU)) = true /\ make_message (d_s dU) g dest = Ok (m, (dest, art)) /\
       receive Pr st x (contents m) = Err err) \/
       (exists u p h, e = REchoRound (Mismatched u p h) /\ (honest u -> found_collision w))).
    { intros Hx. destruct (@arrival_message w ws es vm x sid _ Hp Hpl Hnr Ht Hall Hfr Hf Hx Hau)
        as [C|(dU & g & dest & m & art & W & R & D & M & E)]; auto. right.
      destruct (was_honest Ht W) as (_ & HvU & HsidU & HreU).
      unfold answer in Ha. rewrite <- E, Hf in Ha. pose proof (reachable_sinv Hre) as SI.
      destruct (si_shape SI) as [st Hst|echos info st ps arts Hst _]; rewrite Hst in Ha; simpl in Ha.
      { left. apply bind_err in Ha as [Ha|(? & _ & Ha)]; [|discriminate]. exists st, dU, g, dest, m, art, e. auto 8. }
      right. assert (HeU : in_echo_round (d_s dU)).
      { apply echo_id_round; auto. rewrite R. rewrite (proj2 (echo_round_id SI Hst)). reflexivity. }
      destruct (@echo_message_valid _ _ dU g dest m _ Hcod HreU HeU D M) as (V1 & V2 & echosU & _ & V3).
      unfold echo_receive in Ha. cbn [contents dm_echo dm_normal dm_direct] in Ha. rewrite V1, V2, V3 in Ha. cbn [is_none negb] in Ha.
      destruct (negb _); [apply err_inj in Ha; subst e; contradiction|]. destruct (negb _); [apply err_inj in Ha; subst e; contradiction|].
      apply bind_err in Ha as [Ha|(? & _ & Ha)]; [|discriminate].
      apply iter_res_first in Ha as (l1 & [u h] & l2 & El & _ & Ha); [|discriminate].
      assert (Hu : get u (map_values (@to_signed_hash _ KEcho) (remove (s_verifier (d_s dU)) echosU)) = Some h) by (apply in_to_list; rewrite El; apply in_elt).
      destruct (@honest_echoes_correct _ _ dU g dest m _ _ Hcod Hsig HreU HeU D M V3 u h Hu) as (Hne & Hs & Hmeta & p' & Hp' & Hh).
      destruct (check_echo_err _ _ Ha) as [[l ->]|[ee ->]]; [contradiction|].
      unfold check_echo in Ha. destruct (get u echos) as [p|] eqn:Ep; [|discriminate].
      rewrite (proj2 (verify_shash_ok u h h) (conj eq_refl Hs)) in Ha.
      assert (Hgp : recorded (tr_echo (s_tr (d_s d1))) (main_of (s_round_id (d_s d1))) u p).
      { exists echos. split; auto. exact (ti_now (reachable_tinv Hre) Hst). }
      destruct (@ti_echos _ _ _ (reachable_tinv Hre) _ _ _ Hgp) as [Hpm _].
      rewrite Hmeta, Hpm, R, HsidU, Hsid, meta_eqb_refl in Ha. cbn [negb] in Ha.
      destruct (is_hash_of h p) eqn:Eh; [discriminate|]. cbn [negb] in Ha. apply err_inj in Ha. injection Ha as <-.
      exists u, p, h. split; auto. intros Hhu.
      destruct (@held_origin w ws v sid d1 _ u p Hp Ht Hw Hhu Hgp) as [C|O1]; auto.
      destruct (@held_origin w ws x sid dU _ u p' Hp Ht W Hhu Hp') as [C|O2]; auto. exfalso.
      rewrite R in O2. pose proof (one_echo_content Hpl Hnr Ht O1 O2) as Eb.
      unfold is_hash_of in Eh. rewrite Hh, <- Eb, <- content_hash_eq, <- content_hash_bytes, bytes_eqb_refl in Eh. discriminate. }
    (* evidence against the sender *)
    assert (G : match e with REchoRound (Mismatched _ _ _) => True | _ => ev_guilty ev = x end).
    { destruct e as [| | | |err| |[]]; try tauto; try (subst ev; exact Hf).
      apply new_provable_ok in He as (? & ? & ? & ? & ? & ? & _ & -> & _). exact Hf. }
    assert (K' : honest x -> ev_guilty ev = x -> (forall u p h, e <> REchoRound (Mismatched u p h)) -> found_collision w \/ found_echo_collision w \/
    (x = ev_guilty ev /\ exists d1 st dU g dest m art err, was (w :: ws) v sid d1 /\ s_round (d_s d1) = RMain st /\
       was (w :: ws) x sid dU /\ s_round_id (d_s dU) = s_round_id (d_s d1) /\
       mem dest (message_destinations (d_s dU)) = true /\ make_message (d_s dU) g dest = Ok (m, (dest, art)) /\
       receive Pr st x (contents m) = Err err)).
    { intros Hx E Hnm. destruct (K Hx) as [C|[(st & dU & g & dest & m & art & err & H)|(u & p & h & H & _)]]; auto.
      - right; right. split; auto. exists d1, st, dU, g, dest, m, art, err. auto.
      - exfalso. eapply Hnm; eauto. }
    assert (Cases : (exists u p h, e = REchoRound (Mismatched u p h)) \/ forall u p h, e <> REchoRound (Mismatched u p h)).
    { destruct e as [| | | | | |[]]; try (right; discriminate). left; eauto. }
    destruct Cases as [(u & p & h & ->)|Hnm].
    2:{ assert (E : ev_guilty ev = x) by (destruct e as [| | | | | |[]]; auto; exfalso; eapply Hnm; eauto).
        destruct K' as [H|[H|H]]; auto. congruence. }
    cbn [new_echo_round_error] in He. subst ev. cbn [ev_guilty ev_body] in *.
    (* the relayer *)
    pose proof (reachable_sinv Hre) as SI. unfold answer in Ha.
    destruct (si_shape SI) as [st Hst|echos info st ps arts Hst _]; rewrite Hst in Ha; simpl in Ha.
    { exfalso. apply bind_err in Ha as [Ha|(? & _ & Ha)]; [|discriminate]. now apply Hno in Ha. }
    apply echo_receive_err in Ha as [[? H]|[H|[H|[H|[[? H]|(ee' & msg & u' & h' & H & Hm & Hu & Hck)]]]]]; try discriminate.
    injection H as <-. cbn [dm_normal] in Hm.
    unfold check_echo in Hck. destruct (get u' echos) as [q|] eqn:Ep; [|discriminate].
    destruct (verify_shash u' h') as [vh|[]|] eqn:Ev; try discriminate. apply verify_shash_ok in Ev as [-> Hs].
    destruct (meta_eqb (sh_meta h') (sp_meta q)) eqn:Em; cbn [negb] in Hck; [|discriminate]. apply meta_eqb_spec in Em.
    destruct (is_hash_of h' q) eqn:Eh; [discriminate|]. cbn [negb] in Hck. injection Hck as -> -> ->.
    assert (Hgp : recorded (tr_echo (s_tr (d_s d1))) (main_of (s_round_id (d_s d1))) u p).
    { exists echos. split; auto. exact (ti_now (reachable_tinv Hre) Hst). }
    destruct (@ti_echos _ _ _ (reachable_tinv Hre) _ _ _ Hgp) as [Hpm _]. rewrite Hsid in Hpm.
    destruct (@held_origin w ws v sid d1 _ u p Hp Ht Hw Hg Hgp) as [C|O1]; auto.
    destruct Hfr as (m & o & Hpre & (_ & _ & _ & En & _)). destruct (Hall _ _ _ Hpre) as [Hseen _]. rewrite En in Hm.
    destruct (@signed_hash_sent w ws u h Hp Ht Hs (Hue m msg u h Hseen Hm Hu Hg Hs)) as [(m' & k & H1 & H2)|(k & b & S2 & E)].
    { right; left. exists m, msg, u, h, u, m', k. auto 6. }
    assert (Hx : honest x -> found_collision w).
    { intros Hx. destruct (K Hx) as [C|[(st' & dU & g & dest & m' & art & err & H & _)|(u1 & p1 & h1 & H & H')]]; auto; [congruence|].
      injection H as -> -> ->. auto. }
    destruct (Hdec x) as [Hhx|Hhx]; [left; auto|]. right; right; right. split; auto.
    exists d1, p, h. split; auto. split; [unfold in_echo_round; eauto 10|]. split; auto. split; [exact Hgp|].
    rewrite Em, Hpm in S2. cbn [m_session m_round] in S2.
    exists k, b. split; [|split; [exact S2|split; [congruence|exact E]]].
    intros ->. apply sent_echo_content in S2. pose proof (one_echo_content Hpl Hnr Ht O1 S2) as Eb.
    unfold is_hash_of in Eh. rewrite E, <- Eb, <- content_hash_eq, <- content_hash_bytes, bytes_eqb_refl in Eh. discriminate.
  Qed.
End WithParams.
