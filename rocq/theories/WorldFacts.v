(** Facts about honest parties among dishonest ones. *)
From Coq Require Import List NArith Bool Lia.
From Verif Require Import Base BMap Errors RoundId Message Protocol Transcript Evidence Session Spec SpecCrypto SpecEvidence
  SpecWorld MessageFacts SessionFacts RunFacts IntakeFacts RoundFacts FinalizeFacts HistoryFacts SignFacts EchoFacts.
Import ListNotations.
Set Implicit Arguments.

Section WithParams.
  Context {P : Params}.
  Context {Pr : Proto}.
  Implicit Types (s : Session Pr) (a : Accum Pr) (d : DState Pr) (es : list (event Pr)) (w : World Pr) (ws : list (World Pr)).

  (** ** What a session handles was delivered to it *)
  Definition from_arrival es (vm : VMessage) : Prop :=
    exists m o, In (EPre (vm_from vm) m o) es /\ is_message_of (vm_from vm) m vm.

  Record origins es d : Prop := {
    og_todo : forall vm, In vm (d_todo d) -> from_arrival es vm;
    og_cache : forall v c rid vm, get v (a_cached (d_a d)) = Some c -> get rid c = Some vm -> from_arrival es vm;
    og_proc : forall vm, In (EProc vm) es -> from_arrival es vm
  }.

  Lemma from_snoc es e vm : from_arrival es vm -> from_arrival (es ++ [e]) vm.
  Proof. intros (m & o & H & Hm). exists m, o. rewrite in_snoc. auto. Qed.

  Lemma from_new es from m o : is_message_of from m (mkVMessage from (sp_meta (msg_direct m)) (msg_direct m) (msg_echo m) (msg_normal m)) ->
    from_arrival (es ++ [EPre from m o]) (mkVMessage from (sp_meta (msg_direct m)) (msg_direct m) (msg_echo m) (msg_normal m)).
  Proof. intros H. exists m, o. rewrite in_snoc. simpl. auto. Qed.

  Lemma run_origins s es d : run (start s) es d -> origins es d.
  Proof.
    remember (start s) as d0 eqn:E0. induction 1 as [d0|d0 es d1 e d2 Hr IH Hs].
    - subst. constructor; simpl; try tauto. intros v c rid vm. rewrite get_empty. discriminate.
    - specialize (IH E0). destruct IH as [It Ic Ip].
      assert (Hp : (forall vm, e <> EProc vm) -> forall vm, In (EProc vm) (es ++ [e]) -> from_arrival (es ++ [e]) vm).
      { intros Hne vm Hi. apply in_snoc in Hi as [Hi|Hi]; [now apply from_snoc, Ip|]. exfalso. now apply (Hne vm). }
      inv Hs; simpl in *.
      + constructor; simpl; [| |apply Hp; discriminate].
        * intros vm Hi. apply preprocess_cases in H. inv H; try (now apply from_snoc, It).
          destruct Hi as [<-|Hi]; [|now apply from_snoc, It]. apply from_new. eapply message_is_message; eauto.
        * intros v c rid vm. apply preprocess_cases in H. inv H; simpl; try (intros; apply from_snoc; eapply Ic; now eauto).
          rewrite get_insert. destruct (eqb_spec v from) as [->|Hne]; [|intros; apply from_snoc; eapply Ic; now eauto].
          intros E. inv E. rewrite get_insert. destruct (eqb_spec rid rid0) as [->|Hr0].
          -- intros E. inv E. apply from_new. eapply message_is_message; eauto.
          -- destruct (get from (a_cached a)) eqn:E; [intros; apply from_snoc; eapply Ic; now eauto|]. rewrite get_empty. discriminate.
      + constructor; simpl.
        * intros vm' Hi. apply from_snoc, It. rewrite in_app_iff in *. simpl. tauto.
        * intros v c rid vm' H1 H2. apply from_snoc. apply add_processed_ok in H as (_ & _ & H). inv H; simpl in *; eapply Ic; eauto.
        * intros vm' Hi. apply in_snoc in Hi as [Hi|Hi]; [now apply from_snoc, Ip|]. inv Hi. apply from_snoc, It, in_elt.
      + constructor; simpl; [|  |apply Hp; discriminate].
        * intros vm Hi. now apply from_snoc, It.
        * intros v c rid vm H3 H4. apply add_artifact_ok in H1 as [_ ->]. apply from_snoc. eapply Ic; eauto.
      + constructor; simpl; [| |apply Hp; discriminate].
        * intros vm Hi. apply from_snoc.
          assert (Hin : In vm (filter_messages (a_cached a) (s_round_id s'))).
          { destruct (finalize_another _ _ _ H0) as [t info echos Hcl Hi' Hg C ->|t st Hcl Hi' Hf Hm C ->]; auto. apply filter_In in Hi. tauto. }
          apply in_filter_messages in Hin as (v & m & H2 & H3). eapply Ic; eauto.
        * intros v c rid vm. rewrite get_empty. discriminate.
  Qed.

  (** ** Traces *)
  Context (honest : Verifier -> Prop).

  Lemma trace_cons ws : wtrace honest ws -> exists w ws', ws = w :: ws'.
  Proof. destruct 1; eauto. Qed.

  (** What one step does to a session. *)
  Lemma step_node w w' v sid d : wstep honest w w' -> w_node w v sid = Some d -> exists es d', w_node w' v sid = Some d' /\ run d es d'.
  Proof.
    assert (K : forall v0 sid0 d0 e d0', w_node w v0 sid0 = Some d0 -> step d0 e d0' -> only_changes w w' v0 sid0 d0' ->
                w_node w v sid = Some d -> exists es d', w_node w' v sid = Some d' /\ run d es d').
    { intros v0 sid0 d0 e d0' H0 Hst [H1 H2] H.
      destruct (ord_dec v v0) as [->|Hne]; [destruct (bytes_dec sid sid0) as [->|Hne]|].
      - assert (d0 = d) by congruence. subst d0. exists [e], d0'. split; auto. now apply run_one.
      - exists [], d. split; [rewrite H2; congruence|constructor].
      - exists [], d. split; [rewrite H2; congruence|constructor]. }
    intros Hs Hnode. destruct Hs as [? ? ? ? ? ? ? ? H1 H2 H3 H4 _ _|? ? ? ? ? ? ? H1 H2 H3 H4 _ _|? ? ? ? ? H1 H2 H3 H4 _ _]; exact (K _ _ _ _ _ H1 H3 H4 Hnode).
  Qed.

  Lemma later w ws w1 v sid d1 : wtrace honest (w :: ws) -> In w1 (w :: ws) -> w_node w1 v sid = Some d1 ->
    exists es d, w_node w v sid = Some d /\ run d1 es d.
  Proof.
    intros Ht. remember (w :: ws) as l eqn:E. revert w ws E. induction Ht as [w0 H0|w0 ws0 w0' Ht IH Hs]; intros w ws E Hi Hn; inv E.
    - destruct Hi as [->|[]]. exists [], d1. split; auto. constructor.
    - destruct Hi as [->|Hi]; [exists [], d1; split; auto; constructor|].
      destruct (IH _ _ eq_refl Hi Hn) as (es & d & H1 & H2). destruct (@step_node _ _ _ _ _ Hs H1) as (es' & d' & H3 & H4).
      exists (es ++ es'), d'. split; auto. eapply run_app; eauto.
  Qed.

  (** Two states of the same session: one of them is later. *)
  Lemma ordered ws v sid d1 d2 : wtrace honest ws -> was ws v sid d1 -> was ws v sid d2 ->
    (exists es, run d1 es d2) \/ (exists es, run d2 es d1).
  Proof.
    intros Ht (w1 & H1 & E1) (w2 & H2 & E2). induction Ht as [w0 H0|w0 ws w Ht IH Hs].
    - destruct H1 as [<-|[]], H2 as [<-|[]]. left. exists []. assert (d1 = d2) by congruence. subst. constructor.
    - destruct H1 as [<-|H1], H2 as [<-|H2].
      + left. exists []. assert (d1 = d2) by congruence. subst. constructor.
      + right. destruct (@later w (w0 :: ws) w2 v sid d2) as (es & d & E & Hr); auto; [econstructor; eauto|right; auto|].
        exists es. congruence.
      + left. destruct (@later w (w0 :: ws) w1 v sid d1) as (es & d & E & Hr); auto; [econstructor; eauto|right; auto|].
        exists es. congruence.
      + auto.
  Qed.

  (** Every session of an honest party, and everything sent. *)
  Record winv ws w : Prop := {
    wi_node : forall v sid d, w_node w v sid = Some d -> honest v /\ s_verifier (d_s d) = v /\ s_id (d_s d) = sid /\
      exists s es, initial s /\ run (start s) es d /\
        forall from m o, In (EPre from m o) es -> In m (w_seen w) /\ unforged honest w m;
    wi_sent : forall u m, In (u, m) (w_sent w) -> exists sid d g dest art, was (w :: ws) u sid d /\
      mem dest (message_destinations (d_s d)) = true /\ make_message (d_s d) g dest = Ok (m, (dest, art))
  }.

  Lemma unforged_mono w w' m : incl (w_sent w) (w_sent w') -> unforged honest w m -> unforged honest w' m.
  Proof. intros Hi H u k Hu Hs. destruct (H u k Hu Hs) as (m' & k' & H1 & H2). exists m', k'. auto. Qed.

  Lemma trace_winv w ws : wtrace honest (w :: ws) -> winv ws w.
  Proof.
    intros Ht. remember (w :: ws) as l eqn:E. revert w ws E. induction Ht as [w0 H0|w0 ws0 w0' Ht IH Hs]; intros w ws E; inv E.
    - destruct H0 as (H1 & H2 & H3). constructor.
      + intros v sid d Hd. destruct (H3 _ _ _ Hd) as (Hh & s & Hi & Hv & Hsid & ->). split; auto. split; auto. split; auto.
        exists s, []. split; auto. split; [constructor|]. intros from m o [].
      + rewrite H1. intros u m [].
    - specialize (IH _ _ eq_refl). destruct IH as [In1 Is1].
      assert (K : forall v0 sid0 d0 e d0', w_node w0 v0 sid0 = Some d0 -> step d0 e d0' -> only_changes w0 w v0 sid0 d0' ->
                incl (w_sent w0) (w_sent w) -> incl (w_seen w0) (w_seen w) ->
                (forall from m o, e = EPre from m o -> In m (w_seen w) /\ unforged honest w m) ->
                forall v sid d, w_node w v sid = Some d -> honest v /\ s_verifier (d_s d) = v /\ s_id (d_s d) = sid /\
      exists s es, initial s /\ run (start s) es d /\
        forall from m o, In (EPre from m o) es -> In m (w_seen w) /\ unforged honest w m).
      { intros v0 sid0 d0 e d0' Hn Hst [H1 H2] I1 I2 He v sid d Hd.
        assert (Old : w_node w0 v sid = Some d -> honest v /\ s_verifier (d_s d) = v /\ s_id (d_s d) = sid /\
          exists s es, initial s /\ run (start s) es d /\
            forall from m o, In (EPre from m o) es -> In m (w_seen w) /\ unforged honest w m).
        { intros Hd'. destruct (In1 _ _ _ Hd') as (Hh & Hv & Hsid & s & es & Hi & Hr & Hall). split; auto. split; auto. split; auto.
          exists s, es. split; auto. split; auto. intros from m o Hin. destruct (Hall _ _ _ Hin) as [A B].
          split; auto. eapply unforged_mono; eauto. }
        destruct (ord_dec v v0) as [->|Hne]; [destruct (bytes_dec sid sid0) as [->|Hne]|].
        - assert (d = d0') by congruence. subst d0'. clear Old.
          destruct (In1 _ _ _ Hn) as (Hh & Hv & Hsid & s & es & Hi & Hr & Hall).
          assert (Hre : reachable d0) by (exists s, es; auto).
          destruct (step_identity Hst (reachable_sinv Hre)) as (S1 & _ & S2).
          split; auto. split; [congruence|]. split; [congruence|].
          exists s, (es ++ [e]). split; auto. split; [econstructor; eauto|]. intros from m o Hin.
          apply in_snoc in Hin as [Hin|Hin]; [|now apply (He from m o)].
          destruct (Hall _ _ _ Hin) as [A B]. split; auto. eapply unforged_mono; eauto.
        - apply Old. rewrite <- H2; auto. congruence.
        - apply Old. rewrite <- H2; auto. congruence. }
      assert (Kw : forall u sid d, was (w0 :: ws0) u sid d -> was (w :: w0 :: ws0) u sid d).
      { intros u sid d (w1 & Hi & Hn). exists w1. split; auto. right; auto. }
      inversion Hs as [v sid d g dest m art d' H1 H2 H3 H4 H5 H6|v sid d from m o d' H1 H2 H3 H4 H5 H6|v sid d e d' H1 H2 H3 H4 H5 H6].
      + constructor.
        * eapply K; eauto; [rewrite H5; apply incl_tl, incl_refl|rewrite H6; apply incl_refl|discriminate].
        * rewrite H5. intros u m0 [E|Hi].
          -- inv E. inv H3. exists sid, (DS s a todo), g, dest, art. split; [exists w0; split; simpl; auto|]. split; auto.
          -- destruct (Is1 _ _ Hi) as (sid' & d1 & g' & dest' & art' & Hw & Hx). exists sid', d1, g', dest', art'. split; auto.
      + constructor.
        * eapply K; eauto; [rewrite H5; apply incl_refl|rewrite H6; apply incl_tl, incl_refl|].
          intros from' m' o' E. inv E. split; [rewrite H6; left; auto|]. eapply unforged_mono; [|eauto]. rewrite H5; apply incl_refl.
        * rewrite H5. intros u m0 Hi.
          destruct (Is1 _ _ Hi) as (sid' & d1 & g' & dest' & art' & Hw & Hx). exists sid', d1, g', dest', art'. split; auto.
      + constructor.
        * eapply K; eauto; [rewrite H5; apply incl_refl|rewrite H6; apply incl_refl|].
          intros from m o E. destruct H2 as [[vm E2]|[g E2]]; congruence.
        * rewrite H5. intros u m0 Hi.
          destruct (Is1 _ _ Hi) as (sid' & d1 & g' & dest' & art' & Hw & Hx). exists sid', d1, g', dest', art'. split; auto.
  Qed.

  Lemma trace_tail w ws : wtrace honest (w :: ws) -> ws <> [] -> wtrace honest ws.
  Proof. intros H Hn. inv H; auto. congruence. Qed.

  Lemma was_honest ws u sid d : wtrace honest ws -> was ws u sid d ->
    honest u /\ s_verifier (d_s d) = u /\ s_id (d_s d) = sid /\ reachable d.
  Proof.
    intros Ht (w & Hi & Hn). induction Ht as [w0 H0|w0 ws w' Ht IH Hs].
    - destruct Hi as [<-|[]]. destruct (@wi_node _ _ (trace_winv (wt_start H0)) _ _ _ Hn) as (H1 & H2 & H3 & s & es & H4 & H5 & _).
      repeat split; auto. exists s, es; auto.
    - destruct Hi as [<-|Hi]; auto.
      destruct (@wi_node _ _ (trace_winv (wt_step Ht Hs)) _ _ _ Hn) as (H1 & H2 & H3 & s & es & H4 & H5 & _).
      repeat split; auto. exists s, es; auto.
  Qed.

  Lemma make_message_meta d g dest m art k : reachable d -> make_message (d_s d) g dest = Ok (m, art) ->
    sp_meta (msg_part k m) = mkMeta (s_id (d_s d)) (s_round_id (d_s d)).
  Proof.
    intros Hre H. pose proof (reachable_sinv Hre) as SI. unfold make_message in H. apply bind_ok in H as ([b x] & H1 & H).
    apply bind_ok in H as (m' & H2 & H). inv H. unfold message_new in H2. apply bind_ok in H2 as (dm & H2 & H). inv H.
    destruct k; simpl; [apply (si_echo_meta SI)|apply (si_normal_meta SI)|]. now apply sign_part_ok in H2 as (Hm & _).
  Qed.

  Lemma part_origin w ws v sid d u vm es s k : prefix_free_meta P -> wtrace honest (w :: ws) -> w_node w v sid = Some d ->
    initial s -> run (start s) es d -> (forall from m o, In (EPre from m o) es -> In m (w_seen w) /\ unforged honest w m) ->
    honest u -> In (EProc vm) es -> vm_from vm = u -> forall rid, vmessage_authentic sid rid vm ->
    found_collision w \/ sent_part (w :: ws) u sid rid k (sp_body (match k return SPart k with KDirect => vm_direct vm | KEcho => vm_echo vm | KNormal => vm_normal vm end)).
  Proof.
    intros Hp Ht Hn Hi Hr Hall Hu Hvm Hf rid (A1 & A2 & A3 & _ & M1 & M2 & M3).
    destruct (og_proc (run_origins Hr) _ Hvm) as (m & o & Hin & Hm). rewrite Hf in *.
    destruct Hm as (_ & Ed & Ee & En & _). rewrite Ed, Ee, En in *.
    destruct (Hall _ _ _ Hin) as [Hseen Hunf].
    assert (HS : part_signed u (msg_part k m)) by (destruct k; auto).
    assert (HM : sp_meta (msg_part k m) = mkMeta sid rid) by (destruct k; auto).
    destruct (Hunf u k Hu HS) as (m' & k' & Hsent & Hdig).
    destruct (wi_sent (trace_winv Ht) _ _ Hsent) as (sid' & dU & g & dest & art & Hwas & Hdest & Hmk).
    destruct (was_honest Ht Hwas) as (_ & Hv & Hsid & Hre).
    destruct (signed_digest HS) as (D & sg & HD & _ & _).
    pose proof (@make_message_meta _ _ _ _ _ k' Hre Hmk) as HM'.
    assert (HD' : part_digest (k := k') (sp_meta (msg_part k' m')) (sp_body (msg_part k' m')) = Ok D).
    { unfold digest_of in Hdig. unfold part_digest, message_digest in *.
      destruct (ser_meta (sp_meta (msg_part k m))) as [mb|]; [|discriminate].
      destruct (ser_meta (sp_meta (msg_part k' m'))) as [mb'|]; [|discriminate].
      cbn [ok_or bind] in HD |- *. injection HD as <-. injection Hdig as Hdig. f_equal.
      symmetry. exact Hdig. }
    destruct (@digest_binding _ _ _ _ _ _ _ _ Hp HD HD') as [(E1 & E2 & E3 & E4)|C].
    - right. subst k'. rewrite HM, HM' in E1, E2. simpl in E1, E2. assert (Hwas' : was (w :: ws) u sid dU) by (replace sid with sid' by congruence; exact Hwas).
      exists dU, g, dest, m', art. split; [exact Hwas'|]. split; [congruence|]. split; [exact Hdest|]. split; [exact Hmk|].
      rewrite <- E4. destruct k; simpl; congruence.
    - left. exists u, m, m', k, k'. auto.
  Qed.

  (** ** Payloads of honest parties *)

  (** The history of the round that session [sid] of [v] is in, as part of its whole history. *)
  Lemma run_last_round s es d : initial s -> run (start s) es d ->
    exists es1 d0 es2, es = es1 ++ es2 /\ round_start d0 /\ run d0 es2 d /\ in_round es2.
  Proof.
    intros Hi Hr. remember (start s) as d0 eqn:E. revert E. induction Hr as [d0|d0 es d1 e d2 H IH Hs]; intros ->.
    - exists [], (start s), []. split; auto. split; [left; eauto|]. split; [constructor|reflexivity].
    - specialize (IH eq_refl) as (es1 & d0 & es' & -> & H1 & H2 & H3).
      destruct (is_fin e) eqn:Ef.
      + inv Hs; try discriminate.
        exists ((es1 ++ es') ++ [EFin g]), (DS s' (make_accumulator s') cached), []. split; [now rewrite app_nil_r|].
        split; [|split; [constructor|reflexivity]].
        right. exists s0, a, todo, g, s', cached. repeat split; auto. exists s, (es1 ++ es'). auto.
      + exists es1, d0, (es' ++ [e]). split; [now rewrite app_assoc|]. split; auto. split; [econstructor; eauto|].
        apply in_round_app. split; auto. unfold in_round; simpl. now rewrite Ef.
  Qed.

  Lemma payload_parts w ws v sid d u p : prefix_free_meta P -> wtrace honest (w :: ws) -> w_node w v sid = Some d ->
    honest u -> get u (a_payloads (d_a d)) = Some p ->
    exists vm d0 es, round_start d0 /\ run d0 es d /\ in_round es /\ In (EProc vm) es /\ vm_from vm = u /\
      rd_receive (s_round (d_s d)) u (mkDynMsg (sp_body (vm_echo vm)) (sp_body (vm_normal vm)) (sp_body (vm_direct vm))) = Ok p /\
      (found_collision w \/
       (sent_part (w :: ws) u sid (s_round_id (d_s d)) KEcho (sp_body (vm_echo vm)) /\
        sent_part (w :: ws) u sid (s_round_id (d_s d)) KNormal (sp_body (vm_normal vm)) /\
        sent_part (w :: ws) u sid (s_round_id (d_s d)) KDirect (sp_body (vm_direct vm)))).
  Proof.
    intros Hp Ht Hn Hu Hpay. destruct (wi_node (trace_winv Ht) _ _ Hn) as (Hh & Hv & Hsid & s & es & Hi & Hr & Hall).
    destruct (run_last_round Hi Hr) as (es1 & d0 & es2 & -> & Hs0 & Hr2 & Hin2).
    pose proof (round_history Hs0 Hr2 Hin2) as H.
    apply (h_payload H) in Hpay as (vm & Hvm & Hf & Ha).
    pose proof (event_proc _ Hr2 Hin2 (round_start_reachable Hs0) Hvm) as Hau.
    rewrite <- (in_round_session Hr2 Hin2), Hsid in Hau.
    exists vm, d0, es2. do 6 (split; auto).
    assert (Hvm' : In (EProc vm) (es1 ++ es2)) by (apply in_or_app; auto).
    pose proof (fun k => @part_origin w ws v sid d u vm _ s k Hp Ht Hn Hi Hr Hall Hu Hvm' Hf _ Hau) as K.
    destruct (K KEcho) as [C|K1]; auto. destruct (K KNormal) as [C|K2]; auto. destruct (K KDirect) as [C|K3]; auto.
  Qed.
  Lemma main_payload w ws v sid d st u p : prefix_free_meta P -> wtrace honest (w :: ws) -> w_node w v sid = Some d ->
    s_round (d_s d) = RMain st -> honest u -> get u (a_payloads (d_a d)) = Some (PVal p) ->
    found_collision w \/
    exists e n x, receive Pr st u (mkDynMsg e n x) = Ok p /\
      sent_part (w :: ws) u sid (s_round_id (d_s d)) KEcho e /\
      sent_part (w :: ws) u sid (s_round_id (d_s d)) KNormal n /\
      sent_part (w :: ws) u sid (s_round_id (d_s d)) KDirect x.
  Proof.
    intros Hp Ht Hn Hst Hu Hg. destruct (@payload_parts w ws v sid d u _ Hp Ht Hn Hu Hg) as (vm & d0 & es & _ & _ & _ & _ & _ & Ha & [C|(H1 & H2 & H3)]); auto.
    right. rewrite Hst in Ha. simpl in Ha. apply bind_ok in Ha as (p' & Ha & E). inv E.
    eexists _, _, _. split; [exact Ha|]. auto.
  Qed.

  (** ** A session is in each round at most once *)
  Definition erank (rank : RoundId -> nat) (rid : RoundId) : nat :=
    2 * rank (main_of rid) + (if rid_echo rid then 1 else 0).

  Lemma fin_rank rank d g d' : plain_ids Pr ->
    (forall (st : St Pr) rid, mem rid (ti_children (tinfo Pr st)) = true -> rank (ti_id (tinfo Pr st)) < rank rid) ->
    reachable d -> step d (EFin g) d' -> erank rank (s_round_id (d_s d)) < erank rank (s_round_id (d_s d')).
  Proof.
    intros Hpl Hrk Hre Hs. pose proof (reachable_sinv Hre) as SI.
    destruct (fin_cases_step Hs) as (_ & _ & [t info echos Hc Hi _ C _|t st Hc Hi Hf Hm C _]).
    - destruct (si_shape SI) as [st Hst|echos' info' st ps arts Hst Hn]; [|congruence].
      pose proof (cr_tinfo C) as Et. rewrite Hst in Et. apply rd_tinfo_echo in Et as (t0 & Et0 & Et). inv Et0.
      assert (E1 : s_round_id (d_s d) = ti_id (tinfo Pr st)) by (unfold s_round_id; now rewrite (proj1 (main_tinfo SI Hst))).
      apply ti_echo_ok in Et as [_ Et]. assert (E2 : s_round_id (d_s d') = echo_of (ti_id (tinfo Pr st))) by (unfold s_round_id; rewrite Et; reflexivity).
      rewrite E1, E2. unfold erank. rewrite main_echo, (main_plain _ (Hpl st)), (Hpl st) by apply Hpl. simpl. lia.
    - pose proof (cr_tinfo C) as Et. simpl in Et. injection Et as Et.
      assert (E2 : s_round_id (d_s d') = ti_id (tinfo Pr st)) by (unfold s_round_id; congruence).
      rewrite E2. unfold erank at 2. rewrite (main_plain _ (Hpl st)), (Hpl st).
      destruct (si_shape SI) as [st0 Hst|echos' info' st0 ps arts Hst Hn].
      + destruct (main_tinfo SI Hst) as [E _]. rewrite E in Hm. apply Hrk in Hm.
        unfold s_round_id. rewrite E. unfold erank. rewrite (main_plain _ (Hpl st0)), (Hpl st0). lia.
      + pose proof (si_tinfo SI) as E. rewrite Hst in E. apply rd_tinfo_echo in E as (t0 & E0 & E). inv E0. apply ti_echo_ok in E as [_ E].
        unfold s_round_id. rewrite E in Hm |- *. cbn [ti_children ti_id] in *. apply Hrk in Hm.
        unfold erank. rewrite main_echo by apply Hpl. cbn [echo_of rid_echo]. lia.
  Qed.

  Lemma run_rank rank d es d' : plain_ids Pr ->
    (forall (st : St Pr) rid, mem rid (ti_children (tinfo Pr st)) = true -> rank (ti_id (tinfo Pr st)) < rank rid) ->
    reachable d -> run d es d' ->
    d_s d' = d_s d \/ erank rank (s_round_id (d_s d)) < erank rank (s_round_id (d_s d')).
  Proof.
    intros Hpl Hrk Hre Hr. induction Hr as [|d es d1 e d2 Hr IH Hs]; auto.
    specialize (IH Hre). destruct (is_fin e) eqn:Ef.
    - destruct e; try discriminate. right. pose proof (@fin_rank rank _ _ _ Hpl Hrk (reachable_run Hre Hr) Hs) as K.
      destruct IH as [IH|IH]; [rewrite <- IH; auto|lia].
    - replace (d_s d2) with (d_s d1); auto. inv Hs; auto; discriminate.
  Qed.

  Lemma same_session ws u sid d1 d2 : plain_ids Pr -> no_return Pr -> wtrace honest ws -> was ws u sid d1 -> was ws u sid d2 ->
    s_round_id (d_s d1) = s_round_id (d_s d2) -> d_s d1 = d_s d2.
  Proof.
    intros Hpl (rank & Hrk) Ht H1 H2 E.
    destruct (was_honest Ht H1) as (_ & _ & _ & R1). destruct (was_honest Ht H2) as (_ & _ & _ & R2).
    destruct (ordered Ht H1 H2) as [(es & Hr)|(es & Hr)].
    - destruct (@run_rank rank _ _ _ Hpl Hrk R1 Hr) as [K|K]; auto. rewrite E in K. lia.
    - destruct (@run_rank rank _ _ _ Hpl Hrk R2 Hr) as [K|K]; auto. rewrite E in K. lia.
  Qed.

  Lemma make_message_parts d g dest m art : make_message (d_s d) g dest = Ok (m, art) ->
    msg_echo m = s_echo (d_s d) /\ msg_normal m = s_normal (d_s d).
  Proof.
    intros H. unfold make_message in H. apply bind_ok in H as ([b x] & H1 & H).
    apply bind_ok in H as (m' & H2 & H). inv H. unfold message_new in H2. apply bind_ok in H2 as (dm & H2 & H). inv H. auto.
  Qed.

  Lemma main_payload_message w ws v sid d st u p : prefix_free_meta P -> plain_ids Pr -> no_return Pr ->
    wtrace honest (w :: ws) -> w_node w v sid = Some d ->
    s_round (d_s d) = RMain st -> honest u -> get u (a_payloads (d_a d)) = Some (PVal p) ->
    found_collision w \/
    exists dU g dest m art, was (w :: ws) u sid dU /\ s_round_id (d_s dU) = s_round_id (d_s d) /\
      mem dest (message_destinations (d_s dU)) = true /\ make_message (d_s dU) g dest = Ok (m, (dest, art)) /\
      receive Pr st u (contents m) = Ok p.
  Proof.
    intros Hp Hpl Hnr Ht Hn Hst Hu Hg.
    destruct (@main_payload w ws v sid d st u p Hp Ht Hn Hst Hu Hg) as [C|(e & n & x & Hrc & S1 & S2 & S3)]; auto. right.
    destruct S1 as (d1 & g1 & dest1 & m1 & art1 & W1 & R1 & D1 & M1 & ->).
    destruct S2 as (d2 & g2 & dest2 & m2 & art2 & W2 & R2 & D2 & M2 & ->).
    destruct S3 as (d3 & g3 & dest3 & m3 & art3 & W3 & R3 & D3 & M3 & ->).
    exists d3, g3, dest3, m3, art3. do 4 (split; auto).
    destruct (@make_message_parts _ _ _ _ _ M1) as [E1 _]. destruct (@make_message_parts _ _ _ _ _ M2) as [_ E2].
    destruct (@make_message_parts _ _ _ _ _ M3) as [E3 E4].
    rewrite <- Hrc. unfold contents. cbn [msg_part]. rewrite E1, E2, E3, E4.
    rewrite (@same_session _ _ _ d1 d3 Hpl Hnr Ht W1 W3) by congruence.
    rewrite (@same_session _ _ _ d2 d3 Hpl Hnr Ht W2 W3) by congruence. reflexivity.
  Qed.

  (** ** Echo rounds *)
  Lemma echo_id_round d : plain_ids Pr -> reachable d -> rid_echo (s_round_id (d_s d)) = true -> in_echo_round (d_s d).
  Proof.
    intros Hpl Hre E. pose proof (reachable_sinv Hre) as SI. destruct (si_shape SI) as [st Hst|echos info st ps arts Hst _].
    - exfalso. unfold s_round_id in E. rewrite (proj1 (main_tinfo SI Hst)), Hpl in E. discriminate.
    - unfold in_echo_round. eauto 10.
  Qed.

  Lemma world_agreement w ws v sid d st u : prefix_free_meta P -> echo_codec P -> plain_ids Pr ->
    wtrace honest (w :: ws) -> w_node w v sid = Some d -> echoing (d_s d) st -> can_finalize (d_a d) = Yes ->
    honest u -> expected (d_s d) u ->
    found_collision w \/
    exists dU, was (w :: ws) u sid dU /\ s_round_id (d_s dU) = s_round_id (d_s d) /\ in_echo_round (d_s dU) /\
      forall x, x <> u -> mem x (ci_expect (cinfo Pr st)) = true \/ (ci_part (cinfo Pr st) = EPDefault /\ x = v) ->
        exists p p', held_echo (d_s d) x p /\ held_echo (d_s dU) x p' /\
          (sp_body p = sp_body p' \/ collide (content_bytes KEcho (sp_body p)) (content_bytes KEcho (sp_body p'))).
  Proof.
    intros Hp Hcod Hpl Ht Hn Hec Hy Hu Hexp.
    destruct (wi_node (trace_winv Ht) _ _ Hn) as (_ & Hv & Hsid & s & es & Hi & Hr & _).
    assert (Hre : reachable d) by (exists s, es; auto).
    assert (Hpay : exists p, get u (a_payloads (d_a d)) = Some p).
    { destruct (reachable_round Hre) as (d0 & es0 & K1 & K2 & K3).
      destruct (proj1 (proj1 (can_finalize_meaning K1 K2 K3)) Hy u Hexp) as [p Hacc].
      exists p. now apply (h_payload (round_history K1 K2 K3)). }
    destruct Hpay as [p Hpay].
    destruct (@payload_parts w ws v sid d u _ Hp Ht Hn Hu Hpay) as (vm & d0 & es0 & Hs0 & Hr0 & Hin0 & Hvm & Hf & _ & [C|(_ & (dU & g & dest & m & art & W & R & D & M & E) & _)]); auto.
    right. destruct (was_honest Ht W) as (_ & Hvu & _ & HreU).
    assert (HeU : in_echo_round (d_s dU)).
    { apply echo_id_round; auto. rewrite R. destruct Hec as (v1 & echos & info & ps & arts & Hrd).
      rewrite (proj2 (echo_round_id (reachable_sinv Hre) Hrd)). reflexivity. }
    exists dU. split; auto. split; auto. split; auto. intros x Hx Hmem. rewrite <- Hvu in Hf.
    eapply (@echo_agreement_body _ _ d0 es0 d dU st vm g dest m _ Hcod Hs0 Hr0 Hin0 Hy Hec HreU HeU M Hvm Hf E); [congruence|].
    rewrite Hv. exact Hmem.
  Qed.
End WithParams.
