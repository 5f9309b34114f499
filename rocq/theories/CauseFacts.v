(** Why errors are noted. *)
From Coq Require Import List NArith Bool.
From Verif Require Import Base BMap Errors RoundId Message Protocol Transcript Evidence Session Spec SpecCause MessageFacts
  SessionFacts RunFacts IntakeFacts RoundFacts.
Import ListNotations.
Set Implicit Arguments.

Section Cause.
  Context {P : Params}.
  Context {Pr : Proto}.
  Implicit Types (d : DState Pr) (es : list (event Pr)).

  Lemma answered_more s es d vm d1 r e d' : answered s es d vm d1 r -> step d e d' -> answered s (es ++ [e]) d' vm d1 r.
  Proof.
    intros (es1 & es2 & d2 & -> & H1 & H2 & H3 & H4) Hs. exists es1, (es2 ++ [e]), d2.
    split; [now rewrite <- app_assoc, app_comm_cons|]. repeat (split; auto). eapply run_snoc; eauto.
  Qed.
  Lemma answered_now s es d vm d' : run (start s) es d -> step d (EProc vm) d' -> answered s (es ++ [EProc vm]) d' vm d (answer (d_s d) vm).
  Proof. intros Hr Hs. exists es, [], d'. repeat (split; auto). constructor. Qed.

  Lemma fin_evidence d g d' v ev : step d (EFin g) d' -> has_evidence d' v ev -> has_evidence d v ev.
  Proof.
    intros H E. inv H. match goal with X : finalize_round _ _ _ = _ |- _ => apply finalize_another in X as Hf end.
    unfold has_evidence in *. simpl in *. destruct E as [E|E]; [|discriminate].
    destruct Hf as [t info echos Hc Hi Hg C _|t st Hc Hi Hf Hm C _]; rewrite (cr_tr C) in E; apply (up_provable (close_round_ok _ _ Hc)) in E; auto.
  Qed.
  Lemma fin_unprovable d g d' v : step d (EFin g) d' -> has_unprovable d' v -> has_unprovable d v.
  Proof.
    intros H E. inv H. match goal with X : finalize_round _ _ _ = _ |- _ => apply finalize_another in X as Hf end.
    unfold has_unprovable in *. simpl in *. destruct E as [[e E]|[e E]]; [|discriminate].
    destruct Hf as [t info echos Hc Hi Hg C _|t st Hc Hi Hf Hm C _]; rewrite (cr_tr C) in E; apply (up_unprovable (close_round_ok _ _ Hc)) in E as [E|E]; eauto.
  Qed.

  Lemma shows s vm e ev :
    match e with
    | RDirect => ev = new_invalid_direct (vm_from vm) (vm_direct vm)
    | REchoB => ev = new_invalid_echo (vm_from vm) (vm_echo vm)
    | RNormal => ev = new_invalid_normal (vm_from vm) (vm_normal vm)
    | RProtocol e => new_provable_error (vm_from vm) (vm_echo vm) (vm_normal vm) (vm_direct vm) e (s_tr (Pr := Pr) s) = Ok ev
    | REchoRound e => ev = new_echo_round_error (vm_from vm) (vm_normal vm) e
    | _ => False
    end -> provable e /\ evidence_shows vm e ev.
  Proof.
    destruct e as [l| | | |b|u|[u|u p h]]; simpl; auto. intros H. split; auto. unfold new_provable_error in H.
    apply bind_ok in H as ([[x1 x2] x3] & _ & H). apply bind_ok in H as ([y1 y2] & _ & H). apply bind_ok in H as (eb & He & H). inv H.
    eexists. split; [reflexivity|]. simpl. destruct (be_ser b); inv He. auto.
  Qed.

  Lemma evidence_cause s es d v ev : initial s -> run (start s) es d -> has_evidence d v ev ->
    exists vm d1 e, vm_from vm = v /\ answered s es d vm d1 (Err e) /\ provable e /\ evidence_shows vm e ev.
  Proof.
    intros Hi Hr. remember (start s) as di eqn:E. induction Hr as [d|d es d1 x d2 Hr IH Hs]; intros Hv.
    - subst d. exfalso. destruct Hv as [Hv|Hv]; [|discriminate Hv]. destruct Hi as (g & sid & signer & ep & Hn).
      apply session_new_ok in Hn as (st & _ & C). simpl in Hv. rewrite (cr_tr C) in Hv. discriminate.
    - specialize (IH E). subst d.
      assert (K : has_evidence d1 v ev -> exists vm d0 e, vm_from vm = v /\ answered s (es ++ [x]) d2 vm d0 (Err e) /\ provable e /\ evidence_shows vm e ev).
      { intros H. destruct (IH H) as (vm & d0 & e & H1 & H2 & H3). exists vm, d0, e. split; auto. split; auto. eapply answered_more; eauto. }
      destruct x as [from m o|vm|g dest art|g]; [| | |apply K; eapply fin_evidence; eauto].
      + apply K. inv Hs. unfold has_evidence in *. simpl in *. destruct Hv as [Hv|Hv]; auto. right.
        match goal with X : preprocess_message _ _ _ _ = _ |- _ => apply preprocess_cases in X; inv X; exact Hv end.
      + pose proof (answered_now Hr Hs) as Ha. inv Hs.
        match goal with X : add_processed _ _ _ = _ |- _ => apply add_processed_ok in X as (_ & _ & Hc) end.
        unfold has_evidence in *. simpl in *. destruct Hv as [Hv|Hv]; [auto|]. inv Hc; simpl in Hv; auto.
        rewrite get_insert in Hv. destruct (eqb_spec v (vm_from vm)) as [->|]; [|auto]. inv Hv.
        match goal with X : answer _ _ = _ |- _ => rewrite X in Ha end.
        match goal with X : match _ with _ => _ end |- _ => apply shows in X as [X1 X2] end. eauto 8.
      + apply K. inv Hs. unfold has_evidence in *. simpl in *. destruct Hv as [Hv|Hv]; auto. right.
        match goal with X : add_artifact _ _ = _ |- _ => apply add_artifact_ok in X as [_ ->] end. exact Hv.
  Qed.
  Lemma cause_evidence s es d vm d1 e : run (start s) es d -> answered s es d vm d1 (Err e) -> provable e ->
    exists ev, has_evidence d (vm_from vm) ev.
  Proof.
    intros Hr (es1 & es2 & d2 & -> & H1 & Hs & H2 & Ha) Hp. change (answer (d_s d1) vm = Err e) in Ha.
    assert (K : exists ev, has_evidence d2 (vm_from vm) ev).
    { inv Hs. match goal with X : add_processed _ _ _ = _ |- _ => apply add_processed_ok in X as (_ & _ & Hc) end. simpl in Ha.
      inv Hc; rewrite Ha in *; try discriminate.
      - exists ev. right. simpl. now rewrite get_insert, eqb_refl.
      - match goal with X : Err _ = Err _ |- _ => inv X end. destruct Hp. }
    destruct K as [ev K]. exists ev. now apply (proj1 (errors_run H2)).
  Qed.

  (** [preprocess_message] notes what it returns. *)
  Lemma not_banned_error s a from m a' e : preprocess_message (Pr := Pr) s a from m = (a', Ok (PreError e)) -> ~ banned s a from ->
    e <> RE_Banned /\ get from (a_unprovable a') = Some e.
  Proof.
    intros H Hb. split.
    - intros ->. apply banned_false in Hb. unfold preprocess_message in H. rewrite Hb in H. unfold reject, register_unprovable, mark_processing, cache_message in H.
      repeat match type of H with
      | context [match ?x with _ => _ end] => destruct x eqn:?; try discriminate; simpl in H
      end; try (inv H; fail).
      inv H. repeat match goal with X : context [if ?b then _ else _] |- _ => destruct b end; discriminate.
    - apply preprocess_cases in H. inv H; [contradiction|]. simpl. now rewrite get_insert, eqb_refl.
  Qed.

  Lemma unprovable_cause s es d v : initial s -> run (start s) es d -> has_unprovable d v ->
    (exists m e, In (EPre v m (PreError e)) es /\ e <> RE_Banned) \/
    (exists vm d1 e, vm_from vm = v /\ answered s es d vm d1 (Err (RUnprovable e))).
  Proof.
    intros Hi Hr. remember (start s) as di eqn:E. induction Hr as [d|d es d1 x d2 Hr IH Hs]; intros Hv.
    - subst d. exfalso. destruct Hv as [[e Hv]|[e Hv]]; [|discriminate Hv]. destruct Hi as (g & sid & signer & ep & Hn).
      apply session_new_ok in Hn as (st & _ & C). simpl in Hv. rewrite (cr_tr C) in Hv. discriminate.
    - specialize (IH E). subst d.
      assert (K : has_unprovable d1 v -> (exists m e, In (EPre v m (PreError e)) (es ++ [x]) /\ e <> RE_Banned) \/
        (exists vm d1 e, vm_from vm = v /\ answered s (es ++ [x]) d2 vm d1 (Err (RUnprovable e)))).
      { intros H. destruct (IH H) as [(m & e & H1 & H2)|(vm & d0 & e & H1 & H2)].
        - left. exists m, e. rewrite in_app_iff. auto.
        - right. exists vm, d0, e. split; auto. eapply answered_more; eauto. }
      destruct x as [from m o|vm|g dest art|g]; [| | |apply K; eapply fin_unprovable; eauto].
      + inv Hs. match goal with X : preprocess_message _ _ _ _ = _ |- _ => pose proof (preprocess_cases _ _ _ _ X) as Hc; rename X into Hpre end.
        unfold has_unprovable in *. simpl in *. destruct Hv as [Hv|[e Hv]]; auto. inv Hc; simpl in Hv; eauto.
        rewrite get_insert in Hv. destruct (eqb_spec v from) as [->|]; [|eauto]. inv Hv.
        left. exists m, e. split; [rewrite in_app_iff; simpl; auto|]. eapply not_banned_error; eauto.
      + pose proof (answered_now Hr Hs) as Ha. inv Hs.
        match goal with X : add_processed _ _ _ = _ |- _ => apply add_processed_ok in X as (_ & _ & Hc) end.
        unfold has_unprovable in *. simpl in *. destruct Hv as [Hv|[e Hv]]; [auto|]. inv Hc; simpl in Hv; eauto.
        rewrite get_insert in Hv. destruct (eqb_spec v (vm_from vm)) as [->|]; [|eauto]. inv Hv.
        match goal with X : answer _ _ = _ |- _ => rewrite X in Ha end. right. eauto 8.
      + apply K. inv Hs. unfold has_unprovable in *. simpl in *. destruct Hv as [Hv|[e Hv]]; auto. right. exists e.
        match goal with X : add_artifact _ _ = _ |- _ => apply add_artifact_ok in X as [_ ->] end. exact Hv.
  Qed.
  Lemma cause_unprovable s es d v : run (start s) es d ->
    (exists m e, In (EPre v m (PreError e)) es /\ e <> RE_Banned) \/
    (exists vm d1 e, vm_from vm = v /\ answered s es d vm d1 (Err (RUnprovable e))) -> has_unprovable d v.
  Proof.
    intros Hr [(m & e & H1 & H2)|(vm & d1 & e & <- & es1 & es2 & d2 & -> & Hr1 & Hs & H2 & Ha)].
    - induction Hr as [d|d es d1 x d2 Hr IH Hs]; [destruct H1|]. apply in_snoc in H1 as [H1|<-]; [eapply unprovable_step; eauto|].
      inv Hs. right. exists e. simpl. eapply not_banned_error; eauto.
      match goal with X : preprocess_message _ _ _ _ = _ |- _ => apply preprocess_cases in X; inv X; auto; congruence end.
    - change (answer (d_s d1) vm = Err (RUnprovable e)) in Ha. apply (proj2 (errors_run H2)).
      inv Hs. match goal with X : add_processed _ _ _ = _ |- _ => apply add_processed_ok in X as (_ & _ & Hc) end. simpl in Ha.
      inv Hc; rewrite Ha in *; try discriminate.
      + match goal with X : Err _ = Err _ |- _ => inv X end. contradiction.
      + right. simpl. rewrite get_insert, eqb_refl. eauto.
  Qed.

  Lemma evidence_iff s es d v : initial s -> run (start s) es d ->
    (exists ev, has_evidence d v ev) <-> exists vm d1 e, vm_from vm = v /\ answered s es d vm d1 (Err e) /\ provable e.
  Proof.
    intros Hi Hr. split.
    - intros [ev H]. destruct (evidence_cause Hi Hr H) as (vm & d1 & e & H1 & H2 & H3 & _). eauto 6.
    - intros (vm & d1 & e & <- & H2 & H3). eapply cause_evidence; eauto.
  Qed.
  Lemma unprovable_iff s es d v : initial s -> run (start s) es d ->
    has_unprovable d v <-> (exists m e, In (EPre v m (PreError e)) es /\ e <> RE_Banned) \/
      (exists vm d1 e, vm_from vm = v /\ answered s es d vm d1 (Err (RUnprovable e))).
  Proof. intros Hi Hr. split; [now apply unprovable_cause|now apply cause_unprovable]. Qed.
  Lemma banned_iff s es d v : initial s -> run (start s) es d ->
    banned (d_s d) (d_a d) v <-> (exists m e, In (EPre v m (PreError e)) es /\ e <> RE_Banned) \/
      (exists vm d1 e, vm_from vm = v /\ answered s es d vm d1 (Err e)).
  Proof.
    intros Hi Hr. assert (B : banned (d_s d) (d_a d) v <-> (exists ev, has_evidence d v ev) \/ has_unprovable d v).
    { unfold banned, has_evidence, has_unprovable. firstorder. }
    rewrite B, (evidence_iff v Hi Hr), (unprovable_iff v Hi Hr). split.
    - intros [(vm & d1 & e & H1 & H2 & H3)|[H|(vm & d1 & e & H1 & H2)]]; eauto 7.
    - intros [H|(vm & d1 & e & H1 & H2)]; auto. destruct e as [l| | | |b|u|x]; try (left; exists vm, d1; eexists; repeat (split; [eassumption|]); exact I).
      + exfalso. destruct H2 as (es1 & es2 & d2 & _ & _ & Hs & _ & Ha). change (answer (d_s d1) vm = Err (RL l)) in Ha.
        inv Hs. match goal with X : add_processed _ _ _ = _ |- _ => apply add_processed_ok in X as (_ & _ & Hc) end. simpl in Ha.
        inv Hc; rewrite Ha in *; try discriminate. match goal with X : Err _ = Err _ |- _ => inv X end. contradiction.
      + right. right. eauto.
  Qed.

  (** ** Reasons for turning down messages *)
  Lemma unify_none m : unify_metadata m = None -> forall sid rid, ~ carries m sid rid.
  Proof.
    unfold unify_metadata. intros H sid rid (H1 & H2 & H3). rewrite H1, H2, H3 in H.
    assert (E : forall x, meta_eqb x x = true) by (intros x; apply meta_eqb_spec; reflexivity). rewrite !E in H. discriminate.
  Qed.
  Lemma verify_error v cm e : verify_message v cm = Err e ->
    match e with
    | MV_InvalidSignature => deser_sig (sp_sig (cm_direct cm)) = None \/ deser_sig (sp_sig (cm_echo cm)) = None \/ deser_sig (sp_sig (cm_normal cm)) = None
    | MV_SignatureMismatch => ~ part_signed v (cm_direct cm) \/ ~ part_signed v (cm_echo cm) \/ ~ part_signed v (cm_normal cm)
    | MV_Local _ => True
    end.
  Proof.
    unfold verify_message. intros E.
    pose proof (verify_part_cases v (cm_direct cm)) as H1. pose proof (verify_part_cases v (cm_echo cm)) as H2.
    pose proof (verify_part_cases v (cm_normal cm)) as H3.
    destruct (verify_part v (cm_direct cm)) as [|[]|]; simpl in E; try (inv E; tauto).
    destruct (verify_part v (cm_echo cm)) as [|[]|]; simpl in E; try (inv E; tauto).
    destruct (verify_part v (cm_normal cm)) as [|[]|]; simpl in E; inv E; tauto.
  Qed.

  Lemma error_reason d0 es d from m a' e : d_a d0 = make_accumulator (d_s d0) -> run d0 es d -> in_round es ->
    preprocess_message (d_s d) (d_a d) from m = (a', Ok (PreError e)) -> reason es d from m e.
  Proof.
    intros Ha Hr Hin H. destruct (round_hist Ha Hr Hin) as [Hh Es]. rewrite <- Es in Hh. clear Ha Hr Hin Es d0.
    unfold preprocess_message in H.
    destruct (tr_is_banned (s_tr (d_s d)) from || a_is_banned (d_a d) from)%bool eqn:Eb;
      [apply banned_bool in Eb | apply banned_false in Eb].
    { inv H. now constructor. }
    assert (R : forall r, reject (d_a d) from r = (a', Ok (PreError e)) -> e = r).
    { intros r Hj. rewrite (@reject_ok P Pr (d_s d)) in Hj by auto. now inv Hj. }
    destruct (unify_metadata m) as [cm|] eqn:Eu.
    2:{ apply R in H as ->. apply Because_metadata. now apply unify_none. }
    apply unify_metadata_ok in Eu as (E1 & E2 & ->). cbn [cm_meta] in H.
    assert (C : carries m (m_session (sp_meta (msg_direct m))) (m_round (sp_meta (msg_direct m)))).
    { unfold carries. rewrite E1, E2. destruct (sp_meta (msg_direct m)); auto. }
    destruct (bytes_eqb (m_session (sp_meta (msg_direct m))) (s_id (d_s d))) eqn:Es; cbn [negb] in H.
    2:{ apply R in H as ->. eapply Because_session; eauto. intros X. rewrite X in Es. rewrite (proj2 (bytes_eqb_spec _ _) eq_refl) in Es. discriminate. }
    apply bytes_eqb_spec in Es. rewrite Es in C.
    destruct (simultaneous_rounds _ _) as [acc|x|] eqn:Esim; [|discriminate|discriminate].
    destruct (eqb_spec (m_round (sp_meta (msg_direct m))) (s_round_id (d_s d))) as [Er|Er].
    - destruct (mem from (a_processing (d_a d))) eqn:Ep.
      + apply R in H as ->. apply (h_processing Hh) in Ep as (m0 & vm0 & Hp). rewrite Er in C. eapply Because_second; eauto.
      + destruct (verify_message _ _) as [vm|[]|] eqn:Ev; try discriminate.
        * unfold mark_processing in H. cbn zeta in H. destruct (mem (vm_from vm) _); discriminate.
        * apply R in H as ->. apply Because_format. exact (verify_error _ _ Ev).
        * apply R in H as ->. apply Because_signature. exact (verify_error _ _ Ev).
    - destruct (mem (m_round (sp_meta (msg_direct m))) acc) eqn:Ea.
      2:{ apply R in H as ->. eapply Because_round; eauto. intros Hact.
          enough (X : mem (m_round (sp_meta (msg_direct m))) acc = true) by congruence. apply (simultaneous_window _ _ Esim).
          unfold may_be_active in Hact. destruct (s_echo_info (d_s d)); unfold s_round_id in Hact; tauto. }
      destruct (message_is_cached (d_a d) from (m_round (sp_meta (msg_direct m)))) eqn:Ec.
      + apply R in H as ->. unfold message_is_cached in Ec. destruct (get from (a_cached (d_a d))) as [c|] eqn:Eg; [|discriminate].
        apply contains_get in Ec as [vm Ec]. destruct (proj1 (h_cached Hh from (m_round (sp_meta (msg_direct m))) vm)) as (m0 & H0 & H1 & _); [eauto|].
        eapply Because_second_cached; eauto.
      + destruct (verify_message _ _) as [vm|[]|] eqn:Ev; try discriminate.
        * unfold cache_message in H. cbn zeta in H. destruct (contains (m_round _) _); discriminate.
        * apply R in H as ->. apply Because_format. exact (verify_error _ _ Ev).
        * apply R in H as ->. apply Because_signature. exact (verify_error _ _ Ev).
  Qed.

  Lemma carries_two m sid rid sid' rid' : carries m sid rid -> carries m sid' rid' -> sid = sid' /\ rid = rid'.
  Proof. intros (H & _) (H' & _). rewrite H in H'. inv H'. auto. Qed.
  Lemma authentic_carries v sid rid m : message_authentic v sid rid m -> carries m sid rid.
  Proof. intros (_ & _ & _ & H). exact H. Qed.
  Lemma signed_format {k} v (p : SPart k) : part_signed v p -> deser_sig (sp_sig p) <> None.
  Proof. intros (mb & g & _ & H & _). congruence. Qed.

  Lemma reason_error d0 es d from m a' o e : d_a d0 = make_accumulator (d_s d0) -> run d0 es d -> in_round es ->
    preprocess_message (d_s d) (d_a d) from m = (a', Ok o) -> reason es d from m e -> exists e', o = PreError e'.
  Proof.
    intros Ha Hr Hin H Hre. destruct (round_hist Ha Hr Hin) as [Hh Es]. rewrite <- Es in Hh. clear Ha Hr Hin Es d0.
    apply preprocess_cases in H. inversion H as [Hb|x Hb Hl|x Hb|Hb Hau Hpr|rid0 Hb Hau Hne0 Hw Hmc]; subst; eauto; exfalso.
    - pose proof (authentic_carries Hau) as Hc. destruct Hau as (S1 & S2 & S3 & _).
      destruct Hre as [X|X|sid rid X Y|m0 vm0 X Y|rid m0 X Y Z W|rid X Y Z|X|X].
      + contradiction.
      + exact (X _ _ Hc).
      + destruct (carries_two X Hc). contradiction.
      + assert (Q : mem from (a_processing (d_a d)) = true) by (apply (h_processing Hh); eauto). congruence.
      + destruct (carries_two X Hc). contradiction.
      + destruct (carries_two X Hc). contradiction.
      + destruct X as [X|[X|X]]; revert X; now apply signed_format with (v := from).
      + tauto.
    - pose proof (authentic_carries Hau) as Hc. destruct Hau as (S1 & S2 & S3 & _).
      destruct Hre as [X|X|sid rid X Y|m0 vm0 X Y|rid m0 X Y Z W|rid X Y Z|X|X].
      + contradiction.
      + exact (X _ _ Hc).
      + destruct (carries_two X Hc). contradiction.
      + destruct (carries_two X Hc). congruence.
      + destruct (carries_two X Hc) as [_ ->]. assert (Q : In (EPre from m0 Cached) es) by auto.
        destruct (proj2 (h_cached Hh from rid0 (mkVMessage from (sp_meta (msg_direct m0)) (msg_direct m0) (msg_echo m0) (msg_normal m0)))) as (c & Q1 & Q2).
        { exists m0. split; auto. split; auto. unfold is_message_of. auto. }
        unfold message_is_cached in Hmc. rewrite Q1 in Hmc. unfold contains in Hmc. now rewrite Q2 in Hmc.
      + destruct (carries_two X Hc) as [_ ->]. apply Z. now apply window_active.
      + destruct X as [X|[X|X]]; revert X; now apply signed_format with (v := from).
      + tauto.
  Qed.
End Cause.

Section Reasons.
  Context {P : Params}.
  Context {Pr : Proto}.
  Lemma error_reason_round (d0 : DState Pr) es d from m a' e : round_start d0 -> run d0 es d -> in_round es ->
    preprocess_message (d_s d) (d_a d) from m = (a', Ok (PreError e)) -> reason es d from m e.
  Proof. intros H. apply error_reason. now apply round_start_fresh. Qed.
  Lemma reasons_round (d0 : DState Pr) es d from m a' o : round_start d0 -> run d0 es d -> in_round es ->
    preprocess_message (d_s d) (d_a d) from m = (a', Ok o) ->
    (exists e, o = PreError e) <-> exists e, reason es d from m e.
  Proof.
    intros H Hr Hin Hp. split.
    - intros [e ->]. exists e. eapply error_reason_round; eauto.
    - intros [e He]. eapply reason_error; eauto. now apply round_start_fresh.
  Qed.
End Reasons.
