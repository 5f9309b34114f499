(** Proofs about parties that are given different session ids. *)
From Coq Require Import List NArith Bool Lia.
From Verif Require Import Base BMap Errors RoundId Message Protocol Transcript Evidence Session Spec SpecCrypto MessageFacts SignFacts SessionFacts RunFacts
  IntakeFacts RoundFacts FinalizeFacts HistoryFacts WorldFacts Network RunSync Driver SpecDriver DriverFacts Par SpecPar ParFacts SpecForge ForgeFacts SpecAgain AgainFacts
  SpecPerform PerformFacts LateFacts.
Import ListNotations.
Set Implicit Arguments.

Section WithParams.
  Context {P : Params}.
  Context {Pr : Proto}.
  Implicit Types (s : Session Pr) (a : Accum Pr).

  (** ** A message made under another id *)
  Lemma made_meta {Pr1 : Proto} (d1 : DState Pr1) g dest m art : reachable d1 -> signatures_correct P -> make_message (d_s d1) g dest = Ok (m, art) ->
    sp_meta (msg_direct m) = mkMeta (s_id (d_s d1)) (s_round_id (d_s d1)) /\ sp_meta (msg_echo m) = sp_meta (msg_direct m) /\
    sp_meta (msg_normal m) = sp_meta (msg_direct m).
  Proof. intros Hre Hc Hm. destruct (@made_message _ _ _ _ _ _ _ Hre Hc Hm) as ((_ & _ & _ & M & ME & MN) & _). rewrite M, ME, MN. auto. Qed.

  Lemma other_id {Pr1 : Proto} (d1 : DState Pr1) g dest m art s a from : reachable d1 -> signatures_correct P ->
    make_message (d_s d1) g dest = Ok (m, art) -> s_id (d_s d1) <> s_id s -> ~ banned s a from ->
    exists a', preprocess_message s a from m = (a', Ok (PreError RE_SessionId)) /\ only_notes a from RE_SessionId a'.
  Proof.
    intros Hre Hc Hm Ne Nb. destruct (@made_meta _ d1 _ _ _ _ Hre Hc Hm) as (M & ME & MN).
    exists (noted a from RE_SessionId). split.
    - unfold preprocess_message. rewrite (proj2 (banned_false _ _ _) Nb). unfold unify_metadata. rewrite ME, MN, (proj2 (meta_eqb_spec _ _) eq_refl). cbn [negb cm_meta].
      rewrite M. cbn [m_session]. destruct (bytes_eqb (s_id (d_s d1)) (s_id s)) eqn:E; [apply bytes_eqb_spec in E; congruence|]. cbn [negb]. exact (reject_ok _ Nb).
    - unfold only_notes, noted. cbn. repeat (split; [reflexivity|]). split; [apply get_insert_eq|]. intros u Hu. now apply get_insert_ne.
  Qed.

  Lemma other_id_banned {Pr1 : Proto} (d1 : DState Pr1) g dest m art s a from : reachable d1 -> signatures_correct P ->
    make_message (d_s d1) g dest = Ok (m, art) -> s_id (d_s d1) <> s_id s ->
    exists e a', preprocess_message s a from m = (a', Ok (PreError e)) /\ banned s a' from.
  Proof.
    intros Hre Hc Hm Ne. destruct (tr_is_banned (s_tr s) from || a_is_banned a from)%bool eqn:Eb; [apply banned_bool in Eb | apply banned_false in Eb].
    - exists RE_Banned, a. split; [now apply banned_inert|exact Eb].
    - destruct (@other_id _ d1 _ _ _ _ s a from Hre Hc Hm Ne Eb) as (a' & Ep & No). exists RE_SessionId, a'. split; [exact Ep|]. eapply only_notes_banned; eauto.
  Qed.

  Lemma kept_id s es d : initial s -> run (start s) es d -> s_id (d_s d) = s_id s.
  Proof.
    intros Hi Hr. remember (start s) as d0 eqn:E. revert E. induction Hr as [d0|d0 es d1 e d2 H IH Hs]; intros ->; [reflexivity|].
    rewrite <- (IH eq_refl). apply (step_identity Hs). apply reachable_sinv. exists s, es. auto.
  Qed.

  (** ** What a session that expects somebody needs *)
  Lemma heard_signed s es1 d0 es2 d u : initial s -> run (start s) (es1 ++ es2) d -> round_start d0 -> run d0 es2 d -> in_round es2 -> heard es2 u ->
    exists m o, In (EPre u m o) (es1 ++ es2) /\ message_authentic u (s_id s) (s_round_id (d_s d)) m.
  Proof.
    intros Hi Hr Hs0 Hr2 Hin2 (vm & Hp & Hf).
    pose proof (event_proc _ Hr2 Hin2 (round_start_reachable Hs0) Hp) as (A1 & A2 & A3 & A4 & A5 & A6 & A7).
    rewrite <- (in_round_session Hr2 Hin2), (kept_id Hi Hr) in A4, A5, A6, A7.
    destruct (og_proc (run_origins Hr) vm) as (m & o & Ha & (_ & M1 & M2 & M3 & _)); [apply in_or_app; auto|].
    rewrite Hf in *. exists m, o. split; [exact Ha|]. unfold message_authentic. rewrite <- M1, <- M2, <- M3. auto 10.
  Qed.

  Lemma silent_party s es d u : initial s -> run (start s) es d -> expected (d_s d) u ->
    (forall m o, In (EPre u m o) es -> ~ message_authentic u (s_id s) (s_round_id (d_s d)) m) -> can_finalize (d_a d) = NotYet.
  Proof.
    intros Hi Hr He Hn. destruct (run_last_round Hi Hr) as (es1 & d0 & es2 & -> & Hs0 & Hr2 & Hin2).
    assert (Nh : ~ heard es2 u).
    { intros Hh. destruct (heard_signed _ Hi Hr Hs0 Hr2 Hin2 Hh) as (m & o & Ho & A). exact (Hn m o Ho A). }
    apply (can_finalize_meaning Hs0 Hr2 Hin2). split; [|eauto].
    intros K. destruct (K u He) as (p & vm & X & Y & _). apply Nh. exists vm. auto.
  Qed.

  Lemma yes_signed s es d u : initial s -> run (start s) es d -> can_finalize (d_a d) = Yes -> expected (d_s d) u ->
    exists m o, In (EPre u m o) es /\ message_authentic u (s_id s) (s_round_id (d_s d)) m.
  Proof.
    intros Hi Hr Y He. destruct (run_last_round Hi Hr) as (es1 & d0 & es2 & -> & Hs0 & Hr2 & Hin2).
    apply (heard_signed _ Hi Hr Hs0 Hr2 Hin2). destruct (proj1 (proj1 (can_finalize_meaning Hs0 Hr2 Hin2)) Y u He) as (p & vm & X & Z & _). exists vm. auto.
  Qed.

  (** ** The drivers *)
  Lemma performs_run prompt r d0 es ls d : performs prompt r d0 es ls d -> run (Pr := Pr) d0 es d.
  Proof.
    intros H. induction H; try (eapply run_snoc; eauto; fail); auto; [constructor|].
    change [EPre from m (ToProcess vm); EProc vm] with ([EPre (Pr := Pr) from m (ToProcess vm)] ++ [EProc vm]). rewrite app_assoc.
    eapply run_snoc; [eapply run_snoc|]; eauto.
  Qed.

  Lemma performs_in prompt r d0 es ls d from m o : performs (Pr := Pr) prompt r d0 es ls d -> In (EPre from m o) es -> In (LIn from m) ls.
  Proof.
    intros H. induction H; intros X; try contradiction; auto; try (apply in_app_or in X as [X|X]; apply in_or_app; [left; now auto|]);
      try (destruct X as [X|[]]; try discriminate X; inv X; right; left; reflexivity).
    - destruct X as [X|[X|[]]]; try discriminate X. inv X. right. left. reflexivity.
    - apply in_or_app. left. auto.
  Qed.

  Lemma performs_finalize prompt r d0 es ls d : performs (Pr := Pr) prompt r d0 es ls d -> forall l1 s a l2, ls = l1 ++ LFinalize s a :: l2 ->
    exists es1 d1, performs prompt r d0 es1 l1 d1 /\ d_s d1 = s /\ d_a d1 = a /\ can_finalize a = Yes.
  Proof.
    assert (S1 : forall (ls : list (dlabel Pr)) x l1 s a l2, ls ++ [x] = l1 ++ LFinalize s a :: l2 -> (forall s a, x <> LFinalize s a) -> exists l2', ls = l1 ++ LFinalize s a :: l2').
    { intros ls0 x l1 s a l2 E Nx. destruct (@exists_last _ (LFinalize s a :: l2)) as (l3 & y & E3); [discriminate|]. rewrite E3, app_assoc in E.
      apply app_inj_tail in E as [-> ->]. destruct l3 as [|z l3]; inv E3; [exfalso; eapply Nx; eauto|eauto]. }
    intros H. induction H; intros l1 s a l2 E.
    - destruct l1; discriminate.
    - apply S1 in E as [l2' E]; [eauto|discriminate].
    - apply S1 in E as [l2' E]; [eauto|discriminate].
    - apply S1 in E as [l2' E]; [eauto|discriminate].
    - apply S1 in E as [l2' E]; [eauto|discriminate].
    - change [LFinalize (d_s d1) (d_a d1); LEnter (d_s d2)] with ([LFinalize (d_s d1) (d_a d1)] ++ [LEnter (d_s d2)]) in E. rewrite app_assoc in E.
      apply S1 in E as [l2' E]; [|discriminate]. destruct l2' as [|y l2'].
      + apply app_inj_tail in E as [-> E]. inv E. exists es, d1. split; auto. split; auto. split; auto. inv H2. auto.
      + destruct (@exists_last _ (y :: l2')) as (l3 & z & E3); [discriminate|]. rewrite E3 in E.
        change (l1 ++ LFinalize s a :: l3 ++ [z]) with (l1 ++ (LFinalize s a :: l3) ++ [z]) in E. rewrite app_assoc in E.
        apply app_inj_tail in E as [E _]. eauto.
    - apply S1 in E as [l2' E]; [eauto|discriminate].
  Qed.

  Lemma performs_signed prompt r s0 es ls d u : initial s0 -> performs (Pr := Pr) prompt r (start s0) es ls d -> can_finalize (d_a d) = Yes -> expected (d_s d) u ->
    exists m, In (LIn u m) ls /\ message_authentic u (s_id s0) (s_round_id (d_s d)) m.
  Proof.
    intros Hi H Y He. destruct (yes_signed Hi (performs_run H) Y He) as (m & o & Ho & A). exists m. split; [|exact A]. eapply performs_in; eauto.
  Qed.

  Lemma snoc_cases {A} (k : list A) x l y l2 : k ++ [x] = l ++ y :: l2 -> k = l /\ x = y \/ exists l2', k = l ++ y :: l2'.
  Proof.
    destruct l2 as [|z l2] using rev_ind; intros E; [apply app_inj_tail in E; left; tauto|]. clear IHl2. right. exists l2.
    change (l ++ y :: l2 ++ [z]) with (l ++ (y :: l2) ++ [z]) in E. rewrite app_assoc in E. now apply app_inj_tail in E as [E _].
  Qed.

  Lemma called_signed prompt r s0 ls rep l1 s a l2 u : initial s0 -> called prompt r s0 ls rep -> ls = l1 ++ LFinalize s a :: l2 -> expected s u ->
    exists m, In (LIn u m) l1 /\ message_authentic u (s_id s0) (s_round_id s) m.
  Proof.
    intros Hi H E He. destruct (@called_closes _ _ r prompt s0 ls rep H) as (es & k1 & k2 & d & -> & Pf & Cl).
    assert (E' : exists l0, l1 = LEnter s0 :: l0 /\ k1 ++ k2 = l0 ++ LFinalize s a :: l2).
    { destruct l1 as [|x l0]; [discriminate|]. simpl in E. inv E. eauto. }
    destruct E' as (l0 & -> & E'). clear E.
    assert (K : (exists q, k1 = l0 ++ LFinalize s a :: q) -> exists m, In (LIn u m) (LEnter s0 :: l0) /\ message_authentic u (s_id s0) (s_round_id s) m).
    { intros [q Eq]. destruct (performs_finalize Pf _ _ _ _ Eq) as (es1 & d1 & Pf1 & <- & <- & Y).
      destruct (performs_signed Hi Pf1 Y He) as (m & X & A). exists m. split; [now right|exact A]. }
    destruct Cl as [(-> & Y & _)|([-> | ->] & _)].
    - apply snoc_cases in E' as [[-> E']|E']; [|auto]. inv E'. destruct (performs_signed Hi Pf Y He) as (m & X & A). exists m. split; [now right|exact A].
    - apply snoc_cases in E' as [[_ E']|E']; [discriminate E'|auto].
    - change (k1 ++ [LCancel; LGiveUp (d_s d) (d_a d)]) with (k1 ++ [LCancel] ++ [LGiveUp (d_s d) (d_a d)]) in E'. rewrite app_assoc in E'.
      apply snoc_cases in E' as [[_ E']|[l2' E']]; [discriminate E'|]. apply snoc_cases in E' as [[_ E']|E']; [discriminate E'|auto].
  Qed.

  Lemma performs_finalized prompt r s0 es k d l1 s a l2 u : initial s0 -> performs (Pr := Pr) prompt r (start s0) es k d ->
    LEnter s0 :: k = l1 ++ LFinalize s a :: l2 -> expected s u -> exists m, In (LIn u m) l1 /\ message_authentic u (s_id s0) (s_round_id s) m.
  Proof.
    intros Hi Pf E He. destruct l1 as [|x l0]; [discriminate|]. simpl in E. inv E.
    destruct (performs_finalize Pf _ _ _ _ eq_refl) as (es1 & d1 & Pf1 & <- & <- & Y).
    destruct (performs_signed Hi Pf1 Y He) as (m & X & A). exists m. split; [now right|exact A].
  Qed.

  Lemma running_signed r s0 ls d x l1 s a l2 u : initial s0 -> run_session r s0 ls d -> drv_state d = Some x -> ls = l1 ++ LFinalize s a :: l2 -> expected s u ->
    exists m, In (LIn u m) l1 /\ message_authentic u (s_id s0) (s_round_id s) m.
  Proof. intros Hi H Ed -> He. destruct (run_performs H Ed) as (es & k & E & Pf). eapply performs_finalized; eauto. Qed.

  Lemma par_running_signed r s0 ls x l1 s a l2 u : initial s0 -> par_session r s0 ls (PRun x) -> ls = l1 ++ LFinalize s a :: l2 -> expected s u ->
    exists m, In (LIn u m) l1 /\ message_authentic u (s_id s0) (s_round_id s) m.
  Proof. intros Hi H -> He. destruct (par_performs H) as (es & k & todo & E & Pf & _). eapply performs_finalized; eauto. Qed.

  Lemma session_other_id {Pr1 : Proto} (d1 : DState Pr1) g dest m art r (s0 : Session Pr) ls s a from : reachable d1 -> signatures_correct P ->
    make_message (d_s d1) g dest = Ok (m, art) -> s_id (d_s d1) <> s_id s -> initial s0 ->
    run_session r s0 ls (DrvWait s a) -> can_finalize a = NotYet ->
    exists a', drv_step r (DrvWait s a) (IRecv from m) = Some ([LIn from m], DrvWait s a') /\ banned s a' from /\
      forall l3 s3 a3, drv_run r (DrvWait s a') l3 (DrvWait s3 a3) -> mem from (a_waiting a3) = true -> blocked r (DrvWait s3 a3).
  Proof.
    intros Hre1 Hc Hmk Ne Hi H Y. pose proof (session_state Hi H eq_refl) as Hre.
    destruct (@other_id_banned _ d1 _ _ _ _ s a from Hre1 Hc Hmk Ne) as (e & a' & Ep & Bn). exists a'.
    assert (Sd : drv_step r (DrvWait s a) (IRecv from m) = Some ([LIn from m], DrvWait s a')) by (cbn [drv_step]; rewrite Y, Ep; reflexivity).
    split; [exact Sd|]. split; [exact Bn|]. intros l3 s3 a3 R3 W l4 d4 R4 C.
    destruct H as (lx & Ex & Hx).
    assert (H' : run_session r s0 (LEnter s0 :: (lx ++ [LIn from m]) ++ l3) (DrvWait s3 a3)).
    { eexists. split; [reflexivity|]. eapply drv_app; [exact (drun_snoc (IRecv from m) Hx Sd)|exact R3]. }
    assert (B3 : banned s3 a3 from).
    { assert (I' : dinv (DrvWait s a')) by exact (proj1 (run_dinv (drun_snoc (IRecv from m) Hx Sd) (dinv_enter s0 []))).
      destruct (proj2 (run_dinv R3 I') (DS s a' []) (DS s3 a3 []) eq_refl eq_refl) as [es3 Q]. destruct (errors_kept Q) as (_ & _ & K & _). exact (K from Bn). }
    exact (session_waits_on Hi H' W B3 R4 C).
  Qed.

  Lemma par_session_other_id {Pr1 : Proto} (d1 : DState Pr1) g dest m art r (s0 : Session Pr) ls x from : reachable d1 -> signatures_correct P ->
    make_message (d_s d1) g dest = Ok (m, art) -> s_id (d_s d1) <> s_id (pp_s x) -> initial s0 ->
    par_session r s0 ls (PRun x) -> listens x ->
    exists a', par_step r (PRun x) (AReceive from m) = Some ([LIn from m], PRun (set_acc x a')) /\ banned (pp_s x) a' from /\
      forall l3 z, par_run r (PRun (set_acc x a')) l3 (PRun z) -> lacks z from -> par_blocked r z.
  Proof.
    intros Hre1 Hc Hmk Ne Hi H (Ph & Hh & Y). destruct (par_state Hi H) as (todo & Hre & _).
    destruct (@other_id_banned _ d1 _ _ _ _ (pp_s x) (pp_a x) from Hre1 Hc Hmk Ne) as (e & a' & Ep & Bn). exists a'.
    assert (Sd : par_step r (PRun x) (AReceive from m) = Some ([LIn from m], PRun (set_acc x a'))) by (cbn [par_step]; rewrite Hh, Ph, Y, Ep; reflexivity).
    split; [exact Sd|]. split; [exact Bn|]. intros l3 z R3 (Pz & W & N) l4 p4 R4 C.
    destruct H as (lx & Ex & Hx). pose proof (prun_snoc (AReceive from m) Hx Sd) as Hy.
    assert (H' : par_session r s0 (LEnter s0 :: (lx ++ [LIn from m]) ++ l3) (PRun z)) by (eexists; split; [reflexivity|eapply par_app; eauto]).
    assert (B3 : banned (pp_s z) (pp_a z) from).
    { assert (Iy : pinv r (set_acc x a')) by exact (prun_pinv Hy (pinv_enter r s0 [])).
      destruct (prun_sim R3 eq_refl eq_refl Iy (todo := handed (set_acc x a')) []) as (es3 & t & rest & Q & _); [now rewrite app_nil_r|].
      destruct (errors_kept Q) as (_ & _ & K & _). exact (K from Bn). }
    exact (par_session_waits_on Hi H' Pz W B3 N R4 C).
  Qed.
End WithParams.
