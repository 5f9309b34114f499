(** Proofs about messages that are delivered more than once. *)
From Coq Require Import List NArith Bool.
From Verif Require Import Base BMap Errors RoundId Message Protocol Transcript Evidence Session Spec SpecCause MessageFacts SessionFacts RunFacts
  IntakeFacts RoundFacts HistoryFacts CauseFacts Network RunSync Driver SpecDriver DriverFacts Par SpecPar ParFacts SpecPerform PerformFacts SpecForge ForgeFacts SpecAgain.
Import ListNotations.
Set Implicit Arguments.

Section WithParams.
  Context {P : Params}.
  Context {Pr : Proto}.
  Implicit Types (s : Session Pr) (a : Accum Pr) (es : list (event Pr)).

  (** ** The session *)
  Lemma received_again (d0 : DState Pr) from m o d1 es d : plain_ids Pr -> (forall mt, ser_meta mt <> None) ->
    reachable d0 -> step d0 (EPre from m o) d1 -> run d1 es d -> in_round es ->
    exists e a', preprocess_message (d_s d) (d_a d) from m = (a', Ok (PreError e)) /\ banned (d_s d) a' from /\
      (a' = d_a d \/ only_notes (d_a d) from e a').
  Proof.
    intros Hp Hm Hre St Hr Hin.
    assert (Hre' : reachable d).
    { destruct Hre as (s & es0 & Hi & H0). exists s, ((es0 ++ [EPre from m o]) ++ es). split; [exact Hi|]. eapply run_app; [eapply run_snoc; eauto|exact Hr]. }
    destruct (reachable_round Hre) as (dr & er & Hs & R0 & In0).
    assert (R1 : run dr ((er ++ [EPre from m o]) ++ es) d) by (eapply run_app; [eapply run_snoc; eauto|exact Hr]).
    assert (In1 : in_round ((er ++ [EPre from m o]) ++ es)) by (apply in_round_app; split; [apply in_round_app; split; [exact In0|reflexivity]|exact Hin]).
    destruct (preprocess_total from m Hp Hm Hre') as (a' & o' & E).
    assert (Same : d_s d = d_s d0).
    { rewrite (in_round_session Hr Hin). inv St. reflexivity. }
    assert (Hin' : In (EPre from m o) ((er ++ [EPre from m o]) ++ es)) by (apply in_or_app; left; apply in_or_app; right; now left).
    assert (Rs : exists e, reason ((er ++ [EPre from m o]) ++ es) d from m e).
    { inversion St as [s a todo f m' a1 o1 Ep| | |]; subst. pose proof (preprocess_cases _ _ _ _ Ep) as C. cbn [d_s d_a] in *.
      assert (Bn : forall a2, a1 = a2 -> banned s a2 from -> exists e, reason ((er ++ [EPre from m o]) ++ es) d from m e).
      { intros a2 <- B. exists RE_Banned. apply Because_banned. destruct (errors_kept Hr) as (_ & _ & K & _). exact (K from B). }
      inversion C as [B|e B L|e B|B A Mp|rid B A Ne W Mc]; subst.
      - now apply (Bn a1).
      - eapply Bn; [reflexivity|]. right; right; right. exists e. apply get_insert_eq.
      - exists RE_DupThisRound. destruct A as (_ & _ & _ & A1 & A2 & A3). eapply Because_second; [|exact Hin']. unfold carries. auto.
      - exists RE_DupCached. destruct A as (_ & _ & _ & A1 & A2 & A3). eapply Because_second_cached; [unfold carries; eauto|exact Ne|exact Hin'|]. now rewrite A1. }
    apply (reasons_round from m Hs R1 In1 E) in Rs as [e ->]. exists e, a'. split; [exact E|].
    pose proof (preprocess_cases _ _ _ _ E) as C. inversion C as [B|e' B L|e' B|B A Mp|rid B A Ne W Mc]; subst.
    - auto.
    - split.
      + right; right; right. exists e. apply get_insert_eq.
      + right. unfold only_notes. cbn. repeat (split; [reflexivity|]). split; [apply get_insert_eq|]. intros u Hu. now apply get_insert_ne.
  Qed.

  (** ** From what a driver does to the history of its session *)
  Lemma snoc_eq {A} (l1 l2 l3 : list A) x y : l1 ++ x :: l2 = l3 ++ [y] -> (exists l4, l2 = l4 ++ [y] /\ l3 = l1 ++ x :: l4) \/ (l2 = [] /\ x = y /\ l3 = l1).
  Proof.
    destruct l2 as [|z l2 _] using rev_ind; intros E.
    - right. apply app_inj_tail in E as [-> ->]. auto.
    - left. change (l1 ++ x :: l2 ++ [z]) with (l1 ++ (x :: l2) ++ [z]) in E. rewrite app_assoc in E. apply app_inj_tail in E as [<- ->]. eauto.
  Qed.

  Lemma performs_received prompt r (d0 : DState Pr) es ls d : performs prompt r d0 es ls d -> forall l1 from m l2, ls = l1 ++ LIn from m :: l2 -> same_round l2 ->
    exists es1 d1 o d2 es2, run d0 es1 d1 /\ step d1 (EPre from m o) d2 /\ run d2 es2 d /\ in_round es2.
  Proof.
    intros H. assert (R : forall es ls d, performs prompt r d0 es ls d -> run d0 es d).
    { clear. intros es ls d H. induction H; try (eapply run_snoc; eauto; fail); auto; [constructor|].
      change [EPre from m (ToProcess vm); EProc vm] with ([EPre (Pr := Pr) from m (ToProcess vm)] ++ [EProc vm]). rewrite app_assoc.
      eapply run_snoc; [eapply run_snoc|]; eauto. }
    induction H as [|es ls d1 from m o d2 H IH St Pm|es ls d1 from m vm d2 d3 H IH Pm St1 St2|es ls d1 vm d2 H IH St|es ls d1 g dest m x d2 H IH Eg Em St|es ls d1 g d2 H IH Eg Sa St|es ls d1 H IH Pm];
      intros l1 f m0 l2 E Sr.
    - destruct l1; discriminate.
    - symmetry in E. apply snoc_eq in E as [(l4 & -> & ->)|(-> & E & ->)].
      + destruct (IH _ _ _ _ eq_refl) as (es1 & da & o1 & db & es2 & K1 & K2 & K3 & K4).
        { intros s X. apply (Sr s), in_or_app. auto. }
        exists es1, da, o1, db, (es2 ++ [EPre from m o]). split; auto. split; auto. split; [eapply run_snoc; eauto|]. apply in_round_app. split; auto. reflexivity.
      + inv E. exists es, d1, o, d2, []. split; [eapply R; eauto|]. split; auto. split; [constructor|reflexivity].
    - symmetry in E. apply snoc_eq in E as [(l4 & -> & ->)|(-> & E & ->)].
      + destruct (IH _ _ _ _ eq_refl) as (es1 & da & o1 & db & es2 & K1 & K2 & K3 & K4).
        { intros s X. apply (Sr s), in_or_app. auto. }
        exists es1, da, o1, db, ((es2 ++ [EPre from m (ToProcess vm)]) ++ [EProc vm]). split; auto. split; auto. split; [eapply run_snoc; [eapply run_snoc|]; eauto|].
        apply in_round_app. split; [apply in_round_app; split; auto|]; reflexivity.
      + inv E. exists es, d1, (ToProcess vm), d2, [EProc vm]. split; [eapply R; eauto|]. split; auto. split; [|reflexivity]. change [EProc vm] with ([] ++ [EProc (Pr := Pr) vm]). eapply run_snoc; [constructor|exact St2].
    - symmetry in E. apply snoc_eq in E as [(l4 & -> & ->)|(-> & E & ->)]; [|discriminate].
      destruct (IH _ _ _ _ eq_refl) as (es1 & da & o1 & db & es2 & K1 & K2 & K3 & K4).
      { intros s X. apply (Sr s), in_or_app. auto. }
      exists es1, da, o1, db, (es2 ++ [EProc vm]). split; auto. split; auto. split; [eapply run_snoc; eauto|]. apply in_round_app. split; auto. reflexivity.
    - symmetry in E. apply snoc_eq in E as [(l4 & -> & ->)|(-> & E & ->)]; [|discriminate].
      destruct (IH _ _ _ _ eq_refl) as (es1 & da & o1 & db & es2 & K1 & K2 & K3 & K4).
      { intros s X. apply (Sr s), in_or_app. auto. }
      exists es1, da, o1, db, (es2 ++ [EArt g dest x]). split; auto. split; auto. split; [eapply run_snoc; eauto|]. apply in_round_app. split; auto. reflexivity.
    - symmetry in E. change [LFinalize (d_s d1) (d_a d1); LEnter (d_s d2)] with ([LFinalize (d_s d1) (d_a d1)] ++ [LEnter (d_s d2)]) in E. rewrite app_assoc in E.
      apply snoc_eq in E as [(l4 & -> & _)|(_ & E & _)]; [|discriminate]. exfalso. apply (Sr (d_s d2)), in_or_app. right. now left.
    - symmetry in E. apply snoc_eq in E as [(l4 & -> & ->)|(-> & E & ->)]; [|discriminate].
      destruct (IH _ _ _ _ eq_refl) as (es1 & da & o1 & db & es2 & K1 & K2 & K3 & K4).
      { intros s X. apply (Sr s), in_or_app. auto. }
      exists es1, da, o1, db, es2. auto.
  Qed.

  Lemma split_enter (s0 : Session Pr) ls' l1 from m l2 : l1 ++ LIn from m :: l2 = LEnter s0 :: ls' -> exists l0, ls' = l0 ++ LIn from m :: l2.
  Proof. destruct l1 as [|b l1]; intros E; inv E. eauto. Qed.

  (** ** [run_session] *)
  Lemma drv_app r d l1 d1 l2 (d2 : Drv Pr) : drv_run r d l1 d1 -> drv_run r d1 l2 d2 -> drv_run r d (l1 ++ l2) d2.
  Proof. intros H1 H2. induction H2 as [d1|d1 l2 d2 i l3 d3 H2 IH St]; [now rewrite app_nil_r|]. rewrite app_assoc. econstructor; eauto. Qed.

  Lemma session_again r (s0 : Session Pr) l1 from m l2 s a : plain_ids Pr -> (forall mt, ser_meta mt <> None) -> initial s0 ->
    run_session r s0 (l1 ++ LIn from m :: l2) (DrvWait s a) -> same_round l2 -> can_finalize a = NotYet ->
    exists a', drv_step r (DrvWait s a) (IRecv from m) = Some ([LIn from m], DrvWait s a') /\ banned s a' from /\
      forall l3 s3 a3, drv_run r (DrvWait s a') l3 (DrvWait s3 a3) -> mem from (a_waiting a3) = true -> blocked r (DrvWait s3 a3).
  Proof.
    intros Hp Hm Hi H Sr Y. destruct (run_performs (x := DS s a []) H eq_refl) as (es & ls' & E & Pf). apply split_enter in E as (l0 & ->).
    destruct (performs_received Pf _ _ _ eq_refl Sr) as (es1 & d1 & o & d2 & es2 & R1 & St & R2 & In2).
    destruct (received_again (d0 := d1) (from := from) (m := m) (o := o) (d1 := d2) (es := es2) (d := DS s a []) Hp Hm) as (e & a' & Ep & Bn & _); auto.
    { exists s0, es1. auto. }
    cbn [d_s d_a] in Ep, Bn. exists a'.
    assert (Sd : drv_step r (DrvWait s a) (IRecv from m) = Some ([LIn from m], DrvWait s a')) by (cbn [drv_step]; rewrite Y, Ep; reflexivity).
    split; [exact Sd|]. split; [exact Bn|]. intros l3 s3 a3 R3 W l4 d4 R4 C.
    destruct H as (lx & Ex & Hx).
    assert (H' : run_session r s0 (LEnter s0 :: (lx ++ [LIn from m]) ++ l3) (DrvWait s3 a3)).
    { eexists. split; [reflexivity|]. eapply drv_app; [exact (drun_snoc (IRecv from m) Hx Sd)|exact R3]. }
    assert (B3 : banned s3 a3 from).
    { assert (I' : dinv (DrvWait s a')) by exact (proj1 (run_dinv (drun_snoc (IRecv from m) Hx Sd) (dinv_enter s0 []))).
      destruct (proj2 (run_dinv R3 I') (DS s a' []) (DS s3 a3 []) eq_refl eq_refl) as [es3 Q]. destruct (errors_kept Q) as (_ & _ & K & _). exact (K from Bn). }
    exact (session_waits_on Hi H' W B3 R4 C).
  Qed.

  (** ** [par_run_session] *)
  Lemma par_app r p l1 p1 l2 (p2 : Par Pr) : par_run r p l1 p1 -> par_run r p1 l2 p2 -> par_run r p (l1 ++ l2) p2.
  Proof. intros H1 H2. induction H2 as [p1|p1 l2 p2 act l3 p3 H2 IH St]; [now rewrite app_nil_r|]. rewrite app_assoc. econstructor; eauto. Qed.

  Lemma par_session_again r (s0 : Session Pr) l1 from m l2 x : plain_ids Pr -> (forall mt, ser_meta mt <> None) -> initial s0 ->
    par_session r s0 (l1 ++ LIn from m :: l2) (PRun x) -> same_round l2 -> listens x ->
    exists a', par_step r (PRun x) (AReceive from m) = Some ([LIn from m], PRun (set_acc x a')) /\ banned (pp_s x) a' from /\
      forall l3 z, par_run r (PRun (set_acc x a')) l3 (PRun z) -> lacks z from -> par_blocked r z.
  Proof.
    intros Hp Hm Hi H Sr (Ph & Hh & Y). destruct (par_performs H) as (es & ls' & todo & E & Pf & Hinc). apply split_enter in E as (l0 & ->).
    destruct (performs_received Pf _ _ _ eq_refl Sr) as (es1 & d1 & o & d2 & es2 & R1 & St & R2 & In2).
    destruct (received_again (d0 := d1) (from := from) (m := m) (o := o) (d1 := d2) (es := es2) (d := DS (pp_s x) (pp_a x) todo) Hp Hm) as (e & a' & Ep & Bn & _); auto.
    { exists s0, es1. auto. }
    cbn [d_s d_a] in Ep, Bn. exists a'.
    assert (Sd : par_step r (PRun x) (AReceive from m) = Some ([LIn from m], PRun (set_acc x a'))) by (cbn [par_step]; rewrite Hh, Ph, Y, Ep; reflexivity).
    split; [exact Sd|]. split; [exact Bn|]. intros l3 z R3 (Pz & W & N) l4 p4 R4 C.
    destruct H as (lx & Ex & Hx). pose proof (prun_snoc (AReceive from m) Hx Sd) as Hy.
    assert (H' : par_session r s0 (LEnter s0 :: (lx ++ [LIn from m]) ++ l3) (PRun z)) by (eexists; split; [reflexivity|eapply par_app; eauto]).
    assert (B3 : banned (pp_s z) (pp_a z) from).
    { assert (Iy : pinv r (set_acc x a')) by exact (prun_pinv Hy (pinv_enter r s0 [])).
      destruct (prun_sim R3 eq_refl eq_refl Iy (todo := handed (set_acc x a')) []) as (es3 & t & rest & Q & _); [now rewrite app_nil_r|].
      destruct (errors_kept Q) as (_ & _ & K & _). exact (K from Bn). }
    exact (par_session_waits_on Hi H' Pz W B3 N R4 C).
  Qed.
End WithParams.
