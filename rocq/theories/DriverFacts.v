(** Facts about session/tokio.rs [run_session]. *)
From Coq Require Import List NArith Bool Arith Lia Permutation.
From Verif Require Import Base BMap Errors RoundId Message Protocol Transcript Evidence Session Spec SpecCrypto
  MessageFacts SessionFacts RunFacts IntakeFacts RoundFacts FinalizeFacts HistoryFacts LocalFacts Network SpecNet NetFacts RunSync SpecSync QueueFacts
  RunSyncFacts Driver SpecDriver.
Import ListNotations.
Set Implicit Arguments.

Lemma stp_inj {A B} (x y : A) (u v : B) : Some (x, u) = Some (y, v) -> y = x /\ v = u.
Proof. now intros [= -> ->]. Qed.
Ltac stp E := apply stp_inj in E as [-> ->].

Section One.
  Context {P : Params}.
  Context {Pr : Proto}.
  Variable r : NetRng.

  Notation fresh s sent := (forall dest m, In (dest, m) sent -> exists g art, make_message s g dest = Ok (m, art)).
  Notation louts sent := (map (fun p => LOut (Pr := Pr) (fst p) (snd p)) sent).

  Ltac sf := split; [easy|split; [easy|split; [assumption|split]]].

  (** ** The order of things *)
  Definition cur (s : Session Pr) (l : list (dlabel Pr)) (d : Drv Pr) : Prop :=
    match d with
    | DrvSend s' a dest dests _ => s' = s /\ exists sent, l = louts sent /\
        elements (message_destinations s) = map fst sent ++ dest :: dests /\ fresh s sent
    | DrvApply s' _ _ _ | DrvWait s' _ => s' = s /\ exists sent rest, l = louts sent ++ rest /\
        elements (message_destinations s) = map fst sent /\ fresh s sent /\ forall x, In x rest -> plain_label x
    | DrvDone _ => sends_first s l
    end.
  Lemma cur_first s l d : cur s l d -> sends_first s l.
  Proof.
    destruct d as [s' a dest dests c|s' a vm c|s' a|o]; simpl; auto.
    - intros (_ & sent & H1 & H2 & H3). exists sent, (dest :: dests), []. rewrite app_nil_r. sf; [intros x []|auto].
    - intros (_ & sent & rest & H1 & H2 & H3 & H4). exists sent, [], rest. rewrite app_nil_r. auto 8.
    - intros (_ & sent & rest & H1 & H2 & H3 & H4). exists sent, [], rest. rewrite app_nil_r. auto 8.
  Qed.

  Lemma cur_apply s a c sent rest : elements (message_destinations s) = map fst sent -> fresh s sent ->
    (forall x : dlabel Pr, In x rest -> plain_label x) -> cur s (louts sent ++ rest) (drv_apply s a c).
  Proof. intros H1 H2 H3. destruct c; simpl; split; eauto 8. Qed.
  Lemma cur_send s a l c sent : elements (message_destinations s) = map fst sent ++ l -> fresh s sent ->
    cur s (louts sent) (drv_send s a l c).
  Proof.
    intros H1 H2. destruct l as [|u l]; simpl.
    - rewrite app_nil_r in H1. rewrite <- (app_nil_r (louts sent)). apply cur_apply; auto. intros x [].
    - split; eauto.
  Qed.
  Lemma cur_enter s c : cur s [] (drv_enter s c).
  Proof. unfold drv_enter. apply (@cur_send s _ _ c []); simpl; auto. contradiction. Qed.
  Lemma cur_done s o sent rest : elements (message_destinations s) = map fst sent -> fresh s sent ->
    (forall x : dlabel Pr, In x rest -> plain_label x) -> cur s (louts sent ++ rest) (DrvDone o).
  Proof. intros H1 H2 H3. simpl. exists sent, [], rest. rewrite app_nil_r. auto 8. Qed.
  Lemma plain_snoc (rest : list (dlabel Pr)) y : (forall x, In x rest -> plain_label x) -> plain_label y ->
    forall x, In x (rest ++ [y]) -> plain_label x.
  Proof. intros H1 H2 x Hx. apply in_app_iff in Hx as [Hx|[<-|[]]]; auto. Qed.

  Lemma step_cur s l d i ls d' : cur s l d -> drv_step r d i = Some (ls, d') ->
    cur s (l ++ ls) d' \/ exists ls0 s', ls = ls0 ++ [LEnter s'] /\ sends_first s (l ++ ls0) /\ cur s' [] d'.
  Proof.
    destruct d as [s' a dest dests c|s' a vm c|s' a|o]; cbn [cur drv_step]; try discriminate.
    - intros (-> & sent & -> & H2 & H3). destruct i; try discriminate; intros E.
      + destruct (make_message s _ dest) as [[m pa]|e|] eqn:Em; stp E.
        * left. assert (Hs : louts sent ++ [LOut (Pr := Pr) dest m] = louts (sent ++ [(dest, m)])) by now rewrite map_app.
          assert (Hf : fresh s (sent ++ [(dest, m)])).
          { intros u m' Hin. apply in_app_iff in Hin as [Hin|[E|[]]]; auto. inv E. eauto. }
          assert (Hd : elements (message_destinations s) = map fst (sent ++ [(dest, m)]) ++ dests) by (rewrite map_app; simpl; now rewrite <- app_assoc).
          rewrite Hs. destruct (acc_call (add_artifact a pa)) as [[a1 []]|e|]; cbn [drv_try fst cur].
          -- apply cur_send; auto.
          -- exists (sent ++ [(dest, m)]), dests, []. rewrite app_nil_r. sf; [intros x []|auto].
          -- exists (sent ++ [(dest, m)]), dests, []. rewrite app_nil_r. sf; [intros x []|auto].
        * left. simpl. exists sent, (dest :: dests), [LUnsent dest]. sf; [intros x [<-|[]]; exact I|]. right; right. simpl; eauto.
        * left. simpl. exists sent, (dest :: dests), [LUnsent dest]. sf; [intros x [<-|[]]; exact I|]. right; right. simpl; eauto.
      + assert (Hd : sends_first s (louts sent ++ [LUnsent dest])).
        { exists sent, (dest :: dests), [LUnsent dest]. sf; [intros x [<-|[]]; exact I|]. right; right. simpl; eauto. }
        stp E. left. destruct (make_message s _ dest) as [[m pa]|e|]; exact Hd.
    - intros (-> & sent & rest & -> & H2 & H3 & H4). destruct i; try discriminate. intros E. stp E. left. rewrite <- app_assoc.
      destruct (deliver_one s a vm); unfold drv_try; [apply cur_apply|apply cur_done|apply cur_done]; auto; apply plain_snoc; simpl; auto.
    - intros (-> & sent & rest & -> & H2 & H3 & H4). destruct (can_finalize a) eqn:Ec; destruct i as [| |from m| |]; try discriminate.
      + destruct (finalize_round s _ a) as [[rep|s1 c]|e|]; intros E; stp E.
        * left. rewrite <- app_assoc. apply cur_done; auto. apply plain_snoc; simpl; auto.
        * right. exists [LFinalize s a], s1. split; auto. split; [|apply cur_enter]. rewrite <- app_assoc. apply (@cur_done s (Err LE_Sign)); auto. apply plain_snoc; simpl; auto.
        * left. rewrite <- app_assoc. apply cur_done; auto. apply plain_snoc; simpl; auto.
        * left. rewrite <- app_assoc. apply cur_done; auto. apply plain_snoc; simpl; auto.
      + intros E. stp E. left. rewrite <- app_assoc. assert (Hp : forall x : dlabel Pr, In x (rest ++ [LIn from m]) -> plain_label x) by (apply plain_snoc; simpl; auto).
        destruct (acc_call _) as [[a1 o]|e|]; cbn [drv_try snd fst]; [|apply cur_done; auto|apply cur_done; auto].
        destruct o as [vm| |]; [destruct (deliver_one s a1 vm); cbn [drv_try]|..]; try (apply cur_done; now auto); split; eauto 8.
      + intros E. stp E. left. rewrite <- app_assoc. apply cur_done; auto. apply plain_snoc; simpl; auto.
      + intros E. stp E. left. rewrite <- app_assoc. apply cur_done; auto. intros x Hx. apply in_app_iff in Hx as [Hx|[<-|[<-|[]]]]; simpl; auto.
      + intros E. stp E. left. rewrite <- app_assoc. apply cur_done; auto. apply plain_snoc; simpl; auto.
  Qed.

  Lemma rounds_snoc (l : list (Session Pr * list (dlabel Pr))) s x : by_rounds (l ++ [(s, x)]) = by_rounds l ++ LEnter s :: x.
  Proof. unfold by_rounds. rewrite flat_map_app. simpl. now rewrite app_nil_r. Qed.

  Lemma run_rounds s0 ls d : run_session r s0 ls d -> exists rounds s l, ls = by_rounds (rounds ++ [(s, l)]) /\
    (forall s l, In (s, l) rounds -> sends_first s l) /\ cur s l d.
  Proof.
    intros (ls' & -> & Hr). remember (drv_enter s0 []) as d0 eqn:E0.
    induction Hr as [d|d ls d1 i lx d2 Hr IH Hs]; subst.
    - exists [], s0, []. rewrite rounds_snoc. split; auto. split; [contradiction|]. apply cur_enter.
    - destruct (IH eq_refl) as (rounds & s & l & E & H1 & H2). destruct (@step_cur _ _ _ i _ _ H2 Hs) as [H|(ls0 & s' & -> & Hf & Hc)].
      + exists rounds, s, (l ++ lx). split; auto. rewrite rounds_snoc in E |- *. rewrite app_comm_cons, E, <- app_assoc. reflexivity.
      + exists (rounds ++ [(s, l ++ ls0)]), s', []. split; [|split; auto].
        * rewrite !rounds_snoc in *. rewrite !app_assoc, app_comm_cons, app_comm_cons, E, <- !app_assoc. simpl. now rewrite <- app_assoc.
        * intros s1 l1 Hin. apply in_app_iff in Hin as [Hin|[E1|[]]]; auto. inv E1. exact Hf.
  Qed.

  Lemma session_sends_first s0 ls d : run_session r s0 ls d -> exists rounds : list (Session Pr * list (dlabel Pr)), ls = by_rounds rounds /\
    forall s l, In (s, l) rounds -> sends_first s l.
  Proof.
    intros H. destruct (run_rounds H) as (rounds & s & l & E & H1 & H2). exists (rounds ++ [(s, l)]). split; auto.
    intros s1 l1 Hin. apply in_app_iff in Hin as [Hin|[E1|[]]]; auto. inv E1. eapply cur_first; eauto.
  Qed.

  (** ** The driver only uses the session in the proper way *)
  Lemma made_msg (s : Session Pr) g u m pa : make_message s g u = Ok (m, pa) -> msg_dest m = u /\ fst pa = u.
  Proof.
    unfold make_message. destruct (rd_mk_direct _ _ _) as [[x y]|e|]; try discriminate. cbn [bind].
    unfold message_new. destruct (sign_part _ _ _ _ _ _); try discriminate. cbn [bind]. intros E. inv E. auto.
  Qed.
  Lemma acc_call_ok {B} (x : Accum Pr * res LocalError B) a b : acc_call x = Ok (a, b) -> x = (a, Ok b).
  Proof. destruct x as [a' [b'|e|]]; simpl; intros E; inv E; auto. Qed.
  Lemma deliver_ok (s : Session Pr) a vm a' : deliver_one s a vm = Ok a' -> add_processed s a (process_message s vm) = (a', Ok tt).
  Proof.
    unfold deliver_one. destruct (acc_call _) as [[a1 []]|e|] eqn:E; try discriminate. apply acc_call_ok in E. cbn [bind]. intros H. inv H. exact E.
  Qed.

  (** Which destinations still have to be sent to. *)
  Definition dinv (d : Drv Pr) : Prop :=
    match d with
    | DrvSend s a dest dests c => NoDup (dest :: dests) /\
        (forall u, In u (dest :: dests) -> mem u (message_destinations s) = true /\ contains u (a_artifacts a) = false) /\
        (forall u, mem u (message_destinations s) = true -> In u (dest :: dests) \/ contains u (a_artifacts a) = true)
    | DrvApply s a vm c => all_sent (DS s a []) = true
    | DrvWait s a => all_sent (DS s a []) = true
    | DrvDone _ => True
    end.
  Lemma all_sent_iff (s : Session Pr) a c : all_sent (DS s a c) = true <-> forall u, mem u (message_destinations s) = true -> contains u (a_artifacts a) = true.
  Proof.
    unfold all_sent. cbn [d_s d_a]. rewrite forallb_forall. split; intros H u Hu; apply H; now apply in_elements.
  Qed.
  Lemma dinv_apply (s : Session Pr) a c : all_sent (DS s a []) = true -> dinv (drv_apply s a c).
  Proof. destruct c; auto. Qed.
  Lemma dinv_send (s : Session Pr) a l c : NoDup l -> (forall u, In u l -> mem u (message_destinations s) = true /\ contains u (a_artifacts a) = false) ->
    (forall u, mem u (message_destinations s) = true -> In u l \/ contains u (a_artifacts a) = true) -> dinv (drv_send s a l c).
  Proof.
    intros H1 H2 H3. destruct l as [|u l]; [|split; auto]. apply dinv_apply. apply all_sent_iff. intros u Hu. destruct (H3 u Hu) as [[]|H]; auto.
  Qed.
  Lemma dinv_enter (s : Session Pr) c : dinv (drv_enter s c).
  Proof.
    apply dinv_send; [apply NoDup_elements| |].
    - intros u Hu. apply in_elements in Hu. split; auto.
    - intros u Hu. left. now apply in_elements.
  Qed.
  Lemma state_apply (s : Session Pr) a c : drv_state (drv_apply s a c) = Some (DS s a c).
  Proof. now destruct c. Qed.
  Lemma state_send (s : Session Pr) a l c : drv_state (drv_send s a l c) = Some (DS s a c).
  Proof. destruct l; auto. apply state_apply. Qed.

  (** What one step does to the session: a few API calls (none, when the driver stops). *)
  Lemma step_state d i ls d' : dinv d -> drv_step r d i = Some (ls, d') -> dinv d' /\
    forall x x', drv_state d = Some x -> drv_state d' = Some x' -> exists es, run x es x'.
  Proof.
    destruct d as [s a dest dests c|s a vm c|s a|o]; intros I; cbn [drv_step]; try discriminate.
    - destruct I as (Hnd & Hl & Hc). destruct i; try discriminate; intros E.
      + destruct (make_message s _ dest) as [[m pa]|e|] eqn:Em; stp E; try (split; [exact Logic.I|intros x x' _ E; discriminate E]).
        destruct (acc_call (add_artifact a pa)) as [[a1 []]|e|] eqn:Ea; cbn [drv_try fst]; try (split; [exact Logic.I|intros x x' _ E; discriminate E]).
        apply acc_call_ok in Ea. pose proof Ea as Ea0. apply add_artifact_ok in Ea as (_ & Ea1). pose proof (proj2 (made_msg _ _ _ Em)) as Hpa.
        assert (Harts : forall w, contains w (a_artifacts a1) = (eqb w dest || contains w (a_artifacts a))%bool).
        { intros w. rewrite Ea1. cbn [set_artifacts a_artifacts]. now rewrite contains_insert, Hpa. }
        apply NoDup_cons_iff in Hnd as [Hn Hnd]. split.
        * apply dinv_send; auto.
          -- intros u Hu. destruct (Hl u (or_intror Hu)) as [H1 H2]. split; auto. rewrite Harts, H2, orb_false_r. apply eqb_neq. intros ->. congruence.
          -- intros u Hu. rewrite Harts. destruct (Hc u Hu) as [[<-|H]|H]; auto; right; [now rewrite eqb_refl|now rewrite H, orb_true_r].
        * destruct pa as [u art]. cbn [fst] in Hpa. subst u. intros x x' E E'. apply some_inj in E. rewrite state_send in E'. apply some_inj in E'. subst x x'. eexists. eapply run_one.
          eapply step_art; eauto. apply Hl. now left.
      + stp E. destruct (make_message s _ dest) as [[m pa]|e|]; (split; [exact Logic.I|intros x x' _ E; discriminate E]).
    - destruct i; try discriminate. intros E. stp E. destruct (deliver_one s a vm) as [a1|e|] eqn:Ed; cbn [drv_try]; try (split; [exact Logic.I|intros x x' _ E; discriminate E]).
      apply deliver_ok in Ed. split.
      + apply dinv_apply. apply all_sent_iff. rewrite (processed_arts _ _ _ Ed). apply (all_sent_iff s a []). exact I.
      + intros x x' E E'. inv E. rewrite state_apply in E'. inv E'. eexists. eapply run_one. exact (@step_proc _ _ s a [] vm c _ Ed).
    - destruct (can_finalize a) eqn:Ec; destruct i as [| |from m| |]; try discriminate.
      + destruct (finalize_round s _ a) as [[rep|s1 c]|e|] eqn:Ef; intros E; stp E; try (split; [exact Logic.I|intros x x' _ E; discriminate E]).
        split; [apply dinv_enter|]. intros x x' E E'. inv E. unfold drv_enter in E'. rewrite state_send in E'. inv E'. eexists. eapply run_one.
        eapply step_fin; eauto.
      + intros E. stp E. destruct (acc_call (preprocess_message s a from m)) as [[a1 o]|e|] eqn:Ep; cbn [drv_try snd fst]; try (split; [exact Logic.I|intros x x' _ E; discriminate E]).
        apply acc_call_ok in Ep. pose proof (preprocessed_arts _ _ _ _ Ep) as Ha1. assert (I1 : all_sent (DS s a1 []) = true).
        { apply all_sent_iff. rewrite Ha1. apply (all_sent_iff s a []). exact I. }
        destruct o as [vm| |].
        * destruct (deliver_one s a1 vm) as [a2|e|] eqn:Ed; cbn [drv_try]; try (split; [exact Logic.I|intros x x' _ E; discriminate E]).
          apply deliver_ok in Ed. split; [cbn [dinv]; apply all_sent_iff; rewrite (processed_arts _ _ _ Ed); now apply (all_sent_iff s a1 [])|].
          intros x x' E E'. inv E. inv E'. eexists. eapply run_snoc; [eapply run_one; exact (@step_pre _ _ s a [] from m _ _ Ep)|]. exact (@step_proc _ _ s a1 [] vm [] _ Ed).
        * split; [exact I1|]. intros x x' E E'. inv E. inv E'. eexists. eapply run_one. exact (@step_pre _ _ s a [] from m _ _ Ep).
        * split; [exact I1|]. intros x x' E E'. inv E. inv E'. eexists. eapply run_one. exact (@step_pre _ _ s a [] from m _ _ Ep).
      + intros E. stp E. split; [exact Logic.I|intros x x' _ E; discriminate E].
      + intros E. stp E. split; [exact Logic.I|intros x x' _ E; discriminate E].
      + intros E. stp E. split; [exact Logic.I|intros x x' _ E; discriminate E].
  Qed.

  Lemma run_dinv d ls d' : drv_run r d ls d' -> dinv d -> dinv d' /\
    forall x x', drv_state d = Some x -> drv_state d' = Some x' -> exists es, run x es x'.
  Proof.
    intros H. induction H as [d|d ls d1 i lx d2 Hr IH Hs]; intros I.
    - split; auto. intros x x' E E'. rewrite E in E'. inv E'. exists []. constructor.
    - destruct (IH I) as [I1 H1]. destruct (@step_state _ i _ _ I1 Hs) as [I2 H2]. split; auto. intros x x' E E'.
      destruct (drv_state d1) as [x1|] eqn:E1; [|destruct d1; discriminate].
      destruct (H1 x x1 E eq_refl) as [es1 R1]. destruct (H2 x1 x' eq_refl E') as [es2 R2]. exists (es1 ++ es2). eapply run_app; eauto.
  Qed.
  Lemma session_dinv (s0 : Session Pr) ls d : run_session r s0 ls d -> dinv d.
  Proof. intros (ls' & _ & H). exact (proj1 (run_dinv H (dinv_enter s0 []))). Qed.
  Lemma session_state (s0 : Session Pr) ls d x : initial s0 -> run_session r s0 ls d -> drv_state d = Some x -> reachable x.
  Proof.
    intros Hi (ls' & _ & H) Hx. destruct (proj2 (run_dinv H (dinv_enter s0 [])) (start s0) x) as [es R]; auto.
    - unfold drv_enter. apply state_send.
    - exists s0, es. auto.
  Qed.

  (** ** What ends a round *)
  Lemma step_finalizes (d : Drv Pr) i ls d' s a : drv_step r d i = Some (ls, d') -> In (LFinalize s a) ls -> d = DrvWait s a /\ can_finalize a = Yes.
  Proof.
    destruct d as [s' a' dest dests c|s' a' vm c|s' a'|o]; cbn [drv_step]; try discriminate.
    - destruct i; try discriminate; intros E; [destruct (make_message s' _ dest) as [[m pa]|e|]|]; stp E; intros [E|[]]; discriminate E.
    - destruct i; try discriminate. intros E. stp E. intros [E|[]]; discriminate E.
    - destruct (can_finalize a') eqn:Ec; destruct i; try discriminate.
      + destruct (finalize_round s' _ a') as [[rep|s1 c]|e|]; intros E; stp E; intros [E|H]; try (now inv E); try contradiction; [].
        destruct H as [E|[]]; discriminate E.
      + intros E. stp E. intros [E|[]]; discriminate E.
      + intros E. stp E. intros [E|[]]; discriminate E.
      + intros E. stp E. intros [E|[E|[]]]; discriminate E.
      + intros E. stp E. intros [E|[]]; discriminate E.
  Qed.
  Lemma step_gives_up (d : Drv Pr) i ls d' s a : drv_step r d i = Some (ls, d') -> In (LGiveUp s a) ls ->
    d = DrvWait s a /\ (can_finalize a = Never \/ In LCancel ls) /\ d' = DrvDone (terminate_due_to_errors s a).
  Proof.
    destruct d as [s' a' dest dests c|s' a' vm c|s' a'|o]; cbn [drv_step]; try discriminate.
    - destruct i; try discriminate; intros E; [destruct (make_message s' _ dest) as [[m pa]|e|]|]; stp E; intros [E|[]]; discriminate E.
    - destruct i; try discriminate. intros E. stp E. intros [E|[]]; discriminate E.
    - destruct (can_finalize a') eqn:Ec; destruct i; try discriminate.
      + destruct (finalize_round s' _ a') as [[rep|s1 c]|e|]; intros E; stp E; intros [E|H]; try (discriminate E); try contradiction; [].
        destruct H as [E|[]]; discriminate E.
      + intros E. stp E. intros [E|[]]; discriminate E.
      + intros E. stp E. intros [E|[]]; discriminate E.
      + intros E. stp E. intros [E|[E|[]]]; [discriminate E|]. inv E. split; auto. split; auto. right. now left.
      + intros E. stp E. intros [E|[]]. inv E. auto.
  Qed.
  Lemma session_label (s0 : Session Pr) ls d x : run_session r s0 ls d -> In x ls -> (forall s, x <> LEnter s) ->
    exists l1 d1 i l2 d2 l3, run_session r s0 l1 d1 /\ drv_step r d1 i = Some (l2, d2) /\ In x l2 /\ ls = l1 ++ l2 ++ l3.
  Proof.
    intros (ls' & -> & H) [E|Hin] Hx; [destruct (Hx s0); auto|]. remember (drv_enter s0 []) as d0 eqn:E0.
    induction H as [d|d ls d1 i lx d2 Hr IH Hs]; [contradiction|]. subst. apply in_app_iff in Hin as [Hin|Hin].
    - destruct (IH eq_refl Hin) as (l1 & e1 & j & l2 & e2 & l3 & H1 & H2 & H3 & E). exists l1, e1, j, l2, e2, (l3 ++ lx).
      split; auto. split; auto. split; auto. rewrite app_comm_cons, E, <- !app_assoc. reflexivity.
    - exists (LEnter s0 :: ls), d1, i, lx, d2, []. rewrite app_nil_r. split; [now exists ls|auto].
  Qed.

  Lemma session_finalizes (s0 : Session Pr) ls d s a : initial s0 -> run_session r s0 ls d -> In (LFinalize s a) ls ->
    can_finalize a = Yes /\ reachable (DS s a []) /\ forall u, mem u (message_destinations s) = true -> contains u (a_artifacts a) = true.
  Proof.
    intros Hi Hr Hin. destruct (session_label Hr Hin) as (l1 & d1 & i & l2 & d2 & l3 & H1 & H2 & H3 & _); [discriminate|].
    destruct (@step_finalizes _ i _ _ _ _ H2 H3) as [-> Hy]. split; auto. split; [exact (session_state Hi H1 eq_refl)|].
    apply (all_sent_iff s a []). exact (session_dinv H1).
  Qed.
  Lemma session_gives_up (s0 : Session Pr) ls d s a : initial s0 -> run_session r s0 ls d -> In (LGiveUp s a) ls ->
    (can_finalize a = Never \/ In LCancel ls) /\ reachable (DS s a []) /\ d = DrvDone (terminate_due_to_errors s a).
  Proof.
    intros Hi (ls' & -> & H) Hin. destruct Hin as [E|Hin]; [discriminate|]. remember (drv_enter s0 []) as d0 eqn:E0.
    induction H as [d|d ls d1 i lx d2 Hr IH Hs]; [contradiction|]. subst. apply in_app_iff in Hin as [Hin|Hin].
    - destruct (IH eq_refl Hin) as (_ & _ & ->). discriminate.
    - destruct (@step_gives_up _ i _ _ _ _ Hs Hin) as (-> & Hc & ->). split; [destruct Hc; [now left|]; right; right; apply in_app_iff; auto|].
      split; auto. exact (session_state Hi (ex_intro _ ls (conj eq_refl Hr)) eq_refl).
  Qed.

  (** ** Reports *)
  Lemma step_returns (d : Drv Pr) i ls rep : drv_step r d i = Some (ls, DrvDone (Ok rep)) -> exists s a, d = DrvWait s a /\
    ((ls = [LFinalize s a] /\ exists g, finalize_round s g a = Ok (ROFinished rep)) \/
     (In (LGiveUp s a) ls /\ terminate_due_to_errors s a = Ok rep)).
  Proof.
    assert (Happly : forall (s : Session Pr) a c, drv_apply s a c <> DrvDone (Ok rep)) by (intros s a [|]; discriminate).
    assert (Hsend : forall (s : Session Pr) a l c, drv_send s a l c <> DrvDone (Ok rep)) by (intros s a [|] c; [apply Happly|discriminate]).
    destruct d as [s a dest dests c|s a vm c|s a|o]; cbn [drv_step]; try discriminate.
    - destruct i; try discriminate; intros E.
      + destruct (make_message s _ dest) as [[m pa]|e|]; apply stp_inj in E as [_ E]; try discriminate E. destruct (acc_call _) as [y|e|]; cbn [drv_try] in E; try discriminate E.
        destruct (Hsend s (fst y) dests c). auto.
      + apply stp_inj in E as [_ E]. destruct (make_message s _ dest) as [[m pa]|e|]; discriminate E.
    - destruct i; try discriminate; intros E. apply stp_inj in E as [_ E]. destruct (deliver_one s a vm); try discriminate E. destruct (Happly s a0 c). auto.
    - intros E. exists s, a. split; auto. destruct (can_finalize a) eqn:Ec; destruct i; try discriminate.
      + left. destruct (finalize_round s _ a) as [[rep'|s1 c]|e|] eqn:Ef; apply stp_inj in E as [-> E]; try discriminate E.
        * inv E. eauto.
        * destruct (Hsend s1 (make_accumulator s1) (elements (message_destinations s1)) c). auto.
      + apply stp_inj in E as [_ E]. destruct (acc_call _) as [[a1 o]|e|]; cbn [drv_try snd fst] in E; try discriminate E.
        destruct o as [vm| |]; [|discriminate E|discriminate E]. destruct (deliver_one s a1 vm); discriminate E.
      + right. apply stp_inj in E as [-> E]. inv E. split; auto. right. now left.
      + right. apply stp_inj in E as [-> E]. inv E. split; auto. now left.
  Qed.

  Lemma run_last (d : Drv Pr) ls d' : drv_run r d ls d' -> d = d' \/ exists l1 d1 i l2, drv_run r d l1 d1 /\ drv_step r d1 i = Some (l2, d') /\ ls = l1 ++ l2.
  Proof. intros []; auto. right. eauto 10. Qed.

  (** Everything recorded at any time during the run is in the report. *)
  Lemma session_reports (s0 : Session Pr) l1 d1 x l2 rep : initial s0 -> run_session r s0 l1 d1 -> drv_state d1 = Some x ->
    drv_run r d1 l2 (DrvDone (Ok rep)) ->
    (forall v e, has_evidence x v e -> get v (rep_provable rep) = Some e) /\
    (forall v, has_unprovable x v -> exists e, get v (rep_unprovable rep) = Some e).
  Proof.
    intros Hi H1 Hx H2. pose proof (session_dinv H1) as I1.
    destruct (run_last H2) as [->|(la & da & i & lb & Ha & Hs & _)]; [discriminate Hx|].
    destruct (@step_returns _ i _ _ Hs) as (s & a & -> & He). destruct (run_dinv Ha I1) as [_ HR]. destruct (HR x (DS s a []) Hx eq_refl) as [es R].
    destruct (errors_kept R) as (_ & _ & _ & K). apply K. destruct He as [(_ & g & Hf)|(_ & Ht)]; [left; now exists g|right; right; exact Ht].
  Qed.

  Lemma finished_main (rd : Round Pr) g x : forall ps arts, rd_finalize rd g ps arts = Ok (Finished_ x) ->
    exists ps' arts', finalize Pr (main_state rd) g ps' arts' = Ok (Finished_ x).
  Proof.
    induction rd as [st|v echos info main IH ps0 arts0]; intros ps arts; cbn [rd_finalize main_state]; [|apply IH].
    intros H. apply bind_ok in H as (ps' & _ & H). apply bind_ok in H as (arts' & _ & H). eauto.
  Qed.

  Lemma session_result (s0 : Session Pr) ls rep x : initial s0 -> run_session r s0 ls (DrvDone (Ok rep)) -> rep_outcome rep = OResult x ->
    exists s a ls0, ls = ls0 ++ [LFinalize s a] /\
      exists g ps arts, finalize Pr (main_state (s_round s)) g ps arts = Ok (Finished_ x).
  Proof.
    intros Hi (ls' & -> & H) Hx. destruct (run_last H) as [E|(la & da & i & lb & Ha & Hs & ->)].
    { assert (Hst : drv_state (drv_enter s0 []) = Some (start s0)) by (unfold drv_enter; apply state_send). rewrite E in Hst. discriminate. }
    destruct (@step_returns _ i _ _ Hs) as (s & a & -> & [(-> & g & Hf)|(_ & Ht)]).
    - exists s, a, (LEnter s0 :: la). split; auto. apply finalize_finished in Hf as (t & y & _ & _ & Hf & ->).
      cbn [rep_outcome report_new] in Hx. inv Hx. apply finished_main in Hf as (ps & arts & Hf). eauto.
    - unfold terminate_due_to_errors, terminate_inner in Ht. apply bind_ok in Ht as (t & _ & Ht). inv Ht. discriminate.
  Qed.

  (** ** Cancellation *)
  Lemma not_echo_fresh d0 : round_start (Pr := Pr) d0 -> ~ in_echo_round (d_s d0) ->
    forall vm, In vm (d_todo d0) -> ~ banned (d_s d0) (d_a d0) (vm_from vm).
  Proof.
    intros [(s & _ & ->)|(s & a & todo & g & s' & c & _ & _ & Hf & ->)] He vm; [contradiction|]. cbn [d_todo d_s d_a].
    apply finalize_another in Hf as [t info echos _ _ _ C _|t st _ _ _ _ C ->].
    - destruct He. unfold in_echo_round. cbn [d_s]. rewrite (cr_round C). eauto 10.
    - intros Hin. apply filter_In in Hin as [_ Hb]. intros B. assert (Hb' : tr_is_banned t (vm_from vm) = true); [|rewrite Hb' in Hb; discriminate].
      unfold tr_is_banned. unfold banned in B. rewrite (cr_tr C) in B. cbn [make_accumulator a_provable a_unprovable] in B. rewrite !get_empty in B.
      apply orb_true_iff. destruct B as [[e B]|[[e B]|[[e B]|[e B]]]]; try discriminate B; [left|right]; apply contains_get; eauto.
  Qed.

  Lemma cancel_reports (s0 : Session Pr) ls s a : initial s0 -> run_session r s0 ls (DrvWait s a) -> can_finalize a = NotYet ->
    ~ in_echo_round s -> contains (s_round_id s) (tr_echo (s_tr s)) = false ->
    exists rep, drv_step r (DrvWait s a) ICancel = Some ([LCancel; LGiveUp s a], DrvDone (Ok rep)).
  Proof.
    intros Hi Hr Hc He Hn. pose proof (session_state Hi Hr eq_refl) as Hre. destruct (reachable_round Hre) as (d0 & es & Hs & R & Hin).
    pose proof (in_round_session R Hin) as Hss. cbn [d_s] in Hss.
    destruct (can_terminate Hs R Hin) as [_ [rep E]]; auto.
    - apply not_echo_fresh; auto. rewrite <- Hss. exact He.
    - cbn [d_s d_a] in E. exists rep. cbn [drv_step]. now rewrite Hc, E.
  Qed.
End One.
