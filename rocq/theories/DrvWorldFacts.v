(** Facts about honest parties that use [run_session], among dishonest parties. *)
From Coq Require Import List NArith Bool Lia.
From Verif Require Import Base BMap Errors RoundId Message Protocol Transcript Evidence Session Spec SpecCrypto SpecEvidence Network RunSync Driver
  SpecDriver SpecWorld SpecFrame SpecDrvWorld MessageFacts SessionFacts RunFacts FinalizeFacts HistoryFacts EchoFacts SignFacts RunSyncFacts DriverFacts WorldFacts RedirectFacts FrameFacts.
Import ListNotations.
Set Implicit Arguments.

Section WithParams.
  Context {P : Params}.
  Context {Pr : Proto}.
  Variable honest : Verifier -> Prop.

  (** What one step of the driver does to the session, as API calls. *)
  Inductive calls (x : DState Pr) (v : Verifier) : input -> list (Verifier * Message) -> option (DState Pr) -> Prop :=
  | calls_stop i : calls x v i [] None
  | calls_send i g dest m art x' : make_message (d_s x) g dest = Ok (m, (dest, art)) -> step x (EArt g dest art) x' ->
      calls x v i [(v, m)] (Some x')
  | calls_pre from m o x' : step x (EPre from m o) x' -> d_s x' = d_s x -> calls x v (IRecv from m) [] (Some x')
  | calls_both from m o x1 vm x' : step x (EPre from m o) x1 -> d_s x1 = d_s x -> step x1 (EProc vm) x' ->
      calls x v (IRecv from m) [] (Some x')
  | calls_local i e x' : ((exists vm, e = EProc vm) \/ (exists g, e = EFin g)) -> step x e x' -> calls x v i [] (Some x').

  Lemma step_calls r (d : Drv Pr) i ls d' x v : dinv d -> drv_step r d i = Some (ls, d') -> drv_state d = Some x ->
    calls x v i (outs v ls) (drv_state d').
  Proof.
    destruct d as [s a dest dests c|s a vm c|s a|o]; intros I; cbn [drv_step]; try discriminate.
    - destruct I as (Hnd & Hl & Hc). destruct i; try discriminate; intros E Ex.
      + destruct (make_message s _ dest) as [[m pa]|e|] eqn:Em; stp E; try (apply calls_stop).
        pose proof (proj2 (made_msg _ _ _ Em)) as Hpa. destruct pa as [u art]. cbn [fst] in Hpa. subst u.
        destruct (Hl dest (or_introl eq_refl)) as [Hm Hn].
        assert (Ea : exists a1, add_artifact a (dest, art) = (a1, Ok tt)).
        { unfold add_artifact. cbn [fst snd]. rewrite Hn. eauto. }
        destruct Ea as [a1 Ea]. rewrite Ea. unfold acc_call. cbn [drv_try fst snd bind]. rewrite state_send. apply some_inj in Ex. subst x.
        eapply calls_send; [exact Em|]. eapply step_art; eauto.
      + stp E. destruct (make_message s _ dest) as [[m pa]|e|]; apply calls_stop.
    - destruct i; try discriminate. intros E Ex. stp E. apply some_inj in Ex. subst x.
      destruct (deliver_one s a vm) as [a1|e|] eqn:Ed; cbn [drv_try]; try apply calls_stop.
      apply deliver_ok in Ed. rewrite state_apply. eapply calls_local; [left; eauto|]. exact (@step_proc _ _ s a [] vm c _ Ed).
    - destruct (can_finalize a) eqn:Ec; destruct i as [| |from m| |]; try discriminate.
      + destruct (finalize_round s _ a) as [[rep|s1 c]|e|] eqn:Ef; intros E Ex; stp E; try apply calls_stop.
        apply some_inj in Ex. subst x. unfold drv_enter. rewrite state_send. eapply calls_local; [right; eauto|]. eapply step_fin; eauto.
      + intros E Ex. stp E. apply some_inj in Ex. subst x.
        destruct (acc_call (preprocess_message s a from m)) as [[a1 o]|e|] eqn:Ep; cbn [drv_try snd fst]; try apply calls_stop.
        apply acc_call_ok in Ep. pose proof (@step_pre _ _ s a [] from m _ _ Ep) as S1. destruct o as [vm| |].
        * destruct (deliver_one s a1 vm) as [a2|e|] eqn:Ed; cbn [drv_try]; try apply calls_stop.
          apply deliver_ok in Ed. eapply calls_both; [exact S1|reflexivity|]. exact (@step_proc _ _ s a1 [] vm [] _ Ed).
        * eapply calls_pre; [exact S1|reflexivity].
        * eapply calls_pre; [exact S1|reflexivity].
      + intros E _. stp E. apply calls_stop.
      + intros E _. stp E. apply calls_stop.
      + intros E _. stp E. apply calls_stop.
  Qed.

  Definition upd (w : World Pr) v sid x sent seen : World Pr :=
    mkWorld (fun v' sid' => if ord_dec v' v then if bytes_dec sid' sid then Some x else w_node w v' sid' else w_node w v' sid') sent seen.
  Lemma upd_at w v sid x a b : w_node (upd w v sid x a b) v sid = Some x.
  Proof. simpl. destruct (ord_dec v v); [|congruence]. destruct (bytes_dec sid sid); congruence. Qed.
  Lemma upd_other w v sid x a b v' sid' : (v', sid') <> (v, sid) -> w_node (upd w v sid x a b) v' sid' = w_node w v' sid'.
  Proof. intros H. simpl. destruct (ord_dec v' v); auto. destruct (bytes_dec sid' sid); auto. congruence. Qed.
  Lemma upd_changes w v sid x a b : only_changes w (upd w v sid x a b) v sid x.
  Proof. split; [apply upd_at|intros; now apply upd_other]. Qed.
  Lemma upd_cases w v sid x a b v' sid' y : w_node (upd w v sid x a b) v' sid' = Some y ->
    ((v', sid') = (v, sid) /\ y = x) \/ ((v', sid') <> (v, sid) /\ w_node w v' sid' = Some y).
  Proof.
    simpl. destruct (ord_dec v' v) as [->|]; [destruct (bytes_dec sid' sid) as [->|]|]; intros E.
    - left. split; congruence.
    - right. split; [congruence|auto].
    - right. split; [congruence|auto].
  Qed.
  Lemma pair_dec (v v' : Verifier) (sid sid' : bytes) : {(v', sid') = (v, sid)} + {(v', sid') <> (v, sid)}.
  Proof. destruct (ord_dec v' v) as [->|]; [destruct (bytes_dec sid' sid) as [->|]|]; [now left|right; congruence|right; congruence]. Qed.

  Record like (dw : DWorld Pr) (w : World Pr) : Prop := {
    lk_inv : forall v sid d, dw_node dw v sid = Some d -> dinv d;
    lk_node : forall v sid d x, dw_node dw v sid = Some d -> drv_state d = Some x -> w_node w v sid = Some x;
    lk_done : forall v sid rep, dw_node dw v sid = Some (DrvDone (Ok rep)) -> exists x, w_node w v sid = Some x /\ ends_with x rep;
    lk_sent : w_sent w = dw_sent dw;
    lk_seen : incl (w_seen w) (dw_seen dw)
  }.

  Lemma drove_old (dw : DWorld Pr) dws u sid s : drove dws u sid s -> drove (dw :: dws) u sid s.
  Proof. intros (w & d & x & H & H1). exists w, d, x. split; auto. now right. Qed.

  (** The sessions of the drivers behave as in [wtrace]. *)
  Lemma simulated r (dw : DWorld Pr) dws : dwtrace honest r (dw :: dws) -> exists w ws, wtrace honest (w :: ws) /\ like dw w /\
    forall u sid d, was (w :: ws) u sid d -> drove (dw :: dws) u sid (d_s d).
  Proof.
    intros Ht. remember (dw :: dws) as l eqn:E. revert dw dws E. induction Ht as [dw0 H0|dw0 dws0 dw' Ht IH Hs]; intros dw dws E; inv E.
    - destruct H0 as (H1 & H2 & H3).
      exists (mkWorld (fun v sid => match dw_node dw v sid with Some d => drv_state d | None => None end) [] []), [].
      split; [constructor; split; [reflexivity|split; [reflexivity|]]|split].
      + simpl. intros v sid d Hd. destruct (dw_node dw v sid) as [d0|] eqn:Ed; [|discriminate].
        destruct (H3 _ _ _ Ed) as (Hh & s & Hi & Hv & Hid & ->). split; auto. exists s. unfold drv_enter in Hd. rewrite state_send in Hd.
        apply some_inj in Hd. subst d. auto.
      + constructor; simpl; auto.
        * intros v sid d Ed. destruct (H3 _ _ _ Ed) as (_ & s & _ & _ & _ & ->). apply dinv_enter.
        * intros v sid d x -> Hx. exact Hx.
        * intros v sid rep Ed. destruct (H3 _ _ _ Ed) as (_ & s & _ & _ & _ & E). exfalso. apply (f_equal drv_state) in E.
          unfold drv_enter in E. rewrite state_send in E. discriminate E.
        * intros m [].
      + intros u sid d (w & [<-|[]] & Hd). simpl in Hd. destruct (dw_node dw u sid) as [d0|] eqn:Ed; [|discriminate].
        exists dw, d0, d. split; [apply in_eq|auto].
    - destruct (IH _ _ eq_refl) as (w & ws & Hw & [Li Ln Lk Ls Le] & Hd). clear IH.
      destruct Hs as (v & sid & d & i & ls & d' & Ed & Est & Hu & Ed' & Ho & Es' & Ee').
      pose proof (Li _ _ _ Ed) as I. pose proof (proj1 (@step_state _ _ _ _ i _ _ I Est)) as I'.
      assert (Li' : forall v0 sid0 d0, dw_node dw v0 sid0 = Some d0 -> dinv d0).
      { intros v0 sid0 d0 H. destruct (pair_dec v v0 sid sid0) as [E|E]; [inv E; congruence|]. rewrite Ho in H by auto. eauto. }
      assert (Hx : exists x, drv_state d = Some x) by (destruct d; try discriminate Est; eexists; reflexivity). destruct Hx as [x Hx].
      pose proof (Ln _ _ _ _ Ed Hx) as Hwx.
      pose proof (@step_calls _ _ i _ _ x v I Est Hx) as HC.
      assert (Hinc : incl (dw_seen dw0) (dw_seen dw)).
      { rewrite Ee'. destruct i; intros m0 Hm0; auto. now right. }
      assert (Hold : forall u s0 y, was (w :: ws) u s0 y -> drove (dw :: dw0 :: dws0) u s0 (d_s y)) by (intros; apply drove_old; auto).
      (* one more state of this session *)
      assert (Hnew : forall x', drv_state d' = Some x' -> drove (dw :: dw0 :: dws0) v sid (d_s x')).
      { intros x' H. exists dw, d', x'. split; [apply in_eq|auto]. }
      assert (Hnode : forall w1 x' a b, drv_state d' = Some x' -> (forall v' s', (v', s') <> (v, sid) -> w_node w1 v' s' = w_node w v' s') ->
                forall v0 s0 d0 x0, dw_node dw v0 s0 = Some d0 -> drv_state d0 = Some x0 -> w_node (upd w1 v sid x' a b) v0 s0 = Some x0).
      { intros w1 x' a b H H1 v0 s0 d0 x0 H2 H3. destruct (pair_dec v v0 sid s0) as [E|E].
        - inv E. rewrite upd_at. congruence.
        - rewrite upd_other, H1 by auto. rewrite Ho in H2 by auto. eauto. }
      assert (Hdone : forall w1 x' a b, drv_state d' = Some x' -> (forall v' s', (v', s') <> (v, sid) -> w_node w1 v' s' = w_node w v' s') ->
                forall v0 s0 rep, dw_node dw v0 s0 = Some (DrvDone (Ok rep)) -> exists y, w_node (upd w1 v sid x' a b) v0 s0 = Some y /\ ends_with y rep).
      { intros w1 x' a b H H1 v0 s0 rep H2. destruct (pair_dec v v0 sid s0) as [E|E].
        - inv E. assert (E : d' = DrvDone (Ok rep)) by congruence. rewrite E in H. discriminate H.
        - rewrite upd_other, H1 by auto. rewrite Ho in H2 by auto. eauto. }
      assert (Hend : forall rep, d' = DrvDone (Ok rep) -> ends_with x rep).
      { intros rep ->. destruct (@step_returns _ _ _ _ i _ _ Est) as (s & a & -> & Hr). apply some_inj in Hx. subst x. unfold ends_with. cbn [d_s d_a].
        destruct Hr as [[_ H]|[_ H]]; auto. }
      assert (Hwas : forall w1 wl x' a b, drove (dw :: dw0 :: dws0) v sid (d_s x') -> In w1 wl ->
                (forall u s0 y, was wl u s0 y -> drove (dw :: dw0 :: dws0) u s0 (d_s y)) ->
                forall u s0 y, was (upd w1 v sid x' a b :: wl) u s0 y -> drove (dw :: dw0 :: dws0) u s0 (d_s y)).
      { intros w1 wl x' a b Hdr Hi1 H u s0 y (w2 & [<-|Hi] & Hy).
        - apply upd_cases in Hy as [[E ->]|[_ Hy]]; [inv E; auto|]. apply H. exists w1. auto.
        - apply H. exists w2. auto. }
      remember (outs v ls) as os eqn:Eo. remember (drv_state d') as od eqn:Eod. destruct HC as [i|i g dest m art x' Hm St|from m o x' St Eqs|from m o x1 vm x' St Eqs St2|i e x' He St].
      + exists w, ws. split; auto. split; auto. constructor; auto.
        * intros v0 s0 d0 x0 H H1. destruct (pair_dec v v0 sid s0) as [E|E]; [inv E; congruence|]. rewrite Ho in H by auto. eauto.
        * intros v0 s0 rep H. destruct (pair_dec v v0 sid s0) as [E|E]; [|rewrite Ho in H by auto; eauto].
          inv E. exists x. split; auto. apply Hend. congruence.
        * rewrite Es'. exact Ls.
        * intros m Hm. apply Hinc, Le, Hm.
      + exists (upd w v sid x' ((v, m) :: w_sent w) (w_seen w)), (w :: ws). split; [|split].
        * econstructor; eauto. eapply w_send; eauto. apply upd_changes.
        * constructor; [exact Li'|apply Hnode; auto|apply Hdone; auto| |].
          -- simpl. rewrite Es', Ls. reflexivity.
          -- simpl. intros m0 Hm0. apply Hinc, Le, Hm0.
        * apply Hwas; auto. apply in_eq.
      + exists (upd w v sid x' (w_sent w) (m :: w_seen w)), (w :: ws). split; [|split].
        * econstructor; eauto. eapply w_arrive; eauto; [|apply upd_changes]. intros u k H1 H2.
          destruct (Hu _ _ eq_refl u k H1 H2) as (m' & k' & H3 & H4). exists m', k'. rewrite Ls. auto.
        * constructor; [exact Li'|apply Hnode; auto|apply Hdone; auto| |].
          -- simpl. rewrite Es', Ls. reflexivity.
          -- simpl. rewrite Ee'. intros m0 [->|Hm0]; [apply in_eq|right; apply Le, Hm0].
        * apply Hwas; auto. apply in_eq.
      + pose (w1 := upd w v sid x1 (w_sent w) (m :: w_seen w)).
        exists (upd w1 v sid x' (w_sent w1) (w_seen w1)), (w1 :: w :: ws). split; [|split].
        * econstructor; [econstructor; [exact Hw|]|].
          -- eapply w_arrive; [exact Hwx| |exact St|apply upd_changes|reflexivity|reflexivity]. intros u k H1 H2.
             destruct (Hu _ _ eq_refl u k H1 H2) as (m' & k' & H3 & H4). exists m', k'. rewrite Ls. auto.
          -- eapply (@w_local _ _ _ _ _ v sid x1); [apply upd_at|left; eauto|exact St2|apply upd_changes|reflexivity|reflexivity].
        * constructor; [exact Li'| | | |].
          -- apply Hnode; auto. intros. now apply upd_other.
          -- apply Hdone; auto. intros. now apply upd_other.
          -- simpl. rewrite Es', Ls. reflexivity.
          -- simpl. rewrite Ee'. intros m0 [->|Hm0]; [apply in_eq|right; apply Le, Hm0].
        * apply Hwas; [auto|apply in_eq|]. apply Hwas; [|apply in_eq|auto].
          rewrite Eqs. apply drove_old. exists dw0, d, x. split; [apply in_eq|auto].
      + exists (upd w v sid x' (w_sent w) (w_seen w)), (w :: ws). split; [|split].
        * econstructor; eauto. eapply w_local; eauto. apply upd_changes.
        * constructor; [exact Li'|apply Hnode; auto|apply Hdone; auto| |].
          -- simpl. rewrite Es', Ls. reflexivity.
          -- simpl. intros m0 Hm0. apply Hinc, Le, Hm0.
        * apply Hwas; auto. apply in_eq.
  Qed.

  Lemma same_collision dw w : like dw w -> found_collision w -> dcollision dw.
  Proof.
    intros [_ _ _ Ls Le] (u & m & m' & k & k' & H1 & H2 & H3). exists u, m, m', k, k'. rewrite <- Ls. split; [now apply Le|auto].
  Qed.
  Lemma same_part (dw : DWorld Pr) dws (w : World Pr) ws u sid rid k b : (forall u sid d, was (w :: ws) u sid d -> drove (dw :: dws) u sid (d_s d)) ->
    sent_part (w :: ws) u sid rid k b -> drove_part (dw :: dws) u sid rid k b.
  Proof. intros H (dU & g & dest & m & art & H1 & H2). exists (d_s dU), g, dest, m, art. split; auto. Qed.
End WithParams.

Section Results.
  Context {P : Params}.
  Context {Pr : Proto}.

  Lemma driver_payload (honest : Verifier -> Prop) r (dw : DWorld Pr) dws v sid d x st u p :
    prefix_free_meta P -> dwtrace honest r (dw :: dws) -> dw_node dw v sid = Some d -> drv_state d = Some x ->
    s_round (d_s x) = RMain st -> honest u -> get u (a_payloads (d_a x)) = Some (PVal p) ->
    dcollision dw \/
    exists e n y, receive Pr st u (mkDynMsg e n y) = Ok p /\
      drove_part (dw :: dws) u sid (s_round_id (d_s x)) KEcho e /\
      drove_part (dw :: dws) u sid (s_round_id (d_s x)) KNormal n /\
      drove_part (dw :: dws) u sid (s_round_id (d_s x)) KDirect y.
  Proof.
    intros Hpf Ht Hd Hx Hr Hu Hp. destruct (simulated Ht) as (w & ws & Hw & L & Hwas).
    destruct (@main_payload _ _ honest w ws v sid x st u p) as [H|(e & n & y & H1 & H2 & H3 & H4)]; auto.
    - eapply lk_node; eauto.
    - left. eapply same_collision; eauto.
    - right. exists e, n, y. split; [auto|]. split; [|split]; eapply same_part; eauto.
  Qed.

  Lemma driver_message (honest : Verifier -> Prop) r (dw : DWorld Pr) dws v sid d x st u p :
    prefix_free_meta P -> plain_ids Pr -> no_return Pr -> dwtrace honest r (dw :: dws) -> dw_node dw v sid = Some d ->
    drv_state d = Some x -> s_round (d_s x) = RMain st -> honest u -> get u (a_payloads (d_a x)) = Some (PVal p) ->
    dcollision dw \/
    exists s g dest m art, drove (dw :: dws) u sid s /\ s_round_id s = s_round_id (d_s x) /\
      mem dest (message_destinations s) = true /\ make_message s g dest = Ok (m, (dest, art)) /\
      receive Pr st u (contents m) = Ok p.
  Proof.
    intros Hpf Hpl Hnr Ht Hd Hx Hr Hu Hp. destruct (simulated Ht) as (w & ws & Hw & L & Hwas).
    destruct (@main_payload_message _ _ honest w ws v sid x st u p) as [H|(dU & g & dest & m & art & H1 & H2)]; auto.
    - eapply lk_node; eauto.
    - left. eapply same_collision; eauto.
    - right. exists (d_s dU), g, dest, m, art. split; auto.
  Qed.

  Lemma driver_agreement (honest : Verifier -> Prop) r (dw : DWorld Pr) dws v sid d x st u :
    prefix_free_meta P -> echo_codec P -> plain_ids Pr -> dwtrace honest r (dw :: dws) -> dw_node dw v sid = Some d ->
    drv_state d = Some x -> echoing (d_s x) st -> can_finalize (d_a x) = Yes -> honest u -> expected (d_s x) u ->
    dcollision dw \/
    exists s, drove (dw :: dws) u sid s /\ s_round_id s = s_round_id (d_s x) /\ in_echo_round s /\
      forall y, y <> u -> mem y (ci_expect (cinfo Pr st)) = true \/ (ci_part (cinfo Pr st) = EPDefault /\ y = v) ->
        exists p p', held_echo (d_s x) y p /\ held_echo s y p' /\
          (sp_body p = sp_body p' \/ collide (content_bytes KEcho (sp_body p)) (content_bytes KEcho (sp_body p'))).
  Proof.
    intros Hpf Hec Hpl Ht Hd Hx He Hc Hu Hex. destruct (simulated Ht) as (w & ws & Hw & L & Hwas).
    destruct (@world_agreement _ _ honest w ws v sid x st u) as [H|(dU & H1 & H2)]; auto.
    - eapply lk_node; eauto.
    - left. eapply same_collision; eauto.
    - right. exists (d_s dU). split; auto.
  Qed.

  (** The parts of C69 in terms of driver worlds. *)
  Lemma evidence_transferred (honest : Verifier -> Prop) r (dw : DWorld Pr) dws v sid x (ev : Evidence) :
    prefix_free_meta P -> echo_codec P -> signatures_correct P -> plain_ids Pr -> no_return Pr -> no_echo_errors Pr ->
    (forall u, honest u \/ ~ honest u) -> dwtrace honest r (dw :: dws) -> dunforged_echoes honest dw ->
    (exists rep, dw_node dw v sid = Some (DrvDone (Ok rep)) /\ get x (rep_provable rep) = Some ev) \/
    (exists d y, dw_node dw v sid = Some d /\ drv_state d = Some y /\ has_evidence y x ev) ->
    honest (ev_guilty ev) ->
    dcollision dw \/ decho_collision dw \/
    (x = ev_guilty ev /\ exists s1 st s g dest m art err, drove (dw :: dws) v sid s1 /\ s_round s1 = RMain st /\
       drove (dw :: dws) x sid s /\ s_round_id s = s_round_id s1 /\
       mem dest (message_destinations s) = true /\ make_message s g dest = Ok (m, (dest, art)) /\
       receive Pr st x (contents m) = Err err) \/
    (~ honest x /\ exists s1 p h k b, drove (dw :: dws) v sid s1 /\ in_echo_round s1 /\
       ev_body ev = EvMismatched (ev_guilty ev) p h /\ held_echo s1 (ev_guilty ev) p /\ k <> KEcho /\
       drove_part (dw :: dws) (ev_guilty ev) sid (main_of (s_round_id s1)) k b /\
       sh_meta h = mkMeta sid (main_of (s_round_id s1)) /\ sh_hash h = hash (content_bytes k b)).
  Proof.
    intros Hpf Hec Hsg Hpl Hnr Hne Hdec Ht Hue Hn Hg. destruct (simulated Ht) as (w & ws & Hw & L & Hwas).
    assert (Hx : exists y, w_node w v sid = Some y /\ has_evidence y x ev).
    { destruct Hn as [(rep & Hd & Hr)|(d & y & Hd & Hy & He)].
      - destruct (lk_done L _ _ Hd) as (y & Hy & He). exists y. split; auto. eapply report_evidence; eauto.
      - exists y. split; auto. eapply lk_node; eauto. }
    destruct Hx as (y & Hy & He). pose proof (lk_sent L) as Ls. pose proof (lk_seen L) as Le.
    assert (Hue' : unforged_echoes honest w).
    { intros m msg u h H1 H2 H3 H4 H5. destruct (Hue m msg u h (Le _ H1) H2 H3 H4 H5) as (m' & k & H6 & H7).
      exists m', k. rewrite Ls. auto. }
    destruct (@evidence_against_honest _ _ honest w ws v sid y x ev Hpf Hec Hsg Hpl Hnr Hne Hdec Hw Hue' Hy He Hg)
      as [H|[H|[(H1 & d1 & st & dU & g & dest & m & art & err & H2 & H3 & H4 & H5)|(H1 & d1 & p & h & H2 & H3 & H4 & H5 & (k & b & H6 & H7 & H8))]]].
    - left. eapply same_collision; eauto.
    - right. left. destruct H as (m & msg & z & h & u & m' & k & K1 & K2 & K3 & K4 & K5). exists m, msg, z, h, u, m', k. rewrite <- Ls. auto 10.
    - right. right. left. split; auto. exists (d_s d1), st, (d_s dU), g, dest, m, art, err. auto 10.
    - right. right. right. split; auto. exists (d_s d1), p, h, k, b. do 5 (split; auto). split; auto. eapply same_part; eauto.
  Qed.
End Results.
