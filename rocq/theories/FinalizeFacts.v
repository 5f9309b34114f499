(** Proofs about finalizing rounds, transitions, echo rounds and the cache. *)
From Coq Require Import List NArith Bool.
From Verif Require Import Base BMap Errors RoundId Message Protocol Transcript Evidence Session Spec
  MessageFacts SessionFacts RunFacts IntakeFacts RoundFacts.
Import ListNotations.
Set Implicit Arguments.

Section WithParams.
  Context {P : Params}.
  Context {Pr : Proto}.
  Implicit Types (s : Session Pr) (a : Accum Pr) (d : DState Pr) (es : list (event Pr)).

  (** ** Downcasts *)
  Lemma downcast_ok {A B} (f : A -> res LocalError B) (m : bmap Verifier A) m' :
    downcast f m = Ok m' ->
    forall v y, get v m' = Some y <-> exists x, get v m = Some x /\ f x = Ok y.
  Proof.
    unfold downcast. intros H v y. apply bind_ok in H as (l & Hl & H). inv H.
    apply map_res_ok in Hl.
    assert (Hf : map fst l = map fst (to_list m)).
    { induction Hl as [|[k x] [k' z] l0 l' Hx Hl IH]; simpl; auto. f_equal; auto.
      apply bind_ok in Hx as (y' & _ & E). inv E. reflexivity. }
    rewrite get_of_list_nodup by (rewrite Hf; apply to_list_nodup).
    split.
    - intros Hin.
      assert (Hex : exists x, In (v, x) (to_list m) /\ f x = Ok y).
      { clear Hf. induction Hl as [|[k x] [k' z] l0 l' Hx Hl IH]; simpl in *; [tauto|].
        apply bind_ok in Hx as (y' & Hy & E). simpl in *. inv E.
        destruct Hin as [E|Hin]; [inv E; eauto|]. destruct (IH Hin) as (x' & H1 & H2). eauto. }
      destruct Hex as (x & Hin' & Hx). exists x. split; auto. now apply in_to_list.
    - intros (x & Hg & Hx). apply in_to_list in Hg.
      clear Hf. induction Hl as [|[k x'] [k' z] l0 l' Hx' Hl IH]; simpl in *; [tauto|].
      apply bind_ok in Hx' as (y' & Hy & E). simpl in *. inv E.
      destruct Hg as [E|Hg]; [inv E; left; congruence|auto].
  Qed.

  Lemma downcast_total {A B} (f : A -> res LocalError B) (m : bmap Verifier A) :
    (forall v x, get v m = Some x -> exists y, f x = Ok y) -> exists m', downcast f m = Ok m'.
  Proof.
    intros H. unfold downcast.
    assert (Hl : exists l, map_res (fun kv => let* y := f (snd kv) in Ok (fst kv, y)) (to_list m) = Ok l).
    { assert (H' : forall kv, In kv (to_list m) -> exists y, f (snd kv) = Ok y).
      { intros [v x] Hin. apply in_to_list in Hin. eauto. }
      clear H. induction (to_list m) as [|kv l IH]; simpl; eauto.
      destruct (H' kv) as [y Hy]; [simpl; auto|]. rewrite Hy. simpl.
      destruct IH as [l' Hl']; [intros; apply H'; simpl; auto|]. rewrite Hl'. simpl. eauto. }
    destruct Hl as [l Hl]. rewrite Hl. simpl. eauto.
  Qed.

  (** The payloads and artifacts collected in a protocol round. *)
  Definition payloads_of (ps : bmap Verifier (SPayload Pr)) (ps' : bmap Verifier (Payload Pr)) : Prop :=
    forall v p, get v ps' = Some p <-> get v ps = Some (PVal p).
  Definition artifacts_of (arts : bmap Verifier (SArtifact Pr)) (arts' : bmap Verifier (Artifact Pr)) : Prop :=
    forall v x, get v arts' = Some x <-> get v arts = Some (AVal x).

  Definition all_main (ps : bmap Verifier (SPayload Pr)) (arts : bmap Verifier (SArtifact Pr)) : Prop :=
    (forall v p, get v ps = Some p -> exists p', p = PVal p') /\ (forall v x, get v arts = Some x -> exists x', x = AVal x').

  Lemma rd_finalize_main st ps arts : all_main ps arts ->
    exists ps' arts', payloads_of ps ps' /\ artifacts_of arts arts' /\
      forall g, rd_finalize (RMain st) g ps arts = finalize Pr st g ps' arts'.
  Proof.
    intros [H1 H2].
    destruct (@downcast_total _ _ (@down_payload _ Pr) ps) as [ps' Hps].
    { intros v x Hx. destruct (H1 _ _ Hx) as [p ->]. simpl; eauto. }
    destruct (@downcast_total _ _ (@down_artifact _ Pr) arts) as [arts' Harts].
    { intros v x Hx. destruct (H2 _ _ Hx) as [p ->]. simpl; eauto. }
    exists ps', arts'. simpl. rewrite Hps, Harts. simpl. split; [|split; auto]. 
    - intros v p. rewrite (downcast_ok _ _ Hps). split.
      + intros (x & Hx & E). destruct x; simpl in E; [discriminate|]. congruence.
      + intros Hx. eexists; split; eauto.
    - intros v p. rewrite (downcast_ok _ _ Harts). split.
      + intros (x & Hx & E). destruct x; simpl in E; [discriminate|]. congruence.
      + intros Hx. eexists; split; eauto.
  Qed.

  Lemma art_main s g dest m art : make_message s g dest = Ok (m, (dest, art)) -> forall st, s_round s = RMain st ->
    exists b x, art = AVal x /\ mk_direct Pr st (rsub 0 g) dest = Ok (b, x).
  Proof.
    intros H st Hs. unfold make_message in H. rewrite Hs in H. simpl in H.
    apply bind_ok in H as ([b x] & H1 & H). apply bind_ok in H as (m' & H2 & H). inv H.
    apply bind_ok in H1 as ([b' x'] & H1 & H). inv H. eauto.
  Qed.

  Lemma event_art d0 es d g dest x : run d0 es d -> in_round es -> In (EArt g dest x) es ->
    exists m, make_message (d_s d0) g dest = Ok (m, (dest, x)) /\ mem dest (message_destinations (d_s d0)) = true.
  Proof.
    intros Hr Hin H. induction Hr as [|d0 es d1 e d2 Hr IH Hs]; [contradiction|].
    apply in_round_app in Hin as [Hin He]. apply in_snoc in H as [H|H]; auto. subst e.
    inv Hs. rewrite <- (in_round_session Hr Hin). simpl. eauto.
  Qed.

  Lemma event_proc d0 es d vm : run d0 es d -> in_round es -> reachable d0 -> In (EProc vm) es ->
    vmessage_authentic (s_id (d_s d0)) (s_round_id (d_s d0)) vm.
  Proof.
    intros Hr Hin Hre H. induction Hr as [|d0 es d1 e d2 Hr IH Hs]; [contradiction|].
    apply in_round_app in Hin as [Hin He]. apply in_snoc in H as [H|H]; auto. subst e.
    inv Hs. rewrite <- (in_round_session Hr Hin). simpl.
    apply (handed_out_authentic (reachable_run Hre Hr)). simpl. apply in_elt.
  Qed.

  Lemma main_payloads d0 es d st : round_start d0 -> run d0 es d -> in_round es -> s_round (d_s d) = RMain st ->
    all_main (a_payloads (d_a d)) (a_artifacts (d_a d)).
  Proof.
    intros Hs Hr Hin Hst. pose proof (round_history Hs Hr Hin) as H. split.
    - intros v p Hp. apply (h_payload H) in Hp as (vm & _ & _ & Ha). rewrite Hst in Ha. simpl in Ha.
      apply bind_ok in Ha as (p' & _ & E). inv E. eauto.
    - intros v x Hx. apply (h_artifact H) in Hx as (g & Hg).
      destruct (event_art _ _ _ Hr Hin Hg) as (m & Hm & _).
      rewrite <- (in_round_session Hr Hin) in Hm.
      destruct (@art_main _ _ _ _ _ Hm _ Hst) as (b & x' & -> & _). eauto.
  Qed.

  Lemma main_tinfo s st : sinv s -> s_round s = RMain st -> s_tinfo s = tinfo Pr st /\ s_comm s = cinfo Pr st.
  Proof.
    intros I H. pose proof (si_tinfo I) as Ht. pose proof (si_comm I) as Hc. rewrite H in *. simpl in *.
    split; congruence.
  Qed.

  Lemma inputs_proper d0 es d st ps arts :
    round_start d0 -> run d0 es d -> in_round es -> can_finalize (d_a d) = Yes -> s_round (d_s d) = RMain st ->
    payloads_of (a_payloads (d_a d)) ps -> artifacts_of (a_artifacts (d_a d)) arts ->
    proper_inputs (d_s d) st es ps arts.
  Proof.
    intros Hs Hr Hin Hy Hst Hps Harts. pose proof (round_history Hs Hr Hin) as H.
    pose proof (round_start_reachable Hs) as Hre.
    pose proof (reachable_sinv (reachable_run Hre Hr)) as I.
    destruct (main_tinfo I Hst) as [Et Ec].
    pose proof (main_payloads Hs Hr Hin Hst) as [HM1 HM2].
    pose proof (can_finalize_meaning Hs Hr Hin) as (HY & _). pose proof (proj1 HY Hy) as Hall.
    pose proof (in_round_session Hr Hin) as Hss.
    constructor.
    - intros v. rewrite <- Ec. split.
      + intros Hc. apply contains_get in Hc as [p Hp]. apply Hps, (h_payload H) in Hp.
        apply accepted_heard in Hp. now apply (h_heard H) in Hp.
      + intros He. destruct (Hall v He) as [p Hp]. apply (h_payload H) in Hp.
        destruct (HM1 _ _ Hp) as [p' ->]. apply contains_get. exists p'. now apply Hps.
    - intros v p Hp. apply Hps, (h_payload H) in Hp as (vm & Hvm & Hv & Ha). exists vm.
      split; auto. split; auto. split.
      + pose proof (event_proc _ Hr Hin Hre Hvm) as Hau. rewrite <- Hss in Hau. unfold s_round_id in Hau.
        rewrite Et in Hau. exact Hau.
      + rewrite Hst in Ha. simpl in Ha. apply bind_ok in Ha as (p' & Ha & E). inv E. exact Ha.
    - intros v x. rewrite (Harts v x). apply (h_artifact H).
    - intros g v x Hg. destruct (event_art _ _ _ Hr Hin Hg) as (m & Hm & Hd). rewrite <- Hss in Hm, Hd.
      split; [unfold message_destinations in Hd; now rewrite Ec in Hd|].
      destruct (@art_main _ _ _ _ _ Hm _ Hst) as (b & x' & E & Hb). inv E. eauto.
  Qed.

  Lemma finalize_no_echo s g a ro : s_echo_info s = None -> finalize_round s g a = Ok ro ->
    exists out, rd_finalize (s_round s) (rsub 0 g) (a_payloads a) (a_artifacts a) = Ok out /\ reported out ro.
  Proof.
    intros Hn H. destruct ro as [rep|s' c].
    - apply finalize_finished in H as (t & x & _ & _ & Hf & ->). exists (Finished_ x). split; auto. reflexivity.
    - apply finalize_another in H as [t info echos _ Hi|t st _ _ Hf _ C _]; [congruence|].
      exists (AnotherRound st). split; auto. simpl. apply (cr_round C).
  Qed.

  Lemma finalize_inputs d0 es d st g ro :
    round_start d0 -> run d0 es d -> in_round es -> can_finalize (d_a d) = Yes -> s_round (d_s d) = RMain st ->
    s_echo_info (d_s d) = None -> finalize_round (d_s d) g (d_a d) = Ok ro ->
    exists ps arts out, finalize Pr st (rsub 0 g) ps arts = Ok out /\ reported out ro /\ proper_inputs (d_s d) st es ps arts.
  Proof.
    intros Hs Hr Hin Hy Hst Hn Hf. apply finalize_no_echo in Hf as (out & Hf & Hrep); auto. rewrite Hst in Hf.
    destruct (rd_finalize_main st (main_payloads Hs Hr Hin Hst)) as (ps & arts & H1 & H2 & H3).
    exists ps, arts, out. rewrite <- H3. split; auto. split; auto. now apply (inputs_proper Hs Hr Hin Hy Hst).
  Qed.

  (** The same when the round is followed by an echo round; the inputs do not depend on the history of the echo round. *)
  Lemma finalize_inputs_echo d0 es d st g d1 :
    round_start d0 -> run d0 es d -> in_round es -> s_round (d_s d) = RMain st ->
    s_echo_info (d_s d) <> None -> step d (EFin g) d1 ->
    exists ps arts, proper_inputs (d_s d) st es ps arts /\
      forall es1 d2 g' ro, run d1 es1 d2 -> in_round es1 -> finalize_round (d_s d2) g' (d_a d2) = Ok ro ->
        exists out, finalize Pr st (rsub 0 g') ps arts = Ok out /\ reported out ro.
  Proof.
    intros Hs Hr Hin Hst He Hstep.
    assert (Hy : can_finalize (d_a d) = Yes) by (inv Hstep; auto).
    inversion Hstep as [| | |s a todo g0 s' c Hy' Hfin]; subst. simpl in *.
    apply finalize_another in Hfin as [t info echos _ Hi _ C _|t st' _ Hi _ _ _ _]; [|congruence].
    assert (Hre : reachable (DS s a todo)) by (eapply reachable_run; eauto; now apply round_start_reachable).
    pose proof (reachable_sinv Hre) as I. simpl in I.
    rewrite Hst in C. destruct (created_echo (si_verifier I) C) as [I' Hn'].
    destruct (rd_finalize_main st (main_payloads Hs Hr Hin Hst)) as (ps & arts & H1 & H2 & H3).
    exists ps, arts. split.
    - exact (@inputs_proper d0 es (DS s a todo) st ps arts Hs Hr Hin Hy Hst H1 H2).
    - intros es1 d2 g' ro Hr1 Hin1 Hf.
      pose proof (in_round_session Hr1 Hin1) as Hss. simpl in Hss. rewrite Hss in Hf.
      apply finalize_no_echo in Hf as (out & Hf & Hrep); auto. rewrite (cr_round C) in Hf. cbn [rd_finalize] in Hf.
      exists out. rewrite <- H3. split; auto.
  Qed.

  (** ** Transitions *)
  Lemma ti_echo_ok t t' : ti_echo t = Ok t' -> rid_echo (ti_id t) = false /\
    t' = mkTI (echo_of (ti_id t)) (set_of_list [ti_id t]) sempty (ti_children t) (ti_result t).
  Proof.
    unfold ti_echo, echo. destruct (rid_echo (ti_id t)) eqn:E; simpl; [discriminate|]. intros H. inv H.
    unfold echo_of. auto.
  Qed.

  Lemma rd_tinfo_echo v echos info (main : Round Pr) ps arts ti :
    rd_tinfo (REcho v echos info main ps arts) = Ok ti -> exists t, rd_tinfo main = Ok t /\ ti_echo t = Ok ti.
  Proof.
    simpl. destruct (rd_tinfo main) as [t| |]; simpl; try discriminate. destruct (ti_echo t) eqn:E; try discriminate.
    intros H; inv H. eauto.
  Qed.

  Lemma transition_declared d g s' c st : reachable d -> finalize_round (d_s d) g (d_a d) = Ok (ROAnother s' c) ->
    (s_round (d_s d) = RMain st \/ exists v echos info ps arts, s_round (d_s d) = REcho v echos info (RMain st) ps arts) ->
    (s_round_id s' = echo_of (ti_id (tinfo Pr st)) /\ s_round (d_s d) = RMain st) \/
    (exists st', s_round s' = RMain st' /\ s_round_id s' = ti_id (tinfo Pr st') /\
       mem (s_round_id s') (ti_children (tinfo Pr st)) = true).
  Proof.
    intros Hre Hfin Hst. pose proof (reachable_sinv Hre) as I. destruct d as [s a todo]. simpl in *.
    apply finalize_another in Hfin as [t info echos Hc Hi Hg C _|t st' Hc Hi Hf Hm C _].
    - left. destruct (si_shape I) as [st0 Hs|? ? ? ? ? ? Hn]; [|congruence].
      assert (st0 = st).
      { destruct Hst as [Hst|(v & e' & i' & ps & arts & Hst)]; congruence. }
      subst st0. split; auto.
      destruct (rd_tinfo_echo _ _ _ _ _ _ (cr_tinfo C)) as (t0 & H1 & H2). rewrite Hs in H1. inv H1.
      apply ti_echo_ok in H2 as [_ H2]. unfold s_round_id. rewrite H2. reflexivity.
    - right. exists st'. split; [apply (cr_round C)|]. pose proof (cr_tinfo C) as Ht. simpl in Ht.
      assert (Hid : s_round_id s' = ti_id (tinfo Pr st')) by (unfold s_round_id; congruence).
      split; auto. rewrite Hid.
      assert (Hch : ti_children (s_tinfo s) = ti_children (tinfo Pr st)); [|congruence].
      pose proof (si_tinfo I) as Hti. destruct Hst as [Hst|(v & e' & i' & ps & arts & Hst)]; rewrite Hst in Hti.
      + simpl in Hti. congruence.
      + apply rd_tinfo_echo in Hti as (t0 & H1 & H2). inv H1. apply ti_echo_ok in H2 as [_ H2]. rewrite H2. reflexivity.
  Qed.
End WithParams.
