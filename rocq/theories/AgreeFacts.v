(** Executions that process messages in different orders have the same result. *)
From Coq Require Import List NArith Bool Permutation.
From Verif Require Import Base BMap Errors RoundId Message Protocol Transcript Evidence Session Spec SpecCourse Network SpecNet RunSync Driver SpecDriver
  Par SpecPar SpecParFailure SpecAgree MessageFacts SessionFacts RunFacts IntakeFacts RoundFacts FinalizeFacts HistoryFacts DriverFacts ParFacts CourseFacts ParFailureFacts.
Import ListNotations.
Set Implicit Arguments.

Section Agree.
  Context {P : Params}.
  Context {Pr : Proto}.
  Variable r : NetRng.
  Implicit Types (s : Session Pr) (a : Accum Pr) (d : DState Pr) (es : list (event Pr)).

  Lemma duty_run d es d' : duty r d es d' -> run d es d'.
  Proof. induction 1; [constructor|eapply run_snoc; eauto]. Qed.
  Lemma duty_app d es1 d1 es2 d2 : duty r d es1 d1 -> duty r d1 es2 d2 -> duty r d (es1 ++ es2) d2.
  Proof. intros H H2. induction H2; [now rewrite app_nil_r|]. rewrite app_assoc. eapply duty_snoc; eauto. Qed.
  Lemma duty_one d e d' : step d e d' -> dutiful r d e -> duty r d [e] d'.
  Proof. intros H1 H2. change [e] with ([] ++ [e]). eapply duty_snoc; eauto. constructor. Qed.
  Lemma duty_inv d es d' : duty r d es d' -> es = [] /\ d' = d \/ exists es1 e d1, es = es1 ++ [e] /\ duty r d es1 d1 /\ step d1 e d' /\ dutiful r d1 e.
  Proof. intros H. inv H; [auto|]. right. eauto 8. Qed.
  Lemma duty_app_inv d es1 es2 d' : duty r d (es1 ++ es2) d' -> exists d1, duty r d es1 d1 /\ duty r d1 es2 d'.
  Proof.
    revert d'. induction es2 as [|e l IH] using rev_ind; intros d' H.
    - rewrite app_nil_r in H. exists d'. split; auto. constructor.
    - rewrite app_assoc in H. apply duty_inv in H as [[H _]|(es & e' & d1 & E & H & Hs & Hd)]; [destruct (es1 ++ l); discriminate|].
      apply app_inj_tail in E as [<- <-]. destruct (IH _ H) as (d2 & H1 & H2). exists d2. split; auto. eapply duty_snoc; eauto.
  Qed.
  Lemma duty_cons_inv d e es d' : duty r d (e :: es) d' -> exists d1, step d e d1 /\ dutiful r d e /\ duty r d1 es d'.
  Proof.
    intros H. change (e :: es) with ([e] ++ es) in H. apply duty_app_inv in H as (d1 & H1 & H2).
    apply duty_inv in H1 as [[H1 _]|(es' & e' & d2 & E & H1 & Hs & Hd)]; [discriminate|].
    destruct es' as [|? []]; inv E. apply duty_inv in H1 as [[_ ->]|(? & ? & ? & E & _)]; [eauto|]. destruct x; discriminate.
  Qed.

  Lemma first_fin es : in_round es \/ exists er g es', es = er ++ EFin g :: es' /\ in_round er.
  Proof.
    induction es as [|e es IH]; [left; reflexivity|]. destruct e as [from m o|vm|g dest x|g].
    4:{ right. exists [], g, es. split; reflexivity. }
    all: destruct IH as [IH|(er & g' & es' & -> & IH)];
      [left; exact IH|right; eexists (_ :: er), g', es'; split; [reflexivity|exact IH]].
  Qed.

  (** Every message that is processed, or to be processed, has been received and is authentic. *)
  Definition from_box (L : list (Verifier * Message)) (sid : bytes) (rid : RoundId) (vm : VMessage) : Prop :=
    exists m, In (vm_from vm, m) L /\ is_message_of (vm_from vm) m vm /\ message_authentic (vm_from vm) sid rid m.

  Lemma round_box L d0 es d : run d0 es d -> in_round es -> incl (received_in es) L ->
    (forall vm, In vm (d_todo d0) -> from_box L (s_id (d_s d0)) (s_round_id (d_s d0)) vm) ->
    d_s d = d_s d0 /\
    (forall vm, In vm (d_todo d) -> from_box L (s_id (d_s d0)) (s_round_id (d_s d0)) vm) /\
    (forall vm, In (EProc vm) es -> from_box L (s_id (d_s d0)) (s_round_id (d_s d0)) vm) /\
    (forall v m, In (EPre v m Cached) es -> exists rid, message_authentic v (s_id (d_s d0)) rid m).
  Proof.
    intros H. induction H as [d|d es d1 e d2 Hr IH Hs]; intros Hin Hl Ht.
    - repeat split; auto; intros ? *; intros; contradiction.
    - unfold in_round in Hin. rewrite forallb_app in Hin. apply andb_prop in Hin as [Hin He]. simpl in He.
      assert (Hl1 : incl (received_in es) L) by (intros y Hy; apply Hl; unfold received_in; rewrite flat_map_app; apply in_app_iff; auto).
      destruct (IH Hin Hl1 Ht) as (E & I1 & I2 & I3). clear IH.
      inv Hs; cbn [d_s d_a d_todo] in *.
      + assert (Hy : In (from, m) L) by (apply Hl; unfold received_in; rewrite flat_map_app; apply in_app_iff; right; now left).
        pose proof (preprocess_cases _ _ _ _ H) as Hc. split; [auto|]. split; [|split].
        * destruct o as [vm| |]; auto. intros w [<-|Hw]; auto. inv Hc. exists m. simpl. split; auto. split; [repeat split|]. assumption.
        * intros w Hw. apply in_snoc in Hw as [Hw|Hw]; [auto|discriminate].
        * intros w m' Hw. apply in_snoc in Hw as [Hw|Hw]; [eauto|]. inv Hw. inv Hc. eauto.
      + split; [auto|]. split; [|split].
        * intros w Hw. apply I1. rewrite in_app_iff in *. simpl. tauto.
        * intros w Hw. apply in_snoc in Hw as [Hw|Hw]; [auto|]. inv Hw. apply I1. apply in_app_iff. right. now left.
        * intros w m' Hw. apply in_snoc in Hw as [Hw|Hw]; [eauto|discriminate].
      + split; [auto|]. split; [auto|]. split.
        * intros w Hw. apply in_snoc in Hw as [Hw|Hw]; [auto|discriminate].
        * intros w m' Hw. apply in_snoc in Hw as [Hw|Hw]; [eauto|discriminate].
      + discriminate.
  Qed.

  Lemma arts_from d0 es d : duty r d0 es d -> in_round es -> forall g v x, In (EArt g v x) es ->
    mem v (message_destinations (d_s d0)) = true /\ exists m, make_message (d_s d0) (nr_msg r (s_verifier (d_s d0)) (s_round_id (d_s d0)) v) v = Ok (m, (v, x)).
  Proof.
    intros H. induction H as [d|d es d1 e d2 Hr IH Hs Hd]; intros Hin g v x Hx; [contradiction|].
    unfold in_round in Hin. rewrite forallb_app in Hin. apply andb_prop in Hin as [Hin He]. simpl in He.
    apply in_snoc in Hx as [Hx|<-]; [eauto|]. pose proof (in_round_session (duty_run Hr) Hin) as E. inv Hs. simpl in *. subst g. rewrite <- E. eauto.
  Qed.

  Lemma yes_all a : can_finalize a = Yes -> forall v, mem v (a_expect a) = true -> contains v (a_payloads a) = true.
  Proof.
    unfold can_finalize. destruct (forallb _ _) eqn:E; [|destruct (negb _); discriminate]. intros _ v Hv.
    rewrite forallb_forall in E. apply E. now apply in_elements.
  Qed.

  Lemma message_of_inj from m vm vm' : is_message_of from m vm -> is_message_of from m vm' -> vm = vm'.
  Proof. unfold is_message_of. destruct vm, vm'; simpl. intuition congruence. Qed.

  (** A round that both finish. *)
  Lemma round_same L d0 d0' es es' d d' : single_messages (s_id (d_s d0)) L ->
    d_a d0 = make_accumulator (d_s d0) -> d_a d0' = make_accumulator (d_s d0') -> alike (d_s d0) (d_s d0') ->
    duty r d0 es d -> duty r d0' es' d' -> in_round es -> in_round es' -> incl (received_in es) L -> incl (received_in es') L ->
    (forall vm, In vm (d_todo d0) -> from_box L (s_id (d_s d0)) (s_round_id (d_s d0)) vm) ->
    (forall vm, In vm (d_todo d0') -> from_box L (s_id (d_s d0')) (s_round_id (d_s d0')) vm) ->
    can_finalize (d_a d) = Yes -> can_finalize (d_a d') = Yes -> sent_to_all d -> sent_to_all d' -> same_work es es'.
  Proof.
    intros HL F F' S R R' I I' B B' T T' Y Y' A A'.
    destruct (round_box (duty_run R) I B T) as (E & _ & Q & _). destruct (round_box (duty_run R') I' B' T') as (E' & _ & Q' & _).
    destruct (round_hist F (duty_run R) I) as [H _]. destruct (round_hist F' (duty_run R') I') as [H' _].
    assert (Ex : forall v, expected (d_s d0') v <-> expected (d_s d0) v) by (intros v; unfold expected; now rewrite (al_comm S)).
    assert (Ei : s_id (d_s d0') = s_id (d_s d0)) by apply (al_id S).
    assert (Er : s_round_id (d_s d0') = s_round_id (d_s d0)) by (unfold s_round_id; now rewrite (al_tinfo S)).
    assert (K : forall vm vm', from_box L (s_id (d_s d0)) (s_round_id (d_s d0)) vm -> from_box L (s_id (d_s d0)) (s_round_id (d_s d0)) vm' ->
      vm_from vm = vm_from vm' -> vm = vm').
    { intros vm vm' (m & M1 & M2 & M3) (m' & M1' & M2' & M3') Ev. rewrite <- Ev in *.
      assert (m' = m) by (eapply HL; eauto). subst m'. eapply message_of_inj; eauto. }
    rewrite Ei, Er in Q'. split.
    - assert (G : forall v, expected (d_s d0) v -> (exists vm, In (EProc vm) es /\ vm_from vm = v) /\ (exists vm, In (EProc vm) es' /\ vm_from vm = v)).
      { intros v Hv. split.
        - rewrite <- (h_expect H) in Hv || unfold expected in Hv; rewrite <- (h_expect H) in Hv.
          pose proof (yes_all _ Y _ Hv) as Hp. apply contains_get in Hp as [p Hp]. apply (h_payload H) in Hp as (w & W1 & W2 & _). eauto.
        - apply Ex in Hv. unfold expected in Hv. rewrite <- (h_expect H') in Hv.
          pose proof (yes_all _ Y' _ Hv) as Hp. apply contains_get in Hp as [p Hp]. apply (h_payload H') in Hp as (w & W1 & W2 & _). eauto. }
      intros vm. split; intros Hin.
      + assert (Hv : expected (d_s d0) (vm_from vm)) by (apply (h_heard H); exists vm; auto).
        destruct (G _ Hv) as [_ (w & W1 & W2)]. rewrite (K vm w); auto.
      + assert (Hv : expected (d_s d0) (vm_from vm)) by (apply Ex, (h_heard H'); exists vm; auto).
        destruct (G _ Hv) as [(w & W1 & W2) _]. rewrite (K vm w); auto.
    - assert (Mm : forall g dest, make_message (d_s d0') g dest = make_message (d_s d0) g dest).
      { intros g dest. unfold make_message, s_round_id. now rewrite (al_round S), (al_signer S), (al_id S), (al_tinfo S), (al_echo S), (al_normal S). }
      assert (Md : message_destinations (d_s d0') = message_destinations (d_s d0)) by (unfold message_destinations; now rewrite (al_comm S)).
      intros v x. split; intros [g Hin].
      + destruct (arts_from R I _ _ _ Hin) as [Hd (m & Hm)]. rewrite <- Md in Hd. unfold sent_to_all in A'. rewrite E' in A'. apply A' in Hd.
        apply contains_get in Hd as [x' Hd]. apply (h_artifact H') in Hd as [g' Hd]. destruct (arts_from R' I' _ _ _ Hd) as [_ (m' & Hm')].
        rewrite Mm, Er, (al_verifier S) in Hm'. rewrite Hm in Hm'. inv Hm'. eauto.
      + destruct (arts_from R' I' _ _ _ Hin) as [Hd (m & Hm)]. rewrite Md in Hd. unfold sent_to_all in A. rewrite E in A. apply A in Hd.
        apply contains_get in Hd as [x' Hd]. apply (h_artifact H) in Hd as [g' Hd]. destruct (arts_from R I _ _ _ Hd) as [_ (m' & Hm')].
        rewrite Mm, Er, (al_verifier S) in Hm. rewrite Hm in Hm'. inv Hm'. eauto.
  Qed.

  (** The messages from the cache. *)
  Lemma next_box L d0 es d g d' : round_start d0 -> run d0 es d -> in_round es -> step d (EFin g) d' -> incl (received_in es) L ->
    (forall vm, In vm (d_todo d0) -> from_box L (s_id (d_s d0)) (s_round_id (d_s d0)) vm) ->
    s_id (d_s d') = s_id (d_s d0) /\ forall vm, In vm (d_todo d') -> from_box L (s_id (d_s d')) (s_round_id (d_s d')) vm.
  Proof.
    intros Hs R I F B T. destruct (round_box R I B T) as (E & _ & _ & Q).
    assert (Ei : s_id (d_s d') = s_id (d_s d0)).
    { rewrite <- E. refine (proj1 (step_identity F _)). rewrite E. apply reachable_sinv, round_start_reachable, Hs. }
    split; auto. destruct (delivery Hs R I F) as [_ D]. intros vm Hvm. apply D in Hvm as [(m & Hm & C1 & C2) _].
    destruct (Q _ _ Hm) as [rid Ha]. exists m. split.
    - apply B. unfold received_in. apply in_flat_map. exists (EPre (vm_from vm) m Cached). split; auto. now left.
    - split; [auto|]. rewrite Ei. destruct Ha as (A1 & A2 & A3 & A4 & A5 & A6). rewrite A4 in C1. simpl in C1. subst rid. repeat split; auto.
  Qed.

  Lemma fin_start d g d' : reachable d -> step d (EFin g) d' -> round_start d'.
  Proof. intros Hr Hs. inv Hs. right. eauto 12. Qed.

  Lemma agree_gen L : forall n d0 d0' es es' d d' x x', length es < n -> single_messages (s_id (d_s d0)) L ->
    round_start d0 -> round_start d0' -> alike (d_s d0) (d_s d0') ->
    duty r d0 es d -> duty r d0' es' d' -> incl (received_in es) L -> incl (received_in es') L ->
    (forall vm, In vm (d_todo d0) -> from_box L (s_id (d_s d0)) (s_round_id (d_s d0)) vm) ->
    (forall vm, In vm (d_todo d0') -> from_box L (s_id (d_s d0')) (s_round_id (d_s d0')) vm) ->
    ends_with r d x -> ends_with r d' x' -> x' = x.
  Proof.
    induction n as [|n IH]; intros d0 d0' es es' d d' x x' Hn HL Z Z' S R R' B B' T T' Hx Hx'.
    all: assert (Sub : forall l1 l2 : list (event Pr), incl (received_in (l1 ++ l2)) L -> incl (received_in l1) L /\ incl (received_in l2) L)
      by (intros l1 l2 X; unfold received_in in X; rewrite flat_map_app in X; split; intros y Hy; apply X, in_app_iff; auto).
    all: assert (Own : forall (e : event Pr) l, incl (received_in (e :: l)) L -> incl (received_in l) L)
      by (intros e l X; exact (proj2 (Sub [e] l X))).
    - inversion Hn.
    - destruct (first_fin es) as [I|(er & g & es2 & -> & I)].
      + destruct Hx as (Y & A & rep & Fi & O). destruct (first_fin es') as [I'|(er' & g' & es2' & -> & I')].
        * destruct Hx' as (Y' & A' & rep' & Fi' & O').
          pose proof (round_same HL (round_start_fresh Z) (round_start_fresh Z') S R R' I I' B B' T T' Y Y' A A') as W.
          destruct (round_hist (round_start_fresh Z) (duty_run R) I) as [H E]. destruct (round_hist (round_start_fresh Z') (duty_run R') I') as [H' E'].
          pose proof (work_alike H H' (al_round S) W) as Al. rewrite <- E, <- E' in S.
          unfold s_round_id in *. rewrite (al_verifier S), (al_tinfo S) in Fi'. pose proof (finalize_alike _ S Al Fi Fi') as Q. simpl in Q. congruence.
        * destruct (Sub _ _ B') as [B1' B2']. apply duty_app_inv in R' as (d1' & R' & R2'). apply duty_cons_inv in R2' as (d2' & F' & D' & R2'). destruct D' as [-> A'].
          assert (Y' : can_finalize (d_a d1') = Yes) by (inv F'; auto).
          pose proof (round_same HL (round_start_fresh Z) (round_start_fresh Z') S R R' I I' B B1' T T' Y Y' A A') as W.
          destruct (round_hist (round_start_fresh Z) (duty_run R) I) as [H E]. destruct (round_hist (round_start_fresh Z') (duty_run R') I') as [H' E'].
          pose proof (work_alike H H' (al_round S) W) as Al. rewrite <- E, <- E' in S. inv F'. cbn [d_s d_a] in *.
          unfold s_round_id in *. match goal with X : finalize_round s _ a = Ok (ROAnother _ _) |- _ =>
            rewrite (al_verifier S), (al_tinfo S) in X; pose proof (finalize_alike _ S Al Fi X) as Q end. contradiction Q.
      + destruct (Sub _ _ B) as [B1 B2]. apply duty_app_inv in R as (d1 & R & R2). apply duty_cons_inv in R2 as (d2 & F & D & R2). destruct D as [-> A].
        assert (Y : can_finalize (d_a d1) = Yes) by (inv F; auto).
        destruct (first_fin es') as [I'|(er' & g' & es2' & -> & I')].
        * destruct Hx' as (Y' & A' & rep' & Fi' & O').
          pose proof (round_same HL (round_start_fresh Z) (round_start_fresh Z') S R R' I I' B1 B' T T' Y Y' A A') as W.
          destruct (round_hist (round_start_fresh Z) (duty_run R) I) as [H E]. destruct (round_hist (round_start_fresh Z') (duty_run R') I') as [H' E'].
          pose proof (work_alike H H' (al_round S) W) as Al. rewrite <- E, <- E' in S. inv F. cbn [d_s d_a] in *.
          unfold s_round_id in *. rewrite (al_verifier S), (al_tinfo S) in Fi'. match goal with X : finalize_round s _ a = Ok (ROAnother _ _) |- _ =>
            pose proof (finalize_alike _ S Al X Fi') as Q end. contradiction Q.
        * destruct (Sub _ _ B') as [B1' B2']. apply duty_app_inv in R' as (d1' & R' & R2'). apply duty_cons_inv in R2' as (d2' & F' & D' & R2'). destruct D' as [-> A'].
          assert (Y' : can_finalize (d_a d1') = Yes) by (inv F'; auto).
          pose proof (round_same HL (round_start_fresh Z) (round_start_fresh Z') S R R' I I' B1 B1' T T' Y Y' A A') as W.
          destruct (round_hist (round_start_fresh Z) (duty_run R) I) as [H E]. destruct (round_hist (round_start_fresh Z') (duty_run R') I') as [H' E'].
          pose proof (work_alike H H' (al_round S) W) as Al.
          destruct (next_box Z (duty_run R) I F B1 T) as [Ei N]. destruct (next_box Z' (duty_run R') I' F' B1' T') as [Ei' N'].
          rewrite <- E, <- E' in S.
          assert (Z2 : round_start d2) by (eapply fin_start; [|exact F]; eapply reachable_run; [apply round_start_reachable, Z|exact (duty_run R)]).
          assert (Z2' : round_start d2') by (eapply fin_start; [|exact F']; eapply reachable_run; [apply round_start_reachable, Z'|exact (duty_run R')]).
          assert (S2 : alike (d_s d2) (d_s d2')).
          { inv F. inv F'. cbn [d_s d_a] in *. unfold s_round_id in *.
            match goal with X : finalize_round s _ a = Ok (ROAnother _ _), X' : finalize_round s0 _ a0 = Ok (ROAnother _ _) |- _ =>
              rewrite (al_verifier S), (al_tinfo S) in X'; exact (finalize_alike _ S Al X X') end. }
          refine (IH d2 d2' es2 es2' d d' x x' _ _ Z2 Z2' S2 R2 R2' (Own _ _ B2) (Own _ _ B2') N N' Hx Hx').
          -- rewrite app_length in Hn. simpl in Hn. rewrite <- plus_n_Sm in Hn. apply le_S_n in Hn. eapply PeanoNat.Nat.le_lt_trans; [|exact Hn]. apply PeanoNat.Nat.le_add_l.
          -- rewrite Ei. exact HL.
  Qed.

  Lemma histories_agree s es es' d d' x x' : initial s -> duty r (start s) es d -> duty r (start s) es' d' ->
    single_messages (s_id s) (received_in es ++ received_in es') -> ends_with r d x -> ends_with r d' x' -> x' = x.
  Proof.
    intros Hi R R' HL Hx Hx'. assert (Z : round_start (start s)) by (left; exists s; auto). assert (S : alike s s) by (constructor; auto).
    refine (@agree_gen (received_in es ++ received_in es') _ (start s) (start s) es es' d d' x x' (PeanoNat.Nat.lt_succ_diag_r _) HL Z Z S R R' _ _ _ _ Hx Hx');
      try (intros y Hy; apply in_app_iff; auto; fail); intros vm [].
  Qed.

  (** ** The drivers do their duty *)
  Lemma pst_duty x ls p : pst r x ls p -> pinv r x -> forall todo rest, Permutation todo (handed x ++ rest) ->
    match p with
    | PRun y => exists es todo' rest', duty r (DS (pp_s x) (pp_a x) todo) es (DS (pp_s y) (pp_a y) todo') /\ Permutation todo' (handed y ++ rest') /\
        received_in es = inbox ls
    | PStop _ => True
    end.
  Proof.
    intros H I todo rest Ht. unfold handed in *.
    assert (K0 : forall z l, handed z = handed x -> pp_s z = pp_s x -> pp_a z = pp_a x -> inbox l = [] ->
      exists es todo' rest', duty r (DS (pp_s x) (pp_a x) todo) es (DS (pp_s z) (pp_a z) todo') /\ Permutation todo' (handed z ++ rest') /\ received_in es = inbox (Pr := Pr) l).
    { intros z l E1 E2 E3 E4. exists [], todo, rest. rewrite E1, E2, E3, E4. split; [constructor|]. split; [exact Ht|reflexivity]. }
    unfold handed in K0.
    destruct H as [l1 dest l2 E|l1 dest m pa l2 E Hl|l1 vm l2 E|l1 pm l2 E Hl|b Hp Hc Hh|Hp Hc Hh|b Hp E Hh|b c Hp E Hh|b Hp E Hh|b c Hp E Hh|e
      |dest m pa out a E Hp Ea|dest m pa out o E Ea Ho|pm q a Hp Hc E Ea Hh|from m a o Hp Hc Ea Hh|l o Hl Ho|o Hp E Ho|s c Hp E Ef|Hp E|Hpk Hlk Hhd]; auto.
    - unfold hd_task. destruct (pm_res (process_message (pp_s x) vm)) eqn:Er.
      + apply K0; auto. cbn [set_p pp_p pp_proc]. rewrite E. now rewrite !flat_map_app.
      + apply K0; auto. cbn [set_p pp_p pp_proc]. rewrite E. now rewrite !flat_map_app.
      + exists [], todo, (vm :: rest). split; [constructor|]. split; [|reflexivity]. cbn [set_p pp_p pp_proc]. rewrite E, flat_map_app in Ht. rewrite flat_map_app. cbn [flat_map app] in *.
        eapply Permutation_trans; [exact Ht|]. rewrite <- !app_assoc. simpl. apply Permutation_app_head.
        rewrite !app_assoc. apply Permutation_middle.
    - exists [], todo, rest. split; [constructor|]. split; [|reflexivity]. cbn [set_p set_proc pp_p pp_proc]. rewrite E, flat_map_app in Ht. rewrite flat_map_app, map_app. cbn [flat_map app map] in *.
      eapply Permutation_trans; [exact Ht|]. rewrite <- !app_assoc. simpl. apply Permutation_app_head. rewrite !app_assoc. apply Permutation_middle.
    - apply K0; auto. cbn [set_p pp_p pp_proc]. now rewrite E.
    - pose proof (proj2 (made_msg _ _ _ (pi_out I dest m pa ltac:(rewrite E; now left)))) as Hpa. destruct pa as [u art]. simpl in Hpa. subst u.
      exists [EArt (nr_msg r (s_verifier (pp_s x)) (s_round_id (pp_s x)) dest) dest art], todo, rest. split; [|split; [exact Ht|reflexivity]].
      apply duty_one; [|reflexivity]. cbn [set_acc set_hand set_out pp_s pp_a]. eapply step_art; [|exact (pi_out I dest m _ ltac:(rewrite E; now left))|exact Ea].
      apply (pi_todo I). unfold to_go. rewrite E. apply in_app_iff. right. now left.
    - assert (Hpm : pm = process_message (pp_s x) (pm_msg pm)) by (apply (pi_proc I); rewrite E; now left).
      rewrite E in Ht. cbn [map] in Ht. assert (Hin : In (pm_msg pm) todo).
      { apply (Permutation_in _ (Permutation_sym Ht)). rewrite !in_app_iff. simpl. auto. }
      apply in_split in Hin as (t1 & t2 & ->). exists [EProc (pm_msg pm)], (t1 ++ t2), rest. split; [|split; [|reflexivity]].
      + apply duty_one; [|exact Logic.I]. eapply step_proc. cbn [set_acc set_proc pp_s pp_a]. rewrite <- Hpm. exact Ea.
      + cbn [set_acc set_proc pp_p pp_proc]. rewrite <- app_assoc in Ht |- *. simpl in Ht. exact (Permutation_app_inv _ _ _ _ _ Ht).
    - exists [EPre from m o]. eexists. exists rest. assert (E1 : forall (o : PreOutcome), pp_s (match o with ToProcess vm => set_p (set_acc x a) (pp_p x ++ [PMake vm]) | _ => set_acc x a end) = pp_s x /\
        pp_a (match o with ToProcess vm => set_p (set_acc x a) (pp_p x ++ [PMake vm]) | _ => set_acc x a end) = a) by (intros []; auto).
      destruct (E1 o) as [-> ->]. split; [apply duty_one; [eapply step_pre, Ea|exact Logic.I]|]. split; [|reflexivity]. destruct o as [vm| |]; cbn [set_p set_acc pp_p pp_proc]; auto.
      rewrite flat_map_app. cbn [flat_map app]. rewrite <- !app_assoc. simpl. apply Permutation_cons_app. rewrite <- app_assoc in Ht. exact Ht.
    - exists [EFin (nr_fin r (s_verifier (pp_s x)) (s_round_id (pp_s x)))], c, []. split; [|split; [|reflexivity]].
      + apply duty_one; [|split; [reflexivity|exact (drained I Hp E)]].
        cbn [par_enter pp_s pp_a]. eapply step_fin; [|exact Ef]. pose proof (pi_phase I) as K. rewrite Hp in K. destruct K as (_ & _ & K). auto.
      + cbn [par_enter pp_p pp_proc map]. rewrite !app_nil_r. assert (Ec : flat_map (fun t : ptask Pr => match t with PMake vm => [vm] | PSend pm => [pm_msg pm] | PEnd _ => [] end) (map PMake c) = c).
        { clear. induction c as [|y c IH]; simpl; auto. now rewrite IH. } rewrite Ec. apply Permutation_refl.
  Qed.

  Lemma inbox_app (l1 l2 : list (dlabel Pr)) : inbox (l1 ++ l2) = inbox l1 ++ inbox l2.
  Proof. apply flat_map_app. Qed.
  Lemma received_app es1 es2 : received_in (es1 ++ es2) = received_in es1 ++ received_in es2.
  Proof. apply flat_map_app. Qed.

  Lemma prun_duty p ls p' : par_run r p ls p' -> forall x y, p = PRun x -> p' = PRun y -> pinv r x -> forall todo rest, Permutation todo (handed x ++ rest) ->
    exists es todo' rest', duty r (DS (pp_s x) (pp_a x) todo) es (DS (pp_s y) (pp_a y) todo') /\ Permutation todo' (handed y ++ rest') /\ received_in es = inbox ls.
  Proof.
    intros H. induction H as [p|p ls p1 act lx p2 Hr IH Hs]; intros x y -> E I todo rest Ht.
    - inv E. exists [], todo, rest. split; [constructor|auto].
    - destruct p1 as [x1|o]; [|discriminate Hs]. destruct (IH x x1 eq_refl eq_refl I todo rest Ht) as (es & t1 & rest1 & R1 & H1 & Q1).
      pose proof (prun_pinv Hr I) as I1. subst p2. destruct (pst_duty (par_step_pst _ _ _ Hs) I1 _ H1) as (es' & t2 & rest2 & R2 & H2 & Q2).
      exists (es ++ es'), t2, rest2. split; [eapply duty_app; eauto|]. split; auto. rewrite received_app, inbox_app. congruence.
  Qed.

  Lemma terminated_no_result s a rep x : terminate_due_to_errors s a = Ok rep -> rep_outcome rep <> OResult x.
  Proof. unfold terminate_due_to_errors, terminate_inner. intros H. apply bind_ok in H as (t & _ & H). inv H. discriminate. Qed.

  Lemma par_returns s0 ls rep x : par_session r s0 ls (PStop (Ok rep)) -> rep_outcome rep = OResult x ->
    exists es d, duty r (start s0) es d /\ incl (received_in es) (inbox ls) /\ ends_with r d x.
  Proof.
    intros (ls' & -> & H) Ho. apply prun_last in H as [H|(l1 & p1 & act & l2 & H & Hs & ->)]; [discriminate|].
    destruct p1 as [y|o]; [|discriminate Hs].
    destruct (prun_duty H eq_refl eq_refl (pinv_enter r s0 []) (todo := []) []) as (es & t & rest & R & _ & Q); [apply Permutation_refl|].
    assert (I : pinv r y) by exact (prun_pinv H (pinv_enter r s0 [])).
    exists es, (DS (pp_s y) (pp_a y) t). split; [exact R|]. split.
    - change (LEnter s0 :: l1 ++ l2) with ([LEnter s0] ++ (l1 ++ l2)). rewrite !inbox_app, Q. intros z Hz. simpl. apply in_app_iff. auto.
    - apply par_step_pst in Hs.
      inversion Hs as [| | | | | | | | | | | |dest m pa out o E Ea Hno| | |la o Hl Hno|o Hp E Hok| |Hp E K1 K2|]; subst.
      + destruct (Hno rep eq_refl).
      + destruct (Hno rep eq_refl).
      + split; [|split].
        * pose proof (pi_phase I) as K. rewrite Hp in K. apply K. reflexivity.
        * exact (drained I Hp E).
        * exists rep. split; auto.
      + exfalso. symmetry in K2 || idtac. eapply terminated_no_result; eauto.
  Qed.

  Lemma step_duty (d : Drv Pr) i ls (d' : Drv Pr) : dinv d -> drv_step r d i = Some (ls, d') -> 
    forall x x', drv_state d = Some x -> drv_state d' = Some x' -> exists es, duty r x es x' /\ received_in es = inbox ls.
  Proof.
    destruct d as [s a dest dests c|s a vm c|s a|o]; intros I; cbn [drv_step]; try discriminate.
    - destruct I as (Hnd & Hl & Hc). destruct i; try discriminate; intros E.
      + destruct (make_message s _ dest) as [[m pa]|e|] eqn:Em; apply stp_inj in E as [-> ->]; try (intros x x' _ E; discriminate E).
        destruct (acc_call (add_artifact a pa)) as [[a1 []]|e|] eqn:Ea; cbn [drv_try fst]; try (intros x x' _ E; discriminate E).
        apply acc_call_ok in Ea. pose proof (proj2 (made_msg _ _ _ Em)) as Hpa.
        destruct pa as [u art]. cbn [fst] in Hpa. subst u. intros x x' E E'. inv E. rewrite state_send in E'. inv E'.
        exists [EArt (nr_msg r (s_verifier s) (s_round_id s) dest) dest art]. split; [|reflexivity]. apply duty_one; [|reflexivity].
        eapply step_art; eauto. apply Hl. now left.
      + apply stp_inj in E as [-> ->]. destruct (make_message s _ dest) as [[m pa]|e|]; intros x x' _ E; discriminate E.
    - destruct i; try discriminate. intros E. apply stp_inj in E as [-> ->]. destruct (deliver_one s a vm) as [a1|e|] eqn:Ed; cbn [drv_try]; try (intros x x' _ E; discriminate E).
      apply deliver_ok in Ed. intros x x' E E'. inv E. rewrite state_apply in E'. inv E'. exists [EProc vm]. split; [|reflexivity]. apply duty_one; [|exact Logic.I].
      exact (@step_proc _ _ s a [] vm c _ Ed).
    - destruct (can_finalize a) eqn:Ec; destruct i as [| |from m| |]; try discriminate.
      + destruct (finalize_round s _ a) as [[rep|s1 c]|e|] eqn:Ef; intros E; apply stp_inj in E as [-> ->]; try (intros x x' _ E; discriminate E).
        intros x x' E E'. inv E. unfold drv_enter in E'. rewrite state_send in E'. inv E'.
        exists [EFin (nr_fin r (s_verifier s) (s_round_id s))]. split; [|reflexivity]. apply duty_one; [eapply step_fin; eauto|].
        split; [reflexivity|]. exact (proj1 (all_sent_iff s a []) I).
      + intros E. apply stp_inj in E as [-> ->]. destruct (acc_call (preprocess_message s a from m)) as [[a1 o]|e|] eqn:Ep; cbn [drv_try snd fst]; try (intros x x' _ E; discriminate E).
        apply acc_call_ok in Ep. destruct o as [vm| |].
        * destruct (deliver_one s a1 vm) as [a2|e|] eqn:Ed; cbn [drv_try]; try (intros x x' _ E; discriminate E).
          apply deliver_ok in Ed. intros x x' E E'. inv E. inv E'. exists [EPre from m (ToProcess vm); EProc vm]. split; [|reflexivity].
          change [@EPre P Pr from m (ToProcess vm); EProc vm] with ([@EPre P Pr from m (ToProcess vm)] ++ [EProc vm]).
          eapply duty_snoc; [apply duty_one; [exact (@step_pre _ _ s a [] from m _ _ Ep)|exact Logic.I]|exact (@step_proc _ _ s a1 [] vm [] _ Ed)|exact Logic.I].
        * intros x x' E E'. inv E. inv E'. eexists [EPre from m _]. split; [|reflexivity]. apply duty_one; [exact (@step_pre _ _ s a [] from m _ _ Ep)|exact Logic.I].
        * intros x x' E E'. inv E. inv E'. eexists [EPre from m _]. split; [|reflexivity]. apply duty_one; [exact (@step_pre _ _ s a [] from m _ _ Ep)|exact Logic.I].
      + intros E. apply stp_inj in E as [-> ->]. intros x x' _ E; discriminate E.
      + intros E. apply stp_inj in E as [-> ->]. intros x x' _ E; discriminate E.
      + intros E. apply stp_inj in E as [-> ->]. intros x x' _ E; discriminate E.
  Qed.

  Lemma run_duty (d : Drv Pr) ls (d' : Drv Pr) : drv_run r d ls d' -> dinv d ->
    forall x x', drv_state d = Some x -> drv_state d' = Some x' -> exists es, duty r x es x' /\ received_in es = inbox ls.
  Proof.
    intros H. induction H as [d|d ls d1 i lx d2 Hr IH Hs]; intros I x x' E E'.
    - rewrite E in E'. inv E'. exists []. split; [constructor|reflexivity].
    - assert (I1 : dinv d1) by exact (proj1 (run_dinv Hr I)).
      destruct (drv_state d1) as [x1|] eqn:E1; [|destruct d1; discriminate].
      destruct (IH I x x1 E eq_refl) as (es1 & R1 & Q1). destruct (@step_duty _ i _ _ I1 Hs x1 x' E1 E') as (es2 & R2 & Q2).
      exists (es1 ++ es2). split; [eapply duty_app; eauto|]. rewrite received_app, inbox_app. congruence.
  Qed.

  Lemma run_returns s0 ls rep x : run_session r s0 ls (DrvDone (Ok rep)) -> rep_outcome rep = OResult x ->
    exists es d, duty r (start s0) es d /\ incl (received_in es) (inbox ls) /\ ends_with r d x.
  Proof.
    intros (ls' & -> & H) Ho. apply run_last in H as [H|(l1 & d & i & l2 & H & Hs & ->)]; [exfalso; unfold drv_enter in H; destruct (elements _); discriminate|].
    assert (I : dinv d) by exact (proj1 (run_dinv H (dinv_enter s0 []))).
    pose proof (step_returns r d i Hs) as (s & a & -> & Hc).
    destruct (run_duty H (dinv_enter s0 []) (x := start s0) (x' := DS s a [])) as (es & R & Q); [unfold drv_enter; apply state_send|reflexivity|].
    exists es, (DS s a []). split; [exact R|]. split.
    - change (LEnter s0 :: l1 ++ l2) with ([LEnter s0] ++ (l1 ++ l2)). rewrite !inbox_app, Q. intros z Hz. simpl. apply in_app_iff. auto.
    - destruct Hc as [(E & _)|(_ & Ht)]; [|exfalso; eapply terminated_no_result; eauto].
      cbn [drv_step] in Hs. assert (Hin : In (LFinalize s a) l2) by (rewrite E; now left).
      destruct (@step_finalizes _ _ r (DrvWait s a) i l2 _ s a Hs Hin) as [_ Y].
      split; [exact Y|]. split; [exact (proj1 (all_sent_iff s a []) I)|].
      rewrite Y in Hs. destruct i; try discriminate. exists rep. split; [|exact Ho]. cbn [d_s d_a].
      destruct (finalize_round _ _ _) as [[rep'|s1 c]|e|]; apply stp_inj in Hs as [_ Hs]; try discriminate Hs.
      + inv Hs. reflexivity.
      + exfalso. unfold drv_enter in Hs. destruct (elements _); [destruct c|]; discriminate.
  Qed.

  Lemma results_agree s0 ls rep ls' rep' x x' : initial s0 -> returns r s0 ls rep -> returns r s0 ls' rep' ->
    single_messages (s_id s0) (inbox ls ++ inbox ls') -> rep_outcome rep = OResult x -> rep_outcome rep' = OResult x' -> x' = x.
  Proof.
    intros Hi R R' HL Ho Ho'.
    assert (K : forall ls rep x, returns r s0 ls rep -> rep_outcome rep = OResult x -> exists es d, duty r (start s0) es d /\ incl (received_in es) (inbox ls) /\ ends_with r d x).
    { intros l rp y [X|X] Hy; [exact (run_returns X Hy)|exact (par_returns X Hy)]. }
    destruct (K _ _ _ R Ho) as (es & d & D & B & E). destruct (K _ _ _ R' Ho') as (es' & d' & D' & B' & E').
    apply (@histories_agree s0 es es' d d' x x' Hi D D'); auto.
    intros v rid m m' H1 H2. apply HL; (apply in_app_iff; apply in_app_iff in H1 as [H1|H1]; apply in_app_iff in H2 as [H2|H2]; auto).
  Qed.
End Agree.

Definition slot {P : Params} (x : Verifier * Message) : Verifier * N := (fst x, rid_round (m_round (sp_meta (msg_direct (snd x))))).
Lemma slots_single {P : Params} sid (l : list (Verifier * Message)) : NoDup (map slot l) -> single_messages sid (l ++ l).
Proof.
  intros H v rid m m' H1 H2 (_ & _ & _ & A & _) (_ & _ & _ & A' & _).
  assert (I1 : In (v, m) l) by (apply in_app_iff in H1 as []; auto). assert (I2 : In (v, m') l) by (apply in_app_iff in H2 as []; auto). clear H1 H2.
  assert (E : slot (v, m) = slot (v, m')) by (unfold slot; simpl; now rewrite A, A').
  revert H I1 I2 E. clear. induction l as [|y l IH]; [contradiction|]. simpl. intros H [->|I1] [I2|I2] E; inversion H; subst; auto.
  - congruence.
  - exfalso. match goal with X : ~ In _ _ |- _ => apply X end. rewrite E. now apply in_map.
  - exfalso. match goal with X : ~ In _ _ |- _ => apply X end. rewrite <- E. now apply in_map.
Qed.
