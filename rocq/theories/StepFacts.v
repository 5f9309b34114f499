(** Why [in_step] is needed: without it there is a schedule under which an honest party is blamed, or a message is lost. *)
From Coq Require Import List NArith Bool Lia Arith.
From Verif Require Import Base BMap Errors RoundId Message Protocol Transcript Evidence Session Spec SpecCrypto
  MessageFacts SessionFacts SignFacts Network SpecNet SpecPartial NetFacts.
Import ListNotations.
Set Implicit Arguments.

Section Dec.
  Lemma dec_list {A} (P : A -> Prop) (l : list A) : (forall x, P x \/ ~ P x) -> (exists x, In x l /\ P x) \/ forall x, In x l -> ~ P x.
  Proof.
    intros D. induction l as [|y l [(x & Hx & Px)|IH]]; [right; intros x []|left; exists x; split; [now right|exact Px]|].
    destruct (D y) as [Py|Py]; [left; exists y; split; [now left|exact Py]|]. right. intros x [<-|Hx]; auto.
  Qed.
  Lemma dec_below (P : nat -> Prop) n : (forall k, k < n -> P k \/ ~ P k) -> (exists k, k < n /\ P k) \/ forall k, k < n -> ~ P k.
  Proof.
    induction n as [|n IH]; intros D; [right; intros k L; lia|]. destruct (D n ltac:(lia)) as [H|H]; [left; exists n; auto|].
    destruct IH as [(k & Hk & H')|H']; [intros k Hk; apply D; lia|left; exists k; auto|right; intros k Hk; destruct (Nat.eq_dec k n) as [->|]; auto].
    apply H'. lia.
  Qed.
  Lemma least_of {A} (f : A -> nat) (P : A -> Prop) (l : list A) : (forall x, P x \/ ~ P x) -> (exists x, In x l /\ P x) ->
    exists x, In x l /\ P x /\ forall y, In y l -> P y -> f x <= f y.
  Proof.
    intros D (x & Hx & Px). remember (f x) as k eqn:Ek. revert x Hx Px Ek. induction k as [k IH] using lt_wf_ind. intros x Hx Px Ek.
    destruct (@dec_list A (fun y => P y /\ f y < k) l) as [(y & Hy & Py & L)|H].
    - intros y. destruct (D y) as [Py|Py]; [|right; tauto]. destruct (lt_dec (f y) k); [left|right]; tauto.
    - exact (IH (f y) L y Hy Py eq_refl).
    - exists x. split; auto. split; auto. intros y Hy Py. destruct (Nat.le_gt_cases (f x) (f y)) as [|L]; auto.
      exfalso. apply (H y Hy). split; auto. lia.
  Qed.
End Dec.

Section Certain.
  Context {P : Params}.
  Context {Pr : Proto}.
  Variable h : Plan Pr.

  Lemma certain_low v g u q : certain h v g u q -> prank q <= prank g.
  Proof.
    induction 1 as [v g u|v g q E|v g g' w u q B E H IH].
    - unfold prank at 1. simpl. lia.
    - destruct E as [->|E]; [lia|]. apply before_rank in E. lia.
    - apply before_rank in B. lia.
  Qed.
  Lemma certain_down v g u q q' : certain h v g u q -> prank q' <= prank q -> certain h v g u q'.
  Proof.
    induction 1 as [v g u|v g q E|v g g' w u q B E H IH]; intros L.
    - assert (E : q' = (0, false)) by (apply prank_inj; unfold prank in *; simpl in *; lia). subst. constructor.
    - constructor. destruct (Nat.eq_dec (prank q') (prank g)) as [E'|E']; [left; now apply prank_inj|right]. apply before_rank.
      destruct E as [->|E]; [lia|]. apply before_rank in E. lia.
    - eapply certain_heard; eauto.
  Qed.
  Lemma certain_trans v g u q w p : certain h v g u q -> certain h u q w p -> certain h v g w p.
  Proof.
    induction 1 as [v g u|v g q E|v g g' x u q B E H IH]; intros H2.
    - assert (L := certain_low H2). assert (E : p = (0, false)) by (apply prank_inj; unfold prank in *; simpl in *; lia). subst. constructor.
    - destruct E as [->|E]; auto. inversion H2 as [a b c|a b c E'|a b g' x c d B E' H']; subst.
      + constructor.
      + constructor. destruct E' as [->|E']; [now right|]. right. apply before_rank in E, E'. apply before_rank. lia.
      + eapply certain_heard; [|exact E'|exact H']. apply before_rank in E, B. apply before_rank. lia.
    - eapply certain_heard; eauto.
  Qed.

  Definition of_rank (k : nat) : phase := (Nat.div2 k, Nat.odd k).
  Lemma of_rank_prank g : of_rank (prank g) = g.
  Proof.
    destruct g as [n b]. unfold of_rank, prank. cbn [fst snd]. destruct b; cbn [b2n].
    - replace (2 * n + 1) with (S (2 * n)) by lia. rewrite Nat.div2_succ_double. f_equal. rewrite Nat.odd_succ. rewrite Nat.even_mul. reflexivity.
    - rewrite Nat.add_0_r, Nat.div2_double. f_equal. rewrite Nat.odd_mul. reflexivity.
  Qed.
  Lemma prank_of_rank k : prank (of_rank k) = k.
  Proof.
    unfold prank, of_rank. cbn [fst snd]. pose proof (Nat.div2_odd k) as E. unfold b2n. unfold Nat.b2n in E. lia.
  Qed.
  Lemma certain_dec v g u q : certain h v g u q \/ ~ certain h v g u q.
  Proof.
    remember (prank g) as k eqn:Ek. revert v g Ek. induction k as [k IH] using lt_wf_ind. intros v g Ek.
    destruct (Nat.eq_dec (prank q) 0) as [E0|E0].
    { left. assert (q = (0, false)) by (apply prank_inj; exact E0). subst. constructor. }
    destruct (eqb_spec u v) as [->|Hne].
    { destruct (Nat.le_gt_cases (prank q) (prank g)) as [L|L]; [left|right; intros H; apply certain_low in H; lia].
      eapply certain_down; [|exact L]. constructor. now left. }
    destruct (@dec_below (fun j => exists w, In w (elements (expects h (of_rank j) v)) /\ certain h w (of_rank j) u q) k) as [(j & Hj & w & Hw & H)|H].
    - intros j Hj. destruct (@dec_list _ (fun w => certain h w (of_rank j) u q) (elements (expects h (of_rank j) v))) as [H|H]; [|left; exact H|right].
      + intros w. apply (IH j Hj). now rewrite prank_of_rank.
      + intros (w & Hw & Hc). exact (H w Hw Hc).
    - left. apply in_elements in Hw. eapply certain_heard; [|exact Hw|exact H]. apply before_rank. rewrite prank_of_rank. lia.
    - right. intros Hc. inversion Hc as [a b c|a b c E'|a b g' x c d B E' H']; subst; [now apply E0|congruence|].
      apply before_rank in B. apply (H (prank g') B). rewrite of_rank_prank. exists x. split; auto. now apply in_elements.
  Qed.
End Certain.

Lemma sched_cons {P : Params} {Pr : Proto} (r : NetRng) (n0 : Net Pr) x n1 xs n2 :
  act r n0 x = Some (Ok n1) -> schedule r n1 xs n2 -> schedule r n0 (x :: xs) n2.
Proof.
  intros Hx Hs. induction Hs as [n|n ys m y k Hs IH Hy].
  - change [x] with ([] ++ [x]). econstructor; [constructor|exact Hx].
  - rewrite app_comm_cons. econstructor; eauto.
Qed.
Lemma take_in {A} (p : A -> bool) (l : list A) : existsb p l = true -> exists i x rest, take_nth i l = Some (x, rest) /\ p x = true.
Proof.
  induction l as [|y l IH]; [discriminate|]. simpl. destruct (p y) eqn:E; [intros _; now exists 0, y, l|]. intros H.
  destruct (IH H) as (i & x & rest & Ht & Hp). exists (S i), x, (y :: rest). simpl. now rewrite Ht.
Qed.

Section Exact.
  Context {P : Params}.
  Context {Pr : Proto}.
  Variable r : NetRng.
  Variable sid : bytes.
  Variable parties : bset Verifier.
  Variable ep : Verifier -> EntryPoint Pr.
  Variable h : Plan Pr.
  Variable sk : Verifier -> Signer.
  Hypothesis Hsk : forall v, mem v parties = true -> signer_key (sk v) = v.
  Hypothesis Hwire : wire_total P.
  Hypothesis Hsig : signatures_correct P.
  Hypothesis HL : lock_step r sid parties ep h.
  Notation N := (pl_last h).
  Notation party v := (mem v parties = true).
  Notation inv := (NInv sid parties h sk).
  Notation next := (pnext h).

  (** ** Running as far as allowed *)
  Section Allowed.
    Variable Q : Verifier -> phase -> Prop.
    Hypothesis Q_dec : forall v q, Q v q \/ ~ Q v q.
    Hypothesis Q_last : forall v q, Q v q -> fst q <= N.
    Hypothesis Q_down : forall v q q', Q v q -> prank q' <= prank q -> Q v q'.
    Hypothesis Q_heard : forall v q g u, Q v q -> prank g < prank q -> mem u (exp h g v) = true -> Q u g.

    (** Everybody has sent and processed everything of its phase. *)
    Definition settled (net : Net Pr) (ph : Verifier -> phase) : Prop :=
      (forall v, party v -> exists d, get v (nodes net) = Some (Running d) /\ all_sent d = true /\ d_todo d = []) /\
      (forall u v, party v -> cnt_fl (flight net) u v (prid h (ph v)) = 0).

    Lemma running net ph v : inv net ph -> Q v (ph v) -> party v -> exists d, get v (nodes net) = Some (Running d) /\
      pvalid h v (ph v) /\ good_sess sid h sk v (ph v) (d_s d) /\ good_acc sid h v (ph v) (d_a d) (d_todo d).
    Proof.
      intros I HQ Hv. pose proof (ni_node I v Hv) as Hn. destruct (get v (nodes net)) as [[d|rep]|]; [eauto| |contradiction].
      destruct Hn as [E _]. apply Q_last in HQ. rewrite E in HQ. simpl in HQ. lia.
    Qed.

    Lemma settled_sent net ph u g v : inv net ph -> settled net ph -> party u -> fst g <= N -> mem v (dst h g u) = true -> prank g <= prank (ph u) ->
      sent h net ph u g v = true.
    Proof.
      intros I [S _] Hu Hg Hd L. unfold sent. destruct (Nat.ltb_spec (prank g) (prank (ph u))) as [|L']; auto.
      assert (E : prank g = prank (ph u)) by lia. rewrite E, Nat.eqb_refl. apply prank_inj in E. subst g.
      destruct (S u Hu) as (d & Ed & Ha & _). unfold arts_of. rewrite Ed. pose proof (ni_node I u Hu) as Hn. rewrite Ed in Hn. destruct Hn as (_ & G & _).
      unfold all_sent in Ha. rewrite forallb_forall in Ha. apply Ha. apply in_elements. unfold message_destinations. now rewrite (gs_comm G).
    Qed.
    Lemma settled_payload net ph u v d : inv net ph -> settled net ph -> party v -> get v (nodes net) = Some (Running d) -> pvalid h v (ph v) ->
      mem u (exp h (ph v) v) = true -> prank (ph v) <= prank (ph u) -> contains u (a_payloads (d_a d)) = true.
    Proof.
      intros I S Hv Ed Hp Hu L. assert (Hpu : party u) by exact (proj1 (exp_party HL (ph v) v u (proj1 Hp) Hv Hu)).
      pose proof (ni_count I u Hpu Hv Hp) as Hc. rewrite Nat.leb_refl, (held_eq h net ph v (ph v) u Ed), Nat.eqb_refl in Hc.
      pose proof Hu as Hd. rewrite <- (agree HL (ph v) u v (proj1 Hp) Hpu Hv) in Hd.
      rewrite (@settled_sent net ph u (ph v) v I S Hpu (proj1 Hp) Hd L) in Hc.
      destruct S as [S1 S2]. rewrite (S2 u v Hv) in Hc. destruct (S1 v Hv) as (d' & Ed' & _ & Et). rewrite Ed in Ed'. injection Ed' as <-. rewrite Et in Hc.
      cbn in Hc. destruct (contains u (a_payloads (d_a d))); auto. discriminate.
    Qed.

    Lemma allowed_step net ph : inv net ph -> (forall v, party v -> Q v (ph v)) ->
      (settled net ph /\ forall v, party v -> ~ Q v (next v (ph v))) \/
      exists x net' ph', act r net x = Some (Ok net') /\ inv net' ph' /\ (forall v, party v -> Q v (ph' v)) /\
        (mu parties net' < mu parties net /\ ph' = ph \/ total parties (rest h ph') < total parties (rest h ph)).
    Proof.
      intros I HQ.
      destruct (existsb (fun v => match get v (nodes net) with Some (Running d) => negb (all_sent d) | _ => false end) (elements parties)) eqn:Eu.
      { right. apply existsb_exists in Eu as (v & Hv & Hs). destruct (get v (nodes net)) as [[d|rep]|] eqn:Ev; try discriminate.
        assert (Hex : exists u, mem u (message_destinations (d_s d)) = true /\ contains u (a_artifacts (d_a d)) = false).
        { unfold all_sent in Hs. apply negb_true_iff in Hs. revert Hs.
          assert (Hl : forall u, In u (elements (message_destinations (d_s d))) -> mem u (message_destinations (d_s d)) = true) by (intros u; apply in_elements).
          revert Hl. generalize (elements (message_destinations (d_s d))). induction l as [|u l IH]; intros Hl Hs; [discriminate|].
          cbn [forallb] in Hs. destruct (contains u (a_artifacts (d_a d))) eqn:Ec.
          - apply IH; auto. intros w Hw. apply Hl. now right.
          - exists u. split; auto. apply Hl. now left. }
        destruct Hex as (u & Hu1 & Hu2).
        assert (Ha : exists res, act r net (ASend v u) = Some res). { cbn [act]. rewrite Ev, Hu1, Hu2. cbn [andb negb]. eauto. }
        destruct Ha as [res Ha]. destruct (step_send Hsk Hwire Hsig HL v u I Ha) as (net' & -> & I' & M). exists (ASend v u), net', ph. auto 6. }
      destruct (existsb (fun v => match get v (nodes net) with Some (Running d) => match d_todo d with [] => false | _ => true end | _ => false end) (elements parties)) eqn:Et.
      { right. apply existsb_exists in Et as (v & Hv & Hs). destruct (get v (nodes net)) as [[d|rep]|] eqn:Ev; try discriminate.
        destruct (d_todo d) as [|m todo] eqn:Ed; [discriminate|].
        assert (Ha : exists res, act r net (AProcess v 0) = Some res). { cbn [act]. rewrite Ev, Ed. cbn [take_nth]. eauto. }
        destruct Ha as [res Ha]. destruct (step_process HL v 0 I Ha) as (net' & -> & I' & M). exists (AProcess v 0), net', ph. auto 6. }
      destruct (existsb (fun x => eqb (m_round (sp_meta (msg_direct (snd x)))) (prid h (ph (msg_dest (snd x))))) (flight net)) eqn:Ef.
      { right. apply take_in in Ef as (i & [u m] & rest & Ht & E). cbn [snd] in E.
        destruct (eqb_spec (m_round (sp_meta (msg_direct m))) (prid h (ph (msg_dest m)))) as [E1|]; [clear E; rename E1 into E|discriminate].
        assert (Hin : In (u, m) (flight net)). { destruct (take_nth_spec _ _ Ht) as (l1 & l2 & -> & _). apply in_or_app. right. now left. }
        destruct (ni_flight I u m Hin) as (g & Hgn & Hu & Gm & Hd). set (v := msg_dest m) in *.
        destruct (dst_party HL g u v Hgn Hu Hd) as [Hv _].
        destruct (running I (HQ v Hv) Hv) as (d & Ed & Hp & _).
        assert (T : timely h net ph i).
        { intros u' m' rest' g' Ht' Hg' E'. rewrite Ht in Ht'. injection Ht' as <- <- <-. fold v. rewrite E in E'.
          apply (prid_inj HL (ph v) g' (proj1 Hp) Hg') in E'. subst g'. pose proof (prank_next h v (ph v)). lia. }
        assert (Ha : exists res, act r net (ADeliver i) = Some res). { cbn [act]. rewrite Ht. fold v. rewrite Ed. eauto. }
        destruct Ha as [res Ha]. destruct (step_deliver_ HL T I Ha) as (net' & -> & I' & M). exists (ADeliver i), net', ph. auto 6. }
      pose proof (existsb_false _ _ Eu) as Hsent. pose proof (existsb_false _ _ Et) as Htodo. cbv beta in Hsent, Htodo.
      assert (S : settled net ph).
      { split.
        - intros v Hv. destruct (running I (HQ v Hv) Hv) as (d & Ed & _). exists d. split; auto. apply in_elements in Hv. specialize (Hsent v Hv). specialize (Htodo v Hv).
          rewrite Ed in Hsent, Htodo. apply negb_false_iff in Hsent. split; auto. now destruct (d_todo d).
        - intros u v Hv. unfold cnt_fl. pose proof (existsb_false _ _ Ef) as Hno. cbv beta in Hno. clear - Hno. induction (flight net) as [|[w m] l IH]; auto. cbn [filter].
          destruct (eqb_spec (msg_dest m) v) as [E|].
          + specialize (Hno (w, m) (or_introl eq_refl)) as H0. cbn [snd fst] in *. rewrite E in *. rewrite H0. rewrite andb_false_r. apply IH. intros y Hy. apply Hno. now right.
          + cbn [fst snd]. apply eqb_neq in n. rewrite n. rewrite andb_false_r. apply IH. intros y Hy. apply Hno. now right. }
      destruct (@dec_list _ (fun v => Q v (next v (ph v))) (elements parties)) as [Hex|Hno].
      { intros v. apply Q_dec. }
      2:{ left. split; auto. intros v Hv. apply Hno. now apply in_elements. }
      right. destruct (@least_of _ (fun v => prank (ph v)) (fun v => Q v (next v (ph v))) (elements parties)) as (v & Hin & Hq & Hmin); [intros w; apply Q_dec|exact Hex|].
      pose proof (proj1 (in_elements _ _) Hin) as Hv. destruct (running I (HQ v Hv) Hv) as (d & Ed & Hp & G & A).
      assert (Hy : can_finalize (d_a d) = Yes).
      { apply (complete_yes A). intros u Hu. assert (Hpu : party u) by exact (proj1 (exp_party HL (ph v) v u (proj1 Hp) Hv Hu)).
        apply (@settled_payload net ph u v d I S Hv Ed Hp Hu).
        destruct (Nat.le_gt_cases (prank (ph v)) (prank (ph u))) as [|L]; auto. exfalso.
        assert (Hqu : Q u (ph v)) by (apply (@Q_heard v (next v (ph v)) (ph v) u Hq); auto; apply prank_next).
        destruct (running I (HQ u Hpu) Hpu) as (du & _ & Hpu' & _).
        assert (Hvu : pvalid h u (ph v)).
        { pose proof Hu as Hd. rewrite <- (agree HL (ph v) u v (proj1 Hp) Hpu Hv) in Hd. exact (proj1 (dst_valid HL (ph v) u v (proj1 Hp) Hpu Hd)). }
        pose proof (prank_between (or_introl Hvu) Hpu' L) as L2.
        pose proof (Hmin u (proj2 (in_elements _ _) Hpu) (@Q_down u (ph v) (next u (ph u)) Hqu L2)). cbv beta in *. lia. }
      destruct (proj1 S v Hv) as (d' & Ed' & Hs & _). rewrite Ed in Ed'. injection Ed' as <-.
      assert (Ha : exists res, act r net (AFinalize v) = Some res). { cbn [act]. rewrite Ed, Hy, Hs. eauto. }
      destruct Ha as [res Ha]. destruct (step_finalize Hsk Hwire Hsig HL v I Ha) as (net' & -> & I'). eexists (AFinalize v), net', _. split; [exact Ha|]. split; [exact I'|]. split.
      - intros w Hw. destruct (eqb_spec w v) as [->|]; auto.
      - right. pose proof (@total_change P parties (rest h ph) (rest h (fun w => if eqb w v then next v (ph v) else ph w)) v Hv) as K.
        assert (Hne : forall w, w <> v -> rest h (fun w => if eqb w v then next v (ph v) else ph w) w = rest h ph w).
        { intros w Hw. unfold rest. apply eqb_neq in Hw. now rewrite Hw. }
        specialize (K Hne). unfold rest at 2 4 in K. rewrite eqb_refl in K.
        pose proof (prank_next h v (ph v)). pose proof (rank_last Hp). lia.
    Qed.

    Lemma exhaust net ph : inv net ph -> (forall v, party v -> Q v (ph v)) ->
      exists xs net' ph', schedule r net xs net' /\ inv net' ph' /\ (forall v, party v -> Q v (ph' v)) /\
        settled net' ph' /\ forall v, party v -> ~ Q v (next v (ph' v)).
    Proof.
      remember (total parties (rest h ph)) as a eqn:Ea. revert net ph Ea. induction a as [a IHa] using lt_wf_ind.
      intros net. remember (mu parties net) as b eqn:Eb. revert net Eb. induction b as [b IHb] using lt_wf_ind.
      intros net Eb ph Ea I HQ. destruct (allowed_step I HQ) as [[S Hn]|(x & net1 & ph1 & Hx & I1 & HQ1 & M)].
      - exists [], net, ph. split; [constructor|]. auto.
      - assert (K : exists xs net' ph', schedule r net1 xs net' /\ inv net' ph' /\ (forall v, party v -> Q v (ph' v)) /\
          settled net' ph' /\ forall v, party v -> ~ Q v (next v (ph' v))).
        { destruct M as [[M ->]|M]; [apply (IHb (mu parties net1)) with (ph := ph); auto; lia|apply (IHa (total parties (rest h ph1))) with (ph := ph1); auto; lia]. }
        destruct K as (xs & net' & ph' & Hs & K). exists (x :: xs), net', ph'. split; auto. eapply sched_cons; eauto.
    Qed.
  End Allowed.

  Lemma close_cached (s : Session Pr) a c : close_round s (set_cached a c) = close_round s a.
  Proof. reflexivity. Qed.
  Lemma finalize_cached (s : Session Pr) g a c s' l : finalize_round s g a = Ok (ROAnother s' l) ->
    exists l', finalize_round s g (set_cached a c) = Ok (ROAnother s' l') /\
      forall m, In m l' -> exists u k, get u c = Some k /\ get (s_round_id s') k = Some m.
  Proof.
    assert (F : forall rid m, In m (filter_messages c rid) -> exists u k, get u c = Some k /\ get rid k = Some m).
    { intros rid m H. unfold filter_messages in H. apply in_flat_map in H as ([u k] & Hin & H). cbn [snd] in H. apply in_to_list in Hin.
      destruct (get rid k) eqn:E; [|contradiction]. destruct H as [<-|[]]. eauto. }
    unfold finalize_round. rewrite close_cached. intros H. apply bind_ok in H as (t & Ht & H). rewrite Ht. cbn [bind].
    destruct (s_echo_info s) as [info|].
    - apply bind_ok in H as (echos & H1 & H). apply bind_ok in H as (ti & H2 & H). apply bind_ok in H as (s1 & H3 & H). inv H.
      cbn [a_payloads a_artifacts a_cached set_cached]. rewrite H1. cbn [bind]. rewrite H2. cbn [bind]. rewrite H3. cbn [bind].
      eexists. split; [reflexivity|]. apply new_for_next_round_ok in H3. pose proof (cr_tinfo H3) as E. rewrite H2 in E. injection E as ->.
      intros m. apply F.
    - apply bind_ok in H as (out & H1 & H). cbn [a_payloads a_artifacts a_cached set_cached]. rewrite H1. cbn [bind]. destruct out as [st|x]; [|discriminate].
      destruct (negb _); [discriminate|]. apply bind_ok in H as (s1 & H3 & H). inv H. rewrite H3. cbn [bind].
      eexists. split; [reflexivity|]. apply new_for_next_round_ok in H3. pose proof (cr_tinfo H3) as E. cbn [rd_tinfo] in E. injection E as E.
      intros m Hm. apply filter_In in Hm as [Hm _]. unfold s_round_id. rewrite <- E. now apply F.
  Qed.
  Lemma finalize_cached_end (s : Session Pr) g a c rep : finalize_round s g a = Ok (ROFinished rep) -> finalize_round s g (set_cached a c) = Ok (ROFinished rep).
  Proof.
    unfold finalize_round. rewrite close_cached. intros H. apply bind_ok in H as (t & Ht & H). rewrite Ht. cbn [bind].
    destruct (s_echo_info s) as [info|].
    - apply bind_ok in H as (echos & H1 & H). apply bind_ok in H as (ti & H2 & H). apply bind_ok in H as (s1 & H3 & H). discriminate.
    - apply bind_ok in H as (out & H1 & H). cbn [a_payloads a_artifacts a_cached set_cached]. rewrite H1. cbn [bind]. destruct out as [st|x]; [|exact H].
      destruct (negb _); [discriminate|]. apply bind_ok in H as (s1 & H3 & H). discriminate.
  Qed.

  (** A message of a phase beyond the next one is rejected, or kept. *)
  Lemma pre_late v f s a todo u m g : pvalid h v f -> party v -> good_sess sid h sk v f s -> good_acc sid h v f a todo -> good_msg sid h g u v m ->
    fst g <= N -> prank (next v f) < prank g ->
    (exists e, preprocess_message s a u m = (set_unprovable a (insert u e (a_unprovable a)), Ok (PreError e))) \/
    preprocess_message s a u m = (fst (cache_message a (vm_of u m)), Ok Cached).
  Proof.
    intros Hf Hv G A (Hd & (H1 & H2 & H3 & M1 & M2 & M3) & B & D) Hg L. pose proof (prank_next h v f) as Lf.
    assert (Hnx : pvalid h v (next v f)).
    { destruct (next_valid Hf) as [|E]; auto. rewrite E in L. unfold prank in L. destruct (snd g); simpl in L; lia. }
    pose proof (@not_banned P Pr sid h sk v f s a todo u G A) as Hb. apply banned_false in Hb.
    unfold preprocess_message. rewrite Hb.
    assert (Eu : unify_metadata m = Some (mkCMessage (sp_meta (msg_direct m)) (msg_direct m) (msg_echo m) (msg_normal m)))
      by (apply unify_metadata_ok; repeat split; congruence).
    rewrite Eu. cbn [cm_meta]. rewrite M1. cbn [m_session m_round]. rewrite (gs_id G), bytes_eqb_refl. cbn [negb].
    destruct (simultaneous HL Hf Hv G Hnx) as (acc & -> & _). rewrite (good_rid HL Hf Hv G).
    destruct (eqb_spec (prid h g) (prid h f)) as [E|Hne].
    { apply (prid_inj HL g f Hg (proj1 Hf)) in E. subst g. lia. }
    destruct (mem (prid h g) acc).
    2:{ left. exists RE_WrongRound. unfold reject, register_unprovable. rewrite (ga_unprov A), contains_empty. reflexivity. }
    assert (Hc : message_is_cached a u (prid h g) = false).
    { unfold message_is_cached. destruct (get u (a_cached a)) as [c|] eqn:Ec; auto. destruct (contains (prid h g) c) eqn:E; auto.
      apply contains_get in E as [x Hx]. destruct (ga_cached A u (prid h g) Ec Hx) as [E _]. apply (prid_inj HL g (next v f) Hg (proj1 Hnx)) in E. subst g. lia. }
    right. rewrite Hc.
    rewrite (proj2 (verify_message_ok u _ (vm_of u m))) by (simpl; unfold vm_of; rewrite M1; auto).
    unfold cache_message, vm_of. cbn [vm_meta vm_from]. rewrite M1. cbn [m_round].
    unfold message_is_cached in Hc.
    destruct (get u (a_cached a)) as [c|]; [rewrite Hc|rewrite contains_empty]; reflexivity.
  Qed.

  (** ** Both directions *)
  Lemma steps_keep net0 : in_step parties h -> honest_net r sid parties sk ep = Ok net0 ->
    forall xs net, schedule r net0 xs net -> fine parties net /\ keeps r net.
  Proof.
    intros HS E0 xs net Hs. pose proof (conj HL HS : honest_run r sid parties ep h) as HR. unfold honest_net in E0.
    destruct (start_ok sk Hsk Hwire Hsig HL) as (net1 & E & I). rewrite E in E0. injection E0 as ->.
    destruct (schedule_ok Hsk Hwire Hsig HR I Hs) as [ph Ip]. split; [exact (inv_fine Ip)|].
    intros v d net' Ev Ha u c rid m Hc Hm. destruct (mem v parties) eqn:Hv; [|rewrite (ni_none Ip v Hv) in Ev; discriminate].
    pose proof (ni_node Ip v Hv) as Hn. rewrite Ev in Hn. destruct Hn as (Hp & G & A). destruct (ga_cached A u rid Hc Hm) as (-> & Hnx & _).
    cbn [act] in Ha. rewrite Ev in Ha. destruct (can_finalize (d_a d)) eqn:Hy; try discriminate. destruct (all_sent d) eqn:Hall; [|discriminate].
    destruct d as [s a todo]. cbn [d_s d_a d_todo] in *. rewrite (good_rid HL Hp Hv G) in Ha.
    destruct (fin_ok Hsk Hwire Hsig HL Hp Hv G A Hy Hall) as [(_ & s' & Ef & _)|(En & _)].
    2:{ rewrite En in Hnx. destruct Hnx as [Hnx _]. simpl in Hnx. lia. }
    rewrite Ef in Ha. cbn [bind] in Ha. injection Ha as <-. eexists. split; [unfold set_node; cbn [nodes]; apply get_insert_eq|].
    cbn [d_todo]. unfold filter_messages. apply in_flat_map. exists (u, c). split; [now apply in_to_list|]. cbn [snd]. rewrite Hm. now left.
  Qed.

  Lemma start_certain net0 (Q : Verifier -> phase -> Prop) : honest_net r sid parties sk ep = Ok net0 ->
    (forall v q, Q v q \/ ~ Q v q) -> (forall v q, Q v q -> fst q <= N) -> (forall v q q', Q v q -> prank q' <= prank q -> Q v q') ->
    (forall v q g u, Q v q -> prank g < prank q -> mem u (exp h g v) = true -> Q u g) -> (forall v, Q v (0, false)) ->
    exists xs net ph, schedule r net0 xs net /\ inv net ph /\ (forall v, party v -> Q v (ph v)) /\ settled net ph /\
      (forall v q, party v -> Q v q -> pvalid h v q -> prank q <= prank (ph v)).
  Proof.
    intros E0 Q1 Q2 Q3 Q4 Q5. unfold honest_net in E0. destruct (start_ok sk Hsk Hwire Hsig HL) as (net1 & E & I). rewrite E in E0. injection E0 as ->.
    destruct (@exhaust Q Q1 Q2 Q3 Q4 _ _ I (fun v _ => Q5 v)) as (xs & net & ph & Hs & Ip & HQ & S & Hno). exists xs, net, ph.
    repeat (split; [assumption|]). intros v q Hv Hq Hp. destruct (Nat.le_gt_cases (prank q) (prank (ph v))) as [|L]; auto. exfalso. apply (Hno v Hv).
    destruct (@running Q Q2 _ _ v Ip (HQ v Hv) Hv) as (d & _ & Hp' & _). apply (Q3 v q); auto. exact (prank_between (or_introl Hp) Hp' L).
  Qed.

  Lemma safe_in_step net0 : honest_net r sid parties sk ep = Ok net0 ->
    (forall xs net, schedule r net0 xs net -> fine parties net /\ keeps r net) -> in_step parties h.
  Proof.
    intros E0 Safe g0 v0 u Hg0 Hv0 Hu. change (mem u (dst h g0 v0) = true) in Hu.
    destruct (dst_party HL g0 v0 u Hg0 Hv0 Hu) as [Hpu Hne]. destruct (dst_valid HL g0 v0 u Hg0 Hv0 Hu) as [Hv0g Hug].
    assert (Rank : forall p q : phase, prank p <= prank q -> @fst nat bool q <= N -> @fst nat bool p <= N).
    { intros [n b] [k c] L Hk. unfold prank in L. cbn [fst snd] in *. destruct b, c; simpl in L; lia. }
    (* as little as possible: [u] is at phase [f] *)
    destruct (@start_certain net0 (certain h v0 g0)) as (xs1 & net1 & ph1 & Hs1 & I1 & HQ1 & S1 & Max1); auto.
    { intros v q. apply certain_dec. }
    { intros v q H. apply (Rank q g0); auto. exact (certain_low H). }
    { intros v q q' H L. eapply certain_down; [exact H|exact L]. }
    { intros v q g w H L Hw. apply (certain_trans H). eapply certain_heard; [|exact Hw|constructor; now left]. now apply before_rank. }
    { intros v. constructor. }
    set (f := ph1 u). pose proof (HQ1 u Hpu) as Hf. fold f in Hf. pose proof (certain_low Hf) as Lf.
    assert (Pf : pvalid h u f).
    { destruct (phase_ok u I1 Hpu) as [|E]; auto. exfalso. apply (Rank _ _ Lf) in Hg0. unfold f in Hg0. rewrite E in Hg0. simpl in Hg0. lia. }
    assert (R0 : prank g0 <= prank (ph1 v0)). { apply Max1; auto. constructor. now left. }
    assert (Low : forall q, certain h v0 g0 u q -> prank q <= prank f). { intros q H. exact (certain_reached HL I1 H Hg0 Hv0 R0). }
    destruct (Nat.le_gt_cases (prank g0) (prank (next u f))) as [Le|Gt].
    { exists f. split; auto. intros g' B1 B2. apply before_rank in B1, B2.
      destruct (snd g') eqn:Eb; [split; auto; destruct (echoes h (fst g') u) eqn:Ee; auto|]; exfalso;
        assert (Hg' : pvalid h u g') by (split; [apply (Rank g' g0); auto; lia|congruence]);
        pose proof (prank_between (or_introl Hg') Pf B1); lia. }
    exfalso.
    (* the same, and everybody [u] waits for has got there *)
    set (Q := fun v q => certain h v0 g0 v q \/ exists w, In w (elements (exp h f u)) /\ certain h w f v q).
    destruct (@start_certain net0 Q) as (xs & net & ph & Hs & I & HQ & S & Max); auto.
    { intros v q. unfold Q. destruct (certain_dec h v0 g0 v q) as [|Hn]; auto.
      destruct (@dec_list _ (fun w => certain h w f v q) (elements (exp h f u))) as [(w & Hw & Hc)|Hn2]; [intros; apply certain_dec|left; right; eauto|].
      right. intros [H|(w & Hw & Hc)]; auto. exact (Hn2 w Hw Hc). }
    { intros v q [H|(w & _ & H)]; apply certain_low in H; [apply (Rank q g0)|apply (Rank q f)]; auto. apply Pf. }
    { intros v q q' [H|(w & Hw & H)] L; [left|right; exists w; split; auto]; (eapply certain_down; [exact H|exact L]). }
    { assert (K : forall x a v q g w, certain h x a v q -> prank g < prank q -> mem w (exp h g v) = true -> certain h x a w g).
      { intros x a v q g w H L Hw. apply (certain_trans H). eapply certain_heard; [|exact Hw|constructor; now left]. now apply before_rank. }
      intros v q g w [H|(x & Hx & H)] L Hw; [left|right; exists x; split; auto]; exact (@K _ _ v q g w H L Hw). }
    { intros v. left. constructor. }
    assert (Eu : ph u = f).
    { apply prank_inj. apply Nat.le_antisymm.
      - destruct (HQ u Hpu) as [H|(w & _ & H)]; [now apply Low|exact (certain_low H)].
      - apply Max; auto. now left. }
    assert (Rv : prank g0 <= prank (ph v0)). { apply Max; auto. left. constructor. now left. }
    pose proof (proj1 S u Hpu) as (d & Ed & Hall & Htodo). pose proof (ni_node I u Hpu) as Hn. rewrite Ed, Eu in Hn. destruct Hn as (_ & G & A).
    assert (Hy : can_finalize (d_a d) = Yes).
    { apply (complete_yes A). intros w Hw. apply (@settled_payload net ph w u d I S Hpu Ed); rewrite ?Eu; auto.
      destruct (exp_party HL f u w (proj1 Pf) Hpu Hw) as [Hpw _]. pose proof Hw as Hd. rewrite <- (agree HL f w u (proj1 Pf) Hpw Hpu) in Hd.
      apply Max; auto; [|exact (proj1 (dst_valid HL f w u (proj1 Pf) Hpw Hd))]. right. exists w. split; [now apply in_elements|constructor; now left]. }
    (* the message of [v0] is on its way *)
    pose proof (ni_count I v0 Hv0 Hpu Hug) as Hc. rewrite (@settled_sent net ph v0 g0 u I S Hv0 Hg0 Hu Rv), Eu in Hc.
    rewrite (held_eq h net ph u g0 v0 Ed), Eu in Hc. pose proof (prank_next h u f) as Lu.
    destruct (Nat.leb_spec (prank f) (prank g0)); [|lia]. destruct (Nat.eqb_spec (prank g0) (prank f)); [lia|]. destruct (Nat.eqb_spec (prank g0) (prank (next u f))); [lia|].
    assert (Hex : existsb (fun x => (eqb (fst x) v0 && eqb (msg_dest (snd x)) u && eqb (m_round (sp_meta (msg_direct (snd x)))) (prid h g0))%bool) (flight net) = true).
    { unfold cnt_fl in Hc. cbn [b2n] in Hc. destruct (existsb _ (flight net)) eqn:Ex; auto. exfalso. pose proof (existsb_false _ _ Ex) as Hx. cbv beta in Hx.
      clear - Hc Hx. revert Hc Hx. induction (flight net) as [|x l IH]; [simpl; lia|]. cbn [filter]. intros Hc Hx. rewrite (Hx x (or_introl eq_refl)) in Hc. apply IH; auto.
      intros y Hy. apply Hx. now right. }
    apply take_in in Hex as (i & [v' m] & rest & Ht & Ex). cbn [fst snd] in Ex. apply andb_true_iff in Ex as [Ex E3]. apply andb_true_iff in Ex as [E1 E2].
    destruct (eqb_spec v' v0) as [->|]; [clear E1|discriminate]. destruct (eqb_spec (msg_dest m) u) as [E2'|]; [clear E2|discriminate].
    destruct (eqb_spec (m_round (sp_meta (msg_direct m))) (prid h g0)) as [E3'|]; [clear E3|discriminate].
    assert (Gm : good_msg sid h g0 v0 u m).
    { destruct (ni_flight I v0 m) as (g' & Hg' & _ & Gm & _). { destruct (take_nth_spec _ _ Ht) as (l1 & l2 & -> & _). apply in_or_app. right. now left. }
      assert (Em : m_round (sp_meta (msg_direct m)) = prid h g') by (destruct Gm as (_ & (_ & _ & _ & -> & _) & _); reflexivity).
      rewrite E3' in Em. apply (prid_inj HL g0 g' Hg0 Hg') in Em. subst g'. now rewrite E2' in Gm. }
    destruct d as [s a todo]. cbn [d_s d_a d_todo] in *. subst todo.
    destruct (pre_late Pf Hpu G A Gm Hg0 Gt) as [(e & Ep)|Ep].
    - set (net' := mkNet (insert u (Running (DS s (set_unprovable a (insert v0 e (a_unprovable a))) [])) (nodes net)) rest).
      assert (Ha : act r net (ADeliver i) = Some (Ok net')). { cbn [act]. rewrite Ht, E2', Ed. cbn [d_s d_a d_todo]. rewrite Ep. reflexivity. }
      destruct (Safe (xs ++ [ADeliver i]) net') as [F _]; [econstructor; eauto|]. destruct (F u _ (get_insert_eq u _ (nodes net))) as (_ & (_ & K & _) & _).
      cbn [d_a a_unprovable set_unprovable] in K. assert (K' : contains v0 (empty : bmap Verifier RemoteError) = true) by (rewrite <- K, contains_insert, eqb_refl; reflexivity).
      rewrite contains_empty in K'. discriminate.
    - assert (Ec : cache_message a (vm_of v0 m) = (set_cached a (insert v0 (insert (prid h g0) (vm_of v0 m) match get v0 (a_cached a) with Some c => c | None => empty end) (a_cached a)),
        snd (cache_message a (vm_of v0 m)))).
      { unfold cache_message, vm_of. cbn [vm_from vm_meta snd]. rewrite E3'. reflexivity. }
      rewrite Ec in Ep. cbn [fst] in Ep. set (c0 := match get v0 (a_cached a) with Some c => c | None => empty end) in *.
      set (c := insert v0 (insert (prid h g0) (vm_of v0 m) c0) (a_cached a)) in *.
      set (net' := mkNet (insert u (Running (DS s (set_cached a c) [])) (nodes net)) rest).
      assert (Ha : act r net (ADeliver i) = Some (Ok net')). { cbn [act]. rewrite Ht, E2', Ed. cbn [d_s d_a d_todo]. rewrite Ep. reflexivity. }
      destruct (Safe (xs ++ [ADeliver i]) net') as [_ K]; [econstructor; eauto|].
      assert (Ed' : get u (nodes net') = Some (Running (DS s (set_cached a c) []))) by apply get_insert_eq.
      assert (Hy' : can_finalize (set_cached a c) = Yes) by exact Hy.
      assert (Hall' : all_sent (DS s (set_cached a c) []) = true) by exact Hall.
      assert (Hcm : get v0 c = Some (insert (prid h g0) (vm_of v0 m) c0)) by apply get_insert_eq.
      assert (Hcr : get (prid h g0) (insert (prid h g0) (vm_of v0 m) c0) = Some (vm_of v0 m)) by apply get_insert_eq.
      assert (Hact : forall o, finalize_round s (nr_fin r u (s_round_id s)) (set_cached a c) = Ok o -> act r net' (AFinalize u) =
        Some (Ok (set_node net' u (match o with ROFinished rep => Ended rep | ROAnother s' c => Running (DS s' (make_accumulator s') c) end)))).
      { intros o Eo. cbn [act]. rewrite Ed'. cbn [d_a d_s]. rewrite Hy', Hall'. cbn [d_a d_s]. rewrite Eo. reflexivity. }
      rewrite (good_rid HL Pf Hpu G) in Hact.
      destruct (fin_ok Hsk Hwire Hsig HL Pf Hpu G A Hy Hall) as [(Hnx & s' & Ef & Gs)|(_ & rep & Ef & _)].
      + destruct (@finalize_cached _ _ _ c _ _ Ef) as (l' & Ef' & Hl). specialize (Hact _ Ef'). cbv beta iota in Hact.
        destruct (K u _ _ Ed' Hact v0 _ _ _ Hcm Hcr) as (d' & Ed2 & Hin). unfold set_node in Ed2. cbn [nodes] in Ed2. rewrite get_insert_eq in Ed2. injection Ed2 as <-.
        cbn [d_todo] in Hin. destruct (Hl _ Hin) as (w & k & Hw & Hk). rewrite (good_rid HL Hnx Hpu Gs) in Hk.
        assert (Hpr : prid h (next u f) <> prid h g0). { intros E. apply (prid_inj HL _ _ (proj1 Hnx) Hg0) in E. rewrite <- E in Gt. lia. }
        assert (Hold : exists k', get w (a_cached a) = Some k' /\ get (prid h (next u f)) k' = Some (vm_of v0 m)).
        { unfold c in Hw. rewrite get_insert in Hw. destruct (eqb_spec w v0) as [->|]; [|eauto]. injection Hw as <-. rewrite get_insert_ne in Hk by exact Hpr.
          unfold c0 in Hk. destruct (get v0 (a_cached a)) as [k'|]; [eauto|]. rewrite get_empty in Hk. discriminate. }
        destruct Hold as (k' & Hk1 & Hk2). destruct (ga_cached A w _ Hk1 Hk2) as (_ & _ & (_ & V & _) & _).
        destruct V as (_ & _ & _ & V & _). unfold vm_of in V. cbn in V. rewrite V in E3'. cbn [m_round] in E3'. congruence.
      + specialize (Hact _ (@finalize_cached_end _ _ _ c _ Ef)). cbv beta iota in Hact.
        destruct (K u _ _ Ed' Hact v0 _ _ _ Hcm Hcr) as (d' & Ed2 & _). unfold set_node in Ed2. cbn [nodes] in Ed2. rewrite get_insert_eq in Ed2. discriminate.
  Qed.

  Lemma in_step_exact net0 : honest_net r sid parties sk ep = Ok net0 ->
    (in_step parties h <-> forall xs net, schedule r net0 xs net -> fine parties net /\ keeps r net).
  Proof. intros E. split; [intros HS; exact (steps_keep HS E)|exact (safe_in_step E)]. Qed.
End Exact.

(** ** Round by round *)
Lemma certain_one {P : Params} {Pr : Proto} (h : Plan Pr) v g u q : certain h v g u q -> u <> v -> 0 < prank q ->
  exists g' w, prank g' < prank g /\ mem w (expects h g' v) = true /\ certain h w g' u q.
Proof.
  intros H Hne L. destruct H as [v g u|v g q E|v g g' w u q B E H]; [unfold prank in L; simpl in L; lia|congruence|]. exists g', w. split; auto. now apply before_rank.
Qed.
Lemma in_step_waits {P : Params} {Pr : Proto} r sid parties ep (h : Plan Pr) : lock_step r sid parties ep h -> (in_step parties h <-> waits parties h).
Proof.
  intros HL.
  assert (RkT : forall n, prank (n, true) = 2 * n + 1) by reflexivity. assert (RkF : forall n, prank (n, false) = 2 * n) by (intros n; unfold prank; simpl; lia).
  assert (Skip : forall n u q (g : phase), (forall g', before q g' -> before g' g -> snd g' = true /\ echoes h (fst g') u = false) ->
    prank (n, false) < prank g -> prank (n, false) <= prank q).
  { intros n u q g H L. destruct (Nat.le_gt_cases (prank (n, false)) (prank q)) as [|L']; auto. destruct (H (n, false)) as [K _]; [now apply before_rank|now apply before_rank|discriminate]. }
  split.
  - intros HS. split.
    + intros n v u Hn Hv He Hu. destruct (hr_partners HL n v u Hn Hv He Hu) as (Hpu & Hne & _).
      destruct (HS (n, true) v u Hn Hv) as (q & Hc & Hq); [unfold sends; cbn [fst snd]; now rewrite He|].
      assert (L : prank (n, false) <= prank q) by (apply (@Skip n u q (n, true)); auto; rewrite ?RkT, ?RkF; lia). rewrite ?RkT, ?RkF in L.
      destruct n as [|n]; [now left|right]. destruct (certain_one Hc Hne ltac:(lia)) as (g' & w & L1 & Hw & Hc'). pose proof (certain_low Hc') as L2. rewrite ?RkT, ?RkF in L1.
      assert (prank q = prank (S n, false)) as E1 by (rewrite ?RkT, ?RkF; lia). assert (prank g' = prank (S n, false)) as E2 by (rewrite ?RkT, ?RkF; lia).
      apply prank_inj in E1, E2. subst q g'. destruct (eqb_spec u w) as [<-|Hn2]; [exact Hw|].
      destruct (certain_one Hc' Hn2 ltac:(rewrite ?RkT, ?RkF; lia)) as (g2 & x & L3 & _ & Hc2). apply certain_low in Hc2. lia.
    + intros n v u Hn Hv Hu. destruct (hr_dest HL (S n) v u Hn Hv Hu) as [Hpu Hne]. destruct (HS (S n, false) v u Hn Hv Hu) as (q & Hc & Hq).
      unfold heard. destruct (echoes h n u) eqn:Ee; [right|].
      * assert (L : prank (n, true) <= prank q).
        { destruct (Nat.le_gt_cases (prank (n, true)) (prank q)) as [|L]; auto. destruct (Hq (n, true)) as [_ K]; [now apply before_rank|apply before_rank; rewrite ?RkT, ?RkF; lia|]. cbn [fst] in K. congruence. }
        rewrite ?RkT, ?RkF in L. destruct (certain_one Hc Hne ltac:(lia)) as (g' & w & L1 & Hw & Hc'). pose proof (certain_low Hc') as L2. rewrite ?RkT, ?RkF in L1.
        assert (prank q = prank (n, true)) as E1 by (rewrite ?RkT, ?RkF; lia). assert (prank g' = prank (n, true)) as E2 by (rewrite ?RkT, ?RkF; lia).
        apply prank_inj in E1, E2. subst q g'. unfold expects in Hw. cbn [fst snd] in Hw. destruct (echoes h n v) eqn:Ev; [split; auto|discriminate].
        destruct (eqb_spec u w) as [<-|Hn2]; [exact Hw|]. destruct (certain_one Hc' Hn2 ltac:(rewrite ?RkT, ?RkF; lia)) as (g2 & x & L3 & _ & Hc2). apply certain_low in Hc2. lia.
      * assert (L : prank (n, false) <= prank q) by (apply (@Skip n u q (S n, false)); auto; rewrite ?RkT, ?RkF; lia). rewrite ?RkT, ?RkF in L.
        destruct n as [|n]; [left; now split|right]. assert (Hc1 : certain h v (S (S n), false) u (S n, false)) by (eapply certain_down; [exact Hc|rewrite ?RkT, ?RkF; lia]). clear q Hq L Hc. rename Hc1 into Hc.
        destruct (certain_one Hc Hne ltac:(rewrite ?RkT, ?RkF; lia)) as (g' & w & L1 & Hw & Hc'). pose proof (certain_low Hc') as L2. rewrite ?RkT, ?RkF in L1, L2.
        assert (Direct : forall w, certain h w (S n, false) u (S n, false) -> u = w).
        { intros w0 H0. destruct (eqb_spec u w0) as [|Hn2]; auto. destruct (certain_one H0 Hn2 ltac:(rewrite ?RkT, ?RkF; lia)) as (g2 & x & L3 & _ & Hc2). apply certain_low in Hc2. lia. }
        destruct (Nat.eq_dec (prank g') (prank (S n, false))) as [E|E].
        { apply prank_inj in E. subst g'. apply Direct in Hc'. subst w. now left. }
        assert (prank g' = prank (S n, true)) as E2 by (rewrite RkF in E; rewrite RkT; lia). apply prank_inj in E2. subst g'.
        unfold expects in Hw. cbn [fst snd] in Hw. destruct (echoes h (S n) v) eqn:Ev; [|discriminate]. right. split; auto. exists w. split; auto.
        destruct (eqb_spec u w) as [<-|Hn2]. { destruct (hr_partners HL (S n) v u ltac:(lia) Hv Ev Hw) as (_ & _ & K & _). congruence. }
        destruct (certain_one Hc' Hn2 ltac:(rewrite ?RkT, ?RkF; lia)) as (g2 & x & L3 & Hx & Hc2). pose proof (certain_low Hc2) as L4. rewrite RkT in L3; rewrite RkF in L4.
        assert (prank g2 = prank (S n, false)) as E3 by (rewrite RkF; lia). apply prank_inj in E3. subst g2. apply Direct in Hc2. subst x. exact Hx.
  - intros [H1 H2] [n b] v u Hn Hv Hu. cbn [fst] in Hn. unfold sends in Hu. cbn [fst snd] in Hu. destruct b.
    + destruct (echoes h n v) eqn:E; [|discriminate]. exists (n, false). split.
      * destruct (H1 n v u Hn Hv E Hu) as [->|Hx]; [constructor|]. eapply certain_heard with (g' := (n, false)) (w := u); [now right|exact Hx|].
        constructor. now left.
      * intros [k c] [L|(L & L1 & L2)] [L'|(L' & L3 & L4)]; cbn [fst snd] in *; try lia; congruence.
    + destruct n as [|n].
      * exists (0, false). split; [constructor|]. intros [k c] _ [L'|(L' & L3 & L4)]; cbn [fst snd] in *; [lia|discriminate].
      * pose proof (H2 n v u Hn Hv Hu) as Hx. unfold heard in Hx. destruct (echoes h n u) eqn:E.
        -- destruct Hx as [[_ Hx]|[Ev Hx]]; [discriminate|]. exists (n, true). split.
           ++ eapply certain_heard with (g' := (n, true)) (w := u); [left; simpl; lia| |constructor; now left]. unfold expects. cbn [fst snd]. now rewrite Ev.
           ++ intros [k c] [L|(L & L1 & L2)] [L'|(L' & L3 & L4)]; cbn [fst snd] in *; try lia; congruence.
        -- exists (n, false). split.
           ++ destruct Hx as [[-> _]|[Hx|(Ev & w & Hw & Hx)]]; [constructor| |].
              ** eapply certain_heard with (g' := (n, false)) (w := u); [left; simpl; lia|exact Hx|constructor; now left].
              ** eapply certain_heard with (g' := (n, true)) (w := w); [left; simpl; lia|unfold expects; cbn [fst snd]; now rewrite Ev|].
                 eapply certain_heard with (g' := (n, false)) (w := u); [now right|exact Hx|constructor; now left].
           ++ intros [k c] [L|(L & L1 & L2)] [L'|(L' & L3 & L4)]; cbn [fst snd] in *; try lia; try congruence. subst k. auto.
Qed.

Lemma waits_exact {P : Params} {Pr : Proto} r sid parties ep (h : Plan Pr) sk net0 : signers parties sk -> wire_total P -> signatures_correct P ->
  lock_step r sid parties ep h -> honest_net r sid parties sk ep = Ok net0 ->
  (waits parties h <-> forall xs net, schedule r net0 xs net -> fine parties net /\ keeps r net).
Proof. intros Hsk Hw Hs HL E. rewrite <- (in_step_waits HL). now apply in_step_exact with (sid := sid) (ep := ep) (sk := sk). Qed.
