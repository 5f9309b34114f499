(** Parties that give up waiting: who is reported as missing. *)
From Coq Require Import List NArith Bool Arith Lia.
From Verif Require Import Base BMap Errors RoundId Message Protocol Transcript Evidence Session Spec SpecCrypto Network SpecNet NetFacts RunSyncFacts
  SpecTimeout.
Import ListNotations.
Set Implicit Arguments.

Section Facts.
  Context {P : Params} {Pr : Proto}.
  Variable r : NetRng.
  Variable sid : bytes.
  Variable parties : bset Verifier.
  Variable ep : Verifier -> EntryPoint Pr.
  Variable h : Plan Pr.
  Variable sk : Verifier -> Signer.
  Hypothesis Hsk : forall v, mem v parties = true -> signer_key (sk v) = v.
  Hypothesis Hwire : wire_total P.
  Hypothesis Hsig : signatures_correct P.
  Hypothesis HR : honest_run r sid parties ep h.
  Notation party v := (mem v parties = true).
  Notation Inv := (NInv sid parties h sk).

  Lemma start_nodes ps (net : Net Pr) : net_start r sid ps = Ok net ->
    forall v nd, get v (nodes net) = Some nd -> exists s, nd = Running (start s).
  Proof.
    unfold net_start. intros H v nd Hg. apply bind_ok in H as (l & Hl & H). inv H. cbn [nodes] in Hg. rewrite get_of_list in Hg.
    destruct (find _ _) as [[k y]|] eqn:Ef; [|discriminate]. inv Hg. apply find_some in Ef as [Hin _]. apply in_rev in Hin.
    apply map_res_ok in Hl. revert Hin. induction Hl as [|x y' l1 l2 Hxy Hl IH]; [intros []|]. intros [->|Hin]; [|auto].
    apply bind_ok in Hxy as (s & _ & E). inv E. eauto.
  Qed.

  (** What an action does to [sent]. *)
  Lemma sent_step net ph x net' : Inv net ph -> act r net x = Some (Ok net') ->
    forall u v g, party u -> fst g <= pl_last h ->
      sent h net' (upd h ph x) u g v = true <->
      (sent h net ph u g v = true \/
       x = ASend u v /\ exists d, get u (nodes net) = Some (Running d) /\ s_round_id (d_s d) = prid h g).
  Proof.
    intros I Hact u v g Hu Hg.
    assert (Same : forall w d a todo fl, get w (nodes net) = Some (Running d) -> a_artifacts a = a_artifacts (d_a d) ->
      sent h (mkNet (insert w (Running (DS (d_s d) a todo)) (nodes net)) fl) ph u g v = sent h net ph u g v).
    { intros w d a todo fl Ew Ha. unfold sent. rewrite arts_of_insert. destruct (eqb_spec u w) as [->|]; auto. cbn [d_a]. rewrite Ha. unfold arts_of. now rewrite Ew. }
    destruct x as [w x|i|w i|w]; cbn [upd act] in *.
    - destruct (get w (nodes net)) as [[d|rep]|] eqn:Ew; try discriminate.
      destruct (mem x (message_destinations (d_s d)) && negb (contains x (a_artifacts (d_a d))))%bool eqn:E; [|discriminate].
      apply andb_true_iff in E as [_ Hc]. apply negb_true_iff in Hc.
      injection Hact as Hact. apply bind_ok in Hact as ([m pa] & Em & Hact).
      assert (Hpa : fst pa = x).
      { unfold make_message in Em. apply bind_ok in Em as ([b art] & _ & Em). apply bind_ok in Em as (m' & _ & Em). now inv Em. }
      unfold add_artifact in Hact. rewrite Hpa, Hc in Hact. cbn [with_accum bind] in Hact. inv Hact.
      assert (Hw : mem w parties = true) by (destruct (mem w parties) eqn:Hw; auto; rewrite (ni_none I w Hw) in Ew; discriminate).
      pose proof (ni_node I w Hw) as Hn. rewrite Ew in Hn. destruct Hn as (Hf & G & A).
      pose proof (good_rid HR Hf Hw G) as Erid.
      unfold sent. rewrite arts_of_insert. destruct (eqb_spec u w) as [->|Hne].
      + cbn [d_a a_artifacts set_artifacts]. unfold arts_of. rewrite Ew.
        destruct (Nat.ltb_spec (prank g) (prank (ph w))) as [L|L].
        * split; [auto|]. intros [H|[E (d' & E1 & E2)]]; auto. inv E1. rewrite Erid in E2. apply (prid_inj HR) in E2; auto; [subst g; lia|apply Hf].
        * destruct (Nat.eqb_spec (prank g) (prank (ph w))) as [Eg|Eg].
          -- apply prank_inj in Eg. subst g. rewrite contains_insert. destruct (eqb_spec v (fst pa)) as [->|Hv]; cbn [orb].
             ++ split; [|auto]. intros _. right. split; auto. exists d. auto.
             ++ split; [auto|]. intros [H|[E _]]; auto. inv E. congruence.
          -- split; [discriminate|]. intros [H|[E (d' & E1 & E2)]]; [discriminate|]. inv E1. rewrite Erid in E2.
             apply (prid_inj HR) in E2; auto; [subst g; lia|apply Hf].
      + split; [auto|]. intros [H|[E _]]; auto. inv E. congruence.
    - assert (Keep : sent h net' ph u g v = sent h net ph u g v).
      { destruct (take_nth i (flight net)) as [[[w m] rest]|]; [|discriminate].
        destruct (get (msg_dest m) (nodes net)) as [[d|rep]|] eqn:Ew; [| inv Hact; reflexivity | discriminate].
        injection Hact as Hact. destruct (preprocess_message (d_s d) (d_a d) w m) as [a o] eqn:Ep. unfold with_accum in Hact. apply bind_ok in Hact as (b & _ & Hact). inv Hact.
        apply Same; auto. exact (preprocessed_arts _ _ _ _ Ep). }
      rewrite Keep. split; [auto|]. intros [H|[E _]]; auto. discriminate E.
    - assert (Keep : sent h net' ph u g v = sent h net ph u g v).
      { destruct (get w (nodes net)) as [[d|rep]|] eqn:Ew; try discriminate. destruct (take_nth i (d_todo d)) as [[m rest]|]; [|discriminate].
        injection Hact as Hact. destruct (add_processed (d_s d) (d_a d) (process_message (d_s d) m)) as [a o] eqn:Ep. unfold with_accum in Hact. apply bind_ok in Hact as (b & _ & Hact). inv Hact.
        apply Same; auto. exact (processed_arts _ _ _ Ep). }
      rewrite Keep. split; [auto|]. intros [H|[E _]]; auto. discriminate E.
    - assert (Keep : sent h net' (fun w0 => if eqb w0 w then pnext h w (ph w) else ph w0) u g v = sent h net ph u g v).
      { destruct (get w (nodes net)) as [[d|rep]|] eqn:Ew; try discriminate.
        destruct (can_finalize (d_a d)) eqn:Hy; try discriminate. destruct (all_sent d) eqn:Hall; [|discriminate].
        injection Hact as Hact. apply bind_ok in Hact as (out & _ & Hact). inv Hact.
        assert (Hw : mem w parties = true) by (destruct (mem w parties) eqn:Hw; auto; rewrite (ni_none I w Hw) in Ew; discriminate).
        pose proof (ni_node I w Hw) as Hn. rewrite Ew in Hn. destruct Hn as (Hf & G & A). destruct d as [s a todo]. cbn [d_s d_a d_todo] in *.
        pose proof (artifacts_map G A Hall) as Harts. pose proof (prank_next h w (ph w)) as Hlt.
        unfold sent. destruct (eqb_spec u w) as [->|Hne]; [|unfold arts_of, set_node; cbn [nodes]; now rewrite get_insert_ne].
        destruct (Nat.ltb_spec (prank g) (prank (ph w))) as [L|L].
        { assert (L' : prank g < prank (pnext h w (ph w))) by lia. apply Nat.ltb_lt in L'. now rewrite L'. }
        destruct (Nat.eqb_spec (prank g) (prank (ph w))) as [E|E].
        - assert (L' : prank g < prank (pnext h w (ph w))) by lia. apply Nat.ltb_lt in L'. rewrite L'. apply prank_inj in E. subst g.
          unfold arts_of. rewrite Ew. cbn [d_a]. pose proof (Harts v) as Hx. destruct (mem v (dst h (ph w) w)); symmetry; [apply contains_get; eauto|now apply contains_false].
        - destruct (Nat.ltb_spec (prank g) (prank (pnext h w (ph w)))) as [L'|L'].
          { destruct (mem v (dst h g w)) eqn:Ed; auto. pose proof (lt_next Hf (proj1 (dst_valid HR g w v Hg Hw Ed)) L'). lia. }
          destruct (Nat.eqb_spec (prank g) (prank (pnext h w (ph w)))) as [E'|]; auto.
          unfold arts_of, set_node. cbn [nodes]. rewrite get_insert_eq. destruct out; [apply contains_empty|]. cbn [d_a make_accumulator a_artifacts]. apply contains_empty. }
      rewrite Keep. split; [auto|]. intros [H|[E _]]; auto. discriminate E.
  Qed.

  Lemma sched_same (net0 : Net Pr) xs net1 : schedule r net0 xs net1 -> forall net2, schedule r net0 xs net2 -> net1 = net2.
  Proof.
    induction 1 as [net0|net0 xs net1 y net2 Hs IH Hy]; intros net3 H1.
    - remember [] as l eqn:El. destruct H1 as [|? ys]; auto. destruct ys; discriminate.
    - remember (xs ++ [y]) as l eqn:El. destruct H1 as [n0|n0 ys n1 z n2 Ha Hb]; [destruct xs; discriminate|].
      apply app_inj_tail in El as [-> ->]. apply IH in Ha. subst n1. congruence.
  Qed.
  Lemma has_sent_snoc (net0 net : Net Pr) xs x u v rid : schedule r net0 xs net ->
    has_sent r net0 (xs ++ [x]) u v rid <->
    (has_sent r net0 xs u v rid \/ x = ASend u v /\ exists d, get u (nodes net) = Some (Running d) /\ s_round_id (d_s d) = rid).
  Proof.
    intros Hs. split.
    - intros (xs1 & xs2 & net1 & d & E & H1 & H2 & H3). destruct xs2 as [|y xs2 _] using rev_ind.
      + apply app_inj_tail in E as [-> ->]. right. split; auto. exists d. split; auto. rewrite <- H2. f_equal. f_equal.
        exact (sched_same Hs H1).
      + rewrite app_comm_cons, app_assoc in E. apply app_inj_tail in E as [-> ->]. left. exists xs1, xs2, net1, d. auto.
    - intros [(xs1 & xs2 & net1 & d & -> & H)|[-> (d & H1 & H2)]].
      + exists xs1, (xs2 ++ [x]), net1, d. rewrite app_comm_cons, app_assoc. auto.
      + exists xs, [], net, d. auto.
  Qed.

  Lemma history net0 : honest_net r sid parties sk ep = Ok net0 -> forall xs net, schedule r net0 xs net ->
    exists ph, Inv net ph /\ forall u v g, party u -> fst g <= pl_last h -> (sent h net ph u g v = true <-> has_sent r net0 xs u v (prid h g)).
  Proof.
    intros E0. destruct (start_ok (r := r) (ep := ep) sk Hsk Hwire Hsig HR) as (net1 & E1 & I0).
    unfold honest_net in E0. rewrite E0 in E1. inv E1. rename net1 into net0. pose proof (start_nodes _ E0) as Hst. clear E0.
    intros xs net Hs. remember net0 as n0 eqn:En. induction Hs as [n|n xs net1 x net2 Hs IH Hx]; subst n.
    - exists (fun _ => (0, false)). split; auto. intros u v g Hu Hg. split.
      + unfold sent. destruct (Nat.ltb_spec (prank g) (prank (0, false))) as [L|_]; [unfold prank in L; simpl in L; lia|].
        destruct (Nat.eqb _ _); [|discriminate]. unfold arts_of. destruct (get u (nodes net0)) as [nd|] eqn:Eu; [|rewrite contains_empty; discriminate].
        destruct (Hst u nd Eu) as (s & ->). cbn [start d_a make_accumulator a_artifacts]. rewrite contains_empty. discriminate.
      + intros (xs1 & xs2 & _ & _ & E & _). destruct xs1; discriminate.
    - destruct (IH eq_refl I0 Hst) as (ph & I & K). destruct (step_ok Hsk Hwire Hsig HR x I Hx) as (net' & E & I' & _). inv E.
      exists (upd h ph x). split; auto. intros u v g Hu Hg. rewrite (@sent_step net1 ph x net' I Hx u v g Hu Hg), (@has_sent_snoc net0 net1 xs x u v (prid h g) Hs), (K u v g Hu Hg). reflexivity.
  Qed.

  Lemma close_any v f s a todo : pvalid h v f -> party v -> good_sess sid h sk v f s -> good_acc sid h v f a todo ->
    exists t, close_round s a = Ok t /\ tr_provable t = empty /\ tr_unprovable t = empty /\
      tr_missing t = if is_empty (a_waiting a) then empty else insert (prid h f) (a_waiting a) empty.
  Proof.
    intros Hf Hv G A. pose proof (gs_tr G) as T.
    assert (Hno : contains (prid h f) (tr_echo (s_tr s)) = false /\ contains (prid h f) (tr_normal (s_tr s)) = false /\ contains (prid h f) (tr_direct (s_tr s)) = false).
    { assert (K : (contains (prid h f) (tr_echo (s_tr s)) || contains (prid h f) (tr_normal (s_tr s)) || contains (prid h f) (tr_direct (s_tr s)))%bool = true -> False).
      { intros E. destruct (gt_old T (prid h f) E) as (g & Hg & Hlt & Eg). apply (prid_inj HR) in Eg; auto; [|apply Hf]. subst g. lia. }
      destruct (contains (prid h f) (tr_echo (s_tr s))); [exfalso; apply K; reflexivity|].
      destruct (contains (prid h f) (tr_normal (s_tr s))); [exfalso; apply K; reflexivity|].
      destruct (contains (prid h f) (tr_direct (s_tr s))); [exfalso; apply K; reflexivity|]. auto. }
    destruct Hno as (N1 & N2 & N3).
    unfold close_round, tr_update. rewrite (good_rid HR Hf Hv G), N1. cbn [bind]. rewrite N2. cbn [bind]. rewrite N3. cbn [bind].
    rewrite (ga_prov A), (ga_unprov A), !merge_empty. cbn [bind]. rewrite (gt_missing T), contains_empty. cbn [bind].
    eexists. split; [reflexivity|]. cbn [tr_provable tr_unprovable tr_missing]. rewrite (gt_prov T), (gt_unprov T). auto.
  Qed.

  Lemma timeouts : exists net0, honest_net r sid parties sk ep = Ok net0 /\
    forall xs net v d, schedule r net0 xs net -> get v (nodes net) = Some (Running d) ->
      exists rep, terminate (d_s d) (d_a d) = Ok rep /\ rep_outcome rep = OTerminated /\
        rep_provable rep = empty /\ rep_unprovable rep = empty /\
        (forall rid u, reported_missing rep rid u <->
           rid = s_round_id (d_s d) /\ expected (d_s d) u /\
           (~ has_sent r net0 xs u v rid \/ on_the_way net u v rid \/ unprocessed d u)).
  Proof.
    destruct (start_ok (r := r) (ep := ep) sk Hsk Hwire Hsig HR) as (net0 & E0 & _). exists net0. split; [exact E0|].
    intros xs net v d Hs Ev. destruct (history E0 Hs) as (ph & I & K).
    assert (Hv : party v) by (destruct (mem v parties) eqn:Hv; auto; rewrite (ni_none I v Hv) in Ev; discriminate).
    pose proof (ni_node I v Hv) as Hn. rewrite Ev in Hn. destruct Hn as (Hf & G & A).
    destruct (close_any Hf Hv G A) as (t & Et & T1 & T2 & T3). unfold terminate, terminate_inner. rewrite Et. cbn [bind].
    eexists. split; [reflexivity|]. unfold report_new. cbn [rep_outcome rep_provable rep_unprovable]. repeat (split; [assumption || reflexivity|]).
    rewrite (good_rid HR Hf Hv G). unfold expected, reported_missing. rewrite (gs_comm G). cbn [ci_expect rep_missing]. rewrite T3. intros rid u.
    assert (Hm : (exists vs, get rid (if is_empty (a_waiting (d_a d)) then empty else insert (prid h (ph v)) (a_waiting (d_a d)) empty) = Some vs /\ mem u vs = true)
                 <-> rid = prid h (ph v) /\ mem u (a_waiting (d_a d)) = true).
    { destruct (is_empty (a_waiting (d_a d))) eqn:Ee.
      - split; [intros (vs & E & _); rewrite get_empty in E; discriminate|]. intros [_ Hu]. apply contains_get in Hu as [x Hx]. rewrite is_empty_get in Ee. congruence.
      - rewrite get_insert. destruct (eqb_spec rid (prid h (ph v))) as [->|Hne].
        + split; [intros (vs & E & Hu); inv E; auto|intros [_ Hu]; eauto].
        + split; [intros (vs & E & _); rewrite get_empty in E; discriminate|intros [E _]; contradiction]. }
    rewrite Hm, (ga_waiting A u), andb_true_iff, negb_true_iff. split.
    - intros (-> & Hu & Hp). split; auto. split; auto.
      destruct (exp_party HR (ph v) v u (proj1 Hf) Hv Hu) as [Pu Huv].
      pose proof (@ni_count _ _ _ _ _ _ _ _ I u v (ph v) Pu Hv Hf) as Hcount. rewrite Nat.leb_refl, (held_eq h net ph v (ph v) u Ev), Nat.eqb_refl, Hp in Hcount.
      cbn [b2n] in Hcount. destruct (sent h net ph u (ph v) v) eqn:Hse.
      + right. cbn [b2n] in Hcount. destruct (cnt_todo (d_todo d) u) as [|c] eqn:Ec.
        * left. unfold cnt_fl in Hcount. destruct (filter _ _) as [|[w m] l] eqn:Efl; [simpl in Hcount; lia|].
          assert (Hin : In (w, m) ((w, m) :: l)) by now left. rewrite <- Efl in Hin. apply filter_In in Hin as [Hin Hb]. cbn [fst snd] in Hb.
          apply andb_true_iff in Hb as [Hb H3]. apply andb_true_iff in Hb as [H1 H2]. apply (proj1 (eqb_eq _ _)) in H1, H2, H3. subst w. exists m. auto.
        * right. unfold cnt_todo in Ec. destruct (filter _ _) as [|m l] eqn:Efl; [discriminate|].
          assert (Hin : In m (m :: l)) by now left. rewrite <- Efl in Hin. apply filter_In in Hin as [Hin Hb]. apply (proj1 (eqb_eq _ _)) in Hb. exists m. auto.
      + left. intros H. apply (K u v (ph v) Pu (proj1 Hf)) in H. congruence.
    - intros (-> & Hu & Hl). split; auto. split; auto.
      destruct (exp_party HR (ph v) v u (proj1 Hf) Hv Hu) as [Pu Huv].
      pose proof (@ni_count _ _ _ _ _ _ _ _ I u v (ph v) Pu Hv Hf) as Hcount. rewrite Nat.leb_refl, (held_eq h net ph v (ph v) u Ev), Nat.eqb_refl in Hcount.
      destruct (contains u (a_payloads (d_a d))) eqn:Hp; auto. exfalso. cbn [b2n] in Hcount. pose proof (sent_le h net ph u (ph v) v) as Hle.
      destruct Hl as [Hl|[(m & Hin & Hd & Hr)|(m & Hin & Hd)]].
      + apply Hl. apply (K u v (ph v) Pu (proj1 Hf)). destruct (sent h net ph u (ph v) v); auto. simpl in Hcount. lia.
      + assert (Hc : 1 <= cnt_fl (flight net) u v (prid h (ph v))); [|lia]. unfold cnt_fl.
        assert (Hf' : In (u, m) (filter (fun x => (eqb (fst x) u && eqb (msg_dest (snd x)) v && eqb (m_round (sp_meta (msg_direct (snd x)))) (prid h (ph v)))%bool) (flight net)))
          by (apply filter_In; split; auto; cbn [fst snd]; now rewrite Hd, Hr, !eqb_refl).
        destruct (filter _ _); [contradiction|simpl; lia].
      + assert (Hc : 1 <= cnt_todo (d_todo d) u); [|lia]. unfold cnt_todo.
        assert (Hf' : In m (filter (fun m => eqb (vm_from m) u) (d_todo d))) by (apply filter_In; split; auto; now rewrite Hd, eqb_refl).
        destruct (filter _ _); [contradiction|simpl; lia].
  Qed.
End Facts.
