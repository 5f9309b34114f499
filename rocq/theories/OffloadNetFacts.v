(** [run_async] with [offload_processing = true]: with few enough honest parties it returns everybody's result. *)
From Coq Require Import List NArith Bool Arith Lia Permutation.
From Verif Require Import Base BMap Errors RoundId Message Protocol Transcript Evidence Session Spec SpecCrypto
  MessageFacts SessionFacts RunFacts Network SpecNet NetFacts RunSync RunSyncFacts Driver SpecDriver DriverFacts DriverNetFacts
  Par SpecPar ParFacts ParDeadFacts ParNetFacts Async SpecAsync AsyncFacts AsyncNetFacts Offload SpecOffload OffloadFacts.
Import ListNotations.
Set Implicit Arguments.

Section Honest.
  Context {P : Params}.
  Context {Pr : Proto}.
  Variable r : NetRng.
  Variable sid : bytes.
  Variable parties : bset Verifier.
  Variable ep : Verifier -> EntryPoint Pr.
  Variable h : Plan Pr.
  Variable sk : Verifier -> Signer.
  Variable cap : nat.
  Hypothesis Hsk : signers parties sk.
  Hypothesis Hwire : wire_total P.
  Hypothesis Hsig : signatures_correct P.
  Hypothesis HR : honest_run r sid parties ep h.
  Hypothesis Hcap : 0 < cap.
  Hypothesis Hfew : 2 * (length (elements parties) - 1) <= cap.
  Hypothesis Hfew1 : length (elements parties) <= 101.

  Notation good := (good_net sid parties h sk).
  Notation ks := (elements parties).

  Let Gs : forall net x o, good net -> act r net x = Some o -> exists net', o = Ok net' /\ good net'.
  Proof. intros net x o. exact (good_step Hsk Hwire Hsig HR x (o := o)). Qed.
  Let Gi : forall net v d, good net -> get v (nodes net) = Some (Running d) -> s_verifier (d_s d) = v.
  Proof. intros net v d. apply good_node; auto. Qed.
  Let Gn : forall net v d, good net -> get v (nodes net) = Some (Running d) -> can_finalize (d_a d) <> Never.
  Proof. intros net v d. apply good_never; auto. Qed.
  Let Ga : forall net, good net -> Acc (follows r) net.
  Proof. intros net. exact (good_acc_net Hsk Hwire Hsig HR (net := net)). Qed.
  Let Gc : forall net v d, good net -> get v (nodes net) = Some (Running d) ->
    length (elements (message_destinations (d_s d))) <= capacity /\ (can_finalize (d_a d) = Yes -> length (d_todo d) <= capacity).
  Proof. intros net v d Hg Hv. eapply (@few_cap P Pr r sid parties ep h sk); eauto. exact (few_few HR Hfew1). Qed.
  Let Hk : NoDup ks. Proof. apply NoDup_elements. Qed.

  Record oinv (a : ONet Pr) (net : Net Pr) : Prop := {
    oi_core : hcore sid parties h sk (seen a) net;
    oi_rel : prel r ks (mkPNet (on_nodes a) (flight net)) net
  }.
  Lemma oinv_intro a net : good net -> prel r ks (mkPNet (on_nodes a) (flight net)) net -> awf ks (seen a) ->
    Permutation (map (@strip P) (waiting ks (seen a))) (flight net) ->
    (forall o, In o (waiting ks (seen a)) -> mo_to o = msg_dest (mo_message o)) -> disp_fine (seen a) -> oinv a net.
  Proof.
    intros H1 H2 H3 H4 H5 H6. constructor; auto. constructor; auto. intros v d x Hd Hx. rewrite seen_get in Hd.
    destruct (get v (on_nodes a)) as [p|] eqn:Hp; [|discriminate]. apply some_inj in Hd. subst d. destruct (pr_some H2 v Hp) as (_ & nd & Hnd & Hn).
    rewrite Hx in Hnd. apply some_inj in Hnd. subst nd. destruct p as [st|[rep|e|]]; simpl in Hn; try reflexivity; try contradiction; discriminate Hn.
  Qed.

  Lemma par_outs (x : PState Pr) act ls p' dest m : par_step r (PRun x) act = Some (ls, p') -> In (LOut dest m) ls -> exists pa, In (dest, m, pa) (pp_out x).
  Proof.
    cbn [par_step]. destruct act as [i|i| |sent| |from m0| | |].
    - destruct (nth_error (pp_c x) i) as [[de|de m0 pa|o]|]; try discriminate; [|destruct (Nat.ltb _ _); [|discriminate]]; intros E; apply stp_inj in E as [-> _]; intros [].
    - destruct (nth_error (pp_p x) i) as [[de|pm|o]|]; try discriminate; [|destruct (Nat.ltb _ _); [|discriminate]]; intros E; apply stp_inj in E as [-> _]; intros [].
    - destruct (pp_hand x); [discriminate|]. destruct (pp_out x); [discriminate|]. destruct (looks x); [|discriminate]. intros E; apply stp_inj in E as [-> _]; intros [].
    - destruct (pp_hand x); [|discriminate]. unfold put_out. destruct (pp_out x) as [|[[de m1] pa] out]; [discriminate|].
      destruct sent; intros E; apply stp_inj in E as [-> _]; intros [E|[]]; [|discriminate E]. injection E as <- <-. exists pa. now left.
    - destruct (pp_hand x); [discriminate|]. destruct (pp_phase x); try discriminate. destruct (can_finalize (pp_a x)); try discriminate. destruct (pp_proc x); [discriminate|].
      intros E; apply stp_inj in E as [-> _]; intros [E|[]]; discriminate E.
    - destruct (pp_hand x); [discriminate|]. destruct (pp_phase x); try discriminate. destruct (can_finalize (pp_a x)); try discriminate.
      intros E; apply stp_inj in E as [-> _]; intros [E|[]]; discriminate E.
    - destruct (pp_hand x); [discriminate|]. destruct (pp_phase x); try discriminate. destruct (can_finalize (pp_a x)); try discriminate.
      intros E; apply stp_inj in E as [-> _]; intros [E|[]]; discriminate E.
    - destruct (pp_hand x); [discriminate|]. destruct (pp_phase x); try discriminate. destruct (can_finalize (pp_a x)); try discriminate.
      intros E; apply stp_inj in E as [-> _]; intros [E|[]]; discriminate E.
    - destruct (pp_hand x); [discriminate|]. destruct (pp_phase x) as [|b|b|b].
      + destruct (can_finalize (pp_a x)); try discriminate; intros E; apply stp_inj in E as [-> _]; intros [].
      + destruct (pp_c x) as [|[| |]]; try discriminate; intros E; apply stp_inj in E as [-> _]; intros [].
      + destruct (pp_p x) as [|[| |]]; try discriminate; intros E; apply stp_inj in E as [-> _]; intros [].
      + destruct (pp_out x); [|discriminate]. destruct b.
        * destruct (finalize_round _ _ _) as [[rep|s' c]|e|]; intros E; apply stp_inj in E as [-> _]; intros [E|Hl]; try discriminate E; simpl in Hl; try contradiction;
            destruct Hl as [E|[]]; discriminate E.
        * intros E; apply stp_inj in E as [-> _]; intros [E|[]]; discriminate E.
  Qed.
  Lemma outs_sent v (x : PState Pr) act ls p' : pinv r x -> par_step r (PRun x) act = Some (ls, p') ->
    map (@strip P) (sent_in (map (pair v) ls)) = outs v ls /\ forall o, In o (sent_in (map (pair v) ls)) -> mo_to o = msg_dest (mo_message o).
  Proof.
    intros Hx E. split.
    - unfold sent_in, outs. clear E. induction ls as [|l ls IH]; [reflexivity|]. cbn [map flat_map fst snd]. rewrite map_app, IH. destruct l; reflexivity.
    - intros o Ho. apply in_flat_map in Ho as ([w l] & Hl & Ho). apply in_map_iff in Hl as (l0 & El & Hl). apply (f_equal fst) in El as E1. apply (f_equal snd) in El.
      cbn [fst snd] in *. subst w l0. destruct l as [|dest m| | | | | | |]; try contradiction. destruct Ho as [<-|[]]. cbn [mo_to mo_message].
      destruct (@par_outs x act ls p' dest m E Hl) as [pa Hin]. pose proof (pi_out Hx _ _ _ Hin) as Hm. unfold mk in Hm. apply made_msg in Hm. destruct Hm as [Hm _]. congruence.
  Qed.

  Lemma onode_keeps a net x v act p ls p' : oinv a net -> node_action cap a x = Some (v, act) -> get v (on_nodes a) = Some p -> par_step r p act = Some (ls, p') ->
    exists net', oinv (after a v ls p') net' /\ (later r net' net \/ net' = net /\ wsum ks (insert v p' (on_nodes a)) < wsum ks (on_nodes a)).
  Proof.
    intros I Ha Hv Hs. pose proof (oi_core I) as C. pose proof (after_wf _ ls p' (hi_wf C) Hv) as W.
    pose proof (@node_conserves P Pr ks (seen a) v ls (an_nodes (seen (after a v ls p'))) (hi_wf C) (@action_takes P Pr r cap a x v act p ls p' Ha Hs)) as Hp.
    change (mkANet (an_nodes (seen (after a v ls p'))) (an_out (seen a) ++ flat_map (out_of v) ls) (an_disp (seen a))
      (match get v (an_in (seen a)) with Some q => if existsb takes ls then insert v (tl q) (an_in (seen a)) else an_in (seen a) | None => an_in (seen a) end))
      with (seen (after a v ls p')) in Hp.
    destruct p as [st|o]; [|discriminate Hs].
    assert (Hend : disp_done (on_disp a) = false).
    { pose proof (hi_disp C) as F. unfold disp_fine in F. cbn [seen an_disp] in F. destruct (on_disp a) as [| | | | |[u|e|]]; auto; [|contradiction|contradiction].
      assert (K := @all_done_node P Pr _ v (seen_node (PRun st)) F). change (map_values seen_node (on_nodes a)) with (an_nodes (seen a)) in K. rewrite seen_get, Hv in K. specialize (K eq_refl). discriminate. }
    assert (F : disp_fine (seen (after a v ls p'))). { unfold disp_fine. cbn [seen after an_disp on_disp]. destruct (on_disp a); auto. discriminate. }
    destruct (pr_some (oi_rel I) v Hv) as (_ & nd & Hnd & [Hst _]).
    assert (Kown : own act = true -> (forall l, In l ls -> takes l = false) ->
      exists net', oinv (after a v ls p') net' /\ (later r net' net \/ net' = net /\ wsum ks (insert v p' (on_nodes a)) < wsum ks (on_nodes a))).
    { intros Ho Hl. destruct (@own_sim P Pr r good ks Hk Gs Gi Gn v _ net st act ls p' (hi_good C) (oi_rel I) Hv Ho Hs) as (net' & Hg & R & M).
      cbn [pn_nodes pn_flight] in R, M. pose proof (pr_flight R) as Hf. cbn [pn_flight] in Hf. destruct (@outs_sent v st act ls p' (pg_inv Hst) Hs) as [O1 O2].
      destruct (taken_none v _ Hl) as [Ht _]. rewrite Ht in Hp. cbn [app] in Hp.
      exists net'. split; [|exact M]. apply oinv_intro; auto.
      - cbn [after on_nodes]. rewrite <- Hf. exact R.
      - rewrite <- Hp, map_app, O1, <- Hf. apply Permutation_app_tail, C.
      - intros o Ho'. apply (Permutation_in _ (Permutation_sym Hp)) in Ho'. apply in_app_or in Ho' as [Ho'|Ho']; [now apply (hi_to C)|now apply O2]. }
    pose proof (@par_labels P Pr r _ _ _ _ Hs) as Hl.
    destruct x as [w y|w|w|i]; cbn [node_action] in Ha.
    - destruct (by_itself y) eqn:Eb; [|discriminate]. assert (w = v /\ y = act) as [-> ->] by (split; congruence).
      apply Kown; [destruct act; try discriminate Eb; reflexivity|]. destruct act; try discriminate Eb; exact Hl.
    - rewrite Hend in Ha. destruct (Nat.ltb _ _); [|discriminate]. assert (w = v /\ act = APut true) as [-> ->] by (split; congruence). apply Kown; [reflexivity|exact Hl].
    - rewrite Hend in Ha. destruct (get w (on_in a)) as [[|[from m] q]|] eqn:Eq; try discriminate. assert (w = v /\ act = AReceive from m) as [-> ->] by (split; congruence).
      cbn beta iota in Hl. subst ls. cbn [map sent_in taken_in flat_map fst snd app] in Hp. rewrite app_nil_r in Hp.
      assert (Ho : In (mkOut from v m) (waiting ks (seen a))) by (eapply Permutation_in; [symmetry; exact Hp|now left]).
      pose proof (hi_to C _ Ho) as Ht. cbn [mo_to mo_message] in Ht.
      assert (Hin : In (from, m) (flight net)). { eapply Permutation_in; [apply (hi_flight C)|]. exact (in_map (@strip P) _ _ Ho). }
      destruct (take_nth_in _ _ Hin) as (j & rest & Hj).
      assert (Hd : nact r (mkPNet (on_nodes a) (flight net)) (NDeliver j) = Some (mkPNet (insert v p' (on_nodes a)) rest)).
      { cbn [nact pn_flight pn_nodes]. rewrite Hj, <- Ht, Hv, Hs. reflexivity. }
      destruct (@nstep_sim P Pr r good ks Hk Gs Gi Gn (NDeliver j) _ _ net (hi_good C) (oi_rel I) Hd) as (net' & Hg & R & M).
      pose proof (pr_flight R) as Hf. cbn [pn_flight] in Hf. exists net'. split; [|exact M]. apply oinv_intro; auto.
      + cbn [after on_nodes]. rewrite <- Hf. exact R.
      + rewrite <- Hf. apply Permutation_cons_inv with (a := (from, m)). rewrite <- (take_nth_perm _ _ Hj), <- (hi_flight C), Hp. reflexivity.
      + intros o Ho'. apply (hi_to C). eapply Permutation_in; [symmetry; exact Hp|now right].
    - discriminate.
  Qed.

  Lemma oact_keeps a net x ls a' : oinv a net -> oact r cap a x = Some (ls, a') ->
    exists net', oinv a' net' /\ (later r net' net \/ net' = net /\ (wsum ks (on_nodes a') < wsum ks (on_nodes a) \/ on_nodes a' = on_nodes a /\ dmu (seen a') < dmu (seen a))).
  Proof.
    intros I E. destruct (@oact_cases P Pr r cap _ _ _ _ E) as [(i & _ & _ & Ed & En)|(v & act & p & ls0 & p' & Ha & Hv & Hs & _ & ->)].
    - exists net. split; [|right; split; [reflexivity|right; split; [exact En|exact (@disp_less P Pr cap _ i _ Ed)]]].
      constructor; [exact (@core_keeps P Pr r sid parties ep h sk cap HR _ _ i _ (oi_core I) Ed)|]. rewrite En. apply I.
    - destruct (@onode_keeps a net x v act p ls0 p' I Ha Hv Hs) as (net' & I' & [L|[-> L]]); [exists net'|exists net]; auto.
  Qed.
  Lemma osched_keeps a net tr a' : oinv a net -> oschedule r cap a tr a' -> exists net', oinv a' net'.
  Proof.
    intros I H. induction H as [a|a tr a1 x ls a2 H IH Hx]; [eauto|]. destruct (IH I) as [net1 I1]. destruct (oact_keeps x I1 Hx) as (net2 & I2 & _). eauto.
  Qed.

  (** Nothing goes on for ever. *)
  Lemma offload_finite net : good net -> forall a, oinv a net -> forall f : nat -> ONet Pr, f 0 = a -> ~ forall i, exists x ls, oact r cap (f i) x = Some (ls, f (S i)).
  Proof.
    intros Hg. pose proof (@later_acc _ _ r good Ga net Hg) as HA. induction HA as [net _ IH]. intros a I. remember (wsum ks (on_nodes a)) as w eqn:Ew.
    revert a I Ew. induction w as [w IHw] using lt_wf_ind. intros a I Ew. remember (dmu (seen a)) as k eqn:Ek. revert a I Ew Ek.
    induction k as [k IHk] using lt_wf_ind. intros a I Ew Ek f E Hall.
    destruct (Hall 0) as (x & ls & Hx). rewrite E in Hx. destruct (oact_keeps x I Hx) as (net' & I' & [L|[-> [L|[En L]]]]).
    - apply (IH net' L (hi_good (oi_core I')) _ I' (fun i => f (S i)) eq_refl). intros i. apply Hall.
    - subst w. apply (IHw _ L _ I' eq_refl (fun i => f (S i)) eq_refl). intros i. apply Hall.
    - subst k. rewrite <- En in Ew. apply (IHk _ L _ I' Ew eq_refl (fun i => f (S i)) eq_refl). intros i. apply Hall.
  Qed.

  (** ** What it returns *)
  Lemma onodes_fine a net : oinv a net -> fine_nodes h (seen a).
  Proof.
    intros I v d Hv. rewrite seen_get in Hv. destruct (get v (on_nodes a)) as [p|] eqn:Hp; [|discriminate]. apply some_inj in Hv. subst d.
    destruct (pr_some (oi_rel I) v Hp) as (_ & nd & Hnd & Hn). destruct p as [st|[rep|e|]]; cbn [seen_node]; auto.
    simpl in Hn. subst nd. exact (@ended_fine P Pr sid parties h sk net v rep (hi_good (oi_core I)) Hnd).
  Qed.

  Lemma ostuck_returned a net : oinv a net -> offload_stuck r cap a -> offload_returns a <> None.
  Proof.
    intros I Hst. pose proof (oi_core I) as C.
    assert (Hdisp : forall i, disp_step cap (seen a) i = None). { intros i. specialize (Hst (ODisp i)). cbn [oact] in Hst. destruct (disp_step cap (seen a) i); congruence. }
    assert (Hnode : forall x v act p, node_action cap a x = Some (v, act) -> get v (on_nodes a) = Some p -> par_step r p act = None).
    { intros x v act p Ha Hv. specialize (Hst x). destruct x as [w y|w|w|i]; [| | |discriminate Ha]; unfold oact in Hst; rewrite Ha, Hv in Hst;
        (destruct (par_step r p act) as [[ls p']|]; [discriminate|reflexivity]). }
    destruct (@disp_stuck P Pr r sid parties ep h sk cap HR Hcap Hfew _ _ C Hdisp) as [[u Hend]|(Ed & Eo & Ea)];
      [exact (@end_returns P Pr sid parties h sk _ _ u C (onodes_fine I) Hend)|exfalso].
    cbn [seen an_disp] in Ed. cbn [seen an_out] in Eo.
    assert (Hown : forall v p act, get v (on_nodes a) = Some p -> own act = true -> par_step r p act = None).
    { intros v p act Hv Ho. destruct (by_itself act) eqn:Eb; [apply (Hnode (OSelf v act) v act p); auto; cbn [node_action]; now rewrite Eb|].
      destruct act as [i|i| |[]| |from m| | |]; try discriminate. apply (Hnode (OSend v) v (APut true) p); auto. cbn [node_action]. rewrite Ed, Eo. cbn [disp_done length].
      assert (Nat.ltb 0 cap = true) as -> by now apply Nat.ltb_lt. reflexivity. }
    assert (Hq : forall v, In v ks -> in_msgs (seen a) v = []).
    { intros v Hv. unfold in_msgs. cbn [seen an_in]. destruct (get v (on_in a)) as [[|[f m] q]|] eqn:Eq; auto. exfalso.
      assert (Ho : In (mkOut f v m) (waiting ks (seen a))).
      { unfold waiting. cbn [seen an_out an_disp]. rewrite Eo, Ed. cbn [disp_msgs app]. apply in_flat_map. exists v. split; auto. unfold in_msgs. cbn [seen an_in]. rewrite Eq. now left. }
      destruct (@waiting_running P Pr r sid parties ep h sk HR _ _ _ C Ho) as (d & Hd & Hdd & _). cbn [mo_to] in Hd. rewrite seen_get in Hd.
      destruct (get v (on_nodes a)) as [p|] eqn:Hp; [|discriminate]. apply some_inj in Hd. subst d. destruct p as [st|o]; [|discriminate Hdd].
      destruct (pr_some (oi_rel I) v Hp) as (_ & nd & Hnd & [Hg (todo & Ht & ->)]). destruct (Gc _ (hi_good C) Hnd) as [Hc1 Hc2]. cbn [d_s d_a d_todo] in Hc1, Hc2.
      rewrite (Permutation_length Ht) in Hc2. destruct (own_progress Hg Hc1 Hc2) as [(act & ls & p' & Ho' & Hs)|(K1 & K2 & K3 & _)].
      - rewrite (Hown v _ act Hp Ho') in Hs. discriminate.
      - assert (K := Hnode (ORecv v) v (AReceive f m) (PRun st)). cbn [node_action] in K. rewrite Eq in K. specialize (K eq_refl Hp). cbn [par_step] in K. rewrite K3, K1, K2 in K. discriminate. }
    pose proof (@nothing_waiting P Pr parties (seen a) Ed Eo Hq) as Hw.
    pose proof (hi_flight C) as Hf. rewrite Hw in Hf. apply Permutation_nil in Hf.
    destruct (hi_good C) as [ph J]. destruct (progress Hsk Hwire Hsig HR J) as [[Hall _]|(x & net2 & Hx)].
    - apply not_true_iff_false in Ea. apply Ea. apply all_done_iff. intros v d Hd. rewrite seen_get in Hd. destruct (get v (on_nodes a)) as [p|] eqn:Hp; [|discriminate].
      apply some_inj in Hd. subst d. destruct (pr_some (oi_rel I) v Hp) as (Hin & nd & Hnd & Hn). apply in_elements in Hin. destruct (Hall v Hin) as (rep & Hrep & _).
      rewrite Hrep in Hnd. apply some_inj in Hnd. subst nd. destruct p as [st|o]; [destruct Hn as (_ & y & _ & Ey); discriminate Ey|reflexivity].
    - destruct (@nstep_back P Pr r good ks Gs Gc _ net x _ (hi_good C) (oi_rel I) Hx) as (y & pn' & Hy). destruct y as [v act|j]; cbn [nact pn_nodes pn_flight] in Hy.
      + destruct (get v (on_nodes a)) as [p|] eqn:Hp; [|discriminate]. destruct (own act) eqn:Ho; [|discriminate]. rewrite (Hown v p act Hp Ho) in Hy. discriminate.
      + rewrite Hf in Hy. destruct j; discriminate.
  Qed.

  (** ** The start *)
  Lemma ostarts_same ps : map_res (fun p : Signer * EntryPoint Pr =>
      let* s := session_new (nr_new r (signer_key (fst p))) sid (fst p) (snd p) in Ok (signer_key (fst p), PRun (par_enter s []))) ps =
    let* l := map_res (fun p => let* s := session_new (nr_new r (signer_key (fst p))) sid (fst p) (snd p) in Ok (signer_key (fst p), s)) ps in
    Ok (map (fun vs => (fst vs, PRun (par_enter (snd vs) []))) l).
  Proof.
    induction ps as [|p ps IH]; [reflexivity|]. cbn [map_res]. destruct (session_new _ _ _ _) as [s|e|]; try reflexivity. cbn [bind]. rewrite IH.
    match goal with |- context [map_res ?f ps] => destruct (map_res f ps) end; reflexivity.
  Qed.
  Lemma offload_started : exists a net, honest_onet r sid parties sk ep = Ok a /\ oinv a net.
  Proof.
    destruct (@pnet_started P Pr r sid parties ep h sk Hsk Hwire Hsig HR) as (pn & net & Ed & Hg & R).
    unfold honest_pnet, pnet_start in Ed. rewrite ostarts_same in Ed.
    destruct (map_res _ _) as [l|e|] eqn:El; try discriminate. cbn [bind] in Ed. injection Ed as <-.
    assert (Hks : map (fun p : Signer * EntryPoint Pr => signer_key (fst p)) (map (fun v => (sk v, ep v)) ks) = ks).
    { rewrite map_map. cbn [fst]. transitivity (map (fun v : Verifier => v) ks); [|apply map_id]. apply map_ext_in. intros v Hv. apply Hsk. now apply in_elements. }
    assert (Ea : exists a, honest_onet r sid parties sk ep = Ok a /\ on_nodes a = of_list (map (fun vs => (fst vs, PRun (par_enter (snd vs) []))) l)).
    { unfold honest_onet, onet_start. rewrite El. cbn [bind]. eexists. split; reflexivity. }
    destruct Ea as (a & Ea & Hn). exists a, net. split; auto. unfold honest_onet in Ea.
    assert (Hnd : NoDup (map (fun p : Signer * EntryPoint Pr => signer_key (fst p)) (map (fun v => (sk v, ep v)) ks))) by (rewrite Hks; apply NoDup_elements).
    destruct (@onet_start_ok P Pr r sid _ _ Hnd Ea) as (W & H1 & H2 & H3 & _).
    rewrite Hks in W. pose proof (pr_flight R) as Hf. cbn [pn_flight] in Hf. pose proof (@waiting_start P Pr ks (seen a) H1 H2 H3) as Hw.
    apply oinv_intro; auto.
    - rewrite Hn, <- Hf. exact R.
    - rewrite Hw, <- Hf. reflexivity.
    - rewrite Hw. intros o [].
    - unfold disp_fine. cbn [seen an_disp]. now rewrite H2.
  Qed.

  Lemma honest_offload : exists a0, honest_onet r sid parties sk ep = Ok a0 /\
    (forall tr a, oschedule r cap a0 tr a ->
       (forall o, offload_returns a = Some o -> exists reports, o = Ok reports /\ all_reports parties h reports) /\
       (offload_stuck r cap a -> offload_returns a <> None)) /\
    (forall f : nat -> ONet Pr, f 0 = a0 -> ~ forall i, exists x ls, oact r cap (f i) x = Some (ls, f (S i))).
  Proof.
    destruct offload_started as (a0 & net0 & E & I). exists a0. split; auto. split.
    - intros tr a H. destruct (osched_keeps I H) as [net I']. split; [|apply (ostuck_returned I')].
      intros o. exact (@returned_core P Pr sid parties h sk _ _ o (oi_core I') (onodes_fine I')).
    - intros f Hf. exact (offload_finite (hi_good (oi_core I)) I f Hf).
  Qed.
End Honest.
