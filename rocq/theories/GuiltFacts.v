(** Facts about which evidence verifies, and against whom. *)
From Coq Require Import List NArith Bool.
From Verif Require Import Base BMap Errors RoundId Message Protocol Transcript Evidence Session Spec SpecCrypto SpecEvidence
  MessageFacts SessionFacts RunFacts IntakeFacts RoundFacts FinalizeFacts HistoryFacts SignFacts IdFacts EchoFacts EvidenceFacts.
Import ListNotations.
Set Implicit Arguments.

Section WithParams.
  Context {P : Params}.
  Context {Pr : Proto}.
  Implicit Types s : Session Pr.
  Implicit Types d : DState Pr.

  Lemma round_kind d : plain_ids Pr -> reachable d ->
    (rid_echo (s_round_id (d_s d)) = false /\ exists st, s_round (d_s d) = RMain st /\ s_round_id (d_s d) = ti_id (tinfo Pr st)) \/
    (rid_echo (s_round_id (d_s d)) = true /\ exists me echos info main ps arts, s_round (d_s d) = REcho me echos info main ps arts).
  Proof.
    intros Hpl Hre. pose proof (reachable_sinv Hre) as SI. destruct (si_shape SI) as [st Hst|echos info st ps arts Hst _].
    - left. destruct (main_tinfo SI Hst) as [E _]. unfold s_round_id. rewrite E. split; [apply Hpl|eauto].
    - right. destruct (echo_round_id SI Hst) as [E1 E2]. rewrite E2. split; eauto 10.
  Qed.

  (** Errors of echo rounds. *)
  Lemma echo_receive_err echos info from m e : @echo_receive _ Pr echos info from m = Err e ->
    (exists l, e = RL l) \/ e = RDirect \/ e = REchoB \/ e = RNormal \/ (exists x, e = RUnprovable x) \/
    (exists ee msg u h, e = REchoRound ee /\ body_echo_msg (dm_normal m) = Some msg /\ get u msg = Some h /\ check_echo echos (u, h) = Err e).
  Proof.
    unfold echo_receive. destruct (negb _); [intros H; inv H; auto|]. destruct (negb _); [intros H; inv H; auto|].
    destruct (body_echo_msg (dm_normal m)) as [msg|]; [|intros H; inv H; auto 6].
    destruct (negb _); [intros H; inv H; eauto 10|]. destruct (negb _); [intros H; inv H; eauto 10|].
    intros H. apply bind_err in H as [H|(? & _ & H)]; [|discriminate].
    apply iter_res_first in H as (l1 & [u h] & l2 & E & _ & H); [|discriminate].
    destruct (check_echo_err _ _ H) as [[l ->]|[ee ->]]; eauto.
    do 5 right. exists ee, msg, u, h. split; auto. split; auto. split; auto. apply in_to_list. rewrite E. apply in_elt.
  Qed.

  (** Evidence made in a session from a protocol error. *)
  Lemma provable_verifies d1 vm err ev : signatures_correct P -> plain_ids Pr -> api_parts (rq_this (be_required err)) ->
    reachable d1 -> vmessage_authentic (s_id (d_s d1)) (s_round_id (d_s d1)) vm ->
    new_provable_error (vm_from vm) (vm_echo vm) (vm_normal vm) (vm_direct vm) err (s_tr (d_s d1)) = Ok ev ->
    exists eb prev comb, be_ser err = Some eb /\ ev_guilty ev = vm_from vm /\ required_earlier (s_tr (d_s d1)) (vm_from vm) (be_required err) prev /\
      required_echoed (s_tr (d_s d1)) (vm_from vm) (be_required err) comb /\
      forall sd ri, round_info Pr (s_round_id (d_s d1)) = Some ri ->
        let this := rq_this (be_required err) in
        verify_evidence Pr ev sd = ri_verify ri (s_round_id (d_s d1)) eb (vm_from vm) (s_id (d_s d1)) sd
          (mkEvMsg (if rp_direct this then Some (sp_body (vm_direct vm)) else None)
                   (if rp_normal this then Some (sp_body (vm_normal vm)) else None)
                   (if rp_echo this then Some (sp_body (vm_echo vm)) else None)) prev comb.
  Proof.
    intros Hsig Hpl Hapi Hre1 (S1 & S2 & S3 & M0 & M1 & M2 & M3) He. pose proof (api_parts_some Hapi) as Hsome.
    apply new_provable_ok in He as (eb & es & ns & ds & hs & os & Heb & -> & Hprev & Hcomb).
    pose proof (reachable_tinv Hre1) as TI.
    apply collect_prev_ok in Hprev as [Hp1 Hp2]. apply collect_comb_ok in Hcomb as [Hc1 Hc2].
    set (t := s_tr (d_s d1)) in *. set (v := vm_from vm) in *.
    set (sid := s_id (d_s d1)) in *. set (rid0 := s_round_id (d_s d1)) in *.
    set (prev0 := match rq_prev (be_required err) with Some m => m | None => empty end) in *.
    set (comb0 := match rq_comb (be_required err) with Some m => m | None => sempty end) in *.
    assert (Hgood : forall rid u q, recorded (tr_echo t) rid u q -> fits u sid rid q).
    { intros rid u q Hq. destruct (ti_echos TI Hq) as [K1 K2]. split; auto. }
    assert (Hes : forall r p, get r es = Some p -> fits v sid r p).
    { intros r p Hr. destruct (get r prev0) as [rq|] eqn:Eq.
      - destruct (Hp1 _ _ Eq) as (T1 & _ & _). unfold took in T1. destruct (rp_echo rq); [|congruence].
        destruct T1 as (p' & T1 & T2). replace p' with p in T1 by congruence. auto.
      - destruct (Hp2 _ Eq) as (K & _ & _). congruence. }
    assert (Hns : forall r p, get r ns = Some p -> fits v sid r p).
    { intros r p Hr. destruct (get r prev0) as [rq|] eqn:Eq.
      - destruct (Hp1 _ _ Eq) as (_ & T1 & _). unfold took in T1. destruct (rp_normal rq); [|congruence].
        destruct T1 as (p' & T1 & T2). replace p' with p in T1 by congruence. destruct (ti_normals TI T1); split; auto.
      - destruct (Hp2 _ Eq) as (_ & K & _). congruence. }
    assert (Hds : forall r p, get r ds = Some p -> fits v sid r p).
    { intros r p Hr. destruct (get r prev0) as [rq|] eqn:Eq.
      - destruct (Hp1 _ _ Eq) as (_ & _ & T1). unfold took in T1. destruct (rp_direct rq); [|congruence].
        destruct T1 as (p' & T1 & T2). replace p' with p in T1 by congruence. destruct (ti_directs TI T1); split; auto.
      - destruct (Hp2 _ Eq) as (_ & _ & K). congruence. }
    assert (Hhash : forall rid p, get rid hs = Some p -> exists b, hashes_fit v sid os rid p b /\ echoed_by t v rid b).
    { intros rid p Hr. destruct (mem rid comb0) eqn:Em; [|destruct (Hc2 _ Em); congruence].
      destruct (Hc1 _ Em) as (Hne & (p' & Hrec & Hp') & echos & Hech & Hos). replace p' with p in Hrec by congruence. clear p' Hp'.
      assert (Hmain : main_of (echo_of rid) = rid) by now apply main_echo.
      destruct (ti_echoed TI Hpl (eq_refl : rid_echo (echo_of rid) = true) Hrec) as (msg & echos' & Hmsg & Hg & Hall).
      rewrite Hmain in Hg. fold t in Hg. rewrite Hech in Hg. inv Hg.
      destruct (@map_exists _ _ _ _ msg (fun u h b => exists q, echoed_fits sid rid (remove v echos') u h q /\ b = sp_body q)) as (b & B1 & B2).
      { intros u h Hu. destruct (Hall _ _ Hu) as [Hne' Hck]. unfold check_echo in Hck.
        destruct (get u echos') as [q|] eqn:Eq; [|discriminate].
        destruct (verify_shash u h) as [vh|[]|] eqn:Ev; try discriminate. apply verify_shash_ok in Ev as [-> Hs].
        destruct (meta_eqb (sh_meta h) (sp_meta q)) eqn:Em'; [|discriminate]. apply meta_eqb_spec in Em'. cbn [negb] in Hck.
        destruct (is_hash_of h q) eqn:Eh; [|discriminate].
        destruct (Hgood rid u q) as [F1 F2]; [exists echos'; auto|].
        exists (sp_body q), q. split; auto. unfold echoed_fits, fits. rewrite get_remove_ne by auto. repeat split; auto. congruence. }
      exists b. split.
      - split; auto. split.
        { destruct (ti_normals TI Hrec). split; auto. }
        exists msg, (remove v echos'). split; auto. split; auto. split; auto.
        intros u h Hu. destruct (B1 _ _ Hu) as (w & (q & Hq & ->) & Hw). eauto.
      - intros u b'. split.
        + intros Hu. destruct (get u msg) as [h|] eqn:Eh; [|rewrite (B2 _ Eh) in Hu; discriminate].
          destruct (B1 _ _ Eh) as (w & (q & (_ & _ & Hq & _) & ->) & Hw). exists p, msg, q. split; auto. split; auto.
          split; [apply contains_get; eauto|]. split; [|congruence]. exists echos'. split; auto.
          destruct (Hall _ _ Eh) as [Hne' _]. now rewrite get_remove_ne in Hq by auto.
        + intros (n & msg' & q & Hn & Hm' & Hcon & Hq & ->). destruct Hn as (y & Hy1 & Hy2), Hrec as (y' & Hy1' & Hy2').
          assert (n = p) by congruence. subst n. assert (msg' = msg) by congruence. subst msg'.
          apply contains_get in Hcon as [h Hh]. destruct (B1 _ _ Hh) as (w & (q' & (_ & _ & Hq' & _) & ->) & Hw).
          destruct (Hall _ _ Hh) as [Hne' _]. rewrite get_remove_ne in Hq' by auto. destruct Hq as (z & Hz1 & Hz2). rewrite Hw. congruence. }
    destruct (@map_exists _ _ _ _ hs (fun rid p b => hashes_fit v sid os rid p b /\ echoed_by t v rid b)) as (comb & C1 & C2); auto.
    set (prev := merge_parts (map_values (@sp_body _) es) (map_values (@sp_body _) ns) (map_values (@sp_body _) ds)).
    exists eb, prev, comb. split; auto. split; auto. fold t. split; [|split].
    - intros rid em. unfold prev. rewrite get_merge_parts, !contains_map_values, !get_map_values. split.
      + intros H. destruct (get rid prev0) as [rq|] eqn:Eq.
        2:{ exfalso. destruct (Hp2 _ Eq) as (K1 & K2 & K3). unfold contains in H. rewrite K1, K2, K3 in H. discriminate. }
        destruct (Hp1 _ _ Eq) as (T1 & T2 & T3). destruct (rq_prev (be_required err)) as [pm|]; [|exfalso; unfold prev0 in Eq; rewrite get_empty in Eq; discriminate].
        exists pm, rq. split; auto. split; auto. unfold took, contains in *. split.
        * destruct (rp_echo rq); auto. destruct (rp_normal rq); auto. destruct (rp_direct rq); auto.
          rewrite T1, T2, T3 in H. discriminate.
        * match type of H with (if ?b then _ else _) = _ => destruct b; inv H end. unfold required_part. cbn [em_direct em_normal em_echo].
          split; [|split].
          -- destruct (rp_direct rq); [destruct T3 as (q & Q1 & ->); eauto|rewrite T3; auto].
          -- destruct (rp_normal rq); [destruct T2 as (q & Q1 & ->); eauto|rewrite T2; auto].
          -- destruct (rp_echo rq); [destruct T1 as (q & Q1 & ->); eauto|rewrite T1; auto].
      + intros (pm & rq & Epm & Eq & Hone & R1 & R2 & R3). unfold prev0 in *. rewrite Epm in *.
        destruct (Hp1 _ _ Eq) as (T1 & T2 & T3). unfold took, required_part, contains in *.
        destruct em as [ed en ee]. cbn [em_direct em_normal em_echo] in *.
        assert (E1 : option_map (@sp_body _) (get rid es) = ee).
        { destruct (rp_echo rq); [|rewrite T1; auto]. destruct T1 as (q & (y & Y1 & Y2) & ->), R3 as (q' & (y' & Y1' & Y2') & ->). simpl. congruence. }
        assert (E2 : option_map (@sp_body _) (get rid ns) = en).
        { destruct (rp_normal rq); [|rewrite T2; auto]. destruct T2 as (q & (y & Y1 & Y2) & ->), R2 as (q' & (y' & Y1' & Y2') & ->). simpl. congruence. }
        assert (E3 : option_map (@sp_body _) (get rid ds) = ed).
        { destruct (rp_direct rq); [|rewrite T3; auto]. destruct T3 as (q & (y & Y1 & Y2) & ->), R1 as (q' & (y' & Y1' & Y2') & ->). simpl. congruence. }
        rewrite E1, E2, E3. destruct Hone as [Ho|[Ho|Ho]]; rewrite Ho in *.
        * destruct T1 as (q & _ & ->). reflexivity.
        * destruct T2 as (q & _ & ->). rewrite !orb_true_r. reflexivity.
        * destruct T3 as (q & _ & ->). rewrite !orb_true_r. reflexivity.
    - intros rid bodies. split.
      + intros H. destruct (get rid hs) as [p|] eqn:Eh; [|rewrite (C2 _ Eh) in H; discriminate].
        destruct (C1 _ _ Eh) as (b & (_ & Hb) & Hg). replace bodies with b by congruence.
        destruct (mem rid comb0) eqn:Em; [|destruct (Hc2 _ Em); congruence].
        unfold comb0 in Em. destruct (rq_comb (be_required err)) as [cs|]; [|discriminate]. exists cs. auto.
      + intros (cs & Ecs & Em & Hb). assert (Em' : mem rid comb0 = true) by (unfold comb0; now rewrite Ecs).
        destruct (Hc1 _ Em') as (_ & (p & _ & Hp) & _). destruct (C1 _ _ Hp) as (b & (_ & Hb') & Hg). rewrite Hg. f_equal.
        apply bmap_ext. intros u. destruct (get u b) as [x|] eqn:E1.
        * apply Hb' in E1. symmetry. now apply Hb.
        * destruct (get u bodies) as [y|] eqn:E2; auto. apply Hb in E2. apply Hb' in E2. congruence.
    - intros sd ri Hri this. unfold verify_evidence. cbn [ev_body ev_guilty].
      rewrite (@verify_protocol_eq _ Pr v _ sd sid rid0 ri comb); cbn [pe_direct pe_echo pe_normal pe_directs pe_echos pe_normals pe_error pe_others pe_hashes]; auto.
      + fold this. fold prev. destruct (rp_direct this), (rp_normal this), (rp_echo this); reflexivity.
      + unfold trigger_meta. cbn [pe_direct pe_echo pe_normal]. destruct Hsome as [Ho|[Ho|Ho]]; rewrite Ho.
        * now rewrite M1.
        * destruct (rp_direct _); [now rewrite M1|]. now rewrite M2.
        * destruct (rp_direct _); [now rewrite M1|]. destruct (rp_echo _); [now rewrite M2|]. now rewrite M3.
      + intros p Hp. destruct (rp_direct _); inv Hp. now split.
      + intros p Hp. destruct (rp_echo _); inv Hp. now split.
      + intros p Hp. destruct (rp_normal _); inv Hp. now split.
      + apply verify_echo_hashes_ok. split; auto. intros rid p Hp. destruct (C1 _ _ Hp) as (b & (Hb & _) & Hg). eauto.
  Qed.

  (** ** C25 *)
  Lemma protocol_evidence_verifies d v ev pe : signatures_correct P -> plain_ids Pr ->
    (forall st from m err, receive Pr st from m = Err (RProtocol err) -> api_parts (rq_this (be_required err))) ->
    reachable d -> has_evidence d v ev -> ev_body ev = EvProtocol pe ->
    ev_guilty ev = v /\
    exists d1 vm err eb prev comb, reachable d1 /\ s_id (d_s d1) = s_id (d_s d) /\ In vm (d_todo d1) /\ vm_from vm = v /\
      vmessage_authentic (s_id (d_s d1)) (s_round_id (d_s d1)) vm /\
      rd_receive (s_round (d_s d1)) v (mkDynMsg (sp_body (vm_echo vm)) (sp_body (vm_normal vm)) (sp_body (vm_direct vm))) = Err (RProtocol err) /\
      be_ser err = Some eb /\ required_earlier (s_tr (d_s d1)) v (be_required err) prev /\
      required_echoed (s_tr (d_s d1)) v (be_required err) comb /\
      forall sd ri, round_info Pr (s_round_id (d_s d1)) = Some ri ->
        let this := rq_this (be_required err) in
        verify_evidence Pr ev sd = ri_verify ri (s_round_id (d_s d1)) eb v (s_id (d_s d1)) sd
          (mkEvMsg (if rp_direct this then Some (sp_body (vm_direct vm)) else None)
                   (if rp_normal this then Some (sp_body (vm_normal vm)) else None)
                   (if rp_echo this then Some (sp_body (vm_echo vm)) else None)) prev comb.
  Proof.
    intros Hsig Hpl Hapi Hre Hev Hb. destruct (evidence_origin Hre Hev) as (d1 & vm & Hre1 & Hid & Hin & Hf & Hau & e & Ha & He).
    destruct e as [| | | |err| |ee]; try tauto; try (subst ev; discriminate Hb); [|subst ev; destruct ee; discriminate Hb].
    assert (Hst : exists st, receive Pr st (vm_from vm) (mkDynMsg (sp_body (vm_echo vm)) (sp_body (vm_normal vm)) (sp_body (vm_direct vm))) = Err (RProtocol err)).
    { pose proof Ha as Ha'. unfold answer in Ha'. destruct (s_round (d_s d1)) as [st|]; simpl in Ha'.
      - apply bind_err in Ha' as [Ha'|(? & _ & Ha')]; [eauto|discriminate].
      - exfalso. apply echo_receive_err in Ha' as [[? H]|[H|[H|[H|[[? H]|(? & ? & ? & ? & H & _)]]]]]; discriminate. }
    destruct Hst as (st & Hst). pose proof (Hapi _ _ _ _ Hst) as Hap. clear st Hst.
    destruct (@provable_verifies d1 vm err ev Hsig Hpl Hap Hre1 Hau He) as (eb & prev & comb & Heb & Hg & Hr1 & Hr2 & Hv).
    rewrite Hf in *. split; auto. exists d1, vm, err, eb, prev, comb. split; auto. split; auto. split; auto. split; auto. split; auto.
    split; [unfold answer in Ha; rewrite Hf in Ha; exact Ha|]. auto.
  Qed.


  (** ** C26 *)
  Lemma echo_evidence_origin d v ev : no_echo_errors Pr -> reachable d -> has_evidence d v ev ->
    match ev_body ev with EvInvalidEcho _ _ | EvMismatched _ _ _ => True | _ => False end ->
    exists d1 vm echos info st ps arts msg u h, reachable d1 /\ s_id (d_s d1) = s_id (d_s d) /\ vm_from vm = v /\
      vmessage_authentic (s_id (d_s d1)) (s_round_id (d_s d1)) vm /\
      s_round (d_s d1) = REcho (s_verifier (d_s d1)) echos info (RMain st) ps arts /\
      get (main_of (s_round_id (d_s d1))) (tr_echo (s_tr (d_s d1))) = Some echos /\
      body_echo_msg (sp_body (vm_normal vm)) = Some msg /\ get u msg = Some h /\
      ((check_echo echos (u, h) = Err (REchoRound (InvalidEcho u)) /\ ev = mkEvidence v (EvInvalidEcho (vm_normal vm) u)) \/
       (exists p, get u echos = Some p /\ sh_meta h = sp_meta p /\ hash_signed u h /\ is_hash_of h p = false /\ ev = mkEvidence u (EvMismatched u p h))).
  Proof.
    intros Hno Hre Hev Hb. destruct (evidence_origin Hre Hev) as (d1 & vm & Hre1 & Hid & Hin & Hf & Hau & e & Ha & He).
    destruct e as [| | | |err| |ee]; try tauto; try (subst ev; destruct Hb; fail).
    { apply new_provable_ok in He as (? & ? & ? & ? & ? & ? & _ & -> & _). destruct Hb. }
    pose proof (reachable_sinv Hre1) as SI. destruct (si_shape SI) as [st Hst|echos info st ps arts Hst _]; unfold answer in Ha; rewrite Hst in Ha; simpl in Ha.
    { exfalso. apply bind_err in Ha as [Ha|(? & _ & Ha)]; [|discriminate]. now apply Hno in Ha. }
    apply echo_receive_err in Ha as [[? H]|[H|[H|[H|[[? H]|(ee' & msg & u & h & H & Hm & Hu & Hck)]]]]]; try discriminate. inv H.
    exists d1, vm, echos, info, st, ps, arts, msg, u, h.
    split; auto. split; auto. split; auto. split; auto. split; auto. split; [exact (ti_now (reachable_tinv Hre1) Hst)|]. split; auto. split; auto.
    pose proof Hck as Hck'. unfold check_echo in Hck. destruct (get u echos) as [p|] eqn:Ep; [|discriminate].
    destruct (verify_shash u h) as [vh|[]|] eqn:Ev; try discriminate.
    - apply verify_shash_ok in Ev as [-> Hs]. destruct (meta_eqb (sh_meta h) (sp_meta p)) eqn:Em; cbn [negb] in Hck.
      + destruct (is_hash_of h p) eqn:Eh; [discriminate|]. inv Hck. right. exists p. apply meta_eqb_spec in Em. auto.
      + inv Hck. left. auto.
    - inv Hck. left. auto.
    - inv Hck. left. auto.
  Qed.

  Lemma mismatched_verifies d v ev g p h sd : signatures_correct P -> no_echo_errors Pr -> reachable d -> has_evidence d v ev ->
    ev_body ev = EvMismatched g p h -> ev_guilty ev = g /\ verify_evidence Pr ev sd = Ok tt.
  Proof.
    intros Hsig Hno Hre Hev Hb. destruct (echo_evidence_origin Hno Hre Hev) as
      (d1 & vm & echos & info & st & ps & arts & msg & u & h' & Hre1 & _ & _ & _ & Hst & Hg & _ & _ & [[_ ->]|(q & Hq & Hm & Hs & Hn & ->)]); [now rewrite Hb|discriminate|].
    simpl in Hb. inv Hb. split; auto. unfold verify_evidence. cbn [ev_body]. unfold verify_mismatched.
    destruct (@ti_echos _ _ _ (reachable_tinv Hre1) (main_of (s_round_id (d_s d1))) g p) as [_ Hsg]; [exists echos; auto|].
    rewrite (proj2 (verify_part_ok g p p)) by auto. cbn [map_err bind]. rewrite (proj2 (verify_shash_ok g h h)) by auto. cbn [map_err bind].
    rewrite Hm, meta_eqb_refl, Hn. reflexivity.
  Qed.

  (** Exactly when recorded evidence of an invalid echo verifies. *)
  Lemma invalid_echo_verifies d v ev p u sd : no_echo_errors Pr -> reachable d -> has_evidence d v ev ->
    ev_body ev = EvInvalidEcho p u ->
    ev_guilty ev = v /\ exists msg h, body_echo_msg (sp_body p) = Some msg /\ get u msg = Some h /\
      (hash_signed u h -> m_round (sh_meta h) <> main_of (m_round (sp_meta p)) \/ m_session (sh_meta h) <> m_session (sp_meta p)) /\
      (ser_meta (sh_meta h) <> None) /\
      ((hash_signed u h /\ sh_meta h = sp_meta p) \/ verify_evidence Pr ev sd = Ok tt).
  Proof.
    intros Hno Hre Hev Hb. destruct (echo_evidence_origin Hno Hre Hev) as
      (d1 & vm & echos & info & st & ps & arts & msg & u' & h & Hre1 & _ & Hf & Hau & Hst & Hg & Hmsg & Hu & [[Hck ->]|(q & Hq & Hm & Hs & Hn & ->)]); [now rewrite Hb| |discriminate].
    simpl in Hb. inv Hb. split; auto. exists msg, h. split; auto. split; auto. destruct Hau as (_ & _ & S3 & _ & _ & _ & M3).
    unfold verify_evidence. cbn [ev_body ev_guilty]. unfold verify_invalid_echo.
    rewrite (proj2 (verify_part_ok _ (vm_normal vm) _) (conj eq_refl S3)). cbn [map_err bind]. rewrite Hmsg. cbn [ok_or bind].
    unfold verify_invalid_echo_error. rewrite Hu. cbn [ok_or bind].
    unfold check_echo in Hck. destruct (get u echos) as [q|] eqn:Eq; [|discriminate].
    destruct (@ti_echos _ _ _ (reachable_tinv Hre1) (main_of (s_round_id (d_s d1))) u q) as [Hqm _]; [exists echos; auto|].
    pose proof (verify_shash_cases u h) as Hc.
    destruct (verify_shash u h) as [vh|[]|] eqn:Ev; try discriminate.
    - apply verify_shash_ok in Ev as [-> Hs]. destruct (meta_eqb (sh_meta h) (sp_meta q)) eqn:Em; cbn [negb] in Hck.
      { destruct (negb _); discriminate. }
      split; [|split].
      + intros _. rewrite M3. cbn [m_round m_session]. rewrite Hqm in Em.
        destruct (eqb_spec (m_round (sh_meta h)) (main_of (s_round_id (d_s d1)))) as [E|E]; auto. right. intros E'.
        assert (sh_meta h = mkMeta (s_id (d_s d1)) (main_of (s_round_id (d_s d1)))) by (destruct (sh_meta h); simpl in *; congruence).
        apply meta_eqb_spec in H. congruence.
      + eapply signs_not_local. exact Hs.
      + destruct (meta_eqb (sh_meta h) (sp_meta (vm_normal vm))) eqn:Em2; [left; split; auto; now apply meta_eqb_spec|right; auto].
    - split; [|split; [tauto|auto]]. intros Hs. pose proof (proj2 (verify_shash_ok u h h) (conj eq_refl Hs)). congruence.
    - split; [|split; [tauto|auto]]. intros Hs. pose proof (proj2 (verify_shash_ok u h h) (conj eq_refl Hs)). congruence.
  Qed.

  (** ** C27 *)
  Lemma verify_invalid_part_ok {k} f (g : RInfo (Shared Pr) -> body -> res EvidenceError unit) v (p : SPart k) :
    verify_invalid_part Pr f g v p = Ok tt -> part_signed v p /\
    (if rid_echo (m_round (sp_meta p)) then f (sp_body p) = Ok tt
     else exists ri, round_info Pr (m_round (sp_meta p)) = Some ri /\ g ri (sp_body p) = Ok tt).
  Proof.
    unfold verify_invalid_part. intros H. apply bind_ok in H as (q & Hq & H). apply map_err_ok, verify_part_ok in Hq as [-> Hq]. split; auto.
    destruct (rid_echo _); auto. apply bind_ok in H as (ri & Hri & H). destruct (round_info Pr _); inv Hri. eauto.
  Qed.

  Lemma verified_signed ev sd : verify_evidence Pr ev sd = Ok tt ->
    carries_signature (match ev_body ev with EvMismatched g _ _ => g | _ => ev_guilty ev end) (ev_body ev).
  Proof.
    unfold verify_evidence. destruct (ev_body ev) as [e|p|p|p|p u|g w h]; simpl; intros H.
    - apply verify_protocol_ok in H as (sid & rid & ri & comb & Ht & _ & H1 & H2 & H3 & _). unfold trigger_meta in Ht.
      destruct (pe_direct e) as [p|]; [left; exists p; split; auto; now apply H1|].
      destruct (pe_echo e) as [p|]; [right; left; exists p; split; auto; now apply H2|].
      destruct (pe_normal e) as [p|]; [right; right; exists p; split; auto; now apply H3|discriminate].
    - now apply verify_invalid_part_ok in H.
    - now apply verify_invalid_part_ok in H.
    - now apply verify_invalid_part_ok in H.
    - unfold verify_invalid_echo in H. apply bind_ok in H as (q & Hq & _). now apply map_err_ok, verify_part_ok in Hq.
    - unfold verify_mismatched in H. apply bind_ok in H as (q & Hq & _). left. now apply map_err_ok, verify_part_ok in Hq.
  Qed.

  (** What verified evidence of a broadcast mismatch shows. *)
  Lemma verified_mismatched ev sd g w h : verify_evidence Pr ev sd = Ok tt -> ev_body ev = EvMismatched g w h ->
    part_signed g w /\ hash_signed g h /\ sp_meta w = sh_meta h /\ sh_hash h <> hash (content_bytes KEcho (sp_body w)).
  Proof.
    unfold verify_evidence. intros H E. rewrite E in H. unfold verify_mismatched in H.
    apply bind_ok in H as (q & Hq & H). apply map_err_ok, verify_part_ok in Hq as [-> Hq].
    apply bind_ok in H as (h' & Hh & H). apply map_err_ok, verify_shash_ok in Hh as [-> Hh].
    destruct (meta_eqb (sp_meta w) (sh_meta h)) eqn:Em; [|discriminate]. apply meta_eqb_spec in Em. split; auto. split; auto. split; auto.
    intros Eh. destruct (is_hash_of h w) eqn:Ei; [discriminate|]. unfold is_hash_of in Ei. rewrite Eh, <- content_hash_eq in Ei.
    rewrite <- content_hash_bytes, bytes_eqb_refl in Ei. discriminate.
  Qed.

  (** What verified evidence of an invalid echo shows. *)
  Lemma verified_invalid_echo ev sd p u : verify_evidence Pr ev sd = Ok tt -> ev_body ev = EvInvalidEcho p u ->
    part_signed (ev_guilty ev) p /\ exists msg h, body_echo_msg (sp_body p) = Some msg /\ get u msg = Some h /\
      (~ hash_signed u h \/ sh_meta h <> sp_meta p).
  Proof.
    unfold verify_evidence. intros H E. rewrite E in H. unfold verify_invalid_echo in H.
    apply bind_ok in H as (q & Hq & H). apply map_err_ok, verify_part_ok in Hq as [-> Hq]. split; auto.
    apply bind_ok in H as (msg & Hm & H). destruct (body_echo_msg (sp_body p)) as [msg'|]; inv Hm. unfold verify_invalid_echo_error in H.
    apply bind_ok in H as (h & Hh & H). destruct (get u msg) as [h'|] eqn:Eh; inv Hh. exists msg, h. split; auto. split; auto.
    destruct (verify_shash u h) as [vh|[]|] eqn:Ev; try discriminate.
    - apply verify_shash_ok in Ev as [-> Hs]. destruct (meta_eqb (sh_meta h) (sp_meta p)) eqn:Em; [discriminate|]. apply meta_eqb_false in Em. auto.
    - left. intros Hs. pose proof (proj2 (verify_shash_ok u h h) (conj eq_refl Hs)). congruence.
    - left. intros Hs. pose proof (proj2 (verify_shash_ok u h h) (conj eq_refl Hs)). congruence.
  Qed.

  Lemma verified_protocol ev (sd : Shared Pr) e : verify_evidence Pr ev sd = Ok tt -> ev_body ev = EvProtocol e ->
    exists sid rid ri comb, let v := ev_guilty ev in
    round_info Pr rid = Some ri /\
    (forall p, pe_direct e = Some p -> part_signed v p /\ sp_meta p = mkMeta sid rid) /\
    (forall p, pe_echo e = Some p -> part_signed v p /\ sp_meta p = mkMeta sid rid) /\
    (forall p, pe_normal e = Some p -> part_signed v p /\ sp_meta p = mkMeta sid rid) /\
    (forall r p, get r (pe_directs e) = Some p -> part_signed v p /\ sp_meta p = mkMeta sid r) /\
    (forall r p, get r (pe_echos e) = Some p -> part_signed v p /\ sp_meta p = mkMeta sid r) /\
    (forall r p, get r (pe_normals e) = Some p -> part_signed v p /\ sp_meta p = mkMeta sid r) /\
    (forall r, get r comb = None <-> get r (pe_hashes e) = None) /\
    (forall r bodies, get r comb = Some bodies -> exists p msg, get r (pe_hashes e) = Some p /\ part_signed v p /\
       sp_meta p = mkMeta sid (echo_of r) /\ body_echo_msg (sp_body p) = Some msg /\ (forall u, get u bodies = None <-> get u msg = None) /\
       forall u b, get u bodies = Some b -> exists h (q : SPart KEcho), get u msg = Some h /\ hash_signed u h /\ sh_meta h = mkMeta sid r /\
         part_signed u q /\ sp_meta q = mkMeta sid r /\ sh_hash h = hash (content_bytes KEcho b) /\ b = sp_body q) /\
    exists prev, (forall r, get r prev = None -> get r (pe_directs e) = None /\ get r (pe_normals e) = None /\ get r (pe_echos e) = None) /\
      (forall r em, get r prev = Some em ->
        em_direct em = option_map (@sp_body _) (get r (pe_directs e)) /\ em_normal em = option_map (@sp_body _) (get r (pe_normals e)) /\
        em_echo em = option_map (@sp_body _) (get r (pe_echos e))) /\
      ri_verify ri rid (pe_error e) v sid sd
        (mkEvMsg (option_map (@sp_body _) (pe_direct e)) (option_map (@sp_body _) (pe_normal e)) (option_map (@sp_body _) (pe_echo e)))
        prev comb = Ok tt.
  Proof.
    unfold verify_evidence. intros H E. rewrite E in H.
    apply verify_protocol_ok in H as (sid & rid & ri & comb & _ & Hri & H1 & H2 & H3 & H4 & H5 & H6 & H7 & H8).
    exists sid, rid, ri, comb. cbv zeta. split; auto. split; [exact H1|]. split; [exact H2|]. split; [exact H3|]. split; [exact H4|]. split; [exact H5|].
    split; [exact H6|]. apply verify_echo_hashes_ok in H7 as [G1 G2]. split.
    { intros r. split; intros Hr.
      - destruct (get r (pe_hashes e)) as [p|] eqn:Ep; auto. destruct (G1 _ _ Ep) as (b & _ & Hb). congruence.
      - now apply G2. }
    split.
    - intros r bodies Hr. destruct (get r (pe_hashes e)) as [p|] eqn:Ep; [|rewrite (G2 _ Ep) in Hr; discriminate].
      destruct (G1 _ _ Ep) as (b & (_ & [F1 F2] & msg & signed & Hm & _ & K1 & K2) & Hb). assert (b = bodies) by congruence. subst b.
      exists p, msg. split; auto. split; auto. split; auto. split; auto. split.
      { intros u. split; intros Hu; [|now apply K2]. destruct (get u msg) as [h|] eqn:Eh; auto. destruct (K1 _ _ Eh) as (q & _ & Q6). congruence. }
      intros u b Hu.
      destruct (get u msg) as [h|] eqn:Eh; [|rewrite (K2 _ Eh) in Hu; discriminate].
      destruct (K1 _ _ Eh) as (q & (Q1 & Q2 & _ & [Q3 Q4] & Q5) & Q6). assert (b = sp_body q) by congruence. subst b.
      exists h, q. repeat (split; auto). unfold is_hash_of in Q5. apply bytes_eqb_spec in Q5. rewrite <- Q5, <- content_hash_eq. exact (content_hash_bytes _ _).
    - eexists. split; [|split; [|exact H8]].
      + intros r Hr. rewrite get_merge_parts in Hr. destruct (_ || _)%bool eqn:Eo in Hr; [discriminate|].
        rewrite !orb_false_iff in Eo. destruct Eo as [[E1 E2] E3].
        unfold contains in E1, E2, E3. rewrite !get_map_values in *. destruct (get r (pe_echos e)), (get r (pe_normals e)), (get r (pe_directs e)); simpl in *; try discriminate; auto.
      + intros r em Hr. rewrite get_merge_parts in Hr. destruct (_ || _)%bool; inv Hr.
        cbn [em_direct em_normal em_echo]. rewrite !get_map_values. auto.
  Qed.

  (** ** C28 *)
  Lemma made_meta d g dest m art k : make_message (d_s d) g dest = Ok (m, art) -> reachable d ->
    sp_meta (msg_part k m) = mkMeta (s_id (d_s d)) (s_round_id (d_s d)).
  Proof.
    intros H Hre. pose proof (reachable_sinv Hre) as I. unfold make_message in H.
    apply bind_ok in H as ([b x] & H1 & H). apply bind_ok in H as (m' & H2 & H). inv H.
    unfold message_new in H2. apply bind_ok in H2 as (dm & H2 & H). inv H.
    destruct k; simpl; [exact (si_echo_meta I)|exact (si_normal_meta I)|]. now apply sign_part_ok in H2.
  Qed.

  (** What an echo round's message looks like. *)
  Lemma echo_message_valid d g dest m art : echo_codec P -> reachable d -> in_echo_round (d_s d) ->
    mem dest (message_destinations (d_s d)) = true -> make_message (d_s d) g dest = Ok (m, art) ->
    sp_body (msg_direct m) = None /\ sp_body (msg_echo m) = None /\
    exists echos, get (main_of (s_round_id (d_s d))) (tr_echo (s_tr (d_s d))) = Some echos /\
      body_echo_msg (sp_body (msg_normal m)) = Some (map_values (@to_signed_hash _ KEcho) (remove (s_verifier (d_s d)) echos)).
  Proof.
    intros Hcod Hre He Hd Hm. destruct (echo_shape Hre He) as (echos & info & st & ps & arts & Hr & Hg).
    destruct (@echo_message_content _ _ d g dest m art _ _ _ _ _ _ Hcod Hre Hr Hm) as (_ & E1 & E2 & [[_ E]|E]); [|eauto].
    exfalso. rewrite is_empty_get in E. apply contains_get in Hd as [x Hx]. rewrite E in Hx. discriminate.
  Qed.

  Lemma not_framed ev sd v : plain_ids Pr -> echo_codec P -> own_parts_valid Pr -> signs_only_sent_messages Pr v ->
    malformed ev -> ev_guilty ev = v -> verify_evidence Pr ev sd <> Ok tt.
  Proof.
    intros Hpl Hcod Hown Hsig Hm Hg H. unfold verify_evidence in H. rewrite Hg in H.
    assert (G : forall k (p : SPart k) f g, verify_invalid_part Pr f g v p = Ok tt ->
      exists d gg dest m art, reachable d /\ mem dest (message_destinations (d_s d)) = true /\ make_message (d_s d) gg dest = Ok (m, art) /\
        sp_body p = sp_body (msg_part k m) /\
        ((exists st, s_round (d_s d) = RMain st /\ exists ri, round_info Pr (ti_id (tinfo Pr st)) = Some ri /\ g ri (sp_body p) = Ok tt) \/
         (in_echo_round (d_s d) /\ f (sp_body p) = Ok tt))).
    { intros k p f g Hv. apply verify_invalid_part_ok in Hv as [Hs Hv]. destruct (Hsig _ _ Hs) as (d & gg & dest & m & art & Hre & _ & Hd & Hmk & M1 & M2).
      exists d, gg, dest, m, art. repeat (split; auto). rewrite (@made_meta d gg dest m art k Hmk Hre) in M1. rewrite M1 in Hv. cbn [m_round] in Hv.
      destruct (round_kind Hpl Hre) as [[E (st & Hst & Eid)]|[E (me & echos & info & main & ps & arts & Hst)]]; rewrite E in Hv.
      - left. exists st. split; auto. rewrite <- Eid. exact Hv.
      - right. split; auto. unfold in_echo_round. eauto 10. }
    unfold malformed in Hm. destruct (ev_body ev) as [e|p|p|p|p u|g w h]; try tauto; apply G in H as (d & gg & dest & m & art & Hre & Hd & Hmk & Eb & [(st & Hst & ri & Hri & H)|[He H]]); simpl in Eb; rewrite Eb in H.
    - destruct (@sent_parts _ _ d st gg dest m art Hre Hst Hd Hmk) as (_ & _ & gd & x & Hx & _). destruct (Hown st) as (ri' & Hri' & O1 & _). rewrite Hri in Hri'. inv Hri'. now apply O1 in Hx.
    - destruct (@echo_message_valid d gg dest m art Hcod Hre He Hd Hmk) as (E1 & _ & _). rewrite E1 in H. discriminate.
    - destruct (@sent_parts _ _ d st gg dest m art Hre Hst Hd Hmk) as ((ge & Hx) & _). destruct (Hown st) as (ri' & Hri' & _ & O1 & _). rewrite Hri in Hri'. inv Hri'. now apply O1 in Hx.
    - destruct (@echo_message_valid d gg dest m art Hcod Hre He Hd Hmk) as (_ & E1 & _). rewrite E1 in H. discriminate.
    - destruct (@sent_parts _ _ d st gg dest m art Hre Hst Hd Hmk) as (_ & (gn & Hx) & _). destruct (Hown st) as (ri' & Hri' & _ & _ & O1). rewrite Hri in Hri'. inv Hri'. now apply O1 in Hx.
    - destruct (@echo_message_valid d gg dest m art Hcod Hre He Hd Hmk) as (_ & _ & echos & _ & E1). unfold echo_normal_invalid in H. rewrite E1 in H. discriminate.
  Qed.

  (** ** C29 *)
  Lemma honest_echoes_correct d g dest m art msg : echo_codec P -> signatures_correct P -> reachable d -> in_echo_round (d_s d) ->
    mem dest (message_destinations (d_s d)) = true -> make_message (d_s d) g dest = Ok (m, art) ->
    body_echo_msg (sp_body (msg_normal m)) = Some msg ->
    forall u h, get u msg = Some h -> u <> s_verifier (d_s d) /\ hash_signed u h /\
      sh_meta h = mkMeta (s_id (d_s d)) (main_of (s_round_id (d_s d))) /\
      exists p, held_echo (d_s d) u p /\ sh_hash h = hash (content_bytes KEcho (sp_body p)).
  Proof.
    intros Hcod Hsig Hre He Hd Hm Hmsg u h Hu. destruct (@echo_message_valid d g dest m art Hcod Hre He Hd Hm) as (_ & _ & echos & Hg & E).
    rewrite Hmsg in E. inv E. rewrite get_map_values, get_remove in Hu. destruct (eqb_spec u (s_verifier (d_s d))) as [|Hne]; [discriminate|].
    destruct (get u echos) as [p|] eqn:Ep; inv Hu. split; auto.
    assert (Hp : held_echo (d_s d) u p) by (exists echos; auto).
    destruct (ti_echos (reachable_tinv Hre) Hp) as [H1 H2]. split; [apply shash_signed; auto|]. split; [exact H1|].
    exists p. split; [exact Hp|]. simpl. rewrite <- content_hash_eq. apply content_hash_bytes.
  Qed.

  Lemma every_echo_frames d g dest m art msg u sd : echo_codec P -> signatures_correct P -> reachable d -> in_echo_round (d_s d) ->
    mem dest (message_destinations (d_s d)) = true -> make_message (d_s d) g dest = Ok (m, art) ->
    body_echo_msg (sp_body (msg_normal m)) = Some msg -> contains u msg = true ->
    verify_evidence Pr (mkEvidence (s_verifier (d_s d)) (EvInvalidEcho (msg_normal m) u)) sd = Ok tt.
  Proof.
    intros Hcod Hsig Hre He Hd Hm Hmsg Hu. apply contains_get in Hu as [h Hu].
    destruct (@honest_echoes_correct d g dest m art msg Hcod Hsig Hre He Hd Hm Hmsg u h Hu) as (_ & Hs & Hmeta & _).
    destruct (@made_message _ _ _ _ _ _ _ Hre Hsig Hm) as ((_ & _ & S3 & _ & _ & M3) & _).
    unfold verify_evidence. cbn [ev_body ev_guilty]. unfold verify_invalid_echo. rewrite (proj2 (verify_part_ok _ _ _) (conj eq_refl S3)).
    cbn [map_err bind]. rewrite Hmsg. cbn [ok_or bind]. unfold verify_invalid_echo_error. rewrite Hu. cbn [ok_or bind].
    rewrite (proj2 (verify_shash_ok u h h) (conj eq_refl Hs)). rewrite Hmeta, M3.
    destruct (meta_eqb _ _) eqn:E; auto. exfalso. apply meta_eqb_spec in E. injection E as E.
    destruct (echo_shape Hre He) as (echos & info & st & ps & arts & Hr & _). destruct (echo_round_id (reachable_sinv Hre) Hr) as [_ E'].
    rewrite E' in E. apply (f_equal rid_echo) in E. discriminate.
  Qed.

  (** ** C23 *)
  Lemma equivocation_evidence d vm a' u p h : reachable d -> In vm (d_todo d) ->
    rd_receive (s_round (d_s d)) (vm_from vm)
      (mkDynMsg (sp_body (vm_echo vm)) (sp_body (vm_normal vm)) (sp_body (vm_direct vm))) = Err (REchoRound (Mismatched u p h)) ->
    add_processed (d_s d) (d_a d) (process_message (d_s d) vm) = (a', Ok tt) ->
    get (vm_from vm) (a_provable a') = Some (mkEvidence u (EvMismatched u p h)).
  Proof.
    intros Hre Hin Ha Hadd. fold (answer (d_s d) vm) in Ha. apply add_processed_ok in Hadd as (_ & _ & H). inv H; try congruence. rewrite Ha in H0. inv H0.
    simpl. simpl in H1. subst ev. apply get_insert_eq.
  Qed.
End WithParams.
