(** Messages that are turned down, and the evidence that results. *)
From Coq Require Import List NArith Bool Lia Arith.
From Verif Require Import Base BMap Errors RoundId Message Protocol Transcript Evidence Session Spec SpecCrypto SpecEvidence
  MessageFacts SessionFacts EvidenceFacts GuiltFacts LocalFacts Network SpecNet NetFacts RunSync SpecSync RunSyncFacts PlanTrFacts
  SpecExtend SimFacts SpecCaught.
Import ListNotations.
Set Implicit Arguments.

Lemma map_values_id {V} `{Params} (m : bmap Verifier V) (g : V -> V) : (forall x, g x = x) -> map_values g m = m.
Proof. intros Hg. apply bmap_ext. intros v. rewrite get_map_values. destruct (get v m); cbn [option_map]; auto. now rewrite Hg. Qed.

(** The nodes of a network are in reachable states. *)
Section Reach.
  Context {P : Params}.
  Context {Pr : Proto}.
  Variable r : NetRng.
  Definition reach (net : Net Pr) : Prop := forall v d, get v (nodes net) = Some (Running d) -> reachable d.
  Lemma reachable_step (d : DState Pr) e d' : reachable d -> step d e d' -> reachable d'.
  Proof. intros (s & es & H1 & H2) H. exists s, (es ++ [e]). split; auto. econstructor; eauto. Qed.

  Lemma reach_step net x net' : reach net -> act r net x = Some (Ok net') -> reach net'.
  Proof.
    intros I Hx w dw Hw. destruct x as [v u|i|v i|v]; cbn [act] in Hx.
    - destruct (get v (nodes net)) as [[d|rep]|] eqn:Ev; try discriminate. destruct (_ && _)%bool eqn:Eb; [|discriminate]. apply some_inj in Hx.
      apply andb_true_iff in Eb as [Eb _].
      destruct (make_message _ _ _) as [[m [u' pa]]| |] eqn:Em; try discriminate. cbn [bind] in Hx. unfold with_accum in Hx.
      destruct (add_artifact (d_a d) (u', pa)) as [a [[]| |]] eqn:Ea; try discriminate. cbn [bind] in Hx. injection Hx as <-. cbn [nodes] in Hw.
      rewrite get_insert in Hw. destruct (eqb_spec w v) as [->|]; [|now apply (I w)]. injection Hw as <-.
      assert (u' = u).
      { revert Em. unfold make_message. destruct (rd_mk_direct _ _ _) as [[b y]|e|]; try discriminate. cbn [bind].
        destruct (message_new _ _ _ _ _ _ _ _); try discriminate. cbn [bind]. intros E. now injection E. }
      subst u'. apply (reachable_step (I v d Ev) (e := EArt (nr_msg r v (s_round_id (d_s d)) u) u pa)). destruct d as [s a0 todo].
      econstructor; eauto.
    - destruct (take_nth i (flight net)) as [[[u m] rest]|]; [|discriminate].
      destruct (get (msg_dest m) (nodes net)) as [[d|rep]|] eqn:Ev; try discriminate.
      + apply some_inj in Hx. unfold with_accum in Hx. destruct (preprocess_message (d_s d) (d_a d) u m) as [a [o| |]] eqn:Ea; try discriminate.
        cbn [bind] in Hx. injection Hx as <-. cbn [nodes] in Hw. rewrite get_insert in Hw.
        destruct (eqb_spec w (msg_dest m)) as [->|]; [|now apply (I w)]. injection Hw as <-.
        apply (reachable_step (I _ d Ev) (e := EPre u m o)). destruct d as [s a0 todo]. now constructor.
      + injection Hx as <-. now apply (I w).
    - destruct (get v (nodes net)) as [[d|rep]|] eqn:Ev; try discriminate. destruct (take_nth i (d_todo d)) as [[m todo]|] eqn:Et; [|discriminate].
      apply some_inj in Hx. unfold with_accum in Hx. destruct (add_processed (d_s d) (d_a d) (process_message (d_s d) m)) as [a [[]| |]] eqn:Ea; try discriminate.
      cbn [bind] in Hx. injection Hx as <-. cbn [set_node nodes] in Hw. rewrite get_insert in Hw.
      destruct (eqb_spec w v) as [->|]; [|now apply (I w)]. injection Hw as <-.
      destruct (take_nth_spec _ _ Et) as (l1 & l2 & El & ->).
      apply (reachable_step (I v d Ev) (e := EProc m)). destruct d as [s a0 todo]. cbn [d_todo d_s d_a] in *. subst todo. now constructor.
    - destruct (get v (nodes net)) as [[d|rep]|] eqn:Ev; try discriminate. destruct (can_finalize (d_a d)) eqn:Hy; try discriminate.
      destruct (all_sent d); [|discriminate]. apply some_inj in Hx.
      destruct (finalize_round _ _ _) as [ro| |] eqn:Ef; try discriminate. cbn [bind] in Hx. injection Hx as <-. cbn [set_node nodes] in Hw.
      rewrite get_insert in Hw. destruct (eqb_spec w v) as [->|]; [|now apply (I w)]. destruct ro as [rep|s' c]; [discriminate|]. injection Hw as <-.
      apply (reachable_step (I v d Ev) (e := EFin (nr_fin r v (s_round_id (d_s d))))). destruct d as [s a0 todo]. now constructor.
  Qed.
End Reach.

Section Charge.
  Context {P : Params}.
  Context {Pr : Proto}.
  Variable f : St Pr -> Verifier -> DynMsg -> res RecvErr (Payload Pr).
  Notation Q := (with_receive Pr f).
  Variable r : NetRng.
  Variable sid : bytes.
  Variable parties : bset Verifier.
  Variable ep : Verifier -> EntryPoint Pr.
  Variable h : Plan Q.
  Variable sk : Verifier -> Signer.
  Hypothesis Hsk : signers parties sk.
  Hypothesis Hwire : wire_total P.
  Hypothesis Hsig : signatures_correct P.
  Hypothesis Hpl : plain_ids Pr.
  Hypothesis HR : honest_run r sid parties (fun v => ep_with f (ep v)) h.
  Let HL := proj1 HR.
  Variable t : Verifier.
  Variable k : nat.
  Variable sd : Shared Pr.
  Hypothesis Hk : k <= pl_last h.

  Notation N := (pl_last h).
  Notation R := (pl_rid h).
  Notation party v := (mem v parties = true).
  Notation Inv := (NInv sid parties h sk).
  Notation TI := (TInv sid h).
  Notation prid := (prid h).
  Notation pnext := (pnext h).
  Notation pvalid := (pvalid h).
  Notation exp := (exp h).
  Notation dst := (dst h).

  Notation St_eq := (fun (x : St Pr) (y : St Q) => x = y).
  Notation idP := (fun (x : Payload Pr) => (x : Payload Q)).
  Notation idA := (fun (x : Artifact Pr) => (x : Artifact Q)).
  Notation idR := (fun (x : Rslt Pr) => (x : Rslt Q)).
  Notation macc := (@macc P Pr Q idP idA).
  Notation srel := (@srel P Pr Q idP idA St_eq).

  Lemma out : forall x y, St_eq x y -> @alike_out P Pr Q idP idA idR St_eq x y.
  Proof.
    intros x y <-. constructor; cbn; auto.
    - intros g v. destruct (mk_direct Pr x g v) as [[b a]| |]; reflexivity.
    - intros g ps arts. rewrite !map_values_id by auto. unfold orel. destruct (finalize Pr x g ps arts) as [[a|b]| |]; auto.
  Qed.

  (** ** Evidence *)
  Section Evid.
    Variable v : Verifier.
    Hypothesis Hv : party v.
    Variable tr : Transcript.
    Hypothesis T1 : forall j, j < k -> exists echos, get (R j) (tr_echo tr) = Some echos /\ all_echos sid h j v echos.
    Hypothesis T2 : forall g u, pvalid v g -> fst g < k -> mem u (exp g v) = true ->
      exists m, good_vm sid h g u v m /\ kept (vm_normal m) (got (prid g) u (tr_normal tr)) /\
        kept (vm_direct m) (got (prid g) u (tr_direct tr)).

    Lemma got_rec {kd} (m : bmap RoundId (bmap Verifier (SPart kd))) rid u p : got rid u m = Some p <-> recorded m rid u p.
    Proof.
      unfold got, recorded. split.
      - destruct (get rid m) as [x|]; [eauto|discriminate].
      - intros (x & -> & H). exact H.
    Qed.
    Lemma rec_fun {kd} (m : bmap RoundId (bmap Verifier (SPart kd))) rid u p q : recorded m rid u p -> recorded m rid u q -> p = q.
    Proof. rewrite <- !got_rec. congruence. Qed.

    Lemma old_direct j : j < k -> mem t (pl_from h j v) = true -> pl_direct h j t v <> None ->
      exists p, recorded (tr_direct tr) (R j) t p /\ sp_body p = pl_direct h j t v.
    Proof.
      intros Hj Hf Hn.  destruct (@T2 (j, false) t) as (m & (_ & _ & _ & G) & _ & K); [split; cbn; [lia|discriminate]|exact Hj|exact Hf|].
      unfold good_direct in G. cbn [fst snd] in G. exists (vm_direct m). split; auto. apply got_rec. apply K. now rewrite G.
    Qed.
    Lemma old_normal j : j < k -> mem t (pl_from h j v) = true -> pl_normal h j t <> None ->
      exists p, recorded (tr_normal tr) (R j) t p /\ sp_body p = pl_normal h j t.
    Proof.
      intros Hj Hf Hn.  destruct (@T2 (j, false) t) as (m & (_ & _ & [_ G] & _) & K & _); [split; cbn; [lia|discriminate]|exact Hj|exact Hf|].
      cbn [fst snd] in G. exists (vm_normal m). split; auto. apply got_rec. apply K. now rewrite G.
    Qed.
    Lemma old_echo j : j < k -> mem t (pl_from h j v) = true -> pl_echo h j t <> None ->
      exists p, recorded (tr_echo tr) (R j) t p /\ sp_body p = pl_echo h j t.
    Proof.
      intros Hj Hf Hn. destruct (T1 Hj) as (echos & E & Hall). specialize (Hall t). rewrite Hf in Hall.
      destruct (pl_echo h j t); [|congruence]. cbn [is_none negb andb] in Hall. rewrite orb_true_r in Hall. destruct Hall as (p & Ep & _ & Eb).
      exists p. split; [exists echos; auto|auto].
    Qed.

    Lemma req_part {kd} b (m : bmap RoundId (bmap Verifier (SPart kd))) rid o p : recorded m rid t p ->
      (required_part b m rid t o <-> o = if b then Some (sp_body p) else None).
    Proof.
      intros Hp. unfold required_part. destruct b; [|tauto]. split.
      - intros (q & Hq & ->). now rewrite (rec_fun Hq Hp).
      - intros ->. eauto.
    Qed.
    Lemma req_part_no {kd} (m : bmap RoundId (bmap Verifier (SPart kd))) rid o b x : (b = true -> exists p, recorded m rid t p /\ sp_body p = x) ->
      (required_part b m rid t o <-> o = if b then Some x else None).
    Proof. destruct b; [|intros _; unfold required_part; tauto]. intros H. destruct (H eq_refl) as (p & Hp & <-). exact (@req_part kd true m rid o p Hp). Qed.

    Lemma earlier_ok q prev : available h t k v q -> required_earlier tr t q prev -> earlier_messages h t k v q prev.
    Proof.
      intros [Av _] Hq rid em. rewrite (Hq rid em). clear Hq.
      assert (K : forall pm rq, rq_prev q = Some pm -> get rid pm = Some rq ->
        exists j, j < k /\ rid = R j /\ (rp_echo rq = true \/ rp_normal rq = true \/ rp_direct rq = true) /\
          (rp_direct rq = true -> exists p, recorded (tr_direct tr) rid t p /\ sp_body p = pl_direct h j t v) /\
          (rp_normal rq = true -> exists p, recorded (tr_normal tr) rid t p /\ sp_body p = pl_normal h j t) /\
          (rp_echo rq = true -> exists p, recorded (tr_echo tr) rid t p /\ sp_body p = pl_echo h j t)).
      { intros pm rq H1 H2. destruct (Av pm rid rq H1 H2) as (j & Hj & -> & Hf & Hs & A1 & A2 & A3). exists j. split; auto. split; auto. split; auto.
        split; [intros E; apply old_direct; auto|]. split; [intros E; apply old_normal; auto|intros E; apply old_echo; auto]. }
      split.
      - intros (pm & rq & H1 & H2 & _ & P1 & P2 & P3). destruct (K pm rq H1 H2) as (j & Hj & -> & _ & A1 & A2 & A3).
        exists pm, rq, j. split; auto. split; auto. split; auto. split; auto.
        apply (req_part_no _ A1) in P1. apply (req_part_no _ A2) in P2. apply (req_part_no _ A3) in P3.
        destruct em as [d n e]. cbn [em_direct em_normal em_echo] in *. now rewrite P1, P2, P3.
      - intros (pm & rq & j & H1 & H2 & Hj & -> & ->). destruct (K pm rq H1 H2) as (j' & Hj' & E & Hs & A1 & A2 & A3).
         apply (hr_distinct HL) in E; [|lia|lia]. subst j'. exists pm, rq. split; auto. split; auto. split; auto.
        cbn [em_direct em_normal em_echo]. split; [|split]; [apply (req_part_no _ A1)|apply (req_part_no _ A2)|apply (req_part_no _ A3)]; reflexivity.
    Qed.

    Lemma old_echoed j : j < k -> echoes h j v = true -> mem t (partners h j v) = true ->
      exists n msg, recorded (tr_normal tr) (echo_of (R j)) t n /\ body_echo_msg (sp_body n) = Some msg /\
        (forall u, contains u msg = (mem u (pl_from h j t) && negb (is_none (pl_echo h j u)))%bool) /\
        (forall u, contains u msg = true -> exists p, recorded (tr_echo tr) (R j) u p /\ sp_body p = pl_echo h j u).
    Proof.
      intros Hj He Ht. 
      assert (Hj' : j <= N) by lia.
      destruct (hr_partners HL j v t Hj' Hv He Ht) as (Hpt & Hne & Het & Hvt).
      destruct (@T2 (j, true) t) as (m & (_ & _ & [G1 G2] & _) & K & _).
      - split; auto.
      - exact Hj.
      - unfold NetFacts.exp. cbn [fst snd]. now rewrite He.
      - cbn [fst snd] in *. destruct G2 as (x & msg & Ex & Ed & Em).
        { unfold NetFacts.dst. cbn [fst snd]. rewrite Het. destruct (is_empty (partners h j t)) eqn:Ee; auto. pose proof (proj1 (is_empty_get _) Ee v) as Ev.
          apply contains_false in Ev. unfold mem in Hvt. congruence. }
        exists (vm_normal m), msg. split; [apply got_rec; apply K; congruence|]. split; [rewrite Ex; exact Ed|].
        assert (Hc : forall u, contains u msg = (mem u (pl_from h j t) && negb (is_none (pl_echo h j u)))%bool).
        { intros u. specialize (Em u). destruct (mem u (pl_from h j t) && negb (is_none (pl_echo h j u)))%bool.
          - destruct Em as (y & Hy & _). apply contains_get. eauto.
          - now apply contains_false. }
        split; auto. intros u Hu. rewrite Hc in Hu.
        pose proof (hr_echoed HL j v t u Hj' Hv He Ht) as Hset. rewrite Hu in Hset. apply andb_true_iff in Hu as [_ Hn].
        rewrite mem_rem in Hset. apply andb_true_iff in Hset as [_ Hset].
        destruct (T1 Hj) as (echos & E & Hall). specialize (Hall u).
        assert (Hin : (eqb u v || (mem u (pl_from h j v) && negb (is_none (pl_echo h j u))))%bool = true).
        { rewrite Hn, andb_true_r. unfold echoed in Hset. apply orb_true_iff. destruct (pl_part h j v); rewrite ?mem_add in Hset; try (now apply orb_true_iff); now right. }
        rewrite Hin in Hall. destruct Hall as (p & Ep & _ & Eb). exists p. split; auto. exists echos. auto.
    Qed.

    Lemma echoed_ok q comb : available h t k v q -> required_echoed tr t q comb -> echoed_messages h t k q comb.
    Proof.
      intros [_ Av] Hq rid bodies. rewrite (Hq rid bodies). clear Hq.
      assert (K : forall j, j < k -> echoes h j v = true -> mem t (partners h j v) = true -> echoed_by tr t (R j) bodies <->
        forall w, get w bodies = if (mem w (pl_from h j t) && negb (is_none (pl_echo h j w)))%bool then Some (pl_echo h j w) else None).
      { intros j Hj He Ht. destruct (old_echoed Hj He Ht) as (n & msg & Hn & Hm & Hc & Hp).
        assert (L : forall u b, (exists n0 msg0 p, recorded (tr_normal tr) (echo_of (R j)) t n0 /\ body_echo_msg (sp_body n0) = Some msg0 /\
            contains u msg0 = true /\ recorded (tr_echo tr) (R j) u p /\ b = sp_body p) <->
            ((mem u (pl_from h j t) && negb (is_none (pl_echo h j u)))%bool = true /\ b = pl_echo h j u)).
        { intros u b. rewrite <- Hc. split.
          - intros (n0 & msg0 & p & H1 & H2 & H3 & H4 & ->). rewrite (rec_fun H1 Hn) in H2. rewrite Hm in H2. injection H2 as <-. split; auto.
            destruct (Hp u H3) as (p' & Hp' & <-). now rewrite (rec_fun H4 Hp').
          - intros [H1 ->]. destruct (Hp u H1) as (p & Hp' & <-). exists n, msg, p. auto. }
        unfold echoed_by. split.
        - intros H w. specialize (H w). destruct (get w bodies) as [b|] eqn:Eb.
          + destruct (proj1 (L w b) (proj1 (H b) eq_refl)) as [-> ->]. reflexivity.
          + destruct (mem w (pl_from h j t) && negb (is_none (pl_echo h j w)))%bool eqn:E; auto.
            pose proof (proj2 (H _) (proj2 (L w _) (conj E eq_refl))). discriminate.
        - intros H u b. rewrite (L u b), (H u). destruct (mem u (pl_from h j t) && negb (is_none (pl_echo h j u)))%bool.
          + split; [intros E; injection E as <-; auto|intros [_ ->]; reflexivity].
          + split; [discriminate|intros [E _]; discriminate]. }
      split.
      - intros (cs & H1 & H2 & H3). destruct (Av cs rid H1 H2) as (j & Hj & -> & He & Ht). exists cs, j. split; auto. split; auto. split; auto. split; auto.
        now apply (K j).
      - intros (cs & j & H1 & H2 & Hj & -> & H3). destruct (Av cs (R j) H1 H2) as (j' & Hj' & E & He & Ht).
         apply (hr_distinct HL) in E; [|lia|lia]. subst j'. exists cs. split; auto. split; auto. now apply (K j).
    Qed.

    Lemma available_ok err : be_ser err <> None -> available h t k v (be_required err) -> evidence_available tr t err.
    Proof.
      intros Hs Av.  split; auto. split.
      - intros pm rid rq H1 H2. destruct (proj1 Av pm rid rq H1 H2) as (j & Hj & -> & Hf & _ & A1 & A2 & A3).
        split; [intros E; destruct (old_echo Hj Hf (A1 E)) as (p & (x & H) & _); eauto|].
        split; [intros E; destruct (old_normal Hj Hf (A2 E)) as (p & (x & H) & _); eauto|].
        intros E; destruct (old_direct Hj Hf (A3 E)) as (p & (x & H) & _); eauto.
      - intros cs rid H1 H2. destruct (proj2 Av cs rid H1 H2) as (j & Hj & -> & He & Ht).
        split; [apply (hr_plain HL); lia|]. destruct (old_echoed Hj He Ht) as (n & msg & (x & Hn) & _). split; [eauto|].
        destruct (T1 Hj) as (echos & E & _). eauto.
    Qed.
  End Evid.

  (** ** Being convicted *)
  Lemma tr_known net ph v d : Inv net ph -> TI net ph -> party v -> get v (nodes net) = Some (Running d) -> ph v = (k, false) ->
    (forall j, j < k -> exists echos, get (R j) (tr_echo (s_tr (d_s d))) = Some echos /\ all_echos sid h j v echos) /\
    (forall g u, pvalid v g -> fst g < k -> mem u (exp g v) = true ->
      exists m, good_vm sid h g u v m /\ kept (vm_normal m) (got (prid g) u (tr_normal (s_tr (d_s d)))) /\
        kept (vm_direct m) (got (prid g) u (tr_direct (s_tr (d_s d))))).
  Proof.
    intros I T Hv Hd Hp. pose proof (T v d Hd) as K. rewrite Hp in K.  split.
    - intros j Hj. apply (tn_echo K); [lia|]. unfold prank. cbn [fst snd b2n]. lia.
    - intros g u Hg Hlt. apply (tn_parts K); auto. unfold prank. cbn [fst snd b2n]. destruct (snd g); cbn [b2n]; lia.
  Qed.

  Lemma convicts net ph v d (d0 : DState Pr) m : Inv net ph -> TI net ph -> party v -> get v (nodes net) = Some (Running d) -> ph v = (k, false) ->
    srel (d_s d0) (d_s d) -> mem t (a_waiting (d_a d0)) = true -> contains t (a_payloads (d_a d0)) = false -> contains t (a_provable (d_a d0)) = false ->
    reachable d0 -> In m (d_todo d) -> vm_from m = t -> turned_down sid h t k sd v ->
    exists ev, add_processed (d_s d0) (d_a d0) (process_message (d_s d0) m) =
        (set_provable (set_waiting (d_a d0) (srem t (a_waiting (d_a d0)))) (insert t ev (a_provable (d_a d0))), Ok tt) /\
      proof_against sid h t k sd v ev.
  Proof.
    intros I T Hv Hd Hp S Hw Hc0 Hprov Hre Hin Hm Hbad0. pose proof (ni_node I v Hv) as Hn. rewrite Hd, Hp in Hn. destruct Hn as (Hf & G & A).
    destruct (tr_known v I T Hv Hd Hp) as [K1 K2].
    destruct (ga_todo A m Hin) as [Gm Hex]. rewrite Hm in Gm, Hex. destruct Gm as (_ & Hau & [B1 B2] & B3). unfold good_direct in B3. cbn [fst snd] in B1, B2, B3.
    pose proof (gs_round G) as Hrd. unfold good_round in Hrd. cbn [fst snd] in Hrd.
    destruct S as (S1 & _ & _ & S4 & _ & _ & _ & _ & S9 & S10). rewrite Hrd in S4. inversion S4 as [x y Exy E1 E2|]. subst y. symmetry in E1.
    assert (Hrid : s_round_id (d_s d0) = R k).
    { pose proof (good_rid HR Hf Hv G) as H. unfold s_round_id in *. rewrite S9 in H. exact H. }
    assert (Hid : s_id (d_s d0) = sid) by (rewrite <- S1; apply G).
    unfold add_processed, process_message. cbn [pm_msg pm_res]. rewrite Hm, Hc0, Hw. cbn [negb]. rewrite E1. cbn [rd_receive].
    rewrite B1, B2, B3. destruct Hbad0 as (ri & Hri & Hbad). unfold prid in Hau. cbn [fst snd] in Hau.
    subst x.
    assert (Hrej : forall ev, register_provable (set_waiting (d_a d0) (srem t (a_waiting (d_a d0)))) t ev =
        (set_provable (set_waiting (d_a d0) (srem t (a_waiting (d_a d0)))) (insert t ev (a_provable (d_a d0))), Ok (E := LocalError) tt)).
    { intros ev. unfold register_provable. cbn [set_waiting a_provable]. now rewrite Hprov. }
    destruct Hau as (P1 & P2 & P3 & M0 & M1 & M2 & M3). rewrite Hm in P1, P2, P3.
    assert (Hplain : rid_echo (R k) = false) by (apply (hr_plain HL), Hk).
    unfold proof_against. destruct (receive Pr (pl_state h k v) t _) as [pl|[| | | |err| |]|] eqn:Erec; try contradiction; cbn [bind]; cbv zeta.
    - exists (new_invalid_direct t (vm_direct m)). split; [apply Hrej|]. split; [reflexivity|].
      unfold verify_evidence, verify_invalid_part. cbn [ev_body new_invalid_direct ev_guilty].
      rewrite (proj2 (verify_part_ok _ _ (vm_direct m))) by auto. cbn [map_err bind]. rewrite M1. cbn [m_round]. rewrite Hplain, Hri, B3. split; [exact Hbad|].
      unfold charge. rewrite Erec. exists (vm_direct m). split; [reflexivity|split; auto].
    - exists (new_invalid_echo t (vm_echo m)). split; [apply Hrej|]. split; [reflexivity|].
      unfold verify_evidence, verify_invalid_part. cbn [ev_body new_invalid_echo ev_guilty].
      rewrite (proj2 (verify_part_ok _ _ (vm_echo m))) by auto. cbn [map_err bind]. rewrite M2. cbn [m_round]. rewrite Hplain, Hri, B1. split; [exact Hbad|].
      unfold charge. rewrite Erec. exists (vm_echo m). split; [reflexivity|split; auto].
    - exists (new_invalid_normal t (vm_normal m)). split; [apply Hrej|]. split; [reflexivity|].
      unfold verify_evidence, verify_invalid_part. cbn [ev_body new_invalid_normal ev_guilty].
      rewrite (proj2 (verify_part_ok _ _ (vm_normal m))) by auto. cbn [map_err bind]. rewrite M3. cbn [m_round]. rewrite Hplain, Hri, B2. split; [exact Hbad|].
      unfold charge. rewrite Erec. exists (vm_normal m). split; [reflexivity|split; auto].
    - destruct Hbad as (Hapi & Hav & eb & Heb & Hver). rewrite S10 in K1, K2.
      destruct (@evidence_available_ok _ (s_tr (d_s d0)) t err (vm_echo m) (vm_normal m) (vm_direct m)) as [ev Hev].
      { apply (available_ok Hv _ K1 K2); auto. now rewrite Heb. }
      rewrite Hev. exists ev. split; [apply Hrej|].
      rewrite <- Hm in Hev.
      destruct (@provable_verifies _ _ d0 m err ev Hsig Hpl Hapi Hre) as (eb' & prev & comb & H1 & H2 & H3 & H4 & H5); auto.
      { rewrite Hid, Hrid. unfold vmessage_authentic. rewrite Hm. auto 10. }
      rewrite Hm in H2, H3, H4, H5. split; auto. rewrite Hrid, Hid in H5. rewrite (H5 sd ri Hri). assert (eb' = eb) by congruence. subst eb'.
      rewrite B1, B2, B3. split; [apply Hver; [eapply earlier_ok; eauto|eapply echoed_ok; eauto]|].
      unfold charge. rewrite Erec. apply new_provable_ok in Hev as (eb' & es & ns & ds & hs & os & Heb' & -> & _). eexists. split; [reflexivity|]. split; [exact Heb'|].
      cbn [pe_direct pe_echo pe_normal]. cbv zeta.
      destruct (rp_direct _), (rp_echo _), (rp_normal _); repeat split; eexists; (split; [reflexivity|split; auto]).
  Qed.

End Charge.
