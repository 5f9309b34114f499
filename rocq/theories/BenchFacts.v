(** Executions of the protocols of the benchmarks. *)
From Coq Require Import List Arith NArith Bool Lia.
From Verif Require Import Base BMap Errors RoundId Message Protocol Transcript Evidence Session Typed Simple Spec SpecCrypto SpecTyped
  SessionFacts HistoryFacts Network SpecNet TypedFacts NetFacts HonestFacts RunSync RunSyncFacts Async Bench.
Import ListNotations.
Set Implicit Arguments.

Lemma do_work_small n x : (x < 2 ^ 64 -> N.iter n (fun x => N.modulo (x * x) work_modulus) x < 2 ^ 64)%N.
Proof.
  intros Hx. pattern (N.iter n (fun x => N.modulo (x * x) work_modulus) x). apply N.iter_invariant; auto. intros y _.
  transitivity work_modulus; [apply N.mod_lt; discriminate|reflexivity].
Qed.

Section Bench.
  Context {P : Params}.
  Variables (W : Work) (direct_codec : Codec (wk_type W)) (echo_codec : Codec unit) (no_error : bytes -> bool).
  Notation TP := (bench W direct_codec echo_codec no_error).
  Notation entry := (bench_entry W direct_codec echo_codec no_error).

  Lemma no_echo_new g sid signer inp : bi_echo inp = false -> is_empty (bi_others inp) = false ->
    session_new g sid signer (entry inp) = Err LE_NotImplemented.
  Proof.
    intros He Ho. unfold session_new. cbn [bench_entry ep_make bind]. rewrite He. unfold new_for_next_round.
    cbn [rd_tinfo bind rd_cinfo wrap cinfo box projT1 projT2 bench t_cinfo]. unfold bench_comm, regular. cbn [ci_dest bs_inputs]. rewrite Ho.
    reflexivity.
  Qed.
  Lemma no_echo_run_sync fuel r picks sid signer inp ps : bi_echo inp = false -> is_empty (bi_others inp) = false ->
    run_sync fuel r picks sid ((signer, entry inp) :: ps) = Some (Err LE_NotImplemented).
  Proof.
    intros He Ho. unfold run_sync. cbn [sync_start]. unfold sync_add. cbn [fst snd]. rewrite no_echo_new by assumption. reflexivity.
  Qed.
  Lemma no_echo_run_async r sid signer inp ps : bi_echo inp = false -> is_empty (bi_others inp) = false ->
    anet_start r sid ((signer, entry inp) :: ps) = Err LE_NotImplemented.
  Proof. intros He Ho. unfold anet_start. cbn [map_res fst snd]. rewrite no_echo_new by assumption. reflexivity. Qed.
  Lemma no_echo_fails (inp : BInputs) : bi_echo inp = false -> is_empty (bi_others inp) = false -> let ep := entry inp in
    (forall g sid signer, session_new g sid signer ep = Err LE_NotImplemented) /\
    (forall fuel r picks sid signer ps, run_sync fuel r picks sid ((signer, ep) :: ps) = Some (Err LE_NotImplemented)) /\
    (forall r sid signer ps, anet_start r sid ((signer, ep) :: ps) = Err LE_NotImplemented).
  Proof.
    intros He Ho ep. split; [|split]; intros.
    - now apply no_echo_new.
    - now apply no_echo_run_sync.
    - now apply no_echo_run_async.
  Qed.

  (** With echo broadcasts. *)
  Section Echo.
    Variables (g : rng) (sid : bytes) (signer : Signer) (inp : BInputs) (s0 : Session (wrap TP)).
    Hypothesis He : bi_echo inp = true.
    Hypothesis Hr : bi_rounds inp <> 1%N.
    Hypothesis Ho : is_empty (bi_others inp) = false.
    Hypothesis Hs : session_new g sid signer (entry inp) = Ok s0.

    Definition first_round : St (wrap TP) := box TP BEcho (mkBState 1 inp).
    Definition stuck (s : Session (wrap TP)) : Prop := rd_tinfo (s_round s) = Ok (s_tinfo s) /\
      ((s_round s = RMain first_round /\ s_echo_info s <> None) \/
      (exists v echos info ps arts, s_round s = REcho v echos info (RMain first_round) ps arts /\ s_echo_info s = None)).

    Lemma first_id : ti_id (tinfo (wrap TP) first_round) = rid_new 1.
    Proof.
      cbn [wrap tinfo first_round box projT1 projT2 bench t_tinfo]. unfold bench_tinfo. cbn [bs_inputs bs_counter].
      destruct (N.eqb _ _); reflexivity.
    Qed.
    Lemma first_echo g' sid' sg t s : created g' sid' sg (RMain first_round) t s -> s_echo_info s <> None.
    Proof.
      intros C. rewrite (cr_einfo C). pose proof (cr_echo_body C) as B.
      cbn [rd_cinfo wrap cinfo first_round box projT1 projT2 bench t_cinfo] in *. unfold bench_comm, regular in *. cbn [ci_dest bs_inputs] in *.
      rewrite Ho in B. cbn [rd_mk_echo wrap mk_echo w_echo first_round box typed_echo bench t_mk_echo] in B.
      apply bind_ok in B as (m & _ & B). cbn [part_new bench t_echo msg] in B. apply bind_ok in B as (b & _ & B).
      unfold make_echo_info. cbn [ci_part]. injection B as <-. discriminate.
    Qed.
    Lemma stuck_start : stuck s0.
    Proof.
      apply session_new_ok in Hs as (st & E & C). cbn [bench_entry ep_make] in E. rewrite He in E. injection E as <-.
      split; [rewrite (cr_round C); exact (cr_tinfo C)|]. left. split; [exact (cr_round C)|exact (first_echo C)].
    Qed.
    Lemma echo_no_info g' sid' sg v echos info (m : Round (wrap TP)) ps arts t s :
      created g' sid' sg (REcho v echos info m ps arts) t s -> s_echo_info s = None.
    Proof.
      intros C. rewrite (cr_einfo C). pose proof (cr_echo_body C) as B.
      assert (E : sp_body (s_echo s) = None).
      { cbn [rd_mk_echo] in B. match type of B with if ?b then _ else _ => destruct b end; congruence. }
      unfold make_echo_info. cbn [rd_cinfo]. rewrite E. reflexivity.
    Qed.
    Lemma last_no_echo g' sid' sg c t s : created g' sid' sg (RMain (box TP BEmpty (mkBState c inp) : St (wrap TP))) t s -> False.
    Proof.
      intros C. pose proof (cr_echo_body C) as B.
      cbn [rd_cinfo wrap cinfo box projT1 projT2 bench t_cinfo] in B. unfold bench_comm, regular in B. cbn [ci_dest bs_inputs] in B.
      rewrite Ho in B. discriminate B.
    Qed.
    Lemma first_finalize g' ps arts o : rd_finalize (RMain first_round) g' ps arts = Ok o ->
      o = AnotherRound (box TP BEmpty (mkBState 2 inp) : St (wrap TP)).
    Proof.
      cbn [rd_finalize wrap finalize w_finalize first_round box]. intros H.
      apply bind_ok in H as (ps1 & _ & H). apply bind_ok in H as (arts1 & _ & H).
      apply bind_ok in H as (ps2 & _ & H). apply bind_ok in H as (arts2 & _ & H).
      cbn [bench t_finalize] in H. unfold bench_finalize in H. cbn [bs_counter bs_inputs] in H.
      destruct (N.eqb_spec 1 (bi_rounds inp)) as [E|_]; [congruence|]. cbn in H. injection H as <-. reflexivity.
    Qed.
    Lemma stuck_fin s g' a s' c : stuck s -> fin_cases s g' a s' c -> stuck s' /\ s_echo_info s <> None.
    Proof.
      intros [Ht H] F. destruct F as [t info echos _ Ei _ C _|t st _ Ei Ef _ C _].
      - destruct H as [[H1 H2]|(v & es & i & ps & arts & H1 & H2)]; [|congruence]. split; [|congruence].
        split; [rewrite (cr_round C); exact (cr_tinfo C)|]. right. pose proof (echo_no_info C). rewrite H1 in C. do 5 eexists. split; [exact (cr_round C)|assumption].
      - exfalso. destruct H as [[H1 H2]|(v & es & i & ps & arts & H1 & H2)]; [congruence|].
        rewrite H1 in Ef. cbn [rd_finalize] in Ef. apply first_finalize in Ef. injection Ef as ->. exact (last_no_echo C).
    Qed.
    Lemma stuck_run es d : run (start s0) es d -> stuck (d_s d).
    Proof.
      intros H. remember (start s0) as d0 eqn:E. revert E. induction H as [d|d0 es d1 e d2 Hrun IH Hst]; intros E.
      - subst. exact stuck_start.
      - specialize (IH E). destruct (is_fin e) eqn:Ef.
        + destruct e; try discriminate. destruct (fin_cases_step Hst) as (_ & _ & F). exact (proj1 (stuck_fin IH F)).
        + replace (d_s d2) with (d_s d1); auto. inversion Hst; subst; auto; discriminate.
    Qed.
    Lemma stuck_never s g' a : stuck s ->
      (forall rep, finalize_round s g' a <> Ok (ROFinished rep)) /\ (s_echo_info s = None -> forall o, finalize_round s g' a <> Ok o).
    Proof.
      intros H. assert (H1 : forall rep, finalize_round s g' a <> Ok (ROFinished rep)).
      { intros rep E. apply finalize_finished in E as (t & x & _ & Ei & Ef & _).
        destruct H as [_ [[_ H]|(v & es & i & ps & arts & H & _)]]; [congruence|]. rewrite H in Ef. cbn [rd_finalize] in Ef.
        apply first_finalize in Ef. discriminate. }
      split; auto. intros Hn [rep|s' c]; [apply H1|]. intros E. apply finalize_another in E. destruct (stuck_fin H E) as [_ F]. congruence.
    Qed.
    Lemma stuck_id s : stuck s ->
      (s_round_id s = rid_new 1 /\ s_echo_info s <> None) \/ (s_round_id s = mkRid 1 [] true /\ s_echo_info s = None).
    Proof.
      intros [Ht [[H1 H2]|(v & es & i & ps & arts & H1 & H2)]]; [left|right]; (split; [|assumption]); rewrite H1 in Ht; cbn [rd_tinfo] in Ht.
      - injection Ht as Ht. unfold s_round_id. rewrite <- Ht. exact first_id.
      - cbn [bind] in Ht. unfold ti_echo in Ht. rewrite first_id in Ht. cbn [echo bind rid_new rid_echo] in Ht.
        cbn in Ht. injection Ht as Ht. unfold s_round_id. rewrite <- Ht. reflexivity.
    Qed.

    Lemma echo_never es d : run (start s0) es d ->
      (s_round_id (d_s d) = rid_new 1 \/ s_round_id (d_s d) = mkRid 1 [] true) /\
      (forall g rep, finalize_round (d_s d) g (d_a d) <> Ok (ROFinished rep)) /\
      (s_round_id (d_s d) = mkRid 1 [] true -> forall g o, finalize_round (d_s d) g (d_a d) <> Ok o).
    Proof.
      intros H. pose proof (stuck_run H) as HS. destruct (stuck_id HS) as [[E1 E2]|[E1 E2]]; (split; [auto|]); split.
      - intros g' rep. exact (proj1 (stuck_never g' (d_a d) HS) rep).
      - intros F. rewrite E1 in F. discriminate F.
      - intros g' rep. exact (proj1 (stuck_never g' (d_a d) HS) rep).
      - intros _ g' o. exact (proj2 (stuck_never g' (d_a d) HS) E2 o).
    Qed.
  End Echo.

  (** One round with echo broadcasts. *)
  Section One.
    Variables (r : NetRng) (sid : bytes) (parties : bset Verifier) (inputs : Verifier -> BInputs) (x : wk_type W).
    Hypothesis Hdc : codec_ok direct_codec.
    Hypothesis Hec : codec_ok echo_codec.
    Hypothesis Hmk : wk_make W 1 = Ok x.
    Hypothesis Hck : wk_check W 1 x = Ok tt.
    Hypothesis Hin : forall v, mem v parties = true -> inputs v = mkBInputs 1 true (srem v parties).
    Hypothesis Htwo : exists u v, mem u parties = true /\ mem v parties = true /\ u <> v.

    Definition bench_plan : Plan (wrap TP) := {|
      pl_last := 0;
      pl_rid := fun _ => rid_new 1;
      pl_part := fun _ _ => EPDefault;
      pl_dest := fun _ v => srem v parties;
      pl_from := fun _ v => srem v parties;
      pl_state := fun _ v => (box TP BEcho (mkBState 1 (inputs v)) : St (wrap TP));
      pl_echo := fun _ _ => enc echo_codec tt;
      pl_normal := fun _ _ => None;
      pl_direct := fun _ _ _ => enc direct_codec x;
      pl_artifact := fun _ _ _ => (existT (ty TP) BArt tt : Artifact (wrap TP));
      pl_payload := fun _ _ _ => (existT (ty TP) BPay tt : Payload (wrap TP));
      pl_result := fun _ => (tt : Rslt (wrap TP))
    |}.

    Lemma others_some v : is_empty (srem v parties) = false.
    Proof.
      destruct Htwo as (a & b & Ha & Hb & Hab). destruct (is_empty (srem v parties)) eqn:E; auto.
      rewrite is_empty_get in E.
      assert (F : forall u, mem u parties = true -> u <> v -> False).
      { intros u Hu Hne. assert (G : mem u (srem v parties) = true) by (rewrite mem_rem, Hu; destruct (eqb_spec u v); [contradiction|reflexivity]).
        unfold mem, contains in G. rewrite E in G. discriminate. }
      destruct (eqb_spec a v) as [->|Hne]; [|destruct (F _ Ha Hne)].
      exfalso. apply (F b Hb). congruence.
    Qed.
    Lemma mem_others u v : mem u (srem v parties) = true -> mem u parties = true /\ u <> v.
    Proof. rewrite mem_rem. destruct (eqb_spec u v); [discriminate|]. cbn [negb andb]. auto. Qed.
    Lemma others_mem u v : mem u parties = true -> u <> v -> mem u (srem v parties) = true.
    Proof. intros Hu Hne. rewrite mem_rem, Hu. destruct (eqb_spec u v); [contradiction|reflexivity]. Qed.

    Lemma bench_honest : honest_run r sid parties (fun v => entry (inputs v)) bench_plan.
    Proof.
      assert (H0 : forall n, n <= pl_last bench_plan -> n = 0) by (cbn [pl_last bench_plan]; intros; lia).
      destruct (@enc_ok _ echo_codec tt Hec) as (be & E1 & E2 & E3).
      destruct (@enc_ok _ direct_codec x Hdc) as (bd & D1 & D2 & D3).
      assert (Hecho : forall n v, echoes bench_plan n v = true). { intros n v. unfold echoes. cbn [pl_part pl_echo bench_plan]. now rewrite E2. }
      split; [constructor|].
      - reflexivity.
      - intros n k Hn Hk _. rewrite (H0 n Hn), (H0 k Hk). reflexivity.
      - intros n v _ Hv. cbn [pl_state pl_rid bench_plan]. rewrite (Hin _ Hv). reflexivity.
      - intros n v Hn. cbn [pl_last bench_plan] in Hn. lia.
      - intros n v _ Hv. cbn [pl_state pl_dest pl_from pl_part bench_plan]. rewrite (Hin _ Hv). reflexivity.
      - intros n v u _ Hv Hu. exact (mem_others _ _ Hu).
      - intros n v u _ Hv Hu. exact (mem_others _ _ Hu).
      - intros n u v _ Hu Hv. cbn [pl_dest pl_from bench_plan]. rewrite !mem_rem, Hu, Hv, !andb_true_r. destruct (eqb_spec v u), (eqb_spec u v); congruence.
      - intros n v u _ Hv _ Hu. destruct (mem_others _ _ Hu) as [Hu1 Hu2]. split; auto. split; auto. split; [apply Hecho|].
        cbn [partners pl_part pl_dest bench_plan]. apply others_mem; auto.
      - intros n v u w _ Hv _ Hu. unfold echoed. cbn [pl_part pl_from pl_echo bench_plan]. rewrite E2. cbn [is_none negb]. rewrite andb_true_r.
        rewrite !mem_rem, mem_add, mem_rem. destruct (eqb_spec w u); [reflexivity|]. cbn [negb andb]. destruct (eqb_spec w v) as [->|_]; [now rewrite Hv|reflexivity].
      - intros v Hv. cbn [bench_entry ep_make pl_state bench_plan]. rewrite (Hin _ Hv). reflexivity.
      - intros n v _ Hv. cbn [pl_dest pl_echo pl_state bench_plan]. rewrite others_some.
        cbn [mk_echo wrap w_echo box typed_echo t_mk_echo bench t_echo]. unfold bench_mk_echo. cbn [bind part_new msg]. rewrite E1, E2. reflexivity.
      - intros n v _ Hv. cbn [pl_dest bench_plan]. rewrite others_some. reflexivity.
      - intros n v u _ Hv Hu. cbn [pl_state pl_direct pl_artifact bench_plan mk_direct wrap w_direct box typed_direct t_mk_direct bench t_direct t_art].
        unfold bench_mk_direct. cbn [bs_counter]. rewrite Hmk. cbn [bind part_new msg]. rewrite D1, D2. reflexivity.
      - intros n v u _ Hv Hu. cbn [pl_from pl_echo pl_normal pl_direct pl_payload pl_state bench_plan] in *. rewrite E2, D2.
        cbn [receive wrap w_receive box dm_direct dm_echo dm_normal bench t_direct t_echo t_normal part_receive part_deser msg ok_or t_receive is_none bind].
        rewrite D3. cbn [ok_or bind]. rewrite E3. cbn [ok_or bind]. unfold bench_receive. cbn [bs_counter]. rewrite Hck. reflexivity.
      - intros n v ps arts Hn Hv Hps Harts.
        destruct (@w_finalize_map P TP BEcho (mkBState 1 (inputs v)) (rsub 0 (nr_fin r v (final_rid bench_plan n v))) ps arts _ (fun _ => tt) _ (fun _ => tt) Hps Harts) as (ps' & arts' & _ & _ & E).
        etransitivity; [exact E|]. rewrite (H0 n Hn). cbn [bench t_finalize]. unfold bench_finalize. cbn [bs_counter bs_inputs]. rewrite (Hin _ Hv). reflexivity.
      - apply heard_in_step. split.
        + intros n v u Hn _ _ _. left. exact (H0 n Hn).
        + intros n v u Hn. cbn [pl_last bench_plan] in Hn. lia.
    Qed.

    Hypothesis Hwire : wire_total P.
    Hypothesis Hsig : signatures_correct P.
    Variable sk : Verifier -> Signer.
    Hypothesis Hsk : signers parties sk.

    Lemma bench_run_sync picks :
      exists fuel0 reports results, (forall fuel, fuel0 <= fuel ->
        run_sync fuel r picks sid (map (fun v => (sk v, entry (inputs v))) (elements parties)) = Some (Ok reports)) /\
      exec_results reports = Some results /\ is_map results parties (fun _ => tt).
    Proof.
      destruct (run_sync_completes Hsk Hwire Hsig bench_honest picks) as (fuel0 & reports & results & H1 & _ & _ & H2 & H3).
      - destruct Htwo as (u & v & Hu & Hv & Hne). exists 0, v, u. split; [apply le_n|]. split; [exact Hv|]. left. exact (others_mem Hu Hne).
      - exists fuel0, reports, results. split; [exact H1|]. split; [exact H2|exact H3].
    Qed.
  End One.
End Bench.

Lemma empty_work_ok c : wk_make empty_work c = Ok tt /\ wk_check empty_work c tt = Ok tt.
Proof. split; reflexivity. Qed.
(** [do_work] is not computed: it is made a variable first. *)
Lemma async_work_ok c : ((c < 254)%N -> wk_make async_work c = Ok (do_work (c + 2))) /\
  (forall x, wk_make async_work c = Ok x -> wk_check async_work c x = Ok tt) /\ ((254 <= c)%N -> wk_make async_work c = Panic).
Proof.
  unfold async_work. cbn [wk_make wk_check]. generalize do_work. intros work. unfold u8_add, u8_max. destruct (N.leb_spec (c + 2) 255) as [H|H]; cbn [bind].
  - split; [auto|]. split; [|intros; exfalso; lia]. intros x E. inv E. now rewrite N.eqb_refl.
  - split; [intros; exfalso; lia|]. split; [discriminate|auto].
Qed.
Lemma do_work_fits n x : (x < 2 ^ 64 -> let y := N.iter n (fun x => N.modulo (x * x) work_modulus) x in y < 2 ^ 64 /\ y * y < 2 ^ 128)%N.
Proof.
  intros H y. pose proof (do_work_small n H) as Hy. fold y in Hy. split; [exact Hy|].
  change (2 ^ 128)%N with (2 ^ 64 * 2 ^ 64)%N. apply N.mul_lt_mono; exact Hy.
Qed.
