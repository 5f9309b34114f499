(** Facts about honest parties with correctly attributed messages among dishonest ones. *)
From Coq Require Import List NArith Arith Bool Permutation Lia.
From Verif Require Import Base BMap Errors RoundId Message Protocol Transcript Evidence Session Spec SpecCrypto SpecEvidence
  SpecBlame MessageFacts SessionFacts RunFacts IntakeFacts RoundFacts FinalizeFacts HistoryFacts SignFacts EchoFacts.
Import ListNotations.
Set Implicit Arguments.

Section WithParams.
  Context {P : Params}.
  Context {Pr : Proto}.
  Variable honest : Verifier -> bool.
  Variable parties : bset Verifier.
  Variable sid : bytes.
  Variable rids : nat -> RoundId.
  Variable echoed : nat -> bool.
  Variable at_ : nat -> Verifier -> St Pr -> Prop.
  Hypothesis U : uniform parties rids echoed at_.
  Hypothesis Hsig : signatures_correct P.
  Hypothesis Hcod : echo_codec P.
  Implicit Types (s : Session Pr) (a : Accum Pr) (d : DState Pr) (w : CWorld Pr) (ws : list (CWorld Pr)) (u v x : Verifier).

  (** ** Phases: a round or its echo round *)
  Definition ph : Type := (nat * bool)%type.
  Implicit Types f g : ph.
  Definition prid f : RoundId := if snd f then echo_of (rids (fst f)) else rids (fst f).
  Definition pnext f : ph := if (negb (snd f) && echoed (fst f))%bool then (fst f, true) else (S (fst f), false).
  Definition prank f : nat := 2 * fst f + if snd f then 1 else 0.
  Definition pvalid f : Prop := snd f = true -> echoed (fst f) = true.

  Lemma prank_inj f g : prank f = prank g -> f = g.
  Proof. destruct f as [n []], g as [k []]; unfold prank; simpl; intros; f_equal; lia. Qed.
  Lemma prank_next f : prank f < prank (pnext f).
  Proof. destruct f as [n []]; unfold prank, pnext; simpl; [lia|]. destruct (echoed n); simpl; lia. Qed.
  Lemma prank_between f g : pvalid g -> prank f < prank g -> prank (pnext f) <= prank g.
  Proof.
    destruct f as [n []], g as [k []]; unfold prank, pnext, pvalid; simpl; intros V H; try lia.
    - destruct (echoed n) eqn:E; simpl; try lia. assert (n <> k) by (intros ->; rewrite V in E; [discriminate|auto]). lia.
    - destruct (echoed n); simpl; lia.
  Qed.
  Lemma next_mono f g : pvalid g -> prank f <= prank g -> prank (pnext f) <= prank (pnext g).
  Proof.
    intros V H. destruct (Nat.eq_dec (prank f) (prank g)) as [E|E]; [apply prank_inj in E; subst; auto|].
    pose proof (@prank_between f g V). pose proof (prank_next g). lia.
  Qed.
  Lemma next_valid f : pvalid (pnext f).
  Proof. destruct f as [n []]; unfold pvalid, pnext; simpl; try discriminate. destruct (echoed n) eqn:E; simpl; auto. discriminate. Qed.
  Lemma prid_inj f g : prid f = prid g -> f = g.
  Proof.
    destruct f as [n []], g as [k []]; unfold prid, echo_of; simpl; intros E.
    - f_equal. apply (un_distinct U). pose proof (un_plain U n). pose proof (un_plain U k).
      destruct (rids n), (rids k). simpl in *. congruence.
    - pose proof (un_plain U k) as H. rewrite <- E in H. discriminate.
    - pose proof (un_plain U n) as H. rewrite E in H. discriminate.
    - f_equal. now apply (un_distinct U).
  Qed.

  (** ** A session in a phase *)
  Definition at_phase v f s : Prop :=
    if snd f then
      exists me echos info st ps arts, s_round s = REcho me echos info (RMain st) ps arts /\ at_ (fst f) v st /\
        ei_dest info = srem v parties /\ ei_expect info = srem v parties /\
        (forall x, mem x (ei_echos info) = true <-> mem x parties = true) /\
        (forall x, contains x echos = true <-> mem x parties = true)
    else exists st, s_round s = RMain st /\ at_ (fst f) v st.

  Record good v f d : Prop := {
    gd_reach : reachable d;
    gd_party : mem v parties = true;
    gd_me : s_verifier (d_s d) = v;
    gd_id : s_id (d_s d) = sid;
    gd_valid : pvalid f;
    gd_phase : at_phase v f (d_s d);
    gd_echo : forall x, snd f = false -> echoed (fst f) = true -> contains x (a_payloads (d_a d)) = true -> contains x (a_echo (d_a d)) = true
  }.

  Lemma good_rid v f d : good v f d -> s_round_id (d_s d) = prid f.
  Proof.
    intros G. pose proof (reachable_sinv (gd_reach G)) as I. pose proof (gd_phase G) as H. unfold at_phase, prid in *.
    destruct f as [n []]; simpl in *.
    - destruct H as (me & echos & info & st & ps & arts & Hr & Ha & _).
      destruct (si_shape I) as [st' Hst|echos' info' st' ps' arts' Hst _]; [congruence|].
      rewrite Hst in Hr. inv Hr. destruct (echo_round_id I Hst) as [_ ->]. now rewrite (un_id U _ _ _ Ha).
    - destruct H as (st & Hr & Ha). destruct (main_tinfo I Hr) as [E _]. unfold s_round_id. rewrite E. apply (un_id U _ _ _ Ha).
  Qed.

  Lemma good_unique v f g d : good v f d -> good v g d -> f = g.
  Proof. intros G1 G2. apply prid_inj. rewrite <- (good_rid G1), <- (good_rid G2). reflexivity. Qed.

  Lemma good_comm v f d : good v f d -> s_comm (d_s d) = mkComm (srem v parties) (srem v parties) EPDefault.
  Proof.
    intros G. pose proof (reachable_sinv (gd_reach G)) as I. rewrite (si_comm I).
    pose proof (gd_phase G) as H. unfold at_phase in H. destruct (snd f).
    - destruct H as (me & echos & info & st & ps & arts & -> & _ & H1 & H2 & _). simpl. now rewrite H1, H2.
    - destruct H as (st & -> & Ha). simpl. apply (un_comm U _ _ _ Ha).
  Qed.

  Lemma others v : is_empty (srem v parties) = false.
  Proof.
    destruct (un_two U v) as (u & Hne & Hu). destruct (is_empty (srem v parties)) eqn:E; auto.
    rewrite is_empty_get in E. assert (H : mem u (srem v parties) = true).
    { rewrite mem_rem, Hu. apply eqb_neq in Hne. now rewrite Hne. }
    apply contains_get in H as [y Hy]. now rewrite E in Hy.
  Qed.

  Lemma good_echo_info v f d : good v f d ->
    s_echo_info (d_s d) = if (negb (snd f) && echoed (fst f))%bool
                          then Some (mkEchoInfo (srem v parties) (srem v parties) (sadd v (srem v parties))) else None.
  Proof.
    intros G. pose proof (reachable_sinv (gd_reach G)) as I. pose proof (gd_phase G) as H. unfold at_phase in H.
    destruct f as [n []]; simpl in *.
    - destruct H as (me & echos & info & st & ps & arts & Hr & _). destruct (si_shape I) as [st' Hst|? ? ? ? ? _ Hn]; congruence.
    - destruct H as (st & Hr & Ha). rewrite (si_einfo I), (good_comm G), (gd_me G). unfold make_echo_info. simpl.
      destruct (reachable_created (gd_reach G)) as (g1 & sid1 & sg & r & t & C).
      pose proof (cr_round C) as E. rewrite Hr in E. subst r. pose proof (cr_echo_body C) as He. simpl in He.
      rewrite (un_comm U _ _ _ Ha) in He. simpl in He. rewrite (others v) in He. rewrite (@un_echo _ _ _ _ _ _ U _ _ _ _ _ Ha He). destruct (echoed n); auto.
  Qed.

  Lemma good_window v f d u st : good v f d -> (snd (pnext f) = false -> at_ (fst (pnext f)) u st) -> window (d_s d) (prid (pnext f)).
  Proof.
    intros G Hn. pose proof (reachable_sinv (gd_reach G)) as I.
    unfold window. rewrite (good_echo_info G). pose proof (gd_phase G) as H. unfold at_phase in H.
    pose proof (good_rid G) as Hid. unfold s_round_id in Hid.
    unfold pnext in *. destruct f as [n []]; simpl in *.
    - destruct H as (me & echos & info & st1 & ps & arts & Hr & Ha & _). specialize (Hn eq_refl).
      destruct (@simultaneous_total (s_tinfo (d_s d)) false) as [acc Hacc]; [discriminate|]. exists acc. split; auto.
      apply (simultaneous_window _ _ Hacc). right. right.
      pose proof (si_tinfo I) as Ht. rewrite Hr in Ht. apply rd_tinfo_echo in Ht as (t0 & H1 & H2). inv H1.
      unfold ti_echo in H2. apply bind_ok in H2 as (e & _ & H2). inv H2. simpl. unfold prid. simpl. exact (un_next U _ _ _ _ _ Ha Hn).
    - destruct H as (st1 & Hr & Ha). destruct (main_tinfo I Hr) as [E _].
      destruct (@simultaneous_total (s_tinfo (d_s d)) (match (if echoed n then Some (mkEchoInfo (srem v parties) (srem v parties) (sadd v (srem v parties))) else None) with Some _ => true | None => false end)) as [acc Hacc].
      { intros _. rewrite E, (un_id U _ _ _ Ha). apply (un_plain U). }
      exists acc. split; auto. apply (simultaneous_window _ _ Hacc). destruct (echoed n); simpl in *.
      + left. rewrite E, (un_id U _ _ _ Ha). reflexivity.
      + right. right. rewrite E. unfold prid. simpl. exact (un_next U _ _ _ _ _ Ha (Hn eq_refl)).
  Qed.

  Lemma good_step v f d e d' : good v f d -> step d e d' -> is_fin e = false -> good v f d'.
  Proof.
    intros G Hs Hf. destruct (step_identity Hs (reachable_sinv (gd_reach G))) as (Hid & _ & Hv).
    assert (E : d_s d' = d_s d) by (inv Hs; auto; discriminate).
    constructor.
    - exact (reachable_run (gd_reach G) (run_one Hs)).
    - apply (gd_party G).
    - rewrite E. apply (gd_me G).
    - rewrite E. apply (gd_id G).
    - apply (gd_valid G).
    - rewrite E. apply (gd_phase G).
    - intros x H1 H2. pose proof (@gd_echo _ _ _ G x H1 H2) as K. inv Hs; simpl in *; try discriminate.
      + apply preprocess_cases in H. inv H; auto.
      + apply add_processed_ok in H as (_ & _ & H). inv H; auto. simpl.
        pose proof (gd_phase G) as Hp. unfold at_phase in Hp. rewrite H1 in Hp. simpl in Hp. destruct Hp as (st & Hr & Ha).
        unfold answer in H0. rewrite Hr in H0. simpl in H0. apply bind_ok in H0 as (p' & Hp & _).
        pose proof (@un_receive _ _ _ _ _ _ U _ _ _ _ _ _ Ha H2 Hp) as Hn. simpl in Hn. unfold ins_part. simpl in Hn. rewrite Hn.
        rewrite !contains_insert, !orb_true_iff. intuition.
      + apply add_artifact_ok in H3 as [_ ->]. auto.
  Qed.

  Lemma good_fin v f d (g : rng) d' : good v f d -> step d (EFin g) d' -> good v (pnext f) d'.
  Proof.
    intros G Hs. pose proof (reachable_sinv (gd_reach G)) as I. destruct (step_identity Hs I) as (Hid & _ & Hv).
    assert (Ha' : d_a d' = make_accumulator (d_s d')) by (inv Hs; auto).
    constructor.
    - exact (reachable_run (gd_reach G) (run_one Hs)).
    - apply (gd_party G).
    - rewrite Hv. apply (gd_me G).
    - rewrite Hid. apply (gd_id G).
    - apply next_valid.
    - pose proof (good_echo_info G) as Hi. pose proof (gd_phase G) as H. unfold pnext.
      destruct (fin_cases_step Hs) as (Hy & _ & Hf).
      destruct (negb (snd f) && echoed (fst f))%bool eqn:E.
      + apply andb_true_iff in E as [E1 E2]. apply negb_true_iff in E1. unfold at_phase in H. rewrite E1 in H. destruct H as (st & Hr & Hat).
        assert (He : in_echo_round (d_s d')) by (apply (fin_echo_iff (gd_reach G) Hs); congruence).
        destruct (echo_entered (gd_reach G) Hs Hr He) as (echos & info & Hr' & Hi' & Hd & Hx & _ & Hec & _).
        rewrite Hi in Hi'. inv Hi'. unfold at_phase. simpl. do 6 eexists. split; [exact Hr'|]. split; auto. split; auto. split; auto.
        assert (Hset : forall x, mem x (sadd (s_verifier (d_s d)) (srem (s_verifier (d_s d)) parties)) = true <-> mem x parties = true).
        { intros x. rewrite mem_add, mem_rem, orb_true_iff, andb_true_iff, negb_true_iff, eqb_eq, eqb_neq.
          destruct (ord_dec x (s_verifier (d_s d))) as [->|Hne]; [|intuition]. rewrite (gd_me G), (gd_party G). intuition. }
        split; [rewrite <- (gd_me G); exact Hset|].
        intros x. rewrite contains_insert, orb_true_iff, eqb_eq. rewrite <- Hset, mem_add, orb_true_iff, eqb_eq.
        assert (K : contains x (a_echo (d_a d)) = true <-> mem x (srem (s_verifier (d_s d)) parties) = true); [|tauto].
        destruct (reachable_round (gd_reach G)) as (d0 & es & Hs0 & Hrn & Hin). pose proof (round_history Hs0 Hrn Hin) as Hh.
        assert (Hexp : a_expect (d_a d) = srem (s_verifier (d_s d)) parties) by (rewrite (h_expect Hh), (good_comm G), (gd_me G); reflexivity).
        rewrite <- Hexp. split.
        * intros Hc. apply contains_get in Hc as [p Hp]. apply (h_echo Hh) in Hp. apply part_heard in Hp. apply (h_heard Hh) in Hp.
          unfold expected in Hp. now rewrite (h_expect Hh).
        * intros Hm. apply (gd_echo G); auto. now apply yes_iff.
      + destruct Hf as [t info echos Hc Hi' Hg C _|t st' Hc Hi' Hfz Hm C _]; [congruence|].
        unfold at_phase. simpl. exists st'. split; [apply (cr_round C)|].
        unfold at_phase in H. destruct (snd f).
        * destruct H as (me & echos & info & st & ps & arts & Hr & Hat & _). rewrite Hr in Hfz. simpl in Hfz.
          apply bind_ok in Hfz as (ps' & _ & Hfz). apply bind_ok in Hfz as (arts' & _ & Hfz). exact (@un_finalize _ _ _ _ _ _ U _ _ _ _ _ _ _ Hat Hfz).
        * destruct H as (st & Hr & Hat). rewrite Hr in Hfz. simpl in Hfz.
          apply bind_ok in Hfz as (ps' & _ & Hfz). apply bind_ok in Hfz as (arts' & _ & Hfz). exact (@un_finalize _ _ _ _ _ _ U _ _ _ _ _ _ _ Hat Hfz).
    - rewrite Ha'. simpl. intros x _ _. rewrite contains_empty. discriminate.
  Qed.

  (** The payloads of all other parties are there when a round is finalized. *)
  Lemma fin_payloads v f d (g : rng) d' x : good v f d -> step d (EFin g) d' -> mem x parties = true -> x <> v ->
    contains x (a_payloads (d_a d)) = true.
  Proof.
    intros G Hs Hx Hne. destruct (fin_cases_step Hs) as (Hy & _ & _).
    destruct (reachable_round (gd_reach G)) as (d0 & es & Hs0 & Hrn & Hin). pose proof (round_history Hs0 Hrn Hin) as Hh.
    apply yes_iff with (v := x) in Hy; auto. rewrite (h_expect Hh), (good_comm G). simpl. rewrite mem_rem, Hx.
    apply eqb_neq in Hne. now rewrite Hne.
  Qed.

  Lemma iter_res_err {E A} (f : A -> res E unit) l e : iter_res f l = Err e -> exists y, In y l /\ f y = Err e.
  Proof.
    induction l as [|y l IH]; simpl; [discriminate|]. destruct (f y) as [[]|e'|] eqn:E1; simpl; intros H; try discriminate.
    - destruct (IH H) as (x & H1 & H2). eauto.
    - inv H. eauto.
  Qed.

  (** An honest party's message is turned down in an echo round only because of different broadcasts. *)
  Lemma echo_answer u v n dU dV (g : rng) m art e : good u (n, true) dU -> good v (n, true) dV ->
    make_message (d_s dU) g v = Ok (m, art) -> rd_receive (s_round (d_s dV)) u (contents m) = Err e ->
    (exists e', e = REchoRound e') /\
    exists x p q, held_echo (d_s dU) x p /\ held_echo (d_s dV) x q /\ part_signed x p /\ part_signed x q /\
      sp_meta p = sp_meta q /\ sp_body p <> sp_body q.
  Proof.
    intros GU GV Hm He.
    assert (HeU : in_echo_round (d_s dU)) by (destruct (gd_phase GU) as (? & ? & ? & ? & ? & ? & E & _); unfold in_echo_round; eauto 10).
    assert (HeV : in_echo_round (d_s dV)) by (destruct (gd_phase GV) as (? & ? & ? & ? & ? & ? & E & _); unfold in_echo_round; eauto 10).
    destruct (echo_shape (gd_reach GU) HeU) as (echosU & infoU & stU & psU & artsU & HrU & HgU).
    destruct (echo_shape (gd_reach GV) HeV) as (echosV & infoV & stV & psV & artsV & HrV & HgV).
    destruct (gd_phase GU) as (y0 & y1 & y2 & y3 & y4 & y5 & EU & _ & HdU & _ & _ & HkU). rewrite HrU in EU. injection EU as _ <- <- <- <- <-.
    destruct (gd_phase GV) as (z0 & z1 & z2 & z3 & z4 & z5 & EV & _ & _ & _ & HkE & HkV). rewrite HrV in EV. injection EV as _ <- <- <- <- <-.
    rewrite (gd_me GU) in HrU.
    destruct (@echo_message_content _ _ dU g v m art _ _ _ _ _ _ Hcod (gd_reach GU) HrU Hm) as (_ & Ed & Ee & [[_ E]|E]).
    { exfalso. unfold message_destinations in E. rewrite (good_comm GU) in E. simpl in E. now rewrite (others _) in E. }
    rewrite HrV in He. simpl in He. unfold echo_receive, contents in He. cbn [dm_echo dm_direct dm_normal] in He.
    rewrite Ee, Ed, E in He. cbn [is_none negb] in He.
    set (msg := map_values (@to_signed_hash _ KEcho) (remove u echosU)) in *.
    assert (Hk : forall x, mem x (keyset msg) = mem x (srem u (ei_echos infoV))).
    { intros x. rewrite mem_keyset, mem_rem. unfold msg. rewrite contains_map_values, contains_remove.
      destruct (eqb_spec x u) as [->|Hne]; simpl; auto.
      specialize (HkU x). specialize (HkE x). destruct (contains x echosU), (mem x (ei_echos infoV)); intuition congruence. }
    assert (Hd : is_empty (diff (srem u (ei_echos infoV)) (keyset msg)) = true /\
                 is_empty (diff (keyset msg) (srem u (ei_echos infoV))) = true).
    { split; apply is_empty_get; intros x; apply contains_false.
      - apply (eq_trans (mem_diff x _ _)). rewrite Hk. now destruct (mem x _).
      - apply (eq_trans (mem_diff x _ _)). rewrite Hk. now destruct (mem x _). }
    destruct Hd as [H1 H2]. rewrite H1, H2 in He. cbn [negb] in He.
    destruct (iter_res (check_echo echosV) (to_list msg)) as [[]|e1|] eqn:Ei; simpl in He; inv He.
    apply iter_res_err in Ei as ([x h] & Hin & Hc). apply in_to_list in Hin. unfold msg in Hin.
    rewrite get_map_values, get_remove in Hin. destruct (eqb_spec x u) as [->|Hne]; [discriminate|].
    destruct (get x echosU) as [p|] eqn:Ep; inv Hin.
    apply (held_get _ _ _ HgU) in Ep. destruct (ti_echos (reachable_tinv (gd_reach GU)) Ep) as [Mp Sp]. specialize (Sp (or_introl Hsig)).
    unfold check_echo in Hc. destruct (get x echosV) as [q|] eqn:Eq; [|discriminate].
    apply (held_get _ _ _ HgV) in Eq. destruct (ti_echos (reachable_tinv (gd_reach GV)) Eq) as [Mq Sq]. specialize (Sq (or_introl Hsig)).
    rewrite (gd_id GU) in Mp. rewrite (gd_id GV) in Mq. rewrite (good_rid GU) in Mp. rewrite (good_rid GV) in Mq.
    rewrite (proj2 (verify_shash_ok x (to_signed_hash p) (to_signed_hash p))) in Hc by (split; auto; now apply shash_signed).
    simpl in Hc. rewrite Mp, Mq, meta_eqb_refl in Hc. simpl in Hc.
    destruct (is_hash_of (to_signed_hash p) q) eqn:Eh; [discriminate|]. simpl in Hc. inv Hc.
    split; [eauto|]. exists x, p, q. split; auto. split; auto. split; auto. split; auto. split; [congruence|].
    intros Hb. unfold is_hash_of in Eh. simpl in Eh. rewrite Hb, bytes_eqb_refl in Eh. discriminate.
  Qed.

  (** ** The invariant *)
  Definition sent_msg ws u v f (m : Message) : Prop := exists dX (g : rng) art, cwas ws u dX /\ good u f dX /\
    mem v (message_destinations (d_s dX)) = true /\ make_message (d_s dX) g v = Ok (m, (v, art)).
  (** [u] has sent its message of phase [f] to [v], or will never do so. *)
  Definition sent_by w u v f : Prop := exists dU fu, cw_node w u = Some dU /\ good u fu dU /\
    (prank f < prank fu \/ (f = fu /\ contains v (a_artifacts (d_a dU)) = true)).
  Definition free w u v f : Prop := forall m, In (u, v, m) (cw_way w) -> m_round (sp_meta (msg_direct m)) <> prid f.
  Definition seen d u : Prop := mem u (a_processing (d_a d)) = true \/ contains u (a_payloads (d_a d)) = true \/
    exists vm, In vm (d_todo d) /\ vm_from vm = u.
  Definition echo_from ws x f (p : SPart KEcho) : Prop := exists dX, cwas ws x dX /\ good x f dX /\ sp_body p = sp_body (s_echo (d_s dX)).
  Definition blamed ws u v : Prop := (exists e, turned_down ws u v e) \/ equivocated honest ws u v.

  Record linv ws w v f d : Prop := {
    l_good : good v f d;
    l_way : forall u m g, In (u, v, m) (cw_way w) -> sent_msg ws u v g m -> prank f <= prank g;
    l_prev : forall u g, honest u = true -> mem u parties = true -> u <> v -> pvalid g -> prank g < prank f -> sent_by w u v g;
    l_seen : forall u, honest u = true -> seen d u -> free w u v f /\ sent_by w u v f;
    l_todo : forall vm, In vm (d_todo d) -> honest (vm_from vm) = true ->
      exists m, sent_msg ws (vm_from vm) v f m /\ is_message_of (vm_from vm) m vm;
    l_cache : forall u c rid vm, honest u = true -> get u (a_cached (d_a d)) = Some c -> get rid c = Some vm ->
      rid = prid (pnext f) /\ free w u v (pnext f) /\ sent_by w u v (pnext f) /\
      exists m, sent_msg ws u v (pnext f) m /\ is_message_of u m vm;
    l_skew : forall u dU fu, u <> v -> cw_node w u = Some dU -> good u fu dU -> prank fu <= prank (pnext f);
    l_echo : forall x p, honest x = true -> get x (a_echo (d_a d)) = Some p -> echo_from ws x f p;
    l_unprov : forall u, honest u = true -> has_unprovable d u -> exists e, turned_down ws u v (RUnprovable e);
    l_prov : forall u ev, honest u = true -> has_evidence d u ev -> blamed ws u v
  }.

  Definition key (t : Verifier * Verifier * Message) := (fst t, m_round (sp_meta (msg_direct (snd t)))).

  Record cinv ws w : Prop := {
    c_nodes : forall v d, cw_node w v = Some d -> honest v = true /\ exists f, linv ws w v f d;
    c_way : forall u v m, In (u, v, m) (cw_way w) -> honest u = true /\ exists f, sent_msg ws u v f m /\ sent_by w u v f;
    c_dup : NoDup (map key (cw_way w));
    c_past : forall u d1 f, cwas ws u d1 -> good u f d1 -> exists dU fu, cw_node w u = Some dU /\ good u fu dU /\ prank f <= prank fu /\
      (f = fu -> d_s d1 = d_s dU);
    c_same : forall u d1 d2 f, cwas ws u d1 -> cwas ws u d2 -> good u f d1 -> good u f d2 -> d_s d1 = d_s d2;
    c_tr : forall v d rid x p, cwas ws v d -> recorded (tr_echo (s_tr (d_s d))) rid x p -> honest x = true ->
      exists f, pvalid f /\ rid = prid f /\ echo_from ws x f p
  }.

  (** Messages that were sent. *)
  Lemma sent_auth ws u v f m : sent_msg ws u v f m -> message_authentic u sid (prid f) m /\ u <> v /\ mem u parties = true /\
    m_round (sp_meta (msg_direct m)) = prid f /\ pvalid f.
  Proof.
    intros (dX & g & art & _ & G & Hd & Hm). pose proof (made_message _ _ (gd_reach G) Hsig Hm) as (Ha & _).
    rewrite (gd_me G), (gd_id G), (good_rid G) in Ha. split; auto.
    unfold message_destinations in Hd. rewrite (good_comm G) in Hd. simpl in Hd. rewrite mem_rem in Hd. apply andb_true_iff in Hd as [Hd _].
    apply negb_true_iff, eqb_neq in Hd. split; auto. split; [apply (gd_party G)|]. split; [|apply (gd_valid G)].
    destruct Ha as (_ & _ & _ & -> & _). reflexivity.
  Qed.

  Lemma sent_phase ws ws' u v f f' m : sent_msg ws u v f m -> sent_msg ws' u v f' m -> f = f'.
  Proof.
    intros H1 H2. apply sent_auth in H1 as (_ & _ & _ & H1 & _). apply sent_auth in H2 as (_ & _ & _ & H2 & _).
    apply prid_inj. congruence.
  Qed.

  Lemma sent_echo ws u v f m p : sent_msg ws u v f m -> sp_body p = sp_body (msg_echo m) -> echo_from ws u f p.
  Proof.
    intros (dX & g & art & Hw & G & Hd & Hm) Hp. pose proof (made_message _ _ (gd_reach G) Hsig Hm) as (_ & He & _).
    exists dX. split; auto. split; auto. congruence.
  Qed.

  Lemma was_cons w ws u d : cwas ws u d -> cwas (w :: ws) u d.
  Proof. intros (w1 & H & E). exists w1. split; auto. now right. Qed.
  Lemma sent_cons w ws u v f m : sent_msg ws u v f m -> sent_msg (w :: ws) u v f m.
  Proof. intros (dX & g & art & H & H'). exists dX, g, art. split; auto. now apply was_cons. Qed.
  Lemma echo_cons w ws x f p : echo_from ws x f p -> echo_from (w :: ws) x f p.
  Proof. intros (dX & H & H'). exists dX. split; auto. now apply was_cons. Qed.
  Lemma turned_cons w ws u v e : turned_down ws u v e -> turned_down (w :: ws) u v e.
  Proof. intros (dU & dV & st & g & m & art & H1 & H2 & H). exists dU, dV, st, g, m, art. split; [now apply was_cons|]. split; [now apply was_cons|auto]. Qed.
  Lemma blamed_cons w ws u v : blamed ws u v -> blamed (w :: ws) u v.
  Proof.
    intros [[e H]|H]; [left; exists e; now apply turned_cons|right].
    destruct H as (dU & dV & x & p & q & H0 & H1 & H2 & H). exists dU, dV, x, p, q. split; auto.
    split; [now apply was_cons|]. split; [now apply was_cons|auto].
  Qed.

  Lemma sent_by_rank w u v f dU fu : sent_by w u v f -> cw_node w u = Some dU -> good u fu dU -> prank f <= prank fu.
  Proof.
    intros (d & g & H1 & H2 & H3) Hn G. rewrite Hn in H1. inv H1. rewrite (good_unique G H2). destruct H3 as [H3|[-> _]]; lia.
  Qed.

  Lemma sent_by_not w u v fu dU : sent_by w u v fu -> cw_node w u = Some dU -> good u fu dU ->
    contains v (a_artifacts (d_a dU)) = false -> False.
  Proof.
    intros (d & g & H1 & H2 & H3) Hn G Hc. rewrite Hn in H1. inv H1. rewrite (good_unique G H2) in H3.
    destruct H3 as [H3|[_ H3]]; [lia|congruence].
  Qed.

  (** ** One step *)
  Section Step.
    Variables (w : CWorld Pr) (ws : list (CWorld Pr)) (w' : CWorld Pr) (v0 : Verifier) (d0 d0' : DState Pr) (e : event Pr) (f0 : ph).
    Hypothesis I : cinv (w :: ws) w.
    Hypothesis N0 : cw_node w v0 = Some d0.
    Hypothesis Hst : step d0 e d0'.
    Hypothesis Hch : changes w w' v0 d0'.
    Hypothesis L0 : linv (w :: ws) w v0 f0 d0.
    Let f0' : ph := if is_fin e then pnext f0 else f0.
    Let ws' : list (CWorld Pr) := w' :: w :: ws.

    Lemma good0' : good v0 f0' d0'.
    Proof.
      unfold f0'. destruct (is_fin e) eqn:E.
      - destruct e; try discriminate. eapply good_fin; eauto. apply (l_good L0).
      - eapply good_step; eauto. apply (l_good L0).
    Qed.

    Lemma rank0 : prank f0 <= prank f0'.
    Proof. unfold f0'. destruct (is_fin e); auto. pose proof (prank_next f0). lia. Qed.

    Lemma arts_kept u : is_fin e = false -> contains u (a_artifacts (d_a d0)) = true -> contains u (a_artifacts (d_a d0')) = true.
    Proof.
      intros He. inversion Hst; subst; simpl in *; try discriminate.
      - apply preprocess_cases in H. inv H; auto.
      - apply add_processed_ok in H as (_ & _ & H). inv H; auto.
      - apply add_artifact_ok in H1 as [_ ->]. simpl. rewrite contains_insert, orb_true_iff. auto.
    Qed.

    Lemma node' u : u <> v0 -> cw_node w' u = cw_node w u.
    Proof. intros Hne. now apply Hch. Qed.
    Lemma node0' : cw_node w' v0 = Some d0'.
    Proof. apply Hch. Qed.

    Lemma sent_by_mono u v f : sent_by w u v f -> sent_by w' u v f.
    Proof.
      intros (dU & fu & H1 & H2 & H3). destruct (ord_dec u v0) as [->|Hne].
      - rewrite N0 in H1. injection H1 as <-. rewrite (good_unique H2 (l_good L0)) in H3.
        exists d0', f0'. split; [apply node0'|]. split; [apply good0'|]. pose proof rank0 as R.
        destruct H3 as [H3|[-> H3]]; [left; lia|]. unfold f0' in *. destruct (is_fin e) eqn:E.
        + left. apply prank_next.
        + right. split; auto. now apply arts_kept.
      - exists dU, fu. rewrite node'; auto.
    Qed.

    Lemma was' u d : cwas ws' u d -> (u = v0 /\ d = d0') \/ cwas (w :: ws) u d.
    Proof.
      intros (w1 & [<-|H] & E); [|right; exists w1; auto]. destruct (ord_dec u v0) as [->|Hne].
      - rewrite node0' in E. injection E as <-. auto.
      - rewrite node' in E by auto. right. exists w. split; auto. now left.
    Qed.

    Lemma was0 : cwas (w :: ws) v0 d0.
    Proof. exists w. split; [now left|auto]. Qed.
    Lemma was0' : cwas ws' v0 d0'.
    Proof. exists w'. split; [now left|apply node0']. Qed.

    Lemma past' u d1 f : cwas ws' u d1 -> good u f d1 -> exists dU fu, cw_node w' u = Some dU /\ good u fu dU /\ prank f <= prank fu /\
      (f = fu -> d_s d1 = d_s dU).
    Proof.
      intros H G. apply was' in H as [[-> ->]|H].
      - exists d0', f. split; [apply node0'|]. auto.
      - destruct (c_past I H G) as (dU & fu & H1 & H2 & H3 & H4). destruct (ord_dec u v0) as [->|Hne].
        + rewrite N0 in H1. injection H1 as <-. rewrite (good_unique H2 (l_good L0)) in *. exists d0', f0'.
          split; [apply node0'|]. split; [apply good0'|]. split; [pose proof rank0; lia|].
          unfold f0'. destruct (is_fin e) eqn:E.
          * intros ->. pose proof (prank_next f0). lia.
          * intros ->. rewrite H4 by auto. inversion Hst; subst; auto; discriminate.
        + exists dU, fu. rewrite node'; auto.
    Qed.

    Lemma same' u d1 d2 f : cwas ws' u d1 -> cwas ws' u d2 -> good u f d1 -> good u f d2 -> d_s d1 = d_s d2.
    Proof.
      intros H1 H2 G1 G2.
      assert (K : forall d, cwas ws' u d -> good u f d -> u = v0 -> good u f d0' -> d_s d = d_s d0').
      { intros d Hw Hg -> G. destruct (past' Hw Hg) as (dU & fu & N & G' & _ & Hs). rewrite node0' in N. injection N as <-.
        apply Hs. exact (good_unique G G'). }
      destruct (was' H1) as [[-> ->]|H1']; [|destruct (was' H2) as [[-> ->]|H2']].
      - symmetry. now apply K.
      - now apply K.
      - exact (c_same I H1' H2' G1 G2).
    Qed.

    Lemma skew' v d f : v <> v0 -> cw_node w v = Some d -> linv (w :: ws) w v f d -> prank f0' <= prank (pnext f).
    Proof.
      intros Hne N L. unfold f0'. destruct (is_fin e) eqn:E; [|exact (l_skew L (not_eq_sym Hne) N0 (l_good L0))].
      destruct e; try discriminate. pose proof (fin_payloads (l_good L0) Hst (gd_party (l_good L)) Hne) as Hp.
      destruct (c_nodes I _ N) as [Hh _]. destruct (l_seen L0 Hh (or_intror (or_introl Hp))) as [_ Hs].
      pose proof (sent_by_rank Hs N (l_good L)). apply next_mono; auto. apply (gd_valid (l_good L)).
    Qed.

    (** A session that stays in its round, given what is new. *)
    Lemma frame v d d2 f : linv (w :: ws) w v f d -> good v f d2 ->
      (forall u m, In (u, v, m) (cw_way w') -> In (u, v, m) (cw_way w) \/
         (u = v0 /\ u <> v /\ sent_msg ws' u v f0 m /\ contains v (a_artifacts (d_a d0)) = false)) ->
      (forall u, honest u = true -> seen d2 u -> seen d u \/ (free w' u v f /\ sent_by w' u v f)) ->
      (forall vm, In vm (d_todo d2) -> honest (vm_from vm) = true -> In vm (d_todo d) \/
         exists m, sent_msg ws' (vm_from vm) v f m /\ is_message_of (vm_from vm) m vm) ->
      (forall u c rid vm, honest u = true -> get u (a_cached (d_a d2)) = Some c -> get rid c = Some vm ->
         (exists c', get u (a_cached (d_a d)) = Some c' /\ get rid c' = Some vm) \/
         (rid = prid (pnext f) /\ free w' u v (pnext f) /\ sent_by w' u v (pnext f) /\
          exists m, sent_msg ws' u v (pnext f) m /\ is_message_of u m vm)) ->
      (forall u dU fu, u <> v -> cw_node w' u = Some dU -> good u fu dU -> prank fu <= prank (pnext f)) ->
      (forall x p, honest x = true -> get x (a_echo (d_a d2)) = Some p -> get x (a_echo (d_a d)) = Some p \/ echo_from ws' x f p) ->
      (forall u, honest u = true -> has_unprovable d2 u -> has_unprovable d u \/ exists e, turned_down ws' u v (RUnprovable e)) ->
      (forall u ev, honest u = true -> has_evidence d2 u ev -> has_evidence d u ev \/ blamed ws' u v) ->
      linv ws' w' v f d2.
    Proof.
      intros L G2 Hway Hseen Htodo Hcache Hskew Hecho Hun Hpr.
      assert (Hfree : forall u g, sent_by w u v g -> free w u v g -> free w' u v g).
      { intros u g Hs Hf m Hi. destruct (Hway _ _ Hi) as [Hi'|(-> & Hne & Hm & Hc)]; [now apply Hf|].
        intros Hr. apply sent_auth in Hm as (_ & _ & _ & Hm & _). rewrite Hm in Hr. apply prid_inj in Hr. subst g.
        exact (sent_by_not Hs N0 (l_good L0) Hc). }
      constructor; auto.
      - intros u m g Hi Hm. destruct (Hway _ _ Hi) as [Hi'|(-> & Hne & Hm' & Hc)].
        + destruct (c_way I _ _ _ Hi') as (_ & g' & Hg & _). rewrite <- (sent_phase Hg Hm). exact (l_way L Hi' Hg).
        + rewrite <- (sent_phase Hm' Hm). destruct (le_lt_dec (prank f) (prank f0)) as [|Hlt]; auto. exfalso.
          destruct (c_nodes I _ N0) as [Hh _].
          apply (@sent_by_not w v0 v f0 d0); auto; [|apply (l_good L0)].
          apply (l_prev L); auto; [apply (gd_party (l_good L0))|apply (gd_valid (l_good L0))].
      - intros u g Hh Hu Hne Hv Hlt. apply sent_by_mono. now apply (l_prev L).
      - intros u Hh Hs. destruct (Hseen u Hh Hs) as [Hs'|Hs']; auto. destruct (l_seen L Hh Hs') as [H1 H2].
        split; [now apply Hfree|now apply sent_by_mono].
      - intros vm Hi Hh. destruct (Htodo vm Hi Hh) as [Hi'|Hx]; auto. destruct (l_todo L _ Hi' Hh) as (m & H1 & H2). exists m. split; auto.
        now apply sent_cons.
      - intros u c rid vm Hh H1 H2. destruct (Hcache u c rid vm Hh H1 H2) as [(c' & H3 & H4)|Hx]; auto.
        destruct (@l_cache _ _ _ _ _ L u c' rid vm Hh H3 H4) as (K1 & K2 & K3 & m & K4 & K5). split; auto. split; [now apply Hfree|]. split; [now apply sent_by_mono|].
        exists m. split; auto. now apply sent_cons.
      - intros x p Hh Hp. destruct (Hecho x p Hh Hp) as [Hp'|]; auto. apply echo_cons. now apply (l_echo L).
      - intros u Hh Hp. destruct (Hun u Hh Hp) as [Hp'|]; auto. destruct (l_unprov L Hh Hp') as [e0 He]. exists e0. now apply turned_cons.
      - intros u ev Hh Hp. destruct (Hpr u ev Hh Hp) as [Hp'|]; auto. apply blamed_cons. exact (l_prov L Hh Hp').
    Qed.

    (** The other sessions. *)
    Lemma frame_other v d f : v <> v0 -> cw_node w v = Some d -> linv (w :: ws) w v f d ->
      (forall u m, In (u, v, m) (cw_way w') -> In (u, v, m) (cw_way w) \/
         (u = v0 /\ u <> v /\ sent_msg ws' u v f0 m /\ contains v (a_artifacts (d_a d0)) = false)) ->
      linv ws' w' v f d.
    Proof.
      intros Hne N L Hway. apply (@frame v d d f); eauto; [apply (l_good L)|].
      intros u dU fu Hu Hn Hg. destruct (ord_dec u v0) as [->|Hne0].
      - rewrite node0' in Hn. injection Hn as <-. rewrite (good_unique Hg good0'). exact (skew' Hne N L).
      - rewrite node' in Hn by auto. exact (l_skew L Hu Hn Hg).
    Qed.

    Lemma skew0 : is_fin e = false -> forall u dU fu, u <> v0 -> cw_node w' u = Some dU -> good u fu dU -> prank fu <= prank (pnext f0).
    Proof. intros He u dU fu Hu Hn Hg. rewrite node' in Hn by auto. exact (l_skew L0 Hu Hn Hg). Qed.

    (** The transcripts. *)
    Lemma tr' v d rid x p : cwas ws' v d -> recorded (tr_echo (s_tr (d_s d))) rid x p -> honest x = true ->
      exists f, pvalid f /\ rid = prid f /\ echo_from ws' x f p.
    Proof.
      intros Hw Hp Hh. apply was' in Hw as [[-> ->]|Hw].
      2:{ destruct (c_tr I Hw Hp Hh) as (f & H1 & H2 & H3). exists f. split; auto. split; auto. now apply echo_cons. }
      assert (K : recorded (tr_echo (s_tr (d_s d0))) rid x p -> exists f, pvalid f /\ rid = prid f /\ echo_from ws' x f p).
      { intros Hp'. destruct (c_tr I was0 Hp' Hh) as (f & H1 & H2 & H3). exists f. split; auto. split; auto. now apply echo_cons. }
      destruct (is_fin e) eqn:E.
      2:{ apply K. replace (d_s d0) with (d_s d0'); auto. inversion Hst; subst; auto; discriminate. }
      destruct e; try discriminate. destruct (fin_cases_step Hst) as (_ & _ & Hf).
      assert (Hcl : exists t, close_round (d_s d0) (d_a d0) = Ok t /\ s_tr (d_s d0') = t).
      { destruct Hf as [t ? ? Hc _ _ C _|t ? Hc _ _ _ C _]; exists t; split; auto; apply (cr_tr C). }
      destruct Hcl as (t & Hc & Ht). rewrite Ht, (up_echo (close_round_ok _ _ Hc)) in Hp.
      apply recorded_insert in Hp as [[-> Hp]|[_ Hp]]; auto.
      exists f0. split; [apply (gd_valid (l_good L0))|]. split; [apply (good_rid (l_good L0))|]. apply echo_cons.
      rewrite get_insert in Hp. destruct (eqb_spec x (s_verifier (d_s d0))) as [->|Hne].
      - inv Hp. exists d0. rewrite (gd_me (l_good L0)). split; [apply was0|]. split; [apply (l_good L0)|auto].
      - apply (l_echo L0); auto.
    Qed.

    Lemma assemble : linv ws' w' v0 f0' d0' ->
      (forall v d f, v <> v0 -> cw_node w v = Some d -> linv (w :: ws) w v f d -> linv ws' w' v f d) ->
      (forall u v m, In (u, v, m) (cw_way w') -> honest u = true /\ exists f, sent_msg ws' u v f m /\ sent_by w' u v f) ->
      NoDup (map key (cw_way w')) -> cinv ws' w'.
    Proof.
      intros HL Ho Hw Hd. constructor; auto.
      - intros v d Hn. destruct (ord_dec v v0) as [->|Hne].
        + rewrite node0' in Hn. injection Hn as <-. split; [apply (c_nodes I _ N0)|eauto].
        + rewrite node' in Hn by auto. destruct (c_nodes I _ Hn) as [Hh [f L]]. split; auto. exists f. eapply Ho; eauto.
      - exact past'.
      - exact same'.
      - exact tr'.
    Qed.

    (** Fewer messages on their way. *)
    Lemma fewer : incl (cw_way w') (cw_way w) ->
      forall u v m, In (u, v, m) (cw_way w') -> honest u = true /\ exists f, sent_msg ws' u v f m /\ sent_by w' u v f.
    Proof.
      intros Hi u v m Hin. destruct (c_way I _ _ _ (Hi _ Hin)) as (Hh & f & H1 & H2). split; auto.
      exists f. split; [now apply sent_cons|now apply sent_by_mono].
    Qed.
  End Step.

  Lemma art_inv d (g : rng) dest art d' : step d (EArt g dest art) d' -> mem dest (message_destinations (d_s d)) = true /\
    get dest (a_artifacts (d_a d)) = None /\ d_s d' = d_s d /\ d_todo d' = d_todo d /\
    d_a d' = set_artifacts (d_a d) (insert dest art (a_artifacts (d_a d))).
  Proof. intros H. inversion H as [| |? ? ? ? ? ? ? ? H1 H2 H3|]; subst; simpl. apply add_artifact_ok in H3 as [H3 ->]. auto. Qed.

  Lemma pre_inv d from m o d' : step d (EPre from m o) d' -> exists a', d_a d' = a' /\ d_s d' = d_s d /\ pre_cases (d_s d) (d_a d) from m a' (Ok o) /\
    d_todo d' = match o with ToProcess vm => vm :: d_todo d | _ => d_todo d end.
  Proof. intros H. inversion H as [? ? ? ? ? ? ? H1| | |]; subst; simpl. apply preprocess_cases in H1. eauto. Qed.

  Lemma proc_inv d vm d' : step d (EProc vm) d' -> exists a', d_a d' = a' /\ d_s d' = d_s d /\ add_cases (d_s d) (d_a d) vm a' /\
    exists t1 t2, d_todo d = t1 ++ vm :: t2 /\ d_todo d' = t1 ++ t2.
  Proof. intros H. inversion H as [|? ? ? ? ? ? H1| |]; subst; simpl. apply add_processed_ok in H1 as (_ & _ & H1). eauto 10. Qed.

  Lemma step_send ws w w' v d (g : rng) dest m art d' : cinv (w :: ws) w -> cw_node w v = Some d ->
    make_message (d_s d) g dest = Ok (m, (dest, art)) -> step d (EArt g dest art) d' -> changes w w' v d' ->
    cw_way w' = (if honest dest then [(v, dest, m)] else []) ++ cw_way w -> cinv (w' :: w :: ws) w'.
  Proof.
    intros I N Hm Hst Hch Hway. destruct (c_nodes I _ N) as [Hh [f L]].
    pose proof (good0' Hst L) as G'. cbn [is_fin] in G'.
    assert (Hd : mem dest (message_destinations (d_s d)) = true /\ contains dest (a_artifacts (d_a d)) = false /\
                 contains dest (a_artifacts (d_a d')) = true /\ d_s d' = d_s d /\ d_todo d' = d_todo d /\
                 d_a d' = set_artifacts (d_a d) (insert dest art (a_artifacts (d_a d)))).
    { destruct (art_inv Hst) as (H1 & H2 & H3 & H4 & H5). split; auto. split; [now apply contains_false|].
      split; auto. rewrite H5. simpl. rewrite contains_insert, eqb_refl. reflexivity. }
    destruct Hd as (Hd & Hc & Hc' & Es & Et & Ea).
    assert (Hs : sent_msg (w' :: w :: ws) v dest f m).
    { exists d, g, art. split; [apply was_cons, (was0 _ _ _ N)|]. split; [apply (l_good L)|auto]. }
    pose proof (sent_auth Hs) as (_ & Hne & _ & Hr & _).
    assert (Hin : forall t, In t (cw_way w') -> In t (cw_way w) \/ (honest dest = true /\ t = (v, dest, m))).
    { intros t Ht. rewrite Hway in Ht. apply in_app_or in Ht as [Ht|Ht]; auto. destruct (honest dest); [|destruct Ht].
      destruct Ht as [<-|[]]. auto. }
    apply (assemble I N Hst Hch L); cbn [is_fin].
    - apply (@frame w ws w' v d d' _ f I N Hst Hch L v d d' f); auto.
      + intros u m' Hi. apply Hin in Hi as [Hi|[_ E]]; auto. inv E. congruence.
      + intros u _ H. left. unfold seen in *. rewrite Ea, Et in H. exact H.
      + intros vm H _. left. now rewrite Et in H.
      + intros u c rid vm _ H1 H2. left. rewrite Ea in H1. eauto.
      + exact (@skew0 w ws w' v d d' (EArt g dest art) f Hch L eq_refl).
      + intros x p _ Hp. left. now rewrite Ea in Hp.
      + intros u _ H. left. unfold has_unprovable in *. rewrite Ea, Es in H. exact H.
      + intros u ev _ H. left. unfold has_evidence in *. rewrite Ea, Es in H. exact H.
    - intros v1 d1 f1 Hne1 N1 L1. apply (@frame_other w ws w' v d d' _ f I N Hst Hch L); auto.
      intros u m' Hi. apply Hin in Hi as [Hi|[_ E]]; auto. inv E. right. auto.
    - intros u v1 m' Hi. apply Hin in Hi as [Hi|[_ E]].
      + destruct (c_way I _ _ _ Hi) as (Hh' & f' & H1 & H2). split; auto. exists f'. split; [now apply sent_cons|].
        exact (sent_by_mono N Hst Hch L H2).
      + inv E. split; auto. exists f. split; auto. exists d', f. split; [apply (proj1 Hch)|]. split; auto.
    - rewrite Hway. destruct (honest dest); simpl; [|apply (c_dup I)]. constructor; [|apply (c_dup I)].
      intros Hi. apply in_map_iff in Hi as ([[u1 v1] m1] & E & Hi). unfold key in E. simpl in E. inv E.
      destruct (c_way I _ _ _ Hi) as (_ & f1 & K1 & K2). pose proof (sent_auth K1) as (_ & _ & _ & Hr1 & _).
      assert (f1 = f) by (apply prid_inj; congruence). subst f1. exact (sent_by_not K2 N (l_good L) Hc).
  Qed.

  Lemma step_lie ws w w' v d from m o d' : cinv (w :: ws) w -> cw_node w v = Some d -> honest from = false ->
    step d (EPre from m o) d' -> changes w w' v d' -> cw_way w' = cw_way w -> cinv (w' :: w :: ws) w'.
  Proof.
    intros I N Hf Hst Hch Hway. destruct (c_nodes I _ N) as [Hh [f L]].
    pose proof (good0' Hst L) as G'. cbn [is_fin] in G'.
    assert (Hne : forall u, honest u = true -> u <> from) by (intros u Hu ->; congruence).
    destruct (pre_inv Hst) as (a' & Ea & Es & Hc & Et).
    apply (assemble I N Hst Hch L); cbn [is_fin].
    - apply (@frame w ws w' v d d' _ f I N Hst Hch L v d d' f); auto.
      + intros u m' Hi. rewrite Hway in Hi. auto.
      + intros u Hu H. left. unfold seen in *. rewrite Et, Ea in H. clear Ea. inv Hc; auto; simpl in H.
        destruct H as [H|[H|(vm & [H|H] & E)]]; auto.
        * rewrite mem_add, orb_true_iff, eqb_eq in H. destruct H; auto. exfalso. now apply (Hne u).
        * subst vm. simpl in E. exfalso. now apply (Hne u).
        * eauto.
      + intros vm H Hu. left. rewrite Et in H. clear Ea. inv Hc; auto. destruct H as [<-|H]; auto. simpl in Hu. congruence.
      + intros u c rid vm Hu H1 H2. left. rewrite Ea in H1. clear Ea. inv Hc; eauto. simpl in H1. rewrite get_insert_ne in H1 by auto. eauto.
      + exact (@skew0 w ws w' v d d' (EPre from m o) f Hch L eq_refl).
      + intros x p _ Hp. left. rewrite Ea in Hp. clear Ea. inv Hc; auto.
      + intros u Hu H. left. unfold has_unprovable in *. rewrite Es, Ea in H. clear Ea. inv Hc; auto. simpl in H.
        destruct H as [H|[e1 H]]; auto. rewrite get_insert_ne in H by auto. eauto.
      + intros u ev Hu H. left. unfold has_evidence in *. rewrite Es, Ea in H. clear Ea. inv Hc; auto.
    - intros v1 d1 f1 Hne1 N1 L1. apply (@frame_other w ws w' v d d' _ f I N Hst Hch L); auto.
      intros u m' Hi. rewrite Hway in Hi. auto.
    - apply (fewer I N Hst Hch L). rewrite Hway. apply incl_refl.
    - rewrite Hway. apply (c_dup I).
  Qed.

  Lemma pre_inv' d from m o d' : step d (EPre from m o) d' -> preprocess_message (d_s d) (d_a d) from m = (d_a d', Ok o).
  Proof. intros H. inversion H as [? ? ? ? ? ? ? H1| | |]; subst; simpl. exact H1. Qed.

  Lemma phase_state v f d : good v f d -> exists st, at_ (fst f) v st.
  Proof.
    intros G. pose proof (gd_phase G) as H. unfold at_phase in H. destruct (snd f).
    - destruct H as (? & ? & ? & st & ? & ? & _ & H & _). eauto.
    - destruct H as (st & _ & H). eauto.
  Qed.

  (** What the arrival of a message of an honest party does. *)
  Lemma deliver_effect ws w w' u v d m o d' f : cinv (w :: ws) w -> cw_node w v = Some d -> linv (w :: ws) w v f d ->
    Permutation (cw_way w) ((u, v, m) :: cw_way w') -> step d (EPre u m o) d' ->
    exists f1, sent_msg (w :: ws) u v f1 m /\ sent_by w u v f1 /\ honest u = true /\ u <> v /\ d_s d' = d_s d /\
     ((banned (d_s d) (d_a d) u /\ d_a d' = d_a d /\ d_todo d' = d_todo d) \/
      (f1 = f /\ d_a d' = set_processing (d_a d) (sadd u (a_processing (d_a d))) /\
       d_todo d' = mkVMessage u (sp_meta (msg_direct m)) (msg_direct m) (msg_echo m) (msg_normal m) :: d_todo d) \/
      (f1 = pnext f /\ d_a d' = set_cached (d_a d) (insert u
           (insert (prid f1) (mkVMessage u (sp_meta (msg_direct m)) (msg_direct m) (msg_echo m) (msg_normal m))
              (match get u (a_cached (d_a d)) with Some c => c | None => empty end)) (a_cached (d_a d))) /\ d_todo d' = d_todo d)).
  Proof.
    intros I N L Hperm Hst.
    assert (Hin : In (u, v, m) (cw_way w)) by (apply (Permutation_in _ (Permutation_sym Hperm)); now left).
    destruct (c_way I _ _ _ Hin) as (Hu & f1 & Hs & Hb). pose proof (sent_auth Hs) as (Hau & Hne & Hpu & Hr & Hv1).
    exists f1. split; auto. split; auto. split; auto. split; auto.
    destruct Hb as (dU & fu & NU & GU & HU).
    assert (Hle : prank f1 <= prank (pnext f)).
    { pose proof (l_skew L Hne NU GU). destruct HU as [HU|[-> _]]; lia. }
    pose proof (l_way L Hin Hs) as Hge.
    assert (Hcase : f1 = f \/ f1 = pnext f).
    { destruct (Nat.eq_dec (prank f) (prank f1)) as [E|E]; [left; symmetry; now apply prank_inj|].
      right. apply prank_inj. pose proof (@prank_between f f1 Hv1). lia. }
    pose proof (pre_inv' Hst) as Hpre. destruct (pre_inv Hst) as (a' & Ea & Es & _ & Et). split; auto.
    destruct (tr_is_banned (s_tr (d_s d)) u || a_is_banned (d_a d) u)%bool eqn:Eb.
    - left. unfold preprocess_message in Hpre. rewrite Eb in Hpre. injection Hpre as E1 <-. simpl in Et.
      split; auto. now apply banned_bool.
    - apply banned_false in Eb. right. destruct Hcase as [->| ->].
      + left. split; auto. assert (Hp : mem u (a_processing (d_a d)) = false).
        { destruct (mem u (a_processing (d_a d))) eqn:E; auto. exfalso.
          destruct (l_seen L Hu (or_introl E)) as [Hf _]. exact (Hf _ Hin Hr). }
        rewrite preprocess_accepts in Hpre; auto.
        * injection Hpre as E1 <-. simpl in Et. auto.
        * rewrite (gd_id (l_good L)), (good_rid (l_good L)). exact Hau.
        * rewrite (good_echo_info (l_good L)), (good_rid (l_good L)). unfold prid. destruct (snd f); simpl; [congruence|].
          intros _. apply (un_plain U).
      + right. split; auto.
        assert (Ec : message_is_cached (d_a d) u (prid (pnext f)) = false).
        { unfold message_is_cached. destruct (get u (a_cached (d_a d))) as [c|] eqn:E; auto.
          destruct (contains (prid (pnext f)) c) eqn:E'; auto. exfalso. apply contains_get in E' as [vm Hvm].
          destruct (@l_cache _ _ _ _ _ L u c _ vm Hu E Hvm) as (_ & Hf & _). exact (Hf _ Hin Hr). }
        assert (fu = pnext f).
        { apply prank_inj. pose proof (l_skew L Hne NU GU). destruct HU as [HU|[<- _]]; lia. }
        subst fu. destruct (phase_state GU) as [st Hat].
        rewrite (@preprocess_caches _ _ (d_s d) (d_a d) u m (prid (pnext f))) in Hpre; auto.
        * injection Hpre as E1 <-. simpl in Et. auto.
        * rewrite (gd_id (l_good L)). exact Hau.
        * rewrite (good_rid (l_good L)). intros E. apply prid_inj in E. pose proof (prank_next f). rewrite E in H. lia.
        * exact (@good_window v f d u st (l_good L) (fun _ => Hat)).
  Qed.

  Lemma step_deliver ws w w' u v d m o d' : cinv (w :: ws) w -> cw_node w v = Some d ->
    Permutation (cw_way w) ((u, v, m) :: cw_way w') ->
    step d (EPre u m o) d' -> changes w w' v d' -> cinv (w' :: w :: ws) w'.
  Proof.
    intros I N Hperm Hst Hch. destruct (c_nodes I _ N) as [Hh [f L]].
    pose proof (good0' Hst L) as G'. cbn [is_fin] in G'.
    assert (Hincl : incl (cw_way w') (cw_way w)) by (intros t Ht; apply (Permutation_in _ (Permutation_sym Hperm)); now right).
    assert (Hnd : NoDup (key (u, v, m) :: map key (cw_way w'))).
    { change (NoDup (map key ((u, v, m) :: cw_way w'))). eapply Permutation_NoDup; [apply Permutation_map, Hperm|apply (c_dup I)]. }
    destruct (@deliver_effect ws w w' u v d m o d' f I N L Hperm Hst) as (f1 & Hs & Hb & Hu & _ & Hsess & Heff).
    pose proof (sent_auth Hs) as (Hau & Hne & Hpu & Hr & Hv1).
    assert (Hfree : free w' u v f1).
    { intros m' Hi E. inversion Hnd as [|? ? Hni _]; subst. apply Hni. apply in_map_iff. exists (u, v, m'). split; auto.
      unfold key. simpl. congruence. }
    assert (Hb' : sent_by w' u v f1) by exact (sent_by_mono N Hst Hch L Hb).
    assert (Hs' : sent_msg (w' :: w :: ws) u v f1 m) by now apply sent_cons.
    pose proof (message_is_message Hau) as Him.
    apply (assemble I N Hst Hch L); cbn [is_fin].
    - apply (@frame w ws w' v d d' _ f I N Hst Hch L v d d' f); auto.
      + intros u1 Hu1 H. unfold seen in *. destruct Heff as [(_ & E1 & E2)|[(-> & E1 & E2)|(_ & E1 & E2)]]; rewrite E1, E2 in H; auto. simpl in H.
        destruct (ord_dec u1 u) as [->|Hne1]; auto. left. destruct H as [H|[H|(vm & [H|H] & E)]]; auto.
        * rewrite mem_add, orb_true_iff, eqb_eq in H. destruct H; [congruence|auto].
        * subst vm. simpl in E. congruence.
        * eauto.
      + intros vm H Hvm. destruct Heff as [(_ & E1 & E2)|[(-> & E1 & E2)|(_ & E1 & E2)]]; rewrite E2 in H; auto.
        destruct H as [<-|H]; auto. right. simpl. eauto.
      + intros u1 c rid vm Hu1 H1 H2. destruct Heff as [(_ & E1 & E2)|[(-> & E1 & E2)|(-> & E1 & E2)]]; rewrite E1 in H1; eauto. simpl in H1.
        rewrite get_insert in H1. destruct (eqb_spec u1 u) as [->|Hne1]; eauto. inv H1. rewrite get_insert in H2.
        destruct (eqb_spec rid (prid (pnext f))) as [->|Hnr].
        * inv H2. right. split; auto. split; auto. split; auto. eauto.
        * destruct (get u (a_cached (d_a d))) as [c|] eqn:E; [eauto|]. rewrite get_empty in H2. discriminate.
      + exact (@skew0 w ws w' v d d' (EPre u m o) f Hch L eq_refl).
      + intros x p _ Hp. left. destruct Heff as [(_ & E1 & E2)|[(_ & E1 & E2)|(_ & E1 & E2)]]; rewrite E1 in Hp; auto.
      + intros u1 _ H. left. unfold has_unprovable in *. rewrite Hsess in H.
        destruct Heff as [(_ & E1 & E2)|[(_ & E1 & E2)|(_ & E1 & E2)]]; rewrite E1 in H; auto.
      + intros u1 ev _ H. left. unfold has_evidence in *. rewrite Hsess in H.
        destruct Heff as [(_ & E1 & E2)|[(_ & E1 & E2)|(_ & E1 & E2)]]; rewrite E1 in H; auto.
    - intros v1 d1 g1 Hne1 N1 L1. apply (@frame_other w ws w' v d d' _ f I N Hst Hch L); auto.
    - apply (fewer I N Hst Hch L). exact Hincl.
    - now inversion Hnd.
  Qed.

  (** Why a session turns down a message of an honest party. *)
  Lemma answer_cause ws w v f d vm m e : cinv (w :: ws) w -> cw_node w v = Some d -> good v f d -> honest (vm_from vm) = true ->
    sent_msg (w :: ws) (vm_from vm) v f m -> is_message_of (vm_from vm) m vm -> answer (d_s d) vm = Err e ->
    turned_down (w :: ws) (vm_from vm) v e \/ (equivocated honest (w :: ws) (vm_from vm) v /\ exists e', e = REchoRound e').
  Proof.
    intros I N G Hh (dU & g & art & HwU & GU & Hd & Hm) (_ & E1 & E2 & E3 & _) Ha. unfold answer in Ha. rewrite E1, E2, E3 in Ha.
    change (rd_receive (s_round (d_s d)) (vm_from vm) (contents m) = Err e) in Ha.
    assert (Hw : cwas (w :: ws) v d) by (exists w; split; [now left|auto]).
    destruct f as [n []].
    - right. destruct (@echo_answer _ _ _ _ _ _ _ _ _ GU G Hm Ha) as (He & x & p & q & Hp & Hq & Sp & Sq & Em & Eb). split; auto.
      exists dU, d, x, p, q. split.
      { destruct (honest x) eqn:Hx; auto. exfalso. apply Eb.
        destruct (c_tr I HwU Hp Hx) as (f1 & _ & R1 & dX1 & W1 & X1 & B1). destruct (c_tr I Hw Hq Hx) as (f2 & _ & R2 & dX2 & W2 & X2 & B2).
        rewrite (good_rid GU) in R1. rewrite (good_rid G) in R2. assert (f1 = f2) by (apply prid_inj; congruence). subst f2.
        rewrite B1, B2. now rewrite (c_same I W1 W2 X1 X2). }
      split; auto. split; auto. split; [|split; [|split]].
      + destruct (gd_phase GU) as (? & ? & ? & ? & ? & ? & Hr & _). unfold in_echo_round. eauto 10.
      + destruct (gd_phase G) as (? & ? & ? & ? & ? & ? & Hr & _). unfold in_echo_round. eauto 10.
      + rewrite (good_rid GU), (good_rid G). reflexivity.
      + auto 10.
    - left. destruct (gd_phase G) as (st & Hr & _). rewrite Hr in Ha. simpl in Ha.
      exists dU, d, st, g, m, art. split; auto. split; auto. split; auto. split; [rewrite (good_rid GU), (good_rid G); reflexivity|]. split; auto.
      destruct (receive Pr st (vm_from vm) (contents m)); simpl in Ha; congruence.
  Qed.

  Lemma step_process ws w w' v d vm d' : cinv (w :: ws) w -> cw_node w v = Some d ->
    step d (EProc vm) d' -> changes w w' v d' -> cw_way w' = cw_way w -> cinv (w' :: w :: ws) w'.
  Proof.
    intros I N Hst Hch Hway. destruct (c_nodes I _ N) as [Hh [f L]].
    pose proof (good0' Hst L) as G'. cbn [is_fin] in G'.
    destruct (proc_inv Hst) as (a' & Ea & Es & Hc & t1 & t2 & T1 & T2).
    assert (Hvm : In vm (d_todo d)) by (rewrite T1; apply in_elt).
    assert (Htodo : forall y, In y (d_todo d') -> In y (d_todo d)).
    { intros y Hy. rewrite T2 in Hy. rewrite T1. rewrite in_app_iff in *. simpl. tauto. }
    apply (assemble I N Hst Hch L); cbn [is_fin].
    - apply (@frame w ws w' v d d' _ f I N Hst Hch L v d d' f); auto.
      + intros u m' Hi. rewrite Hway in Hi. auto.
      + intros u Hu H. left. unfold seen in *. rewrite Ea in H. clear Ea.
        destruct H as [H|[H|(y & Hy & E)]]; [left; inv Hc; auto| |right; right; eauto].
        inv Hc; auto. simpl in H. rewrite contains_insert, orb_true_iff, eqb_eq in H. destruct H as [->|H]; eauto 6.
      + intros u c rid y Hu H1 H2. left. rewrite Ea in H1. clear Ea. inv Hc; eauto.
      + exact (@skew0 w ws w' v d d' (EProc vm) f Hch L eq_refl).
      + intros x p Hx Hp. rewrite Ea in Hp. clear Ea. inv Hc; auto. simpl in Hp. rewrite get_ins_part in Hp.
        destruct (eqb_spec x (vm_from vm)) as [->|Hne]; simpl in Hp; auto. destruct (negb (is_none (sp_body (vm_echo vm)))); auto. inv Hp.
        right. destruct (l_todo L _ Hvm Hx) as (m & H1 & H2). apply echo_cons. eapply sent_echo; eauto. destruct H2 as (_ & _ & -> & _). reflexivity.
      + intros u Hu H. unfold has_unprovable in *. rewrite Es, Ea in H. clear Ea. inv Hc; auto. simpl in H.
        destruct H as [H|[e1 H]]; auto. rewrite get_insert in H. destruct (eqb_spec u (vm_from vm)) as [->|Hne]; eauto.
        right. exists e. apply turned_cons. destruct (l_todo L _ Hvm Hu) as (m & H1 & H2).
        destruct (answer_cause I N (l_good L) Hu H1 H2 H0) as [K|[_ [e' K]]]; auto. discriminate.
      + intros u ev Hu H. unfold has_evidence in *. rewrite Es, Ea in H. clear Ea. inv Hc; auto. simpl in H.
        destruct H as [H|H]; auto. rewrite get_insert in H. destruct (eqb_spec u (vm_from vm)) as [->|Hne]; auto.
        right. apply blamed_cons. destruct (l_todo L _ Hvm Hu) as (m & H3 & H4).
        destruct (answer_cause I N (l_good L) Hu H3 H4 H0) as [K|[K _]]; [left; eauto|now right].
    - intros v1 d1 f1 Hne1 N1 L1. apply (@frame_other w ws w' v d d' _ f I N Hst Hch L); auto.
      intros u m' Hi. rewrite Hway in Hi. auto.
    - apply (fewer I N Hst Hch L). rewrite Hway. apply incl_refl.
    - rewrite Hway. apply (c_dup I).
  Qed.

  Lemma step_finalize ws w w' v d (g : rng) d' : cinv (w :: ws) w -> cw_node w v = Some d ->
    step d (EFin g) d' -> changes w w' v d' -> cw_way w' = cw_way w -> cinv (w' :: w :: ws) w'.
  Proof.
    intros I N Hst Hch Hway. destruct (c_nodes I _ N) as [Hh [f L]].
    pose proof (good0' Hst L) as G'. cbn [is_fin] in G'. destruct (fin_cases_step Hst) as (_ & Ha & Hf).
    assert (Hcl : exists t, close_round (d_s d) (d_a d) = Ok t /\ s_tr (d_s d') = t).
    { destruct Hf as [t ? ? Hc _ _ C _|t ? Hc _ _ _ C _]; exists t; split; auto; apply (cr_tr C). }
    destruct Hcl as (t & Hcl & Ht). pose proof (close_round_ok _ _ Hcl) as Up.
    assert (Hfree : forall u v1 f1, free w u v1 f1 -> free w' u v1 f1) by (unfold free; now rewrite Hway).
    assert (Hall : forall u, honest u = true -> mem u parties = true -> u <> v -> free w u v f /\ sent_by w u v f).
    { intros u Hu Hp Hne. apply (l_seen L Hu). right. left. exact (fin_payloads (l_good L) Hst Hp Hne). }
    assert (Htodo : forall vm, In vm (d_todo d') -> exists c, get (vm_from vm) (a_cached (d_a d)) = Some c /\ get (prid (pnext f)) c = Some vm).
    { intros vm Hi. assert (Hin : In vm (filter_messages (a_cached (d_a d)) (s_round_id (d_s d')))).
      { destruct Hf as [? ? ? _ _ _ _ E|? ? _ _ _ _ _ E]; rewrite E in Hi; auto. apply filter_In in Hi. tauto. }
      apply in_filter_messages in Hin as (u & c & H1 & H2). rewrite (good_rid G') in H2.
      destruct (@as_cache _ _ d (reachable_authentic (gd_reach (l_good L))) u c _ vm H1 H2) as (-> & _). eauto. }
    apply (assemble I N Hst Hch L); cbn [is_fin].
    - constructor; auto.
      + intros u m g1 Hi Hm. rewrite Hway in Hi. destruct (c_way I _ _ _ Hi) as (Hu & g2 & Hs & _).
        rewrite <- (sent_phase Hs Hm). pose proof (sent_auth Hs) as (_ & Hne & Hp & Hr & Hv).
        pose proof (l_way L Hi Hs) as Hle. apply prank_between; auto.
        destruct (Nat.eq_dec (prank f) (prank g2)) as [E|E]; [|lia]. exfalso. apply prank_inj in E. subst g2.
        destruct (Hall u Hu Hp Hne) as [Hfr _]. exact (Hfr _ Hi Hr).
      + intros u g1 Hu Hp Hne Hv Hlt. apply (sent_by_mono N Hst Hch L).
        destruct (lt_dec (prank g1) (prank f)) as [H|H]; [now apply (l_prev L)|].
        destruct (Nat.eq_dec (prank g1) (prank f)) as [E|E]; [apply prank_inj in E; subst; now apply Hall|].
        pose proof (@prank_between f g1 Hv). lia.
      + intros u Hu [H|[H|(vm & H & <-)]].
        * rewrite Ha in H. simpl in H. unfold sempty in H. unfold mem in H. rewrite contains_empty in H. discriminate.
        * rewrite Ha in H. simpl in H. rewrite contains_empty in H. discriminate.
        * destruct (Htodo vm H) as (c & H1 & H2). destruct (@l_cache _ _ _ _ _ L _ c _ vm Hu H1 H2) as (_ & K1 & K2 & _).
          split; [now apply Hfree|exact (sent_by_mono N Hst Hch L K2)].
      + intros vm H Hu. destruct (Htodo vm H) as (c & H1 & H2).
        destruct (@l_cache _ _ _ _ _ L _ c _ vm Hu H1 H2) as (_ & _ & _ & m & K1 & K2). exists m. split; auto. now apply sent_cons.
      + intros u c rid vm _ H. rewrite Ha in H. simpl in H. rewrite get_empty in H. discriminate.
      + intros u dU fu Hne Hn Hg. rewrite (proj2 Hch) in Hn by auto. pose proof (l_skew L Hne Hn Hg). pose proof (prank_next (pnext f)). lia.
      + intros x p _ H. rewrite Ha in H. simpl in H. rewrite get_empty in H. discriminate.
      + intros u Hu H. destruct (@l_unprov _ _ _ _ _ L u Hu) as [e He]; [|exists e; now apply turned_cons].
        unfold has_unprovable in *. rewrite Ha, Ht in H. simpl in H. destruct H as [[e H]|[e H]]; [|rewrite get_empty in H; discriminate].
        apply (up_unprovable Up) in H as [H|H]; eauto.
      + intros u ev Hu H. apply blamed_cons. apply (@l_prov _ _ _ _ _ L u ev Hu).
        unfold has_evidence in *. rewrite Ha, Ht in H. simpl in H. destruct H as [H|H]; [|rewrite get_empty in H; discriminate].
        apply (up_provable Up) in H as [H|H]; eauto.
    - intros v1 d1 f1 Hne1 N1 L1. apply (@frame_other w ws w' v d d' _ f I N Hst Hch L); auto.
      intros u m' Hi. rewrite Hway in Hi. auto.
    - apply (fewer I N Hst Hch L). rewrite Hway. apply incl_refl.
    - rewrite Hway. apply (c_dup I).
  Qed.

  Lemma cinv_start w : cstart honest parties sid at_ w -> cinv [w] w.
  Proof.
    intros [Hw Hn].
    assert (K : forall v d, cwas [w] v d -> cw_node w v = Some d) by (intros v d (w1 & [<-|[]] & E); auto).
    assert (Hg : forall v d, cw_node w v = Some d -> honest v = true /\ good v (0, false) d /\ s_tr (d_s d) = tr_new /\ d = start (d_s d)).
    { intros v d E. destruct (Hn v d E) as (Hh & Hp & s & st & Hi & Hv & Hid & Hr & Ha & ->). split; auto. split; [|split; auto].
      - constructor.
        + exists s, []. split; auto. constructor.
        + exact Hp.
        + exact Hv.
        + exact Hid.
        + intros H. discriminate.
        + exists st. auto.
        + simpl. intros x _ _. rewrite contains_empty. discriminate.
      - destruct Hi as (g & sid' & sg & ep & Hi). apply session_new_ok in Hi as (st' & _ & C). simpl. apply (cr_tr C). }
    constructor.
    - intros v d E. destruct (Hg v d E) as (Hh & G & Et & Ed). split; auto. exists (0, false). constructor; auto.
      + rewrite Hw. intros u m g [].
      + intros u g _ _ _ _ H. exfalso. unfold prank in H. simpl in H. lia.
      + intros u _ H. exfalso. rewrite Ed in H. unfold seen in H. simpl in H. unfold mem, sempty in H. rewrite !contains_empty in H.
        destruct H as [H|[H|(vm & [] & _)]]; discriminate.
      + rewrite Ed. simpl. tauto.
      + rewrite Ed. simpl. intros u c rid vm _. rewrite get_empty. discriminate.
      + intros u dU fu _ E1 G1. destruct (Hg _ _ E1) as (_ & G2 & _). rewrite (good_unique G1 G2). pose proof (prank_next (0, false)). lia.
      + rewrite Ed. simpl. intros x p _. rewrite get_empty. discriminate.
      + intros u _ [[e H]|[e H]]; [rewrite Et in H|rewrite Ed in H]; simpl in H; rewrite get_empty in H; discriminate.
      + intros u ev _ [H|H]; [rewrite Et in H|rewrite Ed in H]; simpl in H; rewrite get_empty in H; discriminate.
    - rewrite Hw. intros u v m [].
    - rewrite Hw. constructor.
    - intros u d1 f Hd G. apply K in Hd. exists d1, f. auto.
    - intros u d1 d2 f H1 H2 _ _. apply K in H1. apply K in H2. congruence.
    - intros v d rid x p Hd (y & Hy & _). apply K in Hd. destruct (Hg _ _ Hd) as (_ & _ & Et & _). rewrite Et in Hy. simpl in Hy.
      rewrite get_empty in Hy. discriminate.
  Qed.

  Lemma trace_cinv w ws : ctrace honest (cstart honest parties sid at_) (w :: ws) -> cinv (w :: ws) w.
  Proof.
    intros Ht. remember (w :: ws) as l eqn:E. revert w ws E. induction Ht as [w0 H0|w0 ws0 w0' Ht IH Hs]; intros w ws E; injection E as <- <-.
    - now apply cinv_start.
    - specialize (IH _ _ eq_refl). destruct Hs as [v d g dest m art d' H1 H2 H3 H4 H5|u v d m o d' H1 H2 H3 H4|v d from m o d' H1 H2 H3 H4 H5|v d e d' H1 H2 H3 H4 H5].
      + eapply step_send; eauto.
      + eapply step_deliver; eauto.
      + eapply step_lie; eauto.
      + destruct H2 as [[vm ->]|[g ->]]; [eapply step_process; eauto|eapply step_finalize; eauto].
  Qed.

  Lemma blame ws v d u : ctrace honest (cstart honest parties sid at_) ws -> cwas ws v d -> honest u = true ->
    (has_unprovable d u -> exists e, turned_down ws u v (RUnprovable e)) /\
    (forall ev, has_evidence d u ev -> (exists e, turned_down ws u v e) \/ equivocated honest ws u v).
  Proof.
    intros Ht (w & Hw & Hn) Hu. induction Ht as [w0 H0|w0 ws0 w0' Ht IH Hs].
    - destruct Hw as [<-|[]]. destruct (c_nodes (cinv_start H0) _ Hn) as [_ [f L]].
      split; [exact (l_unprov L Hu)|exact (fun ev => l_prov L Hu)].
    - destruct Hw as [<-|Hw].
      + assert (I : cinv (w0' :: w0 :: ws0) w0') by (apply trace_cinv; econstructor; eauto).
        destruct (c_nodes I _ Hn) as [_ [f L]]. split; [exact (l_unprov L Hu)|exact (fun ev => l_prov L Hu)].
      + destruct (IH Hw) as [H1 H2]. split.
        * intros H. destruct (H1 H) as [e He]. exists e. now apply turned_cons.
        * intros ev H. apply blamed_cons. exact (H2 ev H).
  Qed.

  (** ** Messages between honest parties are not lost *)
  Lemma banned_step d e d' x : step d e d' -> banned (d_s d) (d_a d) x -> banned (d_s d') (d_a d') x.
  Proof.
    assert (Hins : forall {A} (mp : bmap Verifier A) y (z : A), (exists e, get x mp = Some e) -> exists e, get x (insert y z mp) = Some e).
    { intros A mp y z [e' H]. rewrite get_insert. destruct (eqb x y); eauto. }
    intros Hst Hb. destruct e as [from m o|vm|g dest art|g].
    - destruct (pre_inv Hst) as (a' & Ea & Es & Hc & _). rewrite Es, Ea. clear Ea. inv Hc; try exact Hb. unfold banned in *. simpl. destruct Hb as [H0|[H0|[H0|H0]]]; auto.
    - destruct (proc_inv Hst) as (a' & Ea & Es & Hc & _). rewrite Es, Ea. clear Ea. unfold banned in *. inv Hc; simpl; auto.
      + destruct Hb as [H2|[H2|[H2|H2]]]; auto.
      + destruct Hb as [H2|[H2|[H2|H2]]]; auto.
    - destruct (art_inv Hst) as (_ & _ & Es & _ & Ea). rewrite Es, Ea. exact Hb.
    - destruct (fin_cases_step Hst) as (_ & _ & Hf).
      assert (Hcl : exists t, close_round (d_s d) (d_a d) = Ok t /\ s_tr (d_s d') = t).
      { destruct Hf as [t ? ? Hc _ _ C _|t ? Hc _ _ _ C _]; exists t; split; auto; apply (cr_tr C). }
      destruct Hcl as (t & Hcl & Ht). apply (closed_banned _ _ x Hcl) in Hb. apply banned_bool. rewrite Ht, Hb. reflexivity.
  Qed.

  Definition kept ws w : Prop := forall v d f u, cw_node w v = Some d -> good v f d -> honest u = true -> u <> v ->
    (has_sent ws u v (prid f) ->
       on_way w u v (prid f) \/ (exists vm, In vm (d_todo d) /\ vm_from vm = u) \/ contains u (a_payloads (d_a d)) = true \/
       banned (d_s d) (d_a d) u) /\
    (has_sent ws u v (prid (pnext f)) ->
       on_way w u v (prid (pnext f)) \/
       (exists c vm, get u (a_cached (d_a d)) = Some c /\ get (prid (pnext f)) c = Some vm) \/ banned (d_s d) (d_a d) u).

  Lemma sent_new w ws w' v d' u v1 rid : changes w w' v d' -> has_sent (w' :: w :: ws) u v1 rid ->
    has_sent (w :: ws) u v1 rid \/ (u = v /\ s_round_id (d_s d') = rid /\ contains v1 (a_artifacts (d_a d')) = true).
  Proof.
    intros [H1 H2] (dX & (w1 & [<-|Hw] & E) & Hr & Hc).
    - destruct (ord_dec u v) as [->|Hne].
      + right. rewrite H1 in E. injection E as <-. auto.
      + left. rewrite H2 in E by auto. exists dX. split; auto. exists w. split; auto. now left.
    - left. exists dX. split; auto. exists w1. auto.
  Qed.

  Lemma sent_old w ws w' v d e d' u v1 rid : cw_node w v = Some d -> step d e d' -> changes w w' v d' ->
    (forall (g : rng) dest art, e <> EArt g dest art) -> has_sent (w' :: w :: ws) u v1 rid -> has_sent (w :: ws) u v1 rid.
  Proof.
    intros N Hst Hch He H. destruct (sent_new Hch H) as [H'|(-> & Hr & Hc)]; auto.
    assert (Hw : cwas (w :: ws) v d) by (exists w; split; [now left|auto]).
    destruct e as [from m o|vm|g dest art|g]; [| |now specialize (He g dest art)|].
    - destruct (pre_inv Hst) as (a' & Ea & Es & Hc' & _). rewrite Es in Hr. exists d. split; auto. split; auto.
      rewrite Ea in Hc. clear Ea. inv Hc'; auto.
    - destruct (proc_inv Hst) as (a' & Ea & Es & Hc' & _). rewrite Es in Hr. exists d. split; auto. split; auto.
      rewrite Ea in Hc. clear Ea. inv Hc'; auto.
    - destruct (fin_cases_step Hst) as (_ & Ha & _). rewrite Ha in Hc. simpl in Hc. rewrite contains_empty in Hc. discriminate.
  Qed.

  (** The sessions of the parties that do not move. *)
  Lemma kept_other w ws w' v d1 f1 u : kept (w :: ws) w -> cw_node w v = Some d1 -> good v f1 d1 -> honest u = true -> u <> v ->
    (forall rid, has_sent (w' :: w :: ws) u v rid -> has_sent (w :: ws) u v rid \/ on_way w' u v rid) ->
    (forall rid, on_way w u v rid -> on_way w' u v rid) ->
    (has_sent (w' :: w :: ws) u v (prid f1) ->
       on_way w' u v (prid f1) \/ (exists vm, In vm (d_todo d1) /\ vm_from vm = u) \/ contains u (a_payloads (d_a d1)) = true \/
       banned (d_s d1) (d_a d1) u) /\
    (has_sent (w' :: w :: ws) u v (prid (pnext f1)) ->
       on_way w' u v (prid (pnext f1)) \/
       (exists c vm, get u (a_cached (d_a d1)) = Some c /\ get (prid (pnext f1)) c = Some vm) \/ banned (d_s d1) (d_a d1) u).
  Proof.
    intros K N G Hu Hne Hs Hw. destruct (K v d1 f1 u N G Hu Hne) as [K1 K2]. split; intros H; apply Hs in H as [H|H]; auto.
    - destruct (K1 H) as [H'|H']; auto.
    - destruct (K2 H) as [H'|H']; auto.
  Qed.

  Lemma kept_step ws w w' : cinv (w :: ws) w -> (forall u dX, cwas (w :: ws) u dX -> exists f, good u f dX) -> kept (w :: ws) w -> cstep honest w w' -> kept (w' :: w :: ws) w'.
  Proof.
    intros I Hgd K Hs. destruct Hs as [x d g dest m art d' H1 H2 H3 H4 H5|x y d m o d' H1 H2 H3 H4|x d from m o d' H1 H2 H3 H4 H5|x d e d' H1 H2 H3 H4 H5].
    - (* send *)
      destruct (art_inv H3) as (Hd & Hn & Es & Et & Ea). destruct (c_nodes I _ H1) as [Hx [f0 L]].
      assert (Hm : sent_msg (w :: ws) x dest f0 m).
      { exists d, g, art. split; [exists w; split; [now left|auto]|]. split; [apply (l_good L)|auto]. }
      pose proof (sent_auth Hm) as (_ & _ & _ & Hrm & _).
      assert (Hs : forall u v rid, honest v = true -> has_sent (w' :: w :: ws) u v rid -> has_sent (w :: ws) u v rid \/ on_way w' u v rid).
      { intros u v rid Hv H. destruct (sent_new H4 H) as [H'|(-> & Hr & Hc)]; auto. rewrite Ea in Hc. simpl in Hc.
        rewrite contains_insert, orb_true_iff, eqb_eq in Hc. destruct Hc as [->|Hc].
        - right. exists m. rewrite H5, Hv. split; [now left|]. rewrite Es, (good_rid (l_good L)) in Hr. congruence.
        - left. exists d. split; [exists w; split; [now left|auto]|]. rewrite Es in Hr. auto. }
      assert (Hw : forall u v rid, on_way w u v rid -> on_way w' u v rid).
      { intros u v rid (m' & H & E). exists m'. rewrite H5. split; auto. apply in_or_app. auto. }
      intros v d1 f u Nv G Hu Hne. destruct (ord_dec v x) as [->|Hne'].
      + rewrite (proj1 H4) in Nv. injection Nv as <-.
        assert (f0 = f) by (eapply good_unique; [|exact G]; eapply good_step; [apply (l_good L)|exact H3|reflexivity]). subst f0.
        rewrite Es, Et, Ea. exact (@kept_other w ws w' x d f u K H1 (l_good L) Hu Hne (fun rid => Hs u x rid Hx) (Hw u x)).
      + rewrite (proj2 H4) in Nv by auto. destruct (c_nodes I _ Nv) as [Hv _].
        exact (@kept_other w ws w' v d1 f u K Nv G Hu Hne (fun rid => Hs u v rid Hv) (Hw u v)).
    - (* deliver *)
      assert (Hs : forall u v rid, has_sent (w' :: w :: ws) u v rid -> has_sent (w :: ws) u v rid).
      { intros u v rid. apply (sent_old H1 H3 H4). discriminate. }
      intros v d1 f u Nv G Hu Hne. destruct (ord_dec v y) as [->|Hne'].
      + rewrite (proj1 H4) in Nv. injection Nv as <-. destruct (c_nodes I _ H1) as [Hx [f0 L]].
        assert (f0 = f) by (eapply good_unique; [|exact G]; eapply good_step; [apply (l_good L)|exact H3|reflexivity]). subst f0.
        destruct (@deliver_effect ws w w' x y d m o d' f I H1 L H2 H3) as (f1 & Hm & _ & _ & _ & Es & Heff).
        pose proof (sent_auth Hm) as (_ & _ & _ & Hr & _).
        destruct (K y d f u H1 (l_good L) Hu Hne) as [K1 K2].
        assert (Hw : forall rid, on_way w u y rid -> on_way w' u y rid \/ (u = x /\ rid = prid f1)).
        { intros rid (m' & Hi & E). apply (Permutation_in _ H2) in Hi. destruct Hi as [Hi|Hi].
          - injection Hi as -> ->. right. split; congruence.
          - left. exists m'. auto. }
        assert (Hb : banned (d_s d) (d_a d) u -> banned (d_s d') (d_a d') u) by exact (@banned_step d _ d' u H3).
        rewrite Es in Hb |- *.
        split; intros H; apply Hs in H.
        * destruct (K1 H) as [H'|[(vm & H' & E)|[H'|H']]]; auto.
          { apply Hw in H' as [H'|[-> E]]; auto. apply prid_inj in E. subst f1.
            destruct Heff as [(B & E1 & E2)|[(_ & E1 & E2)|(E & _)]]; auto.
            - right. left. rewrite E2. eexists. split; [now left|reflexivity].
            - exfalso. pose proof (prank_next f). rewrite <- E in H0. lia. }
          { right. left. exists vm. split; auto. destruct Heff as [(_ & _ & ->)|[(_ & _ & ->)|(_ & _ & ->)]]; auto. now right. }
          { right. right. left. destruct Heff as [(_ & -> & _)|[(_ & -> & _)|(_ & -> & _)]]; auto. }
        * destruct (K2 H) as [H'|[(c & vm & H6 & H7)|H']]; auto.
          { apply Hw in H' as [H'|[-> E]]; auto. apply prid_inj in E. subst f1. right.
            destruct Heff as [(B & E1 & E2)|[(E & _)|(_ & E1 & E2)]]; auto.
            - exfalso. pose proof (prank_next f). rewrite E in H0. lia.
            - left. rewrite E1. simpl. rewrite get_insert_eq. eexists _, _. split; [reflexivity|]. now rewrite get_insert_eq. }
          { right. left. destruct Heff as [(_ & -> & _)|[(_ & -> & _)|(-> & -> & _)]]; eauto. simpl. rewrite get_insert.
            destruct (eqb_spec u x) as [->|]; eauto. rewrite H6. eexists _, _. split; [reflexivity|]. now rewrite get_insert_eq. }
      + rewrite (proj2 H4) in Nv by auto.
        refine (@kept_other w ws w' v d1 f u K Nv G Hu Hne (fun rid H => or_introl (Hs u v rid H)) _).
        intros rid (m' & Hi & E). exists m'. split; auto. apply (Permutation_in _ H2) in Hi. destruct Hi as [Hi|Hi]; auto.
        injection Hi as _ E1 _. congruence.
    - (* lie *)
      assert (Hs : forall u v rid, has_sent (w' :: w :: ws) u v rid -> has_sent (w :: ws) u v rid).
      { intros u v rid. apply (sent_old H1 H3 H4). discriminate. }
      assert (Hw : forall u v rid, on_way w u v rid -> on_way w' u v rid) by (unfold on_way; rewrite H5; auto).
      intros v d1 f u Nv G Hu Hne. destruct (ord_dec v x) as [->|Hne'].
      + rewrite (proj1 H4) in Nv. injection Nv as <-. destruct (c_nodes I _ H1) as [Hx [f0 L]].
        assert (f0 = f) by (eapply good_unique; [|exact G]; eapply good_step; [apply (l_good L)|exact H3|reflexivity]). subst f0.
        destruct (K x d f u H1 (l_good L) Hu Hne) as [K1 K2].
        assert (Hb : banned (d_s d) (d_a d) u -> banned (d_s d') (d_a d') u) by exact (@banned_step d _ d' u H3).
        destruct (pre_inv H3) as (a' & Ea & Es & Hc & Et). assert (Hfrom : u <> from) by congruence.
        split; intros H; apply Hs in H.
        * destruct (K1 H) as [H'|[(vm & H' & E)|[H'|H']]]; auto.
          { right. left. exists vm. split; auto. rewrite Et. destruct o; auto. now right. }
          { right. right. left. rewrite Ea. clear Ea. inv Hc; auto. }
        * destruct (K2 H) as [H'|[(c & vm & H6 & H7)|H']]; auto.
          right. left. rewrite Ea. clear Ea. inv Hc; eauto. simpl. rewrite get_insert_ne by auto. eauto.
      + rewrite (proj2 H4) in Nv by auto.
        exact (@kept_other w ws w' v d1 f u K Nv G Hu Hne (fun rid H => or_introl (Hs u v rid H)) (Hw u v)).
    - (* local *)
      assert (Hs : forall u v rid, has_sent (w' :: w :: ws) u v rid -> has_sent (w :: ws) u v rid).
      { intros u v rid. apply (sent_old H1 H3 H4). destruct H2 as [[vm ->]|[g ->]]; discriminate. }
      assert (Hw : forall u v rid, on_way w u v rid -> on_way w' u v rid) by (unfold on_way; rewrite H5; auto).
      intros v d1 f u Nv G Hu Hne. destruct (ord_dec v x) as [->|Hne'].
      + rewrite (proj1 H4) in Nv. injection Nv as <-. destruct (c_nodes I _ H1) as [Hx [f0 L]].
        destruct (K x d f0 u H1 (l_good L) Hu Hne) as [K1 K2].
        assert (Hb : banned (d_s d) (d_a d) u -> banned (d_s d') (d_a d') u) by exact (@banned_step d _ d' u H3).
        destruct H2 as [[vm0 ->]|[g ->]].
        * assert (f0 = f) by (eapply good_unique; [|exact G]; eapply good_step; [apply (l_good L)|exact H3|reflexivity]). subst f0.
          destruct (proc_inv H3) as (a' & Ea & Es & Hc & t1 & t2 & T1 & T2).
          split; intros H; apply Hs in H.
          { destruct (K1 H) as [H'|[(vm & H' & E)|[H'|H']]]; auto.
            - destruct (ord_dec u (vm_from vm0)) as [->|Hv].
              + right. right. rewrite Es, Ea. clear Ea Hb. inv Hc.
                * left. simpl. now rewrite contains_insert, eqb_refl.
                * right. right. right. left. simpl. rewrite get_insert_eq. eauto.
                * right. right. right. right. simpl. rewrite get_insert_eq. eauto.
              + right. left. exists vm. split; auto. rewrite T2. rewrite T1 in H'. apply in_app_iff in H' as [H'|[H'|H']]; [| |].
                * apply in_or_app. auto.
                * congruence.
                * apply in_or_app. auto.
            - right. right. left. rewrite Ea. clear Ea. inv Hc; auto. simpl. rewrite contains_insert, H', orb_true_r. auto. }
          { destruct (K2 H) as [H'|[(c & vm & H6 & H7)|H']]; auto.
            right. left. rewrite Ea. clear Ea. inv Hc; eauto. }
        * assert (f = pnext f0) by (eapply good_unique; [exact G|]; eapply good_fin; [apply (l_good L)|exact H3]). subst f.
          destruct (fin_cases_step H3) as (_ & Ha & Hf).
          split; intros H; apply Hs in H.
          { destruct (K2 H) as [H'|[(c & vm & H6 & H7)|H']]; auto.
            destruct (@as_cache _ _ d (reachable_authentic (gd_reach (l_good L))) u c _ vm H6 H7) as (Ev & _).
            assert (Hi : In vm (filter_messages (a_cached (d_a d)) (s_round_id (d_s d')))).
            { apply in_filter_messages. exists u, c. rewrite (good_rid G). auto. }
            destruct Hf as [? ? ? _ _ _ _ E|t ? Hc _ _ _ C E].
            - right. left. exists vm. rewrite E. auto.
            - destruct (tr_is_banned t u) eqn:Eb.
              + right. right. right. apply banned_bool. rewrite (cr_tr C), Eb. reflexivity.
              + right. left. exists vm. split; auto. rewrite E. apply filter_In. split; auto. now rewrite Ev, Eb. }
          { exfalso. destruct H as (dX & Hx' & Hr & _). destruct (Hgd _ _ Hx') as [fX GX].
            rewrite (good_rid GX) in Hr. apply prid_inj in Hr. subst fX.
            destruct (c_past I Hx' GX) as (dU & fu & NU & GU & Hle & _). pose proof (l_skew L Hne NU GU). pose proof (prank_next (pnext f0)). lia. }
      + rewrite (proj2 H4) in Nv by auto.
        exact (@kept_other w ws w' v d1 f u K Nv G Hu Hne (fun rid H => or_introl (Hs u v rid H)) (Hw u v)).
  Qed.

  Lemma trace_good ws u d : ctrace honest (cstart honest parties sid at_) ws -> cwas ws u d -> exists f, good u f d.
  Proof.
    intros Ht (w & Hw & Hn). induction Ht as [w0 H0|w0 ws0 w0' Ht IH Hs].
    - destruct Hw as [<-|[]]. destruct (c_nodes (cinv_start H0) _ Hn) as [_ [f L]]. exists f. apply (l_good L).
    - destruct Hw as [<-|Hw]; auto.
      assert (I : cinv (w0' :: w0 :: ws0) w0') by (apply trace_cinv; econstructor; eauto).
      destruct (c_nodes I _ Hn) as [_ [f L]]. exists f. apply (l_good L).
  Qed.

  Lemma trace_kept w ws : ctrace honest (cstart honest parties sid at_) (w :: ws) -> kept (w :: ws) w.
  Proof.
    intros Ht. remember (w :: ws) as l eqn:E. revert w ws E. induction Ht as [w0 H0|w0 ws0 w0' Ht IH Hs]; intros w ws E; injection E as <- <-.
    - intros v d f u _ _ _ _.
      assert (Hno : forall rid, ~ has_sent [w0] u v rid).
      { intros rid (d1 & (w1 & [<-|[]] & E) & _ & Hc). destruct H0 as [_ Hn].
        destruct (Hn u d1 E) as (_ & _ & s & st & _ & _ & _ & _ & _ & ->). simpl in Hc. rewrite contains_empty in Hc. discriminate. }
      split; intros H; now apply Hno in H.
    - apply kept_step.
      + now apply trace_cinv.
      + intros u dX. now apply trace_good.
      + exact (IH _ _ eq_refl).
      + exact Hs.
  Qed.

  Lemma waits w ws v d u : ctrace honest (cstart honest parties sid at_) (w :: ws) -> cw_node w v = Some d -> honest u = true -> u <> v ->
    has_sent (w :: ws) u v (s_round_id (d_s d)) ->
    on_way w u v (s_round_id (d_s d)) \/ (exists vm, In vm (d_todo d) /\ vm_from vm = u) \/ contains u (a_payloads (d_a d)) = true \/
    (exists e, turned_down (w :: ws) u v e) \/ equivocated honest (w :: ws) u v.
  Proof.
    intros Ht N Hu Hne Hs. assert (Hw : cwas (w :: ws) v d) by (exists w; split; [now left|auto]).
    destruct (trace_good Ht Hw) as [f G]. destruct (@blame _ _ _ u Ht Hw Hu) as [B1 B2].
    rewrite (good_rid G) in *. destruct (proj1 (trace_kept Ht N G Hu Hne) Hs) as [H|[H|[H|H]]]; auto.
    right. right. right. destruct H as [[ev H]|[[e H]|[[ev H]|[e H]]]].
    - destruct (B2 ev (or_introl H)); auto.
    - destruct B1 as [e' He]; [left; eauto|]. left. eauto.
    - destruct (B2 ev (or_intror H)); auto.
    - destruct B1 as [e' He]; [right; eauto|]. left. eauto.
  Qed.
End WithParams.
