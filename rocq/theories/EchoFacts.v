(** Facts about transcripts, echo rounds, and where recorded evidence comes from. *)
From Coq Require Import List NArith Bool.
From Verif Require Import Base BMap Errors RoundId Message Protocol Transcript Evidence Session Spec SpecCrypto SpecEvidence
  MessageFacts SessionFacts RunFacts IntakeFacts RoundFacts FinalizeFacts HistoryFacts SignFacts.
Import ListNotations.
Set Implicit Arguments.

Lemma main_echo r : rid_echo r = false -> main_of (echo_of r) = r.
Proof. destruct r; simpl. intros ->. reflexivity. Qed.
Lemma main_plain r : rid_echo r = false -> main_of r = r.
Proof. destruct r; simpl. intros ->. reflexivity. Qed.

Section WithParams.
  Context {P : Params}.
  Context {Pr : Proto}.
  Implicit Types s : Session Pr.
  Implicit Types d : DState Pr.

  (** ** The transcript of a reachable session *)

  Definition good_part {k} s rid v (p : SPart k) : Prop := sp_meta p = mkMeta (s_id s) rid /\ part_signed v p.

  Record tinv s : Prop := {
    ti_echos : forall rid v p, recorded (tr_echo (s_tr s)) rid v p ->
      sp_meta p = mkMeta (s_id s) rid /\ (signatures_correct P \/ v <> s_verifier s -> part_signed v p);
    ti_normals : forall rid v p, recorded (tr_normal (s_tr s)) rid v p -> good_part s rid v p;
    ti_directs : forall rid v p, recorded (tr_direct (s_tr s)) rid v p -> good_part s rid v p;
    ti_echoed : forall rid v p, plain_ids Pr -> rid_echo rid = true -> recorded (tr_normal (s_tr s)) rid v p ->
      exists msg echos, body_echo_msg (sp_body p) = Some msg /\ get (main_of rid) (tr_echo (s_tr s)) = Some echos /\
        forall u h, get u msg = Some h -> u <> v /\ check_echo echos (u, h) = Ok tt;
    ti_now : forall v echos info main ps arts, s_round s = REcho v echos info main ps arts ->
      get (main_of (s_round_id s)) (tr_echo (s_tr s)) = Some echos
  }.

  Lemma echo_round_id s v echos info st ps arts : sinv s -> s_round s = REcho v echos info (RMain st) ps arts ->
    rid_echo (ti_id (tinfo Pr st)) = false /\ s_round_id s = echo_of (ti_id (tinfo Pr st)).
  Proof.
    intros I Hr. pose proof (si_tinfo I) as Ht. rewrite Hr in Ht. apply rd_tinfo_echo in Ht as (t0 & H1 & H2). inv H1.
    apply ti_echo_ok in H2 as [H3 H2]. unfold s_round_id. rewrite H2. auto.
  Qed.

  Lemma recorded_insert {k} (m : bmap RoundId (bmap Verifier (SPart k))) rid0 x rid v p :
    recorded (insert rid0 x m) rid v p -> (rid = rid0 /\ get v x = Some p) \/ (rid <> rid0 /\ recorded m rid v p).
  Proof.
    intros (y & H1 & H2). rewrite get_insert in H1. destruct (eqb_spec rid rid0) as [->|Hne].
    - inv H1. auto.
    - right. split; auto. exists y; auto.
  Qed.

  Lemma accepted_good d0 es d (k : kind) (proj : VMessage -> SPart k) v p :
    (forall sid rid vm, vmessage_authentic sid rid vm -> part_signed (vm_from vm) (proj vm) /\ sp_meta (proj vm) = mkMeta sid rid) ->
    round_start d0 -> run d0 es d -> in_round es -> part_accepted (d_s d) es v proj p ->
    good_part (d_s d) (s_round_id (d_s d)) v p.
  Proof.
    intros Hproj Hs Hr Hin (vm & x & H1 & <- & _ & -> & _).
    pose proof (event_proc _ Hr Hin (round_start_reachable Hs) H1) as Ha. rewrite <- (in_round_session Hr Hin) in Ha.
    apply Hproj in Ha as [Ha Hm]. split; auto.
  Qed.

  Lemma tinv_fin d g d' : reachable d -> step d (EFin g) d' -> tinv (d_s d) -> tinv (d_s d').
  Proof.
    intros Hre Hs I. pose proof (reachable_sinv Hre) as SI.
    destruct (reachable_round Hre) as (d0 & es & Hs0 & Hr & Hin). pose proof (round_history Hs0 Hr Hin) as H.
    assert (Hre' : reachable d') by (exact (reachable_run Hre (run_one Hs))). pose proof (reachable_sinv Hre') as SI'.
    destruct (step_identity Hs SI) as (Hid & _ & Hv).
    destruct (fin_cases_step Hs) as (_ & _ & Hf).
    assert (Hcl : exists t, close_round (d_s d) (d_a d) = Ok t /\ s_tr (d_s d') = t).
    { destruct Hf as [t ? ? Hc _ _ C _|t ? Hc _ _ _ C _]; exists t; split; auto; apply (cr_tr C). }
    destruct Hcl as (t & Hc & Ht). pose proof (close_round_ok _ _ Hc) as U.
    assert (Hnew : forall rid x, get rid (tr_echo (s_tr (d_s d))) = Some x -> get rid (tr_echo t) = Some x).
    { intros rid x Hx. rewrite (up_echo U), get_insert_ne; auto. intros ->. rewrite (up_echo_new U) in Hx. discriminate. }
    constructor; rewrite ?Ht, ?Hid.
    - intros rid v p Hp. rewrite (up_echo U) in Hp. apply recorded_insert in Hp as [[-> Hp]|[_ Hp]].
      2:{ rewrite Hv. eapply ti_echos; eauto. }
      rewrite get_insert in Hp. destruct (eqb_spec v (s_verifier (d_s d))) as [->|Hne].
      + inv Hp. split; [apply (si_echo_meta SI)|]. rewrite Hv. intros [Hsig|Hx]; [|congruence].
        destruct (reachable_created Hre) as (g1 & sid & sg & r & t1 & C).
        rewrite (cr_verifier C). eapply sign_part_signed; eauto. apply (cr_echo C).
      + apply (h_echo H) in Hp.
        destruct (@accepted_good d0 es d KEcho (@vm_echo _) v p) as [G1 G2]; auto.
        intros sid rid vm (A1 & A2 & A3 & A4 & A5 & A6 & A7). auto.
    - intros rid v p Hp. rewrite (up_normal U) in Hp. unfold good_part. rewrite Hid.
      apply recorded_insert in Hp as [[-> Hp]|[_ Hp]]; [|eapply ti_normals; eauto].
      apply (h_normal H) in Hp. apply (@accepted_good d0 es d KNormal (@vm_normal _) v p); auto.
      intros sid rid vm (A1 & A2 & A3 & A4 & A5 & A6 & A7). auto.
    - intros rid v p Hp. rewrite (up_direct U) in Hp. unfold good_part. rewrite Hid.
      apply recorded_insert in Hp as [[-> Hp]|[_ Hp]]; [|eapply ti_directs; eauto].
      apply (h_direct H) in Hp. apply (@accepted_good d0 es d KDirect (@vm_direct _) v p); auto.
      intros sid rid vm (A1 & A2 & A3 & A4 & A5 & A6 & A7). auto.
    - intros rid v p Hpl He Hp. rewrite (up_normal U) in Hp. apply recorded_insert in Hp as [[-> Hp]|[_ Hp]].
      + apply (h_normal H) in Hp as (vm & x & H1 & <- & Ha & -> & _).
        destruct (si_shape SI) as [st Hst|echos info st ps arts Hst _].
        { exfalso. destruct (main_tinfo SI Hst) as [E _]. unfold s_round_id in He. rewrite E in He. rewrite (Hpl st) in He. discriminate. }
        unfold answer in Ha. rewrite Hst in Ha. simpl in Ha.
        apply echo_receive_ok in Ha as (_ & _ & _ & msg & Hb & Hk & Hch). exists msg, echos. split; auto. split.
        * apply Hnew. eapply ti_now; eauto.
        * intros u h Hu. split; auto. apply Hk. apply contains_get; eauto.
      + destruct (ti_echoed I Hpl He Hp) as (msg & echos & H1 & H2 & H3). exists msg, echos. auto.
    - intros v echos info main ps arts Er.
      destruct Hf as [t' info' echos' Hc' Hi Hg C _|t' st Hc' _ _ _ C _]; pose proof (cr_round C) as E; rewrite Er in E; [|discriminate].
      inv E. rewrite Hc in Hc'. inv Hc'.
      destruct (si_shape SI) as [st Hst|? ? ? ? ? Hst Hn]; [|congruence].
      rewrite Hst in Er. destruct (echo_round_id SI' Er) as [Hp Hx]. rewrite Hx, main_echo by auto.
      destruct (main_tinfo SI Hst) as [E _]. unfold s_round_id in Hg. rewrite E in Hg. exact Hg.
  Qed.

  Lemma reachable_tinv d : reachable d -> tinv (d_s d).
  Proof.
    intros (s & es & Hi & Hr). remember (start s) as d0. revert Heqd0.
    induction Hr as [d|d0 es d1 e d2 Hr IH Hs]; intros ->.
    - destruct Hi as (g & sid & sg & ep & Hi). apply session_new_ok in Hi as (st & _ & C). simpl.
      constructor; rewrite ?(cr_tr C), ?(cr_round C); simpl; try (intros; discriminate);
        unfold recorded; intros; repeat match goal with H : exists _, _ |- _ => destruct H end;
        repeat match goal with H : _ /\ _ |- _ => destruct H end; rewrite get_empty in *; discriminate.
    - destruct (is_fin e) eqn:Ef.
      + destruct e; try discriminate. apply (@tinv_fin d1 g d2); auto. exists s, es; auto.
      + replace (d_s d2) with (d_s d1); [apply IH; auto|]. inv Hs; auto; discriminate.
  Qed.

  (** ** Echo rounds *)

  Lemma echo_shape d : reachable d -> in_echo_round (d_s d) ->
    exists echos info st ps arts, s_round (d_s d) = REcho (s_verifier (d_s d)) echos info (RMain st) ps arts /\
      get (main_of (s_round_id (d_s d))) (tr_echo (s_tr (d_s d))) = Some echos.
  Proof.
    intros Hre (v & echos & info & main & ps & arts & Hr). pose proof (reachable_sinv Hre) as SI.
    destruct (si_shape SI) as [st Hst|echos' info' st ps' arts' Hst _]; [congruence|].
    exists echos', info', st, ps', arts'. split; auto. exact (ti_now (reachable_tinv Hre) Hst).
  Qed.

  Lemma held_get d echos v p : get (main_of (s_round_id (d_s d))) (tr_echo (s_tr (d_s d))) = Some echos ->
    (held_echo (d_s d) v p <-> get v echos = Some p).
  Proof.
    intros H. unfold held_echo, recorded. split.
    - intros (x & H1 & H2). congruence.
    - intros Hp. eauto.
  Qed.

  (** The content of the echo message a session makes. *)
  Lemma echo_message_content d g dest m art echos v info main ps arts : echo_codec P -> reachable d ->
    s_round (d_s d) = REcho v echos info main ps arts -> make_message (d_s d) g dest = Ok (m, art) ->
    msg_normal m = s_normal (d_s d) /\ sp_body (msg_direct m) = None /\ sp_body (msg_echo m) = None /\
    (sp_body (msg_normal m) = None /\ is_empty (message_destinations (d_s d)) = true \/
     body_echo_msg (sp_body (msg_normal m)) = Some (map_values (@to_signed_hash _ KEcho) (remove v echos))).
  Proof.
    intros Hcod Hre Hr Hm. destruct (reachable_created Hre) as (g1 & sid & sg & r & t1 & C).
    pose proof (cr_round C) as E. rewrite Hr in E. subst r.
    unfold make_message in Hm. rewrite Hr in Hm. cbn [rd_mk_direct bind] in Hm.
    apply bind_ok in Hm as (m' & H2 & Hm). inv Hm. unfold message_new in H2. apply bind_ok in H2 as (dm & H2 & Hm). inv Hm. cbn [msg_normal msg_direct msg_echo].
    apply sign_part_ok in H2 as (_ & Hb & _). split; auto. split; auto.
    pose proof (cr_echo_body C) as He. pose proof (cr_normal_body C) as Hn. simpl in He, Hn.
    unfold message_destinations. rewrite (cr_comm C). simpl.
    destruct (is_empty (ei_dest info)) eqn:Ed.
    - split; auto.
    - split; [now inv He|]. right. unfold echo_normal_broadcast in Hn. destruct (contains v echos); [|discriminate].
      apply bind_ok in Hn as (b & Hb' & Hn). inv Hn. unfold body_echo_msg.
      destruct (ser_echo (map_values (@to_signed_hash _ KEcho) (remove v echos))) as [b'|] eqn:Es; simpl in Hb'; [|discriminate]. inv Hb'. now apply Hcod.
  Qed.

  Lemma check_echo_err (echos : bmap Verifier (SPart KEcho)) x e : check_echo echos x = Err e ->
    (exists l, e = RL l) \/ exists e', e = REchoRound e'.
  Proof.
    destruct x as [u h]. unfold check_echo. destruct (get u echos); [|discriminate].
    destruct (verify_shash u h) as [vh|[]|]; intros H; try discriminate; try (injection H as <-; eauto; fail).
    destruct (negb _); [inv H; eauto|]. destruct (negb _); [inv H; eauto|discriminate].
  Qed.

  (** Who is expected to be echoed. *)
  Lemma fin_echo_expected d g d' v echos info st ps arts : reachable d -> step d (EFin g) d' ->
    s_round (d_s d') = REcho v echos info (RMain st) ps arts ->
    forall u, mem u (ei_echos info) = true <->
      mem u (ci_expect (cinfo Pr st)) = true \/ (ci_part (cinfo Pr st) = EPDefault /\ u = s_verifier (d_s d')).
  Proof.
    intros Hre Hs Hr u. assert (He : in_echo_round (d_s d')) by (unfold in_echo_round; eauto 10).
    destruct (si_shape (reachable_sinv Hre)) as [st' Hst|? ? ? ? ? Hst Hn].
    2:{ exfalso. apply (fin_echo_iff Hre Hs) in He. congruence. }
    destruct (echo_entered Hre Hs Hst He) as (echos' & info' & Er & _ & _ & _ & Hx & _ & _).
    rewrite Hr in Er. inv Er. rewrite Hx. apply (echo_happens Hre Hs Hst) in He.
    destruct (step_identity Hs (reachable_sinv Hre)) as (_ & _ & ->).
    destruct (ci_part (cinfo Pr st')) as [| |tg].
    - rewrite mem_add, orb_true_iff, eqb_eq. intuition.
    - destruct He as [[? _]|[? ?]]; discriminate.
    - intuition discriminate.
  Qed.

  (** What is held in an echo round besides the own broadcast was received from the parties expected. *)
  Lemma fin_held d g d' v echos info st ps arts : reachable d -> step d (EFin g) d' ->
    s_round (d_s d') = REcho v echos info (RMain st) ps arts ->
    forall u, contains u echos = true -> u = s_verifier (d_s d') \/ mem u (ci_expect (cinfo Pr st)) = true.
  Proof.
    intros Hre Hs Hr u Hu. assert (He : in_echo_round (d_s d')) by (unfold in_echo_round; eauto 10).
    destruct (si_shape (reachable_sinv Hre)) as [st' Hst|? ? ? ? ? Hst Hn].
    2:{ exfalso. apply (fin_echo_iff Hre Hs) in He. congruence. }
    destruct (echo_entered Hre Hs Hst He) as (echos' & info' & Er & _ & _ & _ & _ & Hx & _).
    rewrite Hr in Er. inv Er. destruct (step_identity Hs (reachable_sinv Hre)) as (_ & _ & ->).
    rewrite contains_insert, orb_true_iff, eqb_eq in Hu. destruct Hu as [Hu|Hu]; auto. right.
    destruct (reachable_round Hre) as (d0 & es & Hs0 & Hrn & Hin). pose proof (round_history Hs0 Hrn Hin) as H.
    apply contains_get in Hu as [p Hp]. apply (h_echo H) in Hp. apply part_heard in Hp. apply (h_heard H) in Hp.
    unfold expected in Hp. destruct (main_tinfo (reachable_sinv Hre) Hst) as [_ E]. now rewrite E in Hp.
  Qed.

  Lemma echo_round_sets d v echos info st ps arts : reachable d ->
    s_round (d_s d) = REcho v echos info (RMain st) ps arts ->
    (forall u, mem u (ei_echos info) = true <->
      mem u (ci_expect (cinfo Pr st)) = true \/ (ci_part (cinfo Pr st) = EPDefault /\ u = s_verifier (d_s d))) /\
    (forall u, contains u echos = true -> u = s_verifier (d_s d) \/ mem u (ci_expect (cinfo Pr st)) = true).
  Proof.
    intros (s & es & Hi & Hr). remember (start s) as d0. revert Heqd0.
    induction Hr as [d|d0 es d1 e d2 Hr IH Hs]; intros -> Hrd.
    - destruct Hi as (g & sid & sg & ep & Hi). apply session_new_ok in Hi as (st' & _ & C). simpl in Hrd.
      rewrite (cr_round C) in Hrd. discriminate.
    - destruct (is_fin e) eqn:Ef.
      + destruct e; try discriminate. assert (Hre : reachable d1) by (exists s, es; auto).
        split; [exact (fin_echo_expected Hre Hs Hrd)|exact (fin_held Hre Hs Hrd)].
      + assert (E : d_s d2 = d_s d1) by (inv Hs; auto; discriminate). rewrite E in *. apply IH; auto.
  Qed.

  Lemma echo_agreement_body d0 es d (dB : DState Pr) st vm g dest m art :
    echo_codec P -> round_start d0 -> run d0 es d -> in_round es -> can_finalize (d_a d) = Yes -> echoing (d_s d) st ->
    reachable dB -> in_echo_round (d_s dB) -> make_message (d_s dB) g dest = Ok (m, art) ->
    In (EProc vm) es -> vm_from vm = s_verifier (d_s dB) -> sp_body (vm_normal vm) = sp_body (msg_normal m) ->
    forall v, v <> s_verifier (d_s dB) ->
      mem v (ci_expect (cinfo Pr st)) = true \/ (ci_part (cinfo Pr st) = EPDefault /\ v = s_verifier (d_s d)) ->
      exists p p', held_echo (d_s d) v p /\ held_echo (d_s dB) v p' /\
        (sp_body p = sp_body p' \/ collide (content_bytes KEcho (sp_body p)) (content_bytes KEcho (sp_body p'))).
  Proof.
    intros Hcod Hs Hr Hin Hy (v0 & echos & info & ps & arts & Hrd) HreB HeB Hm Hvm Hf Hn v Hv Hexp.
    pose proof (reachable_run (round_start_reachable Hs) Hr) as Hre.
    pose proof (round_history Hs Hr Hin) as H.
    assert (Hheard : heard es (s_verifier (d_s dB))) by (exists vm; auto).
    assert (Hacc : exists p, accepted (d_s d) es (s_verifier (d_s dB)) p).
    { apply (proj1 (proj1 (can_finalize_meaning Hs Hr Hin)) Hy). now apply (h_heard H). }
    destruct Hacc as (p & vm' & Hvm' & Hf' & Ha).
    assert (vm' = vm) by (apply (h_unique H); congruence). subst vm'.
    rewrite Hrd in Ha. simpl in Ha. apply echo_receive_ok in Ha as (_ & _ & _ & msg & Hb & Hk & Hch). simpl in Hb.
    destruct (echo_shape HreB HeB) as (echosB & infoB & stB & psB & artsB & HrB & HgB).
    destruct (@echo_message_content dB g dest m art _ _ _ _ _ _ Hcod HreB HrB Hm) as (_ & _ & _ & [[E _]|E]).
    { rewrite Hn, E in Hb. discriminate. }
    rewrite Hn, E in Hb. inv Hb.
    destruct (echo_round_sets Hre Hrd) as [Hset _].
    assert (Hc : contains v (map_values (@to_signed_hash _ KEcho) (remove (s_verifier (d_s dB)) echosB)) = true) by (apply Hk; split; auto; now apply Hset).
    apply contains_get in Hc as [h Hh]. pose proof (Hch _ _ Hh) as Hck.
    rewrite get_map_values, get_remove_ne in Hh by auto. destruct (get v echosB) as [p'|] eqn:Ep'; inv Hh.
    unfold check_echo in Hck. destruct (get v echos) as [q|] eqn:Eq; [|discriminate].
    exists q, p'. split.
    { pose proof (ti_now (reachable_tinv Hre) Hrd) as Hg. now apply (held_get _ _ _ Hg). }
    split; [now apply (held_get _ _ _ HgB)|].
    destruct (verify_shash v (to_signed_hash p')) as [vh|[]|] eqn:Ev; try discriminate.
    apply verify_shash_ok in Ev as [-> _]. destruct (negb (meta_eqb _ _)); [discriminate|].
    destruct (is_hash_of (to_signed_hash p') q) eqn:Eh; [|discriminate].
    unfold is_hash_of in Eh. apply bytes_eqb_spec in Eh. simpl in Eh. rewrite <- !content_hash_eq in Eh.
    apply content_hash_binding in Eh as [[_ Eh]|Eh]; auto.
  Qed.

  Lemma echo_agreement d0 es d (dB : DState Pr) st vm g dest m art :
    echo_codec P -> round_start d0 -> run d0 es d -> in_round es -> can_finalize (d_a d) = Yes -> echoing (d_s d) st ->
    reachable dB -> in_echo_round (d_s dB) -> make_message (d_s dB) g dest = Ok (m, art) ->
    In (EProc vm) es -> is_message_of (s_verifier (d_s dB)) m vm ->
    forall v, v <> s_verifier (d_s dB) ->
      mem v (ci_expect (cinfo Pr st)) = true \/ (ci_part (cinfo Pr st) = EPDefault /\ v = s_verifier (d_s d)) ->
      exists p p', held_echo (d_s d) v p /\ held_echo (d_s dB) v p' /\
        (sp_body p = sp_body p' \/ collide (content_bytes KEcho (sp_body p)) (content_bytes KEcho (sp_body p'))).
  Proof.
    intros Hcod Hs Hr Hin Hy Hec HreB HeB Hm Hvm (Hf & _ & _ & Hn & _).
    eapply echo_agreement_body; eauto. congruence.
  Qed.

  (** ** Honest echo messages are accepted *)
  Lemma honest_echo_accepted d (dB : DState Pr) st g dest m art :
    echo_codec P -> signatures_correct P -> echo_rounds_have_broadcasts Pr ->
    reachable d -> echoing (d_s d) st -> reachable dB -> in_echo_round (d_s dB) ->
    make_message (d_s dB) g dest = Ok (m, art) -> mem dest (message_destinations (d_s dB)) = true ->
    (forall v p, v <> s_verifier (d_s dB) ->
       (held_echo (d_s dB) v p <-> held_echo (d_s d) v p /\ (v = s_verifier (d_s d) -> ci_part (cinfo Pr st) = EPDefault \/ mem v (ci_expect (cinfo Pr st)) = true))) ->
    rd_receive (s_round (d_s d)) (s_verifier (d_s dB)) (contents m) = Ok PEmpty.
  Proof.
    intros Hcod Hsig HB Hre (v0 & echos & info & ps & arts & Hrd) HreB HeB Hm Hdest Hsame.
    destruct (echo_shape HreB HeB) as (echosB & infoB & stB & psB & artsB & HrB & HgB).
    destruct (@echo_message_content dB g dest m art _ _ _ _ _ _ Hcod HreB HrB Hm) as (_ & Ed & Ee & [[_ E]|E]).
    { exfalso. rewrite is_empty_get in E. apply contains_get in Hdest as [x Hx]. rewrite E in Hx. discriminate. }
    pose proof (ti_now (reachable_tinv Hre) Hrd) as Hg. destruct (echo_round_sets Hre Hrd) as [Hset Hheld].
    pose proof (reachable_echo_complete HB Hre) as Hcomp. unfold echo_complete in Hcomp. rewrite Hrd in Hcomp.
    assert (Hkeys : forall v, v <> s_verifier (d_s dB) -> (contains v echosB = true <-> mem v (ei_echos info) = true)).
    { intros v Hv. rewrite Hset. split.
      - intros Hc. apply contains_get in Hc as [p Hp]. apply (held_get _ _ _ HgB) in Hp. apply (Hsame v p Hv) in Hp as [Hp Hme].
        apply (held_get _ _ _ Hg) in Hp. destruct (Hheld v) as [->|Hx]; [apply contains_get; eauto| |auto].
        destruct (Hme eq_refl); auto.
      - intros Hx. assert (Hc : contains v echos = true) by (apply Hcomp, Hset; auto).
        apply contains_get in Hc as [p Hp]. apply contains_get. exists p. apply (held_get _ _ _ HgB). apply Hsame; auto.
        split; [now apply (held_get _ _ _ Hg)|]. intros ->. tauto. }
    rewrite Hrd. simpl. unfold echo_receive, contents. cbn [dm_echo dm_direct dm_normal]. rewrite Ee, Ed, E. cbn [is_none negb].
    set (msg := map_values (@to_signed_hash _ KEcho) (remove (s_verifier (d_s dB)) echosB)).
    assert (Hk : forall v, mem v (keyset msg) = mem v (srem (s_verifier (d_s dB)) (ei_echos info))).
    { intros v. rewrite mem_keyset, mem_rem. unfold msg. rewrite contains_map_values, contains_remove.
      destruct (eqb_spec v (s_verifier (d_s dB))) as [->|Hne]; simpl; auto.
      pose proof (Hkeys v Hne). destruct (contains v echosB), (mem v (ei_echos info)); intuition congruence. }
    assert (Hd : is_empty (diff (srem (s_verifier (d_s dB)) (ei_echos info)) (keyset msg)) = true /\
                 is_empty (diff (keyset msg) (srem (s_verifier (d_s dB)) (ei_echos info))) = true).
    { split; apply is_empty_get; intros v; apply contains_false.
      - apply (eq_trans (mem_diff v _ _)). rewrite Hk. now destruct (mem v _).
      - apply (eq_trans (mem_diff v _ _)). rewrite Hk. now destruct (mem v _). }
    destruct Hd as [-> ->]. cbn [negb].
    assert (Hit : iter_res (check_echo echos) (to_list msg) = Ok tt).
    { apply iter_res_ok. intros [v h] Hin. apply in_to_list in Hin. unfold msg in Hin.
      rewrite get_map_values, get_remove in Hin. destruct (eqb_spec v (s_verifier (d_s dB))) as [->|Hne]; [discriminate|].
      destruct (get v echosB) as [p|] eqn:Ep; inv Hin.
      apply (held_get _ _ _ HgB) in Ep. apply (Hsame v p Hne) in Ep as [Ep _].
      destruct (ti_echos (reachable_tinv Hre) Ep) as [_ Hs]. specialize (Hs (or_introl Hsig)).
      apply (held_get _ _ _ Hg) in Ep. unfold check_echo. rewrite Ep.
      rewrite (proj2 (verify_shash_ok v (to_signed_hash p) (to_signed_hash p))) by (split; auto; now apply shash_signed).
      simpl. rewrite meta_eqb_refl. simpl. unfold is_hash_of. simpl. rewrite bytes_eqb_refl. reflexivity. }
    rewrite Hit. reflexivity.
  Qed.

  (** ** Where evidence comes from *)

  (** Processing [vm] in session [s] leads to evidence [ev]. *)
  Definition makes_evidence s (vm : VMessage) (ev : Evidence) : Prop := exists e, answer s vm = Err e /\
    match e with
    | RDirect => ev = new_invalid_direct (vm_from vm) (vm_direct vm)
    | REchoB => ev = new_invalid_echo (vm_from vm) (vm_echo vm)
    | RNormal => ev = new_invalid_normal (vm_from vm) (vm_normal vm)
    | RProtocol e => new_provable_error (vm_from vm) (vm_echo vm) (vm_normal vm) (vm_direct vm) e (s_tr s) = Ok ev
    | REchoRound e => ev = new_echo_round_error (vm_from vm) (vm_normal vm) e
    | _ => False
    end.

  Lemma evidence_step_origin d e d' v ev : reachable d -> step d e d' -> has_evidence d' v ev ->
    has_evidence d v ev \/ exists vm, In vm (d_todo d) /\ vm_from vm = v /\ makes_evidence (d_s d) vm ev.
  Proof.
    intros Hre Hs Hev. unfold has_evidence in *. inv Hs; simpl in *.
    - left. destruct Hev as [|Hev]; auto. apply preprocess_cases in H. inv H; simpl in *; auto.
    - destruct Hev as [|Hev]; auto. apply add_processed_ok in H as (_ & _ & H). inv H; simpl in *; auto.
      rewrite get_insert in Hev. destruct (eqb_spec v (vm_from vm)) as [->|Hne]; auto. inv Hev.
      right. exists vm. split; [apply in_elt|]. split; auto. eexists; split; eauto.
    - left. destruct Hev as [|Hev]; auto. apply add_artifact_ok in H1 as [_ ->]. auto.
    - left. destruct Hev as [Hev|Hev]; [|rewrite get_empty in Hev; discriminate].
      assert (Hcl : exists t, close_round s a = Ok t /\ s_tr s' = t).
      { apply finalize_another in H0. destruct H0 as [t ? ? Hc _ _ C _|t ? Hc _ _ _ C _]; exists t; split; auto; apply (cr_tr C). }
      destruct Hcl as (t & Hc & Ht). rewrite Ht in Hev. apply (up_provable (close_round_ok _ _ Hc)) in Hev. tauto.
  Qed.

  Lemma evidence_origin d v ev : reachable d -> has_evidence d v ev ->
    exists d1 vm, reachable d1 /\ s_id (d_s d1) = s_id (d_s d) /\ In vm (d_todo d1) /\ vm_from vm = v /\
      vmessage_authentic (s_id (d_s d1)) (s_round_id (d_s d1)) vm /\ makes_evidence (d_s d1) vm ev.
  Proof.
    intros (s & es & Hi & Hr). remember (start s) as d0. revert Heqd0.
    induction Hr as [d|d0 es d1 e d2 Hr IH Hs]; intros -> Hev.
    - destruct Hi as (g & sid & sg & ep & Hi). apply session_new_ok in Hi as (st & _ & C).
      unfold has_evidence in Hev. simpl in Hev. rewrite (cr_tr C) in Hev. simpl in Hev. rewrite !get_empty in Hev. destruct Hev; discriminate.
    - assert (Hre : reachable d1) by (exists s, es; auto).
      destruct (step_identity Hs (reachable_sinv Hre)) as (Hid & _ & _).
      destruct (@evidence_step_origin d1 e d2 v ev Hre Hs Hev) as [H|(vm & H1 & H2 & H3)].
      + destruct (IH eq_refl H) as (d3 & vm & K1 & K2 & K). exists d3, vm. split; auto. split; [congruence|auto].
      + exists d1, vm. split; auto. split; [congruence|]. split; auto. split; auto. split; auto.
        now apply (handed_out_authentic Hre).
  Qed.

  (** The evidence in a report is the evidence recorded when the session ended. *)
  Lemma report_evidence d rep v ev : ends_with d rep -> get v (rep_provable rep) = Some ev -> has_evidence d v ev.
  Proof.
    intros H Hg.
    assert (Hcl : exists t, close_round (d_s d) (d_a d) = Ok t /\ rep_provable rep = tr_provable t).
    { destruct H as [[g H]|[H|H]].
      - apply finalize_finished in H as (t & x & Hc & _ & _ & ->). eauto.
      - apply bind_ok in H as (t & Hc & H). inv H. eauto.
      - apply bind_ok in H as (t & Hc & H). inv H. eauto. }
    destruct Hcl as (t & Hc & E). rewrite E in Hg. now apply (up_provable (close_round_ok _ _ Hc)) in Hg.
  Qed.
End WithParams.
