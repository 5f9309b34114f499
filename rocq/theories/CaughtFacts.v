(** Executions in which the messages of one party are turned down: a case of FaultFacts.v. *)
From Coq Require Import List NArith Bool Lia Arith.
From Verif Require Import Base BMap Errors RoundId Message Protocol Transcript Evidence Session Spec SpecCrypto
  Network SpecNet NetFacts RunSync SpecSync SpecCaught SpecFaults FaultFacts.
Import ListNotations.
Set Implicit Arguments.

Section Facts.
  Context {P : Params}.
  Context {Pr : Proto}.
  Variable f : St Pr -> Verifier -> DynMsg -> res RecvErr (Payload Pr).
  Variable r : NetRng.
  Variable sid : bytes.
  Variable parties : bset Verifier.
  Variable ep : Verifier -> EntryPoint Pr.
  Variable h : Plan (with_receive Pr f).
  Variable sk : Verifier -> Signer.
  Hypothesis Hsk : signers parties sk.
  Hypothesis Hwire : wire_total P.
  Hypothesis Hsig : signatures_correct P.
  Hypothesis Hpl : plain_ids Pr.
  Hypothesis HR : honest_run r sid parties (fun v => ep_with f (ep v)) h.
  Variable t : Verifier.
  Variable k : nat.
  Variable sd : Shared Pr.
  Hypothesis HF : one_fault sid parties h t k sd.
  Notation party v := (mem v parties = true).

  (** Everybody but [t] stops in round [k]. *)
  Definition stops (v : Verifier) : option nat := if eqb v t then None else Some k.
  Lemma stops_t : stops t = None.
  Proof. unfold stops. now rewrite eqb_refl. Qed.
  Lemma stops_k v : v <> t -> stops v = Some k.
  Proof. intros H. unfold stops. apply eqb_neq in H. now rewrite H. Qed.
  Lemma stops_inv v j : stops v = Some j -> v <> t /\ j = k.
  Proof. unfold stops. destruct (eqb_spec v t); [discriminate|]. intros E. injection E as <-. auto. Qed.
  Lemma down_verdict v : turned_down sid h t k sd v -> (forall p, verdict h k v t <> Ok p) /\ forall e, verdict h k v t <> Err (RUnprovable e).
  Proof. intros (ri & _ & H). unfold verdict. destruct (receive Pr _ _ _) as [p|[]|]; try contradiction; split; discriminate. Qed.
  Lemma down_accepted v : turned_down sid h t k sd v -> accepted h k v t = false.
  Proof. intros H. apply down_verdict in H as [H _]. unfold accepted. destruct (verdict h k v t) as [p| |]; auto. now destruct (H p). Qed.

  Lemma as_faults : faults sid parties h stops sd.
  Proof.
    constructor.
    - intros n v u Hn Hv Hu Hs. apply (of_rest HF Hn Hv Hu). unfold stops in Hs. destruct (eqb_spec v t); auto.
    - intros v j Hv Hs. apply stops_inv in Hs as [Hvt ->]. split; [apply (of_round HF)|]. exists t. split; [exact (of_all HF Hv Hvt)|].
      apply down_accepted, (of_bad HF Hv Hvt).
    - intros v j u Hv Hs Hu. apply stops_inv in Hs as [Hvt ->]. destruct (eqb_spec u t) as [->|Hut]; [right; left; exact (of_bad HF Hv Hvt)|].
      left. apply (of_rest HF (of_round HF) Hv Hu). auto.
  Qed.
  Lemma as_first v : party v -> v <> t -> first_to_stop parties stops v.
  Proof. intros Hv Hvt. split; auto. exists k. split; [now apply stops_k|]. intros w j _ Hw. apply stops_inv in Hw as [_ ->]. auto. Qed.

  Lemma blames_t v prov unprov : party v -> v <> t -> blames_rightly sid h stops sd v prov unprov -> blames_fully h stops v prov unprov ->
    exists ev, prov = insert t ev empty /\ unprov = empty /\ proof_against sid h t k sd v ev.
  Proof.
    intros Hv Hvt [B1 B2] (j & Hj & B3). rewrite (stops_k Hvt) in Hj. injection Hj as <-.
    assert (Hun : unprov = empty).
    { apply bmap_ext. intros u. rewrite get_empty. destruct (get u unprov) as [e|] eqn:E; auto. exfalso. destruct (B2 u e E) as (j & Hj & Hu & Hd).
      rewrite (stops_k Hvt) in Hj. injection Hj as <-. destruct (eqb_spec u t) as [->|Hut].
      - apply (proj2 (down_verdict (of_bad HF Hv Hvt)) e Hd).
      - unfold verdict in Hd. rewrite (of_rest HF (of_round HF) Hv Hu) in Hd by auto. discriminate. }
    specialize (B3 t (of_all HF Hv Hvt)). rewrite (down_accepted (of_bad HF Hv Hvt)), Hun, contains_empty, orb_false_r in B3. cbn [negb] in B3.
    apply contains_get in B3 as [ev Hev]. exists ev. split; [|split; auto].
    - apply bmap_ext. intros u. rewrite get_insert, get_empty. destruct (eqb_spec u t) as [->|Hut]; auto.
      destruct (get u prov) as [ev'|] eqn:E; auto. exfalso. destruct (B1 u ev' E) as (j & Hj & Hu & _ & _ & Hd).
      rewrite (stops_k Hvt) in Hj. injection Hj as <-. unfold charge in Hd. rewrite (of_rest HF (of_round HF) Hv Hu) in Hd by auto. exact Hd.
    - destruct (B1 t ev Hev) as (j & Hj & _ & Hd). rewrite (stops_k Hvt) in Hj. injection Hj as <-. exact Hd.
  Qed.
  Lemma blames_none prov unprov : blames_rightly sid h stops sd t prov unprov -> prov = empty /\ unprov = empty.
  Proof.
    intros [B1 B2]. split; apply bmap_ext; intros u; rewrite get_empty.
    - destruct (get u prov) as [ev|] eqn:E; auto. destruct (B1 u ev E) as (j & Hj & _). rewrite stops_t in Hj. discriminate.
    - destruct (get u unprov) as [e|] eqn:E; auto. destruct (B2 u e E) as (j & Hj & _). rewrite stops_t in Hj. discriminate.
  Qed.
  Lemma right_nobody nd : node_right sid h stops sd t nd -> accuses_nobody nd.
  Proof.
    destruct nd as [d|rep]; cbn [node_right accuses_nobody].
    - intros (B & H1 & H2). apply blames_none in B as [-> ->]. auto.
    - tauto.
  Qed.

  Theorem net_convicts : exists net0, honest_net r sid parties sk ep = Ok net0 /\
    (forall xs net, schedule r net0 xs net ->
      (forall x o, act r net x = Some o -> exists net', o = Ok net') /\
      (forall c : nat -> Net Pr, c 0 = net -> ~ forall i, exists x, act r (c i) x = Some (Ok (c (S i)))) /\
      ((forall x, act r net x = None) -> all_have_convicted sid parties h t k sd net)).
  Proof.
    destruct (@net_blames P Pr f r sid parties ep h sk Hsk Hwire Hsig Hpl HR stops sd as_faults) as (net0 & E0 & H). exists net0. split; auto.
    intros xs net Hs. destruct (H xs net Hs) as (H1 & H2 & H3 & H4). split; auto. split; auto. intros Hx. specialize (H4 Hx). split.
    - destruct (H3 t (of_party HF)) as (nd & E & Hr). exists nd. split; auto. now apply right_nobody.
    - intros v Hv Hvt. destruct (H4 v (as_first Hv Hvt)) as (d & Ev & Hn & Hb). destruct (H3 v Hv) as (nd & E & Hr). rewrite Ev in E. injection E as <-.
      destruct (blames_t Hv Hvt (proj1 Hr) Hb) as (ev & E1 & E2 & E3). exists d, ev. auto.
  Qed.

  Theorem run_sync_convicts : (exists v, party v /\ v <> t) -> forall picks, exists fuel0 reports, (forall fuel, fuel0 <= fuel ->
      run_sync fuel r picks sid (map (fun v => (sk v, ep v)) (elements parties)) = Some (Ok reports)) /\ convicted_by_all sid parties h t k sd reports.
  Proof.
    intros (v0 & Hv0 & Hvt0) picks.
    destruct (@run_sync_blames P Pr f r sid parties ep h sk Hsk Hwire Hsig Hpl HR stops sd as_faults (ex_intro _ v0 (as_first Hv0 Hvt0)) picks) as (fuel0 & reports & E & Hk & H).
    exists fuel0, reports. split; auto. split; auto.
    assert (G : forall v, party v -> exists rep, get v reports = Some rep) by (intros v Hv; apply contains_get; now rewrite Hk). split.
    - destruct (G t (of_party HF)) as [rep Er]. exists rep. split; auto. apply blames_none. apply (H t rep Er).
    - intros v Hv Hvt. destruct (G v Hv) as [rep Er]. destruct (H v rep Er) as (H1 & H2 & H3). destruct (H3 (as_first Hv Hvt)) as [H4 H5].
      destruct (blames_t Hv Hvt H1 H5) as (ev & E1 & E2 & E3). exists rep, ev. split; auto. split; [|auto].
      destruct (rep_outcome rep) as [x| |]; auto; [|contradiction]. destruct H2 as [H2 _]. rewrite (stops_k Hvt) in H2. discriminate.
  Qed.
End Facts.
