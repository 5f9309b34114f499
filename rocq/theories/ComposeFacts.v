(** Executions of the two protocols of a chain, one after the other, are an execution of the chain. *)
From Coq Require Import List NArith Bool Arith Lia.
From Verif Require Import Base BMap Errors RoundId Message Protocol Transcript Evidence Session Spec SpecCrypto SpecEvidence SpecTyped Typed Simple Network SpecNet Chain SpecChain ChainFacts NetFacts
  RunSync RunSyncFacts Driver Par Async SpecAsync AsyncNetFacts Offload SpecOffload OffloadNetFacts SpecCompose SignFacts.
Import ListNotations.
Set Implicit Arguments.

Section Compose.
  Context {P : Params}.
  Context (P1 P2 : Proto) (j : Join P1 P2).
  Notation C := (chain j).
  Variable r : NetRng.
  Variable sid : bytes.
  Variable parties : bset Verifier.
  Variable ep : Verifier -> EntryPoint P1.
  Variable tr : Verifier -> J j.

  Variable h1 : Plan P1.
  Variable h2 : Plan P2.
  Notation l1 := (pl_last h1).

  Definition pick {A} (n : nat) (f g : nat -> A) : A := if Nat.leb n l1 then f n else g (n - S l1).
  Definition joined_plan : Plan C := @mkPlan P C (S (l1 + pl_last h2))
    (fun n => pick n (fun k => group_under (pl_rid h1 k) 1) (fun k => group_under (pl_rid h2 k) 2))
    (fun n v => pick n (fun k => pl_part h1 k v) (fun k => pl_part h2 k v))
    (fun n v => pick n (fun k => pl_dest h1 k v) (fun k => pl_dest h2 k v))
    (fun n v => pick n (fun k => pl_from h1 k v) (fun k => pl_from h2 k v))
    (fun n v => pick n (fun k => (Chain1 j v (pl_state h1 k v) sid (tr v) : St C)) (fun k => (Chain2 j (pl_state h2 k v) : St C)))
    (fun n v => pick n (fun k => pl_echo h1 k v) (fun k => pl_echo h2 k v))
    (fun n v => pick n (fun k => pl_normal h1 k v) (fun k => pl_normal h2 k v))
    (fun n v u => pick n (fun k => pl_direct h1 k v u) (fun k => pl_direct h2 k v u))
    (fun n v u => pick n (fun k => (inl (pl_artifact h1 k v u) : Artifact C)) (fun k => (inr (pl_artifact h2 k v u) : Artifact C)))
    (fun n v u => pick n (fun k => (inl (pl_payload h1 k v u) : Payload C)) (fun k => (inr (pl_payload h2 k v u) : Payload C)))
    (pl_result h2).
  Notation h := joined_plan.

  Lemma pick_first {A} n (f g : nat -> A) : n <= l1 -> pick n f g = f n.
  Proof. intros H. unfold pick. apply Nat.leb_le in H. now rewrite H. Qed.
  Lemma pick_second {A} k (f g : nat -> A) : pick (S l1 + k) f g = g k.
  Proof. unfold pick. destruct (Nat.leb_spec (S l1 + k) l1); [lia|]. f_equal. lia. Qed.
  Lemma cases n : n <= pl_last h -> n <= l1 \/ exists k, n = S l1 + k /\ k <= pl_last h2.
  Proof. cbn [pl_last joined_plan]. intros H. destruct (le_lt_dec n l1); [now left|]. right. exists (n - S l1). lia. Qed.

  Lemma echoes_first n v : n <= l1 -> echoes h n v = echoes h1 n v.
  Proof. intros H. unfold echoes. cbn [pl_part pl_echo joined_plan]. now rewrite !pick_first. Qed.
  Lemma echoes_second k v : echoes h (S l1 + k) v = echoes h2 k v.
  Proof. unfold echoes. cbn [pl_part pl_echo joined_plan]. now rewrite !pick_second. Qed.
  Lemma partners_first n v : n <= l1 -> partners h n v = partners h1 n v.
  Proof. intros H. unfold partners. cbn [pl_part pl_dest joined_plan]. now rewrite !pick_first. Qed.
  Lemma partners_second k v : partners h (S l1 + k) v = partners h2 k v.
  Proof. unfold partners. cbn [pl_part pl_dest joined_plan]. now rewrite !pick_second. Qed.
  Lemma echoed_first n v : n <= l1 -> echoed h n v = echoed h1 n v.
  Proof. intros H. unfold echoed. cbn [pl_part pl_from joined_plan]. now rewrite !pick_first. Qed.
  Lemma echoed_second k v : echoed h (S l1 + k) v = echoed h2 k v.
  Proof. unfold echoed. cbn [pl_part pl_from joined_plan]. now rewrite !pick_second. Qed.
  Lemma final_first n v : n <= l1 -> final_rid h n v = group_under (final_rid h1 n v) 1.
  Proof. intros H. unfold final_rid. rewrite echoes_first by auto. cbn [pl_rid joined_plan]. rewrite pick_first by auto. now destruct (echoes h1 n v). Qed.
  Lemma final_second k v : final_rid h (S l1 + k) v = group_under (final_rid h2 k v) 2.
  Proof. unfold final_rid. rewrite echoes_second. cbn [pl_rid joined_plan]. rewrite pick_second. now destruct (echoes h2 k v). Qed.

  Lemma entry_first n v : n <= l1 -> rsub 1 (entry_rng (rng1 r) h1 n v) = rsub 1 (entry_rng r h n v).
  Proof. intros H. destruct n as [|n]; [reflexivity|]. cbn [entry_rng]. rewrite final_first by lia. reflexivity. Qed.
  Lemma entry_second k v : rsub 1 (entry_rng (rng2 r h1) h2 k v) = rsub 1 (entry_rng r h (S l1 + k) v).
  Proof.
    destruct k as [|k].
    - replace (S l1 + 0) with (S l1) by lia. cbn [entry_rng]. rewrite final_first by lia. reflexivity.
    - replace (S l1 + S k) with (S (S l1 + k)) by lia. cbn [entry_rng]. rewrite final_second. reflexivity.
  Qed.

  Lemma unwrap_is {A B} (i : B -> A) (m : bmap Verifier A) dom f : (forall x y, i x = i y -> x = y) -> is_map m dom (fun u => i (f u)) ->
    exists m', m = map_values i m' /\ is_map m' dom f.
  Proof.
    intros Hi H. destruct (@unwrap_map P _ _ i m) as [m' ->]; auto.
    - intros v x Hx. rewrite H in Hx. destruct (mem v dom); inv Hx. eauto.
    - exists m'. split; auto. intros u. specialize (H u). rewrite get_map_values in H. destruct (get u m'), (mem u dom); inv H; auto. f_equal. auto.
  Qed.

  Hypothesis H1 : lock_step (rng1 r) sid parties ep h1.
  Hypothesis H2 : lock_step (rng2 r h1) sid parties (second_entry j tr (pl_result h1)) h2.
  Hypothesis Hres : forall v, mem v parties = true -> ti_result (tinfo P1 (pl_state h1 l1 v)) = true.
  Hypothesis Hfirst : pl_rid h2 0 = j_entry j.

  Ltac sides n Hn := destruct (@cases n Hn) as [?Hf|(?k & -> & ?Hk)].
  Ltac simp := cbn [pl_rid pl_part pl_dest pl_from pl_state pl_echo pl_normal pl_direct pl_artifact pl_payload pl_result joined_plan] in *.

  Lemma joined_lock_step : lock_step r sid parties (fun v => chain_entry j (ep v) (tr v)) h.
  Proof.
    constructor.
    - intros n Hn. sides n Hn; simp; [rewrite pick_first by auto; now apply H1|rewrite pick_second; now apply H2].
    - intros n k Hn Hk. sides n Hn; sides k Hk; simp; rewrite ?pick_second, ?pick_first by auto; intros E.
      + apply group_under_inj in E as [E _]. now apply (hr_distinct H1).
      + now apply groups_differ in E.
      + symmetry in E. now apply groups_differ in E.
      + apply group_under_inj in E as [E _]. f_equal. now apply (hr_distinct H2).
    - intros n v Hn Hv. sides n Hn; simp; rewrite ?pick_second, ?pick_first by auto.
      + destruct (first_tinfo j v sid (tr v) (pl_state h1 n v)) as [E _]. cbv beta in E. rewrite E. f_equal. now apply H1.
      + destruct (second_tinfo j (pl_state h2 k v)) as [E _]. cbv beta in E. rewrite E. f_equal. now apply H2.
    - intros n v Hn Hv. pose proof (Nat.lt_le_incl _ _ Hn) as Hn'. sides n Hn'; simp.
      + rewrite (@pick_first (St C) n _ _ Hf). destruct (first_tinfo j v sid (tr v) (pl_state h1 n v)) as (_ & _ & _ & E & _). cbv beta in E. apply E.
        destruct (Nat.eq_dec n l1) as [->|Hne].
        * right. split; [now apply Hres|]. replace (S l1) with (S l1 + 0) by lia. rewrite pick_second. now rewrite Hfirst.
        * left. rewrite pick_first by lia. exists (pl_rid h1 (S n)). split; auto. apply (hr_next H1); auto. lia.
      + rewrite (@pick_second (St C) k). destruct (second_tinfo j (pl_state h2 k v)) as (_ & _ & _ & E & _). cbv beta in E. apply E.
        replace (S (S l1 + k)) with (S l1 + S k) by lia. rewrite pick_second. exists (pl_rid h2 (S k)). split; auto. apply (hr_next H2); auto.
        cbn [pl_last joined_plan] in Hn. lia.
    - intros n v Hn Hv. sides n Hn; simp; rewrite ?pick_second, ?pick_first by auto; [now apply (hr_comm H1)|now apply (hr_comm H2)].
    - intros n v u Hn Hv. sides n Hn; simp; rewrite ?pick_second, ?pick_first by auto; [now apply (hr_dest H1)|now apply (hr_dest H2)].
    - intros n v u Hn Hv. sides n Hn; simp; rewrite ?pick_second, ?pick_first by auto; [now apply (hr_from H1)|now apply (hr_from H2)].
    - intros n u v Hn Hu Hv. sides n Hn; simp; rewrite ?pick_second, ?pick_first by auto; [now apply (hr_agree H1)|now apply (hr_agree H2)].
    - intros n v u Hn Hv. sides n Hn.
      + rewrite !echoes_first, !partners_first by auto. now apply (hr_partners H1).
      + rewrite !echoes_second, !partners_second. now apply (hr_partners H2).
    - intros n v u w Hn Hv. sides n Hn; simp.
      + rewrite echoes_first, partners_first, echoed_first, !pick_first by auto. now apply (hr_echoed H1).
      + rewrite echoes_second, partners_second, echoed_second, !pick_second by auto. now apply (hr_echoed H2).
    - intros v Hv. simp. rewrite pick_first by lia. cbn [chain_entry ep_make]. pose proof (hr_make H1 v Hv) as E. cbn [rng1 nr_new] in E. rewrite E. reflexivity.
    - intros n v Hn Hv. sides n Hn; simp; rewrite ?pick_second, ?pick_first by auto.
      + rewrite <- entry_first by auto. now apply (hr_mk_echo H1).
      + rewrite <- entry_second by auto. now apply (hr_mk_echo H2).
    - intros n v Hn Hv. sides n Hn; simp; rewrite ?pick_second, ?pick_first by auto.
      + rewrite <- entry_first by auto. now apply (hr_mk_normal H1).
      + rewrite <- entry_second by auto. now apply (hr_mk_normal H2).
    - intros n v u Hn Hv. sides n Hn; simp; rewrite ?pick_second, ?pick_first by auto; intros Hu.
      + pose proof (hr_mk_direct H1 n v u Hf Hv Hu) as E. cbn [rng1 nr_msg] in E. cbn [mk_direct chain chain_direct]. rewrite E. reflexivity.
      + pose proof (hr_mk_direct H2 k v u Hk Hv Hu) as E. cbn [rng2 nr_msg] in E. cbn [mk_direct chain chain_direct]. rewrite E. reflexivity.
    - intros n v u Hn Hv. sides n Hn; simp; rewrite ?pick_second, ?pick_first by auto; intros Hu.
      + pose proof (hr_receive H1 n v u Hf Hv Hu) as E. cbn [receive chain chain_receive]. rewrite E. reflexivity.
      + pose proof (hr_receive H2 k v u Hk Hv Hu) as E. cbn [receive chain chain_receive]. rewrite E. reflexivity.
    - intros n v ps arts Hn Hv Hps Harts. sides n Hn; simp.
      + assert (Kps : is_map ps (pl_from h1 n v) (fun u => (inl (pl_payload h1 n v u) : Payload C))) by (intros u; specialize (Hps u); now rewrite !pick_first in Hps by auto).
        assert (Karts : is_map arts (pl_dest h1 n v) (fun u => (inl (pl_artifact h1 n v u) : Artifact C))) by (intros u; specialize (Harts u); now rewrite !pick_first in Harts by auto).
        apply unwrap_is in Kps as (ps' & -> & Kps); [|congruence]. apply unwrap_is in Karts as (arts' & -> & Karts); [|congruence].
        rewrite pick_first by auto. pose proof (first_finalize j v sid (tr v) (pl_state h1 n v) (rsub 0 (nr_fin r v (final_rid h n v))) ps' arts') as F. cbv beta in F. rewrite F.
        rewrite final_first by auto. pose proof (hr_finalize H1 n v ps' arts' Hf Hv Kps Karts) as E.
        change (rsub 0 (nr_fin (rng1 r) v (final_rid h1 n v))) with (rsub 0 (rsub 0 (nr_fin r v (group_under (final_rid h1 n v) 1)))) in E. rewrite E.
        destruct (Nat.ltb_spec n (pl_last h)) as [_|Hge]; [|cbn [pl_last joined_plan] in Hge; lia].
        destruct (Nat.ltb_spec n l1) as [Hlt|Hge].
        * rewrite pick_first by lia. reflexivity.
        * assert (n = l1) as -> by lia. pose proof (hr_make H2 v Hv) as M. cbn [second_entry ep_make] in M.
          change (rsub 0 (nr_new (rng2 r h1) v)) with (rsub 1 (rsub 0 (nr_fin r v (group_under (final_rid h1 l1 v) 1)))) in M. rewrite M.
          replace (S l1) with (S l1 + 0) by lia. now rewrite pick_second.
      + assert (Kps : is_map ps (pl_from h2 k v) (fun u => (inr (pl_payload h2 k v u) : Payload C))) by (intros u; specialize (Hps u); now rewrite !pick_second in Hps by auto).
        assert (Karts : is_map arts (pl_dest h2 k v) (fun u => (inr (pl_artifact h2 k v u) : Artifact C))) by (intros u; specialize (Harts u); now rewrite !pick_second in Harts by auto).
        apply unwrap_is in Kps as (ps' & -> & Kps); [|congruence]. apply unwrap_is in Karts as (arts' & -> & Karts); [|congruence].
        rewrite pick_second. pose proof (second_finalize j (pl_state h2 k v) (rsub 0 (nr_fin r v (final_rid h (S l1 + k) v))) ps' arts') as F. cbv beta in F. rewrite F.
        rewrite final_second. pose proof (hr_finalize H2 k v ps' arts' Hk Hv Kps Karts) as E. cbn [rng2 nr_fin] in E. rewrite E. cbn [pl_last joined_plan].
        destruct (Nat.ltb_spec k (pl_last h2)) as [Hlt|Hge]; destruct (Nat.ltb_spec (S l1 + k) (S (l1 + pl_last h2))) as [Hlt'|Hge']; try lia; [|reflexivity].
        replace (S (S l1 + k)) with (S l1 + S k) by lia. now rewrite pick_second.
  Qed.

  Lemma joined_everybody : everybody parties h1 -> everybody parties h2 -> everybody parties h.
  Proof.
    intros [A1 E1] [A2 E2]. split.
    - intros n v Hn Hv. sides n Hn; simp; rewrite ?pick_second, ?pick_first by auto; [now apply A1|now apply A2].
    - intros n v Hn Hv. sides n Hn; simp.
      + rewrite pick_first by auto. destruct (@E1 n v Hf Hv) as [F1 F2]. split; auto. intros u Hu. rewrite !pick_first by auto. now apply F2.
      + rewrite pick_second by auto. destruct (@E2 k v Hk Hv) as [F1 F2]. split; auto. intros u Hu. rewrite !pick_second by auto. now apply F2.
  Qed.
  Lemma joined_ends v : ti_result (tinfo C (pl_state h (pl_last h) v)) = ti_result (tinfo P2 (pl_state h2 (pl_last h2) v)).
  Proof. simp. change (pl_last h) with (S l1 + pl_last h2). rewrite pick_second. reflexivity. Qed.
  Lemma joined_starts : pl_rid h 0 = group_under (pl_rid h1 0) 1.
  Proof. simp. now rewrite pick_first by lia. Qed.
End Compose.

Lemma chain_executes {P : Params} (P1 P2 : Proto) (j : Join P1 P2) sid parties (ep : Verifier -> EntryPoint P1) (tr : Verifier -> J j) first R1 R2 :
  executes_well (fun _ => True) sid parties ep first R1 ->
  (forall res, R1 res -> executes_well (fun _ => True) sid parties (second_entry j tr res) (j_entry j) R2) ->
  executes_well (fun _ => True) sid parties (fun v => chain_entry j (ep v) (tr v)) (group_under first 1) R2.
Proof.
  intros E1 E2 r. destruct (E1 (rng1 r)) as (h1 & L1 & _ & F1 & T1 & Q1). destruct (E2 _ Q1 (rng2 r h1)) as (h2 & L2 & _ & F2 & T2 & Q2).
  exists (joined_plan j sid tr h1 h2). split; [now apply joined_lock_step|]. split; auto. rewrite joined_starts, F1. split; auto. split; auto.
  intros v Hv. rewrite joined_ends. auto.
Qed.
Lemma chain_succeeds {P : Params} (P1 P2 : Proto) (j : Join P1 P2) sid parties (ep : Verifier -> EntryPoint P1) (tr : Verifier -> J j) first R1 R2 :
  executes_well (everybody parties) sid parties ep first R1 ->
  (forall res, R1 res -> executes_well (everybody parties) sid parties (second_entry j tr res) (j_entry j) R2) ->
  executes_well (everybody parties) sid parties (fun v => chain_entry j (ep v) (tr v)) (group_under first 1) R2.
Proof.
  intros E1 E2 r. destruct (E1 (rng1 r)) as (h1 & L1 & A1 & F1 & T1 & Q1). destruct (E2 _ Q1 (rng2 r h1)) as (h2 & L2 & A2 & F2 & T2 & Q2).
  exists (joined_plan j sid tr h1 h2). split; [now apply joined_lock_step|]. split; [now apply joined_everybody|]. rewrite joined_starts, F1. split; auto. split; auto.
  intros v Hv. rewrite joined_ends. auto.
Qed.

Section Drivers.
  Context {P : Params}.
  Context {Pr : Proto}.
  Variable sid : bytes.
  Variable parties : bset Verifier.
  Variable sk : Verifier -> Signer.
  Variable ep : Verifier -> EntryPoint Pr.
  Variable first : RoundId.
  Variable R : (Verifier -> Rslt Pr) -> Prop.
  Hypothesis Hsk : signers parties sk.
  Hypothesis Hwire : wire_total P.
  Hypothesis Hsig : signatures_correct P.
  Hypothesis HE : executes_well (everybody parties) sid parties ep first R.

  Lemma well_honest r : exists h, honest_run r sid parties ep h /\ everybody parties h /\ R (pl_result h).
  Proof. destruct (HE r) as (h & L & [A E] & _ & _ & Q). exists h. split; [split; [exact L|apply (all_to_all_shape A E)]|]. split; [split; auto|auto]. Qed.
  Lemma all_good h reports : R (pl_result h) -> all_reports parties h reports -> good_reports parties R reports.
  Proof. intros Q [A1 A2]. exists (pl_result h). auto. Qed.
  Lemma well_sync r : 2 <= length (elements parties) -> run_sync_completes r sid parties sk ep R.
  Proof.
    intros Hn picks. destruct (well_honest r) as (h & HR & [A E] & Q).
    destruct (RunSyncFacts.run_sync_completes Hsk Hwire Hsig HR picks) as (fuel0 & reports & results & H1 & H2 & H3 & _).
    - destruct (elements parties) as [|v [|u l]] eqn:El; [simpl in Hn; lia|simpl in Hn; lia|]. exists 0, v, u. split; [lia|].
      assert (Hv : mem v parties = true) by (apply in_elements; rewrite El; now left). split; [exact Hv|]. left. destruct (@A 0 v (Nat.le_0_l _) Hv) as [-> _].
      rewrite mem_rem. pose proof (NoDup_elements parties) as Hnd. rewrite El in Hnd.
      apply NoDup_cons_iff in Hnd as [Hni _]. rewrite (proj2 (eqb_neq u v)); [|intros ->; apply Hni; now left]. simpl. apply in_elements. rewrite El. right. now left.
    - exists fuel0, reports. split; auto. exists (pl_result h). split; [exact Q|]. split; [exact H2|]. intros v Hv. destruct (H3 v Hv) as (rep & G & O & N1 & N2 & N3). exists rep. split; auto. split; auto. repeat split; auto.
  Qed.
  Lemma well_async r : length (elements parties) <= 51 -> run_async_completes r sid parties sk ep R.
  Proof.
    intros Hn. destruct (well_honest r) as (h & HR & _ & Q).
    destruct (@honest_async P Pr r sid parties ep h sk 100 Hsk Hwire Hsig HR ltac:(lia) ltac:(lia)) as (a0 & E & H & F). exists a0. split; auto. split; auto.
    intros tr a Ha. destruct (H tr a Ha) as [K1 K2]. split; auto. intros o Ho. destruct (K1 o Ho) as (reports & -> & K). exists reports. split; auto. eapply all_good; eauto.
  Qed.
  Lemma well_offload r : length (elements parties) <= 51 -> run_async_offload_completes r sid parties sk ep R.
  Proof.
    intros Hn. destruct (well_honest r) as (h & HR & _ & Q).
    destruct (@honest_offload P Pr r sid parties ep h sk 100 Hsk Hwire Hsig HR ltac:(lia) ltac:(lia) ltac:(lia)) as (a0 & E & H & F). exists a0. split; auto. split; auto.
    intros tr a Ha. destruct (H tr a Ha) as [K1 K2]. split; auto. intros o Ho. destruct (K1 o Ho) as (reports & -> & K). exists reports. split; auto. eapply all_good; eauto.
  Qed.
End Drivers.
