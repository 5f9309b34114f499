(** Executions with faults of the two protocols of a chain, one after the other, are executions with faults of the chain. *)
From Coq Require Import List NArith Bool Arith Lia.
From Verif Require Import Base BMap Errors RoundId Message Protocol Transcript Evidence Session Spec SpecCrypto SpecEvidence SpecTyped Typed Simple Network SpecNet Chain SpecChain ChainFacts NetFacts
  RunSync RunSyncFacts SpecCompose ComposeFacts SpecCaught SpecFaults SpecChainFaults SignFacts LiftFacts FaultFacts.
Import ListNotations.
Set Implicit Arguments.

Section Compose.
  Context {P : Params}.
  Context (P1 P2 : Proto) (j : Join P1 P2).
  Context (f1 : St P1 -> Verifier -> DynMsg -> res RecvErr (Payload P1)).
  Context (f2 : St P2 -> Verifier -> DynMsg -> res RecvErr (Payload P2)).
  Notation C := (chain j).
  Variable r : NetRng.
  Variable sid : bytes.
  Variable parties : bset Verifier.
  Variable ep : Verifier -> EntryPoint P1.
  Variable tr : Verifier -> J j.
  Variable h1 : Plan (with_receive P1 f1).
  Variable h2 : Plan (with_receive P2 f2).
  Notation l1 := (pl_last h1).
  Notation h := (after j sid tr h1 h2).

  Lemma turn_first {A} n (f g : nat -> A) : n <= l1 -> in_turn h1 n f g = f n.
  Proof. intros H. unfold in_turn. apply Nat.leb_le in H. now rewrite H. Qed.
  Lemma turn_second {A} k (f g : nat -> A) : in_turn h1 (S l1 + k) f g = g k.
  Proof. unfold in_turn. destruct (Nat.leb_spec (S l1 + k) l1); [lia|]. f_equal. lia. Qed.
  Lemma cases n : n <= pl_last h -> n <= l1 \/ exists k, n = S l1 + k /\ k <= pl_last h2.
  Proof. cbn [pl_last after]. intros H. destruct (le_lt_dec n l1); [now left|]. right. exists (n - S l1). lia. Qed.

  Lemma echoes_first n v : n <= l1 -> echoes h n v = echoes h1 n v.
  Proof. intros H. unfold echoes. cbn [pl_part pl_echo after]. now rewrite !turn_first. Qed.
  Lemma echoes_second k v : echoes h (S l1 + k) v = echoes h2 k v.
  Proof. unfold echoes. cbn [pl_part pl_echo after]. now rewrite !turn_second. Qed.
  Lemma partners_first n v : n <= l1 -> partners h n v = partners h1 n v.
  Proof. intros H. unfold partners. cbn [pl_part pl_dest after]. now rewrite !turn_first. Qed.
  Lemma partners_second k v : partners h (S l1 + k) v = partners h2 k v.
  Proof. unfold partners. cbn [pl_part pl_dest after]. now rewrite !turn_second. Qed.
  Lemma echoed_first n v : n <= l1 -> echoed h n v = echoed h1 n v.
  Proof. intros H. unfold echoed. cbn [pl_part pl_from after]. now rewrite !turn_first. Qed.
  Lemma echoed_second k v : echoed h (S l1 + k) v = echoed h2 k v.
  Proof. unfold echoed. cbn [pl_part pl_from after]. now rewrite !turn_second. Qed.
  Lemma final_first n v : n <= l1 -> final_rid h n v = group_under (final_rid h1 n v) 1.
  Proof. intros H. unfold final_rid. rewrite echoes_first by auto. cbn [pl_rid after]. rewrite turn_first by auto. now destruct (echoes h1 n v). Qed.
  Lemma final_second k v : final_rid h (S l1 + k) v = group_under (final_rid h2 k v) 2.
  Proof. unfold final_rid. rewrite echoes_second. cbn [pl_rid after]. rewrite turn_second. now destruct (echoes h2 k v). Qed.

  Lemma entry_first n v : n <= l1 -> rsub 1 (entry_rng (rng1 r) h1 n v) = rsub 1 (entry_rng r h n v).
  Proof. intros H. destruct n as [|n]; [reflexivity|]. cbn [entry_rng]. rewrite final_first by lia. reflexivity. Qed.
  Lemma entry_second k v : rsub 1 (entry_rng (rng2 r h1) h2 k v) = rsub 1 (entry_rng r h (S l1 + k) v).
  Proof.
    destruct k as [|k].
    - replace (S l1 + 0) with (S l1) by lia. cbn [entry_rng]. rewrite final_first by lia. reflexivity.
    - replace (S l1 + S k) with (S (S l1 + k)) by lia. cbn [entry_rng]. rewrite final_second. reflexivity.
  Qed.

  Lemma unwrap_is' {A B} (i : B -> A) (m : bmap Verifier A) dom f : (forall x y, i x = i y -> x = y) -> is_map m dom (fun u => i (f u)) ->
    exists m', m = map_values i m' /\ is_map m' dom f.
  Proof.
    intros Hi H. destruct (@unwrap_map P _ _ i m) as [m' ->]; auto.
    - intros v x Hx. rewrite H in Hx. destruct (mem v dom); inv Hx. eauto.
    - exists m'. split; auto. intros u. specialize (H u). rewrite get_map_values in H. destruct (get u m'), (mem u dom); inv H; auto. f_equal. auto.
  Qed.

  Hypothesis H1 : lock_step (rng1 r) sid parties (fun v => ep_with f1 (ep v)) h1.
  Hypothesis H2 : lock_step (rng2 r h1) sid parties (fun v => ep_with f2 (second_entry j tr (pl_result h1 : Verifier -> Rslt P1) v)) h2.
  Hypothesis Hres : forall v, mem v parties = true -> ti_result (tinfo P1 (pl_state h1 l1 v)) = true.
  Hypothesis Hfirst : pl_rid h2 0 = j_entry j.

  Ltac sides n Hn := destruct (@cases n Hn) as [?Hf|(?k & -> & ?Hk)].
  Ltac simp := cbn [pl_rid pl_part pl_dest pl_from pl_state pl_echo pl_normal pl_direct pl_artifact pl_payload pl_result after] in *.

  Lemma joined_lock_step : lock_step r sid parties (fun v => ep_with (both (j := j) f1 f2) (chain_entry j (ep v) (tr v))) h.
  Proof.
    constructor.
    - intros n Hn. sides n Hn; simp; [rewrite turn_first by auto; now apply H1|rewrite turn_second; now apply H2].
    - intros n k Hn Hk. sides n Hn; sides k Hk; simp; rewrite ?turn_second, ?turn_first by auto; intros E.
      + apply group_under_inj in E as [E _]. now apply (hr_distinct H1).
      + now apply groups_differ in E.
      + symmetry in E. now apply groups_differ in E.
      + apply group_under_inj in E as [E _]. f_equal. now apply (hr_distinct H2).
    - intros n v Hn Hv. sides n Hn; simp; rewrite ?turn_second, ?turn_first by auto.
      + destruct (first_tinfo j v sid (tr v) (pl_state h1 n v)) as [E _]. etransitivity; [exact E|]. f_equal. now apply H1.
      + destruct (second_tinfo j (pl_state h2 k v)) as [E _]. etransitivity; [exact E|]. f_equal. now apply H2.
    - intros n v Hn Hv. pose proof (Nat.lt_le_incl _ _ Hn) as Hn'. sides n Hn'; simp.
      + rewrite (@turn_first (St C) n _ _ Hf). destruct (first_tinfo j v sid (tr v) (pl_state h1 n v)) as (_ & _ & _ & E & _). cbv beta in E. apply E.
        destruct (Nat.eq_dec n l1) as [->|Hne].
        * right. split; [now apply Hres|]. replace (S l1) with (S l1 + 0) by lia. rewrite turn_second. now rewrite Hfirst.
        * left. rewrite turn_first by lia. exists (pl_rid h1 (S n)). split; auto. apply (hr_next H1); auto. lia.
      + rewrite (@turn_second (St C) k). destruct (second_tinfo j (pl_state h2 k v)) as (_ & _ & _ & E & _). cbv beta in E. apply E.
        replace (S (S l1 + k)) with (S l1 + S k) by lia. rewrite turn_second. exists (pl_rid h2 (S k)). split; auto. apply (hr_next H2); auto.
        cbn [pl_last after] in Hn. lia.
    - intros n v Hn Hv. sides n Hn; simp; rewrite ?turn_second, ?turn_first by auto; [now apply (hr_comm H1)|now apply (hr_comm H2)].
    - intros n v u Hn Hv. sides n Hn; simp; rewrite ?turn_second, ?turn_first by auto; [now apply (hr_dest H1)|now apply (hr_dest H2)].
    - intros n v u Hn Hv. sides n Hn; simp; rewrite ?turn_second, ?turn_first by auto; [now apply (hr_from H1)|now apply (hr_from H2)].
    - intros n u v Hn Hu Hv. sides n Hn; simp; rewrite ?turn_second, ?turn_first by auto; [now apply (hr_agree H1)|now apply (hr_agree H2)].
    - intros n v u Hn Hv. sides n Hn.
      + rewrite !echoes_first, !partners_first by auto. now apply (hr_partners H1).
      + rewrite !echoes_second, !partners_second. now apply (hr_partners H2).
    - intros n v u w Hn Hv. sides n Hn; simp.
      + rewrite echoes_first, partners_first, echoed_first, !turn_first by auto. now apply (hr_echoed H1).
      + rewrite echoes_second, partners_second, echoed_second, !turn_second by auto. now apply (hr_echoed H2).
    - intros v Hv. simp. rewrite turn_first by lia. cbn [chain_entry ep_make]. pose proof (hr_make H1 v Hv) as E. change (ep_make (ep v) (rsub 0 (nr_new r v)) sid v = Ok (pl_state h1 0 v : St P1)) in E. cbn [ep_with ep_make chain_entry]. rewrite E. reflexivity.
    - intros n v Hn Hv. sides n Hn; simp; rewrite ?turn_second, ?turn_first by auto.
      + rewrite <- entry_first by auto. now apply (hr_mk_echo H1).
      + rewrite <- entry_second by auto. now apply (hr_mk_echo H2).
    - intros n v Hn Hv. sides n Hn; simp; rewrite ?turn_second, ?turn_first by auto.
      + rewrite <- entry_first by auto. now apply (hr_mk_normal H1).
      + rewrite <- entry_second by auto. now apply (hr_mk_normal H2).
    - intros n v u Hn Hv. sides n Hn; simp; rewrite ?turn_second, ?turn_first by auto; intros Hu.
      + pose proof (hr_mk_direct H1 n v u Hf Hv Hu) as E. cbn [rng1 nr_msg with_receive mk_direct] in E. cbn [mk_direct with_receive chain chain_direct]. rewrite E. reflexivity.
      + pose proof (hr_mk_direct H2 k v u Hk Hv Hu) as E. cbn [rng2 nr_msg with_receive mk_direct] in E. cbn [mk_direct with_receive chain chain_direct]. rewrite E. reflexivity.
    - intros n v u Hn Hv. sides n Hn; simp; rewrite ?turn_second, ?turn_first by auto; intros Hu.
      + pose proof (hr_receive H1 n v u Hf Hv Hu) as E. cbn [receive with_receive] in E. cbn [receive with_receive both]. rewrite E. reflexivity.
      + pose proof (hr_receive H2 k v u Hk Hv Hu) as E. cbn [receive with_receive] in E. cbn [receive with_receive both]. rewrite E. reflexivity.
    - intros n v ps arts Hn Hv Hps Harts. sides n Hn; simp.
      + assert (Kps : is_map ps (pl_from h1 n v) (fun u => (inl (pl_payload h1 n v u) : Payload C))) by (intros u; specialize (Hps u); now rewrite !turn_first in Hps by auto).
        assert (Karts : is_map arts (pl_dest h1 n v) (fun u => (inl (pl_artifact h1 n v u) : Artifact C))) by (intros u; specialize (Harts u); now rewrite !turn_first in Harts by auto).
        apply unwrap_is' in Kps as (ps' & -> & Kps); [|congruence]. apply unwrap_is' in Karts as (arts' & -> & Karts); [|congruence].
        rewrite turn_first by auto. pose proof (first_finalize j v sid (tr v) (pl_state h1 n v) (rsub 0 (nr_fin r v (final_rid h n v))) ps' arts') as F. cbv beta in F. etransitivity; [exact F|].
        rewrite final_first by auto. pose proof (hr_finalize H1 n v ps' arts' Hf Hv Kps Karts) as E.
        change (rsub 0 (nr_fin (rng1 r) v (final_rid h1 n v))) with (rsub 0 (rsub 0 (nr_fin r v (group_under (final_rid h1 n v) 1)))) in E. cbn [finalize with_receive] in E. rewrite E.
        destruct (Nat.ltb_spec n (pl_last h)) as [_|Hge]; [|cbn [pl_last after] in Hge; lia].
        destruct (Nat.ltb_spec n l1) as [Hlt|Hge].
        * rewrite turn_first by lia. reflexivity.
        * assert (n = l1) as -> by lia. pose proof (hr_make H2 v Hv) as M. cbn [second_entry ep_with ep_make] in M.
          change (rsub 0 (nr_new (rng2 r h1) v)) with (rsub 1 (rsub 0 (nr_fin r v (group_under (final_rid h1 l1 v) 1)))) in M. rewrite M.
          replace (S l1) with (S l1 + 0) by lia. now rewrite turn_second.
      + assert (Kps : is_map ps (pl_from h2 k v) (fun u => (inr (pl_payload h2 k v u) : Payload C))) by (intros u; specialize (Hps u); now rewrite !turn_second in Hps by auto).
        assert (Karts : is_map arts (pl_dest h2 k v) (fun u => (inr (pl_artifact h2 k v u) : Artifact C))) by (intros u; specialize (Harts u); now rewrite !turn_second in Harts by auto).
        apply unwrap_is' in Kps as (ps' & -> & Kps); [|congruence]. apply unwrap_is' in Karts as (arts' & -> & Karts); [|congruence].
        rewrite turn_second. pose proof (second_finalize j (pl_state h2 k v) (rsub 0 (nr_fin r v (final_rid h (S l1 + k) v))) ps' arts') as F. cbv beta in F. etransitivity; [exact F|].
        rewrite final_second. pose proof (hr_finalize H2 k v ps' arts' Hk Hv Kps Karts) as E. cbn [rng2 nr_fin finalize with_receive] in E. rewrite E. cbn [pl_last after].
        destruct (Nat.ltb_spec k (pl_last h2)) as [Hlt|Hge]; destruct (Nat.ltb_spec (S l1 + k) (S (l1 + pl_last h2))) as [Hlt'|Hge']; try lia; [|reflexivity].
        replace (S (S l1 + k)) with (S l1 + S k) by lia. now rewrite turn_second.
  Qed.

  Lemma joined_everybody : everybody parties h1 -> everybody parties h2 -> everybody parties h.
  Proof.
    intros [A1 E1] [A2 E2]. split.
    - intros n v Hn Hv. sides n Hn; simp; rewrite ?turn_second, ?turn_first by auto; [now apply A1|now apply A2].
    - intros n v Hn Hv. sides n Hn; simp.
      + rewrite turn_first by auto. destruct (@E1 n v Hf Hv) as [F1 F2]. split; auto. intros u Hu. rewrite !turn_first by auto. now apply F2.
      + rewrite turn_second by auto. destruct (@E2 k v Hk Hv) as [F1 F2]. split; auto. intros u Hu. rewrite !turn_second by auto. now apply F2.
  Qed.
  Variable sd1 : Shared P1.
  Variable sd2 : Shared P2.
  Notation sd := ((sd1, sd2) : Shared C).
  Variable stop1 stop2 : Verifier -> option nat.

  Lemma first_verdict k v u : k <= l1 -> verdict h k v u = let* p := map_err (re_group_under 1) (verdict h1 k v u) in Ok (inl p : Payload C).
  Proof. intros Hk. unfold verdict. simp. rewrite !turn_first by auto. reflexivity. Qed.
  Lemma second_verdict k v u : verdict h (S l1 + k) v u = let* p := map_err (re_group_under 2) (verdict h2 k v u) in Ok (inr p : Payload C).
  Proof. unfold verdict. simp. rewrite !turn_second by auto. reflexivity. Qed.

  Lemma info_lifts {Sh} (part : Shared P1 * Shared P2 -> Sh) g ri rid :
    (forall b, ri_direct (chain_info P1 P2 g part ri) b = ri_direct ri b) /\ (forall b, ri_echo (chain_info P1 P2 g part ri) b = ri_echo ri b) /\
    (forall b, ri_normal (chain_info P1 P2 g part ri) b = ri_normal ri b) /\
    forall err v m prev comb prev' comb', regrouped g prev prev' -> regrouped g comb comb' -> ri_verify ri rid err v sid (part sd) m prev' comb' = Ok tt ->
      ri_verify (chain_info P1 P2 g part ri) (group_under rid g) err v sid sd m prev comb = Ok tt.
  Proof.
    split; [reflexivity|]. split; [reflexivity|]. split; [reflexivity|]. intros err v m prev comb prev' comb' G1 G2 H.
    apply (proj2 (@chain_info_accepts P P1 P2 Sh g part ri rid err v sid sd m prev comb)). exists prev', comb'. auto.
  Qed.

  Lemma first_turned k t v : k <= l1 -> turned_down sid h1 t k sd1 v -> turned_down sid h t k sd v.
  Proof.
    intros Hk. change k with (0 + k) at 2. apply (@lift_turned P P1 C f1 (both (j := j) f1 f2) h1 h 1 0 k (inl : Payload P1 -> Payload C)); simp; cbn [Nat.add];
      try (intros; rewrite !turn_first by lia; reflexivity).
    - intros n x Hn _. lia.
    - intros i v' Hi. now apply echoes_first; lia.
    - intros i v' Hi. now apply partners_first; lia.
    - intros rid ri Hri. exists (chain_info P1 P2 1 fst ri). split; [apply chain_info_some; left; eauto|]. apply (@info_lifts _ fst).
  Qed.
  Lemma second_turned k t v : k <= pl_last h2 -> turned_down sid h2 t k sd2 v -> turned_down sid h t (S l1 + k) sd v.
  Proof.
    intros Hk. apply (@lift_turned P P2 C f2 (both (j := j) f1 f2) h2 h 2 (S l1) k (inr : Payload P2 -> Payload C)); simp;
      try (intros; rewrite !turn_second by lia; reflexivity).
    - intros n x Hn E. destruct (le_lt_dec n l1) as [Hl|]; [|lia]. rewrite turn_first in E by auto. now apply groups_differ in E.
    - intros i v' Hi. now apply echoes_second; lia.
    - intros i v' Hi. now apply partners_second; lia.
    - intros rid ri Hri. exists (chain_info P1 P2 2 snd ri). split; [apply chain_info_some; right; eauto|]. apply (@info_lifts _ snd).
  Qed.

  Lemma after_faults : faults sid parties h1 stop1 sd1 -> faults sid parties h2 stop2 sd2 -> faults sid parties h (stop_after h1 stop1 stop2) sd.
  Proof.
    intros F1 F2. unfold stop_after. constructor.
    - intros n v u Hn Hv Hu Hs. sides n Hn; simp.
      + rewrite first_verdict by auto. rewrite turn_first in Hu by auto. rewrite ?turn_first by auto. rewrite (fl_before F1); [reflexivity|auto..]. destruct (stop1 v); auto.
      + rewrite second_verdict. rewrite turn_second in Hu. rewrite ?turn_second. destruct (stop1 v) as [i|] eqn:Ei.
        * pose proof (proj1 (fl_stop F1 v Hv Ei)). lia.
        * rewrite (fl_before F2); [reflexivity|auto..]. destruct (stop2 v); auto. cbn [option_map] in Hs. lia.
    - intros v k Hv Hs. destruct (stop1 v) as [i|] eqn:Ei.
      + inv Hs. destruct (fl_stop F1 v Hv Ei) as (Hk & u & Hu & Ha). split; [cbn [pl_last after]; lia|]. exists u. simp. rewrite turn_first by auto. split; auto.
        unfold accepted in *. rewrite first_verdict by auto. destruct (verdict h1 k v u); auto; discriminate Ha.
      + destruct (stop2 v) as [i|] eqn:Ei2; [|discriminate Hs]. inv Hs. destruct (fl_stop F2 v Hv Ei2) as (Hk & u & Hu & Ha). split; [cbn [pl_last after]; lia|].
        exists u. change (S (l1 + i)) with (S l1 + i). simp. rewrite turn_second by auto. split; auto.
        unfold accepted in *. rewrite second_verdict by auto. destruct (verdict h2 i v u); auto; discriminate Ha.
    - intros v k u Hv Hs Hu. destruct (stop1 v) as [i|] eqn:Ei.
      + inv Hs. destruct (fl_stop F1 v Hv Ei) as (Hk & _). rewrite first_verdict by auto. simp. rewrite turn_first in Hu by auto. rewrite ?turn_first by auto.
        destruct (fl_at F1 v u Hv Ei Hu) as [E|[E|[e E]]]; [left; now rewrite E|right; left; now apply first_turned|right; right; exists e; now rewrite E].
      + destruct (stop2 v) as [i|] eqn:Ei2; [|discriminate Hs]. inv Hs. destruct (fl_stop F2 v Hv Ei2) as (Hk & _). change (S (l1 + i)) with (S l1 + i) in *.
        rewrite second_verdict by auto. simp. rewrite turn_second in Hu. rewrite ?turn_second.
        destruct (fl_at F2 v u Hv Ei2 Hu) as [E|[E|[e E]]]; [left; now rewrite E|right; left; now apply second_turned|right; right; exists e; now rewrite E].
  Qed.
  Lemma after_honest : everybody parties h1 -> everybody parties h2 -> honest_run r sid parties (fun v => ep_with (both (j := j) f1 f2) (chain_entry j (ep v) (tr v))) h.
  Proof. intros E1 E2. split; [apply joined_lock_step|]. destruct (joined_everybody E1 E2) as [A E]. apply (all_to_all_shape A E). Qed.
End Compose.

Lemma chain_faults : forall (P : Params) (P1 P2 : Proto) (j : Join P1 P2) f1 f2 r sid parties (ep : Verifier -> EntryPoint P1) (tr : Verifier -> J j)
    (h1 : Plan (with_receive P1 f1)) (h2 : Plan (with_receive P2 f2)),
  lock_step (rng1 r) sid parties (fun v => ep_with f1 (ep v)) h1 ->
  lock_step (rng2 r h1) sid parties (fun v => ep_with f2 (second_entry j tr (pl_result h1 : Verifier -> Rslt P1) v)) h2 ->
  (forall v, mem v parties = true -> ti_result (tinfo P1 (pl_state h1 (pl_last h1) v)) = true) -> pl_rid h2 0 = j_entry j ->
  lock_step r sid parties (fun v => ep_with (both (j := j) f1 f2) (chain_entry j (ep v) (tr v))) (after j sid tr h1 h2) /\
  (everybody parties h1 -> everybody parties h2 -> everybody parties (after j sid tr h1 h2)) /\
  forall stop1 stop2 sd1 sd2, faults sid parties h1 stop1 sd1 -> faults sid parties h2 stop2 sd2 ->
    faults sid parties (after j sid tr h1 h2) (stop_after h1 stop1 stop2) ((sd1, sd2) : Shared (chain j)).
Proof.
  intros. split; [now apply joined_lock_step|]. split; [now apply joined_everybody|]. intros. now apply after_faults.
Qed.
Lemma chain_net_blames : forall (P : Params) (P1 P2 : Proto) (j : Join P1 P2) f1 f2 r sid parties (ep : Verifier -> EntryPoint P1) (tr : Verifier -> J j)
    (h1 : Plan (with_receive P1 f1)) (h2 : Plan (with_receive P2 f2)) sk,
  signers parties sk -> wire_total P -> signatures_correct P -> plain_ids P1 -> plain_ids P2 ->
  lock_step (rng1 r) sid parties (fun v => ep_with f1 (ep v)) h1 ->
  lock_step (rng2 r h1) sid parties (fun v => ep_with f2 (second_entry j tr (pl_result h1 : Verifier -> Rslt P1) v)) h2 ->
  (forall v, mem v parties = true -> ti_result (tinfo P1 (pl_state h1 (pl_last h1) v)) = true) -> pl_rid h2 0 = j_entry j ->
  everybody parties h1 -> everybody parties h2 ->
  forall stop1 stop2 sd1 sd2, faults sid parties h1 stop1 sd1 -> faults sid parties h2 stop2 sd2 ->
  let h := after j sid tr h1 h2 in let stop := stop_after h1 stop1 stop2 in let sd : Shared (chain j) := (sd1, sd2) in
  exists net0, honest_net r sid parties sk (fun v => chain_entry j (ep v) (tr v)) = Ok net0 /\
    forall xs net, schedule r net0 xs net ->
      (forall x o, act r net x = Some o -> exists net', o = Ok net') /\
      (forall c : nat -> Net (chain j), c 0 = net -> ~ forall i, exists x, act r (c i) x = Some (Ok (c (S i)))) /\
      (forall v, mem v parties = true -> exists nd, get v (nodes net) = Some nd /\ node_right sid h stop sd v nd) /\
      ((forall x, act r net x = None) -> first_are_done parties h stop net).
Proof.
  intros P P1 P2 j f1 f2 r sid parties ep tr h1 h2 sk Hsk Hw Hs N1 N2 L1 L2 Hr Hf E1 E2 stop1 stop2 sd1 sd2 F1 F2 h stop sd.
  exact (@net_blames P (chain j) (both (j := j) f1 f2) r sid parties (fun v => chain_entry j (ep v) (tr v)) h sk Hsk Hw Hs (chain_plain N1 N2)
    (after_honest ep L1 L2 Hr Hf E1 E2) stop sd (after_faults j tr F1 F2)).
Qed.
