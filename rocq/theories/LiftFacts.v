(** What is turned down in a part of a chain is turned down in the chain. *)
From Coq Require Import List NArith Bool Arith Lia.
From Verif Require Import Base BMap Errors RoundId Message Protocol Transcript Evidence Session Spec SpecCrypto SpecEvidence SpecTyped Typed Simple Network SpecNet Chain SpecChain ChainFacts
  SignFacts TypedFacts SpecCaught SpecFaults.
Import ListNotations.
Set Implicit Arguments.

Lemma regroup_exists {V} g (m : bmap RoundId V) : (forall rid, contains rid m = true -> exists r', rid = group_under r' g) -> exists m', regrouped g m m'.
Proof.
  intros H. assert (E : exists l, map_res (fun kv : RoundId * V => let* r := ungroup g (fst kv) in Ok (r, snd kv)) (to_list m) = Ok l).
  { apply map_res_total. intros [rid x] Hin. apply in_to_list in Hin. destruct (H rid) as [r' ->]; [apply contains_get; eauto|]. cbn [fst snd]. rewrite ungroup_under. cbn [bind]. eauto. }
  destruct E as [l E]. exists (of_list l). apply regroup_get. unfold ungroup_map. rewrite E. reflexivity.
Qed.

Section Lift.
  Context {P : Params}.
  Context {Q C : Proto}.
  Context {fq : St Q -> Verifier -> DynMsg -> res RecvErr (Payload Q)} {fc : St C -> Verifier -> DynMsg -> res RecvErr (Payload C)}.
  Variable hq : Plan (with_receive Q fq).
  Variable h : Plan (with_receive C fc).
  Variable g : N.
  Variable o k : nat.
  Variable inj : Payload Q -> Payload C.
  Variable sid : bytes.
  Variable sdq : Shared Q.
  Variable sd : Shared C.
  Hypothesis Srid : forall i, i <= k -> pl_rid h (o + i) = group_under (pl_rid hq i) g.
  Hypothesis Slow : forall n x, n < o + k -> pl_rid h n = group_under x g -> o <= n.
  Hypothesis Sfrom : forall i v, i <= k -> pl_from h (o + i) v = pl_from hq i v.
  Hypothesis Secho : forall i v, i <= k -> pl_echo h (o + i) v = pl_echo hq i v.
  Hypothesis Snormal : forall i v, i <= k -> pl_normal h (o + i) v = pl_normal hq i v.
  Hypothesis Sdirect : forall i v u, i <= k -> pl_direct h (o + i) v u = pl_direct hq i v u.
  Hypothesis Sechoes : forall i v, i <= k -> echoes h (o + i) v = echoes hq i v.
  Hypothesis Spartners : forall i v, i <= k -> partners h (o + i) v = partners hq i v.
  Hypothesis Srecv : forall v t m, receive C (pl_state h (o + k) v) t m = let* p := map_err (re_group_under g) (receive Q (pl_state hq k v) t m) in Ok (inj p).
  Hypothesis Sinfo : forall rid ri, round_info Q rid = Some ri -> exists ri', round_info C (group_under rid g) = Some ri' /\
    (forall b, ri_direct ri' b = ri_direct ri b) /\ (forall b, ri_echo ri' b = ri_echo ri b) /\ (forall b, ri_normal ri' b = ri_normal ri b) /\
    forall err v m prev comb prev' comb', regrouped g prev prev' -> regrouped g comb comb' -> ri_verify ri rid err v sid sdq m prev' comb' = Ok tt ->
      ri_verify ri' (group_under rid g) err v sid sd m prev comb = Ok tt.

  Lemma lift_available t v q : available hq t k v q -> available h t (o + k) v (rq_group_under q g).
  Proof.
    destruct (rq_regrouped q g) as (_ & R1 & R2). intros [A B]. split.
    - intros pm rid rq Hp Hg. rewrite Hp in R1. destruct (rq_prev q) as [p|] eqn:Ep; [|contradiction]. destruct R1 as [G1 G2].
      destruct (G2 rid) as [rid' ->]; [apply contains_get; eauto|]. rewrite <- G1 in Hg. destruct (A p rid' rq eq_refl Hg) as (i & Hi & -> & M & X1 & X2 & X3 & X4).
      exists (o + i). rewrite Srid, Sfrom, Secho, Snormal, Sdirect by lia. repeat split; auto. lia.
    - intros cs rid Hc Hm. rewrite Hc in R2. destruct (rq_comb q) as [c|] eqn:Ec; [|contradiction]. apply R2 in Hm as (rid' & Hm & ->).
      destruct (B c rid' eq_refl Hm) as (i & Hi & -> & X1 & X2). exists (o + i). rewrite Srid, Sechoes, Spartners by lia. repeat split; auto. lia.
  Qed.

  Lemma lift_earlier t v q prev : earlier_messages h t (o + k) v (rq_group_under q g) prev -> exists prev', regrouped g prev prev' /\ earlier_messages hq t k v q prev'.
  Proof.
    destruct (rq_regrouped q g) as (_ & R1 & _). intros E. destruct (@regroup_exists _ g prev) as [prev' Hr].
    { intros rid Hc. apply contains_get in Hc as [em Hc]. apply E in Hc as (pm & rq & i & Hp & Hg & _). rewrite Hp in R1.
      destruct (rq_prev q) as [p|]; [|contradiction]. apply (proj2 R1). apply contains_get. eauto. }
    exists prev'. split; auto. intros rid em. destruct Hr as [Hr _]. rewrite Hr. rewrite (E (group_under rid g) em). split.
    - intros (pm & rq & n & Hp & Hg & Hn & Hid & ->). rewrite Hp in R1. destruct (rq_prev q) as [p|]; [|contradiction]. destruct R1 as [G1 _].
      rewrite <- G1 in Hg. pose proof (@Slow n rid Hn (eq_sym Hid)) as Ho. replace n with (o + (n - o)) in * by lia. remember (n - o) as i.
      rewrite Srid in Hid by lia. apply group_under_inj in Hid as [-> _]. exists p, rq, i. rewrite Sdirect, Snormal, Secho by lia. repeat split; auto. lia.
    - intros (p & rq & i & Hp & Hg & Hi & -> & ->). rewrite Hp in R1. destruct (rq_prev (rq_group_under q g)) as [pm|]; [|contradiction]. destruct R1 as [G1 _].
      rewrite G1 in Hg. exists pm, rq, (o + i). rewrite Srid, Sdirect, Snormal, Secho by lia. repeat split; auto. lia.
  Qed.

  Lemma lift_echoed t q comb : echoed_messages h t (o + k) (rq_group_under q g) comb -> exists comb', regrouped g comb comb' /\ echoed_messages hq t k q comb'.
  Proof.
    destruct (rq_regrouped q g) as (_ & _ & R2). intros E. destruct (@regroup_exists _ g comb) as [comb' Hr].
    { intros rid Hc. apply contains_get in Hc as [em Hc]. apply E in Hc as (cs & i & Hp & Hg & _). rewrite Hp in R2.
      destruct (rq_comb q) as [p|]; [|contradiction]. apply R2 in Hg as (r' & _ & ->). eauto. }
    exists comb'. split; auto. intros rid bodies. destruct Hr as [Hr _]. rewrite Hr. rewrite (E (group_under rid g) bodies). split.
    - intros (cs & n & Hp & Hg & Hn & Hid & Hb). rewrite Hp in R2. destruct (rq_comb q) as [c|]; [|contradiction].
      apply R2 in Hg as (r' & Hg & Er). apply group_under_inj in Er as [<- _]. pose proof (@Slow n rid Hn (eq_sym Hid)) as Ho. replace n with (o + (n - o)) in * by lia. remember (n - o) as i.
      rewrite Srid in Hid by lia. apply group_under_inj in Hid as [-> _]. exists c, i. repeat split; auto; [lia|]. intros w. rewrite Hb. now rewrite Sfrom, Secho by lia.
    - intros (c & i & Hp & Hg & Hi & -> & Hb). rewrite Hp in R2. destruct (rq_comb (rq_group_under q g)) as [cs|]; [|contradiction].
      exists cs, (o + i). rewrite Srid by lia. repeat split; auto; [apply R2; eauto|lia|]. intros w. rewrite Hb. now rewrite Sfrom, Secho by lia.
  Qed.

  Lemma lift_verdict v t : verdict h (o + k) v t = let* p := map_err (re_group_under g) (verdict hq k v t) in Ok (inj p).
  Proof. unfold verdict. rewrite Secho, Snormal, Sdirect by lia. apply Srecv. Qed.

  Lemma lift_turned t v : turned_down sid hq t k sdq v -> turned_down sid h t (o + k) sd v.
  Proof.
    intros (ri & Hri & H). destruct (Sinfo _ Hri) as (ri' & Hri' & D & E & N & V). exists ri'. rewrite Srid by lia. split; auto.
    rewrite Secho, Snormal, Sdirect by lia. rewrite Srecv. destruct (receive Q (pl_state hq k v) t _) as [p|e|]; try contradiction.
    destruct e as [e| | | |e|e|e]; cbn [map_err bind re_group_under]; try contradiction; try (rewrite ?D, ?E, ?N; exact H).
    cbn [be_required be_ser be_group_under]. destruct H as (A1 & A2 & eb & A3 & A4). destruct (rq_regrouped (be_required e) g) as (R & _ & _). rewrite R.
    split; auto. split; [now apply lift_available|]. exists eb. split; auto. intros prev comb K1 K2.
    apply lift_earlier in K1 as (prev' & G1 & K1). apply lift_echoed in K2 as (comb' & G2 & K2). eapply V; eauto.
  Qed.
End Lift.
