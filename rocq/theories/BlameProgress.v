(** Whom honest parties wait for. *)
From Coq Require Import List NArith Arith Bool Permutation Lia.
From Verif Require Import Base BMap Errors RoundId Message Protocol Transcript Evidence Session Spec SpecCrypto SpecEvidence
  SpecBlame MessageFacts SessionFacts RunFacts IntakeFacts RoundFacts FinalizeFacts HistoryFacts SignFacts EchoFacts BlameFacts.
Import ListNotations.
Set Implicit Arguments.

Section WithParams.
  Context {P : Params}.
  Context {Pr : Proto}.
  Variable honest : Verifier -> bool.
  Variable parties : bset Verifier.
  Variable sid : bytes.
  Variable rids : nat -> RoundId.
  Variable echoed : nat -> bool.
  Variable at_ : nat -> Verifier -> St Pr -> Prop.
  Hypothesis U : uniform parties rids echoed at_.
  Hypothesis Hsig : signatures_correct P.
  Hypothesis Hcod : echo_codec P.
  Notation good := (@good P Pr parties sid echoed at_).
  Notation prid := (prid rids).
  Notation pnext := (pnext echoed).
  Notation pvalid := (pvalid echoed).
  Notation trace := (ctrace honest (cstart honest parties sid at_)).
  Implicit Types (w : CWorld Pr) (ws : list (CWorld Pr)) (d : DState Pr) (f : ph) (u v x : Verifier).

  Lemma cstep_inv w w' : cstep honest w w' -> exists v d e d', cw_node w v = Some d /\ step d e d' /\ changes w w' v d'.
  Proof. intros [v d g dest m art d' H1 _ H2 H3 _|u v d m o d' H1 _ H2 H3|v d from m o d' H1 _ H2 H3 _|v d e d' H1 _ H2 H3 _]; eauto 10. Qed.


  (** A session has been in all earlier phases. *)
  Lemma passed w ws u d f : trace (w :: ws) -> cw_node w u = Some d -> good u f d ->
    forall f0, pvalid f0 -> prank f0 < prank f -> exists d0, cwas ws u d0 /\ good u f0 d0.
  Proof.
    intros Ht. remember (w :: ws) as l eqn:E. revert w ws E u d f. induction Ht as [w0 H0|w0 ws0 w0' Ht IH Hs]; intros w ws E u d f Hn G f0 V Hlt; injection E as <- <-.
    - exfalso. destruct (proj2 H0 u d Hn) as (_ & _ & s & st & Hi & Hv & Hid & Hr & Ha & ->).
      assert (f = (0, false)).
      { apply (prid_inj U). rewrite <- (good_rid U G). simpl. unfold BlameFacts.prid. simpl.
        destruct (main_tinfo (reachable_sinv (gd_reach G)) Hr) as [Ei _]. unfold s_round_id. simpl in Ei. rewrite Ei. exact (un_id U _ _ _ Ha). }
      subst f. unfold prank in Hlt. simpl in Hlt. lia.
    - destruct (cstep_inv Hs) as (v & d1 & e & d2 & N1 & Hst & Hch).
      assert (Hw : forall x dx, cwas ws0 x dx -> cwas (w0 :: ws0) x dx) by (intros x dx (w1 & ? & ?); exists w1; simpl; auto).
      destruct (ord_dec u v) as [->|Hne].
      + rewrite (proj1 Hch) in Hn. injection Hn as <-.
        assert (Hw1 : cwas (w0 :: ws0) v d1) by (exists w0; simpl; auto).
        destruct (trace_good U Hsig Hcod Ht Hw1) as [f1 G1]. destruct (is_fin e) eqn:Ef.
        * destruct e; try discriminate. pose proof (good_fin honest U G1 Hst) as G2. pose proof (good_unique U G G2) as ->.
          destruct (Nat.lt_trichotomy (prank f0) (prank f1)) as [H|[H|H]].
          -- destruct (IH _ _ eq_refl _ _ _ N1 G1 _ V H) as (d0 & ? & ?). eauto.
          -- apply prank_inj in H. subst f1. eauto.
          -- exfalso. pose proof (@prank_between echoed f1 f0 V H). lia.
        * pose proof (good_step honest U G1 Hst Ef) as G2. pose proof (good_unique U G G2) as ->.
          destruct (IH _ _ eq_refl _ _ _ N1 G1 _ V Hlt) as (d0 & ? & ?). eauto.
      + rewrite (proj2 Hch) in Hn by auto. destruct (IH _ _ eq_refl _ _ _ Hn G _ V Hlt) as (d0 & ? & ?). eauto.
  Qed.

  Lemma expects v f d : good v f d -> a_expect (d_a d) = srem v parties.
  Proof.
    intros G. destruct (reachable_round (gd_reach G)) as (d0 & es & R & Hr & Hi).
    pose proof (round_history R Hr Hi) as Hh. rewrite (h_expect Hh), (good_comm U G). reflexivity.
  Qed.

  Lemma blocked w ws : trace (w :: ws) -> diligent (w :: ws) -> at_rest w ->
    forall n v d f, cw_node w v = Some d -> good v f d -> prank f < n -> can_finalize (d_a d) <> Yes ->
    exists v' d' u, cw_node w v' = Some d' /\ can_finalize (d_a d') <> Yes /\ mem u parties = true /\ u <> v' /\ contains u (a_payloads (d_a d')) = false /\
      (honest u = false \/ cw_node w u = None \/ (exists e, turned_down (w :: ws) u v' e) \/ equivocated honest (w :: ws) u v' \/
       exists dU, cw_node w u = Some dU /\ can_finalize (d_a dU) = Yes).
  Proof.
    intros Ht Hd [R1 R2]. induction n as [|n IH]; intros v d f N G Hlt Hy; [lia|].
    destruct (all_or_some (fun u => contains u (a_payloads (d_a d))) (elements (a_expect (d_a d)))) as [Hall|(u & Hu & Hp)].
    { exfalso. apply Hy, yes_iff. intros u Hu. apply Hall. now apply in_elements. }
    apply in_elements in Hu. rewrite (expects G), mem_rem in Hu. apply andb_true_iff in Hu as [Hne Hu]. apply negb_true_iff, eqb_neq in Hne.
    destruct (honest u) eqn:Eh; [|exists v, d, u; split; [auto|split; [auto|split; [auto|split; [auto|split; auto]]]]].
    destruct (cw_node w u) as [dU|] eqn:NU; [|exists v, d, u; split; [auto|split; [auto|split; [auto|split; [auto|split; auto]]]]].
    assert (HwU : cwas (w :: ws) u dU) by (exists w; simpl; auto). destruct (trace_good U Hsig Hcod Ht HwU) as [fu GU].
    destruct (Nat.lt_ge_cases (prank fu) (prank f)) as [Hf|Hf].
    - destruct (can_finalize (d_a dU)) eqn:Ec.
      { exists v, d, u. split; [auto|split; [auto|split; [auto|split; [auto|split; [auto|]]]]]. do 4 right. eauto. }
      all: apply (IH u dU fu NU GU); [lia|congruence].
    - assert (Hs : has_sent (w :: ws) u v (s_round_id (d_s d))).
      { assert (Hdest : forall dX fX, good u fX dX -> mem v (message_destinations (d_s dX)) = true).
        { intros dX fX GX. unfold message_destinations. rewrite (good_comm U GX). simpl. rewrite mem_rem, (gd_party G), andb_true_r.
          apply negb_true_iff, eqb_neq. auto. }
        rewrite (good_rid U G). destruct (Nat.eq_dec (prank f) (prank fu)) as [E|E].
        - apply prank_inj in E. subst fu. exists dU. split; auto. split; [apply (good_rid U GU)|]. apply (proj2 (R2 _ _ NU)). eauto.
        - destruct (passed Ht NU GU (gd_valid G)) as (d0 & Hw0 & G0); [lia|]. rewrite <- (good_rid U G0).
          apply (Hd [] w ws u d0 dU eq_refl NU Hw0); eauto. rewrite (good_rid U G0), (good_rid U GU). intros F. apply (prid_inj U) in F. subst. lia. }
      exists v, d, u. split; [auto|split; [auto|split; [auto|split; [auto|split; [auto|]]]]].
      destruct (@waits _ _ _ _ _ _ _ _ U Hsig Hcod w ws v d u Ht N Eh Hne Hs) as [(m & Hi & _)|[(vm & Hi & _)|[H|[H|H]]]]; auto.
      + rewrite (R1 _ _ _ Hi) in N. discriminate.
      + rewrite (proj1 (R2 _ _ N)) in Hi. destruct Hi.
      + congruence.
  Qed.

  Lemma whom_to_wait_for w ws v d : trace (w :: ws) -> diligent (w :: ws) -> at_rest w ->
    cw_node w v = Some d -> can_finalize (d_a d) <> Yes ->
    exists v' d' u, cw_node w v' = Some d' /\ can_finalize (d_a d') <> Yes /\ mem u parties = true /\ u <> v' /\ contains u (a_payloads (d_a d')) = false /\
      (honest u = false \/ cw_node w u = None \/ (exists e, turned_down (w :: ws) u v' e) \/ equivocated honest (w :: ws) u v' \/
       exists dU, cw_node w u = Some dU /\ can_finalize (d_a dU) = Yes).
  Proof.
    intros Ht Hd Hr N Hy. assert (Hw : cwas (w :: ws) v d) by (exists w; simpl; auto).
    destruct (trace_good U Hsig Hcod Ht Hw) as [f G]. exact (blocked Ht Hd Hr (n := S (prank f)) N G (Nat.lt_succ_diag_r _) Hy).
  Qed.
End WithParams.
