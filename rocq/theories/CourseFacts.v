(** What the course of a session depends on. *)
From Coq Require Import List NArith Bool.
From Verif Require Import Base BMap Errors RoundId Message Protocol Transcript Evidence Session Spec SpecCourse MessageFacts
  SessionFacts RunFacts IntakeFacts RoundFacts.
Import ListNotations.
Set Implicit Arguments.

Section Course.
  Context {P : Params}.
  Context {Pr : Proto}.
  Implicit Types (d : DState Pr) (es : list (event Pr)) (s : Session Pr).

  Record alike_a (a a' : Accum Pr) : Prop := {
    aa_payloads : a_payloads a' = a_payloads a;
    aa_artifacts : a_artifacts a' = a_artifacts a;
    aa_echo : a_echo a' = a_echo a;
    aa_normal : a_normal a' = a_normal a;
    aa_direct : a_direct a' = a_direct a
  }.

  Lemma some_ext {K V} `{Ord K} (m m' : bmap K V) : (forall k v, get k m' = Some v <-> get k m = Some v) -> m' = m.
  Proof.
    intros E. apply bmap_ext. intros k. destruct (get k m) as [v|] eqn:E1.
    - now apply E.
    - destruct (get k m') as [v|] eqn:E2; auto. apply E in E2. congruence.
  Qed.

  Lemma same_answer s s' vm : s_round s' = s_round s -> answer s' vm = answer s vm.
  Proof. unfold answer. now intros ->. Qed.
  Lemma same_parts s s' es es' v {k} (proj : VMessage -> SPart k) p : s_round s' = s_round s -> same_work es es' ->
    part_accepted s' es' v proj p <-> part_accepted s es v proj p.
  Proof.
    intros Hr [Hw _]. unfold part_accepted. split; intros (vm & x & H1 & H2 & H3 & H4); exists vm, x; (split; [now apply Hw|]); split; auto; split; auto.
    - now rewrite <- (@same_answer s s' vm Hr).
    - now rewrite (@same_answer s s' vm Hr).
  Qed.

  Lemma work_alike s s' es es' a a' : hist s es a -> hist s' es' a' -> s_round s' = s_round s -> same_work es es' -> alike_a a a'.
  Proof.
    intros H H' Hr Hw. constructor; apply some_ext; intros v p.
    - rewrite (h_payload H), (h_payload H'). unfold accepted. rewrite Hr. destruct Hw as [Hw _].
      split; intros (vm & H1 & H2); exists vm; (split; [now apply Hw|auto]).
    - rewrite (h_artifact H), (h_artifact H'). symmetry. apply Hw.
    - rewrite (h_echo H), (h_echo H'). now apply same_parts.
    - rewrite (h_normal H), (h_normal H'). now apply same_parts.
    - rewrite (h_direct H), (h_direct H'). now apply same_parts.
  Qed.

  Lemma new_alike g sid signer (r : Round Pr) t t' s s' : new_for_next_round g sid signer r t = Ok s -> new_for_next_round g sid signer r t' = Ok s' ->
    tr_echo t' = tr_echo t -> tr_normal t' = tr_normal t -> tr_direct t' = tr_direct t -> alike s s'.
  Proof.
    unfold new_for_next_round. intros H H' E1 E2 E3.
    apply bind_ok in H as (ti & H1 & H). apply bind_ok in H as (e & H2 & H). apply bind_ok in H as (se & H3 & H).
    apply bind_ok in H as (n & H4 & H). apply bind_ok in H as (sn & H5 & H). inv H.
    rewrite H1 in H'. simpl in H'. rewrite H2 in H'. simpl in H'. rewrite H3 in H'. simpl in H'. rewrite H4 in H'. simpl in H'. rewrite H5 in H'. simpl in H'. inv H'.
    constructor; auto.
  Qed.

  Lemma closed_alike s s' a a' t t' : alike s s' -> alike_a a a' -> close_round s a = Ok t -> close_round s' a' = Ok t' ->
    tr_echo t' = tr_echo t /\ tr_normal t' = tr_normal t /\ tr_direct t' = tr_direct t.
  Proof.
    intros S A H H'. apply close_round_ok in H, H'. rewrite (up_echo H), (up_echo H'), (up_normal H), (up_normal H'), (up_direct H), (up_direct H').
    unfold s_round_id. now rewrite (al_tinfo S), (al_verifier S), (al_echo S), (al_echos S), (al_normals S), (al_directs S), (aa_echo A), (aa_normal A), (aa_direct A).
  Qed.

  Lemma finalize_alike s s' a a' g ro ro' : alike s s' -> alike_a a a' ->
    finalize_round s g a = Ok ro -> finalize_round s' g a' = Ok ro' -> alike_outcomes ro ro'.
  Proof.
    intros S A H H'. unfold finalize_round in H, H'. apply bind_ok in H as (t & Ht & H). apply bind_ok in H' as (t' & Ht' & H').
    destruct (closed_alike S A Ht Ht') as (E1 & E2 & E3). rewrite (al_einfo S) in H'. destruct (s_echo_info s) as [info|].
    - unfold tr_echo_broadcasts, s_round_id in *. rewrite (al_tinfo S), (al_verifier S), (al_round S), (al_id S), (al_signer S), (aa_payloads A), (aa_artifacts A), E1 in H'.
      apply bind_ok in H as (echos & H1 & H). apply bind_ok in H as (ti & H2 & H). apply bind_ok in H as (s1 & H3 & H). inv H.
      rewrite H1 in H'. cbn [bind] in H'. rewrite H2 in H'. cbn [bind] in H'. apply bind_ok in H' as (s2 & H4 & H'). inv H'.
      simpl. eapply new_alike; eauto.
    - rewrite (al_tinfo S), (al_round S), (al_id S), (al_signer S), (aa_payloads A), (aa_artifacts A) in H'.
      apply bind_ok in H as (out & H1 & H). rewrite H1 in H'. cbn [bind] in H'. destruct out as [st|x].
      + destruct (negb _); [discriminate|]. apply bind_ok in H as (s1 & H3 & H). inv H. apply bind_ok in H' as (s2 & H4 & H'). inv H'.
        simpl. eapply new_alike; eauto.
      + inv H. inv H'. reflexivity.
  Qed.

  Lemma run_app_inv d es1 es2 d' : run d (es1 ++ es2) d' -> exists d1, run d es1 d1 /\ run d1 es2 d'.
  Proof.
    revert d'. induction es2 as [|e l IH] using rev_ind; intros d' H.
    - rewrite app_nil_r in H. exists d'. split; auto. constructor.
    - rewrite app_assoc in H. apply run_snoc_inv in H as (d1 & H1 & H2). destruct (IH _ H1) as (d2 & H3 & H4). exists d2. split; auto. eapply run_snoc; eauto.
  Qed.
  Lemma run_cons_inv d e es d' : run d (e :: es) d' -> exists d1, step d e d1 /\ run d1 es d'.
  Proof.
    intros H. change (e :: es) with ([e] ++ es) in H. apply run_app_inv in H as (d1 & H1 & H2).
    change [e] with ([] ++ [e]) in H1. apply run_snoc_inv in H1 as (d0 & H0 & H1). apply run_nil_inv in H0. subst. eauto.
  Qed.

  Lemma course d0 d0' es es' d d' : same_course es es' -> d_a d0 = make_accumulator (d_s d0) -> d_a d0' = make_accumulator (d_s d0') ->
    alike (d_s d0) (d_s d0') -> run d0 es d -> run d0' es' d' -> alike (d_s d) (d_s d') /\ alike_a (d_a d) (d_a d').
  Proof.
    intros C. revert d0 d0'. induction C as [er er' I I' W|er er' g es es' I I' W C IH]; intros d0 d0' F F' S R R'.
    - destruct (round_hist F R I) as [H E]. destruct (round_hist F' R' I') as [H' E']. rewrite E, E'. split; auto.
      exact (work_alike H H' (al_round S) W).
    - apply run_app_inv in R as (d1 & R & R2). apply run_cons_inv in R2 as (d2 & T & R2).
      apply run_app_inv in R' as (d1' & R' & R2'). apply run_cons_inv in R2' as (d2' & T' & R2').
      destruct (round_hist F R I) as [H E]. destruct (round_hist F' R' I') as [H' E'].
      pose proof (work_alike H H' (al_round S) W) as A. rewrite <- E, <- E' in S. clear H H' E E' F F' R R'.
      inv T. inv T'. simpl in *.
      match goal with X : finalize_round s g a = Ok ?x, Y : finalize_round s0 g a0 = Ok ?y |- _ =>
        assert (Q : alike_outcomes x y) by exact (finalize_alike _ S A X Y) end.
      exact (IH (DS s' (make_accumulator s') cached) (DS s'0 (make_accumulator s'0) cached0) eq_refl eq_refl Q R2 R2').
  Qed.

  Lemma same_courses s es es' d d' : same_course es es' -> run (start s) es d -> run (start s) es' d' ->
    alike (d_s d) (d_s d') /\ a_payloads (d_a d') = a_payloads (d_a d) /\ a_artifacts (d_a d') = a_artifacts (d_a d) /\
    (forall g dest, make_message (d_s d') g dest = make_message (d_s d) g dest) /\
    (forall g ro ro', finalize_round (d_s d) g (d_a d) = Ok ro -> finalize_round (d_s d') g (d_a d') = Ok ro' -> alike_outcomes ro ro').
  Proof.
    intros C R R'. assert (S : alike s s) by (constructor; auto).
    destruct (course C (d0 := start s) (d0' := start s) eq_refl eq_refl S R R') as [S' A]. split; auto. split; [apply A|]. split; [apply A|]. split.
    - intros g dest. unfold make_message, s_round_id. now rewrite (al_round S'), (al_signer S'), (al_id S'), (al_tinfo S'), (al_echo S'), (al_normal S').
    - intros g ro ro'. now apply finalize_alike.
  Qed.
End Course.
