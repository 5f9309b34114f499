(** [run_session] does what the messages it gets make it do (C120); cloned generators (C121). *)
From Coq Require Import List NArith Bool Arith Lia.
From Verif Require Import Base BMap Errors RoundId Message Protocol Transcript Evidence Session Spec Network RunSync Driver SpecDriver Par
  SpecParFailure SpecDet SessionFacts DriverFacts Typed Simple Dining.
Import ListNotations.
Set Implicit Arguments.

Section WithParams.
  Context {P : Params}.
  Context {Pr : Proto}.
  Variable r : NetRng.
  Implicit Types (d : Drv Pr) (ls : list (dlabel Pr)).

  Inductive dseq : Drv Pr -> list (dlabel Pr) -> Drv Pr -> Prop :=
  | dseq_nil d : dseq d [] d
  | dseq_cons d i l1 d1 l2 d2 : drv_step r d i = Some (l1, d1) -> dseq d1 l2 d2 -> dseq d (l1 ++ l2) d2.

  Lemma dseq_snoc d ls d1 i ls' d2 : dseq d ls d1 -> drv_step r d1 i = Some (ls', d2) -> dseq d (ls ++ ls') d2.
  Proof.
    induction 1 as [d|d j l1 d1 l2 d3 Hs Hr IH]; intros H.
    - rewrite <- (app_nil_r ([] ++ ls')). cbn [app]. econstructor; [exact H|constructor].
    - rewrite <- app_assoc. econstructor; [exact Hs|]. apply IH, H.
  Qed.
  Lemma run_dseq d ls d' : drv_run r d ls d' -> dseq d ls d'.
  Proof. induction 1 as [d|d ls d1 i ls' d2 R IH Hs]; [constructor|]. eapply dseq_snoc; eauto. Qed.
  Lemma run_app d ls d1 ls' d2 : drv_run r d ls d1 -> drv_run r d1 ls' d2 -> drv_run r d (ls ++ ls') d2.
  Proof.
    intros R R'. induction R' as [d1|d1 la da i lb db Ra IH Hs]; [now rewrite app_nil_r|].
    rewrite app_assoc. econstructor; [apply IH, R|exact Hs].
  Qed.
  Lemma dseq_run d ls d' : dseq d ls d' -> drv_run r d ls d'.
  Proof.
    induction 1 as [d|d i l1 d1 l2 d2 Hs Hr IH]; [constructor|]. eapply run_app; [|exact IH].
    change l1 with ([] ++ l1). econstructor; [constructor|exact Hs].
  Qed.

  Lemma inbox_app ls ls' : inbox (ls ++ ls') = inbox ls ++ inbox ls'.
  Proof. apply flat_map_app. Qed.
  Lemma undisturbed_app ls ls' : undisturbed (ls ++ ls') -> undisturbed ls /\ undisturbed ls'.
  Proof.
    intros (A & B & C). split; (split; [|split]); intros; intros Hin.
    1: apply A. 2: apply B. 3: apply (C dest). 4: apply A. 5: apply B. 6: apply (C dest). all: apply in_or_app; auto.
  Qed.

  Inductive quiet_step d : list (dlabel Pr) -> Drv Pr -> Prop :=
  | Q_go l d' : drv_step r d IGo = Some (l, d') -> inbox l = [] -> (forall from m, drv_step r d (IRecv from m) = None) -> quiet_step d l d'
  | Q_recv from m d' : drv_step r d (IRecv from m) = Some ([LIn from m], d') -> drv_step r d IGo = None -> quiet_step d [LIn from m] d'.

  Lemma quiet d i l d' : drv_step r d i = Some (l, d') -> undisturbed l -> quiet_step d l d'.
  Proof.
    intros Hs (NC & NX & NU).
    destruct d as [s a dest dests cached|s a vm cached|s a|o].
    - cbn [drv_step] in Hs. destruct i as [| |from m| |]; try discriminate Hs.
      + apply Q_go; [exact Hs| |intros; reflexivity].
        destruct (make_message s (nr_msg r (s_verifier s) (s_round_id s) dest) dest) as [[m pa]|e|]; apply stp_inj in Hs as [-> ->]; reflexivity.
      + exfalso. apply stp_inj in Hs as [-> ->]. apply (NU dest). left. reflexivity.
    - cbn [drv_step] in Hs. destruct i; try discriminate Hs. apply Q_go; [exact Hs| |intros; reflexivity].
      apply stp_inj in Hs as [-> ->]. reflexivity.
    - destruct (can_finalize a) eqn:E.
      + assert (i = IGo) as -> by (cbn [drv_step] in Hs; rewrite E in Hs; destruct i; try discriminate Hs; reflexivity).
        apply Q_go; [exact Hs| |intros; cbn [drv_step]; now rewrite E].
        cbn [drv_step] in Hs. rewrite E in Hs.
        destruct (finalize_round s (nr_fin r (s_verifier s) (s_round_id s)) a) as [[rep|s' c]|e|]; apply stp_inj in Hs as [-> ->]; reflexivity.
      + destruct i as [| |from m| |]; cbn [drv_step] in Hs; rewrite E in Hs; try discriminate Hs.
        * assert (l = [LIn from m]) as -> by (apply stp_inj in Hs as [-> _]; reflexivity).
          apply Q_recv; cbn [drv_step]; rewrite E; [exact Hs|reflexivity].
        * exfalso. apply stp_inj in Hs as [-> _]. apply NX. left. reflexivity.
        * exfalso. apply stp_inj in Hs as [-> _]. apply NC. left. reflexivity.
      + assert (i = IGo) as -> by (cbn [drv_step] in Hs; rewrite E in Hs; destruct i; try discriminate Hs; reflexivity).
        apply Q_go; [exact Hs| |intros; cbn [drv_step]; now rewrite E].
        cbn [drv_step] in Hs. rewrite E in Hs. apply stp_inj in Hs as [-> ->]; reflexivity.
    - discriminate Hs.
  Qed.

  Lemma quiet_same d l d1 l' d1' l2 l2' : quiet_step d l d1 -> quiet_step d l' d1' ->
    begins_with (inbox (l' ++ l2')) (inbox (l ++ l2)) \/ begins_with (inbox (l ++ l2)) (inbox (l' ++ l2')) -> l' = l /\ d1' = d1.
  Proof.
    intros Q Q' B. destruct Q as [l d1 Hs Hi Hn|from m d1 Hs Hn]; destruct Q' as [l' d1' Hs' Hi' Hn'|from' m' d1' Hs' Hn'].
    - rewrite Hs in Hs'. apply stp_inj in Hs' as [-> ->]. auto.
    - rewrite Hn in Hs'. discriminate.
    - rewrite Hn' in Hs. discriminate.
    - assert (from' = from /\ m' = m) as [-> ->] by (destruct B as [[x E]|[x E]]; cbn in E; inversion E; auto).
      rewrite Hs in Hs'. apply stp_inj in Hs' as [_ ->]. auto.
  Qed.

  Lemma begins_cancel {A} (l x y : list A) : begins_with (l ++ x) (l ++ y) -> begins_with x y.
  Proof. intros [z E]. exists z. rewrite <- app_assoc in E. now apply app_inv_head in E. Qed.

  Lemma one_course d ls d1 : dseq d ls d1 -> forall ls' d2, dseq d ls' d2 -> undisturbed ls -> undisturbed ls' ->
    begins_with (inbox ls') (inbox ls) \/ begins_with (inbox ls) (inbox ls') ->
    (exists rest, ls' = ls ++ rest /\ drv_run r d1 rest d2) \/ (exists rest, ls = ls' ++ rest /\ drv_run r d2 rest d1).
  Proof.
    induction 1 as [d|d i l1 d1 l2 d3 Hs Hr IH]; intros ls' d2 H' U U' B.
    - left. exists ls'. split; [reflexivity|]. apply dseq_run, H'.
    - destruct H' as [d|d j l1' d1' l2' d4 Hs' Hr'].
      + right. exists (l1 ++ l2). split; [reflexivity|]. apply dseq_run. econstructor; eauto.
      + apply undisturbed_app in U as [U1 U2]. apply undisturbed_app in U' as [U1' U2'].
        destruct (quiet_same _ _ (quiet _ _ Hs U1) (quiet _ _ Hs' U1') B) as [-> ->].
        rewrite !inbox_app in B. destruct (IH _ _ Hr' U2 U2') as [[rest [E R]]|[rest [E R]]].
        { destruct B as [B|B]; apply begins_cancel in B; auto. }
        * left. exists rest. rewrite E, app_assoc. auto.
        * right. exists rest. rewrite E, app_assoc. auto.
  Qed.

  Lemma session_one_course (s0 : Session Pr) ls d ls' d' : run_session r s0 ls d -> run_session r s0 ls' d' ->
    undisturbed ls -> undisturbed ls' -> begins_with (inbox ls') (inbox ls) ->
    (exists rest, ls' = ls ++ rest /\ drv_run r d rest d') \/ (exists rest, ls = ls' ++ rest /\ drv_run r d' rest d).
  Proof.
    intros (l & -> & R) (l' & -> & R') U U' B.
    change (LEnter s0 :: l) with ([LEnter s0] ++ l) in *. change (LEnter s0 :: l') with ([LEnter s0] ++ l') in *.
    apply undisturbed_app in U as [_ U]. apply undisturbed_app in U' as [_ U'].
    destruct (one_course (run_dseq R) (run_dseq R') U U' (or_introl B)) as [[rest [E R2]]|[rest [E R2]]].
    - left. exists rest. rewrite E. auto.
    - right. exists rest. rewrite E. auto.
  Qed.

  Lemma done_stays o ls d : drv_run r (DrvDone o) ls d -> ls = [] /\ d = DrvDone o.
  Proof. intros R. apply run_dseq in R. inversion R; subst; auto. discriminate. Qed.

  Lemma session_same_outcome (s0 : Session Pr) ls o ls' o' : run_session r s0 ls (DrvDone o) -> run_session r s0 ls' (DrvDone o') ->
    undisturbed ls -> undisturbed ls' -> begins_with (inbox ls') (inbox ls) -> ls' = ls /\ o' = o.
  Proof.
    intros R R' U U' B. destruct (session_one_course R R' U U' B) as [[rest [E Q]]|[rest [E Q]]]; apply done_stays in Q as [-> Q];
      rewrite app_nil_r in E; subst; split; congruence.
  Qed.

End WithParams.

Section Clones.
  Context {P : Params}.
  Context (diner : N -> Verifier) (num : Verifier -> N).
  Context (Hnum : forall i, (i < 3)%N -> num (diner i) = i).
  Context (toss_codec reveal_codec : Codec bool) (no_error : bytes -> bool).
  Let T := dining diner num toss_codec reveal_codec no_error.
  Let E := dining_entry diner num toss_codec reveal_codec no_error.

  Lemma toss_tells r sid t p sk i s g dest m a : cloned r ->
    ep_make E (rsub 0 (nr_new r (diner 0%N))) sid (diner 0%N) = Ok (box T DR1 (mkDining1 (diner 0%N) t p) : St (wrap T)) ->
    signer_key sk = diner i -> i = 1%N \/ i = 2%N -> session_new (nr_new r (signer_key sk)) sid sk E = Ok s ->
    make_message s g dest = Ok (m, a) -> sp_body (msg_direct m) = c_ser toss_codec p.
  Proof.
    intros Hc H0 Hk Hi Hs Hm.
    apply session_new_ok in Hs as (st & Hst & C). cbn [E dining_entry ep_make] in H0, Hst.
    rewrite Hnum in H0 by reflexivity. cbn [N.eqb] in H0. unfold dining_box, box in H0.
    assert (Hp : p = even (rsub 0 (nr_new r (diner 0%N)) [0])).
    { apply (f_equal (fun b : res LocalError {k : DiningK & dining_st k} => match b with Ok (existT _ DR1 x) => d1_paid x | _ => p end)) in H0. cbn in H0. auto. }
    rewrite Hk in Hst. rewrite Hnum in Hst by (destruct Hi as [-> | ->]; reflexivity).
    assert (En : N.eqb i 0 = false) by (destruct Hi as [-> | ->]; reflexivity). rewrite En in Hst.
    rewrite (Hc (diner i) (diner 0%N)) in Hst. rewrite <- Hp in Hst. injection Hst as <-.
    unfold make_message in Hm. rewrite (cr_round C) in Hm. cbn in Hm.
    destruct (c_ser toss_codec p) as [b|] eqn:Eb; cbn in Hm; [|discriminate Hm].
    unfold message_new in Hm. destruct (sign_part _ _ _ _ _ _) as [sd|e|] eqn:Es; cbn [bind] in Hm; try discriminate Hm.
    injection Hm as <- <-. cbn [msg_direct].
    unfold sign_part in Es. destruct (part_digest _ _) as [dg|e|]; cbn [bind] in Es; try discriminate Es.
    destruct (sign _ _ _) as [sg|]; cbn [ok_or bind] in Es; try discriminate Es.
    destruct (ser_sig sg) as [gb|]; cbn [ok_or bind] in Es; try discriminate Es. injection Es as <-. reflexivity.
  Qed.
End Clones.
