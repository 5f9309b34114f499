(** Sessions as sequences of rounds, with the messages that were processed. *)
From Coq Require Import List NArith Bool.
From Verif Require Import Base BMap Errors RoundId Message Protocol Transcript Evidence Session Spec SpecStory MessageFacts RunFacts
  IntakeFacts RoundFacts FinalizeFacts HistoryFacts SpecChain ChainFacts SessionFacts Typed TypedFacts.
Import ListNotations.
Set Implicit Arguments.

Section Sessions.
  Context {P : Params}.
  Context {Pr : Proto}.
  Implicit Types (d : DState Pr) (es : list (event Pr)).

  Lemma obtained_more es es' sid st ps : incl es es' -> obtained es sid st ps -> obtained es' sid st ps.
  Proof.
    intros Hi [H1 H2]. split; auto. intros v p Hp. destruct (H2 _ _ Hp) as (vm & Hv & H). exists vm. split; auto.
  Qed.
  Lemma brings_more es es' sid st st' : incl es es' -> brings es sid st st' -> brings es' sid st st'.
  Proof.
    intros Hi H. induction H; [constructor|]. eapply brings_step; eauto. eapply obtained_more; eauto.
  Qed.
  Lemma proper_obtained s st es ps arts : proper_inputs s st es ps arts -> obtained es (s_id s) st ps /\ own st arts.
  Proof.
    intros []. split; [split; auto|]. intros v x Hx. apply pi_artifact in Hx as [g Hg].
    destruct (pi_artifact_made _ _ _ Hg) as [H1 [b H2]]. split; auto. exists (rsub 0 g), b. auto.
  Qed.

  (** What [finalize_round] would report at the end of the current round, given the messages so far. *)
  Inductive stage sid es d st : Prop :=
  | stage_main d0 es0 : s_round (d_s d) = RMain st -> round_start d0 -> run d0 es0 d -> in_round es0 -> incl es0 es -> stage sid es d st
  | stage_echo d1 es1 ps arts : in_echo_round (d_s d) -> run d1 es1 d -> in_round es1 -> obtained es sid st ps -> own st arts ->
      (forall es1 d2 g' ro, run d1 es1 d2 -> in_round es1 -> finalize_round (d_s d2) g' (d_a d2) = Ok ro ->
         exists out, finalize Pr st (rsub 0 g') ps arts = Ok out /\ reported out ro) -> stage sid es d st.

  Lemma in_round_one (e : event Pr) : is_fin e = false -> in_round [e].
  Proof. unfold in_round. simpl. now intros ->. Qed.

  Lemma stage_more sid es d st e d' : stage sid es d st -> step d e d' -> is_fin e = false -> stage sid (es ++ [e]) d' st.
  Proof.
    intros Hs Hst He. pose proof (in_round_session (run_one Hst) (in_round_one e He)) as E.
    inv Hs.
    - eapply stage_main with (d0 := d0) (es0 := es0 ++ [e]); auto; [congruence|eapply run_snoc; eauto| |].
      + apply in_round_app. split; auto. now apply in_round_one.
      + intros x Hx. apply in_app_or in Hx. apply in_or_app. destruct Hx; auto.
    - eapply stage_echo with (d1 := d1) (es1 := es1 ++ [e]); eauto; [now rewrite E|eapply run_snoc; eauto| |].
      + apply in_round_app. split; auto. now apply in_round_one.
      + eapply obtained_more; eauto. intros x Hx. apply in_or_app. auto.
  Qed.


  Lemma session_story g sid signer (ep : EntryPoint Pr) s es d : session_new g sid signer ep = Ok s -> run (start s) es d ->
    exists st0 st, ep_make ep (rsub 0 g) sid (signer_key signer) = Ok st0 /\ brings es sid st0 st /\ stage sid es d st /\
      executes (d_s d) st /\ s_id (d_s d) = sid.
  Proof.
    intros Hn Hr. assert (Hi : initial s) by (exists g, sid, signer, ep; auto).
    remember (start s) as d0 eqn:Ed. induction Hr as [d|d es d1 e d2 Hr IH Hs].
    - subst d. apply session_new_ok in Hn as (st & Hm & C). exists st, st. split; auto. split; [constructor|].
      split; [|split; [left; exact (cr_round C)|exact (cr_id C)]]. eapply stage_main with (es0 := []); auto.
      + exact (cr_round C).
      + left. eauto.
      + constructor.
      + reflexivity.
      + intros x [].
    - destruct IH as (st0 & st & Hm & Hb & Hst & He & Hid); auto. subst d.
      assert (Hre : reachable d1) by (exists s, es; auto).
      assert (Hinc : incl es (es ++ [e])) by (intros x Hx; apply in_or_app; auto).
      pose proof (step_identity Hs (reachable_sinv Hre)) as (Hid' & _ & _).
      destruct (is_fin e) eqn:Ef.
      + destruct e as [| | |g0]; try discriminate. clear Ef.
        assert (Hrs : round_start d2).
        { inv Hs. right. exists s0, a, todo, g0, s', cached. auto. }
        assert (Hfin : exists c, finalize_round (d_s d1) g0 (d_a d1) = Ok (ROAnother (d_s d2) c)) by (inv Hs; eauto).
        destruct Hfin as [c Hfin]. assert (Hy : can_finalize (d_a d1) = Yes) by (inv Hs; auto).
        assert (K : forall st' ps arts, s_round (d_s d2) = RMain st' -> obtained es sid st ps -> own st arts ->
                    finalize Pr st (rsub 0 g0) ps arts = Ok (AnotherRound st') ->
                    exists st0 st, ep_make ep (rsub 0 g) sid (signer_key signer) = Ok st0 /\ brings (es ++ [EFin g0]) sid st0 st /\
                      stage sid (es ++ [EFin g0]) d2 st /\ executes (d_s d2) st /\ s_id (d_s d2) = sid).
        { intros st' ps arts E1 E2 E3 E4. exists st0, st'. split; auto. split; [|split; [|split; [now left|congruence]]].
          - apply brings_step with (st := st) (g := rsub 0 g0) (ps := ps) (arts := arts); auto; [eapply brings_more|eapply obtained_more]; eauto.
          - eapply stage_main with (d0 := d2) (es0 := []); auto; [constructor|reflexivity|intros x []]. }
        destruct Hst as [d0' es0 E0 E1 E2 E3 E4|d0' es1 ps arts E0 E1 E2 E3 E4 E5].
        * destruct (s_echo_info (d_s d1)) eqn:Ei.
          -- destruct (finalize_inputs_echo (d1 := d2) (g := g0) E1 E2 E3 E0 ltac:(congruence) Hs) as (ps & arts & Hp & Hall).
             apply proper_obtained in Hp as [Hp Ho]. rewrite Hid in Hp.
             exists st0, st. split; auto. split; [eapply brings_more; eauto|].
             assert (Hech : exists v e i ps arts, s_round (d_s d2) = REcho v e i (RMain st) ps arts).
             { pose proof Hfin as Hf. apply finalize_another in Hf. inv Hf; [|congruence]. rewrite (cr_round H2), E0. eauto 10. }
             split; [|split; [now right|congruence]].
             apply stage_echo with (d1 := d2) (es1 := []) (ps := ps) (arts := arts); auto.
             ++ destruct Hech as (v & e1 & i & ps' & arts' & Hx). unfold in_echo_round. eauto 10.
             ++ constructor.
             ++ reflexivity.
             ++ eapply obtained_more; [|eauto]. eapply incl_tran; eauto.
          -- destruct (finalize_inputs _ E1 E2 E3 Hy E0 Ei Hfin) as (ps & arts & out & F1 & F2 & F3).
             apply proper_obtained in F3 as [F3 F4]. rewrite Hid in F3. destruct out as [st'|x]; simpl in F2; [|contradiction].
             eapply K; eauto. eapply obtained_more; eauto.
        * destruct (E5 _ _ _ _ E1 E2 Hfin) as (out & F1 & F2). destruct out as [st'|x]; simpl in F2; [|contradiction]. eapply K; eauto.
      + exists st0, st. split; auto. split; [eapply brings_more; eauto|]. split; [eapply stage_more; eauto|].
        pose proof (in_round_session (run_one Hs) (in_round_one e Ef)) as E. rewrite E. split; auto.
  Qed.

  Lemma result_story g sid signer (ep : EntryPoint Pr) s es d g' rep : session_new g sid signer ep = Ok s -> run (start s) es d ->
    can_finalize (d_a d) = Yes -> finalize_round (d_s d) g' (d_a d) = Ok (ROFinished rep) ->
    exists st0 st ps arts x, ep_make ep (rsub 0 g) sid (signer_key signer) = Ok st0 /\ brings es sid st0 st /\
      obtained es sid st ps /\ own st arts /\ finalize Pr st (rsub 0 g') ps arts = Ok (Finished_ x) /\ rep_outcome rep = OResult x.
  Proof.
    intros Hn Hr Hy Hf. destruct (session_story _ _ _ _ Hn Hr) as (st0 & st & Hm & Hb & Hst & _ & Hid).
    assert (Hre : reachable d) by (exists s, es; split; auto; exists g, sid, signer, ep; auto).
    destruct Hst as [d0' es0 E0 E1 E2 E3 E4|d0' es1 ps arts E0 E1 E2 E3 E4 E5].
    - destruct (s_echo_info (d_s d)) eqn:Ei.
      + exfalso. pose proof Hf as H. apply finalize_finished in H as (t & x & H1 & H2 & _). congruence.
      + destruct (finalize_inputs _ E1 E2 E3 Hy E0 Ei Hf) as (ps & arts & out & F1 & F2 & F3).
        apply proper_obtained in F3 as [F3 F4]. rewrite Hid in F3. destruct out as [st'|x]; simpl in F2; [contradiction|].
        exists st0, st, ps, arts, x. split; auto. split; auto. split; [eapply obtained_more; eauto|]. auto.
    - destruct (E5 _ _ _ _ E1 E2 Hf) as (out & F1 & F2). destruct out as [st'|x]; simpl in F2; [contradiction|].
      exists st0, st, ps, arts, x. auto 10.
  Qed.

  Lemma whole_story g sid signer (ep : EntryPoint Pr) s es d : session_new g sid signer ep = Ok s -> run (start s) es d ->
    exists st0, ep_make ep (rsub 0 g) sid (signer_key signer) = Ok st0 /\
      (exists st, brings es sid st0 st /\ executes (d_s d) st) /\
      (forall g' rep, can_finalize (d_a d) = Yes -> finalize_round (d_s d) g' (d_a d) = Ok (ROFinished rep) ->
         exists st ps arts x, brings es sid st0 st /\ obtained es sid st ps /\ own st arts /\
           finalize Pr st (rsub 0 g') ps arts = Ok (Finished_ x) /\ rep_outcome rep = OResult x).
  Proof.
    intros Hn Hr. destruct (session_story _ _ _ _ Hn Hr) as (st0 & st & Hm & Hb & _ & He & _). exists st0. split; auto. split; eauto.
    intros g' rep Hy Hf. destruct (result_story _ _ _ _ _ Hn Hr Hy Hf) as (st0' & st' & ps & arts & x & Hm' & H).
    assert (st0' = st0) by congruence. subst st0'. eauto 10.
  Qed.
End Sessions.

(** ** Typed rounds *)
Section Typed.
  Context {P : Params}.
  Context (T : TProto).

  Lemma typed_story k (x : tst T k) es sid (ps arts : bmap Verifier (any T)) :
    obtained (Pr := wrap T) es sid (box T k x : St (wrap T)) ps -> own (Pr := wrap T) (box T k x : St (wrap T)) arts ->
    exists q qa, said T es sid k x q /\ forall g, finalize (wrap T) (box T k x : St (wrap T)) g ps arts = t_finalize T k x g q qa.
  Proof.
    intros [H1 H2] H3.
    destruct (@convert_ok _ _ LocalError (any T) _ (any_down (T:=T) LE_PayloadDowncast (t_pay T k)) ps (fun y q => q = existT (ty T) (t_pay T k) y)) as (q & Hq & Gq).
    { intros v p Hp. destruct (H2 _ _ Hp) as (vm & _ & _ & _ & Hr). apply (w_receive_ok k x) in Hr as (d & e & n & y & _ & _ & _ & _ & ->).
      exists y. split; auto. apply any_down_same. }
    destruct (@convert_ok _ _ LocalError (any T) _ (any_down (T:=T) LE_ArtifactDowncast (t_art T k)) arts (fun y q => q = existT (ty T) (t_art T k) y)) as (qa & Hqa & Gqa).
    { intros v p Hp. destruct (H3 _ _ Hp) as (_ & g & b & Hm). cbn [mk_direct wrap w_direct box] in Hm.
      apply bind_ok in Hm as ((m & y) & _ & Hm). apply bind_ok in Hm as (b' & _ & Hm). inv Hm. exists y. split; auto. apply any_down_same. }
    exists q, qa. split.
    - split.
      + intros v. rewrite <- H1. specialize (Gq v). unfold contains. change (Payload (wrap T)) with (any T). destruct (get v ps), (get v q); simpl; tauto.
      + intros v y Hy. specialize (Gq v). rewrite Hy in Gq. destruct (get v ps) as [p|] eqn:Ep; [|contradiction]. destruct Gq as [_ ->].
        destruct (H2 _ _ Ep) as (vm & V1 & V2 & V3 & Hr). apply (w_receive_ok k x) in Hr as (d & e & n & y' & D1 & D2 & D3 & D4 & Ey).
        assert (y = y'). { pose proof (f_equal (any_down (T:=T) LE_PayloadDowncast (t_pay T k)) Ey) as E. rewrite !any_down_same in E. now inv E. }
        subst y'. exists vm, d, e, n. auto 10.
    - intros g. assert (D1 : down_all LE_PayloadDowncast (t_pay T k) ps = Ok q) by exact Hq.
      assert (D2 : down_all LE_ArtifactDowncast (t_art T k) arts = Ok qa) by exact Hqa.
      cbn [finalize wrap w_finalize box]. now rewrite D1, D2.
  Qed.
End Typed.
