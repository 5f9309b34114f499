(** Proofs about local errors: when adding messages and ending sessions cannot fail. *)
From Coq Require Import List NArith Bool.
From Verif Require Import Base BMap Errors RoundId Message Protocol Transcript Evidence Session Spec
  MessageFacts SessionFacts RunFacts IntakeFacts RoundFacts FinalizeFacts HistoryFacts.
Import ListNotations.
Set Implicit Arguments.

Section WithParams.
  Context {P : Params}.
  Context {Pr : Proto}.
  Implicit Types (s : Session Pr) (a : Accum Pr) (d : DState Pr) (es : list (event Pr)).

  Lemma fold_res_total {E A S} (f : S -> A -> res E S) l : (forall x y, In y l -> exists x', f x y = Ok x') ->
    forall x, exists x', fold_res f x l = Ok x'.
  Proof.
    intros H. induction l as [|y l IH]; simpl; intros x; [eauto|].
    destruct (H x y) as [x' ->]; [simpl; auto|]. simpl. apply IH. intros; apply H; simpl; auto.
  Qed.

  Lemma opt_get_total {V} (b : bool) rid (g : res LocalError V) m : (b = true -> exists x, g = Ok x) ->
    exists m', opt_get b rid g m = Ok m'.
  Proof. unfold opt_get. destruct b; [|eauto]. intros H. destruct (H eq_refl) as [x ->]. simpl. eauto. Qed.

  Lemma get2_total {V} e (m : bmap RoundId (bmap Verifier V)) rid v m' x :
    get rid m = Some m' -> get v m' = Some x -> get2 e m rid v = Ok x.
  Proof. intros H1 H2. unfold get2. rewrite H1. simpl. rewrite H2. reflexivity. Qed.

  Lemma evidence_available_ok t v err e n dm : evidence_available t v err ->
    exists ev, new_provable_error v e n dm err t = Ok ev.
  Proof.
    intros (H1 & H2 & H3). unfold new_provable_error.
    assert (Hp : exists x, match rq_prev (be_required err) with Some prev => collect_prev t v prev
                                                    | None => Ok (empty, empty, empty) end = Ok x).
    { destruct (rq_prev (be_required err)) as [prev|]; [|eauto]. unfold collect_prev. apply fold_res_total.
      intros [[es ns] ds] [rid rq] Hin. apply in_to_list in Hin. destruct (H2 _ _ _ eq_refl Hin) as (He & Hn & Hd).
      destruct (@opt_get_total _ (rp_echo rq) rid (get_echo_broadcast t rid v) es) as [es' ->].
      { intros E. destruct (He E) as (m & p & G1 & G2). exists p. eapply get2_total; eauto. }
      cbn [bind]. destruct (@opt_get_total _ (rp_normal rq) rid (get_normal_broadcast t rid v) ns) as [ns' ->].
      { intros E. destruct (Hn E) as (m & p & G1 & G2). exists p. eapply get2_total; eauto. }
      cbn [bind]. destruct (@opt_get_total _ (rp_direct rq) rid (get_direct_message t rid v) ds) as [ds' ->].
      { intros E. destruct (Hd E) as (m & p & G1 & G2). exists p. eapply get2_total; eauto. }
      cbn [bind]. eauto. }
    destruct Hp as [[[es ns] ds] ->]. cbn [bind].
    assert (Hc : exists x, match rq_comb (be_required err) with Some comb => collect_comb t v comb
                                                    | None => Ok (empty, empty) end = Ok x).
    { destruct (rq_comb (be_required err)) as [comb|]; [|eauto]. unfold collect_comb. apply fold_res_total.
      intros [hs os] rid Hin. apply in_elements in Hin. destruct (H3 _ _ eq_refl Hin) as (He & (m & p & G1 & G2) & (m' & G3)).
      unfold echo. rewrite He. cbn [bind]. unfold get_normal_broadcast. rewrite (get2_total _ _ _ _ G1 G2). cbn [bind].
      unfold get_other_echo_broadcasts. rewrite G3. cbn [bind ok_or]. eauto. }
    destruct Hc as [[hs os] ->]. cbn [bind].
    destruct (be_ser err) as [b|]; [|congruence]. cbn [bind ok_or]. eauto.
  Qed.

  Lemma echo_receive_no_local echos info from m e : (forall mt, ser_meta mt <> None) ->
    @echo_receive _ Pr echos info from m <> Err (RL e).
  Proof.
    intros Hser. unfold echo_receive.
    destruct (negb (is_none (dm_echo m))); [discriminate|]. destruct (negb _); [discriminate|].
    destruct (body_echo_msg _) as [msg|]; [|discriminate].
    destruct (negb _); [discriminate|]. destruct (negb _); [discriminate|].
    destruct (iter_res _ _) as [u|e'|] eqn:Ei; simpl; try discriminate.
    intros H. inv H. apply iter_res_first in Ei as (l1 & [v h] & l2 & _ & _ & Hc); [|discriminate].
    unfold check_echo in Hc. destruct (get v echos) as [prev|]; [|discriminate].
    pose proof (verify_shash_cases v h) as Hv. destruct (verify_shash v h) as [vh|[]|]; try discriminate.
    - destruct (negb _); [discriminate|]. destruct (negb _); discriminate.
    - destruct Hv as [Hv _]. exact (Hser _ Hv).
  Qed.

  Lemma remote_harmless d0 es d t1 vm t2 :
    round_start d0 -> run d0 es d -> in_round es -> d_todo d = t1 ++ vm :: t2 ->
    expected (d_s d) (vm_from vm) -> ~ heard es (vm_from vm) ->
    receive_total Pr -> echo_rounds_have_broadcasts Pr -> (forall mt, ser_meta mt <> None) ->
    (forall st, s_round (d_s d) = RMain st ->
       let r := receive Pr st (vm_from vm) (mkDynMsg (sp_body (vm_echo vm)) (sp_body (vm_normal vm)) (sp_body (vm_direct vm))) in
       (forall e, r <> Err (RL e)) /\
       (forall e, r = Err (RProtocol e) -> evidence_available (s_tr (d_s d)) (vm_from vm) e)) ->
    exists a', add_processed (d_s d) (d_a d) (process_message (d_s d) vm) = (a', Ok tt).
  Proof.
    intros Hs Hr Hin Ht He Hh HR HB Hser Hst.
    pose proof (reachable_run (round_start_reachable Hs) Hr) as Hre.
    refine (add_ok _ _ _ Hs Hr Hin Ht He Hh _ _ _).
    - exact (receive_no_panic vm HR HB Hre).
    - intros e. destruct (s_round (d_s d)) as [st|v echos info main ps arts] eqn:Er; simpl.
      + destruct (Hst st eq_refl) as [H1 _]. specialize (H1 e).
        destruct (receive Pr st _ _) as [|x|]; simpl; try discriminate. congruence.
      + now apply echo_receive_no_local.
    - intros e. destruct (s_round (d_s d)) as [st|v echos info main ps arts] eqn:Er; simpl.
      + destruct (Hst st eq_refl) as [_ H2]. specialize (H2 e).
        destruct (receive Pr st _ _) as [|x|]; simpl; try discriminate. intros E. inv E.
        apply evidence_available_ok. auto.
      + intros E. exfalso. revert E. unfold echo_receive.
        destruct (negb (is_none _)); [discriminate|]. destruct (negb _); [discriminate|].
        destruct (body_echo_msg _) as [msg|]; [|discriminate].
        destruct (negb _); [discriminate|]. destruct (negb _); [discriminate|].
        destruct (iter_res _ _) as [u|e'|] eqn:Ei; simpl; try discriminate.
        intros H. inv H. apply iter_res_first in Ei as (l1 & [w h] & l2 & _ & _ & Hc); [|discriminate].
        unfold check_echo in Hc. destruct (get w echos) as [prev|]; [|discriminate].
        destruct (verify_shash w h) as [vh|[]|]; try discriminate.
        destruct (negb _); [discriminate|]. destruct (negb _); discriminate.
  Qed.

  (** ** Ending a session *)
  Record tr_keys (t : Transcript) : Prop := {
    tk_normal : forall rid, contains rid (tr_normal t) = contains rid (tr_echo t);
    tk_direct : forall rid, contains rid (tr_direct t) = contains rid (tr_echo t)
  }.

  Lemma reachable_keys d : reachable d -> tr_keys (s_tr (d_s d)).
  Proof.
    intros (s & es & Hi & Hr). remember (start s) as d0. revert Heqd0.
    induction Hr as [d|d0 es d1 e d2 Hr IH Hs]; intros ->.
    - destruct Hi as (g & sid & sg & ep & Hi). apply session_new_ok in Hi as (st & _ & C). simpl. rewrite (cr_tr C).
      constructor; intros; reflexivity.
    - specialize (IH eq_refl). destruct (is_fin e) eqn:Ef.
      + destruct e; try discriminate. destruct (fin_cases_step Hs) as (_ & _ & F).
        assert (Hx : exists t, close_round (d_s d1) (d_a d1) = Ok t /\ s_tr (d_s d2) = t).
        { destruct F as [t ? ? Hc _ _ C _|t ? Hc _ _ _ C _]; exists t; split; auto; apply (cr_tr C). }
        destruct Hx as (t & Hc & ->). apply close_round_ok in Hc. destruct IH as [I1 I2].
        constructor; intros rid; rewrite (up_echo Hc); [rewrite (up_normal Hc)|rewrite (up_direct Hc)];
          rewrite !contains_insert; f_equal; auto.
      + replace (d_s d2) with (d_s d1); auto. inv Hs; auto; discriminate.
  Qed.

  (** Nobody banned in an earlier round gets an error in this round. *)
  Record fresh_errors d : Prop := {
    fe_todo : forall vm, In vm (d_todo d) -> tr_is_banned (s_tr (d_s d)) (vm_from vm) = false;
    fe_provable : forall v e, get v (a_provable (d_a d)) = Some e -> tr_is_banned (s_tr (d_s d)) v = false;
    fe_unprovable : forall v e, get v (a_unprovable (d_a d)) = Some e -> tr_is_banned (s_tr (d_s d)) v = false
  }.

  Lemma not_banned_tr s a v : ~ banned s a v -> tr_is_banned (s_tr s) v = false.
  Proof. rewrite <- banned_false, orb_false_iff. tauto. Qed.

  Lemma fresh_step d e d' : step d e d' -> is_fin e = false -> fresh_errors d -> fresh_errors d'.
  Proof.
    intros Hs Hf [F1 F2 F3]. inv Hs; simpl in *; try discriminate.
    - apply preprocess_cases in H. inversion H; subst; constructor; simpl in *; eauto.
      + intros v e'. rewrite get_insert. destruct (eqb_spec v from) as [->|]; eauto. intros _. eapply not_banned_tr; eauto.
      + intros vm' [<-|Hin]; auto. simpl. eapply not_banned_tr; eauto.
    - assert (Hb : tr_is_banned (s_tr s) (vm_from vm) = false) by (apply F1; apply in_elt).
      assert (Ht : forall vm', In vm' (t1 ++ t2) -> tr_is_banned (s_tr s) (vm_from vm') = false).
      { intros vm' Hin. apply F1. apply in_app_iff in Hin. apply in_app_iff. simpl. tauto. }
      apply add_processed_ok in H as (_ & _ & Hc). inversion Hc; subst; constructor; simpl in *; eauto.
      + intros v e'. rewrite get_insert. destruct (eqb_spec v (vm_from vm)) as [->|]; eauto.
      + intros v e'. rewrite get_insert. destruct (eqb_spec v (vm_from vm)) as [->|]; eauto.
    - apply add_artifact_ok in H1 as [_ ->]. constructor; simpl; auto.
  Qed.

  Lemma fresh_run d es d' : run d es d' -> in_round es -> fresh_errors d -> fresh_errors d'.
  Proof.
    intros Hr Hin HF. induction Hr as [|d es d1 e d2 Hr IH Hs]; auto.
    apply in_round_app in Hin as [Hin He]. eapply fresh_step; eauto.
    unfold in_round in He; simpl in He; destruct (is_fin e); auto.
  Qed.

  Lemma fresh_start d : round_start d -> (forall vm, In vm (d_todo d) -> ~ banned (d_s d) (d_a d) (vm_from vm)) -> fresh_errors d.
  Proof.
    intros Hs H. pose proof (round_start_fresh Hs) as E. constructor; intros.
    - eapply not_banned_tr; eauto.
    - rewrite E in H0. simpl in H0. rewrite get_empty in H0. discriminate.
    - rewrite E in H0. simpl in H0. rewrite get_empty in H0. discriminate.
  Qed.

  Lemma can_close d : reachable d -> fresh_errors d -> contains (s_round_id (d_s d)) (tr_echo (s_tr (d_s d))) = false ->
    exists t, close_round (d_s d) (d_a d) = Ok t.
  Proof.
    intros Hre [_ F2 F3] Hn. destruct (reachable_keys Hre) as [K1 K2]. pose proof (reachable_no_missing Hre) as Hm.
    unfold close_round, tr_update. rewrite K1, K2, Hn, Hm, contains_empty. cbn [bind].
    destruct (merge_new_ok LE_TrProvable (tr_provable (s_tr (d_s d))) (a_provable (d_a d))) as [x ->].
    { intros v e H. apply F2 in H. unfold tr_is_banned in H. apply orb_false_iff in H as [H _]. now apply contains_false. }
    cbn [bind].
    destruct (merge_new_ok LE_TrUnprovable (tr_unprovable (s_tr (d_s d))) (a_unprovable (d_a d))) as [y ->].
    { intros v e H. apply F3 in H. unfold tr_is_banned in H. apply orb_false_iff in H as [_ H]. now apply contains_false. }
    cbn [bind]. eauto.
  Qed.

  Lemma can_terminate d0 es d :
    round_start d0 -> run d0 es d -> in_round es ->
    (forall vm, In vm (d_todo d0) -> ~ banned (d_s d0) (d_a d0) (vm_from vm)) ->
    contains (s_round_id (d_s d)) (tr_echo (s_tr (d_s d))) = false ->
    (exists rep, terminate (d_s d) (d_a d) = Ok rep) /\ (exists rep, terminate_due_to_errors (d_s d) (d_a d) = Ok rep).
  Proof.
    intros Hs Hr Hin Hb Hn. pose proof (reachable_run (round_start_reachable Hs) Hr) as Hre.
    destruct (can_close Hre) as [t Ht]; auto.
    { eapply fresh_run; eauto. now apply fresh_start. }
    unfold terminate, terminate_due_to_errors, terminate_inner. rewrite Ht. simpl. eauto.
  Qed.
End WithParams.
