(** Exactly when calls of a session fail. *)
From Coq Require Import List NArith Bool.
From Verif Require Import Base BMap Errors RoundId Message Protocol Transcript Evidence Session Spec SpecCause SpecExact
  MessageFacts SessionFacts RunFacts IntakeFacts RoundFacts FinalizeFacts HistoryFacts LocalFacts.
Import ListNotations.
Set Implicit Arguments.

Section Exact.
  Context {P : Params}.
  Context {Pr : Proto}.
  Implicit Types (s : Session Pr) (a : Accum Pr) (d : DState Pr) (es : list (event Pr)).

  Lemma get2_inv {V} e (m : bmap RoundId (bmap Verifier V)) rid v x : get2 e m rid v = Ok x ->
    exists m', get rid m = Some m' /\ get v m' = Some x.
  Proof.
    unfold get2. destruct (get rid m) as [m'|]; simpl; [|discriminate]. destruct (get v m') eqn:E; simpl; [|discriminate].
    intros H. inv H. eauto.
  Qed.
  Lemma opt_get_inv {V} rid (g : res LocalError V) m m' : opt_get true rid g m = Ok m' -> exists x, g = Ok x.
  Proof. unfold opt_get. destruct g; simpl; try discriminate. eauto. Qed.
  Lemma fold_res_each {E A S} (f : S -> A -> res E S) l : forall x x', fold_res f x l = Ok x' ->
    forall y, In y l -> exists z z', f z y = Ok z'.
  Proof.
    induction l as [|y l IH]; simpl; intros x x' H z; [tauto|]. apply bind_ok in H as (x1 & H1 & H2).
    intros [->|Hin]; eauto.
  Qed.

  Lemma available_of_ok t v err e n dm ev : new_provable_error v e n dm err t = Ok ev -> evidence_available t v err.
  Proof.
    unfold new_provable_error. intros H. apply bind_ok in H as ([[x1 x2] x3] & H1 & H). apply bind_ok in H as ([y1 y2] & H2 & H).
    apply bind_ok in H as (eb & H3 & _). split; [destruct (be_ser err); [discriminate|discriminate H3]|]. split.
    - intros prev rid rq E Hg. rewrite E in H1. apply in_to_list in Hg. unfold collect_prev in H1.
      apply (fold_res_each _ _ _ H1) in Hg as ([[es ns] ds] & z' & Hf).
      apply bind_ok in Hf as (es' & F1 & Hf). apply bind_ok in Hf as (ns' & F2 & Hf). apply bind_ok in Hf as (ds' & F3 & _).
      split; [|split]; intros B.
      + rewrite B in F1. apply opt_get_inv in F1 as [x F1]. apply get2_inv in F1 as (m & G1 & G2). eauto.
      + rewrite B in F2. apply opt_get_inv in F2 as [x F2]. apply get2_inv in F2 as (m & G1 & G2). eauto.
      + rewrite B in F3. apply opt_get_inv in F3 as [x F3]. apply get2_inv in F3 as (m & G1 & G2). eauto.
    - intros comb rid E Hg. rewrite E in H2. apply in_elements in Hg. unfold collect_comb in H2.
      apply (fold_res_each _ _ _ H2) in Hg as ([hs os] & z' & Hf).
      apply bind_ok in Hf as (e' & F1 & Hf). apply bind_ok in Hf as (h & F2 & Hf). apply bind_ok in Hf as (o & F3 & _).
      unfold echo in F1. destruct (rid_echo rid); [discriminate|]. inv F1. split; auto.
      apply get2_inv in F2 as (m & G1 & G2). split; [eauto|].
      unfold get_other_echo_broadcasts in F3. destruct (get rid (tr_echo t)) as [m'|]; [eauto|discriminate].
  Qed.

  Lemma adding_iff d0 es d t1 vm t2 :
    round_start d0 -> run d0 es d -> in_round es -> d_todo d = t1 ++ vm :: t2 ->
    (exists a', add_processed (d_s d) (d_a d) (process_message (d_s d) vm) = (a', Ok tt)) <->
    expected (d_s d) (vm_from vm) /\ ~ heard es (vm_from vm) /\ round_answers (d_s d) vm <> Panic /\
    (forall e, round_answers (d_s d) vm <> Err (RL e)) /\
    (forall e, round_answers (d_s d) vm = Err (RProtocol e) -> evidence_available (s_tr (d_s d)) (vm_from vm) e).
  Proof.
    intros Hs Hr Hin Ht. split.
    - intros [a' H]. destruct (round_hist (round_start_fresh Hs) Hr Hin) as [Hh Hss]. rewrite <- Hss in Hh.
      apply add_processed_ok in H as (_ & Hw & Hc). apply (h_waiting Hh) in Hw as [Hw1 Hw2].
      split; auto. split; auto. change (round_answers (d_s d) vm) with (answer (d_s d) vm).
      inv Hc; match goal with X : answer _ _ = _ |- _ => rewrite X end.
      + repeat split; discriminate.
      + split; [discriminate|]. split; [|intros b E; inv E; eapply available_of_ok; eauto].
        intros l E. inv E. match goal with X : False |- _ => destruct X end.
      + repeat split; discriminate.
    - intros (He & Hh & Hp & Hl & Ha). refine (add_ok _ _ _ Hs Hr Hin Ht He Hh Hp Hl _).
      intros e E. apply evidence_available_ok. auto.
  Qed.

  (** Which error it is if the message was not to be expected. *)
  Lemma unexpected_error d0 es d t1 vm t2 :
    round_start d0 -> run d0 es d -> in_round es -> d_todo d = t1 ++ vm :: t2 ->
    ~ expected (d_s d) (vm_from vm) \/ heard es (vm_from vm) ->
    add_processed (d_s d) (d_a d) (process_message (d_s d) vm) = (d_a d, Err LE_DupPayload) /\ (exists p, accepted (d_s d) es (vm_from vm) p) \/
    add_processed (d_s d) (d_a d) (process_message (d_s d) vm) = (d_a d, Err LE_NotExpected) /\ (forall p, ~ accepted (d_s d) es (vm_from vm) p).
  Proof.
    intros Hs Hr Hin Ht Hx. destruct (round_hist (round_start_fresh Hs) Hr Hin) as [Hh Hss]. rewrite <- Hss in Hh.
    unfold add_processed, process_message. cbn [pm_msg pm_res].
    destruct (contains (vm_from vm) (a_payloads (d_a d))) eqn:Ep.
    - left. split; auto. apply contains_get in Ep as [p Ep]. exists p. now apply (h_payload Hh).
    - right. apply contains_false in Ep. destruct (mem (vm_from vm) (a_waiting (d_a d))) eqn:Ew.
      + apply (h_waiting Hh) in Ew as [W1 W2]. exfalso. tauto.
      + split; auto. intros p Hp. apply (h_payload Hh) in Hp. congruence.
  Qed.

  (** ** Ending a session *)
  Lemma merge_new_fails {V} err (all new : bmap Verifier V) :
    (exists x, merge_new err all new = Ok x) \/ merge_new err all new = Err err.
  Proof.
    unfold merge_new. generalize (to_list new). intros l. revert all. induction l as [|[k y] l IH]; simpl; intros all; [eauto|].
    destruct (contains k all); simpl; auto.
  Qed.

  (** What is noted in a round about parties banned before. *)
  Record again d0 es d : Prop := {
    ag_todo : forall vm, In vm (d_todo d) -> tr_is_banned (s_tr (d_s d0)) (vm_from vm) = true -> In vm (d_todo d0);
    ag_provable : forall v x, get v (a_provable (d_a d)) = Some x -> tr_is_banned (s_tr (d_s d0)) v = true ->
      exists vm e, vm_from vm = v /\ In vm (d_todo d0) /\ In (EProc vm) es /\ answer (d_s d0) vm = Err e /\ provable e;
    ag_unprovable : forall v x, get v (a_unprovable (d_a d)) = Some x -> tr_is_banned (s_tr (d_s d0)) v = true ->
      exists vm e, vm_from vm = v /\ In vm (d_todo d0) /\ In (EProc vm) es /\ answer (d_s d0) vm = Err (RUnprovable e)
  }.
  Lemma again_run d0 es d : round_start d0 -> run d0 es d -> in_round es -> again d0 es d.
  Proof.
    intros Hs Hr. induction Hr as [d|d es d1 x d2 Hr IH Hst]; intros Hin.
    { pose proof (round_start_fresh Hs) as E. constructor; auto; intros v x H; rewrite E in H; simpl in H; rewrite get_empty in H; discriminate. }
    apply in_round_app in Hin as [Hin He]. specialize (IH Hs Hin). destruct IH as [A1 A2 A3].
    pose proof (proj2 (round_hist (round_start_fresh Hs) Hr Hin)) as Hss.
    assert (B2 : forall v x0, get v (a_provable (d_a d1)) = Some x0 -> tr_is_banned (s_tr (d_s d)) v = true ->
      exists vm e, vm_from vm = v /\ In vm (d_todo d) /\ In (EProc vm) (es ++ [x]) /\ answer (d_s d) vm = Err e /\ provable e).
    { intros v x0 H1 H2. destruct (A2 _ _ H1 H2) as (vm & e & ? & ? & ? & ?). exists vm, e. rewrite in_app_iff. tauto. }
    assert (B3 : forall v x0, get v (a_unprovable (d_a d1)) = Some x0 -> tr_is_banned (s_tr (d_s d)) v = true ->
      exists vm e, vm_from vm = v /\ In vm (d_todo d) /\ In (EProc vm) (es ++ [x]) /\ answer (d_s d) vm = Err (RUnprovable e)).
    { intros v x0 H1 H2. destruct (A3 _ _ H1 H2) as (vm & e & ? & ? & ? & ?). exists vm, e. rewrite in_app_iff. tauto. }
    destruct x as [from m o|vm|g dest art|g]; [| | |discriminate He].
    - assert (K : tr_is_banned (s_tr (d_s d)) from = true -> banned (d_s d1) (d_a d1) from).
      { intros K. rewrite <- Hss in K. apply banned_bool. now rewrite K. }
      inv Hst. simpl in *. match goal with X : preprocess_message _ _ _ _ = _ |- _ => apply preprocess_cases in X; inv X end; constructor; simpl in *; eauto.
      + intros v x. rewrite get_insert. destruct (eqb_spec v from) as [->|]; [|eauto]. intros _ Hb. exfalso. auto.
      + intros vm [<-|H] Hb; eauto. exfalso. simpl in Hb. auto.
    - inv Hst. simpl in *.
      assert (Hv : tr_is_banned (s_tr (d_s d)) (vm_from vm) = true -> In vm (d_todo d)) by (apply A1; rewrite in_app_iff; simpl; auto).
      assert (Ht : forall vm', In vm' (t1 ++ t2) -> tr_is_banned (s_tr (d_s d)) (vm_from vm') = true -> In vm' (d_todo d)).
      { intros vm' H'. apply A1. apply in_app_iff in H'. apply in_app_iff. simpl. tauto. }
      match goal with X : add_processed _ _ _ = _ |- _ => apply add_processed_ok in X as (_ & _ & Hc) end.
      inv Hc; constructor; simpl in *; eauto.
      + intros v x. rewrite get_insert. destruct (eqb_spec v (vm_from vm)) as [->|]; [|eauto]. intros _ Hb.
        exists vm, e. split; auto. split; auto. split; [rewrite in_app_iff; simpl; auto|]. split; auto.
        destruct e; simpl; auto; match goal with X : False |- _ => destruct X end.
      + intros v x. rewrite get_insert. destruct (eqb_spec v (vm_from vm)) as [->|]; [|eauto]. intros _ Hb.
        exists vm, e. split; auto. split; auto. split; [rewrite in_app_iff; simpl; auto|]. auto.
    - inv Hst. simpl in *. match goal with X : add_artifact _ _ = _ |- _ => apply add_artifact_ok in X as [_ ->] end. constructor; simpl; eauto.
  Qed.

  (** What is answered with an error is noted. *)
  Lemma noted_run d0 es d vm e : round_start d0 -> run d0 es d -> in_round es -> In (EProc vm) es -> answer (d_s d0) vm = Err e ->
    (provable e -> exists x, get (vm_from vm) (a_provable (d_a d)) = Some x) /\
    (forall u, e = RUnprovable u -> exists x, get (vm_from vm) (a_unprovable (d_a d)) = Some x).
  Proof.
    intros Hs Hr. induction Hr as [d|d es d1 x d2 Hr IH Hst]; intros Hin Hp Ha; [destruct Hp|].
    apply in_round_app in Hin as [Hin He]. specialize (IH Hs Hin).
    pose proof (proj2 (round_hist (round_start_fresh Hs) Hr Hin)) as Hss.
    apply in_snoc in Hp as [Hp|<-].
    - destruct (IH Hp Ha) as [I1 I2].
      assert (M : (forall v, (exists y, get v (a_provable (d_a d1)) = Some y) -> exists y, get v (a_provable (d_a d2)) = Some y) /\
                  (forall v, (exists y, get v (a_unprovable (d_a d1)) = Some y) -> exists y, get v (a_unprovable (d_a d2)) = Some y)).
      { destruct x as [from m o|vm'|g dest art|g]; [| | |discriminate He]; inv Hst; simpl.
        - match goal with X : preprocess_message _ _ _ _ = _ |- _ => apply preprocess_cases in X; inv X end; simpl; split; auto.
          intros v Hy. rewrite get_insert. destruct (eqb v from); eauto.
        - match goal with X : add_processed _ _ _ = _ |- _ => apply add_processed_ok in X as (_ & _ & Hc) end.
          inv Hc; simpl; split; auto; intros v Hy; rewrite get_insert; destruct (eqb v (vm_from vm')); eauto.
        - match goal with X : add_artifact _ _ = _ |- _ => apply add_artifact_ok in X as [_ ->] end. auto. }
      destruct M as [M1 M2]. split; [auto|]. intros u Hu. apply M2. eauto.
    - inv Hst. simpl in *.
      match goal with X : add_processed _ _ _ = _ |- _ => apply add_processed_ok in X as (_ & _ & Hc) end.
      inv Hc; simpl; rewrite Ha in *; try discriminate; match goal with X : Err _ = Err _ |- _ => inv X end.
      + split; [intros _; rewrite get_insert, eqb_refl; eauto|]. intros u ->. match goal with X : False |- _ => destruct X end.
      + split; [intros []|]. intros u _. rewrite get_insert, eqb_refl. eauto.
  Qed.

  Lemma terminate_fails_iff d0 es d :
    round_start d0 -> run d0 es d -> in_round es -> contains (s_round_id (d_s d)) (tr_echo (s_tr (d_s d))) = false ->
    ((exists e, terminate (d_s d) (d_a d) = Err e) <-> blamed_again d0 es) /\
    ((exists rep, terminate (d_s d) (d_a d) = Ok rep) <-> ~ blamed_again d0 es).
  Proof.
    intros Hs Hr Hin Hn. pose proof (reachable_run (round_start_reachable Hs) Hr) as Hre.
    pose proof (proj2 (round_hist (round_start_fresh Hs) Hr Hin)) as Hss.
    destruct (reachable_keys Hre) as [K1 K2]. pose proof (reachable_no_missing Hre) as Hm.
    destruct (again_run Hs Hr Hin) as [_ A2 A3]. pose proof (round_start_fresh Hs) as E0.
    assert (N1 : forall v ev, has_evidence d0 v ev <-> get v (tr_provable (s_tr (d_s d0))) = Some ev).
    { intros v ev. unfold has_evidence. rewrite E0. simpl. rewrite get_empty. intuition discriminate. }
    assert (N2 : forall v, has_unprovable d0 v <-> exists x, get v (tr_unprovable (s_tr (d_s d0))) = Some x).
    { intros v. unfold has_unprovable. rewrite E0. simpl. split; auto. intros [H|[x H]]; auto. rewrite get_empty in H. discriminate. }
    assert (F : (exists e, terminate (d_s d) (d_a d) = Err e) -> blamed_again d0 es).
    { intros [e H]. unfold terminate, terminate_inner, close_round, tr_update in H. rewrite K1, K2, Hn, Hm, contains_empty in H. cbn [bind] in H.
      rewrite Hss in H.
      destruct (merge_new LE_TrProvable (tr_provable (s_tr (d_s d0))) (a_provable (d_a d))) as [x|x|] eqn:M1; cbn [bind] in H.
      - destruct (merge_new LE_TrUnprovable (tr_unprovable (s_tr (d_s d0))) (a_unprovable (d_a d))) as [y|y|] eqn:M2; cbn [bind] in H; try discriminate.
        assert (X : exists v, contains v (tr_unprovable (s_tr (d_s d0))) = true /\ contains v (a_unprovable (d_a d)) = true).
        { destruct (existsb (fun v => contains v (tr_unprovable (s_tr (d_s d0)))) (map fst (to_list (a_unprovable (d_a d))))) eqn:Ex.
          - apply existsb_exists in Ex as (v & Hv & Hc). exists v. split; auto. apply in_map_iff in Hv as ([k z] & <- & Hv).
            apply in_to_list in Hv. apply contains_get. simpl. eauto.
          - exfalso. destruct (merge_new_ok LE_TrUnprovable (tr_unprovable (s_tr (d_s d0))) (a_unprovable (d_a d))) as [z Hz]; [|congruence].
            intros v z Hz. destruct (get v (tr_unprovable (s_tr (d_s d0)))) eqn:Eg; auto. exfalso.
            rewrite <- not_true_iff_false in Ex. apply Ex. apply existsb_exists. exists v. split; [|apply contains_get; eauto].
            apply in_map_iff. exists (v, z). split; auto. now apply in_to_list. }
        destruct X as (v & X1 & X2). apply contains_get in X2 as [x2 X2]. apply contains_get in X1 as [x1 X1].
        destruct (A3 _ _ X2) as (vm & u & <- & T1 & T2 & T3).
        { unfold tr_is_banned. apply orb_true_iff. right. apply contains_get. eauto. }
        exists vm, (RUnprovable u). split; auto. split; auto. split; auto. right. exists u. split; auto. apply N2. eauto.
      - assert (X : exists v, contains v (tr_provable (s_tr (d_s d0))) = true /\ contains v (a_provable (d_a d)) = true).
        { destruct (existsb (fun v => contains v (tr_provable (s_tr (d_s d0)))) (map fst (to_list (a_provable (d_a d))))) eqn:Ex.
          - apply existsb_exists in Ex as (v & Hv & Hc). exists v. split; auto. apply in_map_iff in Hv as ([k z] & <- & Hv).
            apply in_to_list in Hv. apply contains_get. simpl. eauto.
          - exfalso. destruct (merge_new_ok LE_TrProvable (tr_provable (s_tr (d_s d0))) (a_provable (d_a d))) as [z Hz]; [|congruence].
            intros v z Hz. destruct (get v (tr_provable (s_tr (d_s d0)))) eqn:Eg; auto. exfalso.
            rewrite <- not_true_iff_false in Ex. apply Ex. apply existsb_exists. exists v. split; [|apply contains_get; eauto].
            apply in_map_iff. exists (v, z). split; auto. now apply in_to_list. }
        destruct X as (v & X1 & X2). apply contains_get in X2 as [x2 X2]. apply contains_get in X1 as [x1 X1].
        destruct (A2 _ _ X2) as (vm & u & <- & T1 & T2 & T3 & T4).
        { unfold tr_is_banned. apply orb_true_iff. left. apply contains_get. eauto. }
        exists vm, u. split; auto. split; auto. split; auto. left. split; auto. exists x1. now apply N1.
      - discriminate. }
    assert (B : blamed_again d0 es -> forall rep, terminate (d_s d) (d_a d) <> Ok rep).
    { intros (vm & e & T1 & T2 & T3 & T4) rep H. unfold terminate, terminate_inner in H. apply bind_ok in H as (t & H & _).
      unfold close_round, tr_update in H. rewrite K1, K2, Hn, Hm, contains_empty in H. cbn [bind] in H. rewrite Hss in H.
      apply bind_ok in H as (x & M1 & H). apply bind_ok in H as (y & M2 & H).
      destruct (noted_run vm Hs Hr Hin T2 T3) as [Q1 Q2]. destruct T4 as [[Hp [ev Hev]]|(u & -> & Hu)].
      - destruct (Q1 Hp) as [z Hz]. apply N1 in Hev. rewrite (merge_new_disj _ _ _ M1 _ Hz) in Hev. discriminate.
      - destruct (Q2 u eq_refl) as [z Hz]. apply N2 in Hu as [w Hu]. rewrite (merge_new_disj _ _ _ M2 _ Hz) in Hu. discriminate. }
    assert (D : (exists rep, terminate (d_s d) (d_a d) = Ok rep) \/ (exists e, terminate (d_s d) (d_a d) = Err e)).
    { unfold terminate, terminate_inner, close_round, tr_update. rewrite K1, K2, Hn, Hm, contains_empty. cbn [bind].
      destruct (merge_new_fails LE_TrProvable (tr_provable (s_tr (d_s d))) (a_provable (d_a d))) as [[x ->]| ->]; cbn [bind]; [|eauto].
      destruct (merge_new_fails LE_TrUnprovable (tr_unprovable (s_tr (d_s d))) (a_unprovable (d_a d))) as [[y ->]| ->]; cbn [bind]; eauto. }
    split; split; auto.
    - intros Hb. destruct D as [[rep D]|D]; auto. exfalso. exact (B Hb _ D).
    - intros [rep H] Hb. exact (B Hb _ H).
    - intros Hb. destruct D as [D|D]; auto. exfalso. auto.
  Qed.
End Exact.
