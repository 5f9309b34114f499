(** Proofs about parties that are waited for in vain, and about messages that their sender did not sign. *)
From Coq Require Import List NArith Bool.
From Verif Require Import Base BMap Errors RoundId Message Protocol Transcript Evidence Session Spec MessageFacts SessionFacts RunFacts
  IntakeFacts RoundFacts HistoryFacts Network RunSync Driver SpecDriver DriverFacts Par SpecPar ParFacts SpecForge.
Import ListNotations.
Set Implicit Arguments.

Section WithParams.
  Context {P : Params}.
  Context {Pr : Proto}.
  Implicit Types (s : Session Pr) (a : Accum Pr) (d : DState Pr) (es : list (event Pr)).

  (** The round waits for [v], whose messages are ignored. *)
  Record stuck s a (v : Verifier) : Prop := {
    sk_waiting : mem v (a_waiting a) = true;
    sk_expect : mem v (a_expect a) = true;
    sk_payload : get v (a_payloads a) = None;
    sk_banned : banned s a v
  }.

  Lemma stuck_notyet s a v : stuck s a v -> can_finalize a = NotYet.
  Proof.
    intros [H1 H2 H3 _]. unfold can_finalize.
    assert (E : forallb (fun k => contains k (a_payloads a)) (elements (a_expect a)) = false).
    { apply Bool.not_true_is_false. intros E. rewrite forallb_forall in E. apply in_elements in H2. apply E in H2.
      apply contains_get in H2 as [x Hx]. congruence. }
    rewrite E. destruct (is_empty (a_waiting a)) eqn:Ee; [|reflexivity].
    rewrite is_empty_get in Ee. apply contains_get in H1 as [x Hx]. congruence.
  Qed.

  Lemma stuck_pre s a v from m a' o : stuck s a v -> preprocess_message s a from m = (a', Ok o) ->
    stuck s a' v /\ forall vm, o = ToProcess vm -> vm_from vm <> v.
  Proof.
    intros K H. pose proof K as [K1 K2 K3 K4]. destruct (eqb_spec from v) as [->|Hne].
    - rewrite banned_inert in H by auto. inv H. split; [exact K|discriminate].
    - split.
      + pose proof (step_pre (Pr := Pr) s a [] from m H) as St. apply preprocess_cases in H. inv H; constructor; simpl; auto.
        destruct K4 as [B|[B|[B|[e1 B]]]]; unfold banned; simpl; eauto. right; right; right. exists e1. now rewrite get_insert_ne by auto.
      + intros vm ->. apply preprocess_cases in H. inv H. auto.
  Qed.

  Arguments stuck_pre {s a v from m a' o} _ _.

  Lemma stuck_add s a v pm a' : stuck s a v -> vm_from (pm_msg pm) <> v -> add_processed s a pm = (a', Ok tt) -> stuck s a' v.
  Proof.
    intros [K1 K2 K3 K4] Hne H. unfold add_processed in H. destruct pm as [vm res]. cbn [pm_msg pm_res] in *.
    destruct (contains (vm_from vm) (a_payloads a)); [discriminate|]. destruct (negb (mem (vm_from vm) (a_waiting a))); [discriminate|].
    assert (W : mem v (srem (vm_from vm) (a_waiting a)) = true).
    { rewrite mem_rem, K1. destruct (eqb_spec v (vm_from vm)); [congruence|reflexivity]. }
    assert (B1 : banned s (set_waiting a (srem (vm_from vm) (a_waiting a))) v) by exact K4.
    set (a1 := set_waiting a (srem (vm_from vm) (a_waiting a))) in *.
    assert (S1 : stuck s a1 v) by (constructor; auto).
    assert (Reg : forall ev, register_provable a1 (vm_from vm) ev = (a', Ok tt) -> stuck s a' v).
    { intros ev R. apply register_provable_ok in R as [_ ->]. constructor; auto.
      destruct B1 as [B|[B|[[e1 B]|B]]]; unfold banned; simpl; eauto. right; right; left. exists e1. now rewrite get_insert_ne by auto. }
    destruct res as [p|[]|]; try discriminate; try (eapply Reg; eassumption).
    - inv H. constructor; simpl; auto. now rewrite get_insert_ne by auto.
    - destruct (new_provable_error _ _ _ _ _ _); try discriminate. eapply Reg; eassumption.
    - inv H. constructor; auto. destruct B1 as [B|[B|[B|[e1 B]]]]; unfold banned; simpl; eauto. right; right; right. exists e1. now rewrite get_insert_ne by auto.
  Qed.

  Arguments stuck_add {s a v pm a'} _ _ _.

  Lemma stuck_artifact s a v pa a' : stuck s a v -> add_artifact a pa = (a', Ok tt) -> stuck s a' v.
  Proof. intros [K1 K2 K3 K4] H. apply add_artifact_ok in H as [_ ->]. now constructor. Qed.

  Arguments stuck_artifact {s a v pa a'} _ _.

  (** ** The session *)
  Lemma waiting_stuck d v : reachable d -> mem v (a_waiting (d_a d)) = true -> banned (d_s d) (d_a d) v -> stuck (d_s d) (d_a d) v.
  Proof.
    intros Hre Hw Hb. destruct (reachable_round Hre) as (d0 & es & Hs & Hr & Hin). pose proof (round_history Hs Hr Hin) as H.
    constructor; auto.
    - rewrite (h_expect H). apply (h_waiting H) in Hw. apply Hw.
    - apply (h_waiting H) in Hw as [_ Hh]. destruct (get v _) eqn:E; auto. destruct Hh. apply (h_payload H) in E. eapply accepted_heard; eauto.
  Qed.

  Lemma waits_on d v es d' : reachable d -> mem v (a_waiting (d_a d)) = true -> banned (d_s d) (d_a d) v ->
    (forall vm, In vm (d_todo d) -> vm_from vm <> v) -> run d es d' -> in_round es /\ can_finalize (d_a d') = NotYet.
  Proof.
    intros Hre Hw Hb Ht Hr.
    enough (K : in_round es /\ stuck (d_s d') (d_a d') v /\ (forall vm, In vm (d_todo d') -> vm_from vm <> v)).
    { destruct K as (K1 & K2 & _). split; auto. eapply stuck_notyet; eauto. }
    pose proof (waiting_stuck Hre Hw Hb) as K0. clear Hre Hw Hb.
    induction Hr as [d|d es d1 e d2 Hr IH St]; [split; [reflexivity|auto]|].
    destruct (IH Ht K0) as (I1 & I2 & I3). clear IH. unfold in_round in *. rewrite forallb_app, I1. cbn [forallb andb].
    inv St; cbn [d_s d_a d_todo is_fin negb andb] in *.
    - split; auto. destruct (stuck_pre I2 H) as [S1 S2]. split; auto. intros vm. destruct o; cbn; auto. intros [<-|Hv]; auto.
    - split; auto. split.
      + refine (stuck_add I2 _ H). apply I3, in_elt.
      + intros vm' Hv. apply I3. apply in_app_or in Hv. apply in_or_app. simpl. tauto.
    - split; auto. split; auto. eapply stuck_artifact; eauto.
    - rewrite (stuck_notyet I2) in H. discriminate.
  Qed.

  (** ** [run_session] *)
  Lemma drv_waits_on r s a v ls (d : Drv Pr) : stuck s a v -> drv_run r (DrvWait s a) ls d -> ~ In LCancel ls ->
    (forall s' a', ~ In (LFinalize s' a') ls) /\ ((exists a', d = DrvWait s a' /\ stuck s a' v) \/ (exists e, d = DrvDone (Err e)) \/ d = DrvDone Panic).
  Proof.
    intros K H. remember (DrvWait s a) as d0 eqn:E0. revert K E0. induction H as [d|d0 ls d1 i ls' d2 H IH St]; intros K E0 C.
    - subst. split; [intros s' a' []|]. left. eauto.
    - assert (C1 : ~ In LCancel ls) by (intros X; apply C, in_or_app; auto).
      assert (C2 : ~ In LCancel ls') by (intros X; apply C, in_or_app; auto).
      destruct (IH K E0 C1) as [F [(a' & -> & K')|[[e ->]| ->]]]; [|discriminate|discriminate].
      cbn [drv_step] in St. rewrite (stuck_notyet K') in St. destruct i as [| |from m| |]; try discriminate.
      + inv St. split.
        { intros s' a'' X. apply in_app_or in X as [X|[X|[]]]; [eapply F; eauto|discriminate]. }
        unfold acc_call. destruct (preprocess_message s a' from m) as [a1 [o|e|]] eqn:Ep; cbn [bind drv_try]; eauto.
        destruct (stuck_pre K' Ep) as [K1 N]. cbn [fst snd]. destruct o as [vm| |]; eauto.
        unfold deliver_one, acc_call. destruct (add_processed s a1 (process_message s vm)) as [a2 [[]|e|]] eqn:Ea; cbn [bind drv_try]; eauto.
        left. exists a2. split; auto. refine (stuck_add K1 _ Ea). apply (N vm); auto.
      + inv St. split; eauto. intros s' a'' X. apply in_app_or in X as [X|[X|[]]]; [eapply F; eauto|discriminate].
      + inv St. destruct C2. now left.
  Qed.

  Lemma session_waits_on r (s0 : Session Pr) l1 s a v l2 (d : Drv Pr) : initial s0 -> run_session r s0 l1 (DrvWait s a) ->
    mem v (a_waiting a) = true -> banned s a v -> drv_run r (DrvWait s a) l2 d -> ~ In LCancel l2 ->
    (forall s' a', ~ In (LFinalize s' a') l2) /\ forall rep, d <> DrvDone (Ok rep).
  Proof.
    intros Hi H Hw Hb H2 C. pose proof (session_state Hi H eq_refl) as Hre.
    destruct (drv_waits_on (waiting_stuck Hre Hw Hb) H2 C) as [F D]. split; [exact F|].
    intros rep ->. destruct D as [(a' & E & _)|[[e E]|E]]; discriminate.
  Qed.

  (** ** [par_run_session] *)
  Definition left_out (x : PState Pr) (v : Verifier) : Prop :=
    stuck (pp_s x) (pp_a x) v /\ pp_phase x = Loop /\ forall vm, In vm (handed x) -> vm_from vm <> v.

  Lemma in_set_nth {A} i (y z : A) l : In z (set_nth i y l) -> z = y \/ In z l.
  Proof. revert i; induction l as [|b l IH]; intros [|i]; simpl; try tauto; intros [->|H]; auto. apply IH in H. tauto. Qed.

  Definition task_of (t : ptask Pr) : list VMessage := match t with PMake vm => [vm] | PSend pm => [pm_msg pm] | PEnd _ => [] end.
  Lemma tasks_set i t t0 (l : list (ptask Pr)) vm : nth_error l i = Some t0 -> (forall vm, In vm (task_of t) -> In vm (task_of t0)) ->
    In vm (flat_map task_of (set_nth i t l)) -> In vm (flat_map task_of l).
  Proof.
    intros Hn Ht H. apply in_flat_map in H as (u & Hu & Hv). apply in_flat_map. apply in_set_nth in Hu as [->|Hu]; [|eauto].
    exists t0. split; auto. eapply nth_error_In; eauto.
  Qed.

  Lemma par_waits_on_step r x v act ls p : left_out x v -> par_step r (PRun x) act = Some (ls, p) -> ~ In LCancel ls ->
    (forall s' a', ~ In (LFinalize s' a') ls) /\ ((exists y, p = PRun y /\ pp_s y = pp_s x /\ left_out y v) \/ (exists e, p = PStop (Err e)) \/ p = PStop Panic).
  Proof.
    intros (K & Ph & N) St C. pose proof (stuck_notyet K) as Y.
    assert (NF : forall s' a' (l : list (dlabel Pr)), (match l with [] => True | [LFinalize _ _] => False | [_] => True | _ => False end) -> ~ In (LFinalize s' a') l).
    { intros s' a' [|b [|c l]] H X; [destruct X| |destruct b; exact H]. destruct X as [->|[]]. exact H. }
    cbn [par_step] in St. destruct act as [i|i| |sent| |from m| | |].
    - destruct (nth_error (pp_c x) i) as [[dest|dest m pa|o]|]; try discriminate.
      + inv St. split; [intros; now apply NF|]. left. eexists. split; [reflexivity|]. split; [reflexivity|]. split; [exact K|]. split; [exact Ph|exact N].
      + destruct (Nat.ltb _ _); [|discriminate]. inv St. split; [intros; now apply NF|]. left. eexists. split; [reflexivity|]. split; [reflexivity|]. split; [exact K|]. split; [exact Ph|exact N].
    - destruct (nth_error (pp_p x) i) as [[vm|pm|o]|] eqn:En; try discriminate.
      + inv St. split; [intros; now apply NF|]. left. eexists. split; [reflexivity|]. split; [reflexivity|]. split; [exact K|]. split; [exact Ph|].
        intros vm' Hv. apply N. unfold handed in *. cbn [pp_p pp_proc set_p] in Hv. apply in_app_or in Hv. apply in_or_app. destruct Hv as [Hv|Hv]; [left|now right].
        refine (@tasks_set i _ (PMake vm) _ _ En _ Hv). intros w. destruct (rd_receive _ _ _); simpl; tauto.
      + destruct (Nat.ltb _ _); [|discriminate]. inv St. split; [intros; now apply NF|]. left. eexists. split; [reflexivity|]. split; [reflexivity|]. split; [exact K|]. split; [exact Ph|].
        intros vm' Hv. apply N. unfold handed in *. cbn [pp_p pp_proc set_p set_proc] in Hv. rewrite map_app in Hv. apply in_app_or in Hv. apply in_or_app.
        destruct Hv as [Hv|Hv].
        * left. refine (@tasks_set i _ (PSend pm) _ _ En _ Hv). simpl; tauto.
        * apply in_app_or in Hv as [Hv|[<-|[]]]; [now right|]. left. apply in_flat_map. exists (PSend pm). split; [eapply nth_error_In; eauto|simpl; auto].
    - destruct (pp_hand x); [discriminate|]. destruct (pp_out x) eqn:Eo; [discriminate|]. destruct (looks x); [|discriminate]. inv St.
      split; [intros; now apply NF|]. left. eexists. split; [reflexivity|]. split; [reflexivity|]. split; [exact K|]. split; [exact Ph|exact N].
    - destruct (pp_hand x); [|discriminate]. unfold put_out in St. destruct (pp_out x) as [|[[dest m] pa] out]; [discriminate|].
      destruct (add_artifact (pp_a x) pa) as [a1 q] eqn:Ea. destruct sent; inv St; (split; [intros; now apply NF|]); eauto.
      destruct q as [[]|e|]; cbn; eauto.
      left. eexists. split; [reflexivity|]. split; [reflexivity|]. split; [exact (stuck_artifact K Ea)|]. split; [exact Ph|exact N].
    - destruct (pp_hand x); [discriminate|]. rewrite Ph, Y in St. destruct (pp_proc x) as [|pm q] eqn:Eq; [discriminate|]. inv St.
      split; [intros; now apply NF|]. unfold acc_call. destruct (add_processed (pp_s x) (pp_a x) pm) as [a1 [[]|e|]] eqn:Ea; cbn [bind par_try]; eauto.
      left. eexists. split; [reflexivity|]. split; [reflexivity|]. split; [|split; [exact Ph|]].
      + refine (stuck_add K _ Ea). apply N. unfold handed. rewrite Eq. apply in_or_app. right. now left.
      + intros vm Hv. apply N. unfold handed in *. rewrite Eq. cbn [pp_p pp_proc set_acc set_proc] in Hv. apply in_app_or in Hv. apply in_or_app. simpl. tauto.
    - destruct (pp_hand x); [discriminate|]. rewrite Ph, Y in St. inv St. split; [intros; now apply NF|].
      unfold acc_call. destruct (preprocess_message (pp_s x) (pp_a x) from m) as [a1 [o|e|]] eqn:Ep; cbn [bind par_try]; eauto.
      destruct (stuck_pre K Ep) as [K1 N1]. cbn [fst snd]. left. eexists. split; [reflexivity|].
      destruct o as [vm| |]; (split; [reflexivity|]); (split; [exact K1|]); (split; [exact Ph|]); auto.
      intros vm' Hv. unfold handed in Hv. cbn [pp_p pp_proc set_p set_acc] in Hv. rewrite flat_map_app in Hv.
      apply in_app_or in Hv as [Hv|Hv]; [apply in_app_or in Hv as [Hv|[<-|[]]]|]; [apply N, in_or_app; now left|now apply N1|apply N, in_or_app; now right].
    - destruct (pp_hand x); [discriminate|]. rewrite Ph, Y in St. inv St. split; [intros; now apply NF|]. eauto.
    - destruct (pp_hand x); [discriminate|]. rewrite Ph, Y in St. inv St. destruct C. now left.
    - destruct (pp_hand x); [discriminate|]. rewrite Ph, Y in St. discriminate.
  Qed.

  Lemma par_waits_on r x v ls p : left_out x v -> par_run r (PRun x) ls p -> ~ In LCancel ls ->
    (forall s' a', ~ In (LFinalize s' a') ls) /\ ((exists y, p = PRun y /\ left_out y v) \/ (exists e, p = PStop (Err e)) \/ p = PStop Panic).
  Proof.
    intros K H. remember (PRun x) as p0 eqn:E0. revert K E0. induction H as [p|p0 ls p1 act ls' p2 H IH St]; intros K E0 C.
    - subst. split; [intros s' a' []|]. left. eauto.
    - assert (C1 : ~ In LCancel ls) by (intros X; apply C, in_or_app; auto).
      assert (C2 : ~ In LCancel ls') by (intros X; apply C, in_or_app; auto).
      destruct (IH K E0 C1) as [F [(y & -> & K')|[[e ->]| ->]]]; [|discriminate|discriminate].
      destruct (par_waits_on_step _ _ K' St C2) as [F2 D]. split.
      + intros s' a' X. apply in_app_or in X as [X|X]; [eapply F|eapply F2]; eauto.
      + destruct D as [(z & -> & _ & Kz)|D]; eauto.
  Qed.

  Lemma par_session_waits_on r (s0 : Session Pr) l1 x v l2 p : initial s0 -> par_session r s0 l1 (PRun x) -> pp_phase x = Loop ->
    mem v (a_waiting (pp_a x)) = true -> banned (pp_s x) (pp_a x) v -> (forall vm, In vm (handed x) -> vm_from vm <> v) ->
    par_run r (PRun x) l2 p -> ~ In LCancel l2 ->
    (forall s' a', ~ In (LFinalize s' a') l2) /\ forall rep, p <> PStop (Ok rep).
  Proof.
    intros Hi H Ph Hw Hb N H2 C. destruct (par_state Hi H) as (todo & Hre & _).
    assert (K : left_out x v) by (split; [exact (waiting_stuck Hre Hw Hb)|auto]).
    destruct (par_waits_on K H2 C) as [F D]. split; [exact F|].
    intros rep ->. destruct D as [(y & E & _)|[[e E]|E]]; discriminate.
  Qed.

  (** ** Forged messages *)
  Definition noted a (v : Verifier) (e : RemoteError) : Accum Pr := set_unprovable a (insert v e (a_unprovable a)).

  Lemma forged_noted d from m : plain_ids Pr -> (forall mt, ser_meta mt <> None) -> reachable d -> ~ banned (d_s d) (d_a d) from ->
    forged (d_s d) from m -> exists e, preprocess_message (d_s d) (d_a d) from m = (noted (d_a d) from e, Ok (PreError e)).
  Proof.
    intros Hp Hm Hre Nb Na. destruct (preprocess_total from m Hp Hm Hre) as (a' & o & E). pose proof (preprocess_cases _ _ _ _ E) as C.
    inv C; try contradiction.
    - exists e. exact E.
    - exfalso. eapply Na; eauto.
    - exfalso. eapply Na; eauto.
  Qed.

  Lemma forged_bans d from m : plain_ids Pr -> (forall mt, ser_meta mt <> None) -> reachable d -> ~ banned (d_s d) (d_a d) from ->
    forged (d_s d) from m -> exists e a', preprocess_message (d_s d) (d_a d) from m = (a', Ok (PreError e)) /\ only_notes (d_a d) from e a'.
  Proof.
    intros Hp Hm Hre Nb Na. destruct (forged_noted Hp Hm Hre Nb Na) as (e & E). exists e, (noted (d_a d) from e). split; [exact E|].
    unfold only_notes, noted. cbn. repeat (split; [reflexivity|]). split; [apply get_insert_eq|]. intros u Hu. now apply get_insert_ne.
  Qed.

  Lemma noted_banned s a v e : banned s (noted a v e) v.
  Proof. right; right; right. exists e. simpl. now rewrite get_insert_eq. Qed.

  (** Sent to a party that waits for [from], such a message makes it wait for ever. *)
  Lemma forged_blocks r (s0 : Session Pr) ls s a from m : plain_ids Pr -> (forall mt, ser_meta mt <> None) -> initial s0 ->
    run_session r s0 ls (DrvWait s a) -> mem from (a_waiting a) = true -> ~ banned s a from -> forged s from m ->
    exists a', drv_step r (DrvWait s a) (IRecv from m) = Some ([LIn from m], DrvWait s a') /\ banned s a' from /\ blocked r (DrvWait s a').
  Proof.
    intros Hp Hm Hi H Hw Nb Na. pose proof (session_state Hi H eq_refl) as Hre.
    destruct (forged_noted Hp Hm Hre Nb Na) as (e & E). cbn [d_s d_a] in E.
    assert (Y : can_finalize a = NotYet).
    { destruct (reachable_round Hre) as (d0 & es & Hs & Hr & Hin). apply notyet_iff. split; [|eauto].
      intros Y. pose proof (yes_waiting_empty Hs Hr Hin Y) as X. simpl in X. rewrite is_empty_get in X. apply contains_get in Hw as [z Hz]. congruence. }
    exists (noted a from e).
    assert (St : drv_step r (DrvWait s a) (IRecv from m) = Some ([LIn from m], DrvWait s (noted a from e))).
    { cbn [drv_step]. rewrite Y, E. reflexivity. }
    split; [exact St|]. split; [apply noted_banned|].
    assert (H' : run_session r s0 (ls ++ [LIn from m]) (DrvWait s (noted a from e))).
    { destruct H as (ls' & -> & H). exists (ls' ++ [LIn from m]). split; [reflexivity|]. exact (drun_snoc (IRecv from m) H St). }
    intros l2 d H2 C. refine (session_waits_on Hi H' _ (noted_banned _ _ _ _) H2 C). exact Hw.
  Qed.
End WithParams.
