(** Proofs about whole sessions: closed rounds, echo rounds, delivery from the cache, absence of panics. *)
From Coq Require Import List NArith Bool Lia.
From Verif Require Import Base BMap Errors RoundId Message Protocol Transcript Evidence Session Spec
  MessageFacts SessionFacts RunFacts IntakeFacts RoundFacts FinalizeFacts.
Import ListNotations.
Set Implicit Arguments.

Section WithParams.
  Context {P : Params}.
  Context {Pr : Proto}.
  Implicit Types (s : Session Pr) (a : Accum Pr) (d : DState Pr) (es : list (event Pr)).

  Lemma fin_cases_step d g d' : step d (EFin g) d' ->
    can_finalize (d_a d) = Yes /\ d_a d' = make_accumulator (d_s d') /\ fin_cases (d_s d) g (d_a d) (d_s d') (d_todo d').
  Proof. intros H. inv H. simpl. split; auto. split; auto. now apply finalize_another. Qed.

  Lemma fin_closed s g a s' c : fin_cases s g a s' c ->
    get (s_round_id s) (tr_echo (s_tr s)) = None /\
    forall rid, contains rid (tr_echo (s_tr s')) = true <-> rid = s_round_id s \/ contains rid (tr_echo (s_tr s)) = true.
  Proof.
    intros H.
    assert (Hx : exists t, close_round s a = Ok t /\ s_tr s' = t).
    { destruct H as [t ? ? Hc _ _ C _|t ? Hc _ _ _ C _]; exists t; split; auto; apply (cr_tr C). }
    destruct Hx as (t & Hc & ->). apply close_round_ok in Hc. split; [apply (up_echo_new Hc)|].
    intros rid. rewrite (up_echo Hc), contains_insert, orb_true_iff, eqb_eq. tauto.
  Qed.

  Lemma closed_rounds s es d : initial s -> run (start s) es d ->
    exists l, NoDup l /\ length l = fins es /\
      (forall rid, In rid l <-> contains rid (tr_echo (s_tr (d_s d))) = true) /\
      (forall rid, In rid l -> exists d', reachable d' /\ s_round_id (d_s d') = rid).
  Proof.
    intros Hi Hr. remember (start s) as d0. revert Heqd0.
    induction Hr as [d|d0 es d1 e d2 Hr IH Hs]; intros ->.
    - exists []. split; [constructor|]. split; auto. destruct Hi as (g & sid & sg & ep & Hi).
      apply session_new_ok in Hi as (st & _ & C). split; [|simpl; tauto].
      intros rid. simpl. rewrite (cr_tr C). simpl. rewrite contains_empty. intuition discriminate.
    - destruct (IH eq_refl) as (l & H1 & H2 & H3 & H4).
      unfold fins. rewrite filter_app, app_length. fold (fins es).
      destruct (is_fin e) eqn:Ef; cbn [filter]; rewrite Ef; simpl.
      + destruct e; try discriminate. destruct (fin_cases_step Hs) as (_ & _ & F).
        destruct (fin_closed F) as [F1 F2]. exists (s_round_id (d_s d1) :: l). split; [|split; [|split]].
        * constructor; auto. rewrite H3. apply contains_false in F1. congruence.
        * simpl. lia.
        * intros rid. simpl. rewrite F2, H3. intuition.
        * intros rid [<-|Hin]; auto. exists d1. split; auto. exists s, es; auto.
      + exists l. split; auto. split; [lia|]. split; auto.
        replace (d_s d2) with (d_s d1); auto. inv Hs; auto; discriminate.
  Qed.

  Lemma reclose_fails s a : contains (s_round_id s) (tr_echo (s_tr s)) = true -> close_round s a = Err LE_TrEcho.
  Proof. intros H. unfold close_round, tr_update. now rewrite H. Qed.

  Lemma reclose_finalize s a : contains (s_round_id s) (tr_echo (s_tr s)) = true ->
    (forall g, finalize_round s g a = Err LE_TrEcho) /\ terminate s a = Err LE_TrEcho /\ terminate_due_to_errors s a = Err LE_TrEcho.
  Proof.
    intros H. unfold finalize_round, terminate, terminate_due_to_errors, terminate_inner.
    rewrite (reclose_fails s a H). auto.
  Qed.

  Lemma closed_stays d es d' rid : run d es d' -> contains rid (tr_echo (s_tr (d_s d))) = true ->
    contains rid (tr_echo (s_tr (d_s d'))) = true.
  Proof.
    intros Hr H. induction Hr as [|d es d1 e d2 Hr IH Hs]; auto. specialize (IH H).
    destruct (is_fin e) eqn:Ef.
    - destruct e; try discriminate. destruct (fin_cases_step Hs) as (_ & _ & F).
      destruct (fin_closed F) as [_ F2]. apply F2; auto.
    - replace (d_s d2) with (d_s d1); auto. inv Hs; auto; discriminate.
  Qed.

  Lemma never_twice d1 g d2 es d3 : step d1 (EFin g) d2 -> run d2 es d3 -> s_round_id (d_s d3) = s_round_id (d_s d1) ->
    (forall g', finalize_round (d_s d3) g' (d_a d3) = Err LE_TrEcho) /\
    terminate (d_s d3) (d_a d3) = Err LE_TrEcho /\ terminate_due_to_errors (d_s d3) (d_a d3) = Err LE_TrEcho.
  Proof.
    intros Hs Hr E. destruct (fin_cases_step Hs) as (_ & _ & F). destruct (fin_closed F) as [_ F2].
    apply reclose_finalize. rewrite E. eapply closed_stays; eauto. apply F2; auto.
  Qed.

  Lemma reachable_id ids d : (forall st, In (ti_id (tinfo Pr st)) ids) -> reachable d ->
    In (s_round_id (d_s d)) (ids ++ map echo_of ids).
  Proof.
    intros H Hre. pose proof (reachable_sinv Hre) as I. apply in_app_iff. pose proof (si_tinfo I) as Ht. unfold s_round_id.
    destruct (si_shape I) as [st Hs|? ? st ? ? Hs _]; rewrite Hs in Ht.
    - injection Ht as <-. left. apply H.
    - right. apply rd_tinfo_echo in Ht as (t & H1 & H2). inv H1. apply ti_echo_ok in H2 as [_ ->]. simpl.
      apply in_map_iff. eauto.
  Qed.

  Lemma bounded_rounds ids s es d : (forall st, In (ti_id (tinfo Pr st)) ids) -> initial s -> run (start s) es d ->
    fins es <= 2 * length ids.
  Proof.
    intros H Hi Hr. destruct (closed_rounds Hi Hr) as (l & H1 & H2 & _ & H4).
    assert (Hincl : incl l (ids ++ map echo_of ids)).
    { intros rid Hin. destruct (H4 _ Hin) as (d' & Hd & <-). now apply reachable_id. }
    pose proof (NoDup_incl_length H1 Hincl) as Hl. rewrite app_length, map_length in Hl. lia.
  Qed.

  (** ** Echo rounds *)
  Lemma main_einfo s st : sinv s -> s_round s = RMain st ->
    s_echo_info s = make_echo_info (s_verifier s) (cinfo Pr st) (sp_body (s_echo s)).
  Proof. intros I H. rewrite (si_einfo I). destruct (main_tinfo I H) as [_ ->]. reflexivity. Qed.

  Lemma fin_echo_iff d g d' : reachable d -> step d (EFin g) d' ->
    in_echo_round (d_s d') <-> s_echo_info (d_s d) <> None.
  Proof.
    intros Hre Hs. destruct (fin_cases_step Hs) as (_ & _ & [t info echos _ Hi _ C _|t st _ Hi _ _ C _]).
    - rewrite Hi. split; [congruence|]. intros _. unfold in_echo_round. rewrite (cr_round C). eauto 10.
    - rewrite Hi. split; [|congruence]. intros (v & e & i & m & ps & arts & H). rewrite (cr_round C) in H. discriminate.
  Qed.

  Lemma echo_happens d g d' st : reachable d -> step d (EFin g) d' -> s_round (d_s d) = RMain st ->
    in_echo_round (d_s d') <->
    (ci_part (cinfo Pr st) = EPDefault /\ sp_body (s_echo (d_s d)) <> None) \/
    (exists targets, ci_part (cinfo Pr st) = EPReceive targets).
  Proof.
    intros Hre Hs Hst. rewrite (fin_echo_iff Hre Hs), (main_einfo (reachable_sinv Hre) Hst). unfold make_echo_info.
    destruct (ci_part (cinfo Pr st)) as [| |tg]; simpl.
    - destruct (sp_body (s_echo (d_s d))); simpl.
      + split; intros _; [left; split; congruence|discriminate].
      + split; [congruence|]. intros [[_ H]|[? H]]; congruence.
    - split; [congruence|]. intros [[? ?]|[? ?]]; discriminate.
    - split; [|congruence]. eauto.
  Qed.

  Lemma echo_after_echo d g d' : reachable d -> step d (EFin g) d' -> in_echo_round (d_s d) -> ~ in_echo_round (d_s d').
  Proof.
    intros Hre Hs (v & e & i & m & ps & arts & H) H'. apply (fin_echo_iff Hre Hs) in H'.
    destruct (si_shape (reachable_sinv Hre)); congruence.
  Qed.

  Definition echo_peers (ci : CommInfo) : bset Verifier :=
    match ci_part ci with EPReceive targets => targets | _ => ci_dest ci end.

  (** The state of a session that entered an echo round. *)
  Lemma echo_entered d g d' st : reachable d -> step d (EFin g) d' -> s_round (d_s d) = RMain st ->
    in_echo_round (d_s d') ->
    exists echos info, s_round (d_s d') = REcho (s_verifier (d_s d)) echos info (RMain st) (a_payloads (d_a d)) (a_artifacts (d_a d)) /\
      s_echo_info (d_s d) = Some info /\
      ei_dest info = echo_peers (cinfo Pr st) /\ ei_expect info = echo_peers (cinfo Pr st) /\
      ei_echos info = (match ci_part (cinfo Pr st) with
                       | EPReceive _ => ci_expect (cinfo Pr st)
                       | _ => sadd (s_verifier (d_s d)) (ci_expect (cinfo Pr st))
                       end) /\
      echos = insert (s_verifier (d_s d)) (s_echo (d_s d)) (a_echo (d_a d)) /\
      s_comm (d_s d') = mkComm (echo_peers (cinfo Pr st)) (echo_peers (cinfo Pr st)) EPDefault.
  Proof.
    intros Hre Hs Hst He. apply (fin_echo_iff Hre Hs) in He. pose proof (reachable_sinv Hre) as I.
    pose proof (main_einfo I Hst) as Hinfo.
    destruct (fin_cases_step Hs) as (_ & _ & [t info echos Hc Hi Hg C _|t st' _ Hi _ _ C _]); [|congruence].
    exists echos, info. rewrite Hst in C. split; [apply (cr_round C)|]. split; auto.
    apply close_round_ok in Hc. rewrite (up_echo Hc), get_insert_eq in Hg. inv Hg.
    rewrite (cr_comm C). simpl.
    rewrite Hi in Hinfo. unfold make_echo_info, echo_peers in *.
    destruct (ci_part (cinfo Pr st)) as [| |tg]; [|discriminate|]; simpl.
    - destruct (is_none _); inv Hinfo. simpl. auto.
    - inv Hinfo; simpl; auto.
  Qed.

  Lemma subset_diff {K} {OK : Ord K} (x y : bset K) : is_empty (diff x y) = true -> forall k, mem k x = true -> mem k y = true.
  Proof.
    intros H k Hk. destruct (mem k y) eqn:E; auto. exfalso. rewrite is_empty_get in H. specialize (H k).
    apply contains_false in H. change (mem k (diff x y) = false) in H. rewrite mem_diff, Hk, E in H. discriminate.
  Qed.

  Lemma echo_receive_ok echos info from m p : @echo_receive _ Pr echos info from m = Ok p ->
    p = PEmpty /\ dm_echo m = None /\ dm_direct m = None /\
    exists msg, body_echo_msg (dm_normal m) = Some msg /\
      (forall v, contains v msg = true <-> v <> from /\ mem v (ei_echos info) = true) /\
      forall v h, get v msg = Some h -> check_echo echos (v, h) = Ok tt.
  Proof.
    unfold echo_receive. intros H.
    destruct (dm_echo m); [discriminate|]. destruct (dm_direct m); [discriminate|]. cbn [is_none negb] in H.
    destruct (body_echo_msg (dm_normal m)) as [msg|]; [|discriminate].
    destruct (is_empty (diff _ (keyset msg))) eqn:E1; [|discriminate]. cbn [negb] in H.
    destruct (is_empty (diff (keyset msg) _)) eqn:E2; [|discriminate]. cbn [negb] in H.
    apply bind_ok in H as (u & H1 & H). inv H.
    split; auto. split; auto. split; auto. exists msg. split; auto. split.
    - intros v. pose proof (subset_diff _ _ E1 v) as D1. pose proof (subset_diff _ _ E2 v) as D2.
      rewrite mem_rem, andb_true_iff, negb_true_iff, eqb_neq in D1, D2.
      assert (K : mem v (keyset msg) = contains v msg).
      { unfold mem, keyset. apply contains_map_values. }
      rewrite K in *. tauto.
    - intros v h Hg. apply in_to_list in Hg. destruct u. exact (proj1 (iter_res_ok _ _) H1 _ Hg).
  Qed.

  (** ** Delivery from the cache *)
  Lemma filter_messages_nodup (c : bmap Verifier (bmap RoundId VMessage)) rid :
    (forall v m vm, get v c = Some m -> get rid m = Some vm -> vm_from vm = v) ->
    NoDup (map (@vm_from _) (filter_messages c rid)).
  Proof.
    intros H. unfold filter_messages.
    assert (H' : forall v m vm, In (v, m) (to_list c) -> get rid m = Some vm -> vm_from vm = v).
    { intros v m vm Hin. apply H. now apply in_to_list. }
    pose proof (to_list_nodup c) as Hn. revert H' Hn. generalize (to_list c) as l. clear H.
    induction l as [|[v m] l IH]; simpl; intros H Hn; [constructor|]. inv Hn.
    destruct (get rid m) as [vm|] eqn:E; simpl; [|apply IH; eauto].
    constructor; [|apply IH; eauto]. rewrite (H v m vm); auto. intros Hin. apply H2.
    apply in_map_iff in Hin as (vm' & Hf & Hin). apply in_flat_map in Hin as ([v' m'] & Hin & Hm). simpl in Hm.
    destruct (get rid m') eqn:E'; simpl in Hm; [destruct Hm as [->|[]]|contradiction].
    rewrite (H v' m' vm') in Hf; auto. subst v'. apply in_map_iff. exists (v, m'); auto.
  Qed.

  Lemma nodup_map_filter {A B} (f : A -> B) p l : NoDup (map f l) -> NoDup (map f (filter p l)).
  Proof.
    induction l as [|x l IH]; simpl; intros H; [constructor|]. inv H. destruct (p x); simpl; auto.
    constructor; auto. intros Hin. apply H2. apply in_map_iff in Hin as (y & E & Hin). apply filter_In in Hin as [Hin _].
    apply in_map_iff; eauto.
  Qed.

  Lemma closed_banned s a t v : close_round s a = Ok t -> tr_is_banned t v = true <-> banned s a v.
  Proof.
    intros H. rewrite (up_banned v (close_round_ok _ _ H)). unfold banned, tr_is_banned.
    rewrite orb_true_iff, !contains_get. tauto.
  Qed.

  Lemma delivery d0 es d g d' : round_start d0 -> run d0 es d -> in_round es -> step d (EFin g) d' ->
    NoDup (map (@vm_from _) (d_todo d')) /\
    forall vm, In vm (d_todo d') <->
      cached_for es (s_round_id (d_s d')) vm /\ (in_echo_round (d_s d') \/ ~ banned (d_s d) (d_a d) (vm_from vm)).
  Proof.
    intros Hs Hr Hin Hst. pose proof (round_history Hs Hr Hin) as H.
    assert (Hin_c : forall rid vm, In vm (filter_messages (a_cached (d_a d)) rid) <-> cached_for es rid vm).
    { intros rid vm. rewrite in_filter_messages. unfold cached_for. split.
      - intros (v & m & H1 & H2).
        destruct (proj1 (h_cached H v rid vm) (ex_intro _ m (conj H1 H2))) as (msg & H3 & H4 & H5).
        assert (v = vm_from vm) by (destruct H5 as (<- & _); auto). subst v. eauto.
      - intros Hm. apply (h_cached H) in Hm as (c & H1 & H2). eauto. }
    assert (Hnd : forall rid, NoDup (map (@vm_from _) (filter_messages (a_cached (d_a d)) rid))).
    { intros rid. apply filter_messages_nodup. intros v m vm H1 H2.
      destruct (proj1 (h_cached H v rid vm) (ex_intro _ m (conj H1 H2))) as (msg & _ & _ & H5).
      destruct H5 as (<- & _); auto. }
    pose proof (reachable_run (round_start_reachable Hs) Hr) as Hre.
    pose proof (fin_echo_iff Hre Hst) as He.
    destruct (fin_cases_step Hst) as (_ & _ & [t info echos Hc Hi _ C ->|t st Hc Hi _ _ C ->]).
    - split; auto. intros vm. rewrite Hin_c. split; [|tauto]. intros Hx; split; auto. left. apply He. congruence.
    - split; [now apply nodup_map_filter|]. intros vm. rewrite filter_In, Hin_c.
      assert (Hne : ~ in_echo_round (d_s d')) by (rewrite He; congruence).
      rewrite negb_true_iff. rewrite <- (closed_banned _ _ (vm_from vm) Hc).
      destruct (tr_is_banned t (vm_from vm)); intuition congruence.
  Qed.

  (** ** No panics *)
  Definition echo_complete s : Prop :=
    match s_round s with
    | REcho _ echos info _ _ _ => forall v, mem v (ei_echos info) = true -> contains v echos = true
    | RMain _ => True
    end.

  (** Every reachable session was made by [new_for_next_round]. *)
  Lemma reachable_created d : reachable d -> exists g sid signer r t, created g sid signer r t (d_s d).
  Proof.
    intros (s & es & (g & sid & sg & ep & Hi) & Hr). apply session_new_ok in Hi as (st & _ & C).
    remember (start s) as d0. revert Heqd0. induction Hr as [d|d0 es d1 e d2 Hr IH Hs]; intros ->; [eauto 10|].
    specialize (IH eq_refl). destruct (is_fin e) eqn:Ef.
    - destruct e; try discriminate. destruct (fin_cases_step Hs) as (_ & _ & [? ? ? _ _ _ C' _|? ? _ _ _ _ C' _]); eauto 10.
    - replace (d_s d2) with (d_s d1); auto. inv Hs; auto; discriminate.
  Qed.

  Lemma fin_echo_complete d g d' : echo_rounds_have_broadcasts Pr -> reachable d -> step d (EFin g) d' -> echo_complete (d_s d').
  Proof.
    intros HB Hre Hs. unfold echo_complete. destruct (s_round (d_s d')) as [|v0 echos info main ps arts] eqn:Er; auto.
    assert (He : in_echo_round (d_s d')) by (unfold in_echo_round; eauto 10).
    pose proof (reachable_sinv Hre) as I.
    destruct (si_shape I) as [st Hst|? ? ? ? ? Hst Hn].
    2:{ exfalso. apply (fin_echo_iff Hre Hs) in He. congruence. }
    destruct (echo_entered Hre Hs Hst He) as (echos' & info' & Er' & Hinfo & _ & _ & Hx & Hechos & _).
    rewrite Er in Er'. inv Er'.
    destruct (fin_cases_step Hs) as (Hy & _ & _).
    destruct (reachable_round Hre) as (d0 & es & Hs0 & Hr & Hin).
    pose proof (round_history Hs0 Hr Hin) as H.
    pose proof (proj1 (proj1 (can_finalize_meaning Hs0 Hr Hin)) Hy) as Hall.
    destruct (main_tinfo I Hst) as [_ Hc].
    assert (Hpart : (exists targets, ci_part (cinfo Pr st) = EPReceive targets) \/
                    (ci_part (cinfo Pr st) = EPDefault /\ exists g b, mk_echo Pr st g = Ok (Some b))).
    { apply (echo_happens Hre Hs Hst) in He as [[H1 H2]|H1]; auto. right. split; auto.
      destruct (reachable_created Hre) as (g1 & sid & sg & r & t & C). pose proof (cr_round C) as E. rewrite Hst in E. subst r.
      pose proof (cr_echo_body C) as Hb. simpl in Hb. destruct (is_empty _); [congruence|].
      destruct (sp_body (s_echo (d_s d))) as [b|]; [eauto|congruence]. }
    intros v Hv. rewrite contains_insert, orb_true_iff, eqb_eq.
    destruct (ord_dec v (s_verifier (d_s d))) as [->|Hne]; auto. right.
    assert (Hexp : expected (d_s d) v).
    { unfold expected. rewrite Hc. rewrite Hx in Hv. destruct (ci_part (cinfo Pr st)); auto;
        rewrite mem_add, orb_true_iff, eqb_eq in Hv; tauto. }
    destruct (Hall v Hexp) as [p (vm & Hvm & Hf & Ha)].
    rewrite Hst in Ha. simpl in Ha. apply bind_ok in Ha as (p' & Ha & Hp). inv Hp.
    pose proof (HB st Hpart _ _ _ Ha) as Hne'. simpl in Hne'.
    apply contains_get. exists (vm_echo vm). apply (h_echo H). exists vm, (PVal p').
    split; auto. split; auto. split.
    - unfold answer. rewrite Hst. simpl. rewrite Ha. reflexivity.
    - split; auto. destruct (sp_body (vm_echo vm)); auto; congruence.
  Qed.

  Lemma reachable_echo_complete d : echo_rounds_have_broadcasts Pr -> reachable d -> echo_complete (d_s d).
  Proof.
    intros HB (s & es & Hi & Hr). remember (start s) as d0. revert Heqd0.
    induction Hr as [d|d0 es d1 e d2 Hr IH Hs]; intros ->.
    - destruct Hi as (g & sid & sg & ep & Hi). apply session_new_ok in Hi as (st & _ & C).
      unfold echo_complete. simpl. rewrite (cr_round C). exact I.
    - destruct (is_fin e) eqn:Ef.
      + destruct e; try discriminate. eapply fin_echo_complete; eauto. exists s, es; auto.
      + replace (d_s d2) with (d_s d1); [apply IH; auto|]. inv Hs; auto; discriminate.
  Qed.

  Lemma verify_shash_no_panic v h : verify_shash v h <> Panic.
  Proof. pose proof (verify_shash_cases v h). destruct (verify_shash v h); congruence || contradiction. Qed.

  Lemma iter_res_no_panic {E A} (f : A -> res E unit) l : (forall x, In x l -> f x <> Panic) -> iter_res f l <> Panic.
  Proof.
    induction l as [|x l IH]; simpl; intros H; [discriminate|]. destruct (f x) as [| |] eqn:Ef; simpl; try discriminate; auto.
    exfalso. eapply H; eauto.
  Qed.

  Lemma echo_receive_no_panic echos info from m :
    (forall v, mem v (ei_echos info) = true -> contains v echos = true) -> @echo_receive _ Pr echos info from m <> Panic.
  Proof.
    intros H. unfold echo_receive.
    destruct (negb (is_none (dm_echo m))); [discriminate|]. destruct (negb _); [discriminate|].
    destruct (body_echo_msg _) as [msg|]; [|discriminate].
    destruct (is_empty (diff _ (keyset msg))) eqn:E1; cbn [negb]; [|discriminate].
    destruct (is_empty (diff (keyset msg) _)) eqn:E2; cbn [negb]; [|discriminate].
    destruct (iter_res _ _) eqn:Ei; simpl; try discriminate.
    intros _. revert Ei. apply iter_res_no_panic. intros [v h] Hin. apply in_to_list in Hin. unfold check_echo.
    assert (Hv : mem v (ei_echos info) = true).
    { pose proof (subset_diff _ _ E2 v) as D. rewrite mem_rem, andb_true_iff in D. apply D.
      unfold mem, keyset. rewrite contains_map_values. apply contains_get; eauto. }
    apply H in Hv. apply contains_get in Hv as [prev Hp]. rewrite Hp.
    destruct (verify_shash v h) as [vh|[]|] eqn:Ev; try discriminate.
    - destruct (negb _); [discriminate|]. destruct (negb _); discriminate.
    - exfalso. eapply verify_shash_no_panic; eauto.
  Qed.

  Lemma receive_no_panic d vm : receive_total Pr -> echo_rounds_have_broadcasts Pr -> reachable d -> answer (d_s d) vm <> Panic.
  Proof.
    intros HR HB Hre. unfold answer. pose proof (reachable_echo_complete HB Hre) as Hc. unfold echo_complete in Hc.
    destruct (s_round (d_s d)) as [st|v echos info main ps arts]; simpl.
    - destruct (receive Pr st _ _) eqn:E; try discriminate. exfalso. eapply HR; eauto.
    - now apply echo_receive_no_panic.
  Qed.

  Lemma fold_res_no_panic {E A S} (f : S -> A -> res E S) l : (forall x y, f x y <> Panic) -> forall x, fold_res f x l <> Panic.
  Proof.
    intros H. induction l as [|y l IH]; simpl; intros x; [discriminate|].
    destruct (f x y) eqn:Ef; simpl; try discriminate; auto. exfalso; eapply H; eauto.
  Qed.

  Lemma ok_or_no_panic {E A} (o : option A) (e : E) : ok_or o e <> Panic.
  Proof. destruct o; discriminate. Qed.

  Lemma get2_no_panic {V} e (m : bmap RoundId (bmap Verifier V)) rid v : get2 e m rid v <> Panic.
  Proof.
    unfold get2. destruct (get rid m); simpl; [|discriminate]. apply ok_or_no_panic.
  Qed.

  Lemma opt_get_no_panic {V} b rid (g : res LocalError V) m : g <> Panic -> opt_get b rid g m <> Panic.
  Proof. intros H. unfold opt_get. destruct b; [|discriminate]. destruct g; simpl; congruence. Qed.

  Lemma bind_no_panic {E A B} (x : res E A) (f : A -> res E B) : x <> Panic -> (forall y, f y <> Panic) -> bind x f <> Panic.
  Proof. intros H1 H2. destruct x; simpl; auto; congruence. Qed.

  Lemma new_provable_error_no_panic v e n dm err t : new_provable_error v e n dm err t <> Panic.
  Proof.
    unfold new_provable_error. apply bind_no_panic.
    { destruct (rq_prev _); [|discriminate]. unfold collect_prev. apply fold_res_no_panic. intros [[x y] z] [rid rq].
      apply bind_no_panic; [apply opt_get_no_panic, get2_no_panic|]. intros ?.
      apply bind_no_panic; [apply opt_get_no_panic, get2_no_panic|]. intros ?.
      apply bind_no_panic; [apply opt_get_no_panic, get2_no_panic|]. discriminate. }
    intros [[x y] z]. apply bind_no_panic.
    { destruct (rq_comb _); [|discriminate]. unfold collect_comb. apply fold_res_no_panic. intros [hs os] rid.
      apply bind_no_panic; [unfold echo; destruct (rid_echo rid); discriminate|]. intros ?.
      apply bind_no_panic; [apply get2_no_panic|]. intros ?.
      apply bind_no_panic; [|discriminate]. unfold get_other_echo_broadcasts.
      apply bind_no_panic; [apply ok_or_no_panic|discriminate]. }
    intros [hs os]. apply bind_no_panic; [apply ok_or_no_panic|discriminate].
  Qed.

  Lemma add_no_panic s a vm : answer s vm <> Panic -> snd (add_processed s a (process_message s vm)) <> Panic.
  Proof.
    intros H. unfold add_processed, process_message. cbn [pm_msg pm_res]. fold (answer s vm).
    destruct (contains _ _); [discriminate|]. destruct (negb _); [discriminate|].
    destruct (answer s vm) as [p|[]|] eqn:Ea; try discriminate; try congruence;
      try (unfold register_provable; simpl; destruct (contains _ _); discriminate).
    destruct (new_provable_error _ _ _ _ _ _) eqn:En; try discriminate.
    - unfold register_provable; simpl; destruct (contains _ _); discriminate.
    - exfalso. eapply new_provable_error_no_panic; eauto.
  Qed.

  Lemma preprocess_no_panic s a from m : snd (preprocess_message s a from m) <> Panic.
  Proof.
    destruct (preprocess_message s a from m) as [a' r] eqn:E. simpl. intros ->. apply preprocess_cases in E. inv E.
  Qed.

  Lemma no_panic d : receive_total Pr -> echo_rounds_have_broadcasts Pr -> reachable d ->
    (forall from m, snd (preprocess_message (d_s d) (d_a d) from m) <> Panic) /\
    (forall vm, pm_res (process_message (d_s d) vm) <> Panic) /\
    (forall vm, snd (add_processed (d_s d) (d_a d) (process_message (d_s d) vm)) <> Panic).
  Proof.
    intros HR HB Hre. split; [apply preprocess_no_panic|]. split; intros vm.
    - exact (receive_no_panic vm HR HB Hre).
    - apply add_no_panic. exact (receive_no_panic vm HR HB Hre).
  Qed.

  (** The echo round a protocol round is followed by. *)
  Lemma echo_round_description d g d' st : reachable d -> step d (EFin g) d' -> s_round (d_s d) = RMain st ->
    (in_echo_round (d_s d') <->
      (ci_part (cinfo Pr st) = EPDefault /\ sp_body (s_echo (d_s d)) <> None) \/
      (exists targets, ci_part (cinfo Pr st) = EPReceive targets)) /\
    (in_echo_round (d_s d') -> s_round_id (d_s d') = echo_of (ti_id (tinfo Pr st)) /\
      let peers := match ci_part (cinfo Pr st) with EPReceive targets => targets | _ => ci_dest (cinfo Pr st) end in
      message_destinations (d_s d') = peers /\ (forall v, expected (d_s d') v <-> mem v peers = true) /\
      forall from m p, rd_receive (s_round (d_s d')) from m = Ok p ->
        exists hashes, body_echo_msg (dm_normal m) = Some hashes /\
          forall v, contains v hashes = true <->
            v <> from /\ (expected (d_s d) v \/ (ci_part (cinfo Pr st) = EPDefault /\ v = s_verifier (d_s d)))).
  Proof.
    intros Hre Hs Hst. split; [now apply (echo_happens Hre Hs)|]. intros He.
    pose proof (reachable_sinv Hre) as I. destruct (main_tinfo I Hst) as [Ht Hc].
    destruct (echo_entered Hre Hs Hst He) as (echos & info & Er & Hinfo & Hd & Hx & Hee & _ & Hcomm).
    split.
    - assert (Hre' : reachable d') by (exact (reachable_run Hre (run_one Hs))).
      pose proof (si_tinfo (reachable_sinv Hre')) as Ht'. rewrite Er in Ht'. apply rd_tinfo_echo in Ht' as (t0 & H1 & H2). inv H1.
      apply ti_echo_ok in H2 as [_ H2]. unfold s_round_id. rewrite H2. reflexivity.
    - intros peers. unfold message_destinations, expected. rewrite Hcomm. simpl.
      split; [reflexivity|]. split; [reflexivity|]. intros from m p Hr. rewrite Er in Hr. simpl in Hr.
      apply echo_receive_ok in Hr as (_ & _ & _ & hashes & Hb & Hk & _). exists hashes. split; auto.
      intros v. rewrite Hk, Hee, Hc.
      apply (echo_happens Hre Hs Hst) in He.
      destruct (ci_part (cinfo Pr st)) as [| |tg].
      + rewrite mem_add, orb_true_iff, eqb_eq. intuition.
      + destruct He as [[? _]|[? ?]]; discriminate.
      + intuition discriminate.
  Qed.

  Lemma no_banned_from_cache d g d' : reachable d -> step d (EFin g) d' -> ~ in_echo_round (d_s d') ->
    forall vm, In vm (d_todo d') -> ~ banned (d_s d) (d_a d) (vm_from vm).
  Proof.
    intros Hre Hs Hn vm Hin. destruct (reachable_round Hre) as (d0 & es & Hs0 & Hr & Hin').
    destruct (delivery Hs0 Hr Hin' Hs) as [_ H]. apply H in Hin. tauto.
  Qed.
End WithParams.
