(** Single-call facts about sessions and accumulators. *)
From Coq Require Import List NArith Bool.
From Verif Require Import Base BMap Errors RoundId Message Protocol Transcript Evidence Session Spec MessageFacts.
Import ListNotations.
Set Implicit Arguments.

Section WithParams.
  Context {P : Params}.
  Context {Pr : Proto}.
  Implicit Types (s : Session Pr) (a : Accum Pr).

  (** The rounds a message may belong to, other than the current one. *)
  Definition window s (rid : RoundId) : Prop :=
    exists acc, simultaneous_rounds (s_tinfo s) (match s_echo_info s with Some _ => true | None => false end) = Ok acc /\
      mem rid acc = true.

  Lemma simultaneous_window t f acc : simultaneous_rounds t f = Ok acc ->
    forall rid, mem rid acc = true <->
      (if f then rid = mkRid (rid_round (ti_id t)) (rid_groups (ti_id t)) true else mem rid (ti_parents t) = true) \/
      mem rid (ti_siblings t) = true \/ mem rid (ti_children t) = true.
  Proof.
    unfold simultaneous_rounds. intros H rid. apply bind_ok in H as (base & H1 & H2). inv H2.
    rewrite !mem_union, !orb_true_iff. destruct f.
    - apply bind_ok in H1 as (e & H1 & H2). inv H2. unfold echo in H1.
      destruct (rid_echo (ti_id t)); inv H1. rewrite mem_set_of_list. simpl. intuition.
    - inv H1. tauto.
  Qed.

  Lemma simultaneous_total t f :
    (f = true -> rid_echo (ti_id t) = false) -> exists acc, simultaneous_rounds t f = Ok acc.
  Proof.
    intros H. unfold simultaneous_rounds, echo. destruct f; simpl; eauto. rewrite H; auto. simpl. eauto.
  Qed.

  Lemma banned_bool s a v :
    (tr_is_banned (s_tr s) v || a_is_banned a v)%bool = true <-> banned s a v.
  Proof.
    unfold banned, tr_is_banned, a_is_banned. rewrite !orb_true_iff, !contains_get. tauto.
  Qed.
  Lemma banned_false s a v :
    (tr_is_banned (s_tr s) v || a_is_banned a v)%bool = false <-> ~ banned s a v.
  Proof. rewrite <- banned_bool. destruct (_ || _)%bool; intuition congruence. Qed.

  Lemma reject_ok s a from e : ~ banned s a from ->
    reject a from e = (set_unprovable a (insert from e (a_unprovable a)), Ok (PreError e)).
  Proof.
    intros Hb. unfold reject, register_unprovable.
    replace (contains from (a_unprovable a)) with false; [reflexivity|].
    symmetry. apply contains_false. destruct (get from (a_unprovable a)) eqn:E; auto.
    exfalso; apply Hb. unfold banned; eauto.
  Qed.

  (** Exhaustive description of [preprocess_message]. *)
  Inductive pre_cases s a (from : Verifier) (m : Message) : Accum Pr -> res LocalError PreOutcome -> Prop :=
  | PC_banned : banned s a from -> pre_cases s a from m a (Ok (PreError RE_Banned))
  | PC_local e :
      ~ banned s a from ->
      (exists e', simultaneous_rounds (s_tinfo s) (match s_echo_info s with Some _ => true | None => false end) = Err e') \/
      (m_session (sp_meta (msg_direct m)) = s_id s /\ sp_meta (msg_echo m) = sp_meta (msg_direct m) /\
       sp_meta (msg_normal m) = sp_meta (msg_direct m) /\ ser_meta (sp_meta (msg_direct m)) = None) ->
      pre_cases s a from m a (Err e)
  | PC_reject e :
      ~ banned s a from ->
      pre_cases s a from m (set_unprovable a (insert from e (a_unprovable a))) (Ok (PreError e))
  | PC_process :
      ~ banned s a from ->
      message_authentic from (s_id s) (s_round_id s) m ->
      mem from (a_processing a) = false ->
      pre_cases s a from m (set_processing a (sadd from (a_processing a)))
        (Ok (ToProcess (mkVMessage from (sp_meta (msg_direct m)) (msg_direct m) (msg_echo m) (msg_normal m))))
  | PC_cached rid :
      ~ banned s a from ->
      message_authentic from (s_id s) rid m ->
      rid <> s_round_id s -> window s rid ->
      message_is_cached a from rid = false ->
      pre_cases s a from m
        (set_cached a (insert from
           (insert rid (mkVMessage from (sp_meta (msg_direct m)) (msg_direct m) (msg_echo m) (msg_normal m))
              (match get from (a_cached a) with Some c => c | None => empty end)) (a_cached a)))
        (Ok Cached).

  Lemma preprocess_cases s a from m a' r : preprocess_message s a from m = (a', r) -> pre_cases s a from m a' r.
  Proof.
    unfold preprocess_message. intros H.
    destruct (tr_is_banned (s_tr s) from || a_is_banned a from)%bool eqn:Eb;
      [apply banned_bool in Eb | apply banned_false in Eb].
    { inv H. now constructor. }
    destruct (unify_metadata m) as [cm|] eqn:Eu.
    2:{ rewrite (@reject_ok s) in H by auto. inv H. now constructor. }
    apply unify_metadata_ok in Eu as (E1 & E2 & ->). cbn [cm_meta] in H.
    destruct (bytes_eqb (m_session (sp_meta (msg_direct m))) (s_id s)) eqn:Es; cbn [negb] in H.
    2:{ rewrite (@reject_ok s) in H by auto. inv H. now constructor. }
    apply bytes_eqb_spec in Es.
    destruct (simultaneous_rounds _ _) as [acc|e|] eqn:Esim.
    2:{ inv H. apply PC_local; eauto. }
    2:{ exfalso. unfold simultaneous_rounds, echo in Esim.
        destruct (s_echo_info s), (rid_echo (ti_id (s_tinfo s))); discriminate. }
    set (rid := m_round (sp_meta (msg_direct m))) in *.
    assert (Hmeta : sp_meta (msg_direct m) = mkMeta (s_id s) rid).
    { unfold rid. destruct (sp_meta (msg_direct m)); simpl in *. congruence. }
    assert (Hver : forall cont : res MVErr VMessage -> Accum Pr * res LocalError PreOutcome,
      (forall vm, verify_message from (mkCMessage (sp_meta (msg_direct m)) (msg_direct m) (msg_echo m) (msg_normal m)) = Ok vm ->
         message_authentic from (s_id s) rid m /\
         vm = mkVMessage from (sp_meta (msg_direct m)) (msg_direct m) (msg_echo m) (msg_normal m)) /\
      (forall e, verify_message from (mkCMessage (sp_meta (msg_direct m)) (msg_direct m) (msg_echo m) (msg_normal m)) = Err (MV_Local e) ->
         ser_meta (sp_meta (msg_direct m)) = None) /\
      verify_message from (mkCMessage (sp_meta (msg_direct m)) (msg_direct m) (msg_echo m) (msg_normal m)) <> Panic).
    { intros _. set (cm := mkCMessage _ _ _ _). split; [|split].
      - intros vm Hv. apply verify_message_ok in Hv as (-> & H1 & H2 & H3). subst cm; simpl in *.
        repeat split; auto; congruence.
      - intros e He. pose proof (verify_message_cases from cm) as Hc. rewrite He in Hc. subst cm; simpl in Hc.
        rewrite E1, E2 in Hc. tauto.
      - intros He. pose proof (verify_message_cases from cm) as Hc. now rewrite He in Hc. }
    specialize (Hver (fun _ => (a, Panic))) as (Hv1 & Hv2 & Hv3).
    destruct (eqb_spec rid (s_round_id s)) as [Er|Er].
    - destruct (mem from (a_processing a)) eqn:Ep.
      + rewrite (@reject_ok s) in H by auto. inv H. now constructor.
      + destruct (verify_message _ _) as [vm|[]|] eqn:Ev.
        * destruct (Hv1 vm eq_refl) as (Ha & ->).
          unfold mark_processing in H. cbn [vm_from] in H. rewrite Ep in H. inv H.
          simpl. apply PC_process; auto. now rewrite <- Er.
        * inv H. apply PC_local; auto. right. repeat split; auto. eapply Hv2; reflexivity.
        * rewrite (@reject_ok s) in H by auto. inv H. now constructor.
        * rewrite (@reject_ok s) in H by auto. inv H. now constructor.
        * congruence.
    - destruct (mem rid acc) eqn:Ea.
      2:{ rewrite (@reject_ok s) in H by auto. inv H. now constructor. }
      destruct (message_is_cached a from rid) eqn:Ec.
      + rewrite (@reject_ok s) in H by auto. inv H. now constructor.
      + destruct (verify_message _ _) as [vm|[]|] eqn:Ev.
        * destruct (Hv1 vm eq_refl) as (Ha & ->).
          unfold cache_message in H. cbn [vm_from vm_meta] in H. fold rid in H.
          assert (Hc : contains rid (match get from (a_cached a) with Some c => c | None => empty end) = false).
          { unfold message_is_cached in Ec. destruct (get from (a_cached a)); auto. }
          rewrite Hc in H. inv H. simpl. apply PC_cached; auto. exists acc; auto.
        * inv H. apply PC_local; auto. right. repeat split; auto. eapply Hv2; reflexivity.
        * rewrite (@reject_ok s) in H by auto. inv H. now constructor.
        * rewrite (@reject_ok s) in H by auto. inv H. now constructor.
        * congruence.
  Qed.

  (** Conversely: an authentic message from a non-banned sender in the right round is handed out. *)
  Lemma preprocess_accepts s a from m :
    ~ banned s a from -> message_authentic from (s_id s) (s_round_id s) m -> mem from (a_processing a) = false ->
    (s_echo_info s <> None -> rid_echo (s_round_id s) = false) ->
    preprocess_message s a from m =
      (set_processing a (sadd from (a_processing a)),
       Ok (ToProcess (mkVMessage from (sp_meta (msg_direct m)) (msg_direct m) (msg_echo m) (msg_normal m)))).
  Proof.
    intros Hb (H1 & H2 & H3 & M1 & M2 & M3) Hp He. unfold preprocess_message.
    apply banned_false in Hb. rewrite Hb.
    assert (Eu : unify_metadata m = Some (mkCMessage (sp_meta (msg_direct m)) (msg_direct m) (msg_echo m) (msg_normal m)))
      by (apply unify_metadata_ok; repeat split; congruence).
    rewrite Eu. cbn [cm_meta].
    assert (Es : bytes_eqb (m_session (sp_meta (msg_direct m))) (s_id s) = true)
      by (rewrite M1; apply bytes_eqb_refl).
    rewrite Es. cbn [negb].
    destruct (@simultaneous_total (s_tinfo s) (match s_echo_info s with Some _ => true | None => false end)) as [acc Hacc].
    { destruct (s_echo_info s); [intros _; apply He|]; discriminate. }
    rewrite Hacc. assert (Mr : m_round (sp_meta (msg_direct m)) = s_round_id s) by (rewrite M1; reflexivity).
    rewrite Mr, eqb_refl, Hp.
    assert (Ev := proj2 (verify_message_ok from
      (mkCMessage (sp_meta (msg_direct m)) (msg_direct m) (msg_echo m) (msg_normal m)) _)
      (conj eq_refl (conj H1 (conj H2 H3)))).
    rewrite Ev. unfold mark_processing. simpl. rewrite Hp. reflexivity.
  Qed.

  Lemma preprocess_caches s a from m rid :
    ~ banned s a from -> message_authentic from (s_id s) rid m -> rid <> s_round_id s -> window s rid ->
    message_is_cached a from rid = false ->
    preprocess_message s a from m =
      (set_cached a (insert from
         (insert rid (mkVMessage from (sp_meta (msg_direct m)) (msg_direct m) (msg_echo m) (msg_normal m))
            (match get from (a_cached a) with Some c => c | None => empty end)) (a_cached a)), Ok Cached).
  Proof.
    intros Hb (H1 & H2 & H3 & M1 & M2 & M3) Hr (acc & Hacc & Hm) Hc. unfold preprocess_message.
    apply banned_false in Hb. rewrite Hb.
    assert (Eu : unify_metadata m = Some (mkCMessage (sp_meta (msg_direct m)) (msg_direct m) (msg_echo m) (msg_normal m)))
      by (apply unify_metadata_ok; repeat split; congruence).
    rewrite Eu. cbn [cm_meta].
    assert (Es : bytes_eqb (m_session (sp_meta (msg_direct m))) (s_id s) = true)
      by (rewrite M1; apply bytes_eqb_refl).
    rewrite Es. cbn [negb]. rewrite Hacc.
    assert (Mr : m_round (sp_meta (msg_direct m)) = rid) by (rewrite M1; reflexivity). rewrite Mr.
    apply eqb_neq in Hr. rewrite Hr, Hm, Hc.
    assert (Ev := proj2 (verify_message_ok from
      (mkCMessage (sp_meta (msg_direct m)) (msg_direct m) (msg_echo m) (msg_normal m)) _)
      (conj eq_refl (conj H1 (conj H2 H3)))).
    rewrite Ev. unfold cache_message. cbn [vm_from vm_meta cm_meta]. rewrite Mr.
    assert (Hc' : contains rid (match get from (a_cached a) with Some c => c | None => empty end) = false).
    { unfold message_is_cached in Hc. destruct (get from (a_cached a)); auto. }
    rewrite Hc'. reflexivity.
  Qed.

  (** What [rd_receive] answers to a verified message. *)
  Definition answer s (vm : VMessage) : res RecvErr (SPayload Pr) :=
    rd_receive (s_round s) (vm_from vm) (mkDynMsg (sp_body (vm_echo vm)) (sp_body (vm_normal vm)) (sp_body (vm_direct vm))).

  (** Exhaustive description of a successful [add_processed_message]. *)
  Inductive add_cases s a (vm : VMessage) : Accum Pr -> Prop :=
  | AC_ok p :
      answer s vm = Ok p ->
      add_cases s a vm (mkAccum (srem (vm_from vm) (a_waiting a)) (a_expect a) (a_processing a)
        (insert (vm_from vm) p (a_payloads a)) (a_artifacts a) (a_cached a)
        (ins_part (vm_from vm) (vm_echo vm) (a_echo a)) (ins_part (vm_from vm) (vm_normal vm) (a_normal a))
        (ins_part (vm_from vm) (vm_direct vm) (a_direct a)) (a_provable a) (a_unprovable a))
  | AC_provable e ev :
      answer s vm = Err e ->
      match e with
      | RDirect => ev = new_invalid_direct (vm_from vm) (vm_direct vm)
      | REchoB => ev = new_invalid_echo (vm_from vm) (vm_echo vm)
      | RNormal => ev = new_invalid_normal (vm_from vm) (vm_normal vm)
      | RProtocol e => new_provable_error (vm_from vm) (vm_echo vm) (vm_normal vm) (vm_direct vm) e (s_tr s) = Ok ev
      | REchoRound e => ev = new_echo_round_error (vm_from vm) (vm_normal vm) e
      | _ => False
      end ->
      get (vm_from vm) (a_provable a) = None ->
      add_cases s a vm (set_provable (set_waiting a (srem (vm_from vm) (a_waiting a)))
                          (insert (vm_from vm) ev (a_provable a)))
  | AC_unprovable e :
      answer s vm = Err (RUnprovable e) ->
      add_cases s a vm (set_unprovable (set_waiting a (srem (vm_from vm) (a_waiting a)))
                          (insert (vm_from vm) e (a_unprovable a))).

  Lemma register_provable_ok a from ev a' : register_provable a from ev = (a', Ok tt) ->
    get from (a_provable a) = None /\ a' = set_provable a (insert from ev (a_provable a)).
  Proof.
    unfold register_provable. intros H. injection H as <- H. destruct (contains from (a_provable a)) eqn:E; [discriminate|].
    apply contains_false in E. auto.
  Qed.

  Lemma add_processed_ok s a vm a' : add_processed s a (process_message s vm) = (a', Ok tt) ->
    get (vm_from vm) (a_payloads a) = None /\ mem (vm_from vm) (a_waiting a) = true /\ add_cases s a vm a'.
  Proof.
    unfold add_processed, process_message. cbn [pm_msg pm_res]. fold (answer s vm). intros H.
    destruct (contains (vm_from vm) (a_payloads a)) eqn:Ep; [discriminate|]. apply contains_false in Ep.
    destruct (mem (vm_from vm) (a_waiting a)) eqn:Ew; [|discriminate]. cbn [negb] in H.
    split; auto. split; auto.
    destruct (answer s vm) as [p|[]|] eqn:Ea.
    - inv H. now apply AC_ok.
    - discriminate.
    - apply register_provable_ok in H as [H ->]. refine (@AC_provable s a vm _ _ Ea _ H); auto.
    - apply register_provable_ok in H as [H ->]. refine (@AC_provable s a vm _ _ Ea _ H); auto.
    - apply register_provable_ok in H as [H ->]. refine (@AC_provable s a vm _ _ Ea _ H); auto.
    - destruct (new_provable_error _ _ _ _ _ _) as [ev|e'|] eqn:En; try discriminate.
      apply register_provable_ok in H as [H ->]. refine (@AC_provable s a vm _ _ Ea _ H); auto.
    - inv H. exact (@AC_unprovable s a vm _ Ea).
    - apply register_provable_ok in H as [H ->]. refine (@AC_provable s a vm _ _ Ea _ H); auto.
    - discriminate.
  Qed.

  Lemma add_artifact_ok a pa a' : add_artifact a pa = (a', Ok tt) ->
    get (fst pa) (a_artifacts a) = None /\ a' = set_artifacts a (insert (fst pa) (snd pa) (a_artifacts a)).
  Proof.
    unfold add_artifact. intros H. injection H as <- H. destruct (contains _ _) eqn:E; [discriminate|].
    apply contains_false in E; auto.
  Qed.

  (** ** Transcripts *)

  Lemma merge_new_gen {V} (err : LocalError) (all : bmap Verifier V) l all' :
    NoDup (map fst l) ->
    fold_res (fun m kv => if contains (fst kv) m then Err err else Ok (insert (fst kv) (snd kv) m)) all l = Ok all' ->
    forall v x, get v all' = Some x <-> get v all = Some x \/ In (v, x) l.
  Proof.
    revert all. induction l as [|[k y] l IH]; simpl; intros all Hnd H v x.
    - inv H. tauto.
    - inversion Hnd as [|? ? Hni Hnd']; subst; clear Hnd. apply bind_ok in H as (m & H1 & H2). destruct (contains k all) eqn:E; [discriminate|]. inv H1.
      apply contains_false in E. rewrite (IH _ Hnd' H2). rewrite get_insert.
      destruct (eqb_spec v k) as [->|Hne].
      + split; intros [H|H]; auto.
        * inv H. auto.
        * congruence.
        * destruct H as [H|H]; auto. inv H; auto.
      + split; intros [H|H]; auto. destruct H as [H|H]; [congruence|auto].
  Qed.

  Lemma merge_new_fresh_gen {V} (err : LocalError) (all : bmap Verifier V) l all' :
    NoDup (map fst l) ->
    fold_res (fun m kv => if contains (fst kv) m then Err err else Ok (insert (fst kv) (snd kv) m)) all l = Ok all' ->
    forall v x, In (v, x) l -> get v all = None.
  Proof.
    revert all. induction l as [|[k y] l IH]; simpl; intros all Hnd H v x; [tauto|].
    inversion Hnd as [|? ? Hni Hnd']; subst; clear Hnd. apply bind_ok in H as (m & H1 & H2). destruct (contains k all) eqn:E; [discriminate|]. inv H1.
    apply contains_false in E. intros [Hx|Hx]; [inv Hx; auto|].
    apply (IH _ Hnd' H2) in Hx. rewrite get_insert in Hx. destruct (eqb_spec v k); [discriminate|auto].
  Qed.

  Lemma to_list_nodup {V} (m : bmap Verifier V) : NoDup (map fst (to_list m)).
  Proof. apply NoDup_keys. Qed.

  Lemma merge_new_get {V} (err : LocalError) (all new all' : bmap Verifier V) : merge_new err all new = Ok all' ->
    forall v x, get v all' = Some x <-> get v all = Some x \/ get v new = Some x.
  Proof.
    unfold merge_new. intros H v x. rewrite (merge_new_gen _ _ _ (to_list_nodup new) H). now rewrite in_to_list.
  Qed.

  Lemma merge_new_disj {V} (err : LocalError) (all new all' : bmap Verifier V) : merge_new err all new = Ok all' ->
    forall v x, get v new = Some x -> get v all = None.
  Proof.
    unfold merge_new. intros H v x Hx. apply in_to_list in Hx.
    eapply merge_new_fresh_gen; eauto. apply to_list_nodup.
  Qed.

  Lemma merge_new_contains {V} (err : LocalError) (all new all' : bmap Verifier V) v : merge_new err all new = Ok all' ->
    contains v all' = (contains v all || contains v new)%bool.
  Proof.
    intros H. pose proof (merge_new_get _ _ _ H v) as Hg.
    destruct (contains v all') eqn:E.
    - apply contains_get in E as [x Hx]. apply Hg in Hx as [Hx|Hx]; symmetry; apply orb_true_iff;
        rewrite !contains_get; eauto.
    - symmetry. apply orb_false_iff. rewrite contains_false in E. rewrite !contains_false.
      split; [destruct (get v all) eqn:E1|destruct (get v new) eqn:E1]; auto.
      + assert (get v all' = Some v0) by (apply Hg; auto). congruence.
      + assert (get v all' = Some v0) by (apply Hg; auto). congruence.
  Qed.

  Lemma merge_new_ok_gen {V} (err : LocalError) (l : list (Verifier * V)) : forall all,
    NoDup (map fst l) -> (forall v x, In (v, x) l -> get v all = None) ->
    exists all', fold_res (fun m kv => if contains (fst kv) m then Err err else Ok (insert (fst kv) (snd kv) m)) all l = Ok all'.
  Proof.
    induction l as [|[k y] l IH]; simpl; intros all Hnd Hd; eauto. inversion Hnd as [|? ? Hni Hnd']; subst; clear Hnd.
    assert (E : contains k all = false) by (apply contains_false; eauto). rewrite E; simpl.
    apply IH; auto. intros v x Hx. rewrite get_insert. destruct (eqb_spec v k) as [->|Hne]; eauto.
    exfalso. apply Hni. apply in_map_iff. exists (k, x); auto.
  Qed.

  Lemma merge_new_ok {V} (err : LocalError) (all new : bmap Verifier V) :
    (forall v x, get v new = Some x -> get v all = None) -> exists all', merge_new err all new = Ok all'.
  Proof.
    intros H. apply merge_new_ok_gen; [apply to_list_nodup|]. intros v x Hx. apply in_to_list in Hx. eauto.
  Qed.

  Lemma merge_new_no_panic {V} (err : LocalError) (all new : bmap Verifier V) : merge_new err all new <> Panic.
  Proof.
    unfold merge_new. generalize (to_list new) as l. intros l. revert all.
    induction l as [|[k y] l IH]; simpl; intros all; [discriminate|].
    destruct (contains k all); simpl; [discriminate|]. apply IH.
  Qed.

  (** A successful [Transcript::update]. *)
  Record updated (t : Transcript) rid me my_echo echos normals directs provable unprovable missing (t' : Transcript) : Prop := {
    up_echo_new : get rid (tr_echo t) = None;
    up_missing_new : get rid (tr_missing t) = None;
    up_echo : tr_echo t' = insert rid (insert me my_echo echos) (tr_echo t);
    up_normal : tr_normal t' = insert rid normals (tr_normal t);
    up_direct : tr_direct t' = insert rid directs (tr_direct t);
    up_provable : forall v x, get v (tr_provable t') = Some x <-> get v (tr_provable t) = Some x \/ get v provable = Some x;
    up_unprovable : forall v x, get v (tr_unprovable t') = Some x <-> get v (tr_unprovable t) = Some x \/ get v unprovable = Some x;
    up_provable_disj : forall v x, get v provable = Some x -> get v (tr_provable t) = None;
    up_unprovable_disj : forall v x, get v unprovable = Some x -> get v (tr_unprovable t) = None;
    up_missing : tr_missing t' = if is_empty missing then tr_missing t else insert rid missing (tr_missing t)
  }.

  Lemma tr_update_ok t rid me my_echo echos normals directs provable unprovable missing t' :
    tr_update t rid me my_echo echos normals directs provable unprovable missing = Ok t' ->
    updated t rid me my_echo echos normals directs provable unprovable missing t'.
  Proof.
    unfold tr_update. intros H.
    apply bind_ok in H as (x1 & H1 & H). apply bind_ok in H as (x2 & H2 & H). apply bind_ok in H as (x3 & H3 & H).
    apply bind_ok in H as (x4 & H4 & H). apply bind_ok in H as (x5 & H5 & H). apply bind_ok in H as (x6 & H6 & H). inv H.
    destruct (contains rid (tr_echo t)) eqn:E1; inv H1.
    destruct (contains rid (tr_normal t)) eqn:E2; inv H2.
    destruct (contains rid (tr_direct t)) eqn:E3; inv H3.
    destruct (contains rid (tr_missing t)) eqn:E6; inv H6.
    apply contains_false in E1, E6.
    constructor; auto; simpl; auto.
    - eapply merge_new_get; eauto.
    - eapply merge_new_get; eauto.
    - eapply merge_new_disj; eauto.
    - eapply merge_new_disj; eauto.
  Qed.

  Lemma up_banned t rid me my_echo echos normals directs provable unprovable missing t' v :
    updated t rid me my_echo echos normals directs provable unprovable missing t' ->
    tr_is_banned t' v = true <->
      tr_is_banned t v = true \/ (exists e, get v provable = Some e) \/ (exists e, get v unprovable = Some e).
  Proof.
    intros U. unfold tr_is_banned. rewrite !orb_true_iff, !contains_get.
    pose proof (up_provable U v) as Hp. pose proof (up_unprovable U v) as Hu.
    split.
    - intros [[x H]|[x H]]; [apply Hp in H|apply Hu in H]; destruct H; eauto.
    - intros [[[x H]|[x H]]|[[x H]|[x H]]].
      + left; exists x; apply Hp; auto.
      + right; exists x; apply Hu; auto.
      + left; exists x; apply Hp; auto.
      + right; exists x; apply Hu; auto.
  Qed.

  Lemma close_round_ok s a t : close_round s a = Ok t ->
    updated (s_tr s) (s_round_id s) (s_verifier s) (s_echo s) (a_echo a) (a_normal a) (a_direct a)
      (a_provable a) (a_unprovable a) (a_waiting a) t.
  Proof. apply tr_update_ok. Qed.

  (** ** Creating sessions *)

  Record created g sid signer (r : Round Pr) t s : Prop := {
    cr_id : s_id s = sid;
    cr_signer : s_signer s = signer;
    cr_verifier : s_verifier s = signer_key signer;
    cr_round : s_round s = r;
    cr_comm : s_comm s = rd_cinfo r;
    cr_tinfo : rd_tinfo r = Ok (s_tinfo s);
    cr_tr : s_tr s = t;
    cr_einfo : s_echo_info s = make_echo_info (signer_key signer) (rd_cinfo r) (sp_body (s_echo s));
    cr_echo : sign_part KEcho (rsub 1 g) signer sid (ti_id (s_tinfo s)) (sp_body (s_echo s)) = Ok (s_echo s);
    cr_normal : sign_part KNormal (rsub 3 g) signer sid (ti_id (s_tinfo s)) (sp_body (s_normal s)) = Ok (s_normal s);
    cr_echo_body : if is_empty (ci_dest (rd_cinfo r)) then sp_body (s_echo s) = None
                   else rd_mk_echo r (rsub 0 g) = Ok (sp_body (s_echo s));
    cr_normal_body : if is_empty (ci_dest (rd_cinfo r)) then sp_body (s_normal s) = None
                     else rd_mk_normal r (rsub 2 g) = Ok (sp_body (s_normal s))
  }.

  Lemma new_for_next_round_ok g sid signer (r : Round Pr) t s :
    new_for_next_round g sid signer r t = Ok s -> created g sid signer r t s.
  Proof.
    unfold new_for_next_round. intros H.
    apply bind_ok in H as (ti & H1 & H). apply bind_ok in H as (e & H2 & H). apply bind_ok in H as (se & H3 & H).
    apply bind_ok in H as (n & H4 & H). apply bind_ok in H as (sn & H5 & H). inv H.
    pose proof (sign_part_ok _ _ _ _ _ H3) as (_ & He & _).
    pose proof (sign_part_ok _ _ _ _ _ H5) as (_ & Hn & _).
    constructor; simpl; auto.
    - rewrite He; auto.
    - rewrite Hn; auto.
    - rewrite He. destruct (is_empty _); [congruence|auto].
    - rewrite Hn. destruct (is_empty _); [congruence|auto].
  Qed.

  Lemma session_new_ok g sid signer (ep : EntryPoint Pr) s : session_new g sid signer ep = Ok s ->
    exists st, ep_make ep (rsub 0 g) sid (signer_key signer) = Ok st /\
      created (rsub 1 g) sid signer (RMain st) tr_new s.
  Proof.
    unfold session_new. intros H. apply bind_ok in H as (st & H1 & H2). exists st; split; auto.
    now apply new_for_next_round_ok.
  Qed.

  (** A successful [finalize_round] that leads to another round. *)
  Inductive fin_cases s g a s' c : Prop :=
  | FC_echo t info echos :
      close_round s a = Ok t -> s_echo_info s = Some info ->
      get (s_round_id s) (tr_echo t) = Some echos ->
      created (rsub 1 g) (s_id s) (s_signer s)
        (REcho (s_verifier s) echos info (s_round s) (a_payloads a) (a_artifacts a)) t s' ->
      c = filter_messages (a_cached a) (s_round_id s') ->
      fin_cases s g a s' c
  | FC_main t st :
      close_round s a = Ok t -> s_echo_info s = None ->
      rd_finalize (s_round s) (rsub 0 g) (a_payloads a) (a_artifacts a) = Ok (AnotherRound st) ->
      mem (ti_id (tinfo Pr st)) (ti_children (s_tinfo s)) = true ->
      created (rsub 1 g) (s_id s) (s_signer s) (RMain st) t s' ->
      c = filter (fun m => negb (tr_is_banned t (vm_from m))) (filter_messages (a_cached a) (s_round_id s')) ->
      fin_cases s g a s' c.

  Lemma finalize_another s g a s' c : finalize_round s g a = Ok (ROAnother s' c) -> fin_cases s g a s' c.
  Proof.
    unfold finalize_round. intros H. apply bind_ok in H as (t & Ht & H).
    destruct (s_echo_info s) as [info|] eqn:Ei.
    - apply bind_ok in H as (echos & H1 & H). apply bind_ok in H as (ti & H2 & H). apply bind_ok in H as (s1 & H3 & H).
      inv H. unfold tr_echo_broadcasts in H1. destruct (get (s_round_id s) (tr_echo t)) eqn:Eg; [|discriminate]. inv H1.
      apply new_for_next_round_ok in H3. eapply FC_echo; eauto.
      pose proof (cr_tinfo H3) as H4. rewrite H2 in H4. inv H4. reflexivity.
    - apply bind_ok in H as (out & H1 & H). destruct out as [st|x]; [|discriminate].
      destruct (mem _ _) eqn:Em; cbn [negb] in H; [|discriminate].
      apply bind_ok in H as (s1 & H3 & H). inv H.
      apply new_for_next_round_ok in H3. eapply FC_main; eauto.
      pose proof (cr_tinfo H3) as H4. simpl in H4. inv H4. unfold s_round_id. congruence.
  Qed.

  Lemma finalize_finished s g a rep : finalize_round s g a = Ok (ROFinished rep) ->
    exists t x, close_round s a = Ok t /\ s_echo_info s = None /\
      rd_finalize (s_round s) (rsub 0 g) (a_payloads a) (a_artifacts a) = Ok (Finished_ x) /\
      rep = report_new (OResult x) t.
  Proof.
    unfold finalize_round. intros H. apply bind_ok in H as (t & Ht & H).
    destruct (s_echo_info s) as [info|] eqn:Ei.
    - apply bind_ok in H as (echos & H1 & H). apply bind_ok in H as (ti & H2 & H). apply bind_ok in H as (s1 & H3 & H).
      discriminate.
    - apply bind_ok in H as (out & H1 & H). destruct out as [st|x].
      + destruct (mem _ _) eqn:Em; cbn [negb] in H; [|discriminate].
        apply bind_ok in H as (s1 & H3 & H). discriminate.
      + inv H. eauto 10.
  Qed.

  (** ** The cache *)

  Lemma in_filter_messages c rid vm :
    In vm (filter_messages c rid) <-> exists v m, get v c = Some m /\ get rid m = Some vm.
  Proof.
    unfold filter_messages. rewrite in_flat_map. split.
    - intros ([v m] & H1 & H2). apply in_to_list in H1. simpl in H2. exists v, m. split; auto.
      destruct (get rid m); simpl in H2; [destruct H2 as [->|[]]; auto | contradiction].
    - intros (v & m & H1 & H2). exists (v, m). split; [now apply in_to_list|]. simpl. rewrite H2. simpl; auto.
  Qed.
End WithParams.
