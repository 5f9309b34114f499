(** Facts about what signatures bind, round ids, serializable maps. *)
From Coq Require Import List NArith Bool Lia Ascii String Permutation.
From Verif Require Import Base BMap Errors RoundId Message Protocol Transcript Evidence Session Spec SpecCrypto SerMap
  MessageFacts SessionFacts RunFacts RoundFacts FinalizeFacts HistoryFacts.
Import ListNotations.
Set Implicit Arguments.

Section WithParams.
  Context {P : Params}.

  Lemma content_bytes_eq k b : content_bytes k b = part_preimage k b.
  Proof. destruct k, b; reflexivity. Qed.
  Lemma content_hash_bytes k b : content_hash k b = hash (content_bytes k b).
  Proof. reflexivity. Qed.

  Lemma content_bytes_inj k k' b b' : content_bytes k b = content_bytes k' b' -> k = k' /\ b = b'.
  Proof.
    unfold content_bytes. intros H. apply app_inv_head in H. injection H as Hk Hb. split; [destruct k, k'; auto; discriminate|].
    destruct b as [p|], b' as [p'|]; auto; try discriminate. injection Hb as H0 H1 H2 H3 H4 H5 H6 H7 H8. now subst.
  Qed.

  Lemma signed_bytes_inj mb mb' h h' m m' : prefix_free_meta P -> ser_meta m = Some mb -> ser_meta m' = Some mb' ->
    signed_bytes mb h = signed_bytes mb' h' -> m = m' /\ h = h'.
  Proof.
    intros Hp H1 H2 H. unfold signed_bytes in H. apply app_inv_head in H.
    assert (m = m') by (eapply Hp; eauto). subst m'. split; auto.
    assert (mb = mb') by congruence. subst mb'. apply app_inv_head in H.
    injection H as _ _ _ _ _ _ _ _ H. exact H.
  Qed.

  Definition bytes_dec (x y : bytes) : {x = y} + {x <> y}.
  Proof. destruct (bytes_eqb x y) eqn:E; [left; now apply bytes_eqb_spec|right]. intros ->. rewrite bytes_eqb_refl in E. discriminate. Defined.

  Lemma content_hash_binding k k' b b' : content_hash k b = content_hash k' b' ->
    (k = k' /\ b = b') \/ collide (content_bytes k b) (content_bytes k' b').
  Proof.
    rewrite !content_hash_bytes. intros H. destruct (bytes_dec (content_bytes k b) (content_bytes k' b')) as [E|E].
    - left. now apply content_bytes_inj.
    - right. split; auto.
  Qed.

  Lemma digest_ok m h d : message_digest m h = Ok d -> exists mb, ser_meta m = Some mb /\ d = hash (signed_bytes mb h).
  Proof.
    unfold message_digest. intros H. apply bind_ok in H as (mb & H1 & H2). inv H2.
    destruct (ser_meta m) eqn:E; inv H1. eauto.
  Qed.

  Lemma digest_binding k k' m m' b b' d : prefix_free_meta P ->
    part_digest (k := k) m b = Ok d -> part_digest (k := k') m' b' = Ok d ->
    (m_session m = m_session m' /\ m_round m = m_round m' /\ k = k' /\ b = b') \/ parts_collide k k' m m' b b'.
  Proof.
    intros Hp H1 H2. unfold part_digest in *.
    apply digest_ok in H1 as (mb & E1 & ->), H2 as (mb' & E2 & H).
    rewrite <- !content_hash_eq, !content_hash_bytes in H.
    destruct (bytes_dec (signed_bytes mb (hash (content_bytes k b))) (signed_bytes mb' (hash (content_bytes k' b')))) as [E|E].
    - apply (@signed_bytes_inj _ _ _ _ _ _ Hp E1 E2) in E as [-> Eh].
      destruct (content_hash_binding k k' b b' Eh) as [[-> ->]|C]; [left; auto|right; left; exact C].
    - right; right. exists mb, mb'. split; auto. split; auto. split; auto.
  Qed.

  Lemma digest_binding_hash k m b h d : prefix_free_meta P ->
    part_digest (k := k) m b = Ok d -> message_digest (sh_meta h) (sh_hash h) = Ok d ->
    (sh_meta h = m /\ sh_hash h = hash (content_bytes k b)) \/
    exists mb mb', ser_meta m = Some mb /\ ser_meta (sh_meta h) = Some mb' /\
      collide (signed_bytes mb (hash (content_bytes k b))) (signed_bytes mb' (sh_hash h)).
  Proof.
    intros Hp H1 H2. unfold part_digest in *.
    apply digest_ok in H1 as (mb & E1 & ->), H2 as (mb' & E2 & H).
    rewrite <- !content_hash_eq, !content_hash_bytes in H.
    destruct (bytes_dec (signed_bytes mb (hash (content_bytes k b))) (signed_bytes mb' (sh_hash h))) as [E|E].
    - apply (@signed_bytes_inj _ _ _ _ _ _ Hp E1 E2) in E as [-> Eh]. auto.
    - right. exists mb, mb'. repeat split; auto.
  Qed.

  Lemma signed_digest {k} v (p : SPart k) : part_signed v p ->
    exists d g, part_digest (k := k) (sp_meta p) (sp_body p) = Ok d /\ deser_sig (sp_sig p) = Some g /\ verify_sig v d g = true.
  Proof.
    rewrite part_signed_eq. intros (mb & g & H1 & H2 & H3). exists (hash (digest_preimage mb (part_hash k (sp_body p)))), g.
    unfold part_digest, message_digest. rewrite H1. auto.
  Qed.

  Lemma signature_binding k k' v (p : SPart k) (p' : SPart k') : prefix_free_meta P ->
    part_signed v p -> part_signed v p' -> sp_sig p = sp_sig p' ->
    (k = k' /\ sp_meta p = sp_meta p' /\ sp_body p = sp_body p') \/
    parts_collide k k' (sp_meta p) (sp_meta p') (sp_body p) (sp_body p') \/ ambiguous v (sp_sig p).
  Proof.
    intros Hp H H' Es. apply signed_digest in H as (d & g & Hd & Hg & Hv). apply signed_digest in H' as (d' & g' & Hd' & Hg' & Hv').
    assert (g' = g) by congruence. subst g'.
    destruct (bytes_dec d d') as [->|Hne].
    - destruct (@digest_binding _ _ _ _ _ _ _ Hp Hd Hd') as [(E1 & E2 & E3 & E4)|C]; auto.
      left. split; auto. split; auto. destruct (sp_meta p), (sp_meta p'); simpl in *; congruence.
    - right; right. exists g, d, d'. auto.
  Qed.

  Lemma sign_part_signed k r s sid rid b p : signatures_correct P -> sign_part k r s sid rid b = Ok p ->
    part_signed (signer_key s) p.
  Proof.
    intros Hc H. apply sign_part_ok in H as (Hm & Hb & mb & g & H1 & H2 & H3). rewrite part_signed_eq, Hm, Hb.
    destruct (Hc _ _ _ _ _ H2 H3) as (g' & Hg & Hv). exists mb, g'. auto.
  Qed.

  Context {Pr : Proto}.

  Lemma made_message (d : DState Pr) g dest m art : reachable d -> signatures_correct P ->
    make_message (d_s d) g dest = Ok (m, art) ->
    message_authentic (s_verifier (d_s d)) (s_id (d_s d)) (s_round_id (d_s d)) m /\
    msg_echo m = s_echo (d_s d) /\ msg_normal m = s_normal (d_s d) /\
    exists x, rd_mk_direct (s_round (d_s d)) (rsub 0 g) dest = Ok (sp_body (msg_direct m), x) /\ art = (dest, x).
  Proof.
    intros Hre Hc H. pose proof (reachable_sinv Hre) as I. destruct (reachable_created Hre) as (g0 & sid & signer & r & t & C).
    unfold make_message in H. apply bind_ok in H as ([b x] & H1 & H). apply bind_ok in H as (m' & H2 & H). inv H.
    unfold message_new in H2. apply bind_ok in H2 as (dm & H2 & H). inv H. simpl.
    pose proof (sign_part_ok _ _ _ _ _ H2) as (Hm & Hb & _).
    pose proof (sign_part_signed _ _ _ _ _ Hc H2) as S1.
    pose proof (sign_part_signed _ _ _ _ _ Hc (cr_echo C)) as S2.
    pose proof (sign_part_signed _ _ _ _ _ Hc (cr_normal C)) as S3.
    rewrite <- (si_verifier I) in S1. rewrite <- (cr_verifier C) in S2, S3.
    split; [|subst b; eauto].
    unfold message_authentic. simpl. rewrite (si_echo_meta I), (si_normal_meta I). auto 10.
  Qed.

  Lemma no_replay (d d' : DState Pr) g dest m art from m' a' o k k' : prefix_free_meta P -> signatures_correct P -> reachable d ->
    make_message (d_s d) g dest = Ok (m, art) ->
    preprocess_message (d_s d') (d_a d') from m' = (a', Ok o) -> (o = Cached \/ exists vm, o = ToProcess vm) ->
    from = s_verifier (d_s d) -> sp_sig (msg_part k' m') = sp_sig (msg_part k m) ->
    (s_id (d_s d') = s_id (d_s d) /\ m_round (sp_meta (msg_direct m')) = s_round_id (d_s d) /\ k' = k /\
       sp_body (msg_part k' m') = sp_body (msg_part k m)) \/
    parts_collide k' k (sp_meta (msg_part k' m')) (sp_meta (msg_part k m)) (sp_body (msg_part k' m')) (sp_body (msg_part k m)) \/
    ambiguous from (sp_sig (msg_part k m)).
  Proof.
    intros Hp Hc Hre Hm Hpre Ho -> Es.
    destruct (@made_message _ _ _ _ _ Hre Hc Hm) as ((A1 & A2 & A3 & M1 & M2 & M3) & _).
    assert (Hm' : exists rid, message_authentic (s_verifier (d_s d)) (s_id (d_s d')) rid m').
    { apply preprocess_cases in Hpre. inv Hpre; eauto; destruct Ho as [Ho|[vm Ho]]; discriminate. }
    destruct Hm' as (rid & A1' & A2' & A3' & M1' & M2' & M3').
    assert (S : part_signed (s_verifier (d_s d)) (msg_part k m)) by (destruct k; auto).
    assert (S' : part_signed (s_verifier (d_s d)) (msg_part k' m')) by (destruct k'; auto).
    assert (M : sp_meta (msg_part k m) = mkMeta (s_id (d_s d)) (s_round_id (d_s d))) by (destruct k; auto).
    assert (M' : sp_meta (msg_part k' m') = mkMeta (s_id (d_s d')) rid) by (destruct k'; auto).
    rewrite <- Es.
    destruct (@signature_binding _ _ _ _ _ Hp S' S Es) as [(-> & E1 & E2)|[C|A]]; auto.
    left. rewrite M, M' in E1. injection E1 as E1 E1'. rewrite M1'. simpl. auto.
  Qed.

  Lemma sent_parts (d : DState Pr) st g dest m art : reachable d -> s_round (d_s d) = RMain st ->
    mem dest (message_destinations (d_s d)) = true -> make_message (d_s d) g dest = Ok (m, art) ->
    (exists ge, mk_echo Pr st ge = Ok (sp_body (msg_echo m))) /\ (exists gn, mk_normal Pr st gn = Ok (sp_body (msg_normal m))) /\
    exists gd x, mk_direct Pr st gd dest = Ok (sp_body (msg_direct m), x) /\ art = (dest, AVal x).
  Proof.
    intros Hre Hst Hd H. pose proof (reachable_sinv Hre) as I. destruct (reachable_created Hre) as (g0 & sid & signer & r & t & C).
    assert (Er : r = RMain st) by (rewrite <- (cr_round C); auto). subst r.
    assert (Hne : is_empty (ci_dest (rd_cinfo (@RMain _ Pr st))) = false).
    { unfold message_destinations in Hd. rewrite (cr_comm C) in Hd.
      destruct (is_empty _) eqn:E; auto. apply is_empty_spec in E. rewrite E in Hd. discriminate. }
    pose proof (cr_echo_body C) as He. pose proof (cr_normal_body C) as Hn. rewrite Hne in He, Hn. simpl in He, Hn.
    unfold make_message in H. rewrite Hst in H. simpl in H.
    apply bind_ok in H as ([b x] & H1 & H). apply bind_ok in H as (m' & H2 & H). inv H.
    apply bind_ok in H1 as ([b' x'] & H1 & H). inv H.
    unfold message_new in H2. apply bind_ok in H2 as (dm & H2 & H). inv H. simpl.
    apply sign_part_ok in H2 as (_ & Hb & _). subst b. eauto 10.
  Qed.

  Lemma same_broadcasts (d : DState Pr) g dest m art g' dest' m' art' : reachable d -> signatures_correct P ->
    make_message (d_s d) g dest = Ok (m, art) -> make_message (d_s d) g' dest' = Ok (m', art') ->
    msg_echo m = msg_echo m' /\ msg_normal m = msg_normal m' /\
    message_authentic (s_verifier (d_s d)) (s_id (d_s d)) (s_round_id (d_s d)) m.
  Proof.
    intros Hre Hc H H'. destruct (@made_message _ _ _ _ _ Hre Hc H) as (A & E & N & _).
    destruct (@made_message _ _ _ _ _ Hre Hc H') as (_ & E' & N' & _). repeat split; try congruence; apply A.
  Qed.

  (** C52, receiving side. *)
  Lemma receives_what_was_sent (d d0 d' : DState Pr) es g dest m art : plain_ids Pr -> signatures_correct P ->
    reachable d -> make_message (d_s d) g dest = Ok (m, art) ->
    round_start d0 -> run d0 es d' -> in_round es ->
    s_id (d_s d') = s_id (d_s d) -> s_round_id (d_s d') = s_round_id (d_s d) ->
    ~ banned (d_s d') (d_a d') (s_verifier (d_s d)) ->
    (forall m' vm, ~ In (EPre (s_verifier (d_s d)) m' (ToProcess vm)) es) ->
    exists a' vm, preprocess_message (d_s d') (d_a d') (s_verifier (d_s d)) m = (a', Ok (ToProcess vm)) /\
      is_message_of (s_verifier (d_s d)) m vm /\
      pm_msg (process_message (d_s d') vm) = vm /\
      pm_res (process_message (d_s d') vm) = rd_receive (s_round (d_s d')) (s_verifier (d_s d))
        (mkDynMsg (sp_body (msg_echo m)) (sp_body (msg_normal m)) (sp_body (msg_direct m))).
  Proof.
    intros Hpl Hc Hre Hm Hs Hr Hin Hid Hrid Hb Hpr. destruct (@made_message _ _ _ _ _ Hre Hc Hm) as (Ha & _).
    rewrite <- Hid, <- Hrid in Ha.
    assert (Hre' : reachable d') by (eapply reachable_run; [apply round_start_reachable|]; eauto).
    assert (Hp : mem (s_verifier (d_s d)) (a_processing (d_a d')) = false).
    { destruct (mem _ _) eqn:E; auto. exfalso. apply (h_processing (round_history Hs Hr Hin)) in E as (m' & vm & E). eapply Hpr; eauto. }
    rewrite (@preprocess_accepts _ _ _ _ _ _ Hb Ha Hp).
    - eexists _, _. split; [reflexivity|]. split; [unfold is_message_of; simpl; auto|]. split; reflexivity.
    - intros He. pose proof (reachable_sinv Hre') as I. destruct (si_shape I) as [st Hst|echos info st ps arts Hst Hn]; [|congruence].
      pose proof (si_tinfo I) as Ht. rewrite Hst in Ht. simpl in Ht. unfold s_round_id. injection Ht as <-. apply Hpl.
  Qed.

  Lemma evidence_has_trigger v e n d err (t : Transcript) ev : api_parts (rq_this (be_required err)) ->
    new_provable_error v e n d err t = Ok ev ->
    ev_guilty ev = v /\ exists pe, ev_body ev = EvProtocol pe /\
      (pe_direct pe = Some d \/ pe_echo pe = Some e \/ pe_normal pe = Some n).
  Proof.
    intros Ha H. unfold new_provable_error in H.
    apply bind_ok in H as ([[es ns] ds] & _ & H). apply bind_ok in H as ([hs os] & _ & H). apply bind_ok in H as (eb & _ & H). inv H.
    simpl. split; auto. eexists. split; [reflexivity|]. simpl.
    assert (Hp : forall p, api_parts p -> (rp_echo p || rp_normal p || rp_direct p = true)%bool).
    { clear. intros p Hp. destruct Hp as [p H|p H|p H|p q _ H|p q _ H|p q _ H];
        unfold req_echo, req_normal, req_direct, and_echo, and_normal, and_direct, req_new in H;
        try destruct p as [x y z]; simpl in H; rewrite ?orb_true_r in H; simpl in H;
        injection H; intros; subst; try reflexivity; destruct x, y; reflexivity. }
    apply Hp in Ha. destruct (rq_this (be_required err)) as [x y z]. simpl in *. destruct x, y, z; auto; discriminate.
  Qed.
End WithParams.

(** ** Round ids *)
Lemma pop_last_app l g : pop_last (l ++ [g]) = Some (g, l).
Proof. unfold pop_last. rewrite rev_app_distr. simpl. now rewrite rev_involutive. Qed.

Lemma split_group_under r g : split_group (group_under r g) = Ok (g, r).
Proof.
  destruct r as [n gs e]. unfold split_group, group_under. simpl.
  destruct (gs ++ [g]) eqn:E; [destruct gs; discriminate|]. rewrite <- E, pop_last_app. reflexivity.
Qed.

Lemma split_group_ok r g r' : split_group r = Ok (g, r') <-> r = group_under r' g.
Proof.
  split; [|intros ->; apply split_group_under].
  unfold split_group. destruct r as [n gs e]. simpl. destruct gs as [|x gs0] using rev_ind; [discriminate|].
  destruct (gs0 ++ [x]) eqn:E; [destruct gs0; discriminate|]. rewrite <- E, pop_last_app. intros H. inv H. unfold group_under. simpl.
  now rewrite E.
Qed.

Lemma split_group_total r : (rid_groups r = [] /\ split_group r = Err LE_NotInGroup) \/ exists g r', split_group r = Ok (g, r').
Proof.
  destruct r as [n gs e]. destruct gs as [|x gs0] using rev_ind; [left; auto|]. right. exists x, (mkRid n gs0 e).
  apply split_group_ok. reflexivity.
Qed.

Lemma group_under_inj r g r' g' : group_under r g = group_under r' g' -> r = r' /\ g = g'.
Proof.
  intros H. assert (E : split_group (group_under r g) = split_group (group_under r' g')) by now rewrite H.
  rewrite !split_group_under in E. inv E. auto.
Qed.

(** ** Serializable maps *)
Section Map.
  Context {K V : Type} {OK : Ord K}.

  Lemma sm_visit_some (m0 : bmap K V) l m : sm_visit m0 l = Some m <->
    exists kvs, l = map Some kvs /\ NoDup (map fst kvs) /\ (forall k, In k (map fst kvs) -> get k m0 = None) /\
      forall k v, get k m = Some v <-> get k m0 = Some v \/ In (k, v) kvs.
  Proof.
    revert m0. induction l as [|[[k0 v0]|] l IH]; simpl; intros m0.
    - split.
      + intros H. inv H. exists []. simpl. repeat split; try constructor; tauto.
      + intros (kvs & H1 & _ & _ & H2). destruct kvs; [|discriminate]. f_equal. apply bmap_ext. intros k.
        destruct (get k m0) eqn:E0.
        * symmetry. apply H2. auto.
        * destruct (get k m) eqn:E; auto. apply H2 in E. destruct E as [E|[]]. congruence.
    - destruct (contains k0 m0) eqn:Ec.
      + split; [discriminate|]. intros (kvs & H1 & _ & H2 & _). destruct kvs as [|kv kvs]; inv H1.
        apply contains_get in Ec as [x Ec]. rewrite (H2 k0) in Ec; [discriminate|]. simpl; auto.
      + apply contains_false in Ec. rewrite IH. split.
        * intros (kvs & -> & Hn & Hf & Hg). exists ((k0, v0) :: kvs). simpl. split; auto.
          assert (Hk : ~ In k0 (map fst kvs)) by (intros Hi; specialize (Hf _ Hi); rewrite get_insert_eq in Hf; discriminate).
          split; [constructor; auto|]. split.
          -- intros k [<-|Hi]; auto. specialize (Hf _ Hi). rewrite get_insert_ne in Hf; auto. congruence.
          -- intros k v. rewrite Hg, get_insert. destruct (eqb_spec k k0) as [->|Hne].
             ++ split; [intros [H|H]; [inv H; auto|auto]|]. intros [H|[H|H]]; [congruence|inv H; auto|].
                exfalso. apply Hk. apply in_map_iff. exists (k0, v). auto.
             ++ split; [tauto|]. intros [H|[H|H]]; auto. inv H. congruence.
        * intros (kvs & H1 & Hn & Hf & Hg). destruct kvs as [|kv kvs]; inv H1. simpl in Hn. inv Hn.
          exists kvs. split; auto. split; auto. split.
          -- intros k Hi. rewrite get_insert_ne; [apply Hf; simpl; auto|]. intros ->. auto.
          -- intros k v. rewrite Hg, get_insert. simpl. destruct (eqb_spec k k0) as [->|Hne].
             ++ split; [intros [H|[H|H]]; [congruence|inv H; auto|auto]|]. intros [H|H]; [inv H; auto|auto].
             ++ split; [intros [H|[H|H]]; auto; inv H; congruence|tauto].
    - split; [discriminate|]. intros (kvs & H1 & _). destruct kvs; discriminate.
  Qed.

  Lemma sm_deserialize_iff (l : list (option (K * V))) m : sm_deserialize l = Some m <->
    exists kvs, l = map Some kvs /\ NoDup (map fst kvs) /\ forall k v, get k m = Some v <-> In (k, v) kvs.
  Proof.
    unfold sm_deserialize. rewrite sm_visit_some. split.
    - intros (kvs & H1 & H2 & _ & H3). exists kvs. split; auto. split; auto. intros k v. rewrite H3, get_empty. intuition discriminate.
    - intros (kvs & H1 & H2 & H3). exists kvs. split; auto. split; auto. split; [intros; apply get_empty|].
      intros k v. rewrite H3, get_empty. intuition discriminate.
  Qed.

  Lemma sm_deserialize_exists (kvs : list (K * V)) : (exists m, sm_deserialize (map Some kvs) = Some m) <-> NoDup (map fst kvs).
  Proof.
    split.
    - intros [m H]. apply sm_deserialize_iff in H as (kvs' & H & Hn & _).
      assert (E : kvs' = kvs). { clear Hn. revert kvs H. induction kvs' as [|x l IH]; intros [|y l'] H; try discriminate; auto.
        inv H. f_equal; auto. } now subst.
    - intros Hn. exists (of_list kvs). apply sm_deserialize_iff. exists kvs. split; auto. split; auto.
      intros k v. apply get_of_list_nodup; auto.
  Qed.

  Lemma sm_round_trip (m : bmap K V) : sm_deserialize (map Some (snd (sm_serialize m))) = Some m.
  Proof.
    apply sm_deserialize_iff. exists (to_list m). split; auto. split; [apply NoDup_keys|]. intros k v. symmetry. apply in_to_list.
  Qed.

  Lemma sm_order_irrelevant (kvs kvs' : list (K * V)) : Permutation kvs kvs' ->
    sm_deserialize (map Some kvs) = sm_deserialize (map Some kvs').
  Proof.
    intros Hp.
    assert (H : forall (l l' : list (K * V)) m, Permutation l l' -> sm_deserialize (map Some l) = Some m -> sm_deserialize (map Some l') = Some m).
    { intros l l' m Hl H. assert (Hn : NoDup (map fst l)) by (apply sm_deserialize_exists; eauto).
      apply sm_deserialize_iff in H as (l0 & E & _ & Hg).
      assert (l0 = l). { revert E. clear. revert l0. induction l as [|x l IH]; intros [|y l0] E; try discriminate; auto. inv E. f_equal; auto. }
      subst l0. apply sm_deserialize_iff. exists l'. split; auto. split.
      - eapply Permutation_NoDup; [|exact Hn]. now apply Permutation_map.
      - intros k v. rewrite Hg. split; apply Permutation_in; auto. now apply Permutation_sym. }
    destruct (sm_deserialize (map Some kvs)) as [m|] eqn:E; [symmetry; eapply H; eauto|].
    destruct (sm_deserialize (map Some kvs')) as [m|] eqn:E'; auto. apply Permutation_sym in Hp.
    rewrite (H _ _ _ Hp E') in E. discriminate.
  Qed.
End Map.
