(** Facts about protocols made of typed rounds. *)
From Coq Require Import List NArith Bool.
From Verif Require Import Base BMap Errors RoundId Message Protocol Transcript Evidence Session Typed Spec SpecCrypto SpecEvidence SpecTyped
  MessageFacts SessionFacts RunFacts IntakeFacts RoundFacts FinalizeFacts HistoryFacts EvidenceFacts.
Import ListNotations.
Set Implicit Arguments.

Lemma map_res_total {E A B} (f : A -> res E B) l : (forall x, In x l -> exists y, f x = Ok y) -> exists ys, map_res f l = Ok ys.
Proof.
  induction l as [|x l IH]; simpl; intros H; [eauto|]. destruct (H x) as [y Hy]; auto. rewrite Hy. cbn [bind].
  destruct IH as [ys ->]; [|simpl; eauto]. intros z Hz. apply H; auto.
Qed.

(** A map whose values can all be converted. *)
Lemma convert_ok {K} `{OK : Ord K} {E A B} (f : A -> res E B) (m : bmap K A) (h : B -> A -> Prop) :
  (forall k x, get k m = Some x -> exists y, f x = Ok y /\ h y x) ->
  exists m', (let* l := map_res (fun kv => let* y := f (snd kv) in Ok (fst kv, y)) (to_list m) in Ok (of_list l)) = Ok m' /\
    forall k, match get k m, get k m' with Some x, Some y => f x = Ok y /\ h y x | None, None => True | _, _ => False end.
Proof.
  intros H. destruct (@map_res_total E (K * A) (K * B) (fun kv => let* y := f (snd kv) in Ok (fst kv, y)) (to_list m)) as [l Hl].
  { intros [k x] Hin. apply in_to_list in Hin. destruct (H _ _ Hin) as (y & Hy & _). simpl. rewrite Hy. simpl. eauto. }
  rewrite Hl. cbn [bind]. exists (of_list l). split; auto.
  assert (Hf : map fst l = map fst (to_list m)).
  { clear H. revert l Hl. induction (to_list m) as [|[k x] t IH]; simpl; intros l Hl; [inv Hl; auto|].
    apply bind_ok in Hl as ((k' & y) & H1 & Hl). apply bind_ok in Hl as (ys & H2 & Hl). inv Hl.
    apply bind_ok in H1 as (y' & _ & H1). inv H1. simpl. f_equal. auto. }
  assert (Hv : forall k y, In (k, y) l -> exists x, In (k, x) (to_list m) /\ f x = Ok y).
  { clear H Hf. revert l Hl. induction (to_list m) as [|[k x] t IH]; simpl; intros l Hl k' y' Hin; [inv Hl; contradiction|].
    apply bind_ok in Hl as ((k1 & y) & H1 & Hl). apply bind_ok in Hl as (ys & H2 & Hl). inv Hl.
    apply bind_ok in H1 as (y1 & H1 & H3). inv H3. destruct Hin as [E1|Hin]; [inv E1; eauto|].
    destruct (IH _ H2 _ _ Hin) as (x' & Hi & Hx). eauto. }
  assert (Hnd : NoDup (map fst l)) by (rewrite Hf; apply (NoDup_keys m)).
  intros k. destruct (get k (of_list l)) as [y|] eqn:Ey.
  - apply get_of_list_nodup in Ey; auto. destruct (Hv _ _ Ey) as (x & Hin & Hx). apply in_to_list in Hin. rewrite Hin.
    split; auto. destruct (H _ _ Hin) as (y' & Hy' & Hh). congruence.
  - apply get_of_list_none in Ey. rewrite Hf in Ey. destruct (get k m) eqn:Em; auto. apply Ey. apply in_to_list in Em.
    apply in_map_iff. exists (k, a). auto.
Qed.

Section Made.
  Context {P : Params}.
  Context {Pr : Proto}.

  Definition made (r : Round Pr) (ps : bmap Verifier (SPayload Pr)) (arts : bmap Verifier (SArtifact Pr)) : Prop :=
    (forall v p, get v ps = Some p -> exists m, rd_receive r v m = Ok p) /\
    (forall v x, get v arts = Some x -> exists g b, rd_mk_direct r g v = Ok (b, x)).
  Definition minv (d : DState Pr) : Prop :=
    made (s_round (d_s d)) (a_payloads (d_a d)) (a_artifacts (d_a d)) /\
    forall v e i main ps arts, s_round (d_s d) = REcho v e i main ps arts -> made main ps arts.

  Lemma made_empty r : made r empty empty.
  Proof. split; intros v x H; rewrite get_empty in H; discriminate. Qed.

  Lemma minv_step d e d' : step d e d' -> minv d -> minv d'.
  Proof.
    intros Hs [[M1 M2] M3]. inv Hs; simpl in *.
    - apply preprocess_cases in H. split; [|exact M3]. simpl.
      assert (E : a_payloads a' = a_payloads a /\ a_artifacts a' = a_artifacts a).
      { inv H; simpl; auto. }
      destruct E as [-> ->]. split; auto.
    - apply add_processed_ok in H as (_ & _ & C). split; [|exact M3]. simpl. inv C; simpl; split; auto.
      intros v p' Hg. rewrite get_insert in Hg. destruct (eqb v (vm_from vm)) eqn:E; [|eauto].
      apply (proj1 (eqb_eq _ _)) in E. subst v. inv Hg. unfold answer in H. eauto.
    - apply add_artifact_ok in H1 as [_ ->]. split; [|exact M3]. simpl. split; auto.
      intros v x Hg. rewrite get_insert in Hg. destruct (eqb v dest) eqn:E; [|eauto].
      apply (proj1 (eqb_eq _ _)) in E. subst v. inv Hg. unfold make_message in H0.
      apply bind_ok in H0 as ((b & y) & H1 & H0). apply bind_ok in H0 as (m' & _ & H0). inv H0. eauto.
    - apply finalize_another in H0. inv H0; (split; [simpl; apply made_empty|]); simpl; intros v e i main ps arts Hr;
        rewrite (cr_round H4) in Hr || rewrite (cr_round H5) in Hr; inv Hr. split; auto.
  Qed.

  Lemma reachable_minv d : reachable d -> minv d.
  Proof.
    intros (s & es & Hi & Hr). remember (start s) as d0 eqn:Ed. induction Hr as [d|d es d1 e d2 Hr IH Hs].
    - subst d. destruct Hi as (g & sid & signer & ep & Hn). apply session_new_ok in Hn as (st & _ & C).
      split; simpl; [apply made_empty|]. intros v e i main ps arts E. rewrite (cr_round C) in E. discriminate.
    - eapply minv_step; eauto.
  Qed.
End Made.

Section Typed.
  Context {P : Params}.
  Context {T : TProto}.

  Lemma part_receive_deser m b : part_receive m b = part_deser m b.
  Proof. destruct m, b; reflexivity. Qed.
  Lemma part_invalid_none m b : part_deser m b = None -> part_invalid m b = Ok tt.
  Proof. destruct m, b; simpl; try discriminate; auto. intros ->. auto. Qed.
  Lemma part_invalid_some m b x : part_deser m b = Some x -> part_invalid m b = Err EE_Invalid.
  Proof. destruct m, b; simpl; try discriminate; auto. intros ->. auto. Qed.

  Lemma box_recv_protocol {Sh} (e : EType Sh) rid r :
    box_recv e rid r <> RDirect /\ box_recv e rid r <> REchoB /\ box_recv e rid r <> RNormal /\ forall x, box_recv e rid r <> REchoRound x.
  Proof. destruct r; simpl; repeat split; intros; discriminate. Qed.

  Lemma w_receive_err k x from m e : w_receive (box T k x) from m = Err e ->
    (e = RDirect /\ part_deser (t_direct T k) (dm_direct m) = None) \/
    (e = REchoB /\ part_deser (t_echo T k) (dm_echo m) = None) \/
    (e = RNormal /\ part_deser (t_normal T k) (dm_normal m) = None) \/
    (exists r, e = box_recv (t_err T k) (ti_id (t_tinfo T k x)) r).
  Proof.
    unfold w_receive, box. rewrite !part_receive_deser. intros H.
    destruct (part_deser (t_direct T k) (dm_direct m)); simpl in H; [|inv H; auto].
    destruct (part_deser (t_echo T k) (dm_echo m)); simpl in H; [|inv H; auto].
    destruct (part_deser (t_normal T k) (dm_normal m)); simpl in H; [|inv H; auto].
    destruct (t_receive T k x from _ _ _); simpl in H; try discriminate. inv H. eauto 6.
  Qed.

  Lemma w_receive_ok k x from m p : w_receive (box T k x) from m = Ok p ->
    exists d e n y, part_deser (t_direct T k) (dm_direct m) = Some d /\ part_deser (t_echo T k) (dm_echo m) = Some e /\
      part_deser (t_normal T k) (dm_normal m) = Some n /\ t_receive T k x from d e n = Ok y /\ p = existT _ (t_pay T k) y.
  Proof.
    unfold w_receive, box. rewrite !part_receive_deser. intros H.
    destruct (part_deser (t_direct T k) (dm_direct m)) as [d|]; simpl in H; [|discriminate].
    destruct (part_deser (t_echo T k) (dm_echo m)) as [e|]; simpl in H; [|discriminate].
    destruct (part_deser (t_normal T k) (dm_normal m)) as [n|]; simpl in H; [|discriminate].
    destruct (t_receive T k x from d e n) as [y| |] eqn:Er; simpl in H; inv H. exists d, e, n, y. auto 10.
  Qed.

  Lemma typed_info_consistent : info_typed T -> info_consistent (wrap T).
  Proof.
    intros H [k x]. exists (w_info T k). split; [simpl; rewrite (H k x); reflexivity|]. intros from m. simpl.
    split; [|split]; intros Hr; apply (w_receive_err k x) in Hr as [[E1 E2]|[[E1 E2]|[[E1 E2]|[r E1]]]];
      try discriminate; try (now apply part_invalid_none); exfalso; symmetry in E1; revert E1; apply box_recv_protocol.
  Qed.

  Lemma typed_no_echo_errors : no_echo_errors (wrap T).
  Proof.
    intros [k x] from m e Hr. apply (w_receive_err k x) in Hr as [[E1 E2]|[[E1 E2]|[[E1 E2]|[r E1]]]]; try discriminate.
    symmetry in E1; revert E1; apply box_recv_protocol.
  Qed.

  Lemma part_new_deser m x b : codec m -> part_new m x = Ok b -> part_deser m b = Some x.
  Proof.
    destruct m; simpl; intros C H.
    - inv H. now destruct x.
    - destruct (ser x) eqn:E; simpl in H; inv H. auto.
  Qed.

  Lemma typed_own_valid : info_typed T -> codecs T -> own_parts_valid (wrap T).
  Proof.
    intros H C [k x]. destruct (C k) as (C1 & C2 & C3). exists (w_info T k). split; [simpl; rewrite (H k x); reflexivity|]. simpl. split; [|split].
    - intros g dest b a Hm. apply bind_ok in Hm as ((m & y) & _ & Hm). apply bind_ok in Hm as (d & Hd & Hm). inv Hm.
      rewrite (part_invalid_some _ _ (part_new_deser _ _ C1 Hd)). discriminate.
    - intros g b Hm. apply bind_ok in Hm as (m & _ & Hm). rewrite (part_invalid_some _ _ (part_new_deser _ _ C2 Hm)). discriminate.
    - intros g b Hm. apply bind_ok in Hm as (m & _ & Hm). rewrite (part_invalid_some _ _ (part_new_deser _ _ C3 Hm)). discriminate.
  Qed.

  Lemma typed_echo_rounds : echo_typed T -> echo_rounds_have_broadcasts (wrap T).
  Proof.
    intros H [k x] Hc from m p Hr. apply (w_receive_ok k x) in Hr as (d & e & n & y & _ & He & _).
    assert (Hn : t_echo T k <> NoMsg).
    { destruct Hc as [[tg Ht]|[_ (g & b & Hb)]]; [exact (H k x tg Ht)|]. simpl in Hb. apply bind_ok in Hb as (mm & _ & Hb).
      intros E. revert mm Hb. rewrite E. simpl. intros mm Hb. inv Hb. }
    intros E. rewrite E in He. destruct (t_echo T k); [congruence|discriminate].
  Qed.

  (** ** Downcasts *)
  Lemma any_down_same e t (x : ty T t) : any_down (T:=T) e t (existT _ t x) = Ok x.
  Proof.
    unfold any_down. simpl. destruct (ty_dec T t t) as [H|H]; [|congruence].
    rewrite (Eqdep_dec.UIP_dec (ty_dec T) H eq_refl). reflexivity.
  Qed.

  Lemma made_typed k (x : tst T k) qs as_ : made (RMain (box T k x : St (wrap T))) qs as_ ->
    exists ps arts, typed_inputs x qs as_ ps arts /\
      forall g, rd_finalize (RMain (box T k x : St (wrap T))) g qs as_ = t_finalize T k x g ps arts.
  Proof.
    intros [M1 M2].
    assert (N1 : forall v q, get v qs = Some q -> exists y d e n, t_receive T k x v d e n = Ok y /\ q = PVal (pay y : Payload (wrap T))).
    { intros v q Hq. destruct (M1 _ _ Hq) as [m Hm]. simpl in Hm. apply bind_ok in Hm as (p & Hp & Hm). inv Hm.
      apply (w_receive_ok k x) in Hp as (d & e & n & y & _ & _ & _ & Hy & ->). exists y, d, e, n. auto. }
    assert (N2 : forall v q, get v as_ = Some q -> exists y g m, typed_direct T k x g v = Ok (m, y) /\ q = AVal (artf y : Artifact (wrap T))).
    { intros v q Hq. destruct (M2 _ _ Hq) as (g & b & Hm). simpl in Hm. apply bind_ok in Hm as ((b' & a) & Hp & Hm). inv Hm.
      apply bind_ok in Hp as ((m & y) & Hy & Hp). apply bind_ok in Hp as (d & _ & Hp). inv Hp. exists y, g, m. auto. }
    destruct (@convert_ok _ _ LocalError _ _ (@down_payload _ (wrap T)) qs (fun y q => q = PVal y)) as (q1 & Hq1 & Gq1).
    { intros v q Hq. destruct (N1 _ _ Hq) as (y & _ & _ & _ & _ & ->). simpl. eauto. }
    destruct (@convert_ok _ _ LocalError _ _ (@down_artifact _ (wrap T)) as_ (fun y q => q = AVal y)) as (a1 & Ha1 & Ga1).
    { intros v q Hq. destruct (N2 _ _ Hq) as (y & _ & _ & _ & ->). simpl. eauto. }
    destruct (@convert_ok _ _ LocalError (Payload (wrap T)) _ (any_down (T:=T) LE_PayloadDowncast (t_pay T k)) q1 (fun y q => q = pay y)) as (ps & Hps & Gps).
    { intros v q Hq. pose proof (Gq1 v) as G. rewrite Hq in G. destruct (get v qs) eqn:E; [|contradiction]. destruct G as [_ ->].
      destruct (N1 _ _ E) as (y & _ & _ & _ & _ & Ey). injection Ey as ->. exists y. split; auto. apply any_down_same. }
    destruct (@convert_ok _ _ LocalError (Artifact (wrap T)) _ (any_down (T:=T) LE_ArtifactDowncast (t_art T k)) a1 (fun y q => q = artf y)) as (arts & Harts & Garts).
    { intros v q Hq. pose proof (Ga1 v) as G. rewrite Hq in G. destruct (get v as_) eqn:E; [|contradiction]. destruct G as [_ ->].
      destruct (N2 _ _ E) as (y & _ & _ & _ & Ey). injection Ey as ->. exists y. split; auto. apply any_down_same. }
    exists ps, arts.
    assert (K1 : forall v, get v qs = option_map (fun p => PVal (pay p : Payload (wrap T))) (get v ps)).
    { intros v. pose proof (Gq1 v) as G1. pose proof (Gps v) as G2. destruct (get v qs), (get v q1); try contradiction.
      - destruct G1 as [_ ->]. destruct (get v ps); [|contradiction]. destruct G2 as [_ ->]. reflexivity.
      - destruct (get v ps); [contradiction|]. reflexivity. }
    assert (K2 : forall v, get v as_ = option_map (fun p => AVal (artf p : Artifact (wrap T))) (get v arts)).
    { intros v. pose proof (Ga1 v) as G1. pose proof (Garts v) as G2. destruct (get v as_), (get v a1); try contradiction.
      - destruct G1 as [_ ->]. destruct (get v arts); [|contradiction]. destruct G2 as [_ ->]. reflexivity.
      - destruct (get v arts); [contradiction|]. reflexivity. }
    split.
    - split; [exact K1|]. split; [exact K2|]. split.
      + intros v p Hp. pose proof (K1 v) as K. rewrite Hp in K. destruct (N1 _ _ K) as (y & d & e & n & Hy & E).
        injection E as E. apply (Eqdep_dec.inj_pair2_eq_dec _ (ty_dec T)) in E. subst. eauto.
      + intros v p Hp. pose proof (K2 v) as K. rewrite Hp in K. destruct (N2 _ _ K) as (y & g & m & Hy & E).
        injection E as E. apply (Eqdep_dec.inj_pair2_eq_dec _ (ty_dec T)) in E. subst. eauto.
    - intros g. assert (D1 : downcast (@down_payload _ (wrap T)) qs = Ok q1) by exact Hq1.
      assert (D2 : downcast (@down_artifact _ (wrap T)) as_ = Ok a1) by exact Ha1.
      cbn [rd_finalize]. rewrite D1. cbn [bind]. rewrite D2. cbn [bind].
      assert (D3 : down_all (T:=T) LE_PayloadDowncast (t_pay T k) q1 = Ok ps) by exact Hps.
      assert (D4 : down_all (T:=T) LE_ArtifactDowncast (t_art T k) a1 = Ok arts) by exact Harts.
      change (w_finalize (box T k x) g q1 a1 = t_finalize T k x g ps arts). unfold w_finalize, box. rewrite D3. cbn [bind].
      rewrite D4. reflexivity.
  Qed.

  Lemma downcasts_succeed (d : DState (wrap T)) k (x : tst T k) qs as_ : reachable d -> collected d x qs as_ ->
    exists ps arts, typed_inputs x qs as_ ps arts /\
      forall g, rd_finalize (s_round (d_s d)) g (a_payloads (d_a d)) (a_artifacts (d_a d)) = t_finalize T k x g ps arts.
  Proof.
    intros Hre Hc. destruct (reachable_minv Hre) as [M1 M2]. destruct Hc as [(Hr & -> & ->)|(v & e & i & Hr)].
    - rewrite Hr in M1 |- *. exact (made_typed M1).
    - specialize (M2 _ _ _ _ _ _ Hr). destruct (made_typed M2) as (ps & arts & H1 & H2). exists ps, arts. split; auto.
      intros g. rewrite Hr. exact (H2 g).
  Qed.

  Lemma always_collected (d : DState (wrap T)) : reachable d -> exists k (x : tst T k) qs as_, collected d x qs as_.
  Proof.
    intros Hre. destruct (si_shape (reachable_sinv Hre)) as [[k x] Hs|e i [k x] ps arts Hs _]; unfold collected, box; eauto 10.
  Qed.
End Typed.

(** ** Verification of evidence does not panic by itself *)
Section Panic.
  Context {P : Params}.
  Context {Pr : Proto}.

  Lemma map_err_no_panic {E E' A} (f : E -> E') (x : res E A) : x <> Panic -> map_err f x <> Panic.
  Proof. destruct x; simpl; congruence. Qed.
  Lemma verify_part_no_panic {k} v (p : SPart k) : verify_part v p <> Panic.
  Proof. pose proof (verify_part_cases v p). destruct (verify_part v p); congruence || contradiction. Qed.

  Lemma verify_panics ev (sd : Shared Pr) : verify_evidence Pr ev sd = Panic ->
    exists rid ri, round_info Pr rid = Some ri /\
      ((exists b, ri_direct ri b = Panic \/ ri_echo ri b = Panic \/ ri_normal ri b = Panic) \/
       (exists e v sid m prev comb, ri_verify ri rid e v sid sd m prev comb = Panic)).
  Proof.
    assert (Hp : forall k v (p : SPart k), map_err into_evidence_error (verify_part v p) <> Panic).
    { intros. apply map_err_no_panic, verify_part_no_panic. }
    assert (Hh : forall v h, map_err into_evidence_error (verify_shash v h) <> Panic).
    { intros. apply map_err_no_panic, verify_shash_no_panic. }
    unfold verify_evidence. destruct ev as [g [e|p|p|p|p s|g' w h]]; simpl; intros H.
    - unfold verify_protocol in H. apply bind_panic in H as [H|(m & _ & H)]; [now apply ok_or_no_panic in H|].
      assert (H1 : forall k v sid rid (o : option (SPart k)), verify_message_part v sid rid o <> Panic).
      { intros k v sid rid [p|]; simpl; [|discriminate]. destruct (_ || _)%bool; [discriminate|].
        apply bind_no_panic; [apply Hp|discriminate]. }
      assert (H2 : forall k v sid (o : bmap RoundId (SPart k)), verify_message_parts v sid o <> Panic).
      { intros k v sid o. apply fold_res_no_panic. intros x [rid p]. apply bind_no_panic; [apply Hp|]. intros y. destruct (_ || _)%bool; discriminate. }
      apply bind_panic in H as [H|(x1 & _ & H)]; [now apply H1 in H|]. apply bind_panic in H as [H|(x2 & _ & H)]; [now apply H1 in H|].
      apply bind_panic in H as [H|(x3 & _ & H)]; [now apply H1 in H|]. apply bind_panic in H as [H|(x4 & _ & H)]; [now apply H2 in H|].
      apply bind_panic in H as [H|(x5 & _ & H)]; [now apply H2 in H|]. apply bind_panic in H as [H|(x6 & _ & H)]; [now apply H2 in H|].
      apply bind_panic in H as [H|(x7 & _ & H)].
      { exfalso. revert H. apply fold_res_no_panic. intros x [rid p]. apply bind_no_panic.
        { apply map_err_no_panic. unfold non_echo. destruct (negb _); discriminate. }
        intros main. destruct (_ || _)%bool; [discriminate|]. apply bind_no_panic; [apply Hp|]. intros p'.
        apply bind_no_panic; [apply ok_or_no_panic|]. intros msg. apply bind_no_panic; [apply ok_or_no_panic|]. intros signed.
        apply bind_no_panic; [|discriminate]. apply fold_res_no_panic. intros acc [u h]. unfold verify_echoed.
        destruct (_ || _)%bool; [discriminate|]. apply bind_no_panic; [apply Hh|]. intros h'. apply bind_no_panic; [apply ok_or_no_panic|].
        intros e'. destruct (_ || _)%bool; [discriminate|]. destruct (negb _); [discriminate|]. apply bind_no_panic; [apply Hp|discriminate]. }
      apply bind_panic in H as [H|(ri & Hri & H)]; [now apply ok_or_no_panic in H|].
      destruct (round_info Pr (m_round m)) as [ri'|] eqn:E; inv Hri. exists (m_round m), ri. split; auto. right. eauto 10.
    - unfold verify_invalid_part in H. apply bind_panic in H as [H|(q & _ & H)]; [now apply Hp in H|].
      destruct (rid_echo _); [unfold echo_direct_invalid, verify_is_some in H; destruct (is_none _); discriminate|].
      apply bind_panic in H as [H|(ri & Hri & H)]; [now apply ok_or_no_panic in H|].
      destruct (round_info Pr (m_round (sp_meta q))) as [ri'|] eqn:E; inv Hri. exists (m_round (sp_meta q)), ri. split; auto. left. eauto 10.
    - unfold verify_invalid_part in H. apply bind_panic in H as [H|(q & _ & H)]; [now apply Hp in H|].
      destruct (rid_echo _); [unfold echo_echo_invalid, verify_is_some in H; destruct (is_none _); discriminate|].
      apply bind_panic in H as [H|(ri & Hri & H)]; [now apply ok_or_no_panic in H|].
      destruct (round_info Pr (m_round (sp_meta q))) as [ri'|] eqn:E; inv Hri. exists (m_round (sp_meta q)), ri. split; auto. left. eauto 10.
    - unfold verify_invalid_part in H. apply bind_panic in H as [H|(q & _ & H)]; [now apply Hp in H|].
      destruct (rid_echo _); [unfold echo_normal_invalid in H; destruct (body_echo_msg _); discriminate|].
      apply bind_panic in H as [H|(ri & Hri & H)]; [now apply ok_or_no_panic in H|].
      destruct (round_info Pr (m_round (sp_meta q))) as [ri'|] eqn:E; inv Hri. exists (m_round (sp_meta q)), ri. split; auto. left. eauto 10.
    - exfalso. unfold verify_invalid_echo in H. apply bind_panic in H as [H|(q & _ & H)]; [now apply Hp in H|].
      apply bind_panic in H as [H|(msg & _ & H)]; [now apply ok_or_no_panic in H|]. unfold verify_invalid_echo_error in H.
      apply bind_panic in H as [H|(h & _ & H)]; [now apply ok_or_no_panic in H|].
      destruct (verify_shash s h) as [y|[]|] eqn:E; try discriminate.
      + destruct (negb _); discriminate.
      + now apply verify_shash_no_panic in E.
    - exfalso. unfold verify_mismatched in H. apply bind_panic in H as [H|(q & _ & H)]; [now apply Hp in H|].
      apply bind_panic in H as [H|(h' & _ & H)]; [now apply Hh in H|]. destruct (_ && _)%bool; discriminate.
  Qed.

End Panic.

Section TypedPanic.
  Context {P : Params}.
  Lemma typed_verify_total (T : TProto) ev (sd : Shared (wrap T)) : errors_total T -> verify_evidence (wrap T) ev sd <> Panic.
  Proof.
    intros H Hv. apply verify_panics in Hv as (rid & ri & Hri & Hp).
    assert (Hi : exists k, ri = w_info T k).
    { simpl in Hri. destruct (t_info T rid) as [k|]; inv Hri. eauto. }
    destruct Hi as [k ->]. destruct Hp as [(b & Hb)|(e & v & sid & m & prev & comb & Hb)].
    - assert (N : forall mt, part_invalid mt b <> Panic).
      { intros [|A s de]; simpl; [destruct (is_none b); discriminate|]. destruct b; [destruct (de _)|]; discriminate. }
      destruct Hb as [Hb|[Hb|Hb]]; now apply N in Hb.
    - simpl in Hb. specialize (H k). unfold verify_error in Hb. destruct (t_err T k) as [de|E s de rq vf].
      + rewrite H in Hb. discriminate.
      + apply bind_panic in Hb as [Hb|(x & _ & Hb)]; [now apply ok_or_no_panic in Hb|]. now apply H in Hb.
  Qed.
End TypedPanic.

Lemma typed_hypotheses {P : Params} (T : TProto) :
  (info_typed T -> info_consistent (wrap T)) /\
  no_echo_errors (wrap T) /\
  (info_typed T -> codecs T -> own_parts_valid (wrap T)) /\
  (echo_typed T -> echo_rounds_have_broadcasts (wrap T)).
Proof.
  split; [apply typed_info_consistent|]. split; [apply typed_no_echo_errors|]. split; [apply typed_own_valid|apply typed_echo_rounds].
Qed.

Lemma all_downcasts_succeed {P : Params} (T : TProto) (d : DState (wrap T)) : reachable d ->
  exists k (x : tst T k) qs as_, collected d x qs as_ /\
  exists ps arts, typed_inputs x qs as_ ps arts /\
    forall g, rd_finalize (s_round (d_s d)) g (a_payloads (d_a d)) (a_artifacts (d_a d)) = t_finalize T k x g ps arts.
Proof.
  intros Hre. destruct (always_collected Hre) as (k & x & qs & as_ & Hc). exists k, x, qs, as_. split; auto.
  now apply downcasts_succeed.
Qed.
