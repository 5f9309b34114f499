(** Facts about chained protocols. *)
From Coq Require Import List NArith Bool.
From Verif Require Import Base BMap Errors RoundId Message Protocol Transcript Evidence Session Typed Chain Spec SpecEvidence SpecChain
  MessageFacts SessionFacts RunFacts IntakeFacts RoundFacts FinalizeFacts HistoryFacts SignFacts EvidenceFacts TypedFacts.
Import ListNotations.
Set Implicit Arguments.

(** ** Sessions follow runs of the protocol *)
Section Sessions.
  Context {P : Params}.
  Context {Pr : Proto}.

  Lemma made_genuine st (qs : bmap Verifier (SPayload Pr)) as_ : made (RMain st) qs as_ ->
    exists ps arts, genuine Pr st ps arts /\ forall g, rd_finalize (RMain st) g qs as_ = finalize Pr st g ps arts.
  Proof.
    intros [M1 M2].
    assert (N1 : forall v q, get v qs = Some q -> exists p m, receive Pr st v m = Ok p /\ q = PVal p).
    { intros v q Hq. destruct (M1 _ _ Hq) as [m Hm]. simpl in Hm. apply bind_ok in Hm as (p & Hp & Hm). inv Hm. eauto. }
    assert (N2 : forall v q, get v as_ = Some q -> exists y g b, mk_direct Pr st g v = Ok (b, y) /\ q = AVal y).
    { intros v q Hq. destruct (M2 _ _ Hq) as (g & b & Hm). simpl in Hm. apply bind_ok in Hm as ((b' & a) & Hp & Hm). inv Hm. eauto. }
    destruct (@convert_ok _ _ LocalError _ _ (@down_payload _ Pr) qs (fun y q => q = PVal y)) as (q1 & Hq1 & Gq1).
    { intros v q Hq. destruct (N1 _ _ Hq) as (y & _ & _ & ->). simpl. eauto. }
    destruct (@convert_ok _ _ LocalError _ _ (@down_artifact _ Pr) as_ (fun y q => q = AVal y)) as (a1 & Ha1 & Ga1).
    { intros v q Hq. destruct (N2 _ _ Hq) as (y & _ & _ & _ & ->). simpl. eauto. }
    exists q1, a1. split.
    - split; intros v p Hp.
      + pose proof (Gq1 v) as G. rewrite Hp in G. destruct (get v qs) eqn:E; [|contradiction]. destruct G as [_ ->].
        destruct (N1 _ _ E) as (y & m & Hy & Ey). inv Ey. eauto.
      + pose proof (Ga1 v) as G. rewrite Hp in G. destruct (get v as_) eqn:E; [|contradiction]. destruct G as [_ ->].
        destruct (N2 _ _ E) as (y & g & b & Hy & Ey). inv Ey. eauto.
    - intros g. assert (D1 : downcast (@down_payload _ Pr) qs = Ok q1) by exact Hq1.
      assert (D2 : downcast (@down_artifact _ Pr) as_ = Ok a1) by exact Ha1.
      cbn [rd_finalize]. rewrite D1. cbn [bind]. rewrite D2. reflexivity.
  Qed.

  Lemma executes_genuine (d : DState Pr) st : reachable d -> executes (d_s d) st ->
    exists ps arts, genuine Pr st ps arts /\
      forall g, rd_finalize (s_round (d_s d)) g (a_payloads (d_a d)) (a_artifacts (d_a d)) = finalize Pr st g ps arts.
  Proof.
    intros Hre He. destruct (reachable_minv Hre) as [M1 M2]. destruct He as [Hr|(v & e & i & qs & as_ & Hr)].
    - rewrite Hr in M1 |- *. exact (made_genuine M1).
    - specialize (M2 _ _ _ _ _ _ Hr). destruct (made_genuine M2) as (ps & arts & H1 & H2). exists ps, arts. split; auto.
      intros g. rewrite Hr. exact (H2 g).
  Qed.

  Lemma always_executes (d : DState Pr) : reachable d -> exists st, executes (d_s d) st.
  Proof.
    intros Hre. destruct (si_shape (reachable_sinv Hre)) as [st Hs|e i st ps arts Hs _]; exists st; unfold executes; eauto 10.
  Qed.

  Lemma executes_fun (s : Session Pr) st st' : executes s st -> executes s st' -> st = st'.
  Proof.
    intros [H|(v & e & i & ps & arts & H)] [H'|(v' & e' & i' & ps' & arts' & H')]; rewrite H in H'; inv H'; auto.
  Qed.

  Lemma rounds_snoc st0 l st st' : rounds Pr st0 (l ++ [st]) -> next Pr st st' -> rounds Pr st0 (l ++ [st; st']).
  Proof.
    intros H Hn. remember (l ++ [st]) as L eqn:E. revert l E. induction H as [s|s s' L Hs Hr IH]; intros l E.
    - destruct l as [|x l]; simpl in E; [inv E; simpl; eapply rounds_more; eauto; constructor|].
      inv E. destruct l; discriminate.
    - destruct l as [|x l]; simpl in E.
      + inv E. inv Hr.
      + inv E. simpl. eapply rounds_more; eauto.
  Qed.

  Lemma session_rounds g sid signer (ep : EntryPoint Pr) s es d : session_new g sid signer ep = Ok s -> run (start s) es d ->
    exists st0 l st, ep_make ep (rsub 0 g) sid (signer_key signer) = Ok st0 /\ rounds Pr st0 (l ++ [st]) /\ executes (d_s d) st.
  Proof.
    intros Hn Hr. remember (start s) as d0 eqn:Ed. induction Hr as [d|d es d1 e d2 Hr IH Hs].
    - subst d. apply session_new_ok in Hn as (st & Hm & C). exists st, [], st. split; auto. split; [constructor|].
      left. exact (cr_round C).
    - destruct IH as (st0 & l & st & Hm & Hl & He); auto. subst d.
      assert (Hre : reachable d1) by (exists s, es; split; auto; exists g, sid, signer, ep; auto).
      destruct (executes_genuine Hre He) as (ps & arts & Hg & Hf).
      inv Hs; simpl in *; try (exists st0, l, st; auto; fail).
      apply finalize_another in H0. inv H0.
      + exists st0, l, st. split; auto. split; auto. simpl. right. destruct He as [He|(v & e & i & qs & as_ & He)].
        * rewrite (cr_round H4), He. eauto 10.
        * exfalso. destruct (si_shape (reachable_sinv Hre)) as [st' Hs|e' i' st' ps' as' Hs Hx]; simpl in *; congruence.
      + exists st0, (l ++ [st]), st1. split; auto. split.
        * rewrite <- app_assoc. apply rounds_snoc; auto. exists (rsub 0 g0), ps, arts. split; auto. rewrite <- Hf. auto.
        * simpl. left. exact (cr_round H5).
  Qed.

  Lemma session_result (d : DState Pr) g rep : reachable d -> finalize_round (d_s d) g (d_a d) = Ok (ROFinished rep) ->
    exists st r, executes (d_s d) st /\ ends Pr st r /\ rep_outcome rep = OResult r.
  Proof.
    intros Hre Hf. destruct (always_executes Hre) as [st He]. destruct (executes_genuine Hre He) as (ps & arts & Hg & Hx).
    apply finalize_finished in Hf as (t & x & _ & _ & Hf & ->). exists st, x. split; auto. split; [|reflexivity].
    exists (rsub 0 g), ps, arts. split; auto. now rewrite <- Hx.
  Qed.
End Sessions.

(** ** The chain *)
Lemma regroup_get {V} g (m m' : bmap RoundId V) : ungroup_map g m = Ok m' <-> regrouped g m m'.
Proof.
  assert (U : forall r r', ungroup g r = Ok r' <-> r = group_under r' g).
  { intros r r'. unfold ungroup. destruct (split_group r) as [[g' r1]| |] eqn:E; simpl.
    - apply split_group_ok in E. subst r. destruct (N.eqb_spec g' g) as [->|Hn]; split; intros H.
      + now inv H.
      + apply group_under_inj in H as [-> _]. reflexivity.
      + discriminate.
      + apply group_under_inj in H as [_ H]. congruence.
    - split; [discriminate|]. intros ->. rewrite split_group_under in E. discriminate.
    - split; [discriminate|]. intros ->. rewrite split_group_under in E. discriminate. }
  assert (A : forall (m m' : bmap RoundId V), ungroup_map g m = Ok m' -> regrouped g m m').
  { clear m m'. intros m m' H. unfold ungroup_map in H. apply bind_ok in H as (l & Hl & H). inv H.
    assert (Hf : map (fun k => group_under k g) (map fst l) = map fst (to_list m) /\ forall k x, In (k, x) l <-> In (group_under k g, x) (to_list m)).
    { revert l Hl. induction (to_list m) as [|[k x] t IH]; simpl; intros l Hl; [inv Hl; simpl; tauto|].
      apply bind_ok in Hl as ((k' & y) & H1 & Hl). apply bind_ok in Hl as (ys & H2 & Hl). inv Hl.
      apply bind_ok in H1 as (r & H1 & H3). inv H3. apply U in H1. subst k. destruct (IH _ H2) as [I1 I2]. simpl. rewrite I1. split; auto.
      intros k x'. rewrite I2. split; intros [E|E]; auto; left; [now inv E|].
      injection E as E1 E2 E3 ->. f_equal. apply app_inv_tail in E2. destruct k, k'; simpl in *; congruence. }
    destruct Hf as [Hf Hi].
    assert (Hnd : NoDup (map fst l)).
    { apply (NoDup_map_inv (fun k => group_under k g)). rewrite Hf. apply (NoDup_keys m). }
    split.
    - intros r. destruct (get (group_under r g) m) as [x|] eqn:E.
      + apply get_of_list_nodup; auto. apply Hi. now apply in_to_list.
      + apply get_of_list_none. intros Hin. apply in_map_iff in Hin as ((k & x) & <- & Hin). apply Hi in Hin. apply in_to_list in Hin.
        simpl in *. congruence.
    - intros r Hc. apply contains_get in Hc as [x E]. apply in_to_list in E.
      apply (in_map fst) in E. simpl in E. rewrite <- Hf in E. apply in_map_iff in E as (k & <- & _). eauto. }
  split; auto. intros [H1 H2].
  destruct (@map_res_total LocalError (RoundId * V) (RoundId * V) (fun kv => let* r := ungroup g (fst kv) in Ok (r, snd kv)) (to_list m)) as [l Hl].
  { intros [k x] Hin. apply in_to_list in Hin. destruct (H2 k) as [r' ->]; [apply contains_get; eauto|].
    simpl. rewrite (proj2 (U (group_under r' g) r') eq_refl). simpl. eauto. }
  unfold ungroup_map. rewrite Hl. cbn [bind]. f_equal. apply bmap_ext. intros r. rewrite H1.
  assert (E : ungroup_map g m = Ok (of_list l)) by (unfold ungroup_map; rewrite Hl; reflexivity).
  apply A in E. apply E.
Qed.

Section Chain.
  Context {P : Params}.
  Context (P1 P2 : Proto) (j : Join P1 P2).
  Notation C := (chain j).
  Notation c1 id sr tr := (fun st : St P1 => (Chain1 j id st sr tr : St C)).
  Notation c2 := (fun st : St P2 => (Chain2 j st : St C)).

  Lemma first_acts_as id sr tr st : acts_as 1 (inl : Payload P1 -> Payload C) (inl : Artifact P1 -> Artifact C) (c1 id sr tr st) st.
  Proof.
    constructor; try reflexivity.
    - simpl. destruct (ti_result _); reflexivity.
    - intros v m. simpl. destruct (receive P1 st v m); reflexivity.
  Qed.
  Lemma second_acts_as st : acts_as 2 (inr : Payload P2 -> Payload C) (inr : Artifact P2 -> Artifact C) (c2 st) st.
  Proof.
    constructor; try reflexivity.
    - intros v m. simpl. destruct (receive P2 st v m); reflexivity.
  Qed.

  Lemma down_ok {A B} (f : A -> res LocalError B) (i : B -> A) (m : bmap Verifier A) m' :
    (forall x y, f x = Ok y <-> x = i y) -> (down_map f m = Ok m' <-> m = map_values i m').
  Proof.
    intros Hi. assert (T : forall m'', down_map f (map_values i m'') = Ok m'').
    { intros m''. destruct (@convert_ok _ _ LocalError _ _ f (map_values i m'') (fun y x => x = i y)) as (m1 & H1 & G1).
      { intros k x Hx. rewrite get_map_values in Hx. destruct (get k m'') eqn:E; inv Hx. exists b. split; auto. now apply Hi. }
      unfold down_map. etransitivity; [exact H1|]. f_equal. apply bmap_ext. intros k. specialize (G1 k). rewrite get_map_values in G1.
      destruct (get k m''), (get k m1); simpl in G1; auto; try contradiction. destruct G1 as [G1 _]. apply Hi in G1.
      assert (E : f (i b) = Ok b) by now apply Hi. assert (E' : f (i b) = Ok b0) by (apply Hi; auto). congruence. }
    split; [|intros ->; apply T].
    intros H. destruct (@convert_ok _ _ LocalError _ _ f m (fun y x => x = i y)) as (m1 & H1 & G1).
    { intros k x Hx. unfold down_map in H. apply bind_ok in H as (l & Hl & _). apply in_to_list in Hx.
      revert l Hl. induction (to_list m) as [|[k' x'] t IH]; simpl; intros l Hl; [contradiction|].
      apply bind_ok in Hl as ((k1 & y) & H1 & Hl). apply bind_ok in Hl as (ys & H2 & _). apply bind_ok in H1 as (y' & H1 & _).
      destruct Hx as [E|Hx]; [inv E; exists y'; split; auto; now apply Hi|eauto]. }
    assert (E : Ok m' = Ok m1 :> res LocalError _) by (rewrite <- H; exact H1). inv E.
    apply bmap_ext. intros k. specialize (G1 k). rewrite get_map_values. destruct (get k m), (get k m1); simpl; try contradiction; auto.
    destruct G1 as [_ ->]. reflexivity.
  Qed.
  Lemma down_l_ok {A B} e (x : A + B) y : down_l e x = Ok y <-> x = inl y.
  Proof. destruct x; simpl; split; intros H; inv H; auto. Qed.
  Lemma down_r_ok {A B} e (x : A + B) y : down_r e x = Ok y <-> x = inr y.
  Proof. destruct x; simpl; split; intros H; inv H; auto. Qed.

  Lemma first_finalize id sr tr st g (ps : bmap Verifier (Payload P1)) (arts : bmap Verifier (Artifact P1)) :
    finalize C (c1 id sr tr st) g (map_values (inl : Payload P1 -> Payload C) ps) (map_values (inl : Artifact P1 -> Artifact C) arts) =
    match finalize P1 st (rsub 0 g) ps arts with
    | Ok (AnotherRound st') => Ok (AnotherRound (c1 id sr tr st'))
    | Ok (Finished_ r) => match j_make j tr r (rsub 1 g) sr id with
                          | Ok st2 => Ok (AnotherRound (c2 st2)) | Err e => Err e | Panic => Panic end
    | Err e => Err e
    | Panic => Panic
    end.
  Proof.
    cbn -[map_values]. unfold chain_finalize.
    rewrite (proj2 (@down_ok _ _ _ _ (map_values inl ps) ps (down_l_ok LE_PayloadDowncast)) eq_refl). cbn [bind].
    rewrite (proj2 (@down_ok _ _ _ _ (map_values inl arts) arts (down_l_ok LE_ArtifactDowncast)) eq_refl). cbn [bind].
    destruct (finalize P1 st (rsub 0 g) ps arts) as [[st'|r]| |]; reflexivity.
  Qed.
  Lemma second_finalize st g (ps : bmap Verifier (Payload P2)) (arts : bmap Verifier (Artifact P2)) :
    finalize C (c2 st) g (map_values (inr : Payload P2 -> Payload C) ps) (map_values (inr : Artifact P2 -> Artifact C) arts) =
    match finalize P2 st g ps arts with
    | Ok (AnotherRound st') => Ok (AnotherRound (c2 st'))
    | Ok (Finished_ r) => Ok (Finished_ r)
    | Err e => Err e
    | Panic => Panic
    end.
  Proof.
    cbn -[map_values]. unfold chain_finalize.
    rewrite (proj2 (@down_ok _ _ _ _ (map_values inr ps) ps (down_r_ok LE_PayloadDowncast)) eq_refl). cbn [bind].
    rewrite (proj2 (@down_ok _ _ _ _ (map_values inr arts) arts (down_r_ok LE_ArtifactDowncast)) eq_refl). cbn [bind].
    destruct (finalize P2 st g ps arts) as [[st'|r]| |]; cbn [bind]; auto.
  Qed.

  (** Genuine inputs of a chained round are the wrapped genuine inputs of the inner round. *)
  Lemma unwrap_map {A B} (i : B -> A) (m : bmap Verifier A) : (forall v x, get v m = Some x -> exists y, x = i y) ->
    (forall x y, i x = i y -> x = y) -> exists m', m = map_values i m'.
  Proof.
    intros H Hi.
    assert (forall l, (forall v x, In (v, x) l -> exists y, x = i y) -> exists l', l = map (fun kv : Verifier * B => (fst kv, i (snd kv))) l') as L.
    { induction l as [|[v x] l IH]; intros Hl; [exists []; auto|]. destruct (Hl v x) as [y ->]; [simpl; auto|].
      destruct IH as [l' ->]; [intros; eapply Hl; simpl; eauto|]. exists ((v, y) :: l'). reflexivity. }
    destruct (L (to_list m)) as [l' Hl]. { intros v x Hx. apply in_to_list in Hx. eauto. }
    exists (of_list l'). apply bmap_ext. intros v. rewrite get_map_values.
    assert (Hnd : NoDup (map fst l')). { assert (N : NoDup (map fst (to_list m))) by apply (NoDup_keys m). rewrite Hl, map_map in N. exact N. }
    destruct (get v (of_list l')) as [y|] eqn:E; simpl.
    - apply get_of_list_nodup in E; auto. apply in_to_list. rewrite Hl. apply in_map_iff. exists (v, y). auto.
    - apply get_of_list_none in E. destruct (get v m) eqn:Em; auto. exfalso. apply E. apply in_to_list in Em. rewrite Hl in Em.
      apply in_map_iff in Em as ((v' & y) & E1 & Hin). inv E1. apply in_map_iff. exists (v, y). auto.
  Qed.

  Lemma first_genuine id sr tr st ps arts : genuine C (c1 id sr tr st) ps arts <->
    exists ps1 arts1, ps = map_values (inl : Payload P1 -> Payload C) ps1 /\ arts = map_values (inl : Artifact P1 -> Artifact C) arts1 /\
      genuine P1 st ps1 arts1.
  Proof.
    split.
    - intros [G1 G2].
      assert (N1 : forall v p, get v ps = Some p -> exists q m, receive P1 st v m = Ok q /\ p = inl q).
      { intros v p Hp. destruct (G1 _ _ Hp) as [m Hm]. simpl in Hm. apply bind_ok in Hm as (q & Hq & Hm). inv Hm.
        destruct (receive P1 st v m) eqn:E; inv Hq. eauto. }
      assert (N2 : forall v p, get v arts = Some p -> exists q g b, mk_direct P1 st g v = Ok (b, q) /\ p = inl q).
      { intros v p Hp. destruct (G2 _ _ Hp) as (g & b & Hm). simpl in Hm. apply bind_ok in Hm as ((b' & q) & Hq & Hm). inv Hm. eauto. }
      destruct (@unwrap_map _ _ (inl : Payload P1 -> Payload C) ps) as [ps1 ->].
      { intros v x Hx. destruct (N1 _ _ Hx) as (q & m & _ & ->). eauto. } { intros x y H; now inv H. }
      destruct (@unwrap_map _ _ (inl : Artifact P1 -> Artifact C) arts) as [arts1 ->].
      { intros v x Hx. destruct (N2 _ _ Hx) as (q & m & b & _ & ->). eauto. } { intros x y H; now inv H. }
      exists ps1, arts1. split; auto. split; auto. split; intros v p Hp.
      + destruct (N1 v (inl p)) as (q & m & Hm & E); [rewrite get_map_values, Hp; reflexivity|]. inv E. eauto.
      + destruct (N2 v (inl p)) as (q & g & b & Hm & E); [rewrite get_map_values, Hp; reflexivity|]. inv E. eauto.
    - intros (ps1 & arts1 & -> & -> & [G1 G2]). split; intros v p Hp; rewrite get_map_values in Hp.
      + destruct (get v ps1) eqn:E; inv Hp. destruct (G1 _ _ E) as [m Hm]. exists m. simpl. rewrite Hm. reflexivity.
      + destruct (get v arts1) eqn:E; inv Hp. destruct (G2 _ _ E) as (g & b & Hm). exists g, b. simpl. rewrite Hm. reflexivity.
  Qed.
  Lemma second_genuine st ps arts : genuine C (c2 st) ps arts <->
    exists ps1 arts1, ps = map_values (inr : Payload P2 -> Payload C) ps1 /\ arts = map_values (inr : Artifact P2 -> Artifact C) arts1 /\
      genuine P2 st ps1 arts1.
  Proof.
    split.
    - intros [G1 G2].
      assert (N1 : forall v p, get v ps = Some p -> exists q m, receive P2 st v m = Ok q /\ p = inr q).
      { intros v p Hp. destruct (G1 _ _ Hp) as [m Hm]. simpl in Hm. apply bind_ok in Hm as (q & Hq & Hm). inv Hm.
        destruct (receive P2 st v m) eqn:E; inv Hq. eauto. }
      assert (N2 : forall v p, get v arts = Some p -> exists q g b, mk_direct P2 st g v = Ok (b, q) /\ p = inr q).
      { intros v p Hp. destruct (G2 _ _ Hp) as (g & b & Hm). simpl in Hm. apply bind_ok in Hm as ((b' & q) & Hq & Hm). inv Hm. eauto. }
      destruct (@unwrap_map _ _ (inr : Payload P2 -> Payload C) ps) as [ps1 ->].
      { intros v x Hx. destruct (N1 _ _ Hx) as (q & m & _ & ->). eauto. } { intros x y H; now inv H. }
      destruct (@unwrap_map _ _ (inr : Artifact P2 -> Artifact C) arts) as [arts1 ->].
      { intros v x Hx. destruct (N2 _ _ Hx) as (q & m & b & _ & ->). eauto. } { intros x y H; now inv H. }
      exists ps1, arts1. split; auto. split; auto. split; intros v p Hp.
      + destruct (N1 v (inr p)) as (q & m & Hm & E); [rewrite get_map_values, Hp; reflexivity|]. inv E. eauto.
      + destruct (N2 v (inr p)) as (q & g & b & Hm & E); [rewrite get_map_values, Hp; reflexivity|]. inv E. eauto.
    - intros (ps1 & arts1 & -> & -> & [G1 G2]). split; intros v p Hp; rewrite get_map_values in Hp.
      + destruct (get v ps1) eqn:E; inv Hp. destruct (G1 _ _ E) as [m Hm]. exists m. simpl. rewrite Hm. reflexivity.
      + destruct (get v arts1) eqn:E; inv Hp. destruct (G2 _ _ E) as (g & b & Hm). exists g, b. simpl. rewrite Hm. reflexivity.
  Qed.

  (** Two sources of randomness in one. *)
  Definition rjoin (g0 g1 : rng) : rng := fun p => match p with O :: p => g0 p | _ :: p => g1 p | [] => g0 [] end.

  Lemma next_first id sr tr st s' : next C (c1 id sr tr st) s' <->
    (exists st', next P1 st st' /\ s' = c1 id sr tr st') \/
    (exists r g st2, ends P1 st r /\ j_make j tr r g sr id = Ok st2 /\ s' = c2 st2).
  Proof.
    split.
    - intros (g & ps & arts & Hg & Hf). apply first_genuine in Hg as (ps1 & arts1 & -> & -> & Hg).
      rewrite first_finalize in Hf. destruct (finalize P1 st (rsub 0 g) ps1 arts1) as [[st'|r]| |] eqn:E; try discriminate.
      + inv Hf. left. exists st'. split; auto. exists (rsub 0 g), ps1, arts1. auto.
      + destruct (j_make j tr r (rsub 1 g) sr id) as [st2| |] eqn:Ej; inv Hf. right. exists r, (rsub 1 g), st2. split; auto.
        exists (rsub 0 g), ps1, arts1. auto.
    - intros [(st' & (g & ps & arts & Hg & Hf) & ->)|(r & g1 & st2 & (g & ps & arts & Hg & Hf) & Hj & ->)].
      + exists (rjoin g g), (map_values (inl : Payload P1 -> Payload C) ps), (map_values (inl : Artifact P1 -> Artifact C) arts).
        split; [apply first_genuine; eauto|]. rewrite first_finalize. change (rsub 0 (rjoin g g)) with g. rewrite Hf. reflexivity.
      + exists (rjoin g g1), (map_values (inl : Payload P1 -> Payload C) ps), (map_values (inl : Artifact P1 -> Artifact C) arts).
        split; [apply first_genuine; eauto|]. rewrite first_finalize. change (rsub 0 (rjoin g g1)) with g.
        change (rsub 1 (rjoin g g1)) with g1. rewrite Hf, Hj. reflexivity.
  Qed.
  Lemma ends_first id sr tr st r : ~ ends C (c1 id sr tr st) r.
  Proof.
    intros (g & ps & arts & Hg & Hf). apply first_genuine in Hg as (ps1 & arts1 & -> & -> & Hg).
    rewrite first_finalize in Hf. destruct (finalize P1 st (rsub 0 g) ps1 arts1) as [[st'|r']| |]; try discriminate.
    destruct (j_make j tr r' (rsub 1 g) sr id); discriminate.
  Qed.
  Lemma next_second st s' : next C (c2 st) s' <-> exists st', next P2 st st' /\ s' = c2 st'.
  Proof.
    split.
    - intros (g & ps & arts & Hg & Hf). apply second_genuine in Hg as (ps1 & arts1 & -> & -> & Hg).
      rewrite second_finalize in Hf. destruct (finalize P2 st g ps1 arts1) as [[st'|r]| |] eqn:E; try discriminate.
      inv Hf. exists st'. split; auto. exists g, ps1, arts1. auto.
    - intros (st' & (g & ps & arts & Hg & Hf) & ->).
      exists g, (map_values (inr : Payload P2 -> Payload C) ps), (map_values (inr : Artifact P2 -> Artifact C) arts).
      split; [apply second_genuine; eauto|]. rewrite second_finalize. rewrite Hf. reflexivity.
  Qed.
  Lemma ends_second st r : ends C (c2 st) r <-> ends P2 st r.
  Proof.
    split.
    - intros (g & ps & arts & Hg & Hf). apply second_genuine in Hg as (ps1 & arts1 & -> & -> & Hg).
      rewrite second_finalize in Hf. destruct (finalize P2 st g ps1 arts1) as [[st'|r']| |] eqn:E; inv Hf. exists g, ps1, arts1. auto.
    - intros (g & ps & arts & Hg & Hf).
      exists g, (map_values (inr : Payload P2 -> Payload C) ps), (map_values (inr : Artifact P2 -> Artifact C) arts).
      split; [apply second_genuine; eauto|]. rewrite second_finalize. rewrite Hf. reflexivity.
  Qed.

  Lemma rounds_second st L : rounds C (c2 st) L <-> exists l, rounds P2 st l /\ L = map c2 l.
  Proof.
    split.
    - intros H. remember (c2 st) as s eqn:E. revert st E. induction H as [s|s s' L Hn Hr IH]; intros st ->.
      + exists [st]. split; [constructor|reflexivity].
      + apply next_second in Hn as (st' & Hn & ->). destruct (IH st' eq_refl) as (l & Hl & ->). exists (st :: l).
        split; [econstructor; eauto|reflexivity].
    - intros (l & H & ->). induction H as [st|st st' l Hn Hr IH]; simpl; [constructor|]. econstructor; eauto. apply next_second. eauto.
  Qed.
  Lemma rounds_first id sr tr st L : rounds C (c1 id sr tr st) L <->
    (exists l, rounds P1 st l /\ L = map (c1 id sr tr) l) \/
    (exists l st1 r g st2 l2, rounds P1 st (l ++ [st1]) /\ ends P1 st1 r /\ j_make j tr r g sr id = Ok st2 /\ rounds P2 st2 l2 /\
       L = map (c1 id sr tr) (l ++ [st1]) ++ map c2 l2).
  Proof.
    split.
    - intros H. remember (c1 id sr tr st) as s eqn:E. revert st E. induction H as [s|s s' L Hn Hr IH]; intros st ->.
      + left. exists [st]. split; [constructor|reflexivity].
      + apply next_first in Hn as [(st' & Hn & ->)|(r & g & st2 & He & Hj & ->)].
        * destruct (IH st' eq_refl) as [(l & Hl & ->)|(l & st1 & r & g & st2 & l2 & H1 & H2 & H3 & H4 & ->)].
          -- left. exists (st :: l). split; [econstructor; eauto|reflexivity].
          -- right. exists (st :: l), st1, r, g, st2, l2. split; [simpl; econstructor; eauto|]. auto.
        * right. apply rounds_second in Hr as (l2 & Hl2 & ->). exists [], st, r, g, st2, l2. simpl. split; [constructor|]. auto.
    - intros [(l & H & ->)|(l & st1 & r & g & st2 & l2 & H1 & H2 & H3 & H4 & ->)].
      + induction H as [st|st st' l Hn Hr IH]; simpl; [constructor|]. econstructor; eauto. apply next_first. eauto.
      + remember (l ++ [st1]) as L eqn:E. revert l E. induction H1 as [s|s s' L Hn Hr IH]; intros l E.
        * destruct l as [|x l]; [|inv E; destruct l; discriminate]. inv E. simpl. econstructor; [apply next_first; right; eauto 6|].
          apply rounds_second. eauto.
        * destruct l as [|x l]; simpl in E; [inv E; inv Hr|]. inv E. simpl. econstructor; [apply next_first; left; eauto|].
          eapply IH; eauto.
  Qed.
End Chain.

Lemma mem_group_set g r s : mem r (group_set g s) = true <-> exists r', mem r' s = true /\ r = group_under r' g.
Proof.
  unfold group_set. rewrite mem_set_of_list, in_map_iff. split.
  - intros (r' & <- & H). apply in_elements in H. eauto.
  - intros (r' & H & ->). exists r'. split; auto. now apply in_elements.
Qed.

Section ChainSessions.
  Context {P : Params}.
  Context (P1 P2 : Proto) (j : Join P1 P2).
  Notation C := (chain j).
  Notation c1 id sr tr := (fun st : St P1 => (Chain1 j id st sr tr : St C)).
  Notation c2 := (fun st : St P2 => (Chain2 j st : St C)).

  Lemma map_snoc_inv {A B} (f : A -> B) L y l : l ++ [y] = map f L -> exists l' x, L = l' ++ [x] /\ l = map f l' /\ y = f x.
  Proof.
    revert l. induction L as [|a L IH]; simpl; intros l H; [destruct l; discriminate|].
    destruct l as [|b l]; simpl in H; injection H as E1 E2.
    - destruct L; [|discriminate]. exists [], a. auto.
    - apply IH in E2 as (l' & x & -> & -> & ->). subst b. exists (a :: l'), x. auto.
  Qed.

  Lemma chain_session g sid signer (ep : EntryPoint P1) (tr : J j) s es d :
    session_new g sid signer (chain_entry j ep tr) = Ok s -> run (start s) es d ->
    exists st0, ep_make ep (rsub 0 g) sid (signer_key signer) = Ok st0 /\
      ((exists l st, rounds P1 st0 (l ++ [st]) /\ executes (d_s d) (c1 (signer_key signer) sid tr st)) \/
       (exists l st1 r g2 st2 l2 st, rounds P1 st0 (l ++ [st1]) /\ ends P1 st1 r /\
          j_make j tr r g2 sid (signer_key signer) = Ok st2 /\ rounds P2 st2 (l2 ++ [st]) /\ executes (d_s d) (c2 st))).
  Proof.
    intros Hn Hr. destruct (session_rounds _ _ _ _ Hn Hr) as (s0 & l & s1 & Hm & Hl & He).
    simpl in Hm. apply bind_ok in Hm as (st0 & Hm & E). inv E. exists st0. split; auto.
    apply rounds_first in Hl as [(L & HL & E)|(l1 & st1 & r & g2 & st2 & l2 & H1 & H2 & H3 & H4 & E)].
    - left. apply map_snoc_inv in E as (l' & x & -> & -> & ->). eauto.
    - right. destruct (@exists_last _ l2) as (l2' & x & ->).
      { intros ->. inv H4. }
      rewrite (map_app c2), app_assoc in E. simpl in E. apply app_inj_tail in E as [_ ->].
      exists l1, st1, r, g2, st2, l2', x. auto 10.
  Qed.

  Lemma chain_result (d : DState C) g rep : reachable d -> finalize_round (d_s d) g (d_a d) = Ok (ROFinished rep) ->
    exists st r, executes (d_s d) (c2 st) /\ ends P2 st r /\ rep_outcome rep = OResult r.
  Proof.
    intros Hre Hf. destruct (session_result g Hre Hf) as (s & r & He & Hn & Ho). destruct s as [id st sr tr|st].
    - exfalso. now apply (@ends_first _ _ _ j) in Hn.
    - apply ends_second in Hn. eauto.
  Qed.

  (** ** Round ids *)
  Lemma groups_differ r r' : group_under r 1 <> group_under r' 2.
  Proof. intros H. apply group_under_inj in H as [_ H]. discriminate. Qed.

  Lemma first_tinfo id sr tr st :
    ti_id (tinfo C (c1 id sr tr st)) = group_under (ti_id (tinfo P1 st)) 1 /\
    (forall r, mem r (ti_parents (tinfo C (c1 id sr tr st))) = true <-> exists r', mem r' (ti_parents (tinfo P1 st)) = true /\ r = group_under r' 1) /\
    (forall r, mem r (ti_siblings (tinfo C (c1 id sr tr st))) = true <-> exists r', mem r' (ti_siblings (tinfo P1 st)) = true /\ r = group_under r' 1) /\
    (forall r, mem r (ti_children (tinfo C (c1 id sr tr st))) = true <->
       (exists r', mem r' (ti_children (tinfo P1 st)) = true /\ r = group_under r' 1) \/
       (ti_result (tinfo P1 st) = true /\ r = group_under (j_entry j) 2)) /\
    ti_result (tinfo C (c1 id sr tr st)) = false.
  Proof.
    simpl. destruct (ti_result (tinfo P1 st)) eqn:E; simpl; (split; [reflexivity|]);
      (split; [intros r; apply mem_group_set|]); (split; [intros r; apply mem_group_set|]); (split; [|auto]); intros r.
    - rewrite mem_add, orb_true_iff, eqb_eq, mem_group_set. tauto.
    - rewrite mem_group_set. split; auto. intros [H|[H _]]; auto. discriminate.
  Qed.
  Lemma second_tinfo st :
    ti_id (tinfo C (c2 st)) = group_under (ti_id (tinfo P2 st)) 2 /\
    (forall r, mem r (ti_parents (tinfo C (c2 st))) = true <-> exists r', mem r' (ti_parents (tinfo P2 st)) = true /\ r = group_under r' 2) /\
    (forall r, mem r (ti_siblings (tinfo C (c2 st))) = true <-> exists r', mem r' (ti_siblings (tinfo P2 st)) = true /\ r = group_under r' 2) /\
    (forall r, mem r (ti_children (tinfo C (c2 st))) = true <-> exists r', mem r' (ti_children (tinfo P2 st)) = true /\ r = group_under r' 2) /\
    ti_result (tinfo C (c2 st)) = ti_result (tinfo P2 st).
  Proof. simpl. repeat (split; [try reflexivity; intros r; apply mem_group_set|]). reflexivity. Qed.

  Lemma chain_declares : (forall tr r g sr id st2, j_make j tr r g sr id = Ok st2 -> ti_id (tinfo P2 st2) = j_entry j) ->
    declares P1 -> declares P2 -> declares C.
  Proof.
    intros He [D1 R1] [D2 R2]. split.
    - intros [id st sr tr|st] s' Hn.
      + apply next_first in Hn as [(st' & Hn & ->)|(r & g & st2 & Hn & Hj & ->)]; apply first_tinfo.
        * left. exists (ti_id (tinfo P1 st')). split; auto. apply (first_tinfo id sr tr st').
        * right. split; [eapply R1; eauto|]. rewrite <- (He _ _ _ _ _ _ Hj). reflexivity.
      + apply next_second in Hn as (st' & Hn & ->). apply second_tinfo. exists (ti_id (tinfo P2 st')). split; auto.
    - intros [id st sr tr|st] r Hn; [now apply (@ends_first _ _ _ j) in Hn|]. apply ends_second in Hn. simpl. eauto.
  Qed.

  Lemma no_first_parents id sr tr st st2 : mem (ti_id (tinfo C (c1 id sr tr st))) (ti_parents (tinfo C (c2 st2))) = false.
  Proof.
    destruct (mem _ _) eqn:E; auto. apply second_tinfo in E as (r' & _ & E).
    rewrite (proj1 (first_tinfo id sr tr st)) in E. now apply groups_differ in E.
  Qed.

  (** ** Evidence *)
  Lemma chain_info_some rid ri : round_info C rid = Some ri <->
    (exists r ri1, rid = group_under r 1 /\ round_info P1 r = Some ri1 /\ ri = chain_info P1 P2 1 fst ri1) \/
    (exists r ri2, rid = group_under r 2 /\ round_info P2 r = Some ri2 /\ ri = chain_info P1 P2 2 snd ri2).
  Proof.
    simpl. unfold chain_round_info. destruct (split_group rid) as [[g r]| |] eqn:E.
    - apply split_group_ok in E. subst rid. destruct (N.eqb_spec g 1) as [->|H1]; [|destruct (N.eqb_spec g 2) as [->|H2]].
      + split.
        * intros H. left. destruct (round_info P1 r) as [ri1|] eqn:E1; inv H. eauto.
        * intros [(r' & ri1 & E & H & ->)|(r' & ri1 & E & H & ->)]; apply group_under_inj in E as [<- E]; [|discriminate].
          rewrite H. reflexivity.
      + split.
        * intros H. right. destruct (round_info P2 r) as [ri1|] eqn:E1; inv H. eauto.
        * intros [(r' & ri1 & E & H & ->)|(r' & ri1 & E & H & ->)]; apply group_under_inj in E as [<- E]; [discriminate|].
          rewrite H. reflexivity.
      + split; [discriminate|]. intros [(r' & ri1 & E & _)|(r' & ri1 & E & _)]; apply group_under_inj in E as [_ E]; congruence.
    - split; [discriminate|]. intros [(r' & ri1 & -> & _)|(r' & ri1 & -> & _)]; rewrite split_group_under in E; discriminate.
    - split; [discriminate|]. intros [(r' & ri1 & -> & _)|(r' & ri1 & -> & _)]; rewrite split_group_under in E; discriminate.
  Qed.

  Lemma ungroup_under g r : ungroup g (group_under r g) = Ok r.
  Proof. unfold ungroup. rewrite split_group_under. simpl. now rewrite N.eqb_refl. Qed.

  Lemma chain_info_accepts {Sh} g (part : Shared P1 * Shared P2 -> Sh) ri r err v sid sd m prev comb :
    accepts (chain_info P1 P2 g part ri) (group_under r g) err v sid sd m prev comb <->
    exists prev' comb', regrouped g prev prev' /\ regrouped g comb comb' /\ accepts ri r err v sid (part sd) m prev' comb'.
  Proof.
    unfold accepts, chain_info. cbn [ri_verify]. rewrite ungroup_under. cbn [map_err bind]. split.
    - intros H. destruct (ungroup_map g prev) as [prev'| |] eqn:E1; cbn [map_err bind] in H; try discriminate.
      destruct (ungroup_map g comb) as [comb'| |] eqn:E2; cbn [map_err bind] in H; try discriminate.
      apply regroup_get in E1, E2. eauto.
    - intros (prev' & comb' & E1 & E2 & H). apply regroup_get in E1, E2. rewrite E1. cbn [map_err bind]. rewrite E2. exact H.
  Qed.
End ChainSessions.

Section Judged.
  Context {P : Params}.

  Lemma judgement ev e : ev_body ev = EvProtocol e ->
    malformed_for_all ev \/ exists rid sid m prev comb, judged_by ev rid (pe_error e) sid m prev comb.
  Proof.
    intros He. unfold malformed_for_all, judged_by, verify_evidence. setoid_rewrite He. unfold verify_protocol.
    destruct (trigger_meta e) as [[sid rid]|] eqn:Ht; cbn [ok_or bind m_session m_round]; [|eauto].
    assert (Hp : forall k (o : option (SPart k)), verify_message_part (ev_guilty ev) sid rid o <> Panic).
    { intros k [p|]; simpl; [|discriminate]. destruct (_ || _)%bool; [discriminate|].
      apply bind_no_panic; [apply map_err_no_panic, verify_part_no_panic|discriminate]. }
    assert (Hps : forall k (o : bmap RoundId (SPart k)), verify_message_parts (ev_guilty ev) sid o <> Panic).
    { intros k o. apply fold_res_no_panic. intros x [r p]. apply bind_no_panic; [apply map_err_no_panic, verify_part_no_panic|].
      intros y. destruct (_ || _)%bool; discriminate. }
    assert (Hc : fold_res (verify_echo_hashes (ev_guilty ev) sid (pe_others e)) empty (to_list (pe_hashes e)) <> Panic).
    { apply fold_res_no_panic. intros x [r p]. apply bind_no_panic.
      { apply map_err_no_panic. unfold non_echo. destruct (negb _); discriminate. }
      intros main. destruct (_ || _)%bool; [discriminate|]. apply bind_no_panic; [apply map_err_no_panic, verify_part_no_panic|]. intros p'.
      apply bind_no_panic; [apply ok_or_no_panic|]. intros msg. apply bind_no_panic; [apply ok_or_no_panic|]. intros signed.
      apply bind_no_panic; [|discriminate]. apply fold_res_no_panic. intros acc [u h]. unfold verify_echoed.
      destruct (_ || _)%bool; [discriminate|]. apply bind_no_panic; [apply map_err_no_panic, verify_shash_no_panic|]. intros h'.
      apply bind_no_panic; [apply ok_or_no_panic|].
      intros e'. destruct (_ || _)%bool; [discriminate|]. destruct (negb _); [discriminate|].
      apply bind_no_panic; [apply map_err_no_panic, verify_part_no_panic|discriminate]. }
    destruct (verify_message_part (ev_guilty ev) sid rid (pe_direct e)) as [d| |] eqn:E1; cbn [bind]; [|eauto|now apply Hp in E1].
    destruct (verify_message_part (ev_guilty ev) sid rid (pe_echo e)) as [ec| |] eqn:E2; cbn [bind]; [|eauto|now apply Hp in E2].
    destruct (verify_message_part (ev_guilty ev) sid rid (pe_normal e)) as [n| |] eqn:E3; cbn [bind]; [|eauto|now apply Hp in E3].
    destruct (verify_message_parts (ev_guilty ev) sid (pe_directs e)) as [ds| |] eqn:E4; cbn [bind]; [|eauto|now apply Hps in E4].
    destruct (verify_message_parts (ev_guilty ev) sid (pe_echos e)) as [es| |] eqn:E5; cbn [bind]; [|eauto|now apply Hps in E5].
    destruct (verify_message_parts (ev_guilty ev) sid (pe_normals e)) as [ns| |] eqn:E6; cbn [bind]; [|eauto|now apply Hps in E6].
    destruct (fold_res _ _ _) as [comb| |] eqn:E7; cbn [bind]; [|eauto|congruence].
    right. exists rid, sid, (mkEvMsg d n ec), (merge_parts es ns ds), comb. intros Pr sd.
    destruct (round_info Pr rid); reflexivity.
  Qed.

  Context (P1 P2 : Proto) (j : Join P1 P2).

  Lemma chain_evidence ev e (sd : Shared (chain j)) : ev_body ev = EvProtocol e ->
    (verify_evidence (chain j) ev sd = Ok tt <->
     exists g r sid m prev comb prev' comb', judged_by ev (group_under r g) (pe_error e) sid m prev comb /\
       regrouped g prev prev' /\ regrouped g comb comb' /\
       ((g = 1%N /\ exists ri, round_info P1 r = Some ri /\ accepts ri r (pe_error e) (ev_guilty ev) sid (fst sd) m prev' comb') \/
        (g = 2%N /\ exists ri, round_info P2 r = Some ri /\ accepts ri r (pe_error e) (ev_guilty ev) sid (snd sd) m prev' comb'))).
  Proof.
    intros He. split.
    - intros H. destruct (judgement ev He) as [[x Hx]|(rid & sid & m & prev & comb & Hj)]; [rewrite Hx in H; discriminate|].
      pose proof (Hj (chain j) sd) as E. rewrite H in E. destruct (round_info (chain j) rid) as [ri|] eqn:Ei; [|discriminate].
      apply chain_info_some in Ei as [(r & ri1 & -> & Hi & ->)|(r & ri1 & -> & Hi & ->)]; symmetry in E;
        apply chain_info_accepts in E as (prev' & comb' & G1 & G2 & Ha).
      + exists 1%N, r, sid, m, prev, comb, prev', comb'. split; auto. split; auto. split; auto. left. eauto.
      + exists 2%N, r, sid, m, prev, comb, prev', comb'. split; auto. split; auto. split; auto. right. eauto.
    - intros (g & r & sid & m & prev & comb & prev' & comb' & Hj & G1 & G2 & [(-> & ri & Hi & Ha)|(-> & ri & Hi & Ha)]); rewrite (Hj (chain j) sd).
      + rewrite (proj2 (@chain_info_some _ _ _ j _ _) (or_introl (ex_intro _ r (ex_intro _ ri (conj eq_refl (conj Hi eq_refl)))))).
        apply chain_info_accepts. eauto.
      + rewrite (proj2 (@chain_info_some _ _ _ j _ _) (or_intror (ex_intro _ r (ex_intro _ ri (conj eq_refl (conj Hi eq_refl)))))).
        apply chain_info_accepts. eauto.
  Qed.

  Lemma chain_malformed ev m b (in_round : forall Sh, RInfo Sh -> body -> res EvidenceError unit) (sd : Shared (chain j)) :
    part_evidence ev m b in_round -> rid_echo (m_round m) = false ->
    (verify_evidence (chain j) ev sd = Ok tt <->
     (exists r ri, m_round m = group_under r 1 /\ round_info P1 r = Some ri /\ in_round _ ri b = Ok tt) \/
     (exists r ri, m_round m = group_under r 2 /\ round_info P2 r = Some ri /\ in_round _ ri b = Ok tt)).
  Proof.
    intros Hp Hm.
    assert (E : verify_evidence (chain j) ev sd = match round_info (chain j) (m_round m) with Some ri => in_round _ ri b | None => Err EE_Invalid end).
    { unfold verify_evidence. destruct Hp as [(p & -> & Hs & -> & -> & ->)|[(p & -> & Hs & -> & -> & ->)|(p & -> & Hs & -> & -> & ->)]];
        unfold verify_invalid_part; rewrite (proj2 (verify_part_ok (ev_guilty ev) p p) (conj eq_refl Hs)); cbn [map_err bind]; rewrite Hm;
        destruct (round_info (chain j) (m_round (sp_meta p))); reflexivity. }
    assert (I : forall Sh g (part : Shared P1 * Shared P2 -> Sh) ri, in_round _ (chain_info P1 P2 g part ri) b = in_round _ ri b).
    { intros. destruct Hp as [(p & _ & Hs & -> & -> & ->)|[(p & _ & Hs & -> & -> & ->)|(p & _ & Hs & -> & -> & ->)]]; reflexivity. }
    rewrite E. clear E. split.
    - intros H. destruct (round_info (chain j) (m_round m)) as [ri|] eqn:Ei; [|discriminate].
      apply chain_info_some in Ei as [(r & ri1 & -> & Hi & ->)|(r & ri1 & -> & Hi & ->)]; [left|right]; exists r, ri1; split; auto; split; auto;
        rewrite <- H; symmetry; apply I.
    - intros [(r & ri & -> & Hi & H)|(r & ri & -> & Hi & H)].
      + rewrite (proj2 (@chain_info_some _ _ _ j _ _) (or_introl (ex_intro _ r (ex_intro _ ri (conj eq_refl (conj Hi eq_refl)))))).
        rewrite I. exact H.
      + rewrite (proj2 (@chain_info_some _ _ _ j _ _) (or_intror (ex_intro _ r (ex_intro _ ri (conj eq_refl (conj Hi eq_refl)))))).
        rewrite I. exact H.
  Qed.
End Judged.

(** ** Errors raised inside a chain *)
Lemma rq_regrouped q g :
  rq_this (rq_group_under q g) = rq_this q /\
  match rq_prev q, rq_prev (rq_group_under q g) with Some p, Some p' => regrouped g p' p | None, None => True | _, _ => False end /\
  match rq_comb q, rq_comb (rq_group_under q g) with
  | Some c, Some c' => forall r, mem r c' = true <-> exists r', mem r' c = true /\ r = group_under r' g
  | None, None => True | _, _ => False end.
Proof.
  split; [reflexivity|]. split.
  - simpl. destruct (rq_prev q) as [p|]; simpl; auto.
    assert (Hnd : NoDup (map fst (map (fun kv : RoundId * ReqParts => (group_under (fst kv) g, snd kv)) (to_list p)))).
    { rewrite map_map. simpl. rewrite <- (map_map fst (fun r => group_under r g)).
      apply FinFun.Injective_map_NoDup; [|apply (NoDup_keys p)]. intros x y E. now apply group_under_inj in E. }
    split.
    + intros r. destruct (get r p) as [x|] eqn:E.
      * symmetry. apply get_of_list_nodup; auto. apply in_map_iff. exists (r, x). split; auto. now apply in_to_list.
      * symmetry. apply get_of_list_none. intros Hin. rewrite map_map in Hin. apply in_map_iff in Hin as ((r' & x) & E1 & Hin).
        simpl in E1. apply group_under_inj in E1 as [-> _]. apply in_to_list in Hin. congruence.
    + intros r Hc. apply contains_get in Hc as [x Hx]. apply get_of_list_nodup in Hx; auto.
      apply in_map_iff in Hx as ((r' & y) & E1 & _). inv E1. eauto.
  - simpl. destruct (rq_comb q) as [c|]; simpl; auto. intros r. apply mem_group_set.
Qed.

Section Preserved.
  Context {P : Params}.
  Context (P1 P2 : Proto) (j : Join P1 P2).

  Lemma chain_plain : plain_ids P1 -> plain_ids P2 -> plain_ids (chain j).
  Proof. intros H1 H2 [id st sr tr|st]; simpl; [destruct (ti_result _); simpl; apply H1|apply H2]. Qed.

  Lemma group_errors g (e : RecvErr) :
    (re_group_under g e = RDirect -> e = RDirect) /\ (re_group_under g e = REchoB -> e = REchoB) /\
    (re_group_under g e = RNormal -> e = RNormal) /\ (forall x, re_group_under g e = REchoRound x -> e = REchoRound x).
  Proof. destruct e; simpl; repeat split; intros; congruence. Qed.

  Lemma chain_consistent : info_consistent P1 -> info_consistent P2 -> info_consistent (chain j).
  Proof.
    intros H1 H2 [id st sr tr|st].
    - destruct (H1 st) as (ri & Hi & Hr). exists (chain_info P1 P2 1 fst ri). split.
      + rewrite (aa_id (first_acts_as j id sr tr st)). apply chain_info_some. left. eauto.
      + intros from m. rewrite !(aa_receive (first_acts_as j id sr tr st)). specialize (Hr from m). cbn [ri_direct ri_echo ri_normal chain_info].
        destruct (receive P1 st from m) as [p|e|]; repeat split; intros E; inv E; apply group_errors in H0; subst; apply Hr; auto.
    - destruct (H2 st) as (ri & Hi & Hr). exists (chain_info P1 P2 2 snd ri). split.
      + rewrite (aa_id (second_acts_as j st)). apply chain_info_some. right. eauto.
      + intros from m. rewrite !(aa_receive (second_acts_as j st)). specialize (Hr from m). cbn [ri_direct ri_echo ri_normal chain_info].
        destruct (receive P2 st from m) as [p|e|]; repeat split; intros E; inv E; apply group_errors in H0; subst; apply Hr; auto.
  Qed.

  Lemma chain_no_echo_errors : no_echo_errors P1 -> no_echo_errors P2 -> no_echo_errors (chain j).
  Proof.
    intros H1 H2 [id st sr tr|st] from m e.
    - rewrite (aa_receive (first_acts_as j id sr tr st)). intros E. destruct (receive P1 st from m) eqn:Er; inv E.
      apply group_errors in H0. subst. now apply H1 in Er.
    - rewrite (aa_receive (second_acts_as j st)). intros E. destruct (receive P2 st from m) eqn:Er; inv E.
      apply group_errors in H0. subst. now apply H2 in Er.
  Qed.

  Lemma chain_own_valid : own_parts_valid P1 -> own_parts_valid P2 -> own_parts_valid (chain j).
  Proof.
    intros H1 H2 [id st sr tr|st].
    - destruct (H1 st) as (ri & Hi & Hd & He & Hn). exists (chain_info P1 P2 1 fst ri). split.
      + rewrite (aa_id (first_acts_as j id sr tr st)). apply chain_info_some. left. eauto.
      + split; [|split]; simpl; eauto. intros g dest b x H. apply bind_ok in H as ((b' & y) & H & E). inv E. eauto.
    - destruct (H2 st) as (ri & Hi & Hd & He & Hn). exists (chain_info P1 P2 2 snd ri). split.
      + rewrite (aa_id (second_acts_as j st)). apply chain_info_some. right. eauto.
      + split; [|split]; simpl; eauto. intros g dest b x H. apply bind_ok in H as ((b' & y) & H & E). inv E. eauto.
  Qed.

  Lemma chain_echo_rounds : echo_rounds_have_broadcasts P1 -> echo_rounds_have_broadcasts P2 -> echo_rounds_have_broadcasts (chain j).
  Proof.
    intros H1 H2 [id st sr tr|st] Hc from m p Hr.
    - rewrite (aa_receive (first_acts_as j id sr tr st)) in Hr. destruct (receive P1 st from m) eqn:E; inv Hr. exact (H1 st Hc _ _ _ E).
    - rewrite (aa_receive (second_acts_as j st)) in Hr. destruct (receive P2 st from m) eqn:E; inv Hr. exact (H2 st Hc _ _ _ E).
  Qed.

  Lemma chain_receive_total : receive_total P1 -> receive_total P2 -> receive_total (chain j).
  Proof.
    intros H1 H2 [id st sr tr|st] from m.
    - rewrite (aa_receive (first_acts_as j id sr tr st)). specialize (H1 st from m). destruct (receive P1 st from m); congruence.
    - rewrite (aa_receive (second_acts_as j st)). specialize (H2 st from m). destruct (receive P2 st from m); congruence.
  Qed.
End Preserved.

Lemma chain_has_rounds {P : Params} (P1 P2 : Proto) (j : Join P1 P2) rid :
  (exists ri, round_info (chain j) rid = Some ri) <->
  (exists r ri, rid = group_under r 1 /\ round_info P1 r = Some ri) \/ (exists r ri, rid = group_under r 2 /\ round_info P2 r = Some ri).
Proof.
  split.
  - intros [ri H]. apply chain_info_some in H as [(r & ri1 & -> & Hi & _)|(r & ri1 & -> & Hi & _)]; eauto.
  - intros [(r & ri & -> & H)|(r & ri & -> & H)]; eexists; apply chain_info_some; [left|right]; exists r, ri; auto.
Qed.

Lemma chain_hypotheses {P : Params} (P1 P2 : Proto) (j : Join P1 P2) :
  (plain_ids P1 -> plain_ids P2 -> plain_ids (chain j)) /\
  (info_consistent P1 -> info_consistent P2 -> info_consistent (chain j)) /\
  (no_echo_errors P1 -> no_echo_errors P2 -> no_echo_errors (chain j)) /\
  (own_parts_valid P1 -> own_parts_valid P2 -> own_parts_valid (chain j)) /\
  (echo_rounds_have_broadcasts P1 -> echo_rounds_have_broadcasts P2 -> echo_rounds_have_broadcasts (chain j)) /\
  (receive_total P1 -> receive_total P2 -> receive_total (chain j)).
Proof.
  repeat split; [apply chain_plain|apply chain_consistent|apply chain_no_echo_errors|apply chain_own_valid|apply chain_echo_rounds|apply chain_receive_total].
Qed.
