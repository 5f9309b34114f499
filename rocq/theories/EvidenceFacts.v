(** Facts about creating and verifying evidence. *)
From Coq Require Import List NArith Bool.
From Verif Require Import Base BMap Errors RoundId Message Protocol Transcript Evidence Session Spec SpecCrypto SpecEvidence
  MessageFacts SessionFacts RunFacts IntakeFacts RoundFacts FinalizeFacts HistoryFacts SignFacts IdFacts EchoFacts.
Import ListNotations.
Set Implicit Arguments.

(** ** Folds that build a map *)
Section Fold.
  Context {K : Type} `{OK : Ord K} {A V E : Type}.
  Variable f : K -> A -> res E V.
  Variable F : bmap K V -> K * A -> res E (bmap K V).
  Hypothesis F_eq : forall acc k a, F acc (k, a) = let* x := f k a in Ok (insert k x acc).

  Lemma fold_insert_gen l : NoDup (map fst l) -> forall acc m, fold_res F acc l = Ok m <->
    (forall k a, In (k, a) l -> exists x, f k a = Ok x /\ get k m = Some x) /\
    (forall k, ~ In k (map fst l) -> get k m = get k acc).
  Proof.
    induction l as [|[k a] l IH]; intros ND acc m.
    - simpl. split.
      + intros H. inv H. split; auto. intros ? ? [].
      + intros [_ H]. f_equal. apply bmap_ext. intros k. symmetry. auto.
    - simpl in ND. inv ND. cbn [fold_res]. rewrite F_eq. split.
      + intros H. apply bind_ok in H as (acc' & H & Hl). apply bind_ok in H as (x & Hx & H). inv H.
        apply IH in Hl as [G1 G2]; auto. split.
        * intros k' a' [Hin|Hin]; auto. inv Hin. exists x. split; auto. rewrite G2 by auto. apply get_insert_eq.
        * intros k' Hk. simpl in Hk. rewrite G2 by tauto. apply get_insert_ne. intros ->. tauto.
      + intros [G1 G2]. destruct (G1 k a) as (x & Hx & Hm); [now left|]. rewrite Hx. simpl. apply IH; auto. split.
        * intros k' a' Hin. apply G1. now right.
        * intros k' Hk. rewrite get_insert. destruct (eqb_spec k' k) as [->|Hne]; auto. apply G2. simpl. intros [|]; [congruence|auto].
  Qed.

  Lemma fold_insert_ok (src : bmap K A) m : fold_res F empty (to_list src) = Ok m <->
    (forall k a, get k src = Some a -> exists x, f k a = Ok x /\ get k m = Some x) /\
    (forall k, get k src = None -> get k m = None).
  Proof.
    rewrite fold_insert_gen by apply NoDup_keys. split; intros [G1 G2]; split.
    - intros k a Hk. apply G1. now apply in_to_list.
    - intros k Hk. rewrite G2, get_empty; auto. intros Hi. apply in_keys, contains_get in Hi as [a Hi]. congruence.
    - intros k a Hk. apply G1. now apply in_to_list.
    - intros k Hk. rewrite get_empty. apply G2. destruct (get k src) eqn:E'; auto. exfalso. apply Hk. apply in_keys, contains_get. eauto.
  Qed.
End Fold.

Lemma map_exists {K} `{OK : Ord K} {V W} (src : bmap K V) (R : K -> V -> W -> Prop) :
  (forall k v, get k src = Some v -> exists w, R k v w) ->
  exists m : bmap K W, (forall k v, get k src = Some v -> exists w, R k v w /\ get k m = Some w) /\
    (forall k, get k src = None -> get k m = None).
Proof.
  intros H.
  assert (G : forall l : list (K * V), NoDup (map fst l) -> (forall k v, In (k, v) l -> exists w, R k v w) ->
    exists m : bmap K W, (forall k v, In (k, v) l -> exists w, R k v w /\ get k m = Some w) /\ (forall k, ~ In k (map fst l) -> get k m = None)).
  { induction l as [|[k v] l IH]; intros ND Hl.
    - exists empty. split; [intros ? ? []|]. intros; apply get_empty.
    - simpl in ND. inv ND. destruct IH as (m & G1 & G2); auto; [intros; apply Hl; now right|].
      destruct (Hl k v) as (w & Hw); [now left|]. exists (insert k w m). split.
      + intros k' v' [Hin|Hin].
        * inv Hin. exists w. split; auto. apply get_insert_eq.
        * destruct (G1 _ _ Hin) as (w' & H1 & H4). exists w'. split; auto. rewrite get_insert_ne; auto.
          intros ->. apply H2. apply (in_map fst) in Hin. exact Hin.
      + intros k' Hk. simpl in Hk. rewrite get_insert_ne by (intros ->; tauto). apply G2. tauto. }
  destruct (G (to_list src)) as (m & G1 & G2); [apply NoDup_keys|intros k v Hin; apply H; now apply in_to_list|].
  exists m. split.
  - intros k v Hk. apply G1. now apply in_to_list.
  - intros k Hk. apply G2. intros Hi. apply in_keys, contains_get in Hi as [a Hi]. congruence.
Qed.

Section WithParams.
  Context {P : Params}.

  Definition fits {k} v sid rid (p : SPart k) : Prop := part_signed v p /\ sp_meta p = mkMeta sid rid.

  Lemma part_meta_check (m : Meta) sid rid :
    (negb (bytes_eqb (m_session m) sid) || negb (eqb (m_round m) rid))%bool = false <-> m = mkMeta sid rid.
  Proof.
    destruct m as [s r]. simpl. rewrite orb_false_iff, !negb_false_iff, eqb_eq, bytes_eqb_spec. split.
    - intros [-> ->]; auto.
    - intros H. inv H. auto.
  Qed.

  Lemma part_meta_ok sid rid : (negb (bytes_eqb (m_session (mkMeta sid rid)) sid) || negb (eqb (m_round (mkMeta sid rid)) rid))%bool = false.
  Proof. now apply part_meta_check. Qed.

  Lemma verify_message_parts_ok {k} v sid (m : bmap RoundId (SPart k)) b : verify_message_parts v sid m = Ok b <->
    (forall rid p, get rid m = Some p -> fits v sid rid p) /\ b = map_values (@sp_body k) m.
  Proof.
    unfold verify_message_parts.
    rewrite (@fold_insert_ok _ _ _ _ _ (fun rid p => let* p := map_err into_evidence_error (verify_part v p) in
      if (negb (bytes_eqb (m_session (sp_meta p)) sid) || negb (eqb (m_round (sp_meta p)) rid))%bool
      then Err EE_Invalid else Ok (sp_body p))).
    2:{ intros acc rid p. destruct (verify_part v p); simpl; auto. now destruct (_ || _)%bool. }
    split.
    - intros [G1 G2]. split.
      + intros rid p Hp. destruct (G1 _ _ Hp) as (x & Hx & _). apply bind_ok in Hx as (q & Hq & Hx). apply map_err_ok in Hq.
        apply verify_part_ok in Hq as [-> Hq]. destruct (_ || _)%bool eqn:E; [discriminate|]. apply part_meta_check in E. now split.
      + apply bmap_ext. intros rid. rewrite get_map_values. destruct (get rid m) as [p|] eqn:Ep; simpl; auto.
        destruct (G1 _ _ Ep) as (x & Hx & Hg). apply bind_ok in Hx as (q & Hq & Hx). apply map_err_ok in Hq.
        apply verify_part_ok in Hq as [-> Hq]. destruct (_ || _)%bool; inv Hx. auto.
    - intros [G ->]. split.
      + intros rid p Hp. exists (sp_body p). rewrite get_map_values, Hp. split; auto. destruct (G _ _ Hp) as [G1 G2].
        rewrite (proj2 (verify_part_ok v p p)) by auto. simpl. rewrite G2. simpl. now rewrite bytes_eqb_refl, eqb_refl.
      + intros rid Hp. rewrite get_map_values, Hp. auto.
  Qed.

  Lemma verify_message_part_ok {k} v sid rid (o : option (SPart k)) b : verify_message_part v sid rid o = Ok b <->
    (forall p, o = Some p -> fits v sid rid p) /\ b = option_map (@sp_body k) o.
  Proof.
    destruct o as [p|]; simpl.
    - split.
      + intros H. destruct (_ || _)%bool eqn:E; [discriminate|]. apply part_meta_check in E. apply bind_ok in H as (q & Hq & H). inv H.
        apply map_err_ok, verify_part_ok in Hq as [-> Hq]. split; auto. intros p' Hp. inv Hp. now split.
      + intros [H ->]. destruct (H p eq_refl) as [H1 H2]. rewrite H2. simpl. rewrite bytes_eqb_refl, eqb_refl. simpl.
        rewrite (proj2 (verify_part_ok v p p)) by auto. reflexivity.
    - split; [intros H; inv H; split; auto; discriminate|]. intros [_ ->]; auto.
  Qed.

  Definition echoed_fits sid rid (signed : bmap Verifier (SPart KEcho)) u h q : Prop :=
    sh_meta h = mkMeta sid rid /\ hash_signed u h /\ get u signed = Some q /\ fits u sid rid q /\ is_hash_of h q = true.

  Lemma verify_echoed_ok sid rid signed (msg : bmap Verifier SHash) b :
    fold_res (verify_echoed sid rid signed) empty (to_list msg) = Ok b <->
    (forall u h, get u msg = Some h -> exists q, echoed_fits sid rid signed u h q /\ get u b = Some (sp_body q)) /\
    (forall u, get u msg = None -> get u b = None).
  Proof.
    rewrite (@fold_insert_ok _ _ _ _ _ (fun u h =>
      let* b := verify_echoed sid rid signed empty (u, h) in ok_or (get u b) EE_Invalid)).
    2:{ intros acc u h. unfold verify_echoed. destruct (_ || _)%bool; [reflexivity|].
        destruct (map_err _ (verify_shash u h)); [|reflexivity|reflexivity]. cbn [bind].
        destruct (get u signed); [|reflexivity]. cbn [ok_or bind]. destruct (_ || _)%bool; [reflexivity|].
        destruct (negb _); [reflexivity|]. destruct (map_err _ (verify_part u s)); cbn [bind]; auto. rewrite get_insert_eq. reflexivity. }
    assert (Hone : forall u h x, (let* b := verify_echoed sid rid signed empty (u, h) in ok_or (get u b) EE_Invalid) = Ok x <->
      exists q, echoed_fits sid rid signed u h q /\ x = sp_body q).
    { intros u h x. unfold verify_echoed, echoed_fits, fits. split.
      - intros H. apply bind_ok in H as (b' & H & Hx).
        destruct (_ || _)%bool eqn:E1; [discriminate|]. apply part_meta_check in E1.
        apply bind_ok in H as (h' & Hh & H). apply map_err_ok, verify_shash_ok in Hh as [-> Hh].
        apply bind_ok in H as (q & Hq & H). destruct (get u signed) as [q'|]; inv Hq.
        destruct (_ || _)%bool eqn:E2; [discriminate|]. apply part_meta_check in E2.
        destruct (is_hash_of h q) eqn:E3; [|discriminate]. cbn [negb] in H.
        apply bind_ok in H as (q' & Hq & H). apply map_err_ok, verify_part_ok in Hq as [-> Hq]. inv H.
        rewrite get_insert_eq in Hx. inv Hx. exists q. auto 10.
      - intros (q & (H1 & H2 & H3 & (H4 & H5) & H6) & ->). rewrite H1, part_meta_ok, H3.
        rewrite (proj2 (verify_shash_ok u h h)) by auto. cbn [map_err bind ok_or]. rewrite H5, part_meta_ok, H6. cbn [negb].
        rewrite (proj2 (verify_part_ok u q q)) by auto. cbn [map_err bind]. now rewrite get_insert_eq. }
    split; intros [G1 G2]; split; auto.
    - intros u h Hu. destruct (G1 _ _ Hu) as (x & Hx & Hb). apply Hone in Hx as (q & Hq & ->). eauto.
    - intros u h Hu. destruct (G1 _ _ Hu) as (q & Hq & Hb). exists (sp_body q). split; auto. apply Hone. eauto.
  Qed.

  Definition hashes_fit v sid (others : bmap RoundId (bmap Verifier (SPart KEcho))) rid (p : SPart KNormal) b : Prop :=
    rid_echo rid = false /\ fits v sid (echo_of rid) p /\
    exists msg signed, body_echo_msg (sp_body p) = Some msg /\ get rid others = Some signed /\
      (forall u h, get u msg = Some h -> exists q, echoed_fits sid rid signed u h q /\ get u b = Some (sp_body q)) /\
      (forall u, get u msg = None -> get u b = None).

  Lemma non_echo_ok r r' : non_echo r = Ok r' <-> rid_echo r' = false /\ r = echo_of r'.
  Proof.
    unfold non_echo, echo_of. destruct r as [n g e], r' as [n' g' e']. simpl. destruct e; simpl; split.
    - intros H. inv H. auto.
    - intros [-> H]. inv H. auto.
    - discriminate.
    - intros [_ H]. inv H.
  Qed.

  Lemma verify_echo_hashes_ok v sid others hashes comb :
    fold_res (verify_echo_hashes v sid others) empty (to_list hashes) = Ok comb <->
    (forall rid p, get rid hashes = Some p -> exists b, hashes_fit v sid others rid p b /\ get rid comb = Some b) /\
    (forall rid, get rid hashes = None -> get rid comb = None).
  Proof.
    rewrite (@fold_insert_ok _ _ _ _ _ (fun rid p =>
      let* b := verify_echo_hashes v sid others empty (rid, p) in ok_or (get rid b) EE_Invalid)).
    2:{ intros acc rid p. unfold verify_echo_hashes. destruct (map_err _ (non_echo _)); cbn [bind]; auto.
        destruct (_ || _)%bool; [reflexivity|].
        destruct (map_err _ (verify_part v p)) as [p'| |]; cbn [bind]; auto.
        destruct (ok_or (body_echo_msg (sp_body p')) EE_Invalid); cbn [bind]; auto.
        destruct (ok_or (get rid others) EE_Invalid); cbn [bind]; auto.
        destruct (fold_res _ empty _); cbn [bind]; auto. rewrite get_insert_eq. reflexivity. }
    assert (Hone : forall rid p x, (let* b := verify_echo_hashes v sid others empty (rid, p) in ok_or (get rid b) EE_Invalid) = Ok x <->
      hashes_fit v sid others rid p x).
    { intros rid p x. unfold verify_echo_hashes, hashes_fit, fits. split.
      - intros H. apply bind_ok in H as (b & H & Hx). apply bind_ok in H as (main & Hm & H). apply map_err_ok, non_echo_ok in Hm as [Hm1 Hm2].
        destruct (_ || _)%bool eqn:E; [discriminate|]. rewrite orb_false_iff, !negb_false_iff, bytes_eqb_spec in E. destruct E as [E1 E2].
        apply (proj1 (eqb_eq _ _)) in E2. subst main.
        apply bind_ok in H as (p' & Hp & H). apply map_err_ok, verify_part_ok in Hp as [-> Hp].
        apply bind_ok in H as (msg & Hmsg & H). apply bind_ok in H as (signed & Hsg & H). apply bind_ok in H as (es & Hes & H). inv H.
        rewrite get_insert_eq in Hx. inv Hx. split; auto. split.
        + split; auto. destruct (sp_meta p); simpl in *; congruence.
        + exists msg, signed. destruct (body_echo_msg (sp_body p)); inv Hmsg. destruct (get rid others); inv Hsg.
          split; auto. split; auto. now apply verify_echoed_ok.
      - intros (H0 & [H1 H2] & msg & signed & H3 & H4 & H5). rewrite H2. cbn [m_round m_session].
        rewrite (proj2 (non_echo_ok (echo_of rid) rid)) by auto. cbn [map_err bind]. rewrite bytes_eqb_refl, eqb_refl. cbn [negb orb].
        rewrite (proj2 (verify_part_ok v p p)) by auto. cbn [map_err bind]. rewrite H3, H4. cbn [ok_or bind].
        apply verify_echoed_ok in H5. rewrite H5. cbn [bind]. now rewrite get_insert_eq. }
    split; intros [G1 G2]; split; auto.
    - intros u h Hu. destruct (G1 _ _ Hu) as (x & Hx & Hb). apply Hone in Hx. eauto.
    - intros u h Hu. destruct (G1 _ _ Hu) as (q & Hq & Hb). exists q. split; auto. now apply Hone.
  Qed.

  Lemma get_merge_parts es ns ds rid : get rid (merge_parts es ns ds) =
    if (contains rid es || contains rid ns || contains rid ds)%bool then Some (mkEvMsg (get rid ds) (get rid ns) (get rid es)) else None.
  Proof.
    unfold merge_parts.
    assert (Hm : mem rid (set_of_list (keys es ++ keys ns ++ keys ds)) = (contains rid es || contains rid ns || contains rid ds)%bool).
    { apply eq_true_iff_eq. rewrite mem_set_of_list, !orb_true_iff, !in_app_iff, !in_keys. tauto. }
    set (l := elements _). destruct (get rid (of_list _)) as [x|] eqn:E.
    - apply get_of_list_nodup in E.
      2:{ rewrite map_map. simpl. rewrite map_id. apply NoDup_elements. }
      apply in_map_iff in E as (r & E & Hin). inv E. apply in_elements in Hin. now rewrite <- Hm, Hin.
    - apply get_of_list_none in E. rewrite map_map in E. simpl in E. rewrite map_id in E.
      destruct (_ || _)%bool eqn:Eb; auto. exfalso. apply E. now apply in_elements.
  Qed.

  (** ** Collecting the required messages *)

  Lemma get2_ok {V} e (m : bmap RoundId (bmap Verifier V)) rid v x : get2 e m rid v = Ok x <->
    exists y, get rid m = Some y /\ get v y = Some x.
  Proof.
    unfold get2. destruct (get rid m) as [y|]; simpl.
    - destruct (get v y) as [z|] eqn:E; simpl; split.
      + intros H. inv H. eauto.
      + intros (y' & H & H'). inv H. congruence.
      + discriminate.
      + intros (y' & H & H'). inv H. congruence.
    - split; [discriminate|]. intros (y & H & _). discriminate.
  Qed.

  (** What a collected map contains for round [rid] when the part is required ([b]) or not. *)
  Definition took {k} (b : bool) (t : bmap RoundId (bmap Verifier (SPart k))) v rid (m : bmap RoundId (SPart k)) : Prop :=
    if b then exists p, recorded t rid v p /\ get rid m = Some p else get rid m = None.

  Lemma opt_get_ok {V} b rid (g : res LocalError V) m m' : opt_get b rid g m = Ok m' ->
    if b then exists x, g = Ok x /\ m' = insert rid x m else m' = m.
  Proof.
    unfold opt_get. destruct b; intros H; [|now inv H]. apply bind_ok in H as (x & Hx & H). inv H. eauto.
  Qed.

  Lemma collect_prev_ok t v prev es ns ds : collect_prev t v prev = Ok (es, ns, ds) ->
    (forall rid rq, get rid prev = Some rq ->
      took (rp_echo rq) (tr_echo t) v rid es /\ took (rp_normal rq) (tr_normal t) v rid ns /\ took (rp_direct rq) (tr_direct t) v rid ds) /\
    (forall rid, get rid prev = None -> get rid es = None /\ get rid ns = None /\ get rid ds = None).
  Proof.
    unfold collect_prev.
    assert (G : forall l, NoDup (map fst l) -> forall es0 ns0 ds0,
      (forall rid, In rid (map fst l) -> get rid es0 = None /\ get rid ns0 = None /\ get rid ds0 = None) ->
      fold_res (fun acc kv =>
        let '(es, ns, ds) := acc in
        let '(rid, rq) := kv in
        let* es := opt_get (rp_echo rq) rid (get_echo_broadcast t rid v) es in
        let* ns := opt_get (rp_normal rq) rid (get_normal_broadcast t rid v) ns in
        let* ds := opt_get (rp_direct rq) rid (get_direct_message t rid v) ds in
        Ok (es, ns, ds)) (es0, ns0, ds0) l = Ok (es, ns, ds) ->
      (forall rid rq, In (rid, rq) l ->
        took (rp_echo rq) (tr_echo t) v rid es /\ took (rp_normal rq) (tr_normal t) v rid ns /\ took (rp_direct rq) (tr_direct t) v rid ds) /\
      (forall rid, ~ In rid (map fst l) -> get rid es = get rid es0 /\ get rid ns = get rid ns0 /\ get rid ds = get rid ds0)).
    { induction l as [|[rid rq] l IH]; intros ND es0 ns0 ds0 H0 H.
      - inv H. split; [intros ? ? []|]. auto.
      - simpl in ND. inv ND. cbn [fold_res] in H. apply bind_ok in H as ([[es1 ns1] ds1] & Hx & H).
        apply bind_ok in Hx as (e1 & He & Hx). apply bind_ok in Hx as (n1 & Hn & Hx). apply bind_ok in Hx as (d1 & Hd & Hx). inv Hx.
        apply opt_get_ok in He, Hn, Hd.
        assert (Hother : forall r, r <> rid -> get r es1 = get r es0 /\ get r ns1 = get r ns0 /\ get r ds1 = get r ds0).
        { intros r Hr.
          destruct (rp_echo rq); [destruct He as (? & _ & ->)|subst es1];
          (destruct (rp_normal rq); [destruct Hn as (? & _ & ->)|subst ns1]);
          (destruct (rp_direct rq); [destruct Hd as (? & _ & ->)|subst ds1]);
          rewrite ?get_insert_ne by auto; auto. }
        apply IH in H as [G1 G2]; auto.
        2:{ intros r Hr. assert (Hne : r <> rid) by (intros ->; auto). destruct (Hother r Hne) as (-> & -> & ->). apply H0. now right. }
        split.
        + intros r q [Hin|Hin]; auto. inv Hin. destruct (G2 r) as (E1 & E2 & E3); auto.
          destruct (H0 r) as (Z1 & Z2 & Z3); [now left|]. unfold took. rewrite E1, E2, E3. split; [|split].
          * destruct (rp_echo q); [|congruence]. destruct He as (x & Hx & ->). apply get2_ok in Hx. rewrite get_insert_eq. eauto.
          * destruct (rp_normal q); [|congruence]. destruct Hn as (x & Hx & ->). apply get2_ok in Hx. rewrite get_insert_eq. eauto.
          * destruct (rp_direct q); [|congruence]. destruct Hd as (x & Hx & ->). apply get2_ok in Hx. rewrite get_insert_eq. eauto.
        + intros r Hr. simpl in Hr. destruct (G2 r) as (-> & -> & ->); [tauto|]. apply Hother. intros ->. tauto. }
    intros H. apply G in H as [G1 G2]; [|apply NoDup_keys|intros; rewrite !get_empty; auto]. split.
    - intros rid rq Hr. apply G1. now apply in_to_list.
    - intros rid Hr. assert (Hn : ~ In rid (map fst (to_list prev))).
      { intros Hi. apply in_keys, contains_get in Hi as [a Hi]. congruence. }
      apply G2 in Hn. rewrite !get_empty in Hn. exact Hn.
  Qed.

  Lemma collect_comb_ok t v comb hs os : collect_comb t v comb = Ok (hs, os) ->
    (forall rid, mem rid comb = true -> rid_echo rid = false /\
      (exists p, recorded (tr_normal t) (echo_of rid) v p /\ get rid hs = Some p) /\
      (exists m, get rid (tr_echo t) = Some m /\ get rid os = Some (remove v m))) /\
    (forall rid, mem rid comb = false -> get rid hs = None /\ get rid os = None).
  Proof.
    unfold collect_comb.
    assert (G : forall l, NoDup l -> forall hs0 os0,
      fold_res (fun acc rid =>
        let '(hs, os) := acc in
        let* e := echo rid in
        let* h := get_normal_broadcast t e v in
        let* o := get_other_echo_broadcasts t rid v in
        Ok (insert rid h hs, insert rid o os)) (hs0, os0) l = Ok (hs, os) ->
      (forall rid, In rid l -> rid_echo rid = false /\
        (exists p, recorded (tr_normal t) (echo_of rid) v p /\ get rid hs = Some p) /\
        (exists m, get rid (tr_echo t) = Some m /\ get rid os = Some (remove v m))) /\
      (forall rid, ~ In rid l -> get rid hs = get rid hs0 /\ get rid os = get rid os0)).
    { induction l as [|rid l IH]; intros ND hs0 os0 H.
      - inv H. split; [intros ? []|]. auto.
      - inv ND. cbn [fold_res] in H. apply bind_ok in H as ([hs1 os1] & Hx & H).
        apply bind_ok in Hx as (e & He & Hx). apply bind_ok in Hx as (p & Hp & Hx). apply bind_ok in Hx as (o & Ho & Hx). inv Hx.
        apply IH in H as [G1 G2]; auto. split.
        + intros r [->|Hin]; auto. destruct (G2 r) as [E1 E2]; auto. rewrite E1, E2, !get_insert_eq.
          unfold echo in He. destruct (rid_echo r) eqn:Er; inv He. split; auto. apply get2_ok in Hp. split; [eauto|].
          unfold get_other_echo_broadcasts in Ho. apply bind_ok in Ho as (m & Hm & Ho). inv Ho. destruct (get r (tr_echo t)); inv Hm. eauto.
        + intros r Hr. simpl in Hr. destruct (G2 r) as [-> ->]; [tauto|]. rewrite !get_insert_ne by (intros ->; tauto). auto. }
    intros H. apply G in H as [G1 G2]; [|apply NoDup_elements]. split.
    - intros rid Hr. apply G1. now apply in_elements.
    - intros rid Hr. assert (Hn : ~ In rid (elements comb)) by (rewrite in_elements; congruence).
      apply G2 in Hn. rewrite !get_empty in Hn. exact Hn.
  Qed.

  Lemma new_provable_ok v e n d err t ev : new_provable_error v e n d err t = Ok ev ->
    exists eb es ns ds hs os, be_ser err = Some eb /\
      ev = mkEvidence v (EvProtocol (mkProtoEv eb
          (if rp_direct (rq_this (be_required err)) then Some d else None)
          (if rp_echo (rq_this (be_required err)) then Some e else None)
          (if rp_normal (rq_this (be_required err)) then Some n else None) ds es ns os hs)) /\
      collect_prev t v (match rq_prev (be_required err) with Some m => m | None => empty end) = Ok (es, ns, ds) /\
      collect_comb t v (match rq_comb (be_required err) with Some m => m | None => sempty end) = Ok (hs, os).
  Proof.
    unfold new_provable_error. intros H. apply bind_ok in H as ([[es ns] ds] & H1 & H). apply bind_ok in H as ([hs os] & H2 & H).
    apply bind_ok in H as (eb & H3 & H). inv H. destruct (be_ser err); inv H3.
    exists eb, es, ns, ds, hs, os. split; auto. split; auto. split.
    - destruct (rq_prev (be_required err)); auto.
    - destruct (rq_comb (be_required err)); auto.
  Qed.

  Lemma api_parts_some q : api_parts q -> rp_direct q = true \/ rp_echo q = true \/ rp_normal q = true.
  Proof.
    induction 1 as [p H|p H|p H|p q Hp IH H|p q Hp IH H|p q Hp IH H].
    - inv H. auto.
    - inv H. auto.
    - inv H. auto.
    - unfold and_echo, req_new in H. destruct p as [[] [] []]; inv H; simpl; auto.
    - unfold and_normal, req_new in H. destruct p as [[] [] []]; inv H; simpl; auto.
    - unfold and_direct, req_new in H. destruct p as [[] [] []]; inv H; simpl; auto.
  Qed.

  Context {Pr : Proto}.
  Implicit Types s : Session Pr.
  Implicit Types d : DState Pr.

  (** Verification of protocol evidence, in one statement. *)
  Lemma verify_protocol_eq v e (sd : Shared Pr) sid rid ri comb :
    trigger_meta e = Some (mkMeta sid rid) ->
    (forall p, pe_direct e = Some p -> fits v sid rid p) -> (forall p, pe_echo e = Some p -> fits v sid rid p) ->
    (forall p, pe_normal e = Some p -> fits v sid rid p) ->
    (forall r p, get r (pe_directs e) = Some p -> fits v sid r p) -> (forall r p, get r (pe_echos e) = Some p -> fits v sid r p) ->
    (forall r p, get r (pe_normals e) = Some p -> fits v sid r p) ->
    fold_res (verify_echo_hashes v sid (pe_others e)) empty (to_list (pe_hashes e)) = Ok comb ->
    round_info Pr rid = Some ri ->
    verify_protocol Pr v e sd = ri_verify ri rid (pe_error e) v sid sd
      (mkEvMsg (option_map (@sp_body _) (pe_direct e)) (option_map (@sp_body _) (pe_normal e)) (option_map (@sp_body _) (pe_echo e)))
      (merge_parts (map_values (@sp_body _) (pe_echos e)) (map_values (@sp_body _) (pe_normals e)) (map_values (@sp_body _) (pe_directs e)))
      comb.
  Proof.
    intros Ht H1 H2 H3 H4 H5 H6 H7 H8. unfold verify_protocol. rewrite Ht. cbn [ok_or bind m_session m_round].
    rewrite (proj2 (verify_message_part_ok v sid rid (pe_direct e) _) (conj H1 eq_refl)). cbn [bind].
    rewrite (proj2 (verify_message_part_ok v sid rid (pe_echo e) _) (conj H2 eq_refl)). cbn [bind].
    rewrite (proj2 (verify_message_part_ok v sid rid (pe_normal e) _) (conj H3 eq_refl)). cbn [bind].
    rewrite (proj2 (verify_message_parts_ok v sid (pe_directs e) _) (conj H4 eq_refl)). cbn [bind].
    rewrite (proj2 (verify_message_parts_ok v sid (pe_echos e) _) (conj H5 eq_refl)). cbn [bind].
    rewrite (proj2 (verify_message_parts_ok v sid (pe_normals e) _) (conj H6 eq_refl)). cbn [bind].
    rewrite H7. cbn [bind]. rewrite H8. reflexivity.
  Qed.

  Lemma verify_protocol_ok v e (sd : Shared Pr) : verify_protocol Pr v e sd = Ok tt ->
    exists sid rid ri comb, trigger_meta e = Some (mkMeta sid rid) /\ round_info Pr rid = Some ri /\
    (forall p, pe_direct e = Some p -> fits v sid rid p) /\ (forall p, pe_echo e = Some p -> fits v sid rid p) /\
    (forall p, pe_normal e = Some p -> fits v sid rid p) /\
    (forall r p, get r (pe_directs e) = Some p -> fits v sid r p) /\ (forall r p, get r (pe_echos e) = Some p -> fits v sid r p) /\
    (forall r p, get r (pe_normals e) = Some p -> fits v sid r p) /\
    fold_res (verify_echo_hashes v sid (pe_others e)) empty (to_list (pe_hashes e)) = Ok comb /\
    ri_verify ri rid (pe_error e) v sid sd
      (mkEvMsg (option_map (@sp_body _) (pe_direct e)) (option_map (@sp_body _) (pe_normal e)) (option_map (@sp_body _) (pe_echo e)))
      (merge_parts (map_values (@sp_body _) (pe_echos e)) (map_values (@sp_body _) (pe_normals e)) (map_values (@sp_body _) (pe_directs e)))
      comb = Ok tt.
  Proof.
    intros H. pose proof H as Hv. unfold verify_protocol in H. apply bind_ok in H as ([sid rid] & Ht & H). cbn [m_session m_round] in H.
    apply bind_ok in H as (b1 & H1 & H). apply bind_ok in H as (b2 & H2 & H). apply bind_ok in H as (b3 & H3 & H).
    apply bind_ok in H as (b4 & H4 & H). apply bind_ok in H as (b5 & H5 & H). apply bind_ok in H as (b6 & H6 & H).
    apply bind_ok in H as (comb & H7 & H). apply bind_ok in H as (ri & H8 & H).
    apply verify_message_part_ok in H1 as [H1 ->]. apply verify_message_part_ok in H2 as [H2 ->]. apply verify_message_part_ok in H3 as [H3 ->].
    apply verify_message_parts_ok in H4 as [H4 ->]. apply verify_message_parts_ok in H5 as [H5 ->]. apply verify_message_parts_ok in H6 as [H6 ->].
    exists sid, rid, ri, comb. destruct (trigger_meta e); inv Ht. destruct (round_info Pr rid); inv H8. repeat (split; auto).
  Qed.

  (** ** C24 *)
  Lemma malformed_verifies d v ev sd : plain_ids Pr -> info_consistent Pr -> reachable d -> has_evidence d v ev -> malformed ev ->
    ev_guilty ev = v /\ verify_evidence Pr ev sd = Ok tt.
  Proof.
    intros Hpl Hci Hre Hev Hm. destruct (evidence_origin Hre Hev) as (d1 & vm & Hre1 & _ & _ & Hf & Hau & e & Ha & He).
    destruct Hau as (S1 & S2 & S3 & _ & M1 & M2 & M3). pose proof (reachable_sinv Hre1) as SI.
    assert (Hround : (rid_echo (s_round_id (d_s d1)) = false /\ exists st, s_round (d_s d1) = RMain st /\ s_round_id (d_s d1) = ti_id (tinfo Pr st)) \/
       (rid_echo (s_round_id (d_s d1)) = true /\ exists me echos info main ps arts, s_round (d_s d1) = REcho me echos info main ps arts)).
    { destruct (si_shape SI) as [st Hst|echos info st ps arts Hst _].
      - left. destruct (main_tinfo SI Hst) as [E _]. unfold s_round_id. rewrite E. split; [apply Hpl|eauto].
      - right. destruct (echo_round_id SI Hst) as [E1 E2]. rewrite E2. split; eauto 10. }
    destruct e as [| | | |be| |ee]; try tauto; try (subst ev; split; [exact Hf|]).
    - unfold verify_evidence, verify_invalid_part. cbn [ev_body new_invalid_direct ev_guilty].
      rewrite (proj2 (verify_part_ok _ _ (vm_direct vm))) by auto. cbn [map_err bind]. rewrite M1. cbn [m_round].
      destruct Hround as [[-> (st & Hst & ->)]|[-> (me & echos & info & main & ps & arts & Hst)]]; unfold answer in Ha; rewrite Hst in Ha; simpl in Ha.
      + destruct (Hci st) as (ri & -> & Hri). cbn [ok_or bind]. eapply (proj1 (Hri _ (mkDynMsg _ _ _))). apply bind_err in Ha as [Ha|(? & _ & Ha)]; [exact Ha|discriminate].
      + unfold echo_receive in Ha. cbn [dm_echo dm_direct dm_normal] in Ha. destruct (negb (is_none (sp_body (vm_echo vm)))); [discriminate|].
        unfold echo_direct_invalid, verify_is_some. destruct (is_none (sp_body (vm_direct vm))) eqn:En; auto. exfalso. cbn [negb] in Ha.
        destruct (body_echo_msg _); [|discriminate]. destruct (negb _); [discriminate|]. destruct (negb _); [discriminate|].
        apply bind_err in Ha as [Ha|(? & _ & Ha)]; [|discriminate]. apply iter_res_first in Ha as (l1 & x & l2 & _ & _ & Ha); [|discriminate].
        apply check_echo_err in Ha. destruct Ha as [[? Ha]|[? Ha]]; discriminate.
    - unfold verify_evidence, verify_invalid_part. cbn [ev_body new_invalid_echo ev_guilty].
      rewrite (proj2 (verify_part_ok _ _ (vm_echo vm))) by auto. cbn [map_err bind]. rewrite M2. cbn [m_round].
      destruct Hround as [[-> (st & Hst & ->)]|[-> (me & echos & info & main & ps & arts & Hst)]]; unfold answer in Ha; rewrite Hst in Ha; simpl in Ha.
      + destruct (Hci st) as (ri & -> & Hri). cbn [ok_or bind]. eapply (proj1 (proj2 (Hri _ (mkDynMsg _ _ _)))). apply bind_err in Ha as [Ha|(? & _ & Ha)]; [exact Ha|discriminate].
      + unfold echo_receive in Ha. cbn [dm_echo dm_direct dm_normal] in Ha. unfold echo_echo_invalid, verify_is_some.
        destruct (is_none (sp_body (vm_echo vm))) eqn:En; auto. exfalso. cbn [negb] in Ha. destruct (negb _); [discriminate|].
        destruct (body_echo_msg _); [|discriminate]. destruct (negb _); [discriminate|]. destruct (negb _); [discriminate|].
        apply bind_err in Ha as [Ha|(? & _ & Ha)]; [|discriminate]. apply iter_res_first in Ha as (l1 & x & l2 & _ & _ & Ha); [|discriminate].
        apply check_echo_err in Ha. destruct Ha as [[? Ha]|[? Ha]]; discriminate.
    - unfold verify_evidence, verify_invalid_part. cbn [ev_body new_invalid_normal ev_guilty].
      rewrite (proj2 (verify_part_ok _ _ (vm_normal vm))) by auto. cbn [map_err bind]. rewrite M3. cbn [m_round].
      destruct Hround as [[-> (st & Hst & ->)]|[-> (me & echos & info & main & ps & arts & Hst)]]; unfold answer in Ha; rewrite Hst in Ha; simpl in Ha.
      + destruct (Hci st) as (ri & -> & Hri). cbn [ok_or bind]. eapply (proj2 (proj2 (Hri _ (mkDynMsg _ _ _)))). apply bind_err in Ha as [Ha|(? & _ & Ha)]; [exact Ha|discriminate].
      + unfold echo_receive in Ha. cbn [dm_echo dm_direct dm_normal] in Ha. unfold echo_normal_invalid.
        destruct (negb _); [discriminate|]. destruct (negb _); [discriminate|].
        destruct (body_echo_msg _); auto. exfalso. destruct (negb _); [discriminate|]. destruct (negb _); [discriminate|].
        apply bind_err in Ha as [Ha|(? & _ & Ha)]; [|discriminate]. apply iter_res_first in Ha as (l1 & x & l2 & _ & _ & Ha); [|discriminate].
        apply check_echo_err in Ha. destruct Ha as [[? Ha]|[? Ha]]; discriminate.
    - exfalso. apply new_provable_ok in He as (? & ? & ? & ? & ? & ? & _ & -> & _). exact Hm.
    - exfalso. subst ev. destruct ee; exact Hm.
  Qed.
End WithParams.
