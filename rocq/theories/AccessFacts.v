(** What the accessors of [EvidenceMessages] return; session ids made from seeds; building round graphs. *)
From Coq Require Import List Arith NArith Bool Ascii String Lia.
From Verif Require Import Base BMap Errors RoundId Message Protocol Transcript Evidence Session Typed Spec SpecCrypto SpecEvidence SpecAccess
  SignFacts SessionFacts EvidenceFacts GuiltFacts IdFacts.
Import ListNotations.
Set Implicit Arguments.

Section WithParams.
  Context {P : Params}.

  Lemma part_deser_value m b x : part_deser m b = Some x <-> contains_value m b x.
  Proof.
    destruct m as [|T ser deser]; destruct b as [p|]; simpl.
    - split; discriminate.
    - destruct x. split; auto.
    - split; [eauto|]. intros (q & H & K). injection H as <-. exact K.
    - split; [discriminate|]. intros (q & H & _). discriminate.
  Qed.
  Lemma es_part_ok m o x : es_part m o = Ok x <-> exists b, o = Some b /\ contains_value m b x.
  Proof.
    unfold es_part. destruct o as [b|]; cbn [ok_or bind].
    - destruct (part_deser m b) as [y|] eqn:E; cbn [ok_or].
      + split.
        * intros H. injection H as <-. exists b. split; auto. now apply part_deser_value.
        * intros (c & H & K). injection H as <-. apply part_deser_value in K. congruence.
      + split; [discriminate|]. intros (c & H & K). injection H as <-. apply part_deser_value in K. congruence.
    - split; [discriminate|]. intros (c & H & _). discriminate.
  Qed.

  (** The loop of [combined_echos]. *)
  Lemma combined_loop m (l : list (Verifier * body)) r :
    map_res (fun kv => let* x := ok_or (part_deser m (snd kv)) EE_Invalid in Ok (fst kv, x)) l = Ok r <->
    Forall2 (fun kv kx => fst kx = fst kv /\ contains_value m (snd kv) (snd kx)) l r.
  Proof.
    revert r. induction l as [|[u b] l IH]; intros r; cbn [map_res].
    - split; [intros H; injection H as <-; constructor|]. intros H. inversion H. reflexivity.
    - cbn [fst snd]. split.
      + intros H. apply bind_ok in H as (y & Hy & H). apply bind_ok in H as (ys & Hys & H). injection H as <-.
        apply bind_ok in Hy as (x & Hx & Hy). injection Hy as <-. constructor; [|now apply IH].
        split; [reflexivity|]. cbn [snd]. apply part_deser_value. destruct (part_deser m b); [|discriminate]. cbn in Hx. congruence.
      + intros H. inversion H as [|? [u' x] ? ys [E C] F]; subst. cbn [fst snd] in *. subst u'. apply part_deser_value in C. rewrite C. cbn [ok_or bind].
        apply IH in F. rewrite F. reflexivity.
  Qed.
  Lemma forall2_get (l : list (Verifier * body)) m r : Forall2 (fun kv kx => fst kx = fst kv /\ contains_value m (snd kv) (snd kx)) l r ->
    NoDup (map fst l) ->
    (forall u y, In (u, y) r -> exists b, In (u, b) l /\ contains_value m b y) /\
    (forall u b, In (u, b) l -> exists y, In (u, y) r) /\ NoDup (map fst r).
  Proof.
    induction 1 as [|[u b] [u' x] l r [E C] F IH]; intros D.
    - split; [intros ? ? []|]. split; [intros ? ? []|constructor].
    - cbn [fst snd] in *. subst u'. cbn [map fst] in D. inversion D as [|? ? D1 D2]; subst. destruct (IH D2) as (A1 & A2 & A3). split; [|split].
      + intros w y [H|H]; [injection H as <- <-; exists b; split; [now left|exact C]|]. destruct (A1 _ _ H) as (c & Hc & K). exists c. split; [now right|exact K].
      + intros w c [H|H]; [injection H as <- <-; exists x; now left|]. destruct (A2 _ _ H) as (y & Hy). exists y. now right.
      + cbn [map fst]. constructor; [|exact A3]. intros H. apply in_map_iff in H as ([w y] & E & H). cbn [fst] in E. subst w. destruct (A1 _ _ H) as (c & Hc & _).
        apply D1. apply in_map_iff. exists (u, c). auto.
  Qed.

  Lemma combined_ok m es n ys : combined_echos (P := P) m es n = Ok ys <-> exists c, get (rid_new n) (es_combined es) = Some c /\
    (forall u, get u ys = None <-> get u c = None) /\ forall u y, get u ys = Some y -> exists b, get u c = Some b /\ contains_value m b y.
  Proof.
    unfold combined_echos. split.
    - intros H. apply bind_ok in H as (c & Hc & H). apply bind_ok in H as (l & Hl & H). injection H as <-.
      exists c. split; [destruct (get (rid_new n) (es_combined es)); cbn in Hc; congruence|].
      apply combined_loop in Hl. destruct (@forall2_get _ m _ Hl (NoDup_keys c)) as (A1 & A2 & A3). split.
      + intros u. rewrite get_of_list_none. split; intros H.
        * destruct (get u c) as [b|] eqn:E; [|reflexivity]. exfalso. apply in_to_list in E. destruct (A2 _ _ E) as (y & Hy). apply H. apply in_map_iff. exists (u, y). auto.
        * intros K. apply in_map_iff in K as ([w y] & E & K). cbn [fst] in E. subst w. destruct (A1 _ _ K) as (b & Hb & _). apply in_to_list in Hb. congruence.
      + intros u y H. apply get_of_list_nodup in H; [|exact A3]. destruct (A1 _ _ H) as (b & Hb & C). exists b. split; [now apply in_to_list|exact C].
    - intros (c & Hc & H1 & H2). rewrite Hc. cbn [ok_or bind].
      assert (K : forall l, (forall u b, In (u, b) l -> get u c = Some b) -> exists r,
        map_res (fun kv => let* x := ok_or (part_deser m (snd kv)) EE_Invalid in Ok (fst kv, x)) l = Ok r /\
        Forall2 (fun kv kx => fst kx = fst kv /\ get (fst kx) ys = Some (snd kx)) l r).
      { induction l as [|[u b] l IH]; intros Hl; [exists []; split; [reflexivity|constructor]|].
        destruct IH as (r & Hr & F); [intros; apply Hl; now right|]. assert (Hb : get u c = Some b) by (apply Hl; now left).
        destruct (get u ys) as [y|] eqn:Ey; [|apply H1 in Ey; congruence]. destruct (H2 _ _ Ey) as (b' & Hb' & C). assert (b' = b) by congruence. subst b'.
        exists ((u, y) :: r). split; [|constructor; auto]. cbn [map_res fst snd]. apply part_deser_value in C. rewrite C. cbn [ok_or bind]. rewrite Hr. reflexivity. }
      destruct (K (to_list c)) as (r & Hr & F); [intros u b; apply in_to_list|]. rewrite Hr. cbn [bind]. f_equal. apply bmap_ext. intros u.
      assert (E : map fst r = map fst (to_list c)). { clear -F. induction F as [|x y l r [E _] F IH]; [reflexivity|]. cbn [map]. congruence. }
      destruct (get u (of_list r)) as [y|] eqn:Ey.
      + apply get_of_list_nodup in Ey; [|rewrite E; apply NoDup_keys]. clear -F Ey. induction F as [|x z l r [_ G] F IH]; [destruct Ey|].
        destruct Ey as [->|Ey]; [symmetry; exact G|now apply IH].
      + rewrite get_of_list_none, E in Ey. symmetry. apply H1. destruct (get u c) as [b|] eqn:Eb; [|reflexivity]. exfalso. apply Ey. apply in_map_iff.
        exists (u, b). split; [reflexivity|]. now apply in_to_list.
  Qed.

  (** ** The messages that the check of verified evidence sees *)
  Lemma accessors (T : TProto) ev (sd : Shared (wrap T)) e : verify_evidence (wrap T) ev sd = Ok tt -> ev_body ev = EvProtocol e ->
    exists sid rid k es, let v := ev_guilty ev in
      t_info T rid = Some k /\ check_accepts (t_err T k) rid (pe_error e) v sid sd es /\
      (forall m x, es_direct_message m es = Ok x <-> exists p, pe_direct e = Some p /\ signed_for v sid rid p /\ contains_value m (sp_body p) x) /\
      (forall m x, es_echo_broadcast m es = Ok x <-> exists p, pe_echo e = Some p /\ signed_for v sid rid p /\ contains_value m (sp_body p) x) /\
      (forall m x, es_normal_broadcast m es = Ok x <-> exists p, pe_normal e = Some p /\ signed_for v sid rid p /\ contains_value m (sp_body p) x) /\
      (forall m n x, previous_direct_message m es n = Ok x <->
         exists p, get (rid_new n) (pe_directs e) = Some p /\ signed_for v sid (rid_new n) p /\ contains_value m (sp_body p) x) /\
      (forall m n x, previous_echo_broadcast m es n = Ok x <->
         exists p, get (rid_new n) (pe_echos e) = Some p /\ signed_for v sid (rid_new n) p /\ contains_value m (sp_body p) x) /\
      (forall m n x, previous_normal_broadcast m es n = Ok x <->
         exists p, get (rid_new n) (pe_normals e) = Some p /\ signed_for v sid (rid_new n) p /\ contains_value m (sp_body p) x) /\
      (forall m n xs, combined_echos m es n = Ok xs ->
         exists p msg, get (rid_new n) (pe_hashes e) = Some p /\ signed_for v sid (mkRid n [] true) p /\ body_echo_msg (sp_body p) = Some msg /\
           (forall u, get u xs = None <-> get u msg = None) /\
           forall u x, get u xs = Some x -> exists h (q : SPart KEcho), get u msg = Some h /\ hash_signed u h /\ sh_meta h = mkMeta sid (rid_new n) /\
             signed_for u sid (rid_new n) q /\ sh_hash h = hash (content_bytes KEcho (sp_body q)) /\ contains_value m (sp_body q) x).
  Proof.
    intros H E. destruct (@verified_protocol P (wrap T) ev sd e H E) as
      (sid & rid & ri & comb & Hri & H1 & H2 & H3 & H4 & H5 & H6 & C0 & C1 & prev & Q0 & Q1 & Hv).
    cbn [round_info wrap] in Hri. destruct (t_info T rid) as [k|] eqn:Ek; [|discriminate]. cbn [option_map] in Hri. injection Hri as <-.
    cbn [w_info ri_verify] in Hv. set (es := mkEvMsgs _ prev comb) in Hv. exists sid, rid, k, es. cbv zeta. split; [exact Ek|].
    split. { unfold verify_error in Hv. unfold check_accepts. destruct (t_err T k) as [ds|E0 ser0 ds req ver]; [destruct (ds (pe_error e)); discriminate|].
      apply bind_ok in Hv as (x & Hx & Hv). exists x. split; [destruct (ds (pe_error e)); cbn in Hx; congruence|exact Hv]. }
    assert (G : forall kk (o : option (SPart kk)) m x r, (forall p, o = Some p -> part_signed (ev_guilty ev) p /\ sp_meta p = mkMeta sid r) ->
      (es_part m (option_map (@sp_body kk) o) = Ok x <-> exists p, o = Some p /\ signed_for (ev_guilty ev) sid r p /\ contains_value m (sp_body p) x)).
    { intros kk o m x r Hs. rewrite es_part_ok. split.
      - intros (b & Hb & C). destruct o as [p|]; [|discriminate]. injection Hb as <-. exists p. split; [reflexivity|]. split; [exact (Hs p eq_refl)|exact C].
      - intros (p & -> & _ & C). exists (sp_body p). auto. }
    assert (GP : forall kk (f : EvMsg -> option body) (mp : bmap RoundId (SPart kk)),
      (forall r p, get r mp = Some p -> part_signed (ev_guilty ev) p /\ sp_meta p = mkMeta sid r) ->
      (forall r em, get r prev = Some em -> f em = option_map (@sp_body kk) (get r mp)) -> (forall r, get r prev = None -> get r mp = None) ->
      forall m n x, es_prev f m es n = Ok x <-> exists p, get (rid_new n) mp = Some p /\ signed_for (ev_guilty ev) sid (rid_new n) p /\ contains_value m (sp_body p) x).
    { intros kk f mp Hs Hf Hn m n x. unfold es_prev. cbn [es_previous es]. destruct (get (rid_new n) prev) as [em|] eqn:Eem; cbn [ok_or bind].
      - rewrite (Hf _ _ Eem). apply G. intros p Hp. exact (Hs _ _ Hp).
      - split; [discriminate|]. intros (p & Hp & _). rewrite (Hn _ Eem) in Hp. discriminate. }
    split; [intros m x; exact (G _ (pe_direct e) m x rid H1)|]. split; [intros m x; exact (G _ (pe_echo e) m x rid H2)|].
    split; [intros m x; exact (G _ (pe_normal e) m x rid H3)|].
    split; [apply GP; [exact H4|intros r em Hr; apply (Q1 r em Hr)|intros r Hr; apply (Q0 r Hr)]|].
    split; [apply GP; [exact H5|intros r em Hr; apply (Q1 r em Hr)|intros r Hr; apply (Q0 r Hr)]|].
    split; [apply GP; [exact H6|intros r em Hr; apply (Q1 r em Hr)|intros r Hr; apply (Q0 r Hr)]|].
    intros m n xs Hx. apply combined_ok in Hx as (c & Hc & D1 & D2). cbn [es_combined es] in Hc.
    destruct (C1 _ _ Hc) as (p & msg & Hp & Hs & Hm & Hmsg & Hd & Hq). exists p, msg. split; [exact Hp|]. split; [split; [exact Hs|exact Hm]|]. split; [exact Hmsg|].
    split; [intros u; rewrite D1; apply Hd|]. intros u x Hu. destruct (D2 _ _ Hu) as (b & Hb & C). destruct (Hq _ _ Hb) as (h & q & J1 & J2 & J3 & J4 & J5 & J6 & ->).
    exists h, q. split; [exact J1|]. split; [exact J2|]. split; [exact J3|]. split; [split; [exact J4|exact J5]|]. split; [exact J6|exact C].
  Qed.

  (** ** Session ids made from seeds *)
  Lemma seeds_differ s s' : session_id_from_seed s = session_id_from_seed s' -> s = s' \/ collide (str "SessionId" ++ s) (str "SessionId" ++ s')%list.
  Proof.
    intros H. destruct (list_eq_dec N.eq_dec s s') as [->|N]; [now left|]. right. split; [|exact H]. intros E. apply app_inv_head in E. auto.
  Qed.
  Lemma seed_domains s : (forall k b, session_id_from_seed s = hash (content_bytes k b) -> collide (str "SessionId" ++ s)%list (content_bytes k b)) /\
    (forall mb h, session_id_from_seed s = hash (signed_bytes mb h) -> collide (str "SessionId" ++ s)%list (signed_bytes mb h)).
  Proof.
    split; intros; (split; [|assumption]).
    - intros E. discriminate E.
    - intros E. cbn in E. injection E as E. discriminate.
  Qed.
  Lemma seed_no_replay (Pr : Proto) seed seed' (d : DState Pr) (s' : Session Pr) a' g dest m art from r :
    reachable d -> s_id (d_s d) = session_id_from_seed seed -> s_id s' = session_id_from_seed seed' -> seed <> seed' ->
    make_message (d_s d) g dest = Ok (m, art) -> snd (preprocess_message s' a' from m) = Ok r ->
    (exists e, r = PreError e) \/ collide (str "SessionId" ++ seed) (str "SessionId" ++ seed')%list.
  Proof.
    intros Hre E E' N Hm Hp. destruct (list_eq_dec N.eq_dec (s_id (d_s d)) (s_id s')) as [K|K].
    - right. rewrite E, E' in K. destruct (seeds_differ _ _ K) as [F|F]; [contradiction|exact F].
    - left. eapply other_session_rejected; eauto.
  Qed.
End WithParams.

(** ** Round graphs *)
Lemma fold_sadd (l : list N) (s : bset RoundId) r :
  mem r (fold_left (fun s n => sadd (rid_new n) s) l s) = true <-> mem r s = true \/ exists n, In n l /\ r = rid_new n.
Proof.
  revert s. induction l as [|n l IH]; intros s; cbn [fold_left].
  - split; [auto|]. intros [H|(n & [] & _)]. exact H.
  - rewrite IH, mem_add, orb_true_iff, eqb_eq. split.
    + intros [[H|H]|(k & H & E)]; [right; exists n; split; [now left|exact H]|auto|right; exists k; split; [now right|exact E]].
    + intros [H|(k & [<-|H] & E)]; [auto|auto|right; eauto].
Qed.
Lemma with_children_ok t nums : (forall r, mem r (ti_children (with_children t nums)) = true <-> mem r (ti_children t) = true \/ exists n, mem n nums = true /\ r = rid_new n) /\
  ti_id (with_children t nums) = ti_id t /\ ti_parents (with_children t nums) = ti_parents t /\ ti_siblings (with_children t nums) = ti_siblings t /\
  ti_result (with_children t nums) = ti_result t.
Proof.
  split; [|auto]. intros r. cbn [with_children ti_children]. rewrite fold_sadd. split; (intros [H|(n & H & E)]; [auto|right; exists n; split; [|exact E]]); now apply in_elements.
Qed.
Lemma with_siblings_ok t nums : (forall r, mem r (ti_siblings (with_siblings t nums)) = true <-> mem r (ti_siblings t) = true \/ exists n, mem n nums = true /\ r = rid_new n) /\
  ti_id (with_siblings t nums) = ti_id t /\ ti_parents (with_siblings t nums) = ti_parents t /\ ti_children (with_siblings t nums) = ti_children t /\
  ti_result (with_siblings t nums) = ti_result t.
Proof.
  split; [|auto]. intros r. cbn [with_siblings ti_siblings]. rewrite fold_sadd. split; (intros [H|(n & H & E)]; [auto|right; exists n; split; [|exact E]]); now apply in_elements.
Qed.
