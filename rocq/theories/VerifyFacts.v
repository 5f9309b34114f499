(** Evidence verifies exactly if it shows guilt (C130). *)
From Coq Require Import List NArith Bool.
From Verif Require Import Base BMap Errors RoundId Message Protocol Transcript Evidence Session Spec SpecCrypto SpecEvidence SpecVerify
  MessageFacts SessionFacts RunFacts IntakeFacts RoundFacts FinalizeFacts HistoryFacts SignFacts IdFacts EchoFacts EvidenceFacts GuiltFacts.
Import ListNotations.
Set Implicit Arguments.

Section WithParams.
  Context {P : Params} (Pr : Proto).

  Lemma is_hash_iff (h : SHash) (q : SPart KEcho) : is_hash_of h q = true <-> sh_hash h = hash (content_bytes KEcho (sp_body q)).
  Proof.
    unfold is_hash_of. rewrite bytes_eqb_spec, <- content_hash_eq, <- content_hash_bytes. split; congruence.
  Qed.

  Lemma mismatched_iff g w h : verify_mismatched g w h = Ok tt <-> shows_equivocation g w h.
  Proof.
    unfold verify_mismatched, shows_equivocation. split.
    - intros H. apply bind_ok in H as (q & Hq & H). apply map_err_ok, verify_part_ok in Hq as [-> Hq].
      apply bind_ok in H as (h' & Hh & H). apply map_err_ok, verify_shash_ok in Hh as [-> Hh].
      destruct (meta_eqb (sp_meta w) (sh_meta h)) eqn:Em; [|discriminate]. apply meta_eqb_spec in Em.
      destruct (is_hash_of h w) eqn:Ei; [discriminate|]. repeat (split; auto). intros E. apply is_hash_iff in E. congruence.
    - intros (H1 & H2 & H3 & H4). rewrite (proj2 (verify_part_ok _ w _) (conj eq_refl H1)). cbn [map_err bind].
      rewrite (proj2 (verify_shash_ok _ h _) (conj eq_refl H2)). cbn [map_err bind].
      rewrite (proj2 (meta_eqb_spec _ _) H3). destruct (is_hash_of h w) eqn:Ei; [|reflexivity]. apply is_hash_iff in Ei. contradiction.
  Qed.

  Lemma bad_echo_iff v p u : verify_invalid_echo v p u = Ok tt <-> shows_bad_echo v p u.
  Proof.
    unfold verify_invalid_echo, shows_bad_echo. split.
    - intros H. apply bind_ok in H as (q & Hq & H). apply map_err_ok, verify_part_ok in Hq as [-> Hq]. split; auto.
      apply bind_ok in H as (msg & Hm & H). destruct (body_echo_msg (sp_body p)) as [msg'|]; inv Hm. unfold verify_invalid_echo_error in H.
      apply bind_ok in H as (h & Hh & H). destruct (get u msg) as [h'|] eqn:Eh; inv Hh. exists msg, h. split; auto. split; auto.
      pose proof (verify_shash_cases u h) as Hc. destruct (verify_shash u h) as [vh|[]|] eqn:Ev; try discriminate.
      + destruct Hc as [-> Hs]. destruct (meta_eqb (sh_meta h) (sp_meta p)) eqn:Em; [discriminate|]. apply meta_eqb_false in Em.
        split; auto. eapply signs_not_local. exact Hs.
      + destruct Hc as [Hc _]. split; auto. left. intros Hs. pose proof (proj2 (verify_shash_ok u h h) (conj eq_refl Hs)). congruence.
      + destruct Hc. auto.
    - intros (H1 & msg & h & H2 & H3 & H4 & H5). rewrite (proj2 (verify_part_ok _ p _) (conj eq_refl H1)). cbn [map_err bind].
      rewrite H2. cbn [ok_or bind]. unfold verify_invalid_echo_error. rewrite H3. cbn [ok_or bind].
      pose proof (verify_shash_cases u h) as Hc. destruct (verify_shash u h) as [vh|[]|] eqn:Ev; try tauto.
      destruct Hc as [-> Hs]. destruct (meta_eqb (sh_meta h) (sp_meta p)) eqn:Em; [|reflexivity]. apply meta_eqb_spec in Em. tauto.
  Qed.

  Lemma malformed_iff {k} f (F : body -> Prop) (g : RInfo (Shared Pr) -> body -> res EvidenceError unit) v (p : SPart k) :
    (forall b, f b = Ok tt <-> F b) -> verify_invalid_part Pr f g v p = Ok tt <-> shows_malformed Pr F g v p.
  Proof.
    intros HF. unfold verify_invalid_part, shows_malformed. split.
    - intros H. apply bind_ok in H as (q & Hq & H). apply map_err_ok, verify_part_ok in Hq as [-> Hq]. split; auto.
      destruct (rid_echo _); [now apply HF|]. apply bind_ok in H as (ri & Hri & H). destruct (round_info Pr _); inv Hri. eauto.
    - intros [H1 H2]. rewrite (proj2 (verify_part_ok _ p _) (conj eq_refl H1)). cbn [map_err bind].
      destruct (rid_echo _); [now apply HF|]. destruct H2 as (ri & -> & H2). exact H2.
  Qed.

  Lemma some_iff b : verify_is_some b = Ok tt <-> b <> None.
  Proof. destruct b; cbv [verify_is_some is_none]; split; intros H; try discriminate; try reflexivity. exfalso. apply H. reflexivity. Qed.
  Lemma normal_iff b : echo_normal_invalid b = Ok tt <-> body_echo_msg b = None.
  Proof. unfold echo_normal_invalid. destruct (body_echo_msg b); split; congruence. Qed.

  Lemma confirmed_iff v sid others r p bodies : hashes_fit v sid others r p bodies <-> confirmed v sid others r p bodies.
  Proof.
    unfold hashes_fit, confirmed, fits, made_by. split.
    - intros (H1 & H2 & msg & signed & H3 & H4 & H5 & H6). split; auto. split; auto. exists msg, signed. repeat (split; auto).
      intros u h Hu. destruct (H5 _ _ Hu) as (q & (Q1 & Q2 & Q3 & Q4 & Q5) & Q6). exists q. apply is_hash_iff in Q5. auto 10.
    - intros (H1 & H2 & msg & signed & H3 & H4 & H5 & H6). split; auto. split; auto. exists msg, signed. repeat (split; auto).
      intros u h Hu. destruct (H6 _ _ Hu) as (q & Q1 & Q2 & Q3 & Q4 & Q5 & Q6). exists q. apply is_hash_iff in Q5. unfold echoed_fits, fits. auto 10.
  Qed.

  Lemma protocol_iff v e (sd : Shared Pr) : verify_protocol Pr v e sd = Ok tt <-> shows_protocol_error Pr v e sd.
  Proof.
    split.
    - intros H. apply verify_protocol_ok in H as (sid & rid & ri & comb & Ht & Hri & H1 & H2 & H3 & H4 & H5 & H6 & H7 & H8).
      apply verify_echo_hashes_ok in H7 as [G1 G2]. exists sid, rid, ri. eexists. exists comb.
      split; [unfold trigger_meta in Ht; destruct (pe_direct e), (pe_echo e), (pe_normal e); try discriminate; auto; try (left; discriminate); right; try (left; discriminate); right; discriminate|].
      split; auto. do 7 (split; [auto|]). split.
      { intros r p Hp. destruct (G1 _ _ Hp) as (b & Hb & Hc). exists b. split; auto. now apply confirmed_iff. }
      split; [|split; [|exact H8]].
      + intros r. rewrite get_merge_parts. unfold contains. rewrite !get_map_values.
        destruct (get r (pe_echos e)), (get r (pe_normals e)), (get r (pe_directs e)); simpl; split; try discriminate; intuition discriminate.
      + intros r em Hr. rewrite get_merge_parts in Hr. destruct (_ || _)%bool; inv Hr.
        cbn [em_direct em_normal em_echo]. rewrite !get_map_values. auto.
    - intros (sid & rid & ri & prev & comb & H0 & Hri & H1 & H2 & H3 & H4 & H5 & H6 & H7 & H8 & H9 & H10 & H).
      assert (Ht : trigger_meta e = Some (mkMeta sid rid)).
      { unfold trigger_meta. destruct (pe_direct e) as [p|]; [now rewrite (proj2 (H1 p eq_refl))|].
        destruct (pe_echo e) as [p|]; [now rewrite (proj2 (H2 p eq_refl))|].
        destruct (pe_normal e) as [p|]; [now rewrite (proj2 (H3 p eq_refl))|]. tauto. }
      assert (Hp : prev = merge_parts (map_values (@sp_body _) (pe_echos e)) (map_values (@sp_body _) (pe_normals e)) (map_values (@sp_body _) (pe_directs e))).
      { apply bmap_ext. intros r. rewrite get_merge_parts. unfold contains. rewrite !get_map_values. pose proof (H9 r) as G9. pose proof (H10 r) as G10.
        destruct (get r prev) as [em|].
        - destruct (G10 em eq_refl) as (E1 & E2 & E3). destruct em as [a b c]; cbn [em_direct em_normal em_echo] in E1, E2, E3. subst.
          destruct (get r (pe_echos e)), (get r (pe_normals e)), (get r (pe_directs e)); try reflexivity.
          exfalso. assert (Some (mkEvMsg (option_map (@sp_body KDirect) None) (option_map (@sp_body KNormal) None) (option_map (@sp_body KEcho) None)) = None) by (apply G9; auto). discriminate.
        - destruct (proj1 G9 eq_refl) as (E1 & E2 & E3). now rewrite E1, E2, E3. }
      subst prev. unfold verify_protocol. rewrite Ht. cbn [ok_or bind m_session m_round].
      rewrite (proj2 (verify_message_part_ok v sid rid (pe_direct e) _) (conj H1 eq_refl)). cbn [bind].
      rewrite (proj2 (verify_message_part_ok v sid rid (pe_echo e) _) (conj H2 eq_refl)). cbn [bind].
      rewrite (proj2 (verify_message_part_ok v sid rid (pe_normal e) _) (conj H3 eq_refl)). cbn [bind].
      rewrite (proj2 (verify_message_parts_ok v sid (pe_directs e) _) (conj H4 eq_refl)). cbn [bind].
      rewrite (proj2 (verify_message_parts_ok v sid (pe_echos e) _) (conj H5 eq_refl)). cbn [bind].
      rewrite (proj2 (verify_message_parts_ok v sid (pe_normals e) _) (conj H6 eq_refl)). cbn [bind].
      rewrite (proj2 (verify_echo_hashes_ok v sid (pe_others e) (pe_hashes e) comb)); [cbn [bind]; rewrite Hri; exact H|].
      split; auto. intros r p Hr. destruct (H8 _ _ Hr) as (b & Hb & Hc). exists b. split; auto. now apply confirmed_iff.
  Qed.

  Lemma verifies_iff ev (sd : Shared Pr) : verify_evidence Pr ev sd = Ok tt <-> shows_guilt Pr ev sd.
  Proof.
    unfold verify_evidence, shows_guilt. destruct (ev_body ev) as [e|p|p|p|p u|g w h].
    - apply protocol_iff.
    - apply malformed_iff. exact some_iff.
    - apply malformed_iff. exact some_iff.
    - apply malformed_iff. exact normal_iff.
    - apply bad_echo_iff.
    - apply mismatched_iff.
  Qed.

  (** Recorded evidence of an invalid echo: exactly when it does not verify. *)
  Lemma invalid_echo_exact (d : DState Pr) v ev p u sd : no_echo_errors Pr -> reachable d -> has_evidence d v ev ->
    ev_body ev = EvInvalidEcho p u ->
    (exists msg h, body_echo_msg (sp_body p) = Some msg /\ get u msg = Some h /\ hash_signed u h /\ sh_meta h = sp_meta p) /\
      verify_evidence Pr ev sd = Err EE_Invalid \/
    (forall msg h, body_echo_msg (sp_body p) = Some msg -> get u msg = Some h -> ~ (hash_signed u h /\ sh_meta h = sp_meta p)) /\
      verify_evidence Pr ev sd = Ok tt.
  Proof.
    intros Hno Hre Hev Hb. destruct (@invalid_echo_verifies _ _ d v ev p u sd Hno Hre Hev Hb) as (Hg & msg & h & Hm & Hu & H1 & H2 & [[H3 H4]|H3]).
    - left. split; [eauto 10|]. destruct (@echo_evidence_origin _ _ _ _ _ Hno Hre Hev) as
        (d1 & vm & echos & info & st & ps & arts & msg1 & u' & h1 & Hre1 & _ & Hf & Hau & Hst & Hg' & Hmsg & Hu' & [[Hck ->]|(q & Hq & Hm' & Hs & Hn & ->)]); [now rewrite Hb| |discriminate].
      cbn [new_echo_round_error ev_body] in Hb. inv Hb. destruct Hau as (_ & _ & S3 & _).
      unfold verify_evidence. cbn [ev_body ev_guilty new_echo_round_error]. unfold verify_invalid_echo.
      rewrite (proj2 (verify_part_ok _ (vm_normal vm) _) (conj eq_refl S3)). cbn [map_err bind]. rewrite Hm. cbn [ok_or bind].
      unfold verify_invalid_echo_error. rewrite Hu. cbn [ok_or bind]. rewrite (proj2 (verify_shash_ok u h h) (conj eq_refl H3)).
      now rewrite (proj2 (meta_eqb_spec _ _) H4).
    - right. split; auto. intros msg' h' Hm' Hu' [G1 G2]. assert (msg' = msg) by congruence. subst msg'. assert (h' = h) by congruence. subst h'.
      pose proof H3 as V. unfold verify_evidence in V. rewrite Hb in V. apply bad_echo_iff in V as (_ & m2 & h2 & V1 & V2 & _ & V3).
      assert (m2 = msg) by congruence. subst m2. assert (h2 = h) by congruence. subst h2. tauto.
  Qed.

  (** ** C29 *)
  Lemma hash_signed_dec u (h : SHash) : hash_signed u h \/ ~ hash_signed u h.
  Proof.
    destruct (verify_shash u h) as [h'|e|] eqn:E.
    - apply verify_shash_ok in E as [-> E]. now left.
    - right. intros H. pose proof (proj2 (verify_shash_ok u h h) (conj eq_refl H)) as H'. congruence.
    - right. intros H. pose proof (proj2 (verify_shash_ok u h h) (conj eq_refl H)) as H'. congruence.
  Qed.
  Lemma honest_framed_iff (d : DState Pr) g dest m art u sd : echo_codec P -> signatures_correct P -> reachable d ->
    mem dest (message_destinations (d_s d)) = true -> make_message (d_s d) g dest = Ok (m, art) ->
    (verify_evidence Pr (mkEvidence (s_verifier (d_s d)) (EvInvalidEcho (msg_normal m) u)) sd = Ok tt <->
     exists msg h, body_echo_msg (sp_body (msg_normal m)) = Some msg /\ get u msg = Some h /\
       (in_echo_round (d_s d) \/
        ser_meta (sh_meta h) <> None /\ ~ (hash_signed u h /\ sh_meta h = mkMeta (s_id (d_s d)) (s_round_id (d_s d))))).
  Proof.
    intros Hcod Hsig Hre Hd Hm. destruct (@made_message _ _ _ _ _ _ _ Hre Hsig Hm) as ((_ & _ & S3 & _ & _ & M3) & _). split.
    - intros H. unfold verify_evidence in H. cbn [ev_body ev_guilty] in H. apply bad_echo_iff in H as (_ & msg & h & H1 & H2 & H3 & H4).
      exists msg, h. split; auto. split; auto. right. split; auto. rewrite M3 in H4. tauto.
    - intros (msg & h & H1 & H2 & [He|[H3 H4]]).
      + apply (@every_echo_frames _ _ d g dest m art msg u sd); auto. apply contains_get. eauto.
      + unfold verify_evidence. cbn [ev_body ev_guilty]. apply bad_echo_iff. split; auto. exists msg, h. repeat (split; auto). rewrite M3.
        destruct (hash_signed_dec u h); [right|left]; tauto.
  Qed.
End WithParams.
