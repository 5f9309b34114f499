(** Facts about signed messages. *)
From Coq Require Import List NArith Bool Ascii String.
From Verif Require Import Base BMap Errors RoundId Message Protocol Transcript Evidence Session Spec.
Import ListNotations.
Set Implicit Arguments.

Section WithParams.
  Context {P : Params}.

  Lemma content_hash_eq k b : content_hash k b = part_hash k b.
  Proof. destruct k, b; reflexivity. Qed.

  Lemma check_sig_cases v m h gb :
    match check_sig v (message_digest m h) gb with
    | Ok _ => signs v m h gb
    | Err (MV_Local e) => ser_meta m = None /\ e = LE_Serialize
    | Err MV_InvalidSignature => ser_meta m <> None /\ deser_sig gb = None
    | Err MV_SignatureMismatch => ser_meta m <> None /\ ~ signs v m h gb
    | Panic => False
    end.
  Proof.
    unfold check_sig, message_digest. destruct (ser_meta m) as [mb|] eqn:Em; simpl; auto.
    destruct (deser_sig gb) as [g|] eqn:Eg; simpl.
    - destruct (verify_sig v _ g) eqn:Ev; simpl.
      + exists mb, g. auto.
      + split; [congruence|]. intros (mb' & g' & H1 & H2 & H3).
        assert (mb' = mb) by congruence; assert (g' = g) by congruence; subst. unfold digest_preimage in Ev. congruence.
    - split; [discriminate|reflexivity].
  Qed.

  Lemma check_sig_ok v m h gb : check_sig v (message_digest m h) gb = Ok tt <-> signs v m h gb.
  Proof.
    pose proof (check_sig_cases v m h gb) as H.
    split; intros H1.
    - rewrite H1 in H. exact H.
    - destruct (check_sig v (message_digest m h) gb) as [[]|[e| |]|]; auto; exfalso; auto.
      + destruct H1 as (mb & g & Hm & _). destruct H. congruence.
      + destruct H1 as (mb & g & Hm & Hg & _). destruct H. congruence.
      + destruct H; auto.
  Qed.

  Lemma part_signed_eq {k} v (p : SPart k) : part_signed v p <-> signs v (sp_meta p) (part_hash k (sp_body p)) (sp_sig p).
  Proof. unfold part_signed. destruct k, (sp_body p); reflexivity. Qed.

  Lemma verify_part_ok {k} v (p p' : SPart k) : verify_part v p = Ok p' <-> p' = p /\ part_signed v p.
  Proof.
    rewrite part_signed_eq. unfold verify_part, part_digest. split.
    - intros H. apply bind_ok in H as ([] & H1 & H2). inv H2. split; auto. now apply check_sig_ok.
    - intros [-> H]. apply check_sig_ok in H. rewrite H. reflexivity.
  Qed.

  Lemma verify_part_cases {k} v (p : SPart k) :
    match verify_part v p with
    | Ok p' => p' = p /\ part_signed v p
    | Err (MV_Local e) => ser_meta (sp_meta p) = None /\ e = LE_Serialize
    | Err MV_InvalidSignature => ser_meta (sp_meta p) <> None /\ deser_sig (sp_sig p) = None
    | Err MV_SignatureMismatch => ser_meta (sp_meta p) <> None /\ ~ part_signed v p
    | Panic => False
    end.
  Proof.
    unfold verify_part, part_digest.
    pose proof (check_sig_cases v (sp_meta p) (part_hash k (sp_body p)) (sp_sig p)) as H.
    destruct (check_sig v _ _) as [[]|[]|]; simpl; rewrite ?part_signed_eq; auto.
  Qed.

  Lemma verify_shash_ok v h h' : verify_shash v h = Ok h' <-> h' = h /\ hash_signed v h.
  Proof.
    unfold verify_shash, hash_signed. split.
    - intros H. apply bind_ok in H as ([] & H1 & H2). inv H2. split; auto. now apply check_sig_ok.
    - intros [-> H]. apply check_sig_ok in H. rewrite H. reflexivity.
  Qed.

  Lemma verify_shash_cases v h :
    match verify_shash v h with
    | Ok h' => h' = h /\ hash_signed v h
    | Err (MV_Local e) => ser_meta (sh_meta h) = None /\ e = LE_Serialize
    | Err MV_InvalidSignature => ser_meta (sh_meta h) <> None /\ deser_sig (sh_sig h) = None
    | Err MV_SignatureMismatch => ser_meta (sh_meta h) <> None /\ ~ hash_signed v h
    | Panic => False
    end.
  Proof.
    unfold verify_shash, hash_signed.
    pose proof (check_sig_cases v (sh_meta h) (sh_hash h) (sh_sig h)) as H.
    destruct (check_sig v _ _) as [[]|[]|]; simpl; auto.
  Qed.

  Lemma shash_signed {k} v (p : SPart k) : hash_signed v (to_signed_hash p) <-> part_signed v p.
  Proof. rewrite part_signed_eq. reflexivity. Qed.

  Lemma signs_not_local v m h gb : signs v m h gb -> ser_meta m <> None.
  Proof. intros (mb & g & H & _). congruence. Qed.

  Lemma unify_metadata_ok m cm : unify_metadata m = Some cm <->
    sp_meta (msg_echo m) = sp_meta (msg_direct m) /\ sp_meta (msg_normal m) = sp_meta (msg_direct m) /\
    cm = mkCMessage (sp_meta (msg_direct m)) (msg_direct m) (msg_echo m) (msg_normal m).
  Proof.
    unfold unify_metadata.
    destruct (meta_eqb (sp_meta (msg_echo m)) _) eqn:E1; simpl;
      [apply meta_eqb_spec in E1|apply meta_eqb_false in E1].
    - destruct (meta_eqb (sp_meta (msg_normal m)) _) eqn:E2; simpl;
        [apply meta_eqb_spec in E2|apply meta_eqb_false in E2].
      + split; [intros H; inv H; auto | intros (_ & _ & ->); auto].
      + split; [discriminate | intros (_ & H & _); congruence].
    - split; [discriminate | intros (H & _); congruence].
  Qed.

  Lemma verify_message_ok v cm vm : verify_message v cm = Ok vm <->
    vm = mkVMessage v (cm_meta cm) (cm_direct cm) (cm_echo cm) (cm_normal cm) /\
    part_signed v (cm_direct cm) /\ part_signed v (cm_echo cm) /\ part_signed v (cm_normal cm).
  Proof.
    unfold verify_message. split.
    - intros H. apply bind_ok in H as (d & H1 & H). apply bind_ok in H as (e & H2 & H).
      apply bind_ok in H as (n & H3 & H). inv H.
      apply verify_part_ok in H1 as [-> ?], H2 as [-> ?], H3 as [-> ?]. auto.
    - intros (-> & H1 & H2 & H3).
      assert (E1 := proj2 (verify_part_ok v (cm_direct cm) _) (conj eq_refl H1)).
      assert (E2 := proj2 (verify_part_ok v (cm_echo cm) _) (conj eq_refl H2)).
      assert (E3 := proj2 (verify_part_ok v (cm_normal cm) _) (conj eq_refl H3)).
      rewrite E1; simpl. rewrite E2; simpl. rewrite E3; reflexivity.
  Qed.

  Lemma verify_message_cases v cm :
    match verify_message v cm with
    | Ok _ => True
    | Err (MV_Local e) => ser_meta (sp_meta (cm_direct cm)) = None \/ ser_meta (sp_meta (cm_echo cm)) = None \/
                          ser_meta (sp_meta (cm_normal cm)) = None
    | Err _ => ~ (part_signed v (cm_direct cm) /\ part_signed v (cm_echo cm) /\ part_signed v (cm_normal cm))
    | Panic => False
    end.
  Proof.
    destruct (verify_message v cm) as [vm|e|] eqn:E; auto.
    - assert (Hn : ~ (part_signed v (cm_direct cm) /\ part_signed v (cm_echo cm) /\ part_signed v (cm_normal cm))).
      { intros H. assert (E' := proj2 (verify_message_ok v cm _) (conj eq_refl H)). congruence. }
      destruct e; auto. unfold verify_message in E.
      pose proof (verify_part_cases v (cm_direct cm)) as H1. pose proof (verify_part_cases v (cm_echo cm)) as H2.
      pose proof (verify_part_cases v (cm_normal cm)) as H3.
      destruct (verify_part v (cm_direct cm)) as [|[]|]; simpl in E; try discriminate; [|inv E; tauto].
      destruct (verify_part v (cm_echo cm)) as [|[]|]; simpl in E; try discriminate; [|inv E; tauto].
      destruct (verify_part v (cm_normal cm)) as [|[]|]; simpl in E; try discriminate; inv E; tauto.
    - unfold verify_message in E.
      pose proof (verify_part_cases v (cm_direct cm)) as H1. pose proof (verify_part_cases v (cm_echo cm)) as H2.
      pose proof (verify_part_cases v (cm_normal cm)) as H3.
      destruct (verify_part v (cm_direct cm)) as [|[]|]; simpl in E; try discriminate; auto.
      destruct (verify_part v (cm_echo cm)) as [|[]|]; simpl in E; try discriminate; auto.
      destruct (verify_part v (cm_normal cm)) as [|[]|]; simpl in E; try discriminate; auto.
  Qed.

  Lemma sign_part_ok k r s sid rid b p : sign_part k r s sid rid b = Ok p ->
    sp_meta p = mkMeta sid rid /\ sp_body p = b /\
    exists mb g, ser_meta (mkMeta sid rid) = Some mb /\
      sign r s (hash (digest_preimage mb (part_hash k b))) = Some g /\ ser_sig g = Some (sp_sig p).
  Proof.
    unfold sign_part, part_digest, message_digest. intros H.
    apply bind_ok in H as (d & H1 & H). apply bind_ok in H as (g & H2 & H). apply bind_ok in H as (gb & H3 & H). inv H.
    apply bind_ok in H1 as (mb & H1 & H4). inv H4. simpl. split; auto. split; auto.
    destruct (ser_meta _) eqn:Em; simpl in H1; inv H1.
    destruct (sign _ _ _) eqn:Es; simpl in H2; inv H2.
    destruct (ser_sig _) eqn:Eg; simpl in H3; inv H3. eauto.
  Qed.

  Lemma sign_part_no_panic k r s sid rid b : sign_part k r s sid rid b <> Panic.
  Proof.
    unfold sign_part, part_digest, message_digest.
    destruct (ser_meta _); simpl; try discriminate. destruct (sign _ _ _); simpl; try discriminate.
    destruct (ser_sig _); simpl; discriminate.
  Qed.
End WithParams.
