(** Lemmas for C128. *)
From Coq Require Import List NArith Bool.
From Verif Require Import Base BMap Errors RoundId Message Protocol Transcript Evidence Session Typed Spec SpecTyped TypedFacts SpecWrap.
Import ListNotations.
Set Implicit Arguments.

Lemma part_is_receive m b x : part_is m b x <-> part_receive m b = Some x.
Proof.
  destruct m as [|T ser deser]; cbn.
  - destruct x. destruct b; cbn; split; congruence.
  - destruct b as [c|]; split.
    + intros (c' & E & H). now inversion E; subst.
    + eauto.
    + intros (c' & E & H). discriminate.
    + discriminate.
Qed.
Lemma no_part_receive m b : no_part m b <-> part_receive m b = None.
Proof.
  split.
  - intros H. destruct (part_receive m b) as [x|] eqn:E; auto. apply part_is_receive in E. now apply H in E.
  - intros H x E. apply part_is_receive in E. congruence.
Qed.
Lemma made_of_new m x b : made_of m x b <-> part_new m x = Ok b.
Proof.
  destruct m as [|T ser deser]; cbn.
  - split; [intros ->; reflexivity|intros E; now inversion E].
  - destruct (ser x) as [c|]; cbn; split.
    + intros (c' & -> & E). inversion E. reflexivity.
    + intros E. inversion E. eauto.
    + intros (c' & _ & E). discriminate.
    + discriminate.
Qed.
Section Wrap.
  Context {P : Params}.
  Context {T : TProto}.

  Lemma receive_wrapped k (x : tst T k) from m :
    (no_part (t_direct T k) (dm_direct m) -> receive (wrap T) (box T k x) from m = Err RDirect) /\
    (forall d, part_is (t_direct T k) (dm_direct m) d ->
      (no_part (t_echo T k) (dm_echo m) -> receive (wrap T) (box T k x) from m = Err REchoB) /\
      (forall e, part_is (t_echo T k) (dm_echo m) e ->
        (no_part (t_normal T k) (dm_normal m) -> receive (wrap T) (box T k x) from m = Err RNormal) /\
        (forall n, part_is (t_normal T k) (dm_normal m) n ->
          passed_on x (t_receive T k x from d e n) (receive (wrap T) (box T k x) from m)))).
  Proof.
    cbn [receive wrap w_receive box]. split.
    { intros H. apply no_part_receive in H. now rewrite H. }
    intros d Hd. apply part_is_receive in Hd. rewrite Hd. cbn [ok_or bind]. split.
    { intros H. apply no_part_receive in H. now rewrite H. }
    intros e He. apply part_is_receive in He. rewrite He. cbn [ok_or bind]. split.
    { intros H. apply no_part_receive in H. now rewrite H. }
    intros n Hn. apply part_is_receive in Hn. rewrite Hn. cbn [ok_or bind].
    destruct (t_receive T k x from d e n) as [p|[le|pe|ue]|]; cbn [map_err bind passed_on box_recv]; try reflexivity.
    eexists. split; [reflexivity|]. destruct (t_err T k); cbn in *; [destruct pe|auto].
  Qed.

  Lemma send_wrapped k (x : tst T k) g dest :
    (forall m a b, typed_direct T k x g dest = Ok (m, a) -> (made_of (t_direct T k) m b <-> mk_direct (wrap T) (box T k x) g dest = Ok (b, artf a))) /\
    (forall e, typed_direct T k x g dest = Err e -> mk_direct (wrap T) (box T k x) g dest = Err e) /\
    (forall m b, typed_echo T k x g = Ok m -> (made_of (t_echo T k) m b <-> mk_echo (wrap T) (box T k x) g = Ok b)) /\
    (forall e, typed_echo T k x g = Err e -> mk_echo (wrap T) (box T k x) g = Err e) /\
    (forall m b, typed_normal T k x g = Ok m -> (made_of (t_normal T k) m b <-> mk_normal (wrap T) (box T k x) g = Ok b)) /\
    (forall e, typed_normal T k x g = Err e -> mk_normal (wrap T) (box T k x) g = Err e).
  Proof.
    cbn [mk_direct mk_echo mk_normal wrap w_direct w_echo w_normal box]. repeat split.
    - rewrite H. cbn. intros M. apply made_of_new in M. now rewrite M.
    - rewrite H. cbn. intros M. apply made_of_new. destruct (part_new (t_direct T k) m) as [b'| |]; cbn in M; try discriminate. congruence.
    - intros e H. now rewrite H.
    - rewrite H. cbn. intros M. apply made_of_new in M. now rewrite M.
    - rewrite H. cbn. intros M. now apply made_of_new.
    - intros e H. now rewrite H.
    - rewrite H. cbn. intros M. apply made_of_new in M. now rewrite M.
    - rewrite H. cbn. intros M. now apply made_of_new.
    - intros e H. now rewrite H.
  Qed.

  Lemma defaults k (x : tst T k) g dest :
    (t_mk_direct T k = None ->
       (t_direct T k <> NoMsg -> typed_direct T k x g dest = Err LE_NotImplemented) /\
       (t_direct T k = NoMsg -> t_art T k <> noart T -> typed_direct T k x g dest = Err LE_NotImplemented) /\
       (t_direct T k = NoMsg -> t_art T k = noart T -> mk_direct (wrap T) (box T k x) g dest = Ok (None, existT _ (noart T) (noart_val T)))) /\
    (t_mk_echo T k = None ->
       (t_echo T k <> NoMsg -> typed_echo T k x g = Err LE_NotImplemented) /\ (t_echo T k = NoMsg -> mk_echo (wrap T) (box T k x) g = Ok None)) /\
    (t_mk_normal T k = None ->
       (t_normal T k <> NoMsg -> typed_normal T k x g = Err LE_NotImplemented) /\ (t_normal T k = NoMsg -> mk_normal (wrap T) (box T k x) g = Ok None)).
  Proof.
    cbn [mk_direct mk_echo mk_normal wrap w_direct w_echo w_normal box]. unfold typed_direct, typed_echo, typed_normal. repeat split; rewrite H; clear H.
    - intros N. destruct (t_direct T k); [contradiction|]. reflexivity.
    - intros N A. destruct (t_direct T k); [|discriminate]. cbn. destruct (ty_dec T (noart T) (t_art T k)) as [E|E]; [congruence|reflexivity].
    - intros N A. destruct (t_direct T k); [|discriminate]. cbn. destruct (ty_dec T (noart T) (t_art T k)) as [E|E]; [|congruence].
      cbn. clear A. revert E. generalize (t_art T k). intros t E. now destruct E.
    - intros N. destruct (t_echo T k); [contradiction|]. reflexivity.
    - intros N. destruct (t_echo T k); [|discriminate]. reflexivity.
    - intros N. destruct (t_normal T k); [contradiction|]. reflexivity.
    - intros N. destruct (t_normal T k); [|discriminate]. reflexivity.
  Qed.
  Lemma session_wrapped (s : Session (wrap T)) (a : Accum (wrap T)) (m : VMessage) k (x : tst T k) d e n :
    s_round s = RMain (box T k x : St (wrap T)) -> contains (vm_from m) (a_payloads a) = false -> mem (vm_from m) (a_waiting a) = true ->
    part_is (t_direct T k) (sp_body (vm_direct m)) d -> part_is (t_echo T k) (sp_body (vm_echo m)) e -> part_is (t_normal T k) (sp_body (vm_normal m)) n ->
    let (a', o) := add_processed s a (process_message s m) in
    match t_receive T k x (vm_from m) d e n with
    | Ok p => o = Ok tt /\ get (vm_from m) (a_payloads a') = Some (PVal (pay p : Payload (wrap T))) /\ a_unprovable a' = a_unprovable a /\ a_provable a' = a_provable a
    | Err (TUnprovable r) => o = Ok tt /\ get (vm_from m) (a_unprovable a') = Some r /\ a_payloads a' = a_payloads a /\ a_provable a' = a_provable a
    | Err (TLocal r) => o = Err r /\ a_payloads a' = a_payloads a /\ a_provable a' = a_provable a /\ a_unprovable a' = a_unprovable a
    | Err (TProtocol _) => a_payloads a' = a_payloads a /\ a_unprovable a' = a_unprovable a
    | Panic => o = Panic
    end.
  Proof.
    intros Hr Hc Hm Hd He Hn.
    pose proof (proj2 (proj2 (proj2 (receive_wrapped k x (vm_from m) (mkDynMsg (sp_body (vm_echo m)) (sp_body (vm_normal m)) (sp_body (vm_direct m)))) d Hd) e He) n Hn) as H.
    unfold process_message. rewrite Hr. cbn [rd_receive]. unfold add_processed. cbn [pm_msg pm_res]. rewrite Hc, Hm. cbn [negb].
    destruct (t_receive T k x (vm_from m) d e n) as [p|[le|pe|ue]|]; cbn [passed_on] in H.
    - rewrite H. cbn [bind a_payloads a_unprovable a_provable set_unprovable set_waiting]. rewrite get_insert, eqb_refl. auto.
    - rewrite H. cbn. auto.
    - destruct H as (be & H & _). rewrite H. cbn [bind].
      destruct (new_provable_error _ _ _ _ _ _) as [ev| |]; cbn; auto.
    - rewrite H. cbn [bind a_payloads a_unprovable a_provable set_unprovable set_waiting]. rewrite get_insert, eqb_refl. auto.
    - rewrite H. reflexivity.
  Qed.
End Wrap.
