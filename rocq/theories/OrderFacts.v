(** Operations concerning different senders do not influence each other. *)
From Coq Require Import List NArith Bool.
From Verif Require Import Base BMap Errors RoundId Message Protocol Transcript Evidence Session Spec
  MessageFacts SessionFacts.
Import ListNotations.
Set Implicit Arguments.

Section WithParams.
  Context {P : Params}.
  Context {Pr : Proto}.
  Implicit Types (s : Session Pr) (a b : Accum Pr) (o : op).

  (** Everything an accumulator says about [v]. *)
  Record same_view (v : Verifier) a b : Prop := {
    sv_waiting : mem v (a_waiting a) = mem v (a_waiting b);
    sv_processing : mem v (a_processing a) = mem v (a_processing b);
    sv_payloads : get v (a_payloads a) = get v (a_payloads b);
    sv_cached : get v (a_cached a) = get v (a_cached b);
    sv_echo : get v (a_echo a) = get v (a_echo b);
    sv_normal : get v (a_normal a) = get v (a_normal b);
    sv_direct : get v (a_direct a) = get v (a_direct b);
    sv_provable : get v (a_provable a) = get v (a_provable b);
    sv_unprovable : get v (a_unprovable a) = get v (a_unprovable b)
  }.

  Lemma same_view_refl v a : same_view v a a.
  Proof. constructor; reflexivity. Qed.
  Lemma same_view_sym v a b : same_view v a b -> same_view v b a.
  Proof. intros []; constructor; auto. Qed.
  Lemma same_view_trans v a b c : same_view v a b -> same_view v b c -> same_view v a c.
  Proof. intros [] []; constructor; congruence. Qed.

  Lemma accum_ext a b : a_expect a = a_expect b -> a_artifacts a = a_artifacts b ->
    (forall v, same_view v a b) -> a = b.
  Proof.
    intros H1 H2 H. destruct a, b; simpl in *. subst.
    f_equal; try (apply set_ext; intros v; destruct (H v); assumption);
      apply bmap_ext; intros v; destruct (H v); assumption.
  Qed.

  Ltac at_key := repeat first
    [ rewrite get_insert_ne by congruence | rewrite mem_add | rewrite mem_rem
    | rewrite (proj2 (eqb_neq _ _)) by congruence ]; simpl; auto.

  Lemma get_ins_part_ne {k} (from v : Verifier) (p : SPart k) m : v <> from -> get v (ins_part from p m) = get v m.
  Proof. intros H. unfold ins_part. destruct (is_none _); auto. now rewrite get_insert_ne. Qed.
  Lemma get_ins_part_same {k} (v : Verifier) (p : SPart k) m m' : get v m = get v m' ->
    get v (ins_part v p m) = get v (ins_part v p m').
  Proof. intros H. unfold ins_part. destruct (is_none _); auto. now rewrite !get_insert_eq. Qed.

  (** ** An operation changes only what concerns its sender. *)
  Definition only_at (v : Verifier) a a' : Prop :=
    a_expect a' = a_expect a /\ a_artifacts a' = a_artifacts a /\ forall w, w <> v -> same_view w a' a.

  Lemma only_at_refl v a : only_at v a a.
  Proof. split; auto. split; auto. intros; apply same_view_refl. Qed.

  Ltac frame := split; [reflexivity|split; [reflexivity|]]; let w := fresh "w" in let Hw := fresh "Hw" in
    intros w Hw; constructor; simpl; rewrite ?get_ins_part_ne by congruence; at_key.

  Lemma pre_frame s a from m : only_at from a (fst (preprocess_message s a from m)).
  Proof.
    unfold preprocess_message, reject, register_unprovable, mark_processing, cache_message.
    destruct (_ || _)%bool; [apply only_at_refl|].
    destruct (unify_metadata m) as [cm|]; [|frame].
    destruct (negb (bytes_eqb _ _)); [frame|].
    destruct (simultaneous_rounds _ _) as [acc| |]; try apply only_at_refl.
    destruct (if eqb _ _ then _ else _) as [e|]; [frame|].
    destruct (verify_message from cm) as [vm|[]|] eqn:Ev; try apply only_at_refl; try frame.
    assert (Hf : vm_from vm = from) by (apply verify_message_ok in Ev; destruct Ev as (-> & _); reflexivity).
    destruct (eqb _ _); rewrite Hf; frame.
  Qed.

  Lemma register_provable_frame a from ev : only_at from a (fst (register_provable a from ev)).
  Proof. unfold register_provable; frame. Qed.
  Lemma only_at_trans v a b c : only_at v a b -> only_at v b c -> only_at v a c.
  Proof.
    intros (H1 & H2 & H3) (H4 & H5 & H6). split; [congruence|]. split; [congruence|].
    intros w Hw. eapply same_view_trans; eauto.
  Qed.

  Lemma add_frame s a vm : only_at (vm_from vm) a (fst (add_processed s a (process_message s vm))).
  Proof.
    unfold add_processed, process_message. cbn [pm_msg pm_res].
    destruct (contains _ _); [apply only_at_refl|]. destruct (negb _); [apply only_at_refl|].
    set (a1 := set_waiting a _). assert (H1 : only_at (vm_from vm) a a1) by (subst a1; frame).
    destruct (rd_receive _ _ _) as [p|[]|]; try exact H1;
      try (eapply only_at_trans; [exact H1|]; apply register_provable_frame).
    - eapply only_at_trans; [exact H1|]. frame.
    - destruct (new_provable_error _ _ _ _ _ _); try exact H1.
      eapply only_at_trans; [exact H1|]. apply register_provable_frame.
    - eapply only_at_trans; [exact H1|]. frame.
  Qed.

  Lemma op_frame s a o : only_at (op_sender o) a (fst (do_op s a o)).
  Proof.
    destruct o as [from m|vm]; simpl.
    - pose proof (pre_frame s a from m). destruct (preprocess_message _ _ _ _); auto.
    - pose proof (add_frame s a vm). destruct (add_processed _ _ _); auto.
  Qed.

  (** ** An operation depends only on what concerns its sender. *)
  Definition agree (v : Verifier) {R} (x y : Accum Pr * R) : Prop := same_view v (fst x) (fst y) /\ snd x = snd y.

  Lemma contains_same {V} v (m m' : bmap Verifier V) : get v m = get v m' -> contains v m = contains v m'.
  Proof. unfold contains. now intros ->. Qed.

  Ltac local H := split; [destruct H; constructor; simpl;
      rewrite ?get_insert_eq, ?mem_add, ?mem_rem, ?eqb_refl; try congruence; auto using get_ins_part_same|
    simpl; try reflexivity; try (now rewrite (contains_same _ _ _ (sv_provable H)));
      try (now rewrite (contains_same _ _ _ (sv_unprovable H)))].

  Lemma banned_same s a b v : same_view v a b -> a_is_banned a v = a_is_banned b v.
  Proof.
    intros H. unfold a_is_banned. now rewrite (contains_same _ _ _ (sv_provable H)), (contains_same _ _ _ (sv_unprovable H)).
  Qed.

  Lemma pre_local s a b from m : same_view from a b ->
    agree from (preprocess_message s a from m) (preprocess_message s b from m).
  Proof.
    intros H. unfold preprocess_message, reject, register_unprovable, mark_processing, cache_message, message_is_cached.
    rewrite (banned_same s H).
    destruct (_ || _)%bool; [split; [exact H|reflexivity]|].
    destruct (unify_metadata m) as [cm|]; [|local H].
    destruct (negb (bytes_eqb _ _)); [local H|].
    destruct (simultaneous_rounds _ _) as [acc| |]; try (split; [exact H|reflexivity]).
    rewrite (sv_processing H), (sv_cached H).
    destruct (if eqb _ _ then _ else _) as [e|]; [local H|].
    destruct (verify_message from cm) as [vm|[]|] eqn:Ev; try (split; [exact H|reflexivity]); try solve [local H].
    assert (Hf : vm_from vm = from) by (apply verify_message_ok in Ev; destruct Ev as (-> & _); reflexivity).
    rewrite Hf, (sv_processing H), (sv_cached H).
    destruct (eqb _ _); local H.
  Qed.

  Lemma register_provable_local a b from ev : same_view from a b ->
    agree from (register_provable a from ev) (register_provable b from ev).
  Proof. intros H. unfold register_provable. local H. Qed.

  Lemma add_local s a b vm : same_view (vm_from vm) a b ->
    agree (vm_from vm) (add_processed s a (process_message s vm)) (add_processed s b (process_message s vm)).
  Proof.
    intros H. unfold add_processed, process_message. cbn [pm_msg pm_res].
    rewrite (contains_same _ _ _ (sv_payloads H)), (sv_waiting H).
    destruct (contains _ _); [split; [exact H|reflexivity]|]. destruct (negb _); [split; [exact H|reflexivity]|].
    set (a1 := set_waiting a _). set (b1 := set_waiting b _).
    assert (H1 : same_view (vm_from vm) a1 b1).
    { subst a1 b1. destruct H; constructor; simpl; rewrite ?mem_rem, ?eqb_refl; auto. }
    destruct (rd_receive _ _ _) as [p|[]|]; try (split; [exact H1|reflexivity]); try (now apply register_provable_local).
    - local H1.
    - destruct (new_provable_error _ _ _ _ _ _); try (split; [exact H1|reflexivity]). now apply register_provable_local.
    - local H1.
  Qed.

  Lemma op_local s a b o : same_view (op_sender o) a b -> agree (op_sender o) (do_op s a o) (do_op s b o).
  Proof.
    intros H. destruct o as [from m|vm]; simpl in *.
    - pose proof (pre_local s m H) as [H1 H2].
      destruct (preprocess_message s a from m), (preprocess_message s b from m); simpl in *. split; simpl; congruence.
    - pose proof (add_local s _ H) as [H1 H2].
      destruct (add_processed s a _), (add_processed s b _); simpl in *. split; simpl; congruence.
  Qed.

  (** ** Commutation *)
  Lemma op_comm s a o1 o2 : op_sender o1 <> op_sender o2 ->
    fst (do_op s (fst (do_op s a o1)) o2) = fst (do_op s (fst (do_op s a o2)) o1) /\
    snd (do_op s (fst (do_op s a o1)) o2) = snd (do_op s a o2).
  Proof.
    intros Hne.
    destruct (op_frame s a o1) as (E1 & A1 & F1). destruct (op_frame s a o2) as (E2 & A2 & F2).
    destruct (op_frame s (fst (do_op s a o1)) o2) as (E3 & A3 & F3).
    destruct (op_frame s (fst (do_op s a o2)) o1) as (E4 & A4 & F4).
    assert (L2 : agree (op_sender o2) (do_op s (fst (do_op s a o1)) o2) (do_op s a o2)) by (apply op_local; apply F1; congruence).
    assert (L1 : agree (op_sender o1) (do_op s (fst (do_op s a o2)) o1) (do_op s a o1)) by (apply op_local; apply F2; congruence).
    split; [|apply L2]. apply accum_ext; [congruence|congruence|]. intros v.
    destruct (ord_dec v (op_sender o1)) as [->|N1].
    - eapply same_view_trans; [apply F3; congruence|]. apply same_view_sym, L1.
    - destruct (ord_dec v (op_sender o2)) as [->|N2].
      + eapply same_view_trans; [apply L2|]. apply same_view_sym, F4; congruence.
      + eapply same_view_trans; [apply F3; auto|]. eapply same_view_trans; [apply F1; auto|].
        apply same_view_sym. eapply same_view_trans; [apply F4; auto|]. apply F2; auto.
  Qed.

  Lemma do_ops_cons s a o l : do_ops s a (o :: l) =
    (fst (do_ops s (fst (do_op s a o)) l), (op_sender o, snd (do_op s a o)) :: snd (do_ops s (fst (do_op s a o)) l)).
  Proof. simpl. destruct (do_op s a o); simpl. destruct (do_ops s a0 l); reflexivity. Qed.

  (** Moving an operation to the front, past operations of other senders. *)
  Lemma to_front s o l l' : forall a, (forall o', In o' l -> op_sender o' <> op_sender o) ->
    fst (do_ops s a (l ++ o :: l')) = fst (do_ops s a (o :: l ++ l')) /\
    forall v, results_of v (snd (do_ops s a (l ++ o :: l'))) = results_of v (snd (do_ops s a (o :: l ++ l'))).
  Proof.
    induction l as [|o1 l IH]; intros a Hl; [split; reflexivity|].
    assert (Hne : op_sender o1 <> op_sender o) by (apply Hl; simpl; auto).
    destruct (IH (fst (do_op s a o1))) as [I1 I2]; [intros; apply Hl; simpl; auto|].
    rewrite <- !app_comm_cons. rewrite !do_ops_cons. cbn [fst snd].
    destruct (@op_comm s a o1 o Hne) as [C1 C2]. destruct (@op_comm s a o o1 (not_eq_sym Hne)) as [_ C4].
    rewrite do_ops_cons in I1, I2. cbn [fst snd] in I1, I2.
    split; [now rewrite I1, C1|].
    intros v. pose proof (I2 v) as I2v. unfold results_of in *. cbn [filter fst] in *.
    rewrite I2v, C1, C2, C4.
    destruct (eqb v (op_sender o1)) eqn:E1, (eqb v (op_sender o)) eqn:E2; auto.
    apply (proj1 (eqb_eq _ _)) in E1. apply (proj1 (eqb_eq _ _)) in E2. congruence.
  Qed.

  Lemma first_of v o (l : list op) r : ops_of v l = o :: r ->
    exists p q, l = p ++ o :: q /\ (forall o', In o' p -> op_sender o' <> v) /\ op_sender o = v.
  Proof.
    unfold ops_of. induction l as [|o1 l IH]; simpl; [discriminate|].
    destruct (eqb v (op_sender o1)) eqn:E.
    - intros H. injection H as -> _. apply (proj1 (eqb_eq _ _)) in E. exists [], l. simpl; intuition.
    - intros H. destruct (IH H) as (p & q & -> & Hp & Ho). apply eqb_neq in E.
      exists (o1 :: p), q. split; auto. split; auto. simpl. intros o' [<-|H']; auto.
  Qed.

  Lemma ops_of_app v l l' : ops_of v (l ++ l') = ops_of v l ++ ops_of v l'.
  Proof. apply filter_app. Qed.
  Lemma ops_of_none v l : (forall o, In o l -> op_sender o <> v) -> ops_of v l = [].
  Proof.
    unfold ops_of. induction l as [|o l IH]; simpl; intros H; auto.
    rewrite (proj2 (eqb_neq _ _)); auto. intros E. eapply H; eauto.
  Qed.

  Lemma order_irrelevant s l1 : forall l2 a, (forall v, ops_of v l1 = ops_of v l2) ->
    fst (do_ops s a l1) = fst (do_ops s a l2) /\
    forall v, results_of v (snd (do_ops s a l1)) = results_of v (snd (do_ops s a l2)).
  Proof.
    induction l1 as [|o l1 IH]; intros l2 a H.
    - destruct l2 as [|o l2]; [split; reflexivity|]. specialize (H (op_sender o)). unfold ops_of in H. simpl in H.
      rewrite eqb_refl in H. discriminate.
    - assert (H0 : ops_of (op_sender o) l2 = o :: ops_of (op_sender o) l1).
      { rewrite <- H. unfold ops_of. simpl. now rewrite eqb_refl. }
      destruct (first_of _ _ H0) as (p & q & -> & Hp & _).
      destruct (to_front s o p q a Hp) as [T1 T2].
      assert (H' : forall v, ops_of v l1 = ops_of v (p ++ q)).
      { intros v. specialize (H v). rewrite ops_of_app in *. unfold ops_of in H at 1 3. cbn [filter] in H.
        fold (ops_of v l1) (ops_of v q) in H.
        destruct (eqb v (op_sender o)) eqn:E; [|exact H]. apply (proj1 (eqb_eq _ _)) in E. subst v.
        rewrite (@ops_of_none _ p Hp) in *. simpl in *. congruence. }
      destruct (IH (p ++ q) (fst (do_op s a o)) H') as [I1 I2].
      split.
      + rewrite T1, !do_ops_cons. exact I1.
      + intros v. rewrite T2, !do_ops_cons. unfold results_of in *. cbn [snd filter fst]. rewrite (I2 v). reflexivity.
  Qed.
End WithParams.
