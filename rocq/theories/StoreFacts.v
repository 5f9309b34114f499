(** Proofs of the limits to what a session stores. *)
From Coq Require Import List NArith Bool Lia Permutation.
From Verif Require Import Base BMap Errors RoundId Message Protocol Transcript Evidence Session Spec MessageFacts SessionFacts RunFacts HistoryFacts SpecStore.
Import ListNotations.
Set Implicit Arguments.

Section Entries.
  Context {K : Type} `{OK : Ord K}.
  Lemma entries_keys {V} (m : bmap K V) : entries m = length (keys m).
  Proof. unfold entries, keys. now rewrite map_length. Qed.
  Lemma entries_le {V} (m : bmap K V) l : (forall k, contains k m = true -> In k l) -> entries m <= length l.
  Proof. intros H. rewrite entries_keys. apply NoDup_incl_length; [apply NoDup_keys|]. intros k Hk. apply H. now apply in_keys. Qed.
  Lemma entries_insert {V} (m : bmap K V) k v : entries (insert k v m) <= S (entries m).
  Proof.
    rewrite (entries_keys m). change (S (length (keys m))) with (length (k :: keys m)). apply entries_le. intros x Hx.
    rewrite contains_insert, orb_true_iff, eqb_eq in Hx. destruct Hx as [->|Hx]; [now left|right; now apply in_keys].
  Qed.
  Lemma sum_le {A} (f : A -> nat) l b : (forall x, In x l -> f x <= b) -> list_sum (map f l) <= length l * b.
  Proof. induction l as [|x l IH]; intros H; [simpl; lia|]. simpl. pose proof (H x (or_introl eq_refl)). assert (list_sum (map f l) <= length l * b) by (apply IH; intros y Hy; apply H; now right). lia. Qed.
  Context {K' : Type} `{OK' : Ord K'}.
  Lemma entries2_le {V} (m : bmap K (bmap K' V)) b : (forall k x, get k m = Some x -> entries x <= b) -> entries2 m <= entries m * b.
  Proof. intros H. apply sum_le. intros [k x] Hk. apply in_to_list in Hk. simpl. eauto. Qed.
End Entries.

Section WithParams.
  Context {P : Params}.
  Context {Pr : Proto}.
  Implicit Types (s : Session Pr) (a : Accum Pr) (d : DState Pr) (es : list (event Pr)).
  Variable senders : bset Verifier.
  Notation inS v := (mem v senders = true).

  Record kept d : Prop := {
    k_todo : exists t1 t2, Permutation (d_todo d) (t1 ++ t2) /\ NoDup (map (@vm_from _) t1) /\ NoDup (map (@vm_from _) t2) /\
      (forall vm, In vm (t1 ++ t2) -> inS (vm_from vm)) /\ (forall vm, In vm t2 -> mem (vm_from vm) (a_processing (d_a d)) = true);
    k_proc : forall v, mem v (a_processing (d_a d)) = true -> inS v;
    k_pay : forall v, contains v (a_payloads (d_a d)) = true -> inS v;
    k_echo : forall v, contains v (a_echo (d_a d)) = true -> inS v;
    k_normal : forall v, contains v (a_normal (d_a d)) = true -> inS v;
    k_direct : forall v, contains v (a_direct (d_a d)) = true -> inS v;
    k_prov : forall v, contains v (a_provable (d_a d)) = true -> inS v;
    k_unprov : forall v, contains v (a_unprovable (d_a d)) = true -> inS v;
    k_cached : forall v c, get v (a_cached (d_a d)) = Some c -> inS v /\ forall rid vm, get rid c = Some vm -> vm_from vm = v /\ window (d_s d) rid
  }.

  Record kept_tr (n : nat) (me : Verifier) (t : Transcript) : Prop := {
    t_prov : forall v, contains v (tr_provable t) = true -> inS v;
    t_unprov : forall v, contains v (tr_unprovable t) = true -> inS v;
    t_nechos : entries (tr_echo t) <= n; t_nnormals : entries (tr_normal t) <= n; t_ndirects : entries (tr_direct t) <= n;
    t_echo : forall rid m, get rid (tr_echo t) = Some m -> forall v, contains v m = true -> v = me \/ inS v;
    t_normal : forall rid m, get rid (tr_normal t) = Some m -> forall v, contains v m = true -> inS v;
    t_direct : forall rid m, get rid (tr_direct t) = Some m -> forall v, contains v m = true -> inS v
  }.

  Lemma contains_ins_part {k} v from (p : SPart k) m : contains v (ins_part from p m) = true -> v = from \/ contains v m = true.
  Proof. unfold ins_part. destruct (is_none _); auto. rewrite contains_insert, orb_true_iff, eqb_eq. tauto. Qed.

  Lemma in_or_mid {A} (l1 l2 : list A) x y : In x (l1 ++ l2) -> In x (l1 ++ y :: l2).
  Proof. rewrite !in_app_iff. simpl. tauto. Qed.

  Lemma todo_remove (t1 t2 l1 l2 : list VMessage) vm : Permutation (l1 ++ vm :: l2) (t1 ++ t2) ->
    exists t1' t2', Permutation (l1 ++ l2) (t1' ++ t2') /\ (forall x, In x t2' -> In x t2) /\
      (NoDup (map (@vm_from _) t1) -> NoDup (map (@vm_from _) t1')) /\ (NoDup (map (@vm_from _) t2) -> NoDup (map (@vm_from _) t2')) /\
      (forall x, In x (t1' ++ t2') -> In x (t1 ++ t2)) /\ In vm (t1 ++ t2).
  Proof.
    intros H. assert (Hi : In vm (t1 ++ t2)) by (apply (Permutation_in _ H), in_elt).
    pose proof Hi as Hi'. apply in_app_iff in Hi as [Hi|Hi]; apply in_split in Hi as (x1 & x2 & ->).
    - exists (x1 ++ x2), t2. rewrite <- app_assoc in H. cbn [app] in H. split; [rewrite <- app_assoc; eapply Permutation_app_inv; exact H|]. split; auto.
      split; [rewrite !map_app; simpl; apply NoDup_remove_1|]. split; auto. split; auto. intros x. rewrite !in_app_iff. simpl. tauto.
    - exists t1, (x1 ++ x2). rewrite app_assoc in H. split; [rewrite app_assoc; eapply Permutation_app_inv; exact H|].
      split; [intros x; apply in_or_mid|]. split; auto. split; [rewrite !map_app; simpl; apply NoDup_remove_1|]. split; auto.
      intros x. rewrite !in_app_iff. simpl. tauto.
  Qed.

  Lemma kept_fresh s c : NoDup (map (@vm_from _) c) -> (forall vm, In vm c -> inS (vm_from vm)) -> kept (DS s (make_accumulator s) c).
  Proof.
    intros Hn Hc. constructor; cbn [d_todo d_a d_s make_accumulator a_processing a_payloads a_echo a_normal a_direct a_provable a_unprovable a_cached];
      try (intros v Hv; rewrite contains_empty in Hv; discriminate).
    - exists c, []. rewrite app_nil_r. split; auto. split; auto. split; [constructor|]. split; [auto|simpl; tauto].
    - intros v Hv. discriminate.
    - intros v c' Hv. rewrite get_empty in Hv. discriminate.
  Qed.

  Lemma kept_step d e d' : kept d -> step d e d' -> (forall from m o, e = EPre from m o -> inS from) -> kept d'.
  Proof.
    intros I Hs He. inversion Hs as [s a todo from m a' o Hp|s a l1 vm l2 a' Hp|s a todo g dest m art a' Hm Hmk Ha|s a todo g s' cached Hy Hf]; subst.
    - pose proof (He _ _ _ eq_refl) as Hfrom. apply preprocess_cases in Hp. destruct I as [It Ip Ipay Ie In_ Id Ipr Iu Ic]. simpl in *.
      inv Hp.
      + constructor; auto.
      + constructor; simpl; auto. intros v. rewrite contains_insert, orb_true_iff, eqb_eq. intros [->|H]; auto.
      + constructor; simpl; auto; [|intros v; rewrite mem_add, orb_true_iff, eqb_eq; intros [->|H]; auto].
        destruct It as (t1 & t2 & J1 & J2 & J3 & J4 & J5). set (vm := mkVMessage _ _ _ _ _). exists t1, (vm :: t2).
        split; [apply Permutation_cons_app; auto|]. split; auto. split.
        * simpl. constructor; auto. intros Hin. apply in_map_iff in Hin as (x & Ex & Hx). apply J5 in Hx. rewrite Ex in Hx. congruence.
        * split; [intros x; rewrite in_app_iff; simpl; rewrite or_comm, or_assoc; intros [<-|Hx]; auto; apply J4, in_app_iff; tauto|].
          intros x [<-|Hx]; rewrite mem_add; [now rewrite eqb_refl|]. rewrite (J5 x Hx). apply orb_true_r.
      + constructor; simpl; auto. intros v c. rewrite get_insert. destruct (eqb_spec v from) as [->|Hv]; auto. intros E. injection E as <-. split; auto.
        intros r vm. rewrite get_insert. destruct (eqb_spec r rid) as [->|Hr]; [intros E; injection E as <-; auto|].
        destruct (get from (a_cached a)) as [c0|] eqn:E0; [|rewrite get_empty; discriminate]. apply (Ic _ _ E0).
    - apply add_processed_ok in Hp as (_ & _ & Hp). destruct I as [It Ip Ipay Ie In_ Id Ipr Iu Ic]. simpl in *.
      destruct It as (t1 & t2 & H1 & H2 & H3 & H4 & H5). destruct (todo_remove _ _ _ _ _ H1) as (t1' & t2' & G1 & G2 & G3 & G4 & G5 & G6).
      pose proof (H4 _ G6) as Hfrom.
      assert (It' : forall pr, (forall v, mem v (a_processing a) = true -> mem v pr = true) -> exists t1 t2, Permutation (l1 ++ l2) (t1 ++ t2) /\ NoDup (map (@vm_from _) t1) /\ NoDup (map (@vm_from _) t2) /\
        (forall vm, In vm (t1 ++ t2) -> inS (vm_from vm)) /\ (forall vm, In vm t2 -> mem (vm_from vm) pr = true)).
      { intros pr Hpr. exists t1', t2'. auto 10. }
      inv Hp; constructor; simpl; auto.
      all: try (intros v Hv; apply contains_ins_part in Hv as [->|Hv]; auto).
      all: intros v; rewrite contains_insert, orb_true_iff, eqb_eq; intros [->|Hv]; auto.
    - unfold add_artifact in Ha. simpl in Ha. destruct (contains dest (a_artifacts a)); inv Ha. destruct I. constructor; auto.
    - destruct (fin_cases_step Hs) as (_ & _ & F). cbn [d_s d_a d_todo] in F.
      assert (Hcn : forall rid, NoDup (map (@vm_from _) (filter_messages (a_cached a) rid)) /\ forall vm, In vm (filter_messages (a_cached a) rid) -> inS (vm_from vm)).
      { intros rid. split.
        - apply filter_messages_nodup. intros v c vm Hv Hc. exact (proj1 (proj2 (k_cached I _ Hv) _ _ Hc)).
        - intros vm Hin. apply in_filter_messages in Hin as (v & c & Hv & Hc). destruct (k_cached I _ Hv) as [Hk Hk']. now destruct (Hk' _ _ Hc) as [-> _]. }
      destruct F as [t info echos _ _ _ _ ->|t st _ _ _ _ _ ->]; apply kept_fresh.
      + apply Hcn.
      + apply Hcn.
      + apply nodup_map_filter, Hcn.
      + intros vm Hin. apply filter_In in Hin as [Hin _]. now apply (proj2 (Hcn _)) in Hin.
  Qed.

  Lemma kept_tr_close n s a t : kept (DS s a []) \/ (exists todo, kept (DS s a todo)) -> kept_tr n (s_verifier s) (s_tr s) -> close_round s a = Ok t ->
    kept_tr (S n) (s_verifier s) t.
  Proof.
    intros I T Hc. assert (exists todo, kept (DS s a todo)) as (todo & I') by (destruct I; eauto). clear I. apply close_round_ok in Hc.
    destruct I' as [It Ip Ipay Ie In_ Id Ipr Iu Ic]. simpl in *. constructor.
    - intros v Hv. apply contains_get in Hv as [x Hv]. apply (up_provable Hc) in Hv as [Hv|Hv]; [apply (t_prov T)|apply Ipr]; apply contains_get; eauto.
    - intros v Hv. apply contains_get in Hv as [x Hv]. apply (up_unprovable Hc) in Hv as [Hv|Hv]; [apply (t_unprov T)|apply Iu]; apply contains_get; eauto.
    - rewrite (up_echo Hc). pose proof (entries_insert (tr_echo (s_tr s)) (s_round_id s) (insert (s_verifier s) (s_echo s) (a_echo a))). pose proof (t_nechos T). lia.
    - rewrite (up_normal Hc). pose proof (entries_insert (tr_normal (s_tr s)) (s_round_id s) (a_normal a)). pose proof (t_nnormals T). lia.
    - rewrite (up_direct Hc). pose proof (entries_insert (tr_direct (s_tr s)) (s_round_id s) (a_direct a)). pose proof (t_ndirects T). lia.
    - rewrite (up_echo Hc). intros rid m. rewrite get_insert. destruct (eqb rid (s_round_id s)); [|apply (t_echo T)].
      intros E. injection E as <-. intros v. rewrite contains_insert, orb_true_iff, eqb_eq. intros [->|H]; auto.
    - rewrite (up_normal Hc). intros rid m. rewrite get_insert. destruct (eqb rid (s_round_id s)); [|apply (t_normal T)]. intros E. injection E as <-. auto.
    - rewrite (up_direct Hc). intros rid m. rewrite get_insert. destruct (eqb rid (s_round_id s)); [|apply (t_direct T)]. intros E. injection E as <-. auto.
  Qed.

  Lemma kept_run s es d : initial s -> run (start s) es d -> only_from senders es ->
    kept d /\ kept_tr (fins es) (s_verifier (d_s d)) (s_tr (d_s d)).
  Proof.
    intros Hi Hr. remember (start s) as d0 eqn:E0. revert E0. induction Hr as [d0|d0 es d1 e d2 Hr IH Hst]; intros -> Ho.
    - destruct Hi as (g & sid & sg & ep & Hi). apply session_new_ok in Hi as (st & _ & C). split.
      + apply kept_fresh; [constructor|simpl; tauto].
      + simpl. rewrite (cr_tr C). constructor; cbn [tr_new tr_provable tr_unprovable tr_echo tr_normal tr_direct];
          try (intros v Hv; rewrite contains_empty in Hv; discriminate); try (intros rid m Hm; rewrite get_empty in Hm; discriminate); unfold entries; simpl; lia.
    - destruct (IH eq_refl) as [I T]; [intros from m o Hin; apply (Ho from m o), in_app_iff; now left|].
      assert (I2 : kept d2). { eapply kept_step; [exact I|exact Hst|]. intros from m o ->. apply (Ho from m o), in_app_iff. right. now left. }
      split; auto. unfold fins. rewrite filter_app, app_length. fold (fins es). destruct (is_fin e) eqn:Ef; cbn [filter]; rewrite Ef; cbn [length].
      + destruct e; try discriminate. destruct (fin_cases_step Hst) as (_ & _ & F). rewrite PeanoNat.Nat.add_1_r.
        destruct d1 as [s1 a1 todo1]. cbn [d_s d_a] in *.
        assert (R1 : sinv s1). { apply (@reachable_sinv _ _ (DS s1 a1 todo1)). exists s, es. auto. }
        assert (Hx : exists t, close_round s1 a1 = Ok t /\ s_tr (d_s d2) = t /\ s_verifier (d_s d2) = s_verifier s1).
        { destruct F as [t ? ? Hc _ _ C _|t ? Hc _ _ _ C _]; exists t; rewrite (cr_tr C), (cr_verifier C), (si_verifier R1); auto. }
        destruct Hx as (t & Hc & -> & ->). eapply kept_tr_close; eauto.
      + rewrite PeanoNat.Nat.add_0_r. replace (d_s d2) with (d_s d1); auto. inv Hst; auto; discriminate.
  Qed.

  Notation n := (length (elements senders)).

  Lemma within {V} (m : bmap Verifier V) : (forall v, contains v m = true -> inS v) -> entries m <= n.
  Proof. intros H. apply entries_le. intros k Hk. apply in_elements. auto. Qed.

  Lemma window_list s : exists l, length l <= other_rounds s /\ forall rid, window s rid -> In rid l.
  Proof.
    exists (mkRid (rid_round (ti_id (s_tinfo s))) (rid_groups (ti_id (s_tinfo s))) true :: elements (ti_siblings (s_tinfo s)) ++ elements (ti_children (s_tinfo s)) ++ elements (ti_parents (s_tinfo s))).
    unfold other_rounds. cbn [length]. rewrite !app_length. split; [lia|].
    intros rid (acc & Ha & Hm). apply (simultaneous_window _ _ Ha) in Hm. cbn [In]. rewrite !in_app_iff, !in_elements.
    destruct (s_echo_info s); intuition.
  Qed.

  Lemma kept_stored d : kept d -> stored d <= n * (9 + other_rounds (d_s d)).
  Proof.
    intros [It Ip Ipay Ie In_ Id Ipr Iu Ic]. unfold stored.
    assert (Hc : entries2 (a_cached (d_a d)) <= n * other_rounds (d_s d)).
    { destruct (window_list (d_s d)) as (l & Hl & Hw). transitivity (entries (a_cached (d_a d)) * length l).
      - apply entries2_le. intros v c Hv. apply entries_le. intros rid Hr. apply contains_get in Hr as [vm Hr]. apply Hw. exact (proj2 (proj2 (Ic _ _ Hv) _ _ Hr)).
      - apply PeanoNat.Nat.mul_le_mono; auto. apply within. intros v Hv. apply contains_get in Hv as [c Hv]. apply (Ic _ _ Hv). }
    assert (Ht : length (d_todo d) <= n + n).
    { destruct It as (t1 & t2 & H1 & H2 & H3 & H4 & _). rewrite (Permutation_length H1), app_length.
      rewrite <- (map_length (@vm_from _) t1), <- (map_length (@vm_from _) t2).
      apply PeanoNat.Nat.add_le_mono; apply NoDup_incl_length; auto; intros v Hv; apply in_map_iff in Hv as (x & <- & Hx); apply in_elements, H4, in_app_iff; auto. }
    assert (Hp : length (elements (a_processing (d_a d))) <= n).
    { apply NoDup_incl_length; [apply NoDup_elements|]. intros v Hv. apply in_elements. apply in_elements in Hv. auto. }
    pose proof (within _ Ipay). pose proof (within _ Ie). pose proof (within _ In_). pose proof (within _ Id). pose proof (within _ Ipr). pose proof (within _ Iu). lia.
  Qed.

  Lemma kept_archived k me t : kept_tr k me t -> archived t <= k * (3 * n + 1) + 2 * n.
  Proof.
    intros [Tp Tu N1 N2 N3 T1 T2 T3]. unfold archived.
    assert (H1 : entries2 (tr_echo t) <= k * (n + 1)).
    { transitivity (entries (tr_echo t) * (n + 1)); [|now apply PeanoNat.Nat.mul_le_mono_r]. apply entries2_le. intros rid m Hm.
      replace (n + 1) with (length (me :: elements senders)) by (simpl; lia). apply entries_le. intros v Hv. destruct (T1 _ _ Hm _ Hv) as [->|H]; [now left|right; now apply in_elements]. }
    assert (H2 : entries2 (tr_normal t) <= k * n).
    { transitivity (entries (tr_normal t) * n); [|now apply PeanoNat.Nat.mul_le_mono_r]. apply entries2_le. intros rid m Hm. apply within. eauto. }
    assert (H3 : entries2 (tr_direct t) <= k * n).
    { transitivity (entries (tr_direct t) * n); [|now apply PeanoNat.Nat.mul_le_mono_r]. apply entries2_le. intros rid m Hm. apply within. eauto. }
    pose proof (within _ Tp). pose proof (within _ Tu). lia.
  Qed.

  Lemma bounded_storage s es d : initial s -> run (start s) es d -> only_from senders es ->
    stored d <= n * (9 + other_rounds (d_s d)) /\ archived (s_tr (d_s d)) <= fins es * (3 * n + 1) + 2 * n.
  Proof. intros H1 H2 H3. destruct (kept_run H1 H2 H3) as [I T]. split; [now apply kept_stored|eapply kept_archived; eauto]. Qed.
End WithParams.
