(** [par_run_session]: what is sent in a round; deadlocks. *)
From Coq Require Import List NArith Bool Arith Lia Permutation.
From Verif Require Import Base BMap Errors RoundId Message Protocol Transcript Evidence Session Spec SpecCrypto
  MessageFacts SessionFacts RunFacts IntakeFacts Network SpecNet NetFacts RunSync RunSyncFacts Driver SpecDriver DriverFacts Par SpecPar ParFacts.
Import ListNotations.
Set Implicit Arguments.

Section Par.
  Context {P : Params}.
  Context {Pr : Proto}.
  Variable r : NetRng.

  (** ** What is sent *)
  Definition pcur (s : Session Pr) (l : list (dlabel Pr)) (p : Par Pr) : Prop :=
    match p with
    | PRun x => pp_s x = s /\ pinv r x /\ NoDup (map fst (sent_by l)) /\
        (forall u, In u (map fst (sent_by l)) <-> contains u (a_artifacts (pp_a x)) = true) /\
        (forall dest m, In (dest, m) (sent_by l) -> mem dest (message_destinations s) = true /\ exists g art, make_message s g dest = Ok (m, art)) /\
        (forall s' a, ~ In (LFinalize s' a) l /\ ~ In (LGiveUp s' a) l)
    | PStop _ => sends_each s l
    end.
  Lemma pcur_sends s l p : pcur s l p -> sends_each s l.
  Proof.
    destruct p as [x|o]; auto. intros (_ & _ & H1 & _ & H3 & H4). split; auto. split; auto.
    intros (s' & a & [H|H]); destruct (H4 s' a) as [Ha Hb]; [destruct (Ha H)|destruct (Hb H)].
  Qed.
  Lemma pcur_enter (s : Session Pr) c : pcur s [] (PRun (par_enter s c)).
  Proof.
    split; auto. split; [apply pinv_enter|]. split; [constructor|]. split; [|split; [intros dest m []|intros s' a; split; intros []]].
    intros u. cbn [par_enter pp_a make_accumulator a_artifacts]. rewrite contains_empty. split; [intros []|discriminate].
  Qed.
  Lemma sent_app (l1 l2 : list (dlabel Pr)) : sent_by (l1 ++ l2) = sent_by l1 ++ sent_by l2.
  Proof. apply flat_map_app. Qed.

  Lemma pst_pcur s l x ls p : pcur s l (PRun x) -> pst r x ls p ->
    pcur s (l ++ ls) p \/ exists ls0 s', ls = ls0 ++ [LEnter s'] /\ sends_each s (l ++ ls0) /\ pcur s' [] p.
  Proof.
    intros Hc H. pose proof Hc as (<- & I & Hnd & Hart & Hmade & Hno).
    pose proof (pst_pinv H I) as I'.
    assert (K0 : forall y ls0, sent_by ls0 = [] -> (forall s' a, ~ In (LFinalize s' a) ls0 /\ ~ In (LGiveUp s' a) ls0) -> pp_s y = pp_s x ->
      a_artifacts (pp_a y) = a_artifacts (pp_a x) -> pinv r y -> pcur (pp_s x) (l ++ ls0) (PRun y)).
    { intros y ls0 E1 E2 E3 E4 Iy. cbn [pcur]. rewrite sent_app, E1, app_nil_r, E4. split; auto. split; auto. split; auto. split; auto. split; auto.
      intros s' a. destruct (Hno s' a), (E2 s' a). rewrite !in_app_iff. tauto. }
    assert (K1 : forall ls0, sent_by ls0 = [] -> (forall s' a, ~ In (LFinalize s' a) ls0 /\ ~ In (LGiveUp s' a) ls0) -> sends_each (pp_s x) (l ++ ls0)).
    { intros ls0 E1 E2. apply (@pcur_sends _ _ (PRun x)). apply K0; auto. }
    assert (Kfin : forall b l0, pp_phase x = Drain b -> pp_out x = [] -> sent_by [l0] = [] -> sends_each (pp_s x) (l ++ [l0])).
    { intros b l0 Hp Ho E0. split; [|split]; rewrite sent_app, E0, app_nil_r; auto. intros _ u Hu. apply Hart. exact (drained I Hp Ho u Hu). }
    assert (Kout : forall dest m pa out, pp_out x = (dest, m, pa) :: out -> NoDup (map fst (sent_by (l ++ [LOut dest m]))) /\
       (forall u, In u (map fst (sent_by (l ++ [LOut dest m]))) <-> u = dest \/ contains u (a_artifacts (pp_a x)) = true) /\
       (forall d m', In (d, m') (sent_by (l ++ [LOut dest m])) -> mem d (message_destinations (pp_s x)) = true /\ exists g art, make_message (pp_s x) g d = Ok (m', art))).
    { intros dest m pa out E. assert (Hd : In dest (to_go x)) by (unfold to_go; rewrite E; apply in_app_iff; right; now left).
      destruct (pi_todo I _ Hd) as [Hm Ha]. rewrite sent_app, map_app. cbn [sent_by flat_map map app fst]. split; [|split].
      - apply (Permutation_NoDup (Permutation_cons_append _ _)). constructor; auto. intros Hin. apply Hart in Hin. congruence.
      - intros u. rewrite in_app_iff, Hart. simpl. intuition.
      - intros d m' Hin. apply in_app_iff in Hin as [Hin|[Hin|[]]]; auto. inv Hin. split; auto. pose proof (pi_out I d m' pa ltac:(rewrite E; now left)) as Hmk. unfold mk in Hmk. eauto. }
    destruct H as [l1 dest l2 E|l1 dest m pa l2 E Hl|l1 vm l2 E|l1 pm l2 E Hl|b Hp Hcf Hh|Hp Hcf Hh|b Hp E Hh|b c Hp E Hh|b Hp E Hh|b c Hp E Hh|e
      |dest m pa out a' E Hp Ea|dest m pa out o E Ea Ho|pm q a' Hp Hcf E Ea Hh|from m a' o Hp Hcf Ea Hh|la o Hl Ho|o Hp E Ho|s' c Hp E Ef|Hp E|Hpk Hlk Hh];
      try (left; apply K0; auto; intros s1 a1; split; intros []; fail).
    - left. apply K0; auto. intros s1 a1. split; intros [K|[]]; discriminate K.
    - left. cbn [pcur]. apply K1; auto.
    - left. destruct (Kout _ _ _ _ E) as (H1 & H2 & H3). cbn [pcur]. split; auto. split; auto. split; auto. split; [|split; auto].
      + intros u. rewrite H2. cbn [set_acc set_hand set_out pp_a]. pose proof (pi_out I dest m pa ltac:(rewrite E; now left)) as Hmk. pose proof (proj2 (made_msg _ _ _ Hmk)) as Hpa.
        apply add_artifact_ok in Ea as [_ ->]. cbn [set_artifacts a_artifacts]. rewrite contains_insert, Hpa. destruct (eqb_spec u dest) as [->|Hn]; simpl; intuition.
      + intros s1 a1. destruct (Hno s1 a1). split; rewrite in_app_iff; intros [K|[K|[]]]; auto; discriminate K.
    - left. destruct (Kout _ _ _ _ E) as (H1 & H2 & H3). split; auto. split; auto. intros (s1 & a1 & K). destruct (Hno s1 a1).
      exfalso. rewrite !in_app_iff in K. destruct K as [[K|[K|[]]]|[K|[K|[]]]]; auto; discriminate K.
    - left. apply K0; auto; [|exact (processed_arts _ _ _ Ea)]. intros s1 a1. split; intros [K|[]]; discriminate K.
    - left. pose proof (preprocessed_arts _ _ _ _ Ea) as Ha. apply K0; auto; [intros s1 a1; split; intros [K|[]]; discriminate K|now destruct o|now destruct o].
    - left. cbn [pcur]. apply K1; [destruct la; auto; contradiction|]. intros s1 a1. split; intros [->|[]]; exact Hl.
    - left. cbn [pcur]. eapply Kfin; eauto.
    - right. exists [LFinalize (pp_s x) (pp_a x)], s'. split; auto. split; [eapply Kfin; eauto|apply pcur_enter].
    - left. cbn [pcur]. eapply Kfin; eauto.
  Qed.

  Lemma par_rounds (s0 : Session Pr) ls p : par_session r s0 ls p -> exists rounds s l, ls = by_rounds (rounds ++ [(s, l)]) /\
    (forall s l, In (s, l) rounds -> sends_each s l) /\ pcur s l p.
  Proof.
    intros (ls' & -> & Hr). remember (PRun (par_enter s0 [])) as d0 eqn:E0.
    induction Hr as [d|d ls d1 i lx d2 Hr IH Hs]; subst.
    - exists [], s0, []. rewrite rounds_snoc. split; auto. split; [contradiction|]. apply pcur_enter.
    - destruct (IH eq_refl) as (rounds & s & l & E & H1 & H2). destruct d1 as [x|o]; [|discriminate Hs].
      destruct (@pst_pcur _ _ _ _ _ H2 (@par_step_pst _ _ r _ _ _ _ Hs)) as [H|(ls0 & s' & -> & Hf & Hc)].
      + exists rounds, s, (l ++ lx). split; auto. rewrite rounds_snoc in E |- *. rewrite app_comm_cons, E, <- app_assoc. reflexivity.
      + exists (rounds ++ [(s, l ++ ls0)]), s', []. split; [|split; auto].
        * rewrite !rounds_snoc in *. rewrite !app_assoc, app_comm_cons, app_comm_cons, E, <- !app_assoc. simpl. now rewrite <- app_assoc.
        * intros s1 l1 Hin. apply in_app_iff in Hin as [Hin|[E1|[]]]; auto. inv E1. exact Hf.
  Qed.
  Lemma par_sends_each (s0 : Session Pr) ls p : par_session r s0 ls p ->
    exists rounds : list (Session Pr * list (dlabel Pr)), ls = by_rounds rounds /\ forall s l, In (s, l) rounds -> sends_each s l.
  Proof.
    intros H. destruct (par_rounds H) as (rounds & s & l & E & H1 & H2). exists (rounds ++ [(s, l)]). split; auto.
    intros s1 l1 Hin. apply in_app_iff in Hin as [Hin|[E1|[]]]; auto. inv E1. eapply pcur_sends; eauto.
  Qed.

  (** ** No deadlock with few messages *)
  Lemma handed_step (x : PState Pr) ls p y : pst r x ls p -> p = PRun y -> existsb is_enter ls = false -> length (handed y) <= length (handed x) + received ls.
  Proof.
    intros H. unfold handed. rewrite !app_length, !map_length.
    destruct H as [l1 dest l2 E|l1 dest m pa l2 E Hl|l1 vm l2 E|l1 pm l2 E Hl|b Hp Hcf Hh|Hp Hcf Hh|b Hp E Hh|b c Hp E Hh|b Hp E Hh|b c Hp E Hh|e
      |dest m pa out a' E Hp Ea|dest m pa out o E Ea Ho|pm q a' Hp Hcf E Ea Hh|from m a' o Hp Hcf Ea Hh|la o Hl Ho|o Hp E Ho|s' c Hp E Ef|Hp E|Hpk Hlk Hh];
      intros K; try discriminate K; inv K; intros Hne; cbn [set_c set_p set_out set_proc set_phase set_acc set_hand pp_p pp_proc]; try lia.
    - rewrite E, !flat_map_app, !app_length. unfold hd_task. destruct (pm_res _); simpl; lia.
    - rewrite E, !flat_map_app, !app_length. simpl. lia.
    - rewrite E. simpl. lia.
    - rewrite E. simpl. lia.
    - unfold received. cbn [filter length]. destruct o; cbn [set_p set_acc pp_p pp_proc]; try lia. rewrite flat_map_app, app_length. simpl. lia.
    - cbn [existsb is_enter orb] in Hne. discriminate.
  Qed.
  Lemma handed_run (p : Par Pr) ls p' : par_run r p ls p' -> forall x y, p = PRun x -> p' = PRun y -> existsb is_enter ls = false -> length (handed y) <= length (handed x) + received ls.
  Proof.
    intros H. induction H as [p|p ls p1 act lx p2 Hr IH Hs]; intros x y -> E Hne; [inv E; lia|].
    destruct p1 as [x1|o]; [|discriminate Hs]. rewrite existsb_app in Hne. apply orb_false_iff in Hne as [Hn1 Hn2].
    pose proof (IH x x1 eq_refl eq_refl Hn1). pose proof (handed_step (@par_step_pst _ _ r _ _ _ _ Hs) E Hn2). unfold received in *. rewrite filter_app, app_length. lia.
  Qed.
  Lemma run_no_enter (p : Par Pr) ls p' : par_run r p ls p' -> forall x y, p = PRun x -> p' = PRun y -> existsb is_enter ls = false -> pp_s y = pp_s x.
  Proof.
    intros H. induction H as [p|p ls p1 act lx p2 Hr IH Hs]; intros x y -> E Hne; [now inv E|].
    destruct p1 as [x1|o]; [|discriminate Hs]. rewrite existsb_app in Hne. apply orb_false_iff in Hne as [Hn1 Hn2].
    rewrite <- (IH x x1 eq_refl eq_refl Hn1). subst p2. apply (@par_step_pst _ _ r) in Hs.
    inversion Hs as [| | | | | | | | | | | | | |from m a' o Hp Hcf Ea Hh| | |s' c Hp E Ef| |]; subst; auto; [now destruct o|discriminate].
  Qed.

  Lemma to_go_bound (x : PState Pr) : pinv r x -> length (to_go x) <= length (elements (message_destinations (pp_s x))).
  Proof.
    intros I. apply NoDup_incl_length; [exact (pi_nodup I)|]. intros u Hu. apply in_elements. exact (proj1 (pi_todo I u Hu)).
  Qed.

  Lemma channel_bound (x : PState Pr) : in_channel x <= length (pp_out x).
  Proof. unfold in_channel. destruct (pp_hand x); lia. Qed.
  Lemma prun_handy (p : Par Pr) ls p' : par_run r p ls p' -> match p with PRun x => handy x | _ => True end -> match p' with PRun x => handy x | _ => True end.
  Proof.
    intros H. induction H as [p|p ls p1 act lx p2 Hr IH Hs]; intros I; auto. specialize (IH I).
    destruct p1 as [x|o]; [|discriminate Hs]. exact (pst_handy (@par_step_pst _ _ r _ _ _ _ Hs) IH).
  Qed.
  Lemma handy_enter (s : Session Pr) c : handy (par_enter s c).
  Proof. intros H. discriminate H. Qed.
  Lemma can_put (x : PState Pr) : handy x -> pp_hand x = true -> exists ls p, par_step r (PRun x) (APut true) = Some (ls, p).
  Proof.
    intros Hy Hh. destruct (Hy Hh) as [_ Ho]. cbn [par_step]. rewrite Hh. unfold put_out. destruct (pp_out x) as [|[[dest m] pa] out]; [congruence|eauto].
  Qed.

  Lemma not_stuck (x : PState Pr) : pinv r x -> handy x -> length (elements (message_destinations (pp_s x))) <= capacity -> length (handed x) <= capacity ->
    exists act ls p, par_step r (PRun x) act = Some (ls, p).
  Proof.
    intros I Hy Hd Hh. pose proof (to_go_bound I) as Hb. unfold to_go in Hb. rewrite app_length, map_length in Hb. unfold handed in Hh. rewrite app_length, map_length in Hh.
    pose proof (channel_bound x) as Hcb.
    destruct (pp_hand x) eqn:Ehd; [exists (APut true); now apply can_put|].
    destruct (pp_phase x) as [|b|b|b] eqn:Hp.
    - destruct (can_finalize (pp_a x)) eqn:Hc; [exists AGo|exists ACancel|exists AGo]; cbn [par_step]; rewrite Ehd, Hp, Hc; eauto.
    - destruct (pp_c x) as [|[dest|dest m pa|o] c] eqn:Hc.
      + exists AGo. cbn [par_step]. rewrite Ehd, Hp, Hc. eauto.
      + exists (ACreate 0). cbn [par_step]. rewrite Hc. cbn [nth_error]. eauto.
      + exists (ACreate 0). cbn [par_step]. rewrite Hc. cbn [nth_error]. cbn [pend_c flat_map app length] in Hb. rewrite (proj2 (Nat.ltb_lt _ _)); [eauto|lia].
      + exists AGo. cbn [par_step]. rewrite Ehd, Hp, Hc. eauto.
    - destruct (pp_p x) as [|[vm|pm|o] c] eqn:Hc.
      + exists AGo. cbn [par_step]. rewrite Ehd, Hp, Hc. eauto.
      + exists (AHandle 0). cbn [par_step]. rewrite Hc. cbn [nth_error]. eauto.
      + exists (AHandle 0). cbn [par_step]. rewrite Hc. cbn [nth_error]. cbn [flat_map app length] in Hh. rewrite (proj2 (Nat.ltb_lt _ _)); [eauto|lia].
      + exists AGo. cbn [par_step]. rewrite Ehd, Hp, Hc. eauto.
    - destruct (pp_out x) as [|[[dest m] pa] out] eqn:Ho.
      + exists AGo. cbn [par_step]. rewrite Ehd, Hp, Ho. destruct b; eauto. destruct (finalize_round _ _ _) as [[rep|s c]|e|]; eauto.
      + exists ATakeOut. cbn [par_step]. rewrite Ehd, Ho. unfold looks. rewrite Hp. eauto.
  Qed.

  Lemma handed_enter (s : Session Pr) cached : handed (par_enter s cached) = cached.
  Proof.
    unfold handed, par_enter. cbn [pp_p pp_proc map]. rewrite app_nil_r. induction cached as [|y c IH]; simpl; auto. now rewrite IH.
  Qed.

  Lemma few_no_deadlock (s : Session Pr) cached ls p : par_run r (PRun (par_enter s cached)) ls p -> existsb is_enter ls = false ->
    length (elements (message_destinations s)) <= capacity -> length cached + received ls <= capacity -> ~ deadlocked r p.
  Proof.
    intros H Hne Hd Hc ((x & ->) & Hstuck). pose proof (handed_run H eq_refl eq_refl Hne) as Hh. rewrite handed_enter in Hh.
    destruct (@not_stuck x) as (act & l & p & Hs); [exact (prun_pinv H (pinv_enter r s cached))|exact (prun_handy H (@handy_enter s cached))| |lia|rewrite Hstuck in Hs; discriminate].
    rewrite (run_no_enter H eq_refl eq_refl Hne). exact Hd.
  Qed.

  (** ** Everything the driver does by itself comes to an end *)
  Definition weight_c (t : ctask Pr) : nat := match t with CMake _ => 5 | CSend _ _ _ => 4 | CEnd _ => 1 end.
  Definition weight_p (t : ptask Pr) : nat := match t with PMake _ => 5 | PSend _ => 4 | PEnd _ => 1 end.
  Definition weight (x : PState Pr) : nat :=
    list_sum (map weight_c (pp_c x)) + list_sum (map weight_p (pp_p x)) + 2 * length (pp_out x) + 2 * length (pp_proc x) +
    match pp_phase x with Loop => 3 | JoinC _ => 2 | JoinP _ => 1 | Drain _ => 0 end + (if pp_hand x then 0 else 1).
  Lemma weight_step (x : PState Pr) ls y : pst r x ls (PRun y) -> received ls = 0 -> existsb is_enter ls = false -> weight y < weight x.
  Proof.
    intros H. unfold weight.
    inversion H as [l1 dest l2 E|l1 dest m pa l2 E Hl|l1 vm l2 E|l1 pm l2 E Hl|b Hp Hcf Hh|Hp Hcf Hh|b Hp E Hh|b c Hp E Hh|b Hp E Hh|b c Hp E Hh|
      |dest m pa out a' E Hp Ea| |pm q a' Hp Hcf E Ea Hh|from m a' o Hp Hcf Ea Hh| | |s' c Hp E Ef| |Hpk Hlk Hh]; subst; intros Hr Hne;
      try discriminate; cbn [set_c set_p set_out set_proc set_phase set_acc set_hand pp_c pp_out pp_hand pp_phase pp_p pp_proc].
    - rewrite E, !map_app, !list_sum_app. cbn [map list_sum]. unfold mk_task. destruct (mk _ _ _) as [[]| |]; simpl; lia.
    - rewrite E, !map_app, !list_sum_app, app_length. simpl. lia.
    - rewrite E, !map_app, !list_sum_app. cbn [map list_sum]. unfold hd_task. destruct (pm_res _); simpl; lia.
    - rewrite E, !map_app, !list_sum_app, app_length. simpl. lia.
    - rewrite Hp. lia.
    - rewrite Hp. lia.
    - rewrite Hp. lia.
    - rewrite E. simpl. lia.
    - rewrite Hp. lia.
    - rewrite E. simpl. lia.
    - rewrite E. simpl. lia.
    - rewrite E. simpl. lia.
    - rewrite Hh. lia.
  Qed.

  Lemma no_infinite_work (f : nat -> PState Pr) : ~ forall i, exists ls act, par_step r (PRun (f i)) act = Some (ls, PRun (f (S i))) /\
    received ls = 0 /\ existsb is_enter ls = false.
  Proof.
    intros H. assert (K : forall i, weight (f i) + i <= weight (f 0)).
    { induction i as [|i IH]; [lia|]. destruct (H i) as (ls & act & Hs & H1 & H2). pose proof (weight_step (@par_step_pst _ _ r _ _ _ _ Hs) H1 H2). lia. }
    specialize (K (S (weight (f 0)))). lia.
  Qed.

  (** ** Deadlock: a round that expects nothing and sends to more than 100 parties *)
  Record jam (s : Session Pr) (x : PState Pr) : Prop := {
    jm_s : pp_s x = s;
    jm_a : pp_a x = make_accumulator s;
    jm_phase : pp_phase x = Loop \/ pp_phase x = JoinC true;
    jm_p : pp_p x = []; jm_proc : pp_proc x = [];
    jm_hand : pp_hand x = false;
    jm_cap : length (pp_out x) <= capacity;
    jm_count : length (elements (message_destinations s)) <= length (filter (fun t => match t with CEnd (Ok _) => false | _ => true end) (pp_c x)) + length (pp_out x);
    jm_made : (forall dest, mem dest (message_destinations s) = true -> exists y, mk r s dest = Ok y) ->
      forall t, In t (pp_c x) -> match t with CMake dest => mem dest (message_destinations s) = true | CSend _ _ _ => True | CEnd o => o = Ok tt end
  }.
  Lemma jam_enter (s : Session Pr) : jam s (par_enter s []).
  Proof.
    constructor; cbn [par_enter pp_s pp_a pp_c pp_p pp_out pp_proc pp_phase map]; auto.
    - simpl. unfold capacity. lia.
    - rewrite Nat.add_0_r. generalize (elements (message_destinations s)). induction l as [|u l IH]; simpl; lia.
    - intros _ t Hin. apply in_map_iff in Hin as (u & <- & Hu). now apply in_elements.
  Qed.
  Lemma filter_mid {A} (f : A -> bool) l1 y l2 : length (filter f (l1 ++ y :: l2)) = length (filter f l1) + (if f y then 1 else 0) + length (filter f l2).
  Proof. rewrite filter_app, app_length. simpl. destruct (f y); simpl; lia. Qed.

  Lemma jam_step (s : Session Pr) x act ls p : capacity < length (elements (message_destinations s)) -> can_finalize (make_accumulator s) = Yes ->
    jam s x -> par_step r (PRun x) act = Some (ls, p) -> ls = [] /\
    ((exists y, p = PRun y /\ jam s y) \/
     (exists e, p = PStop (Err e)) /\ ~ (forall dest, mem dest (message_destinations s) = true -> exists y, mk r s dest = Ok y)).
  Proof.
    intros Hn Hy [J1 J2 J3 J4 J5 J0 J6 J7 J8] Hs.
    assert (Hc : can_finalize (pp_a x) = Yes) by (rewrite J2; exact Hy).
    assert (Hin : forall (t y : ctask Pr) l1 l2, In y (l1 ++ t :: l2) <-> t = y \/ In y (l1 ++ l2)).
    { intros t y l1 l2. rewrite !in_app_iff. simpl. tauto. }
    destruct act as [i|i| |b| |from m| | |]; cbn [par_step] in Hs; try rewrite J0 in Hs.
    - destruct (nth_error (pp_c x) i) as [[dest|dest m pa|o]|] eqn:En; try discriminate.
      + destruct (set_nth_split i (pp_c x) (mk_task r (pp_s x) dest) En) as (l1 & l2 & E1 & E2). stp Hs. split; auto. left. eexists. split; [reflexivity|].
        unfold mk_task, mk in E2. rewrite E2. fold (mk r (pp_s x) dest) in *. fold (mk_task r (pp_s x) dest).
        constructor; cbn [set_c pp_s pp_a pp_c pp_p pp_out pp_proc pp_phase]; auto.
        * rewrite E1 in J7. rewrite filter_mid in J7 |- *. unfold mk_task. destruct (mk r (pp_s x) dest) as [[m pa]|e|]; lia.
        * intros Hall t Ht. rewrite E1 in J8. apply Hin in Ht as [<-|Ht]; [|apply J8; auto; apply Hin; auto].
          assert (Hd : mem dest (message_destinations s) = true) by (apply (J8 Hall (CMake dest)); apply Hin; auto).
          destruct (Hall dest Hd) as [[m pa] Hm]. unfold mk_task. rewrite J1, Hm. exact I.
      + destruct (Nat.ltb _ _) eqn:El; try discriminate. apply Nat.ltb_lt in El. unfold in_channel in El. rewrite J0 in El.
        destruct (set_nth_split i (pp_c x) (CEnd (Ok tt)) En) as (l1 & l2 & E1 & E2). stp Hs. split; auto. left. eexists. split; [reflexivity|]. rewrite E2.
        constructor; cbn [set_c set_out pp_s pp_a pp_c pp_p pp_out pp_proc pp_phase]; auto.
        * rewrite app_length. simpl. lia.
        * rewrite E1 in J7. rewrite filter_mid in J7 |- *. rewrite app_length. simpl. lia.
        * intros Hall t Ht. rewrite E1 in J8. apply Hin in Ht as [<-|Ht]; [reflexivity|apply J8; auto; apply Hin; auto].
    - rewrite J4 in Hs. destruct i; discriminate.
    - unfold looks in Hs. rewrite Hc in Hs. destruct (pp_out x); [discriminate|]. destruct J3 as [J3|J3]; rewrite J3 in Hs; discriminate.
    - discriminate.
    - rewrite Hc in Hs. destruct J3 as [J3|J3]; rewrite J3 in Hs; discriminate.
    - rewrite Hc in Hs. destruct J3 as [J3|J3]; rewrite J3 in Hs; discriminate.
    - rewrite Hc in Hs. destruct J3 as [J3|J3]; rewrite J3 in Hs; discriminate.
    - rewrite Hc in Hs. destruct J3 as [J3|J3]; rewrite J3 in Hs; discriminate.
    - destruct J3 as [J3|J3]; rewrite J3 in Hs.
      + rewrite Hc in Hs. stp Hs. split; auto. left. eexists. split; [reflexivity|]. constructor; cbn [set_phase pp_s pp_a pp_c pp_p pp_out pp_proc pp_phase]; auto.
      + destruct (pp_c x) as [|[dest|dest m pa|o] c] eqn:Ec; try discriminate; stp Hs; split; auto; [simpl in J7; lia|].
        destruct o as [[]|e|]; cbn [joined].
        * left. eexists. split; [reflexivity|]. constructor; cbn [set_c pp_s pp_a pp_c pp_p pp_out pp_proc pp_phase]; auto. intros Hall t Ht. apply J8; auto. now right.
        * right. split; eauto. intros Hall. specialize (J8 Hall (CEnd (Err e)) (or_introl eq_refl)). discriminate.
        * right. split; eauto. intros Hall. specialize (J8 Hall (CEnd Panic) (or_introl eq_refl)). discriminate.
  Qed.

  Lemma silent_round_jams (s : Session Pr) ls p : capacity < length (elements (message_destinations s)) -> can_finalize (make_accumulator s) = Yes ->
    par_run r (PRun (par_enter s [])) ls p -> ls = [] /\
    ((exists x, p = PRun x) \/
     (exists e, p = PStop (Err e)) /\ ~ (forall dest, mem dest (message_destinations s) = true -> exists y, mk r s dest = Ok y)).
  Proof.
    intros Hn Hy H. assert (K : ls = [] /\ ((exists x, p = PRun x /\ jam s x) \/
      (exists e, p = PStop (Err e)) /\ ~ (forall dest, mem dest (message_destinations s) = true -> exists y, mk r s dest = Ok y))).
    { remember (PRun (par_enter s [])) as p0 eqn:E0. induction H as [p|p ls p1 act lx p2 Hr IH Hs]; subst.
      - split; auto. left. exists (par_enter s []). split; auto. apply jam_enter.
      - destruct (IH eq_refl) as (-> & [(x & -> & J)|((e & ->) & _)]); [|discriminate Hs].
        destruct (@jam_step s x act lx p2 Hn Hy J Hs) as (-> & K). auto. }
    destruct K as (-> & [(x & -> & _)|K]); eauto.
  Qed.

  (** ** The statements of the properties *)
  Lemma no_enter (ls : list (dlabel Pr)) : (forall s', ~ In (LEnter s') ls) -> existsb is_enter ls = false.
  Proof.
    intros H. apply not_true_iff_false. intros E. apply existsb_exists in E as (l & Hin & Hl). destruct l; try discriminate Hl. exact (H _ Hin).
  Qed.
  Lemma few_messages (s : Session Pr) cached ls p : par_run r (PRun (par_enter s cached)) ls p -> (forall s', ~ In (LEnter s') ls) ->
    length (elements (message_destinations s)) <= 100 -> length cached + received ls <= 100 -> ~ deadlocked r p.
  Proof. intros H K. exact (few_no_deadlock H (no_enter _ K)). Qed.
  Lemma finite_work (f : nat -> PState Pr) : ~ forall i, exists ls act, par_step r (PRun (f i)) act = Some (ls, PRun (f (S i))) /\
    forall l, In l ls -> ~ (exists from m, l = LIn from m) /\ ~ (exists s, l = LEnter s).
  Proof.
    intros H. apply (@no_infinite_work f). intros i. destruct (H i) as (ls & act & Hs & Hl). exists ls, act. split; [exact Hs|]. split.
    - unfold received. replace (filter _ ls) with (@nil (dlabel Pr)); [reflexivity|]. clear Hs. induction ls as [|l ls IH]; auto. cbn [filter].
      destruct (Hl l (or_introl eq_refl)) as [H1 _]. destruct l; try (apply IH; intros l0 Hin; apply Hl; now right). destruct H1; eauto.
    - apply no_enter. intros s' Hin. destruct (Hl _ Hin) as [_ H2]. eauto.
  Qed.
End Par.
