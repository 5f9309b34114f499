(** Facts about session/tokio.rs [par_run_session]. *)
From Coq Require Import List NArith Bool Arith Lia Permutation.
From Verif Require Import Base BMap Errors RoundId Message Protocol Transcript Evidence Session Spec SpecCrypto
  MessageFacts SessionFacts RunFacts IntakeFacts RoundFacts FinalizeFacts HistoryFacts LocalFacts Network SpecNet NetFacts RunSync SpecSync QueueFacts
  RunSyncFacts Driver SpecDriver DriverFacts Par SpecPar.
Import ListNotations.
Set Implicit Arguments.

Lemma set_nth_split {A} i (l : list A) y z : nth_error l i = Some y -> exists l1 l2, l = l1 ++ y :: l2 /\ set_nth i z l = l1 ++ z :: l2.
Proof.
  revert l. induction i as [|i IH]; intros [|x l] E; try discriminate; simpl in *.
  - inv E. exists [], l. auto.
  - destruct (IH l E) as (l1 & l2 & -> & ->). exists (x :: l1), l2. auto.
Qed.
Lemma nth_split_back {A} (l1 : list A) y l2 : nth_error (l1 ++ y :: l2) (length l1) = Some y.
Proof. induction l1; simpl; auto. Qed.

Section Par.
  Context {P : Params}.
  Context {Pr : Proto}.
  Variable r : NetRng.

  Definition mk (s : Session Pr) (dest : Verifier) := make_message s (nr_msg r (s_verifier s) (s_round_id s) dest) dest.
  Definition mk_task (s : Session Pr) (dest : Verifier) : ctask Pr :=
    match mk s dest with Ok (m, pa) => CSend dest m pa | Err e => CEnd (Err e) | Panic => CEnd Panic end.
  Definition hd_task (s : Session Pr) (vm : VMessage) : ptask Pr :=
    match pm_res (process_message s vm) with Panic => PEnd Panic | _ => PSend (process_message s vm) end.

  (** The possible steps, one by one. *)
  Inductive pst (x : PState Pr) : list (dlabel Pr) -> Par Pr -> Prop :=
  | ps_make l1 dest l2 : pp_c x = l1 ++ CMake dest :: l2 -> pst x [] (PRun (set_c x (l1 ++ mk_task (pp_s x) dest :: l2)))
  | ps_queue l1 dest m pa l2 : pp_c x = l1 ++ CSend dest m pa :: l2 -> in_channel x < capacity ->
      pst x [] (PRun (set_out (set_c x (l1 ++ CEnd (Ok tt) :: l2)) (pp_out x ++ [(dest, m, pa)])))
  | ps_handle l1 vm l2 : pp_p x = l1 ++ PMake vm :: l2 -> pst x [] (PRun (set_p x (l1 ++ hd_task (pp_s x) vm :: l2)))
  | ps_hqueue l1 pm l2 : pp_p x = l1 ++ PSend pm :: l2 -> length (pp_proc x) < capacity ->
      pst x [] (PRun (set_proc (set_p x (l1 ++ PEnd (Ok tt) :: l2)) (pp_proc x ++ [pm])))
  | ps_break (b : bool) : pp_phase x = Loop -> can_finalize (pp_a x) = (if b then Yes else Never) -> pp_hand x = false -> pst x [] (PRun (set_phase x (JoinC b)))
  | ps_cancel : pp_phase x = Loop -> can_finalize (pp_a x) = NotYet -> pp_hand x = false -> pst x [LCancel] (PRun (set_phase x (JoinC false)))
  | ps_joinp b : pp_phase x = JoinC b -> pp_c x = [] -> pp_hand x = false -> pst x [] (PRun (set_phase x (JoinP b)))
  | ps_joinc b c : pp_phase x = JoinC b -> pp_c x = CEnd (Ok tt) :: c -> pp_hand x = false -> pst x [] (PRun (set_c x c))
  | ps_drain b : pp_phase x = JoinP b -> pp_p x = [] -> pp_hand x = false -> pst x [] (PRun (set_phase x (Drain b)))
  | ps_joinp1 b p : pp_phase x = JoinP b -> pp_p x = PEnd (Ok tt) :: p -> pp_hand x = false -> pst x [] (PRun (set_p x p))
  | ps_fail_join (e : LocalError) : pst x [] (PStop (Err e))
  | ps_out dest m pa out a : pp_out x = (dest, m, pa) :: out -> pp_hand x = true ->
      add_artifact (pp_a x) pa = (a, Ok tt) -> pst x [LOut dest m] (PRun (set_acc (set_hand (set_out x out) false) a))
  | ps_out_fail dest m pa out o : pp_out x = (dest, m, pa) :: out -> (forall a, add_artifact (pp_a x) pa <> (a, Ok tt)) ->
      (forall rep, o <> Ok rep) -> pst x [LOut dest m] (PStop o)
  | ps_take pm q a : pp_phase x = Loop -> can_finalize (pp_a x) = NotYet -> pp_proc x = pm :: q ->
      add_processed (pp_s x) (pp_a x) pm = (a, Ok tt) -> pp_hand x = false -> pst x [LApply (pm_msg pm)] (PRun (set_acc (set_proc x q) a))
  | ps_recv from m a o : pp_phase x = Loop -> can_finalize (pp_a x) = NotYet -> preprocess_message (pp_s x) (pp_a x) from m = (a, Ok o) -> pp_hand x = false ->
      pst x [LIn from m] (PRun (match o with ToProcess vm => set_p (set_acc x a) (pp_p x ++ [PMake vm]) | _ => set_acc x a end))
  | ps_fail (l : dlabel Pr) o : match l with LOut _ _ | LEnter _ | LFinalize _ _ | LGiveUp _ _ => False | _ => True end -> (forall rep, o <> Ok rep) -> pst x [l] (PStop o)
  | ps_fin o : pp_phase x = Drain true -> pp_out x = [] ->
      (forall rep, o = Ok rep -> finalize_round (pp_s x) (nr_fin r (s_verifier (pp_s x)) (s_round_id (pp_s x))) (pp_a x) = Ok (ROFinished rep)) ->
      pst x [LFinalize (pp_s x) (pp_a x)] (PStop o)
  | ps_next s c : pp_phase x = Drain true -> pp_out x = [] ->
      finalize_round (pp_s x) (nr_fin r (s_verifier (pp_s x)) (s_round_id (pp_s x))) (pp_a x) = Ok (ROAnother s c) ->
      pst x [LFinalize (pp_s x) (pp_a x); LEnter s] (PRun (par_enter s c))
  | ps_giveup : pp_phase x = Drain false -> pp_out x = [] ->
      pst x [LGiveUp (pp_s x) (pp_a x)] (PStop (terminate_due_to_errors (pp_s x) (pp_a x)))
  | ps_pick : pp_out x <> [] -> looks x = true -> pp_hand x = false -> pst x [] (PRun (set_hand x true)).

  Lemma par_step_pst x act ls p : par_step r (PRun x) act = Some (ls, p) -> pst x ls p.
  Proof.
    destruct act as [i|i| |sent| |from m| | |]; cbn [par_step].
    - destruct (nth_error (pp_c x) i) as [[dest|dest m pa|o]|] eqn:En; try discriminate.
      + intros E. stp E. destruct (set_nth_split i (pp_c x) (mk_task (pp_s x) dest) En) as (l1 & l2 & E1 & E2).
        unfold mk_task, mk in E2. rewrite E2. exact (@ps_make x l1 dest l2 E1).
      + destruct (Nat.ltb _ _) eqn:El; try discriminate. intros E. stp E. apply Nat.ltb_lt in El.
        destruct (set_nth_split i (pp_c x) (CEnd (Ok tt)) En) as (l1 & l2 & E1 & E2). rewrite E2. econstructor; eauto.
    - destruct (nth_error (pp_p x) i) as [[vm|pm|o]|] eqn:En; try discriminate.
      + intros E. stp E. destruct (set_nth_split i (pp_p x) (hd_task (pp_s x) vm) En) as (l1 & l2 & E1 & E2).
        unfold hd_task in E2. cbn zeta. rewrite E2. exact (@ps_handle x l1 vm l2 E1).
      + destruct (Nat.ltb _ _) eqn:El; try discriminate. intros E. stp E. apply Nat.ltb_lt in El.
        destruct (set_nth_split i (pp_p x) (PEnd (Ok tt)) En) as (l1 & l2 & E1 & E2). rewrite E2. econstructor; eauto.
    - destruct (pp_hand x) eqn:Eh; try discriminate. destruct (pp_out x) eqn:Eo; try discriminate. destruct (looks x) eqn:El; try discriminate.
      intros E. stp E. apply ps_pick; auto. now rewrite Eo.
    - destruct (pp_hand x) eqn:Eh; try discriminate. unfold put_out. destruct (pp_out x) as [|[[dest m] pa] out] eqn:Eo; try discriminate. destruct sent; intros E; stp E.
      + destruct (add_artifact (pp_a x) pa) as [a [[]|e|]] eqn:Ea; cbn [acc_call bind par_try fst].
        * econstructor; eauto.
        * eapply ps_out_fail; eauto; [intros a'; rewrite Ea; discriminate|discriminate].
        * eapply ps_out_fail; eauto; [intros a'; rewrite Ea; discriminate|discriminate].
      + apply ps_fail; [exact I|discriminate].
    - destruct (pp_hand x) eqn:Eh; try discriminate. destruct (pp_phase x) eqn:Ep; try discriminate. destruct (can_finalize (pp_a x)) eqn:Ec; try discriminate.
      destruct (pp_proc x) as [|pm q] eqn:Eq; try discriminate. intros E. stp E.
      destruct (add_processed (pp_s x) (pp_a x) pm) as [a [[]|e|]] eqn:Ea; cbn [acc_call bind par_try fst]; [econstructor; eauto|apply ps_fail; [exact I|discriminate]..].
    - destruct (pp_hand x) eqn:Eh; try discriminate. destruct (pp_phase x) eqn:Ep; try discriminate. destruct (can_finalize (pp_a x)) eqn:Ec; try discriminate. intros E. stp E.
      destruct (preprocess_message (pp_s x) (pp_a x) from m) as [a [o|e|]] eqn:Ea; cbn [acc_call bind par_try fst snd]; [|apply ps_fail; [exact I|discriminate]..].
      exact (@ps_recv x from m a o Ep Ec Ea Eh).
    - destruct (pp_hand x) eqn:Eh; try discriminate. destruct (pp_phase x) eqn:Ep; try discriminate. destruct (can_finalize (pp_a x)) eqn:Ec; try discriminate. intros E. stp E. apply ps_fail; [exact I|discriminate].
    - destruct (pp_hand x) eqn:Eh; try discriminate. destruct (pp_phase x) eqn:Ep; try discriminate. destruct (can_finalize (pp_a x)) eqn:Ec; try discriminate. intros E. stp E. now apply ps_cancel.
    - destruct (pp_hand x) eqn:Eh; try discriminate. destruct (pp_phase x) as [|b|b|b] eqn:Ep.
      + destruct (can_finalize (pp_a x)) eqn:Ec; try discriminate; intros E; stp E; apply ps_break; auto.
      + destruct (pp_c x) as [|[dest|dest m pa|o] c] eqn:Ec; try discriminate; intros E; stp E; [now apply ps_joinp|].
        destruct o as [[]|e|]; cbn [joined]; [eapply ps_joinc; eauto|apply ps_fail_join..].
      + destruct (pp_p x) as [|[vm|pm|o] c] eqn:Ec; try discriminate; intros E; stp E; [now apply ps_drain|].
        destruct o as [[]|e|]; cbn [joined]; [eapply ps_joinp1; eauto|apply ps_fail_join..].
      + destruct (pp_out x) eqn:Eo; try discriminate. destruct b.
        * destruct (finalize_round _ _ _) as [[rep|s c]|e|] eqn:Ef; intros E; stp E.
          -- apply ps_fin; auto. intros rep' E. now inv E.
          -- now apply ps_next.
          -- apply ps_fin; auto. discriminate.
          -- apply ps_fin; auto. discriminate.
        * intros E. stp E. now apply ps_giveup.
  Qed.

  (** The driver sends only where it waits for the messages that are to be sent. *)
  Definition handy (x : PState Pr) : Prop := pp_hand x = true -> looks x = true /\ pp_out x <> [].
  Lemma pst_handy x ls p : pst x ls p -> handy x -> match p with PRun y => handy y | PStop _ => True end.
  Proof.
    intros H I. destruct H; auto; unfold handy in *; cbn [set_c set_p set_acc set_out set_proc set_phase set_hand par_enter pp_hand]; try (intros; discriminate); try (intros; congruence).
    - intros Hh. destruct (I Hh) as [H1 H2]. split; [exact H1|]. cbn [set_out pp_out]. intros E. apply app_eq_nil in E as [_ E]. discriminate.
    - destruct o; cbn [set_p set_acc pp_hand]; intros; congruence.
    - intros _. split; assumption.
  Qed.

  (** ** Where every message is *)
  Definition pend_c (l : list (ctask Pr)) : list Verifier :=
    flat_map (fun t => match t with CMake dest => [dest] | CSend dest _ _ => [dest] | CEnd _ => [] end) l.
  Definition pend_p (l : list (ptask Pr)) : list VMessage :=
    flat_map (fun t => match t with PMake vm => [vm] | PSend pm => [pm_msg pm] | PEnd _ => [] end) l.
  Definition failed (l : list (ctask Pr)) : Prop := exists o, In (CEnd o) l /\ o <> Ok tt.
  Definition to_go (x : PState Pr) : list Verifier := pend_c (pp_c x) ++ map (fun y => fst (fst y)) (pp_out x).
  Definition in_loop (ph : phase) : Prop := ph = Loop.

  Record pinv (x : PState Pr) : Prop := {
    pi_nodup : NoDup (to_go x);
    pi_todo : forall u, In u (to_go x) -> mem u (message_destinations (pp_s x)) = true /\ contains u (a_artifacts (pp_a x)) = false;
    pi_all : forall u, mem u (message_destinations (pp_s x)) = true -> In u (to_go x) \/ contains u (a_artifacts (pp_a x)) = true \/ failed (pp_c x);
    pi_csend : forall dest m pa, In (CSend dest m pa) (pp_c x) -> mk (pp_s x) dest = Ok (m, pa);
    pi_out : forall dest m pa, In (dest, m, pa) (pp_out x) -> mk (pp_s x) dest = Ok (m, pa);
    pi_psend : forall pm, In (PSend pm) (pp_p x) -> pm = process_message (pp_s x) (pm_msg pm);
    pi_proc : forall pm, In pm (pp_proc x) -> pm = process_message (pp_s x) (pm_msg pm);
    pi_phase : match pp_phase x with
               | Loop => True
               | JoinC b => b = true -> can_finalize (pp_a x) = Yes
               | JoinP b => pp_c x = [] /\ (b = true -> can_finalize (pp_a x) = Yes)
               | Drain b => pp_c x = [] /\ pp_p x = [] /\ (b = true -> can_finalize (pp_a x) = Yes)
               end
  }.

  Lemma pinv_enter (s : Session Pr) c : pinv (par_enter s c).
  Proof.
    assert (E : to_go (par_enter s c) = elements (message_destinations s)).
    { unfold to_go, par_enter. cbn [pp_c pp_out]. rewrite app_nil_r. generalize (elements (message_destinations s)).
      induction l as [|u l IH]; auto. simpl. now rewrite IH. }
    constructor; try rewrite E; unfold par_enter; cbn [pp_s pp_a pp_c pp_p pp_out pp_proc pp_phase].
    - apply NoDup_elements.
    - intros u Hu. apply in_elements in Hu. split; auto.
    - intros u Hu. left. now apply in_elements.
    - intros dest m pa Hin. apply in_map_iff in Hin as (u & E1 & _). discriminate.
    - intros dest m pa [].
    - intros pm Hin. apply in_map_iff in Hin as (u & E1 & _). discriminate.
    - intros pm [].
    - exact I.
  Qed.

  Lemma pend_c_app l1 l2 : pend_c (l1 ++ l2) = pend_c l1 ++ pend_c l2. Proof. apply flat_map_app. Qed.
  Lemma pend_p_app l1 l2 : pend_p (l1 ++ l2) = pend_p l1 ++ pend_p l2. Proof. apply flat_map_app. Qed.

  (** The steps that leave the creation side alone. *)
  Lemma pinv_same x y : pp_s y = pp_s x -> pp_c y = pp_c x -> pp_out y = pp_out x ->
    a_artifacts (pp_a y) = a_artifacts (pp_a x) -> pinv x ->
    (forall pm, In (PSend pm) (pp_p y) -> In (PSend pm) (pp_p x) \/ exists vm, pm = process_message (pp_s x) vm) ->
    (forall pm, In pm (pp_proc y) -> In pm (pp_proc x) \/ In (PSend pm) (pp_p x)) ->
    match pp_phase y with
    | Loop => True
    | JoinC b => b = true -> can_finalize (pp_a y) = Yes
    | JoinP b => pp_c y = [] /\ (b = true -> can_finalize (pp_a y) = Yes)
    | Drain b => pp_c y = [] /\ pp_p y = [] /\ (b = true -> can_finalize (pp_a y) = Yes)
    end -> pinv y.
  Proof.
    intros E1 E2 E3 E4 I Hp Hq Hph. assert (E : to_go y = to_go x) by (unfold to_go; now rewrite E2, E3).
    destruct I. constructor; try rewrite E; try rewrite E1; try rewrite E2; try rewrite E3; try rewrite E4; auto.
    - intros pm Hin. destruct (Hp pm Hin) as [H|[vm ->]]; auto.
    - intros pm Hin. destruct (Hq pm Hin) as [H|H]; auto.
    - rewrite <- E2. exact Hph.
  Qed.

  Lemma can_finalize_art (a : Accum Pr) m : can_finalize (set_artifacts a m) = can_finalize a.
  Proof. reflexivity. Qed.

  Lemma pst_pinv x ls p : pst x ls p -> pinv x -> match p with PRun y => pinv y | PStop _ => True end.
  Proof.
    intros H I. destruct H as [l1 dest l2 E|l1 dest m pa l2 E Hl|l1 vm l2 E|l1 pm l2 E Hl|b Hp Hc Hh|Hp Hc Hh|b Hp E Hh|b c Hp E Hh|b Hp E Hh|b c Hp E Hh|e
      |dest m pa out a E Hp Ea|dest m pa out o E Ea Ho|pm q a Hp Hc E Ea Hh|from m a o Hp Hc Ea Hh|l o Hl Ho|o Hp E Ho|s c Hp E Ef|Hp E|Hpk Hlk Hhd]; auto.
    - assert (Ho : forall b, pp_phase x = JoinP b \/ pp_phase x = Drain b -> False).
      { intros b Hb. pose proof (pi_phase I) as K. destruct Hb as [Hb|Hb]; rewrite Hb in K; destruct K as [K _]; rewrite K in E; destruct l1; discriminate. }
      destruct I as [I1 I2 I3 I4 I5 I6 I7 I8]. unfold to_go in *. rewrite E in *. rewrite pend_c_app in I1, I2, I3. cbn [pend_c flat_map app] in I1, I2, I3. fold (pend_c l2) in I1, I2, I3.
      assert (Hph : forall z : list (ctask Pr), match pp_phase x with
                 | Loop => True
                 | JoinC b => b = true -> can_finalize (pp_a x) = Yes
                 | JoinP b => z = [] /\ (b = true -> can_finalize (pp_a x) = Yes)
                 | Drain b => z = [] /\ pp_p x = [] /\ (b = true -> can_finalize (pp_a x) = Yes)
                 end).
      { intros z. destruct (pp_phase x) as [|b|b|b]; auto; destruct (Ho b); auto. }
      assert (Hin : forall t y, In y (l1 ++ t :: l2) <-> t = y \/ In y (l1 ++ l2)).
      { intros t y. rewrite !in_app_iff. simpl. tauto. }
      unfold mk_task. destruct (mk (pp_s x) dest) as [[m pa]|e|] eqn:Em.
      + constructor; unfold to_go; cbn [set_c pp_s pp_a pp_c pp_p pp_out pp_proc pp_phase]; auto; try (rewrite pend_c_app; cbn [pend_c flat_map app]; auto).
        * intros u Hu. destruct (I3 u Hu) as [H|[H|(o & H & Hn)]]; auto. right; right. exists o. split; auto. apply Hin in H as [H|H]; [discriminate|]. apply Hin. auto.
        * intros u m' pa' H. apply Hin in H as [H|H]; [now inv H|]. apply I4, Hin. auto.
        * apply Hph.
      + assert (Hp : Permutation (dest :: (pend_c l1 ++ pend_c l2) ++ map (fun y => fst (fst y)) (pp_out x)) ((pend_c l1 ++ dest :: pend_c l2) ++ map (fun y => fst (fst y)) (pp_out x))).
        { rewrite <- !app_assoc. simpl. apply Permutation_middle. }
        constructor; unfold to_go; cbn [set_c pp_s pp_a pp_c pp_p pp_out pp_proc pp_phase]; auto; try (rewrite pend_c_app; cbn [pend_c flat_map app]; fold (pend_c l2)).
        * apply (Permutation_NoDup (Permutation_sym Hp)) in I1. now inversion I1.
        * intros u Hu. apply I2. apply (Permutation_in _ Hp). now right.
        * intros u Hu. right; right. exists (Err e). split; [|discriminate]. apply Hin. auto.
        * intros u m' pa' H. apply Hin in H as [H|H]; [discriminate|]. apply I4, Hin. auto.
        * apply Hph.
      + assert (Hp : Permutation (dest :: (pend_c l1 ++ pend_c l2) ++ map (fun y => fst (fst y)) (pp_out x)) ((pend_c l1 ++ dest :: pend_c l2) ++ map (fun y => fst (fst y)) (pp_out x))).
        { rewrite <- !app_assoc. simpl. apply Permutation_middle. }
        constructor; unfold to_go; cbn [set_c pp_s pp_a pp_c pp_p pp_out pp_proc pp_phase]; auto; try (rewrite pend_c_app; cbn [pend_c flat_map app]; fold (pend_c l2)).
        * apply (Permutation_NoDup (Permutation_sym Hp)) in I1. now inversion I1.
        * intros u Hu. apply I2. apply (Permutation_in _ Hp). now right.
        * intros u Hu. right; right. exists Panic. split; [|discriminate]. apply Hin. auto.
        * intros u m' pa' H. apply Hin in H as [H|H]; [discriminate|]. apply I4, Hin. auto.
        * apply Hph.
    - assert (Ho : forall b, pp_phase x = JoinP b \/ pp_phase x = Drain b -> False).
      { intros b Hb. pose proof (pi_phase I) as K. destruct Hb as [Hb|Hb]; rewrite Hb in K; destruct K as [K _]; rewrite K in E; destruct l1; discriminate. }
      destruct I as [I1 I2 I3 I4 I5 I6 I7 I8]. unfold to_go in *. rewrite E in *. rewrite pend_c_app in I1, I2, I3. cbn [pend_c flat_map app] in I1, I2, I3. fold (pend_c l2) in I1, I2, I3.
      assert (Hin : forall t y, In y (l1 ++ t :: l2) <-> t = y \/ In y (l1 ++ l2)).
      { intros t y. rewrite !in_app_iff. simpl. tauto. }
      assert (Hp : Permutation ((pend_c l1 ++ dest :: pend_c l2) ++ map (fun y => fst (fst y)) (pp_out x)) ((pend_c l1 ++ pend_c l2) ++ map (fun y => fst (fst y)) (pp_out x ++ [(dest, m, pa)]))).
      { rewrite map_app. simpl. rewrite <- !app_assoc. simpl. apply Permutation_app_head. rewrite !app_assoc.
        apply (Permutation_trans (l' := dest :: pend_c l2 ++ map (fun y => fst (fst y)) (pp_out x))); [auto|apply Permutation_cons_append]. }
      constructor; unfold to_go; cbn [set_c set_out pp_s pp_a pp_c pp_p pp_out pp_proc pp_phase]; auto; try (rewrite pend_c_app; cbn [pend_c flat_map app]; fold (pend_c l2)).
      + exact (Permutation_NoDup Hp I1).
      + intros u Hu. apply I2. exact (Permutation_in _ (Permutation_sym Hp) Hu).
      + intros u Hu. destruct (I3 u Hu) as [H|[H|(o & H & Hn)]]; auto; [left; exact (Permutation_in _ Hp H)|]. right; right. exists o. split; auto. apply Hin in H as [H|H]; [discriminate|]. apply Hin. auto.
      + intros u m' pa' H. apply Hin in H as [H|H]; [discriminate|]. apply I4, Hin. auto.
      + intros u m' pa' H. apply in_app_iff in H as [H|[H|[]]]; auto. inv H. apply I4, Hin. auto.
      + destruct (pp_phase x) as [|b|b|b]; auto; destruct (Ho b); auto.
    - apply pinv_same with x; auto; cbn [set_p pp_p pp_proc pp_phase pp_a pp_c].
      + intros pm Hin. rewrite E. apply in_app_iff in Hin as [H|[H|H]]; [left; apply in_app_iff; auto| |left; apply in_app_iff; simpl; auto].
        unfold hd_task in H. right. exists vm. destruct (pm_res (process_message (pp_s x) vm)); now inv H.
      + pose proof (pi_phase I) as K. destruct (pp_phase x) as [|b|b|b]; auto. destruct K as (_ & K & _). rewrite K in E. destruct l1; discriminate.
    - apply pinv_same with x; auto; cbn [set_p set_proc pp_p pp_proc pp_phase pp_a pp_c].
      + intros y Hin. rewrite E. left. apply in_app_iff in Hin as [H|[H|H]]; [apply in_app_iff; auto|discriminate|apply in_app_iff; simpl; auto].
      + intros y Hin. apply in_app_iff in Hin as [H|[H|[]]]; auto. subst y. right. rewrite E. apply in_app_iff. simpl. auto.
      + pose proof (pi_phase I) as K. destruct (pp_phase x) as [|b|b|b]; auto. destruct K as (_ & K & _). rewrite K in E. destruct l1; discriminate.
    - apply pinv_same with x; auto; cbn [set_phase pp_p pp_proc pp_phase pp_a pp_c]; auto. intros ->. exact Hc.
    - apply pinv_same with x; auto; cbn [set_phase pp_p pp_proc pp_phase pp_a pp_c]; auto. discriminate.
    - apply pinv_same with x; auto; cbn [set_phase pp_p pp_proc pp_phase pp_a pp_c]; auto. pose proof (pi_phase I) as K. rewrite Hp in K. auto.
    - destruct I as [I1 I2 I3 I4 I5 I6 I7 I8]. unfold to_go in *. rewrite E in *. cbn [pend_c flat_map app] in I1, I2, I3. fold (pend_c c) in I1, I2, I3.
      constructor; unfold to_go; cbn [set_c pp_s pp_a pp_c pp_p pp_out pp_proc pp_phase]; auto.
      + intros u Hu. destruct (I3 u Hu) as [H|[H|(o & [H|H] & Hn)]]; auto; [inv H; contradiction|]. right; right. exists o. auto.
      + intros u m pa H. apply I4. now right.
      + rewrite Hp in *. exact I8.
    - apply pinv_same with x; auto; cbn [set_phase pp_p pp_proc pp_phase pp_a pp_c]; auto. pose proof (pi_phase I) as K. rewrite Hp in K. destruct K; auto.
    - apply pinv_same with x; auto; cbn [set_p pp_p pp_proc pp_phase pp_a pp_c]; auto.
      + intros pm H. left. rewrite E. now right.
      + pose proof (pi_phase I) as K. rewrite Hp in K |- *. exact K.
    - pose proof (pi_phase I) as K. destruct I as [I1 I2 I3 I4 I5 I6 I7 I8]. unfold to_go in *. rewrite E in *. cbn [map fst] in I1, I2, I3.
      assert (Hpa : fst pa = dest). { assert (Hm : mk (pp_s x) dest = Ok (m, pa)) by (apply I5; now left). exact (proj2 (made_msg _ _ _ Hm)). }
      apply add_artifact_ok in Ea as [_ ->]. rewrite Hpa in *.
      pose proof (NoDup_remove_1 _ _ _ I1) as Hn1. pose proof (NoDup_remove_2 _ _ _ I1) as Hn2.
      constructor; unfold to_go; cbn [set_acc set_hand set_out pp_s pp_a pp_c pp_p pp_out pp_proc pp_phase set_artifacts a_artifacts]; auto.
      + intros u Hu. rewrite contains_insert. destruct (eqb_spec u dest) as [->|Hne]; [contradiction|]. simpl. apply I2. rewrite in_app_iff in *. simpl. tauto.
      + intros u Hu. rewrite contains_insert. destruct (I3 u Hu) as [H|[H|H]]; auto; [|rewrite H, orb_true_r; auto].
        apply in_app_iff in H as [H|[<-|H]]; [left; apply in_app_iff; auto|rewrite eqb_refl; auto|left; apply in_app_iff; auto].
      + intros u m' pa' H. apply I5. now right.
    - apply pinv_same with x; auto; cbn [set_acc set_proc pp_p pp_proc pp_phase pp_a pp_c]; auto.
      + exact (processed_arts _ _ _ Ea).
      + intros y H. left. rewrite E. now right.
      + now rewrite Hp.
    - pose proof (preprocessed_arts _ _ _ _ Ea) as Ha. destruct o as [vm| |].
      + apply pinv_same with x; auto; cbn [set_acc set_p pp_p pp_proc pp_phase pp_a pp_c]; auto; [|now rewrite Hp].
        intros y H. apply in_app_iff in H as [H|[H|[]]]; auto. discriminate.
      + apply pinv_same with x; auto. cbn [set_acc pp_phase]. now rewrite Hp.
      + apply pinv_same with x; auto. cbn [set_acc pp_phase]. now rewrite Hp.
    - apply pinv_enter.
    - apply pinv_same with x; auto. exact (pi_phase I).
  Qed.

  Lemma prun_pinv p ls p' : par_run r p ls p' -> match p with PRun x => pinv x | _ => True end -> match p' with PRun x => pinv x | _ => True end.
  Proof.
    intros H. induction H as [p|p ls p1 act lx p2 Hr IH Hs]; intros I; auto. specialize (IH I).
    destruct p1 as [x|o]; [|discriminate Hs]. exact (pst_pinv (par_step_pst _ _ Hs) IH).
  Qed.
  Lemma session_pinv (s0 : Session Pr) ls x : par_session r s0 ls (PRun x) -> pinv x.
  Proof. intros (ls' & _ & H). exact (prun_pinv H (pinv_enter s0 [])). Qed.

  (** ** The driver only uses the session in the proper way *)
  Lemma pst_sim x ls p : pst x ls p -> pinv x -> forall todo rest, Permutation todo (handed x ++ rest) ->
    match p with
    | PRun y => exists es todo' rest', run (DS (pp_s x) (pp_a x) todo) es (DS (pp_s y) (pp_a y) todo') /\ Permutation todo' (handed y ++ rest')
    | PStop _ => True
    end.
  Proof.
    intros H I todo rest Ht. unfold handed in *.
    assert (K0 : forall z, handed z = handed x -> pp_s z = pp_s x -> pp_a z = pp_a x ->
      exists es todo' rest', run (DS (pp_s x) (pp_a x) todo) es (DS (pp_s z) (pp_a z) todo') /\ Permutation todo' (handed z ++ rest')).
    { intros z E1 E2 E3. exists [], todo, rest. rewrite E1, E2, E3. split; [constructor|exact Ht]. }
    unfold handed in K0.
    destruct H as [l1 dest l2 E|l1 dest m pa l2 E Hl|l1 vm l2 E|l1 pm l2 E Hl|b Hp Hc Hh|Hp Hc Hh|b Hp E Hh|b c Hp E Hh|b Hp E Hh|b c Hp E Hh|e
      |dest m pa out a E Hp Ea|dest m pa out o E Ea Ho|pm q a Hp Hc E Ea Hh|from m a o Hp Hc Ea Hh|l o Hl Ho|o Hp E Ho|s c Hp E Ef|Hp E|Hpk Hlk Hhd]; auto.
    - unfold hd_task. destruct (pm_res (process_message (pp_s x) vm)) eqn:Er.
      + apply K0; auto. cbn [set_p pp_p pp_proc]. rewrite E. now rewrite !flat_map_app.
      + apply K0; auto. cbn [set_p pp_p pp_proc]. rewrite E. now rewrite !flat_map_app.
      + exists [], todo, (vm :: rest). split; [constructor|]. cbn [set_p pp_p pp_proc]. rewrite E, flat_map_app in Ht. rewrite flat_map_app. cbn [flat_map app] in *.
        eapply Permutation_trans; [exact Ht|]. rewrite <- !app_assoc. simpl. apply Permutation_app_head.
        rewrite !app_assoc. apply Permutation_middle.
    - exists [], todo, rest. split; [constructor|]. cbn [set_p set_proc pp_p pp_proc]. rewrite E, flat_map_app in Ht. rewrite flat_map_app, map_app. cbn [flat_map app map] in *.
      eapply Permutation_trans; [exact Ht|]. rewrite <- !app_assoc. simpl. apply Permutation_app_head. rewrite !app_assoc. apply Permutation_middle.
    - apply K0; auto. cbn [set_p pp_p pp_proc]. now rewrite E.
    - pose proof (proj2 (made_msg _ _ _ (pi_out I dest m pa ltac:(rewrite E; now left)))) as Hpa. destruct pa as [u art]. simpl in Hpa. subst u.
      eexists. exists todo, rest. split; [|exact Ht]. eapply run_one. cbn [set_acc set_hand set_out pp_s pp_a]. eapply step_art; [|exact (pi_out I dest m _ ltac:(rewrite E; now left))|exact Ea].
      apply (pi_todo I). unfold to_go. rewrite E. apply in_app_iff. right. now left.
    - assert (Hpm : pm = process_message (pp_s x) (pm_msg pm)) by (apply (pi_proc I); rewrite E; now left).
      rewrite E in Ht. cbn [map] in Ht. assert (Hin : In (pm_msg pm) todo).
      { apply (Permutation_in _ (Permutation_sym Ht)). rewrite !in_app_iff. simpl. auto. }
      apply in_split in Hin as (t1 & t2 & ->). eexists. exists (t1 ++ t2), rest. split.
      + eapply run_one. eapply step_proc. cbn [set_acc set_proc pp_s pp_a]. rewrite <- Hpm. exact Ea.
      + cbn [set_acc set_proc pp_p pp_proc]. rewrite <- app_assoc in Ht |- *. simpl in Ht. exact (Permutation_app_inv _ _ _ _ _ Ht).
    - eexists. eexists. exists rest. assert (E1 : forall (o : PreOutcome), pp_s (match o with ToProcess vm => set_p (set_acc x a) (pp_p x ++ [PMake vm]) | _ => set_acc x a end) = pp_s x /\
        pp_a (match o with ToProcess vm => set_p (set_acc x a) (pp_p x ++ [PMake vm]) | _ => set_acc x a end) = a) by (intros []; auto).
      destruct (E1 o) as [-> ->]. split; [eapply run_one, step_pre, Ea|]. destruct o as [vm| |]; cbn [set_p set_acc pp_p pp_proc]; auto.
      rewrite flat_map_app. cbn [flat_map app]. rewrite <- !app_assoc. simpl. apply Permutation_cons_app. rewrite <- app_assoc in Ht. exact Ht.
    - eexists. exists c, []. split.
      + eapply run_one. cbn [par_enter pp_s pp_a]. eapply step_fin; [|exact Ef]. pose proof (pi_phase I) as K. rewrite Hp in K. destruct K as (_ & _ & K). auto.
      + cbn [par_enter pp_p pp_proc map]. rewrite !app_nil_r. assert (Ec : flat_map (fun t : ptask Pr => match t with PMake vm => [vm] | PSend pm => [pm_msg pm] | PEnd _ => [] end) (map PMake c) = c).
        { clear. induction c as [|y c IH]; simpl; auto. now rewrite IH. } rewrite Ec. apply Permutation_refl.
  Qed.

  Lemma prun_sim p ls p' : par_run r p ls p' -> forall x y, p = PRun x -> p' = PRun y -> pinv x -> forall todo rest, Permutation todo (handed x ++ rest) ->
    exists es todo' rest', run (DS (pp_s x) (pp_a x) todo) es (DS (pp_s y) (pp_a y) todo') /\ Permutation todo' (handed y ++ rest').
  Proof.
    intros H. induction H as [p|p ls p1 act lx p2 Hr IH Hs]; intros x y -> E I todo rest Ht.
    - inv E. exists [], todo, rest. split; [constructor|auto].
    - destruct p1 as [x1|o]; [|discriminate Hs]. destruct (IH x x1 eq_refl eq_refl I todo rest Ht) as (es & t1 & rest1 & R1 & H1).
      pose proof (prun_pinv Hr I) as I1. subst p2. destruct (pst_sim (par_step_pst _ _ Hs) I1 _ H1) as (es' & t2 & rest2 & R2 & H2).
      exists (es ++ es'), t2, rest2. split; auto. eapply run_app; eauto.
  Qed.

  (** Every state of the driver is a state of the API. *)
  Lemma par_state (s0 : Session Pr) ls x : initial s0 -> par_session r s0 ls (PRun x) ->
    exists todo, reachable (DS (pp_s x) (pp_a x) todo) /\ incl (handed x) todo.
  Proof.
    intros Hi (ls' & _ & H). destruct (prun_sim H eq_refl eq_refl (pinv_enter s0 []) (todo := []) []) as (es & t & rest & R & Ht); [apply Permutation_refl|].
    exists t. split; [now exists s0, es|]. intros vm Hin. apply (Permutation_in _ (Permutation_sym Ht)). apply in_app_iff. auto.
  Qed.

  (** ** What ends a round *)
  Lemma prun_label (p : Par Pr) ls p' l : par_run r p ls p' -> In l ls ->
    exists l1 p1 act l2 p2 l3, par_run r p l1 p1 /\ par_step r p1 act = Some (l2, p2) /\ In l l2 /\ par_run r p2 l3 p' /\ ls = l1 ++ l2 ++ l3.
  Proof.
    intros H. induction H as [p|p ls p1 act lx p2 Hr IH Hs]; [contradiction|]. intros Hin. apply in_app_iff in Hin as [Hin|Hin].
    - destruct (IH Hin) as (l1 & q1 & a1 & l2 & q2 & l3 & H1 & H2 & H3 & H4 & ->). exists l1, q1, a1, l2, q2, (l3 ++ lx).
      split; auto. split; auto. split; auto. split; [econstructor; eauto|]. now rewrite !app_assoc.
    - exists ls, p1, act, lx, p2, []. split; auto. split; auto. split; auto. split; [constructor|]. now rewrite app_nil_r.
  Qed.
  Lemma pst_finalizes x ls p s a : pst x ls p -> In (LFinalize s a) ls -> pp_s x = s /\ pp_a x = a /\ pp_phase x = Drain true /\ pp_out x = [].
  Proof.
    intros H. destruct H as [l1 dest l2 E|l1 dest m pa l2 E Hl|l1 vm l2 E|l1 pm l2 E Hl|b Hp Hc Hh|Hp Hc Hh|b Hp E Hh|b c Hp E Hh|b Hp E Hh|b c Hp E Hh|e
      |dest m pa out a' E Hp Ea|dest m pa out o E Ea Ho|pm q a' Hp Hc E Ea Hh|from m a' o Hp Hc Ea Hh|l o Hl Ho|o Hp E Ho|s' c Hp E Ef|Hp E|Hpk Hlk Hhd];
      try contradiction; try (intros [K|[]]; discriminate K).
    - intros [->|[]]. contradiction.
    - intros [K|[]]. inv K. auto.
    - intros [K|[K|[]]]; inv K. auto.
  Qed.
  Lemma pst_gives_up x ls p s a : pst x ls p -> In (LGiveUp s a) ls ->
    pp_s x = s /\ pp_a x = a /\ pp_phase x = Drain false /\ pp_out x = [] /\ p = PStop (terminate_due_to_errors s a).
  Proof.
    intros H. destruct H as [l1 dest l2 E|l1 dest m pa l2 E Hl|l1 vm l2 E|l1 pm l2 E Hl|b Hp Hc Hh|Hp Hc Hh|b Hp E Hh|b c Hp E Hh|b Hp E Hh|b c Hp E Hh|e
      |dest m pa out a' E Hp Ea|dest m pa out o E Ea Ho|pm q a' Hp Hc E Ea Hh|from m a' o Hp Hc Ea Hh|l o Hl Ho|o Hp E Ho|s' c Hp E Ef|Hp E|Hpk Hlk Hhd];
      try contradiction; try (intros [K|[]]; discriminate K).
    - intros [->|[]]. contradiction.
    - intros [K|[K|[]]]; discriminate K.
    - intros [K|[]]. inv K. auto.
  Qed.
  Lemma drained x b : pinv x -> pp_phase x = Drain b -> pp_out x = [] ->
    forall u, mem u (message_destinations (pp_s x)) = true -> contains u (a_artifacts (pp_a x)) = true.
  Proof.
    intros I Hp Ho u Hu. pose proof (pi_phase I) as K. rewrite Hp in K. destruct K as [Kc _].
    destruct (pi_all I u Hu) as [H|[H|(o & H & _)]]; auto.
    - unfold to_go in H. rewrite Kc, Ho in H. destruct H.
    - rewrite Kc in H. destruct H.
  Qed.

  Lemma par_finalizes (s0 : Session Pr) ls p s a : initial s0 -> par_session r s0 ls p -> In (LFinalize s a) ls ->
    can_finalize a = Yes /\ (exists todo, reachable (DS s a todo)) /\ forall u, mem u (message_destinations s) = true -> contains u (a_artifacts a) = true.
  Proof.
    intros Hi (ls' & -> & H) [E|Hin]; [discriminate|]. destruct (prun_label _ H Hin) as (l1 & p1 & act & l2 & p2 & l3 & H1 & H2 & H3 & _).
    destruct p1 as [x|o]; [|discriminate H2]. destruct (pst_finalizes _ _ (par_step_pst _ _ H2) H3) as (<- & <- & Hp & Ho).
    assert (Hx : par_session r s0 (LEnter s0 :: l1) (PRun x)) by (now exists l1). pose proof (session_pinv Hx) as I. split.
    - pose proof (pi_phase I) as K. rewrite Hp in K. apply K. reflexivity.
    - destruct (par_state Hi Hx) as (todo & Hre & _). split; [eauto|]. exact (drained I Hp Ho).
  Qed.

  (** A driver that has left the inner loop without [Yes] was cancelled, or [Never]. *)
  Definition left_loop (ls : list (dlabel Pr)) (p : Par Pr) : Prop :=
    match p with
    | PRun x => match pp_phase x with
                | JoinC false | JoinP false | Drain false => can_finalize (pp_a x) = Never \/ In LCancel ls
                | _ => True
                end
    | PStop _ => True
    end.
  Lemma pst_left x l ls p : pst x ls p -> left_loop l (PRun x) -> left_loop (l ++ ls) p.
  Proof.
    intros H. cbn [left_loop]. destruct H as [l1 dest l2 E|l1 dest m pa l2 E Hl|l1 vm l2 E|l1 pm l2 E Hl|b Hp Hc Hh|Hp Hc Hh|b Hp E Hh|b c Hp E Hh|b Hp E Hh|b c Hp E Hh|e
      |dest m pa out a' E Hp Ea|dest m pa out o E Ea Ho|pm q a' Hp Hc E Ea Hh|from m a' o Hp Hc Ea Hh|la o Hl Ho|o Hp E Ho|s' c Hp E Ef|Hp E|Hpk Hlk Hhd];
      cbn [set_c set_p set_out set_proc set_phase set_hand pp_phase pp_a par_enter left_loop]; try rewrite app_nil_r; auto.
    - intros _. destruct b; auto.
    - intros _. right. apply in_app_iff. right. now left.
    - rewrite Hp. destruct b; auto.
    - rewrite Hp. destruct b; auto.
    - apply add_artifact_ok in Ea as [_ ->]. cbn [set_acc set_hand set_out pp_phase pp_a]. destruct (pp_phase x) as [|[]|[]|[]]; auto; intros [K|K]; [left|right; apply in_app_iff|left|right; apply in_app_iff|left|right; apply in_app_iff]; auto.
    - cbn [set_acc set_proc pp_phase pp_a]. rewrite Hp. auto.
    - intros _. destruct o; cbn [set_p set_acc pp_phase pp_a]; rewrite Hp; exact Logic.I.
  Qed.
  Lemma prun_left p ls p' : par_run r p ls p' -> left_loop [] p -> left_loop ls p'.
  Proof.
    intros H. induction H as [p|p ls p1 act lx p2 Hr IH Hs]; intros K; auto. destruct p1 as [x|o]; [|discriminate Hs].
    eapply pst_left; [exact (par_step_pst _ _ Hs)|auto].
  Qed.
  Lemma par_gives_up (s0 : Session Pr) ls p s a : initial s0 -> par_session r s0 ls p -> In (LGiveUp s a) ls ->
    (can_finalize a = Never \/ In LCancel ls) /\ (exists todo, reachable (DS s a todo)) /\
    (forall u, mem u (message_destinations s) = true -> contains u (a_artifacts a) = true) /\ p = PStop (terminate_due_to_errors s a).
  Proof.
    intros Hi (ls' & -> & H) [E|Hin]; [discriminate|]. destruct (prun_label _ H Hin) as (l1 & p1 & act & l2 & p2 & l3 & H1 & H2 & H3 & H4 & ->).
    destruct p1 as [x|o]; [|discriminate H2]. destruct (pst_gives_up _ _ (par_step_pst _ _ H2) H3) as (<- & <- & Hp & Ho & ->).
    assert (Hx : par_session r s0 (LEnter s0 :: l1) (PRun x)) by (now exists l1). pose proof (session_pinv Hx) as I.
    split; [|split; [|split]].
    - pose proof (prun_left H1 Logic.I) as K. cbn [left_loop] in K. rewrite Hp in K. destruct K as [K|K]; auto. right. right. apply in_app_iff. auto.
    - destruct (par_state Hi Hx) as (todo & Hre & _). eauto.
    - exact (drained I Hp Ho).
    - assert (K : forall (q : Par Pr) l q', par_run r q l q' -> forall o, q = PStop o -> q' = PStop o).
      { clear. intros q l q' H. induction H as [q|q la q1 act lb q2 Hr IH Hs]; intros o E; auto. rewrite (IH o E) in Hs. discriminate. }
      exact (K _ _ _ H4 _ eq_refl).
  Qed.

  (** ** Reports *)
  Lemma pst_returns x ls rep : pst x ls (PStop (Ok rep)) ->
    (ls = [LFinalize (pp_s x) (pp_a x)] /\ exists g, finalize_round (pp_s x) g (pp_a x) = Ok (ROFinished rep)) \/
    (ls = [LGiveUp (pp_s x) (pp_a x)] /\ terminate_due_to_errors (pp_s x) (pp_a x) = Ok rep).
  Proof.
    intros H. inversion H as [| | | | | | | | | | | |dest m pa out o E Ea Ho| | |la o Hl Ho|o Hp E Ho| |Hp E K1 K2|]; subst.
    - destruct (Ho rep eq_refl).
    - destruct (Ho rep eq_refl).
    - left. split; auto. specialize (Ho rep eq_refl). eauto.
    - right. auto.
  Qed.
  Lemma prun_last (p : Par Pr) ls p' : par_run r p ls p' -> p = p' \/ exists l1 p1 act l2, par_run r p l1 p1 /\ par_step r p1 act = Some (l2, p') /\ ls = l1 ++ l2.
  Proof. intros []; auto. right. eauto 10. Qed.

  Lemma par_reports (s0 : Session Pr) l1 x l2 rep : initial s0 -> par_session r s0 l1 (PRun x) -> par_run r (PRun x) l2 (PStop (Ok rep)) ->
    (forall v e, has_evidence (DS (pp_s x) (pp_a x) []) v e -> get v (rep_provable rep) = Some e) /\
    (forall v, has_unprovable (DS (pp_s x) (pp_a x) []) v -> exists e, get v (rep_unprovable rep) = Some e).
  Proof.
    intros Hi H1 H2. pose proof (session_pinv H1) as I1.
    destruct (prun_last H2) as [E|(la & pa & act & lb & Ha & Hs & _)]; [discriminate E|]. destruct pa as [y|o]; [|discriminate Hs].
    destruct (prun_sim Ha eq_refl eq_refl I1 (todo := handed x) []) as (es & t & rest & R & _); [now rewrite app_nil_r|].
    destruct (errors_kept R) as (_ & _ & _ & K). apply K.
    destruct (pst_returns (par_step_pst _ _ Hs)) as [(_ & g & Hf)|(_ & Ht)]; [left; now exists g|right; right; exact Ht].
  Qed.
  Lemma par_result (s0 : Session Pr) ls rep x : initial s0 -> par_session r s0 ls (PStop (Ok rep)) -> rep_outcome rep = OResult x ->
    exists s a ls0, ls = ls0 ++ [LFinalize s a] /\
      exists g ps arts, finalize Pr (main_state (s_round s)) g ps arts = Ok (Finished_ x).
  Proof.
    intros Hi (ls' & -> & H) Hx. destruct (prun_last H) as [E|(la & pa & act & lb & Ha & Hs & ->)]; [discriminate E|]. destruct pa as [y|o]; [|discriminate Hs].
    destruct (pst_returns (par_step_pst _ _ Hs)) as [(-> & g & Hf)|(_ & Ht)].
    - exists (pp_s y), (pp_a y), (LEnter s0 :: la). split; auto. apply finalize_finished in Hf as (t & z & _ & _ & Hf & ->).
      cbn [rep_outcome report_new] in Hx. inv Hx. apply finished_main in Hf as (ps & arts & Hf). eauto.
    - unfold terminate_due_to_errors, terminate_inner in Ht. apply bind_ok in Ht as (t & _ & Ht). inv Ht. discriminate.
  Qed.
End Par.
