(** Facts about dev/run_sync.rs: a run of [run_sync] is one of the schedules of Network.v. *)
From Coq Require Import List NArith Bool Arith Lia Permutation Relations Wellfounded.
From Verif Require Import Base BMap Errors RoundId Message Protocol Transcript Evidence Session Spec SpecCrypto
  MessageFacts SessionFacts Network SpecNet NetFacts RunSync SpecSync QueueFacts.
Import ListNotations.
Set Implicit Arguments.

Lemma some_inj {A} (x y : A) : Some x = Some y -> x = y.
Proof. now intros [= ->]. Qed.

Section Sim.
  Context {P : Params}.
  Context {Pr : Proto}.
  Variable r : NetRng.
  Variable sid : bytes.
  Variable sk : Verifier -> Signer.
  Variable ep : Verifier -> EntryPoint Pr.

  (** What is known about the states of the network that can be reached. *)
  Variable G : Net Pr -> Prop.
  Hypothesis Gstep : forall net x o, G net -> act r net x = Some o -> exists net', o = Ok net' /\ G net'.
  Hypothesis Gid : forall net v d, G net -> get v (nodes net) = Some (Running d) -> s_verifier (d_s d) = v.
  (** Nodes that can never finalize are terminated, with a report of which [Rep] is known. *)
  Variable Rep : Verifier -> Report (Rslt Pr) -> Prop.
  Hypothesis Gnever : forall net v d, G net -> get v (nodes net) = Some (Running d) -> can_finalize (d_a d) = Never ->
    exists rep, terminate_due_to_errors (d_s d) (d_a d) = Ok rep /\ Rep v rep.
  Hypothesis Gacc : forall net, G net -> Acc (follows r) net.

  Inductive steps : Net Pr -> list action -> Net Pr -> Prop :=
  | st_nil net : steps net [] net
  | st_cons net x net1 xs net2 : act r net x = Some (Ok net1) -> steps net1 xs net2 -> steps net (x :: xs) net2.
  Lemma steps_app net xs net1 ys net2 : steps net xs net1 -> steps net1 ys net2 -> steps net (xs ++ ys) net2.
  Proof. induction 1; simpl; auto. intros. econstructor; eauto. Qed.
  Lemma steps_G net xs net1 : steps net xs net1 -> G net -> G net1.
  Proof. induction 1 as [|net x net1 xs net2 Hx _ IH]; auto. intros Hg. destruct (Gstep x Hg Hx) as (n & E & Hn). inv E. auto. Qed.

  Definition later (net2 net1 : Net Pr) : Prop := exists x xs, steps net1 (x :: xs) net2.
  Lemma later_acc net : G net -> Acc later net.
  Proof.
    intros Hg. pose proof (Acc_clos_trans _ _ _ (Gacc Hg)) as HA.
    assert (K : forall net xs net2, steps net xs net2 -> xs <> [] -> clos_trans _ (follows r) net2 net).
    { clear. induction 1 as [|net x net1 xs net2 Hx Hs IH]; [congruence|]. intros _. destruct xs as [|y xs].
      - inv Hs. apply t_step. now exists x.
      - eapply t_trans; [apply IH; discriminate|]. apply t_step. now exists x. }
    clear Hg. induction HA as [net _ IH]. constructor. intros net2 (x & xs & Hs). apply IH. eapply K; eauto. discriminate.
  Qed.

  Definition pr (x : RMsg) : Verifier * Message := (rm_from x, rm_message x).
  Definition addressed (l : list RMsg) : Prop := forall x, In x l -> rm_to x = msg_dest (rm_message x).
  Definition quiet (x : action (P := P)) : Prop := forall i, x <> ADeliver i.

  (** Node [v] does something on its own and sends [out]. *)
  Record moved (v : Verifier) (net : Net Pr) (xs : list action) (nd : Node Pr) (net' : Net Pr) (out : list RMsg) : Prop := {
    mv_steps : steps net xs net';
    mv_quiet : forall x, In x xs -> quiet x;
    mv_node : get v (nodes net') = Some nd;
    mv_other : forall w, w <> v -> get w (nodes net') = get w (nodes net);
    mv_flight : flight net' = flight net ++ map pr out;
    mv_to : addressed out
  }.
  Lemma moved_none v net nd : get v (nodes net) = Some nd -> moved v net [] nd net [].
  Proof. intros H. constructor; auto; try constructor; [contradiction|now rewrite app_nil_r|intros x []]. Qed.
  Lemma moved_app v net xs nd1 net1 out1 ys nd2 net2 out2 : moved v net xs nd1 net1 out1 -> moved v net1 ys nd2 net2 out2 ->
    moved v net (xs ++ ys) nd2 net2 (out1 ++ out2).
  Proof.
    intros A B. constructor.
    - eapply steps_app; [apply A|apply B].
    - intros x Hx. apply in_app_iff in Hx as [Hx|Hx]; [exact (mv_quiet A Hx)|exact (mv_quiet B Hx)].
    - apply B.
    - intros w Hw. rewrite (mv_other B Hw). now apply A.
    - rewrite (mv_flight B), (mv_flight A), map_app, app_assoc. reflexivity.
    - intros x Hx. apply in_app_iff in Hx as [Hx|Hx]; [now apply (mv_to A)|now apply (mv_to B)].
  Qed.

  (** ** Sending *)
  Definition send_step (s : Session Pr) (st : Accum Pr * list RMsg) (dest : Verifier) : res LocalError (Accum Pr * list RMsg) :=
    let* (m, pa) := make_message s (nr_msg r (s_verifier s) (s_round_id s) dest) dest in
    let* (a', _) := acc_call (add_artifact (fst st) pa) in
    Ok (a', snd st ++ [mkRMsg (s_verifier s) dest m]).

  Lemma sends v s todo : forall l net a out, G net -> get v (nodes net) = Some (Running (DS s a todo)) -> NoDup l ->
    (forall u, In u l -> mem u (message_destinations s) = true /\ contains u (a_artifacts a) = false) ->
    exists a' out' net' xs, fold_res (send_step s) (a, out) l = Ok (a', out ++ out') /\
      moved v net xs (Running (DS s a' todo)) net' out' /\
      (forall u, In u l -> contains u (a_artifacts a') = true) /\
      (forall u, contains u (a_artifacts a) = true -> contains u (a_artifacts a') = true).
  Proof.
    induction l as [|u l IH]; intros net a out Hg Hv Hnd Hl.
    - exists a, [], net, []. split; [cbn; now rewrite app_nil_r|]. split; [now apply moved_none|]. split; [contradiction|auto].
    - apply NoDup_cons_iff in Hnd as [Hu Hnd]. destruct (Hl u (or_introl eq_refl)) as [Hd Ha].
      assert (Hact : exists o, act r net (ASend v u) = Some o).
      { cbn [act]. rewrite Hv. cbn [d_s d_a]. rewrite Hd, Ha. cbn. eauto. }
      destruct Hact as [o Hact]. destruct (Gstep _ Hg Hact) as (net1 & -> & Hg1). pose proof Hact as Hact0.
      pose proof (Gid _ Hg Hv) as Hid. cbn [d_s] in Hid.
      cbn [act] in Hact. rewrite Hv in Hact. cbn [d_s d_a d_todo] in Hact. rewrite Hd, Ha in Hact. cbn [negb andb] in Hact. apply some_inj in Hact.
      destruct (make_message s (nr_msg r v (s_round_id s) u) u) as [[m pa]|e|] eqn:Em; try discriminate. cbn [bind] in Hact.
      unfold with_accum in Hact. destruct (add_artifact a pa) as [a1 [[]|e|]] eqn:Ea; try discriminate. cbn [bind] in Hact. injection Hact as <-.
      assert (Hpa : msg_dest m = u /\ fst pa = u).
      { revert Em. unfold make_message. destruct (rd_mk_direct _ _ _) as [[d x]|e|]; try discriminate. cbn [bind].
        unfold message_new. destruct (sign_part _ _ _ _ _ _); try discriminate. cbn [bind]. intros E. inv E. auto. }
      destruct Hpa as [Hmd Hpa]. pose proof Ea as Ea0. apply add_artifact_ok in Ea as (_ & Ea1).
      assert (Harts : forall w, contains w (a_artifacts a1) = (eqb w u || contains w (a_artifacts a))%bool).
      { intros w. rewrite Ea1. cbn [set_artifacts a_artifacts]. now rewrite contains_insert, Hpa. }
      destruct (IH _ a1 (out ++ [mkRMsg v u m]) Hg1 (get_insert_eq _ _ _) Hnd) as (a' & out' & net' & xs & E & Hm & H1 & H2).
      { intros w Hw. destruct (Hl w (or_intror Hw)) as [Hw1 Hw2]. split; auto. rewrite Harts, Hw2, orb_false_r.
        apply eqb_neq. intros ->. congruence. }
      exists a', (mkRMsg v u m :: out'), net', (ASend v u :: xs). split; [|split; [|split]].
      { cbn [fold_res]. unfold send_step at 1. cbn [fst snd]. rewrite Hid, Em. cbn [bind]. rewrite Ea0. cbn [acc_call bind].
        rewrite <- app_assoc in E. exact E. }
      { change (ASend v u :: xs) with ([ASend v u] ++ xs). change (mkRMsg v u m :: out') with ([mkRMsg v u m] ++ out').
        eapply moved_app; [|exact Hm]. constructor.
        - econstructor; [exact Hact0|constructor].
        - intros x [<-|[]]. discriminate.
        - apply get_insert_eq.
        - intros w Hw. now apply get_insert_ne.
        - reflexivity.
        - intros x [<-|[]]. simpl. auto. }
      { intros w [<-|Hw]; auto. apply H2. now rewrite Harts, eqb_refl. }
      { intros w Hw. apply H2. now rewrite Harts, Hw, orb_true_r. }
  Qed.

  Lemma send_all_sim v s a todo net : G net -> get v (nodes net) = Some (Running (DS s a todo)) -> a_artifacts a = empty ->
    exists a' out net' xs, send_all r s a = Ok (a', out) /\ moved v net xs (Running (DS s a' todo)) net' out /\
      all_sent (DS s a' todo) = true.
  Proof.
    intros Hg Hv Ha. destruct (@sends v s todo (elements (message_destinations s)) net a [] Hg Hv) as (a' & out & net' & xs & E & Hm & H1 & _).
    - apply NoDup_elements.
    - intros u Hu. apply in_elements in Hu. split; auto. rewrite Ha. apply contains_empty.
    - exists a', out, net', xs. split; [exact E|]. split; auto. unfold all_sent. apply forallb_forall. exact H1.
  Qed.

  (** ** Processing *)
  Lemma processed_arts (s : Session Pr) a pm a' o : add_processed s a pm = (a', o) -> a_artifacts a' = a_artifacts a.
  Proof.
    unfold add_processed, register_provable. destruct (contains _ _); [intros H; now inv H|]. destruct (negb _); [intros H; now inv H|].
    destruct (pm_res pm) as [p|rerr|]; [| |intros H; now inv H]; [intros H; now inv H|]; destruct rerr; try (intros H; now inv H). destruct (new_provable_error _ _ _ _ _ _); intros H; now inv H.
  Qed.
  Lemma preprocessed_arts (s : Session Pr) a from m a' o : preprocess_message s a from m = (a', o) -> a_artifacts a' = a_artifacts a.
  Proof.
    unfold preprocess_message, reject, register_unprovable, mark_processing, cache_message.
    repeat match goal with
      | |- (if ?b then _ else _) = _ -> _ => destruct b
      | |- match ?x with _ => _ end = _ -> _ => destruct x
      | |- (_, _) = _ -> _ => intros H; now inv H
      end.
  Qed.

  Lemma preprocessed_can (s : Session Pr) a from m a' o : preprocess_message s a from m = (a', o) ->
    a_expect a' = a_expect a /\ a_payloads a' = a_payloads a /\ a_waiting a' = a_waiting a.
  Proof.
    unfold preprocess_message, reject, register_unprovable, mark_processing, cache_message.
    repeat match goal with
      | |- (if ?b then _ else _) = _ -> _ => destruct b
      | |- match ?x with _ => _ end = _ -> _ => destruct x
      | |- (_, _) = _ -> _ => intros H; inv H; now auto
      end.
  Qed.

  Lemma process_sim v s : forall todo net a, G net -> get v (nodes net) = Some (Running (DS s a todo)) ->
    exists a' net' xs, fold_res (deliver_one s) a todo = Ok a' /\ moved v net xs (Running (DS s a' [])) net' [] /\
      a_artifacts a' = a_artifacts a.
  Proof.
    induction todo as [|vm todo IH]; intros net a Hg Hv.
    - exists a, net, []. split; auto. split; auto. now apply moved_none.
    - assert (Hact : exists o, act r net (AProcess v 0) = Some o) by (cbn [act]; rewrite Hv; cbn; eauto).
      destruct Hact as [o Hact]. destruct (Gstep _ Hg Hact) as (net1 & -> & Hg1). pose proof Hact as Hact0.
      cbn [act] in Hact. rewrite Hv in Hact. cbn [d_s d_a d_todo take_nth] in Hact. apply some_inj in Hact. unfold with_accum in Hact.
      destruct (add_processed s a (process_message s vm)) as [a1 [b|e|]] eqn:Ea; try discriminate. cbn [bind] in Hact. injection Hact as <-.
      destruct (IH _ a1 Hg1 (get_insert_eq _ _ _)) as (a' & net' & xs & E & Hm & Har).
      exists a', net', (AProcess v 0 :: xs). split; [|split].
      + cbn [fold_res]. unfold deliver_one at 1. rewrite Ea. cbn [acc_call bind]. exact E.
      + change (AProcess v 0 :: xs) with ([AProcess v 0] ++ xs). rewrite <- (app_nil_l (@nil RMsg)). eapply moved_app; [|exact Hm]. constructor.
        * econstructor; [exact Hact0|constructor].
        * intros x [<-|[]]. discriminate.
        * apply get_insert_eq.
        * intros w Hw. now apply get_insert_ne.
        * cbn. now rewrite app_nil_r.
        * intros x [].
      + rewrite Har. exact (processed_arts _ _ _ Ea).
  Qed.

  (** ** Finalizing *)
  (** The state of a node of the network and that in the driver; the node can do nothing on its own, or has been terminated. *)
  Definition stands (v : Verifier) (nd : Node Pr) (st : NState Pr) : Prop :=
    match st with
    | InProgress s a => nd = Running (DS s a []) /\ all_sent (DS s a []) = true /\ can_finalize a = NotYet
    | Finished rep => nd = Ended rep \/ exists d, nd = Running d /\ all_sent d = true /\ can_finalize (d_a d) = Never /\ Rep v rep
    end.

  Lemma propagate_sim v net : G net -> forall s a, get v (nodes net) = Some (Running (DS s a [])) -> all_sent (DS s a []) = true ->
    exists fuel0 nd st out net' xs, moved v net xs nd net' out /\ stands v nd st /\
      forall fuel messages, fuel0 <= fuel -> propagate fuel r s a messages = Some (Ok (st, messages ++ out)).
  Proof.
    intros Hg. pose proof (later_acc Hg) as HA. revert Hg. induction HA as [net _ IH]. intros Hg s a Hv Hs.
    destruct (can_finalize a) eqn:Ec.
    - assert (Hact : exists o, act r net (AFinalize v) = Some o) by (cbn [act]; rewrite Hv; cbn [d_a]; rewrite Ec, Hs; eauto).
      destruct Hact as [o Hact]. destruct (Gstep _ Hg Hact) as (net1 & -> & Hg1). pose proof Hact as Hact0.
      pose proof (Gid _ Hg Hv) as Hid. cbn [d_s] in Hid.
      cbn [act] in Hact. rewrite Hv in Hact. cbn [d_s d_a d_todo] in Hact. rewrite Ec, Hs in Hact. apply some_inj in Hact.
      destruct (finalize_round s (nr_fin r v (s_round_id s)) a) as [ro|e|] eqn:Ef; try discriminate. cbn [bind] in Hact. injection Hact as <-.
      assert (M1 : moved v net [AFinalize v] (match ro with ROFinished rep => Ended rep | ROAnother s' c => Running (DS s' (make_accumulator s') c) end)
        (set_node net v (match ro with ROFinished rep => Ended rep | ROAnother s' c => Running (DS s' (make_accumulator s') c) end)) []).
      { constructor.
        - econstructor; [exact Hact0|constructor].
        - intros x [<-|[]]. discriminate.
        - apply get_insert_eq.
        - intros w Hw. now apply get_insert_ne.
        - cbn. now rewrite app_nil_r.
        - intros x []. }
      destruct ro as [rep|s' c].
      + exists 1, (Ended rep), (Finished rep), [], (set_node net v (Ended rep)), [AFinalize v]. split; [exact M1|]. split; [now left|].
        intros [|fuel] messages Hf; [lia|]. cbn [propagate]. rewrite Ec, Hid, Ef, app_nil_r. reflexivity.
      + destruct (@process_sim v s' c _ (make_accumulator s') Hg1 (get_insert_eq _ _ _)) as (a1 & net2 & xs2 & E2 & M2 & Ha2).
        pose proof (steps_G (mv_steps M2) Hg1) as Hg2.
        destruct (@send_all_sim v s' a1 [] net2 Hg2 (mv_node M2)) as (a2 & out & net3 & xs3 & E3 & M3 & Hs3); [rewrite Ha2; reflexivity|].
        pose proof (steps_G (mv_steps M3) Hg2) as Hg3.
        pose proof (moved_app M1 (moved_app M2 M3)) as M.
        destruct (IH net3) with (s := s') (a := a2) as (fuel0 & nd & st & out' & net' & xs & M4 & Hst & Hp); auto.
        * exists (AFinalize v), (xs2 ++ xs3). exact (mv_steps M).
        * apply M3.
        * exists (S fuel0), nd, st, (out ++ out'), net'. eexists. split; [|split; [exact Hst|]].
          { exact (moved_app M M4). }
          { intros [|fuel] messages Hf; [lia|]. cbn [propagate]. rewrite Ec, Hid, Ef, E2. cbn [bind]. rewrite E3, Hp by lia. now rewrite app_assoc. }
    - exists 1, (Running (DS s a [])), (InProgress s a), [], net, []. split; [now apply moved_none|]. split; [now repeat split|].
      intros [|fuel] messages Hf; [lia|]. cbn [propagate]. rewrite Ec, app_nil_r. reflexivity.
    - destruct (Gnever _ Hg Hv Ec) as (rep & Er & Hrep). cbn [d_s d_a] in Er.
      exists 1, (Running (DS s a [])), (Finished rep), [], net, []. split; [now apply moved_none|]. split; [right; eauto|].
      intros [|fuel] messages Hf; [lia|]. cbn [propagate]. rewrite Ec, Er, app_nil_r. reflexivity.
  Qed.

  (** ** The loop *)
  Record rel_q (q : Messages) (net : Net Pr) : Prop := {
    rq_ok : qok q;
    rq_flight : Permutation (map pr (contents q)) (flight net);
    rq_to : addressed (contents q)
  }.
  (** Node [v]; [pending] are the nodes that do not have a session yet. *)
  Definition rel_n (states : bmap Verifier (NState Pr)) (net : Net Pr) (pending : list Verifier) (v : Verifier) : Prop :=
    match get v states with
    | Some st => exists nd, get v (nodes net) = Some nd /\ stands v nd st /\ ~ In v pending
    | None => if existsb (eqb v) pending
              then exists s, session_new (nr_new r v) sid (sk v) (ep v) = Ok s /\ get v (nodes net) = Some (Running (start s))
              else get v (nodes net) = None
    end.
  Definition rel (y : Sync Pr) (net : Net Pr) (pending : list Verifier) : Prop :=
    rel_q (sy_queue y) net /\ forall v, rel_n (sy_states y) net pending v.

  Lemma addressed_perm l l' : Permutation l l' -> addressed l -> addressed l'.
  Proof. intros H A x Hx. apply A. now rewrite H. Qed.
  Lemma addressed_app l l' : addressed l -> addressed l' -> addressed (l ++ l').
  Proof. intros A B x Hx. apply in_app_iff in Hx as [Hx|Hx]; auto. Qed.

  Lemma rel_q_moved q net v xs nd net1 out : rel_q q net -> moved v net xs nd net1 out -> rel_q (q_extend q out) net1.
  Proof.
    intros [Hq Hf Ht] M. destruct (q_extend_ok out _ Hq) as [H1 H2]. constructor; auto.
    - rewrite (mv_flight M), H2, map_app, Hf. reflexivity.
    - eapply addressed_perm; [symmetry; exact H2|]. apply addressed_app; auto. apply M.
  Qed.
  Lemma q_extend_app l l' : forall q : Messages, q_extend (q_extend q l) l' = q_extend q (l ++ l').
  Proof. intros q. unfold q_extend. now rewrite fold_left_app. Qed.

  Lemma existsb_in v l : existsb (eqb v) l = true <-> In v l.
  Proof.
    rewrite existsb_exists. split; [intros (x & Hx & E); apply (proj1 (eqb_eq _ _)) in E; now subst|]. intros H. exists v. split; auto. apply eqb_refl.
  Qed.

  Lemma add_sim v pending y net : G net -> rel y net (v :: pending) -> ~ In v pending -> signer_key (sk v) = v ->
    exists fuel0 y' net' xs, steps net xs net' /\ (forall x, In x xs -> quiet x) /\ rel y' net' pending /\
      forall fuel, fuel0 <= fuel -> sync_add fuel r sid y (sk v, ep v) = Some (Ok y').
  Proof.
    intros Hg [Rq Rn] Hnin Hk. pose proof (Rn v) as Hv. unfold rel_n in Hv.
    destruct (get v (sy_states y)) as [st|] eqn:Ev; [destruct Hv as (_ & _ & _ & Hv); destruct Hv; now left|].
    rewrite (proj2 (existsb_in v (v :: pending)) (or_introl eq_refl)) in Hv. destruct Hv as (s & Es & Hv).
    destruct (@send_all_sim v s (make_accumulator s) [] net Hg Hv eq_refl) as (a & out & net1 & xs1 & E1 & M1 & Hs1).
    pose proof (steps_G (mv_steps M1) Hg) as Hg1.
    destruct (propagate_sim v Hg1 (mv_node M1) Hs1) as (fuel0 & nd & st & out2 & net2 & xs2 & M2 & Hst & Hp).
    pose proof (moved_app M1 M2) as M.
    exists fuel0, (mkSync (q_extend (q_extend (sy_queue y) out) out2) (insert v st (sy_states y))), net2, (xs1 ++ xs2).
    split; [apply M|]. split; [apply M|]. split.
    - split; cbn [sy_queue sy_states].
      + rewrite q_extend_app. exact (rel_q_moved Rq M).
      + intros w. unfold rel_n. rewrite get_insert. destruct (eqb_spec w v) as [->|Hne]; [exists nd; split; [apply M|auto]|].
        specialize (Rn w). unfold rel_n in Rn. rewrite (mv_other M Hne). cbn [existsb] in Rn.
        rewrite (proj2 (eqb_neq w v) Hne) in Rn. cbn [orb] in Rn. destruct (get w (sy_states y)); auto.
        destruct Rn as (x & H1 & H2 & H3). exists x. split; auto. split; auto. intros Hin. apply H3. now right.
    - intros fuel Hf. unfold sync_add. cbn [fst snd]. rewrite Hk, Es. cbn [bind]. rewrite E1. cbn [bind].
      rewrite (Hp fuel [] Hf). cbn [obind app fst snd]. reflexivity.
  Qed.

  Lemma start_sim : forall pending y net, G net -> rel y net pending -> NoDup pending -> (forall v, In v pending -> signer_key (sk v) = v) ->
    exists fuel0 y' net' xs, steps net xs net' /\ (forall x, In x xs -> quiet x) /\ rel y' net' [] /\
      forall fuel, fuel0 <= fuel -> sync_start fuel r sid y (map (fun v => (sk v, ep v)) pending) = Some (Ok y').
  Proof.
    induction pending as [|v pending IH]; intros y net Hg R Hnd Hk.
    - exists 0, y, net, []. split; [constructor|]. split; [contradiction|]. split; auto.
    - apply NoDup_cons_iff in Hnd as [Hnin Hnd]. destruct (add_sim Hg R Hnin (Hk v (or_introl eq_refl))) as (f1 & y1 & net1 & xs1 & S1 & Q1 & R1 & E1).
      destruct (IH y1 net1 (steps_G S1 Hg) R1 Hnd) as (f2 & y2 & net2 & xs2 & S2 & Q2 & R2 & E2); [intros w Hw; apply Hk; now right|].
      exists (Nat.max f1 f2), y2, net2, (xs1 ++ xs2). split; [eapply steps_app; eauto|]. split; [|split; auto].
      + intros x Hx. apply in_app_iff in Hx as [Hx|Hx]; auto.
      + intros fuel Hf. cbn [map sync_start]. rewrite E1 by lia. cbn [obind]. apply E2. lia.
  Qed.

  Lemma take_in {A} (x : A) l : In x l -> exists i rest, take_nth i l = Some (x, rest).
  Proof.
    induction l as [|y l IH]; [contradiction|]. intros [->|H]; [now exists 0, l|]. destruct (IH H) as (i & rest & E). exists (S i), (y :: rest). cbn [take_nth]. now rewrite E.
  Qed.

  Lemma step_sim i y net : G net -> rel y net [] -> q_is_empty (sy_queue y) = false ->
    exists fuel0 y' net', later net' net /\ rel y' net' [] /\ forall fuel, fuel0 <= fuel -> sync_step fuel r i y = Some (Ok y').
  Proof.
    intros Hg [Rq Rn] He. destruct (@q_pop_total _ i (sy_queue y) (rq_ok Rq)) as (x & q & Ep).
    { intros E. apply (q_empty_iff _ (rq_ok Rq)) in E. congruence. }
    destruct (q_pop_ok _ _ (rq_ok Rq) Ep) as [Hq' Hperm]. pose proof (rq_flight Rq) as Hfl. pose proof (rq_to Rq) as Hto.
    assert (Hx : In x (contents (sy_queue y))) by (rewrite Hperm; now left). pose proof (Hto x Hx) as Hdx.
    assert (Hin : In (pr x) (flight net)) by (rewrite <- Hfl; now apply in_map).
    destruct (take_in (pr x) _ Hin) as (j & rest & Ej).
    assert (Hrest : Permutation (map pr (contents q)) rest).
    { apply Permutation_cons_inv with (a := pr x). rewrite <- (take_nth_perm _ _ Ej), <- Hfl, Hperm. reflexivity. }
    assert (Hact : exists o, act r net (ADeliver j) = Some o).
    { cbn [act]. rewrite Ej. unfold pr. destruct (get _ _) as [[d|rep]|]; eauto. }
    destruct Hact as [o Hact]. destruct (Gstep _ Hg Hact) as (net1 & -> & Hg1). pose proof Hact as Hact0.
    cbn [act] in Hact. rewrite Ej in Hact. unfold pr in Hact. rewrite <- Hdx in Hact.
    assert (Rq1 : forall net1, flight net1 = rest -> rel_q q net1).
    { intros n Hn. constructor; auto; [now rewrite Hn|]. intros z Hz. apply Hto. rewrite Hperm. now right. }
    pose proof (Rn (rm_to x)) as Hv. unfold rel_n in Hv. unfold sync_step. rewrite Ep.
    destruct (get (rm_to x) (sy_states y)) as [[s a|rep]|] eqn:Ev; [| |cbn [existsb] in Hv; rewrite Hv in Hact; discriminate].
    - destruct Hv as (nd0 & Hv & (-> & Hs & Hc) & _). rewrite Hv in Hact. cbn [d_s d_a d_todo] in Hact. apply some_inj in Hact.
      unfold with_accum in Hact. destruct (preprocess_message s a (rm_from x) (rm_message x)) as [a1 [o|e|]] eqn:Epm; try discriminate.
      cbn [bind] in Hact. injection Hact as <-. pose proof (preprocessed_arts _ _ _ _ Epm) as Ha1.
      set (todo := match o with ToProcess vm => [vm] | _ => [] end) in *.
      destruct (@process_sim (rm_to x) s todo _ a1 Hg1 (get_insert_eq _ _ _)) as (a2 & net2 & xs2 & E2 & M2 & Ha2).
      pose proof (steps_G (mv_steps M2) Hg1) as Hg2.
      assert (Hs2 : all_sent (DS s a2 []) = true). { revert Hs. unfold all_sent. cbn [d_s d_a]. now rewrite Ha2, Ha1. }
      destruct (propagate_sim (rm_to x) Hg2 (mv_node M2) Hs2) as (fuel0 & nd & st & out & net3 & xs3 & M3 & Hst & Hp).
      pose proof (moved_app M2 M3) as M. cbn [app] in M.
      exists fuel0, (mkSync (q_extend q out) (insert (rm_to x) st (remove (rm_to x) (sy_states y)))), net3. split; [|split].
      + exists (ADeliver j), (xs2 ++ xs3). econstructor; [exact Hact0|]. apply M.
      + split; cbn [sy_queue sy_states].
        * eapply rel_q_moved; [|exact M]. now apply Rq1.
        * intros w. unfold rel_n. rewrite get_insert. destruct (eqb_spec w (rm_to x)) as [->|Hne]; [exists nd; split; [apply M|auto]|].
          rewrite get_remove, (proj2 (eqb_neq _ _) Hne). specialize (Rn w). unfold rel_n in Rn.
          rewrite (mv_other M Hne). cbn [nodes]. rewrite (get_insert_ne _ _ Hne). exact Rn.
      + intros fuel Hf. cbn [acc_call bind].
        replace (match o with ToProcess vm => deliver_one s a1 vm | _ => Ok a1 end) with (Ok (E := LocalError) a2).
        * rewrite (Hp fuel [] Hf). cbn [obind app fst snd]. reflexivity.
        * revert E2. unfold todo. destruct o as [vm| |]; cbn [fold_res]; auto. destruct (deliver_one s a1 vm); cbn [bind]; congruence.
    - destruct Hv as (nd0 & Hv & Hst & _).
      assert (K : exists nd1, get (rm_to x) (nodes net1) = Some nd1 /\ stands (rm_to x) nd1 (Finished rep) /\ flight net1 = rest /\
        forall w, w <> rm_to x -> get w (nodes net1) = get w (nodes net)).
      { destruct Hst as [->|(d & -> & Hs & Hc & Hr)]; rewrite Hv in Hact.
        - injection Hact as <-. exists (Ended rep). split; auto. split; [now left|auto].
        - apply some_inj in Hact. unfold with_accum in Hact.
          destruct (preprocess_message (d_s d) (d_a d) (rm_from x) (rm_message x)) as [a1 [o|e|]] eqn:Epm; try discriminate.
          cbn [bind] in Hact. injection Hact as <-. eexists. split; [apply get_insert_eq|]. split; [|split; [reflexivity|intros w Hw; now apply get_insert_ne]].
          right. eexists. split; [reflexivity|]. pose proof (preprocessed_arts _ _ _ _ Epm) as Ha1. destruct (preprocessed_can _ _ _ _ Epm) as (H1 & H2 & H3).
          unfold all_sent in *. cbn [d_s d_a]. rewrite Ha1. split; auto. split; auto. revert Hc. unfold can_finalize. now rewrite H1, H2, H3. }
      destruct K as (nd1 & K1 & K2 & K3 & K4).
      exists 0. eexists. exists net1. split; [exists (ADeliver j), []; econstructor; [exact Hact0|constructor]|].
      split; [|intros fuel _; reflexivity]. split; cbn [sy_queue sy_states]; [now apply Rq1|].
      intros w. unfold rel_n. rewrite get_insert. destruct (eqb_spec w (rm_to x)) as [->|Hne]; [eauto|].
      rewrite get_remove, (proj2 (eqb_neq _ _) Hne), (K4 w Hne). exact (Rn w).
  Qed.

  Lemma loop_sim picks net : G net -> forall k y, rel y net [] -> q_is_empty (sy_queue y) = false ->
    exists fuel0 y' net', G net' /\ rel y' net' [] /\ q_is_empty (sy_queue y') = true /\
      forall fuel, fuel0 <= fuel -> sync_loop fuel r picks k y = Some (Ok y').
  Proof.
    intros Hg. pose proof (later_acc Hg) as HA. revert Hg. induction HA as [net _ IH]. intros Hg k y R He.
    destruct (step_sim (picks k) Hg R He) as (f1 & y1 & net1 & L1 & R1 & E1).
    assert (Hg1 : G net1) by (destruct L1 as (x & xs & S1); exact (steps_G S1 Hg)).
    destruct (q_is_empty (sy_queue y1)) eqn:Ee.
    - exists (S f1), y1, net1. split; auto. split; auto. split; auto. intros [|fuel] Hf; [lia|]. cbn [sync_loop]. rewrite E1 by lia. cbn [obind]. now rewrite Ee.
    - destruct (IH net1 L1 Hg1 (S k) y1 R1 Ee) as (f2 & y2 & net2 & Hg2 & R2 & E2 & H2).
      exists (S (Nat.max f1 f2)), y2, net2. split; auto. split; auto. split; auto. intros [|fuel] Hf; [lia|]. cbn [sync_loop].
      rewrite E1 by lia. cbn [obind]. rewrite Ee. apply H2. lia.
  Qed.

  (** When the queue is empty nothing is in flight, and what runs is waiting, or has been terminated. *)
  Lemma rest_at y net : rel y net [] -> q_is_empty (sy_queue y) = true -> flight net = [] /\
    forall v d, get v (nodes net) = Some (Running d) -> all_sent d = true /\
      (d_todo d = [] /\ can_finalize (d_a d) = NotYet \/ can_finalize (d_a d) = Never).
  Proof.
    intros [Rq Rn] He. apply (q_empty_iff _ (rq_ok Rq)) in He. pose proof (rq_flight Rq) as Hfl. rewrite He in Hfl. apply Permutation_nil in Hfl.
    split; auto. intros v d Hd. specialize (Rn v). unfold rel_n in Rn. destruct (get v (sy_states y)) as [[s a|rep]|].
    - destruct Rn as (nd & E & (E' & H1 & H2) & _). rewrite E, E' in Hd. injection Hd as <-. auto.
    - destruct Rn as (nd & E & [E'|(d' & E' & H1 & H2 & _)] & _); rewrite E, E' in Hd; [discriminate|]. injection Hd as <-. auto.
    - cbn in Rn. congruence.
  Qed.
  (** Then nothing can happen any more, unless a node has been terminated. *)
  Lemma quiescent y net : rel y net [] -> q_is_empty (sy_queue y) = true ->
    (forall v d, get v (nodes net) = Some (Running d) -> can_finalize (d_a d) <> Never) -> forall x o, act r net x <> Some o.
  Proof.
    intros HR He Hne. destruct (rest_at HR He) as [Hfl H].
    assert (K : forall v d, get v (nodes net) = Some (Running d) -> d_todo d = [] /\ all_sent d = true /\ can_finalize (d_a d) = NotYet).
    { intros v d Hd. destruct (H v d Hd) as (H1 & [[H2 H3]|H2]); auto. now destruct (Hne v d Hd). }
    intros [v u|i|v i|v] o; cbn [act].
    - destruct (get v (nodes net)) as [[d|rep]|] eqn:Ev; try discriminate. destruct (K v d Ev) as (_ & Hs & _).
      destruct (mem u (message_destinations (d_s d))) eqn:Hu; [|discriminate]. unfold all_sent in Hs. rewrite forallb_forall in Hs.
      rewrite (Hs u) by now apply in_elements. discriminate.
    - rewrite Hfl. destruct i; discriminate.
    - destruct (get v (nodes net)) as [[d|rep]|] eqn:Ev; try discriminate. destruct (K v d Ev) as (-> & _). destruct i; discriminate.
    - destruct (get v (nodes net)) as [[d|rep]|] eqn:Ev; try discriminate. destruct (K v d Ev) as (_ & _ & ->). discriminate.
  Qed.
End Sim.

(** ** Honest parties *)
Section Honest.
  Context {P : Params}.
  Context {Pr : Proto}.
  Variable r : NetRng.
  Variable sid : bytes.
  Variable parties : bset Verifier.
  Variable ep : Verifier -> EntryPoint Pr.
  Variable h : Plan Pr.
  Variable sk : Verifier -> Signer.
  Hypothesis Hsk : signers parties sk.
  Hypothesis Hwire : wire_total P.
  Hypothesis Hsig : signatures_correct P.
  Hypothesis HR : honest_run r sid parties ep h.

  Definition good_net (net : Net Pr) : Prop := exists ph, NInv sid parties h sk net ph.
  Notation Inv := (NInv sid parties h sk).

  Lemma good_step net x o : good_net net -> act r net x = Some o -> exists net', o = Ok net' /\ good_net net'.
  Proof. intros [ph I] H. destruct (step_ok Hsk Hwire Hsig HR x I H) as (net' & E & I' & _). exists net'. split; auto. eexists; eauto. Qed.
  Lemma good_party net v nd : good_net net -> get v (nodes net) = Some nd -> mem v parties = true.
  Proof. intros [ph I] H. destruct (mem v parties) eqn:Hv; auto. rewrite (ni_none I v Hv) in H. discriminate. Qed.
  Lemma good_node net v d : good_net net -> get v (nodes net) = Some (Running d) -> s_verifier (d_s d) = v.
  Proof.
    intros Hg H. pose proof (good_party _ Hg H) as Hv. destruct Hg as [ph I]. pose proof (ni_node I v Hv) as Hn. rewrite H in Hn. apply Hn.
  Qed.
  Lemma good_never net v d : good_net net -> get v (nodes net) = Some (Running d) -> can_finalize (d_a d) <> Never.
  Proof. intros [ph I] H. destruct (inv_fine I v H) as (_ & _ & Hn). auto. Qed.
  Definition no_rep (v : Verifier) (rep : Report (Rslt Pr)) : Prop := False.
  Lemma good_never' net v d : good_net net -> get v (nodes net) = Some (Running d) -> can_finalize (d_a d) = Never ->
    exists rep, terminate_due_to_errors (d_s d) (d_a d) = Ok rep /\ no_rep v rep.
  Proof. intros H1 H2 H3. now destruct (good_never v H1 H2). Qed.
  Lemma good_acc_net net : good_net net -> Acc (follows r) net.
  Proof. intros [ph I]. exact (terminates Hsk Hwire Hsig HR I). Qed.

  Lemma net_start_nodes l : (forall v, In v l -> mem v parties = true) -> forall l',
    map_res (fun p => let* s := session_new (nr_new r (signer_key (fst p))) sid (fst p) (snd p) in Ok (signer_key (fst p), Running (start s)))
        (map (fun v => (sk v, ep v)) l) = Ok l' ->
    map fst l' = l /\ forall v nd, In (v, nd) l' -> exists s, session_new (nr_new r v) sid (sk v) (ep v) = Ok s /\ nd = Running (start s).
  Proof.
    induction l as [|v l IH]; intros Hl l' E; [inv E; split; auto; contradiction|].
    rewrite map_cons, map_res_cons in E. cbn [fst snd] in E. rewrite (Hsk _ (Hl v (or_introl eq_refl))) in E.
    destruct (session_new _ _ _ _) as [s|e|] eqn:Es; try discriminate. cbn [bind] in E.
    destruct (map_res _ _) as [l1|e|] eqn:E1; try discriminate. cbn [bind] in E. inv E.
    destruct (IH ltac:(intros w Hw; apply Hl; now right) _ eq_refl) as [H1 H2]. split; [simpl; now rewrite H1|].
    intros w nd [E|Hin]; [inv E; eauto|eauto].
  Qed.

  (** ** Where nobody sends anything *)
  Definition idle (x : action (P := P)) : Prop := quiet x /\ forall v u, x <> ASend v u.
  Lemma idle_steps net xs net' : steps r net xs net' -> (forall x, In x xs -> idle x) -> forall ph, Inv net ph ->
    (forall v, arts_of net v = empty) ->
    (forall v g u, mem v parties = true -> pvalid h v g -> prank g < prank (ph v) -> mem u (dst h g v) = false) ->
    exists ph', Inv net' ph' /\ (forall v, arts_of net' v = empty) /\
      forall v g u, mem v parties = true -> pvalid h v g -> prank g < prank (ph' v) -> mem u (dst h g v) = false.
  Proof.
    induction 1 as [|net x net1 xs net2 Hx _ IH]; intros Hi ph I Ha Hd; [exists ph; auto|].
    destruct (step_ok Hsk Hwire Hsig HR x I Hx) as (n & E & I1 & _). inv E. rename n into net1.
    apply (IH ltac:(intros y Hy; apply Hi; now right) _ I1); clear IH.
    - intros w. specialize (Ha w). revert Ha. destruct (Hi x (or_introl eq_refl)) as [Hq Hns].
      destruct x as [v u|i|v i|v]; [now destruct (Hns v u)|now destruct (Hq i)| |]; cbn [act] in Hx.
      + destruct (get v (nodes net)) as [[d|rep]|] eqn:Ev; try discriminate. destruct (take_nth i (d_todo d)) as [[vm todo]|]; try discriminate.
        apply some_inj in Hx. unfold with_accum in Hx. destruct (add_processed _ _ _) as [a' [b|e|]] eqn:Ea; try discriminate. cbn [bind] in Hx. inv Hx.
        unfold arts_of. cbn [set_node nodes]. rewrite get_insert. destruct (eqb_spec w v) as [->|]; auto. rewrite Ev. cbn [d_a]. now rewrite (processed_arts _ _ _ Ea).
      + destruct (get v (nodes net)) as [[d|rep]|] eqn:Ev; try discriminate. destruct (can_finalize (d_a d)); try discriminate. destruct (all_sent d); try discriminate.
        apply some_inj in Hx. destruct (finalize_round _ _ _) as [ro|e|]; try discriminate. cbn [bind] in Hx. inv Hx.
        unfold arts_of. cbn [set_node nodes]. rewrite get_insert. destruct (eqb_spec w v) as [->|]; auto. intros _. destruct ro; reflexivity.
    - intros w g u Hw Hg. destruct (Hi x (or_introl eq_refl)) as [Hq Hns].
      destruct x as [v u'|i|v i|v]; [now destruct (Hns v u')|now destruct (Hq i)|apply Hd; auto|]. cbn [upd].
      destruct (eqb_spec w v) as [->|]; [|apply Hd; auto]. cbn [act] in Hx.
      pose proof (ni_node I v Hw) as Hn. pose proof (Ha v) as Hav. unfold arts_of in Hav. destruct (get v (nodes net)) as [[d|rep]|] eqn:Ev; try discriminate.
      destruct (can_finalize (d_a d)); try discriminate. destruct (all_sent d) eqn:Hs; try discriminate. destruct Hn as (Hv & Hgs & _).
      intros Hlt. pose proof (lt_next Hv Hg Hlt) as Hle. destruct (Nat.eq_dec (prank g) (prank (ph v))) as [Eq|Hne]; [|apply Hd; auto; lia].
      apply prank_inj in Eq. subst g. destruct (mem u (dst h (ph v) v)) eqn:Hu; auto. unfold all_sent in Hs. rewrite forallb_forall in Hs.
      specialize (Hs u). unfold message_destinations in Hs. rewrite (gs_comm Hgs), Hav in Hs. cbn [ci_dest] in Hs.
      rewrite in_elements, contains_empty in Hs. symmetry. now apply Hs.
  Qed.

  Lemma flight_grows (net : Net Pr) xs net' : steps r net xs net' -> (forall x, In x xs -> quiet x) ->
    length (flight net) <= length (flight net') /\ (flight net' = flight net -> forall x, In x xs -> idle x).
  Proof.
    induction 1 as [|net x net1 xs net2 Hx _ IH]; intros Hq; [split; auto; contradiction|].
    destruct (IH ltac:(intros y Hy; apply Hq; now right)) as [H1 H2]. pose proof (Hq x (or_introl eq_refl)) as Hqx.
    assert (K : (exists y, flight net1 = flight net ++ [y]) \/ (flight net1 = flight net /\ idle x)).
    { destruct x as [v u|i|v i|v]; [|now destruct (Hqx i)| |]; cbn [act] in Hx; destruct (get v (nodes net)) as [[d|rep]|]; try discriminate.
      - destruct (_ && _)%bool; try discriminate. apply some_inj in Hx. destruct (make_message _ _ _) as [[m pa]|e|]; try discriminate. cbn [bind] in Hx.
        unfold with_accum in Hx. destruct (add_artifact _ _) as [a' [b|e|]]; try discriminate. cbn [bind] in Hx. inv Hx. left. cbn [flight]. eauto.
      - destruct (take_nth _ _) as [[vm todo]|]; try discriminate. apply some_inj in Hx. unfold with_accum in Hx.
        destruct (add_processed _ _ _) as [a' [b|e|]]; try discriminate. cbn [bind] in Hx. inv Hx. right. split; auto. split; auto. discriminate.
      - destruct (can_finalize (d_a d)); try discriminate. destruct (all_sent d); try discriminate.
        apply some_inj in Hx. destruct (finalize_round _ _ _) as [ro|e|]; try discriminate. cbn [bind] in Hx. inv Hx. right. split; auto. split; auto. discriminate. }
    destruct K as [[y E]|[E Hi]].
    - rewrite E, app_length in H1. simpl in H1. split; [lia|]. intros E2. rewrite E2 in H1. lia.
    - rewrite E in *. split; auto. intros E2 z [<-|Hz]; auto.
  Qed.

  (** Does the plan contain any message at all? *)
  Definition talks : Prop := exists n v u, n <= pl_last h /\ mem v parties = true /\
    (mem u (pl_dest h n v) = true \/ (echoes h n v = true /\ mem u (partners h n v) = true)).

  Lemma started : exists fuel0 y net, good_net net /\ rel r sid sk ep no_rep y net [] /\ (q_is_empty (sy_queue y) = false <-> talks) /\
    forall fuel, fuel0 <= fuel ->
      sync_start fuel r sid (mkSync (q_new true) empty) (map (fun v => (sk v, ep v)) (elements parties)) = Some (Ok y).
  Proof.
    destruct (start_ok sk Hsk Hwire Hsig HR) as (net0 & E0 & I0). pose proof E0 as E1. unfold net_start in E1.
    destruct (map_res _ _) as [l|e|] eqn:El; try discriminate. cbn [bind] in E1. injection E1 as <-.
    destruct (@net_start_nodes (elements parties)) with (l' := l) as [Hk Hnd]; [intros v; apply in_elements|exact El|].
    set (net0 := mkNet (of_list l) []) in *. assert (Hg : good_net net0) by (eexists; exact I0).
    destruct (@start_sim _ _ r sid sk ep good_net good_step good_node no_rep good_never' good_acc_net (elements parties) (mkSync (q_new true) empty) net0 Hg)
      as (fuel0 & y & net & xs & S1 & Q1 & R1 & F1).
    - split; [constructor; [apply q_new_ok|reflexivity|intros x []]|]. intros v. unfold rel_n. cbn [sy_states]. rewrite get_empty.
      destruct (existsb (eqb v) (elements parties)) eqn:Hv.
      + apply existsb_in in Hv. rewrite <- Hk in Hv. apply in_map_iff in Hv as ([w nd] & Ew & Hin). simpl in Ew. subst w.
        destruct (Hnd _ _ Hin) as (s & Es & ->). exists s. split; auto. apply get_of_list_nodup; auto. rewrite Hk. apply NoDup_elements.
      + apply get_of_list_none. rewrite Hk. intros Hin. apply existsb_in in Hin. congruence.
    - apply NoDup_elements.
    - intros v Hv. apply Hsk. now apply in_elements.
    - exists fuel0, y, net. pose proof (@steps_G _ _ r good_net good_step _ _ _ S1 Hg) as Hg'. split; auto. split; auto. split; auto.
      destruct R1 as [Rq Rn]. pose proof (rq_flight Rq) as Hfl. pose proof (q_empty_iff _ (rq_ok Rq)) as Hemp. split.
      + intros He. destruct (contents (sy_queue y)) as [|x c] eqn:Ec; [rewrite (proj2 Hemp eq_refl) in He; discriminate|].
        assert (Hin : In (pr x) (flight net)) by (rewrite <- Hfl; now left). destruct Hg' as [ph I]. unfold pr in Hin.
        destruct (ni_flight I _ _ Hin) as (g & Hg1 & Hu & _ & Hd). exists (fst g), (rm_from x), (msg_dest (rm_message x)). split; auto. split; auto.
        unfold dst in Hd. destruct (snd g); auto. destruct (echoes h (fst g) (rm_from x)); [auto|discriminate].
      + intros (n & v & u & Hn & Hv & Hu). destruct (q_is_empty (sy_queue y)) eqn:He; auto. exfalso.
        pose proof (quiescent (conj Rq Rn) He (fun v d => @good_never net v d Hg')) as Hstop. pose proof (proj1 Hemp eq_refl) as Hc. rewrite Hc in Hfl. apply Permutation_nil in Hfl.
        destruct (flight_grows S1 Q1) as [_ Hidle]. specialize (Hidle Hfl).
        destruct (idle_steps S1 Hidle I0) as (ph' & I' & _ & Hd).
        * intros w. unfold arts_of, net0. cbn [nodes]. destruct (get w (of_list l)) as [[d|rep]|] eqn:Ew; auto.
          destruct (mem w parties) eqn:Hw; [|pose proof (ni_none I0 w Hw) as K; unfold net0 in K; cbn [nodes] in K; congruence].
          assert (Hin : In (w, Running d) l).
          { assert (Hk' : In w (map fst l)) by (rewrite Hk; now apply in_elements). apply in_map_iff in Hk' as ([w' nd] & Ew' & Hin). simpl in Ew'. subst w'.
            assert (get w (of_list l) = Some nd) by (apply get_of_list_nodup; auto; rewrite Hk; apply NoDup_elements). congruence. }
          destruct (Hnd _ _ Hin) as (s & _ & Es). inv Es. reflexivity.
        * intros w g u' _ _ L. unfold prank in L. simpl in L. lia.
        * destruct (progress Hsk Hwire Hsig HR I') as [[Hend _]|(x & net2 & Hx)]; [|exact (Hstop x _ Hx)].
          destruct (Hend v Hv) as (rep & Hrep & _). pose proof (ni_node I' v Hv) as Hnv. rewrite Hrep in Hnv. destruct Hnv as (Hph & _).
          destruct Hu as [Hu|[He' Hu]].
          -- assert (Hval : pvalid h v (n, false)) by (split; simpl; [lia|discriminate]).
             pose proof (Hd v (n, false) u Hv Hval) as K. rewrite Hph in K. unfold dst in K. cbn [fst snd] in K. rewrite Hu in K.
             assert (true = false) by (apply K; unfold prank; cbn [fst snd b2n]; lia). discriminate.
          -- assert (Hval : pvalid h v (n, true)) by (split; auto).
             pose proof (Hd v (n, true) u Hv Hval) as K. rewrite Hph in K. unfold dst in K. cbn [fst snd] in K. rewrite He', Hu in K.
             assert (true = false) by (apply K; unfold prank; cbn [fst snd b2n]; lia). discriminate.
  Qed.

  Lemma exec_all (reports : bmap Verifier (Report (Rslt Pr))) :
    (forall v, mem v parties = false -> get v reports = None) ->
    (forall v, mem v parties = true -> exists rep, get v reports = Some rep /\ rep_outcome rep = OResult (pl_result h v)) ->
    exists results, exec_results reports = Some results /\ is_map results parties (pl_result h).
  Proof.
    intros Hn Hs. unfold exec_results.
    assert (Ho : forall v rep, In (v, rep) (to_list reports) -> mem v parties = true /\ rep_outcome rep = OResult (pl_result h v)).
    { intros v rep Hin. apply in_to_list in Hin. destruct (mem v parties) eqn:Hv; [|rewrite Hn in Hin by auto; discriminate].
      split; auto. destruct (Hs v Hv) as (rep' & E & Hr). congruence. }
    rewrite (proj2 (forallb_forall _ _)); [|intros [v rep] Hin; simpl; now rewrite (proj2 (Ho v rep Hin))].
    eexists. split; [reflexivity|].
    assert (E : flat_map (fun kv => match rep_outcome (snd kv) with OResult x => [(fst kv, x)] | _ => [] end) (to_list reports)
                = map (fun v => (v, pl_result h v)) (keys reports)).
    { unfold keys. change (bm_list reports) with (to_list reports). revert Ho. generalize (to_list reports). induction l as [|[v rep] l IH]; intros Ho; auto.
      simpl. rewrite (proj2 (Ho v rep (or_introl eq_refl))). simpl. f_equal. apply IH. intros w x Hx. apply Ho. now right. }
    rewrite E. intros v. assert (Hf : map fst (map (fun v => (v, pl_result h v)) (keys reports)) = keys reports) by (rewrite map_map; apply map_id).
    destruct (mem v parties) eqn:Hv.
    - apply get_of_list_nodup; [rewrite Hf; apply NoDup_keys|]. apply in_map_iff. exists v. split; auto.
      destruct (Hs v Hv) as (rep & Er & _). apply in_keys, contains_get. eauto.
    - apply get_of_list_none. rewrite Hf, in_keys. rewrite (proj2 (contains_false v reports)); [discriminate|auto].
  Qed.

  (** The whole run. *)
  Lemma run_sync_completes picks : talks ->
    exists fuel0 reports results, (forall fuel, fuel0 <= fuel ->
        run_sync fuel r picks sid (map (fun v => (sk v, ep v)) (elements parties)) = Some (Ok reports)) /\
      (forall v, mem v parties = false -> get v reports = None) /\
      (forall v, mem v parties = true -> exists rep, get v reports = Some rep /\
        rep_outcome rep = OResult (pl_result h v) /\ rep_provable rep = empty /\ rep_unprovable rep = empty /\ rep_missing rep = empty) /\
      exec_results reports = Some results /\ is_map results parties (pl_result h).
  Proof.
    intros Ht. destruct started as (f1 & y1 & net1 & G1 & R1 & He & F1). apply He in Ht.
    destruct (@loop_sim _ _ r sid sk ep good_net good_step good_node no_rep good_never' good_acc_net picks net1 G1 0 y1 R1 Ht)
      as (f2 & y2 & net2 & G2 & R2 & He2 & F2).
    assert (Hend : all_ended parties h net2).
    { destruct G2 as [ph I]. destruct (progress Hsk Hwire Hsig HR I) as [[H _]|(x & n & Hx)]; auto. destruct (quiescent R2 He2 (fun v d => @good_never net2 v d (ex_intro _ ph I)) x Hx). }
    destruct R2 as [Rq Rn].
    assert (Hst : forall v st, get v (sy_states y2) = Some st -> exists rep, st = Finished rep /\ mem v parties = true /\
      rep_outcome rep = OResult (pl_result h v) /\ rep_provable rep = empty /\ rep_unprovable rep = empty /\ rep_missing rep = empty).
    { intros v st E. specialize (Rn v). unfold rel_n in Rn. rewrite E in Rn. destruct Rn as (nd & E2 & Hsd & _). pose proof (good_party _ G2 E2) as Hv.
      destruct (Hend v Hv) as (rep & Er & Ho & Hne). rewrite E2 in Er. apply some_inj in Er. destruct st as [s a|rep']; cbn [stands] in Hsd; [destruct Hsd as (E3 & _); congruence|].
      destruct Hsd as [E3|(d & _ & _ & _ & [])]. assert (rep' = rep) by congruence. subst rep'. eauto 7. }
    assert (Hall : forall v, mem v parties = true -> exists rep, get v (sy_states y2) = Some (Finished rep)).
    { intros v Hv. destruct (Hend v Hv) as (rep & Er & _). specialize (Rn v). unfold rel_n in Rn. destruct (get v (sy_states y2)) as [st|] eqn:E.
      - destruct (Hst v st E) as (rep' & -> & _). eauto.
      - cbn in Rn. congruence. }
    assert (K : forall l : list (Verifier * NState Pr), (forall v st, In (v, st) l -> exists rep, st = Finished rep) ->
      exists l', map_res (fun kv => let* rep := sync_report (snd kv) in Ok (fst kv, rep)) l = Ok l' /\
        map (fun kv => (fst kv, Finished (snd kv))) l' = l).
    { induction l as [|[v st] l IH]; intros Hl; [exists []; auto|]. destruct (Hl v st (or_introl eq_refl)) as [rep ->].
      destruct IH as (l' & E & El); [intros w x Hx; apply (Hl w); now right|]. exists ((v, rep) :: l'). rewrite map_res_cons. cbn [fst snd sync_report bind].
      rewrite E. cbn [bind]. split; auto. simpl. now rewrite El. }
    destruct (K (to_list (sy_states y2))) as (l' & El & Em).
    { intros v st Hin. apply in_to_list in Hin. destruct (Hst v st Hin) as (rep & -> & _). eauto. }
    assert (Hf : map fst l' = keys (sy_states y2)).
    { unfold keys. change (bm_list (sy_states y2)) with (to_list (sy_states y2)). rewrite <- Em, map_map. reflexivity. }
    assert (Hget : forall v rep, get v (sy_states y2) = Some (Finished rep) -> get v (of_list l') = Some rep).
    { intros v rep E. apply get_of_list_nodup; [rewrite Hf; apply NoDup_keys|]. apply in_to_list in E. rewrite <- Em in E.
      apply in_map_iff in E as ([w x] & E & Hin). simpl in E. inv E. exact Hin. }
    assert (H1 : forall v, mem v parties = false -> get v (of_list l') = None).
    { intros v Hv. apply get_of_list_none. rewrite Hf. intros Hin. apply in_keys, contains_get in Hin as [st E]. destruct (Hst v st E) as (rep & _ & Hv' & _). congruence. }
    assert (H2 : forall v, mem v parties = true -> exists rep, get v (of_list l') = Some rep /\
        rep_outcome rep = OResult (pl_result h v) /\ rep_provable rep = empty /\ rep_unprovable rep = empty /\ rep_missing rep = empty).
    { intros v Hv. destruct (Hall v Hv) as [rep E]. exists rep. split; [now apply Hget|]. destruct (Hst v _ E) as (rep' & E' & _ & H). inv E'. exact H. }
    destruct (@exec_all (of_list l') H1) as (results & Hr1 & Hr2); [intros v Hv; destruct (H2 v Hv) as (rep & A & B & _); eauto|].
    exists (Nat.max f1 f2), (of_list l'), results. split; [|auto].
    intros fuel Hf'. unfold run_sync. rewrite F1 by lia. cbn [obind]. rewrite F2 by lia. cbn [obind]. unfold sync_reports. rewrite El. reflexivity.
  Qed.

  Lemma run_sync_panics picks : ~ talks -> exists fuel0, forall fuel, fuel0 <= fuel ->
    run_sync fuel r picks sid (map (fun v => (sk v, ep v)) (elements parties)) = Some Panic.
  Proof.
    intros Ht. destruct started as (f1 & y1 & net1 & G1 & [Rq Rn] & He & F1).
    assert (E : contents (sy_queue y1) = []).
    { apply (q_empty_iff _ (rq_ok Rq)). destruct (q_is_empty (sy_queue y1)); auto. destruct Ht. now apply He. }
    exists (S f1). intros [|fuel] Hf; [lia|]. unfold run_sync. rewrite F1 by lia. cbn [obind sync_loop]. unfold sync_step.
    rewrite (q_pop_empty _ _ (rq_ok Rq) E). reflexivity.
  Qed.
End Honest.
