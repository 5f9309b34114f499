(** Executions in which any messages of any parties are turned down. *)
From Coq Require Import List NArith Bool Lia Arith.
From Verif Require Import Base BMap Errors RoundId Message Protocol Transcript Evidence Session Spec SpecCrypto SpecEvidence
  MessageFacts SessionFacts EvidenceFacts GuiltFacts LocalFacts Network SpecNet NetFacts RunSync SpecSync RunSyncFacts PlanTrFacts
  SpecExtend SimFacts SpecCaught ChargeFacts SpecFaults.
Import ListNotations.
Set Implicit Arguments.

Section Facts.
  Context {P : Params}.
  Context {Pr : Proto}.
  Variable f : St Pr -> Verifier -> DynMsg -> res RecvErr (Payload Pr).
  Notation Q := (with_receive Pr f).
  Variable r : NetRng.
  Variable sid : bytes.
  Variable parties : bset Verifier.
  Variable ep : Verifier -> EntryPoint Pr.
  Variable h : Plan Q.
  Variable sk : Verifier -> Signer.
  Hypothesis Hsk : signers parties sk.
  Hypothesis Hwire : wire_total P.
  Hypothesis Hsig : signatures_correct P.
  Hypothesis Hpl : plain_ids Pr.
  Hypothesis HR : honest_run r sid parties (fun v => ep_with f (ep v)) h.
  Let HL := proj1 HR.
  Variable stop : Verifier -> option nat.
  Variable sd : Shared Pr.
  Hypothesis HF : faults sid parties h stop sd.

  Notation N := (pl_last h).
  Notation R := (pl_rid h).
  Notation party v := (mem v parties = true).
  Notation Inv := (NInv sid parties h sk).
  Notation TI := (TInv sid h).
  Notation prid := (prid h).
  Notation pnext := (pnext h).
  Notation pvalid := (pvalid h).
  Notation exp := (exp h).
  Notation dst := (dst h).

  Notation St_eq := (fun (x : St Pr) (y : St Q) => x = y).
  Notation idP := (fun (x : Payload Pr) => (x : Payload Q)).
  Notation idA := (fun (x : Artifact Pr) => (x : Artifact Q)).
  Notation idR := (fun (x : Rslt Pr) => (x : Rslt Q)).
  Notation macc := (@macc P Pr Q idP idA).
  Notation srel := (@srel P Pr Q idP idA St_eq).

  Notation out := (@ChargeFacts.out P Pr f).
  Notation acc_by := (accepted h).

  (** ** The network and the one in which nothing is turned down *)
  Record conv (k : nat) (v : Verifier) (a : Accum Pr) (a' : Accum Q) : Prop := {
    cv_wait : a_waiting a' = a_waiting a;
    cv_expect : a_expect a' = a_expect a;
    cv_proc : a_processing a' = a_processing a;
    cv_arts : a_artifacts a' = map_values (@ma P Pr Q idA) (a_artifacts a);
    cv_pay : forall w, contains w (a_payloads a) = (contains w (a_payloads a') && acc_by k v w)%bool;
    cv_ban : forall w, a_is_banned a w = (contains w (a_payloads a') && negb (acc_by k v w))%bool;
    cv_cached : forall w, a_is_banned a w = false -> get w (a_cached a') = get w (a_cached a);
    cv_prov : forall u ev, get u (a_provable a) = Some ev -> mem u (pl_from h k v) = true /\ proof_against sid h u k sd v ev;
    cv_unprov : forall u e, get u (a_unprovable a) = Some e -> mem u (pl_from h k v) = true /\ verdict h k v u = Err (RUnprovable e)
  }.
  Definition arel (v : Verifier) (g : phase) (a : Accum Pr) (a' : Accum Q) : Prop :=
    (a' = macc a /\ forall k, stop v = Some k -> prank g < prank (k, false)) \/
    (exists k, stop v = Some k /\ g = (k, false) /\ conv k v a a').
  Definition nodrel (v : Verifier) (g : phase) (nd : Node Pr) (nd' : Node Q) : Prop :=
    match nd, nd' with
    | Running d, Running d' => srel (d_s d) (d_s d') /\ d_todo d' = d_todo d /\ arel v g (d_a d) (d_a d')
    | Ended rep, Ended rep' => stop v = None /\ rep_outcome rep = OResult (pl_result h v : Rslt Pr) /\ rep_provable rep = empty /\ rep_unprovable rep = empty
    | _, _ => False
    end.
  Definition onodrel (v : Verifier) (g : phase) (nd : option (Node Pr)) (nd' : option (Node Q)) : Prop :=
    match nd, nd' with Some x, Some x' => nodrel v g x x' | None, None => True | _, _ => False end.
  Record CI (M : Net Pr) (H : Net Q) (ph : Verifier -> phase) : Prop := {
    ci_reach : reach M;
    ci_inv : Inv H ph;
    ci_tr : TI H ph;
    ci_flight : flight H = flight M;
    ci_nodes : forall v, onodrel v (ph v) (get v (nodes M)) (get v (nodes H))
  }.

  Lemma arel_art v g a a' u x : arel v g a a' ->
    arel v g (set_artifacts a (insert u x (a_artifacts a))) (set_artifacts a' (insert u (@ma P Pr Q idA x) (a_artifacts a'))).
  Proof.
    intros [[-> K]|(k & H1 & H2 & C)].
    - left. split; [|exact K]. unfold SimFacts.macc, set_artifacts. cbn. now rewrite map_values_insert.
    - right. exists k. split; auto. split; auto. destruct C. constructor; cbn [set_artifacts a_waiting a_expect a_processing a_payloads a_artifacts a_cached a_provable a_unprovable]; auto.
      rewrite map_values_insert. congruence.
  Qed.
  Lemma arel_arts v g a a' : arel v g a a' -> a_artifacts a' = map_values (@ma P Pr Q idA) (a_artifacts a).
  Proof. intros [[-> _]|(k & _ & _ & C)]; [reflexivity|apply C]. Qed.
  Lemma arel_all_sent v g s s' a a' todo todo' : srel s s' -> arel v g a a' -> all_sent (DS s' a' todo') = all_sent (DS s a todo).
  Proof.
    intros S A. unfold all_sent. cbn [d_s d_a]. destruct S as (_ & _ & _ & _ & Hc & _). unfold message_destinations. rewrite Hc, (arel_arts A).
    induction (elements _) as [|u l IH]; auto. cbn [forallb]. now rewrite contains_map_values, IH.
  Qed.

  Lemma set_nodes M H ph v nd nd' fl fl' g :
    (forall w, onodrel w (ph w) (get w (nodes M)) (get w (nodes H))) -> nodrel v g nd nd' ->
    forall w, onodrel w (if eqb w v then g else ph w) (get w (nodes (mkNet (insert v nd (nodes M)) fl))) (get w (nodes (mkNet (insert v nd' (nodes H)) fl'))).
  Proof.
    intros K Hv w. cbn [nodes]. rewrite !get_insert. destruct (eqb_spec w v) as [->|]; [exact Hv|apply K].
  Qed.
  Lemma set_nodes_same M H ph v nd nd' fl fl' :
    (forall w, onodrel w (ph w) (get w (nodes M)) (get w (nodes H))) -> nodrel v (ph v) nd nd' ->
    forall w, onodrel w (ph w) (get w (nodes (mkNet (insert v nd (nodes M)) fl))) (get w (nodes (mkNet (insert v nd' (nodes H)) fl'))).
  Proof.
    intros K Hv w. cbn [nodes]. rewrite !get_insert. destruct (eqb_spec w v) as [->|]; [exact Hv|apply K].
  Qed.

  Lemma conv_new k v (a : Accum Pr) : a_payloads a = empty -> a_provable a = empty -> a_unprovable a = empty -> conv k v a (macc a).
  Proof.
    intros H1 H2 H3. constructor; cbn [SimFacts.macc a_waiting a_expect a_processing a_payloads a_artifacts a_cached]; auto.
    - intros w. now rewrite contains_map_values, H1, contains_empty.
    - intros w. unfold a_is_banned. now rewrite contains_map_values, H1, H2, H3, !contains_empty.
    - intros u ev. now rewrite H2, get_empty.
    - intros u e. now rewrite H3, get_empty.
  Qed.

  Ltac no H := exfalso; revert H; unfold reject, register_unprovable; repeat match goal with |- context [if ?b then _ else _] => destruct b end; cbn [bind]; congruence.
  Lemma pre_like k v s s' a a' u m vm : srel s s' -> conv k v a a' -> a_is_banned a u = false ->
    preprocess_message s' a' u m = (set_processing a' (sadd u (a_processing a')), Ok (ToProcess vm)) -> vm_from vm = u ->
    preprocess_message s a u m = (set_processing a (sadd u (a_processing a)), Ok (ToProcess vm)).
  Proof.
    intros (Hid & Hsg & Hv & Hr & Hc & Hei & He & Hn & Ht & Htr) C Hu. unfold preprocess_message, s_round_id. rewrite Hid, Ht, Hei, Htr, Hu.
    intros H Hvm. destruct (tr_is_banned (s_tr s) u); [cbn [orb] in H; congruence|]. destruct (a_is_banned a' u); [cbn [orb] in H; congruence|]. cbn [orb] in *.
    destruct (unify_metadata m) as [cm|]; [|no H]. destruct (negb (bytes_eqb _ _)); [no H|].
    destruct (simultaneous_rounds _ _) as [acc| |]; try congruence. rewrite (cv_proc C) in H.
    replace (message_is_cached a' u (m_round (cm_meta cm))) with (message_is_cached a u (m_round (cm_meta cm))) in H by (unfold message_is_cached; now rewrite (cv_cached C _ Hu)).
    destruct (eqb (m_round (cm_meta cm)) (ti_id (s_tinfo s))).
    - destruct (mem u (a_processing a)) eqn:Ep; [no H|]. destruct (verify_message u cm) as [vm'|[| |]|]; try congruence; try (no H).
      unfold mark_processing in *. rewrite (cv_proc C) in H. assert (E : vm' = vm). { destruct (mem (vm_from vm') (a_processing a)); cbn [bind] in H; congruence. }
      subst vm'. rewrite Hvm, Ep in *. reflexivity.
    - destruct (mem (m_round (cm_meta cm)) acc); [|no H]. destruct (message_is_cached a u _); [no H|].
      destruct (verify_message u cm) as [vm'|[| |]|]; try congruence; try (no H). unfold cache_message in H.
      destruct (contains _ _); cbn [bind] in H; congruence.
  Qed.
  Lemma pre_like_cached k v s s' a a' u m vm : srel s s' -> conv k v a a' -> a_is_banned a u = false -> vm = vm_of u m ->
    preprocess_message s' a' u m = (fst (cache_message a' vm), Ok Cached) ->
    preprocess_message s a u m = (fst (cache_message a vm), Ok Cached).
  Proof.
    intros (Hid & Hsg & Hv & Hr & Hc & Hei & He & Hn & Ht & Htr) C Hu ->. unfold preprocess_message, s_round_id. rewrite Hid, Ht, Hei, Htr, Hu.
    intros H. destruct (tr_is_banned (s_tr s) u); [cbn [orb] in H; congruence|]. destruct (a_is_banned a' u); [cbn [orb] in H; congruence|]. cbn [orb] in *.
    destruct (unify_metadata m) as [cm|] eqn:Eu; [|no H]. destruct (negb (bytes_eqb _ _)); [no H|].
    destruct (simultaneous_rounds _ _) as [acc| |]; try congruence. rewrite (cv_proc C) in H.
    replace (message_is_cached a' u (m_round (cm_meta cm))) with (message_is_cached a u (m_round (cm_meta cm))) in H by (unfold message_is_cached; now rewrite (cv_cached C _ Hu)).
    destruct (eqb (m_round (cm_meta cm)) (ti_id (s_tinfo s))).
    - destruct (mem u (a_processing a)) eqn:Ep; [no H|]. destruct (verify_message u cm) as [vm'|[| |]|]; try congruence; try (no H).
      unfold mark_processing in *. destruct (mem (vm_from vm') (a_processing a')); cbn [bind] in H; congruence.
    - destruct (mem (m_round (cm_meta cm)) acc); [|no H]. destruct (message_is_cached a u _); [no H|].
      destruct (verify_message u cm) as [vm'|[| |]|] eqn:Evm; try congruence; try (no H).
      assert (E : vm' = vm_of u m).
      { apply verify_message_ok in Evm. destruct Evm as [-> _]. apply unify_metadata_ok in Eu. destruct Eu as (_ & _ & ->). reflexivity. }
      subst vm'. unfold cache_message in *. cbn [vm_of vm_from fst] in *. rewrite (cv_cached C _ Hu) in H.
      destruct (contains _ _); cbn [bind] in *; congruence.
  Qed.

  Lemma todo_fresh net ph v d m : Inv net ph -> party v -> get v (nodes net) = Some (Running d) -> In m (d_todo d) ->
    contains (vm_from m) (a_payloads (d_a d)) = false.
  Proof.
    intros I Hv Ev Hin. pose proof (ni_node I v Hv) as Hnode. rewrite Ev in Hnode. destruct Hnode as (Hf & G & A).
    destruct (ga_todo A m Hin) as [Gm Hex]. set (u := vm_from m) in *.
    assert (Hu : party u) by (eapply exp_party; [exact HR|apply Hf|exact Hv|exact Hex]).
    pose proof (ni_count I u Hu Hv Hf) as Hcount. rewrite Nat.leb_refl, (held_eq h net ph v (ph v) u Ev), Nat.eqb_refl in Hcount.
    pose proof (sent_le h net ph u (ph v) v).
    assert (1 <= cnt_todo (d_todo d) u).
    { apply in_split in Hin as (l1 & l2 & ->). rewrite cnt_todo_app, cnt_todo_cons. fold u. rewrite eqb_refl. cbn [b2n]. lia. }
    destruct (contains u (a_payloads (d_a d))); auto. cbn [b2n] in *. lia.
  Qed.

  (** ** The two networks move together *)
  Lemma lock_send M H ph v u o : CI M H ph -> act r M (ASend v u) = Some o ->
    exists o', act r H (ASend v u) = Some o' /\ forall H', o' = Ok H' ->
      exists M', o = Ok M' /\ flight H' = flight M' /\ forall w, onodrel w (ph w) (get w (nodes M')) (get w (nodes H')).
  Proof.
    intros C Hx. cbn [act] in *. pose proof (ci_nodes C v) as K. unfold onodrel, nodrel in K.
    destruct (get v (nodes M)) as [[d|rep]|] eqn:Ev; try discriminate.
    destruct (get v (nodes H)) as [[d'|rep]|] eqn:Ev'; try contradiction. destruct K as (S & Et & A).
    assert (Hd : message_destinations (d_s d') = message_destinations (d_s d)) by (unfold message_destinations; destruct S as (_ & _ & _ & _ & -> & _); reflexivity).
    assert (Hrid : s_round_id (d_s d') = s_round_id (d_s d)) by (unfold s_round_id; destruct S as (_ & _ & _ & _ & _ & _ & _ & _ & -> & _); reflexivity).
    rewrite Hd, (arel_arts A), contains_map_values, Hrid, (make_sim out _ u S).
    destruct (_ && _)%bool; [|discriminate]. apply some_inj in Hx. subst o. eexists. split; [reflexivity|]. intros H'.
    destruct (make_message (d_s d) _ u) as [[m [u' pa]]| |]; cbn [bind rmap fst snd]; try discriminate.
    unfold with_accum, add_artifact. rewrite (arel_arts A), contains_map_values. cbn [fst snd].
    destruct (contains u' (a_artifacts (d_a d))); cbn [bind]; [discriminate|]. intros E. injection E as <-. eexists. split; [reflexivity|].
    split; [cbn [flight]; now rewrite (ci_flight C)|]. apply set_nodes_same; [apply (ci_nodes C)|]. cbn [nodrel d_s d_a d_todo]. split; auto. split; auto.
    rewrite <- (arel_arts A). now apply arel_art.
  Qed.

  Lemma lock_deliver M H ph i o : CI M H ph -> act r M (ADeliver i) = Some o ->
    exists o', act r H (ADeliver i) = Some o' /\ forall H', o' = Ok H' ->
      exists M', o = Ok M' /\ flight H' = flight M' /\ forall w, onodrel w (ph w) (get w (nodes M')) (get w (nodes H')).
  Proof.
    intros C Hx. cbn [act] in *. rewrite (ci_flight C). destruct (take_nth i (flight M)) as [[[u m] rest]|] eqn:Etk; [|discriminate].
    set (v := msg_dest m) in *. pose proof (ci_nodes C v) as K. unfold onodrel, nodrel in K.
    destruct (get v (nodes M)) as [[d|rep]|] eqn:Ev; destruct (get v (nodes H)) as [[d'|rep']|] eqn:Ev'; try contradiction; apply some_inj in Hx; subst o.
    2:{ eexists. split; [reflexivity|]. intros H' E. injection E as <-. eexists. split; [reflexivity|]. split; [reflexivity|]. apply (ci_nodes C). }
    2:{ eexists. split; [reflexivity|]. discriminate. }
    destruct K as (S & Et & A). eexists. split; [reflexivity|]. intros H'.
    destruct A as [[Ea A]|(k & Hst & Hp & A)].
    - rewrite Ea, (pre_sim (d_a d) u m S). unfold pm. destruct (preprocess_message (d_s d) (d_a d) u m) as [a o] eqn:Ep. cbn [fst snd].
      unfold with_accum. destruct o as [o| |]; cbn [bind]; try discriminate. intros E. injection E as <-. eexists. split; [reflexivity|]. split; [reflexivity|].
      apply set_nodes_same; [apply (ci_nodes C)|]. cbn [nodrel d_s d_a d_todo]. split; auto. rewrite Et. split; auto.
      left. split; auto.
    - rewrite <- (ci_flight C) in Etk. fold v in Ev'.
      destruct (deliver_kind HR _ (ci_inv C) Etk Ev') as [(Hc & Hg & E')|E'].
      + assert (Hut : a_is_banned (d_a d) u = false) by (rewrite (cv_ban A), Hc; reflexivity).
        rewrite E', (pre_like m S A Hut E') by reflexivity. cbn [with_accum bind]. intros E. injection E as <-. eexists. split; [reflexivity|]. split; [reflexivity|].
        apply set_nodes_same; [apply (ci_nodes C)|]. cbn [nodrel d_s d_a d_todo]. split; auto. split; [now rewrite Et|]. right. exists k. split; auto. split; auto.
        destruct A. constructor; cbn [set_processing a_waiting a_expect a_processing a_payloads a_artifacts a_cached a_provable a_unprovable]; auto. congruence.
      + rewrite E'. cbn [with_accum bind]. intros E. injection E as <-.
        destruct (a_is_banned (d_a d) u) eqn:Hut.
        * unfold preprocess_message. rewrite Hut, orb_true_r. cbn [with_accum bind]. eexists. split; [reflexivity|]. split; [reflexivity|].
          apply set_nodes_same; [apply (ci_nodes C)|]. cbn [nodrel d_s d_a d_todo]. split; auto. split; [now rewrite Et|]. right. exists k. split; auto. split; auto.
          unfold cache_message. cbn [vm_of vm_from fst].
          destruct A; constructor; cbn [set_cached a_waiting a_expect a_processing a_payloads a_artifacts a_cached a_provable a_unprovable]; auto.
          intros w Hw. rewrite get_insert_ne; auto. intros ->. congruence.
        * rewrite (pre_like_cached S A Hut eq_refl E'). cbn [with_accum bind]. eexists. split; [reflexivity|]. split; [reflexivity|].
          apply set_nodes_same; [apply (ci_nodes C)|]. cbn [nodrel d_s d_a d_todo]. split; auto. split; [now rewrite Et|]. right. exists k. split; auto. split; auto.
          pose proof (cv_cached A u Hut) as Ec. unfold cache_message. cbn [vm_of vm_from fst]. rewrite Ec.
          destruct A; constructor; cbn [set_cached a_waiting a_expect a_processing a_payloads a_artifacts a_cached a_provable a_unprovable]; auto.
          intros w Hw. rewrite !get_insert. destruct (eqb w u); auto.
  Qed.

  Lemma main_receive n v u (m : VMessage) : good_vm sid h (n, false) u v m ->
    rd_receive (RMain (Pr := Pr) (pl_state h n v)) (vm_from m) (mkDynMsg (sp_body (vm_echo m)) (sp_body (vm_normal m)) (sp_body (vm_direct m))) =
      (let* p := verdict h n v u in Ok (PVal p)).
  Proof.
    intros (E & _ & [B1 B2] & B3). unfold good_direct in B3. cbn [fst snd] in B1, B2, B3. rewrite E, B1, B2, B3. reflexivity.
  Qed.

  Lemma lock_process M H ph v i o : CI M H ph -> act r M (AProcess v i) = Some o ->
    exists o', act r H (AProcess v i) = Some o' /\ forall H', o' = Ok H' ->
      exists M', o = Ok M' /\ flight H' = flight M' /\ forall w, onodrel w (ph w) (get w (nodes M')) (get w (nodes H')).
  Proof.
    intros C Hx. cbn [act] in *. pose proof (ci_nodes C v) as K. unfold onodrel, nodrel in K.
    destruct (get v (nodes M)) as [[d|rep]|] eqn:Ev; try discriminate.
    destruct (get v (nodes H)) as [[d'|rep]|] eqn:Ev'; try contradiction. destruct K as (S & Et & A).
    destruct (mem v parties) eqn:Hv; [|rewrite (ni_none (ci_inv C) v Hv) in Ev'; discriminate].
    rewrite Et. destruct (take_nth i (d_todo d)) as [[m todo]|] eqn:Etk; [|discriminate]. apply some_inj in Hx. subst o.
    pose proof (take_nth_spec _ _ Etk) as (l1 & l2 & El & Er). assert (Hin : In m (d_todo d')) by (rewrite Et, El; apply in_or_app; right; now left).
    pose proof (todo_fresh v m (ci_inv C) Hv Ev' Hin) as Hfresh.
    pose proof (ni_node (ci_inv C) v Hv) as Hn. rewrite Ev' in Hn. destruct Hn as (Hf & G & GA).
    destruct (ga_todo GA m Hin) as [Gm Hex]. remember (vm_from m) as u eqn:Eu.
    rewrite (proc_ok HR Hf Hv G GA Gm Hex Hfresh). cbn [with_accum bind]. eexists. split; [reflexivity|]. intros H' E. injection E as <-.
    pose proof (proc_ok HR Hf Hv G GA Gm Hex Hfresh) as Hproc.
    destruct A as [[Ea A]|(k & Hst & Hp & A)].
    - assert (Hrec : received (B := Q) idP (s_round (d_s d)) (s_round (d_s d')) m).
      { pose proof S as (_ & _ & _ & S4 & _). pose proof (gs_round G) as Hrd. unfold good_round in Hrd. destruct (ph v) as [n b] eqn:Ep. cbn [fst snd] in *.
        inversion S4 as [x y Exy E1 E2|w e ei m1 m2 ps arts Hm E1 E2]; [|apply r_receive_echo]. rewrite <- E2 in Hrd.
        destruct b; [destruct Hrd as (? & ? & ? & ? & _); discriminate|]. injection Hrd as Hy. subst x y.
        destruct Hf as [Hn _]. cbn [fst] in Hn. cbn [NetFacts.exp fst snd] in Hex. unfold received.
        rewrite (main_receive Gm), (@fl_before _ _ _ _ _ _ _ _ HF n v u Hn Hv Hex).
        2:{ destruct (stop v) as [k|]; auto. specialize (A k eq_refl). unfold prank in A. cbn [fst snd b2n] in A. lia. }
        destruct Gm as (E & _ & [B1 B2] & B3). unfold good_direct in B3. cbn [fst snd] in B1, B2, B3. rewrite E, B1, B2, B3. cbn [rd_receive].
        now rewrite (hr_receive HL n v u Hn Hv Hex). }
      pose proof (add_sim (d_a d) S Hrec) as Hadd. rewrite <- Ea, Hproc in Hadd.
      destruct (add_processed (d_s d) (d_a d) (process_message (d_s d) m)) as [a1 r1]. cbn [fst snd] in Hadd. pose proof (f_equal fst Hadd) as E1. pose proof (f_equal snd Hadd) as E2. cbn [fst snd] in E1, E2. subst r1.
      cbn [with_accum bind]. eexists. split; [reflexivity|]. cbn [set_node flight]. split; [apply (ci_flight C)|].
      apply set_nodes_same; [apply (ci_nodes C)|]. cbn [nodrel d_s d_a d_todo]. split; auto. split; auto. left. split; [exact E1|exact A].
    - assert (Hf0 : pvalid v (k, false)) by (rewrite <- Hp; exact Hf).
      assert (Hex0 : mem u (pl_from h k v) = true) by (rewrite Hp in Hex; exact Hex).
      assert (Hw : mem u (a_waiting (d_a d)) = true).
      { rewrite <- (cv_wait A). rewrite (ga_waiting GA), Hex, Hfresh. reflexivity. }
      assert (Hc : contains u (a_payloads (d_a d)) = false) by (rewrite (cv_pay A), Hfresh; reflexivity).
      assert (Hb : a_is_banned (d_a d) u = false) by (rewrite (cv_ban A), Hfresh; reflexivity).
      pose proof Hb as Hb'. unfold a_is_banned in Hb'. apply orb_false_iff in Hb' as [Hb1 Hb2].
      assert (Hrd : s_round (d_s d) = RMain (Pr := Pr) (pl_state h k v)).
      { pose proof S as (_ & _ & _ & S4 & _). pose proof (gs_round G) as Hrd. unfold good_round in Hrd. rewrite Hp in Hrd. cbn [fst snd] in Hrd.
        rewrite Hrd in S4. inversion S4 as [x y Exy E1 E2|]. subst. reflexivity. }
      assert (Gm0 : good_vm sid h (k, false) u v m) by (rewrite <- Hp; exact Gm).
      destruct (@fl_at _ _ _ _ _ _ _ _ HF v k u Hv Hst Hex0) as [Hok|[Htd|[e He]]].
      + unfold add_processed, process_message. cbn [pm_msg pm_res]. rewrite Hrd, (main_receive Gm0), Hok. cbn [bind]. rewrite <- Eu, Hc, Hw. cbn [negb with_accum bind].
        eexists. split; [reflexivity|]. cbn [set_node flight]. split; [apply (ci_flight C)|].
        apply set_nodes_same; [apply (ci_nodes C)|]. cbn [nodrel d_s d_a d_todo]. split; auto. split; auto. right. exists k. split; auto. split; auto.
        assert (Hacc : acc_by k v u = true) by (unfold accepted; now rewrite Hok).
        destruct A. constructor; cbn [a_done a_waiting a_expect a_processing a_payloads a_artifacts a_cached a_provable a_unprovable]; auto.
        * cbn. now rewrite cv_wait0.
        * intros w. rewrite !contains_insert, cv_pay0. destruct (eqb_spec w u) as [->|]; [now rewrite Hacc|reflexivity].
        * intros w. change (a_is_banned (d_a d) w = (contains w (insert u (exp_payload h (ph v) v u) (a_payloads (d_a d'))) && negb (acc_by k v w))%bool).
          rewrite contains_insert. destruct (eqb_spec w u) as [->|]; [rewrite Hacc, Hb, andb_false_r; reflexivity|apply cv_ban0].
      + assert (Hacc : acc_by k v u = false).
        { destruct Htd as (ri & _ & Hr). unfold accepted, verdict. destruct (receive Pr _ _ _); auto. contradiction. }
        destruct (@fl_stop _ _ _ _ _ _ _ _ HF v k Hv Hst) as [Hk _].
        destruct (@convicts P Pr f r sid parties ep h sk Hsig Hpl HR u k sd Hk H ph v d' d m (ci_inv C) (ci_tr C) Hv Ev' Hp S Hw Hc Hb1 (@ci_reach _ _ _ C v d Ev) Hin (eq_sym Eu) Htd) as (ev & Em & Hver).
        rewrite Em. cbn [with_accum bind]. eexists. split; [reflexivity|]. cbn [set_node flight]. split; [apply (ci_flight C)|].
        apply set_nodes_same; [apply (ci_nodes C)|]. cbn [nodrel d_s d_a d_todo]. split; auto. split; auto. right. exists k. split; auto. split; auto.
        destruct A. constructor; cbn [a_done set_provable set_waiting a_waiting a_expect a_processing a_payloads a_artifacts a_cached a_provable a_unprovable]; auto.
        * cbn. now rewrite cv_wait0.
        * intros w. rewrite contains_insert, cv_pay0. destruct (eqb_spec w u) as [->|]; [now rewrite Hacc, !andb_false_r|reflexivity].
        * intros w. unfold a_is_banned. cbn [set_provable set_waiting a_provable a_unprovable]. rewrite !contains_insert. specialize (cv_ban0 w). unfold a_is_banned in cv_ban0.
          destruct (eqb_spec w u) as [->|]; [now rewrite Hacc|]. exact cv_ban0.
        * intros w. unfold a_is_banned. cbn [set_provable set_waiting a_provable a_unprovable a_cached]. rewrite contains_insert.
          destruct (eqb_spec w u) as [->|]; [discriminate|]. apply cv_cached0.
        * intros w ev'. rewrite get_insert. destruct (eqb_spec w u) as [->|]; [|apply cv_prov0]. intros E. injection E as <-. auto.
      + assert (Hacc : acc_by k v u = false) by (unfold accepted; now rewrite He).
        unfold add_processed, process_message. cbn [pm_msg pm_res]. rewrite Hrd, (main_receive Gm0), He. cbn [bind]. rewrite <- Eu, Hc, Hw. cbn [negb with_accum bind].
        eexists. split; [reflexivity|]. cbn [set_node flight]. split; [apply (ci_flight C)|].
        apply set_nodes_same; [apply (ci_nodes C)|]. cbn [nodrel d_s d_a d_todo]. split; auto. split; auto. right. exists k. split; auto. split; auto.
        destruct A. constructor; cbn [a_done set_unprovable set_waiting a_waiting a_expect a_processing a_payloads a_artifacts a_cached a_provable a_unprovable]; auto.
        * cbn. now rewrite cv_wait0.
        * intros w. rewrite contains_insert, cv_pay0. destruct (eqb_spec w u) as [->|]; [now rewrite Hacc, !andb_false_r|reflexivity].
        * intros w. unfold a_is_banned. cbn [set_unprovable set_waiting a_provable a_unprovable]. rewrite !contains_insert. specialize (cv_ban0 w). unfold a_is_banned in cv_ban0.
          destruct (eqb_spec w u) as [->|]; [rewrite Hacc; now rewrite orb_true_r|]. exact cv_ban0.
        * intros w. unfold a_is_banned. cbn [set_unprovable set_waiting a_provable a_unprovable a_cached]. rewrite contains_insert.
          destruct (eqb_spec w u) as [->|]; [rewrite orb_true_r; discriminate|]. apply cv_cached0.
        * intros w e'. rewrite get_insert. destruct (eqb_spec w u) as [->|]; [|apply cv_unprov0]. intros E. injection E as <-. auto.
  Qed.

  Lemma kvalid v k : party v -> stop v = Some k -> pvalid v (k, false).
  Proof. intros Hv Hst. split; [apply (@fl_stop _ _ _ _ _ _ _ _ HF v k Hv Hst)|discriminate]. Qed.
  (** Nobody gets past the round in which it stops. *)
  Lemma not_yes H ph v k d' (a : Accum Pr) : Inv H ph -> party v -> stop v = Some k -> ph v = (k, false) -> get v (nodes H) = Some (Running d') ->
    conv k v a (d_a d') -> can_finalize a <> Yes.
  Proof.
    intros I Hv Hst Hp Ev C Hy. pose proof (ni_node I v Hv) as Hn. rewrite Ev, Hp in Hn. destruct Hn as (_ & _ & A).
    destruct (@fl_stop _ _ _ _ _ _ _ _ HF v k Hv Hst) as (_ & u & Hu & Hbad).
    unfold can_finalize in Hy. destruct (forallb _ _) eqn:E; [|destruct (negb _); discriminate]. rewrite forallb_forall in E.
    specialize (E u). rewrite (cv_pay C), Hbad, andb_false_r in E. discriminate E. apply in_elements. rewrite <- (cv_expect C), (ga_expect A). exact Hu.
  Qed.

  Lemma lock_finalize M H ph v o : CI M H ph -> act r M (AFinalize v) = Some o ->
    exists o', act r H (AFinalize v) = Some o' /\ forall H', o' = Ok H' ->
      exists M', o = Ok M' /\ flight H' = flight M' /\ forall w, onodrel w (upd h ph (AFinalize v) w) (get w (nodes M')) (get w (nodes H')).
  Proof.
    intros C Hx. cbn [act] in *. pose proof (ci_nodes C v) as K. unfold onodrel, nodrel in K.
    destruct (get v (nodes M)) as [[d|rep]|] eqn:Ev; try discriminate.
    destruct (get v (nodes H)) as [[d'|rep]|] eqn:Ev'; try contradiction. destruct K as (S & Et & A).
    destruct (mem v parties) eqn:Hv; [|rewrite (ni_none (ci_inv C) v Hv) in Ev'; discriminate].
    destruct (can_finalize (d_a d)) eqn:Hy; try discriminate. destruct (all_sent d) eqn:Hs; [|discriminate]. apply some_inj in Hx. subst o.
    destruct d as [s a todo], d' as [s' a' todo']. cbn [d_s d_a d_todo] in *.
    pose proof A as A0. destruct A as [[Ea A]|(k & Hst & Hp & A)].
    2:{ destruct (not_yes (ci_inv C) Hv Hst Hp Ev' A); auto. }
    pose proof (ni_node (ci_inv C) v Hv) as Hn. rewrite Ev' in Hn. destruct Hn as (Hf & G & GA). cbn [d_s d_a d_todo] in *.
    assert (Hrid : s_round_id s' = s_round_id s) by (unfold s_round_id; destruct S as (_ & _ & _ & _ & _ & _ & _ & _ & -> & _); reflexivity).
    assert (Hy' : can_finalize a' = Yes) by (rewrite Ea, can_sim; exact Hy).
    assert (Hs' : all_sent (DS s' a' todo') = true) by (rewrite (arel_all_sent todo todo' S A0); exact Hs).
    rewrite Hy', Hs'. eexists. split; [reflexivity|].
    pose proof (fin_sim out (nr_fin r v (s_round_id s)) a S) as F. rewrite <- Ea in F.
    pose proof (fin_ok Hsk Hwire Hsig HR Hf Hv G GA Hy' Hs') as Fok. rewrite <- (good_rid HR Hf Hv G), Hrid in Fok. rewrite Hrid.
    intros H' E. destruct Fok as [(Hn & s1' & Ef & _)|(Hn & rep' & Ef & Ho & He)]; rewrite Ef in E, F; cbn [bind] in E; injection E as <-;
      destruct (finalize_round s (nr_fin r v (s_round_id s)) a) as [[rep|s1 c]| |]; cbn [rorel] in F; try contradiction; cbn [bind];
      (eexists; split; [reflexivity|]; split; [apply (ci_flight C)|]).
    - destruct F as [F ->]. apply set_nodes; [apply (ci_nodes C)|]. cbn [nodrel d_s d_a d_todo]. split; auto. split; auto.
      destruct (stop v) as [k|] eqn:Est; [|left; split; [apply (macc_new F)|intros k; rewrite Est; discriminate]].
      specialize (A k eq_refl). pose proof (prank_between (or_introl (kvalid Hv Est)) Hf A) as L.
      destruct (Nat.eq_dec (prank (pnext v (ph v))) (prank (k, false))) as [E|].
      + right. exists k. split; auto. split; [now apply prank_inj|]. rewrite (macc_new F). apply conv_new; reflexivity.
      + left. split; [apply (macc_new F)|]. intros k'. rewrite Est. intros E. injection E as <-. lia.
    - subst rep'. apply set_nodes; [apply (ci_nodes C)|]. cbn [nodrel].
      assert (Hst : stop v = None).
      { destruct (stop v) as [k|] eqn:Est; auto. exfalso. pose proof (prank_between (or_introl (kvalid Hv Est)) Hf (A k eq_refl)) as L.
        rewrite Hn in L. pose proof (rank_last (kvalid Hv Est)). lia. }
      split; auto. cbn [no_errors] in He. destruct rep as [o]; cbn in *. split; [|tauto]. destruct o; cbn in *; congruence.
  Qed.

  Theorem lock M H ph x o : CI M H ph -> act r M x = Some o -> exists M' H', o = Ok M' /\ act r H x = Some (Ok H') /\ CI M' H' (upd h ph x).
  Proof.
    intros C Hx.
    assert (K : exists o', act r H x = Some o' /\ forall H', o' = Ok H' ->
      exists M', o = Ok M' /\ flight H' = flight M' /\ forall w, onodrel w (upd h ph x w) (get w (nodes M')) (get w (nodes H'))).
    { destruct x; [eapply lock_send|eapply lock_deliver|eapply lock_process|eapply lock_finalize]; eauto. }
    destruct K as (o' & Ho & K). destruct (step_ok Hsk Hwire Hsig HR x (ci_inv C) Ho) as (H' & -> & I' & _). destruct (K H' eq_refl) as (M' & -> & Hfl & Hnd).
    exists M', H'. split; auto. split; auto. constructor; auto.
    - eapply reach_step; [apply (ci_reach C)|exact Hx].
    - eapply t_step; eauto; apply C.
  Qed.

  Lemma Macc M H ph : CI M H ph -> Acc (follows r) M.
  Proof.
    intros C. assert (A : Acc (follows r) H) by (eapply terminates; [exact Hsk|exact Hwire|exact Hsig|exact HR|apply (ci_inv C)]).
    revert M ph C. induction A as [H _ IH]. intros M ph C. constructor. intros M2 [x Hx].
    destruct (lock x C Hx) as (M' & H' & E & Hx' & C'). injection E as <-. eapply IH; [exists x; exact Hx'|exact C'].
  Qed.

  (** ** Terminating *)
  Lemma merge_into_empty {V} e (m : bmap Verifier V) : merge_new e empty m = Ok m.
  Proof.
    destruct (@merge_new_ok _ V e empty m) as [m' E]; [intros; apply get_empty|]. rewrite E. f_equal. apply bmap_ext. intros v.
    pose proof (merge_new_get _ _ _ E v) as K. destruct (get v m) as [x|] eqn:Em.
    - apply K. auto.
    - destruct (get v m') as [x|]; auto. destruct (proj1 (K x) eq_refl) as [K1|K1]; [rewrite get_empty in K1|]; discriminate.
  Qed.
  Lemma ends (s : Session Pr) v g (s' : Session Q) (a : Accum Pr) : pvalid v g -> party v -> good_sess sid h sk v g s' -> srel s s' ->
    exists rep, terminate_inner s a false = Ok rep /\ rep_outcome rep = OTerminated /\ rep_provable rep = a_provable a /\ rep_unprovable rep = a_unprovable a /\
      (is_empty (a_waiting a) = true -> rep_missing rep = empty).
  Proof.
    intros Hg Hv G S. pose proof (gs_tr G) as T. unfold terminate_inner, close_round, tr_update.
    assert (Hrid : s_round_id s = prid g).
    { pose proof (good_rid HR Hg Hv G) as E. unfold s_round_id in *. destruct S as (_ & _ & _ & _ & _ & _ & _ & _ & E' & _). now rewrite E' in E. }
    destruct S as (_ & _ & _ & _ & _ & _ & _ & _ & _ & Htr). rewrite Htr in T. rewrite Hrid.
    assert (Hno : forall b : bool, (b = true -> (contains (prid g) (tr_echo (s_tr s)) || contains (prid g) (tr_normal (s_tr s)) || contains (prid g) (tr_direct (s_tr s)))%bool = true) -> b = false).
    { intros [|] Hb; auto. destruct (gt_old T _ (Hb eq_refl)) as (g' & Hg1 & Hlt & Eg). apply (prid_inj HR) in Eg; auto; [|apply Hg]. subst g'. lia. }
    rewrite (Hno (contains (prid g) (tr_echo (s_tr s)))) by (intros ->; reflexivity).
    rewrite (Hno (contains (prid g) (tr_normal (s_tr s)))) by (intros ->; now rewrite orb_true_r).
    rewrite (Hno (contains (prid g) (tr_direct (s_tr s)))) by (intros ->; now rewrite orb_true_r).
    cbn [bind]. rewrite (gt_prov T), (gt_unprov T), (gt_missing T), contains_empty, !merge_into_empty. cbn [bind].
    eexists. split; [reflexivity|]. cbn. split; auto. split; auto. split; auto. now intros ->.
  Qed.

  (** What a party that has been stopped reports. *)
  Definition caught_rep (v : Verifier) (rep : Report (Rslt Pr)) : Prop :=
    rep_outcome rep = OTerminated /\ rep_missing rep = empty /\ blames_rightly sid h stop sd v (rep_provable rep) (rep_unprovable rep) /\
    blames_fully h stop v (rep_provable rep) (rep_unprovable rep).
  Definition CN (M : Net Pr) : Prop := exists H ph, CI M H ph.

  Lemma caught_step M x o : CN M -> act r M x = Some o -> exists M', o = Ok M' /\ CN M'.
  Proof. intros (H & ph & C) Hx. destruct (lock x C Hx) as (M' & H' & -> & _ & C'). exists M'. split; auto. now exists H', (upd h ph x). Qed.
  Lemma CI_both M H ph v d : CI M H ph -> get v (nodes M) = Some (Running d) ->
    exists d', get v (nodes H) = Some (Running d') /\ party v /\ srel (d_s d) (d_s d') /\ d_todo d' = d_todo d /\ arel v (ph v) (d_a d) (d_a d') /\
      pvalid v (ph v) /\ good_sess sid h sk v (ph v) (d_s d') /\ good_acc sid h v (ph v) (d_a d') (d_todo d').
  Proof.
    intros C Ev. pose proof (ci_nodes C v) as K. rewrite Ev in K. unfold onodrel, nodrel in K.
    destruct (get v (nodes H)) as [[d'|rep]|] eqn:Ev'; try contradiction. exists d'.
    destruct (mem v parties) eqn:Hv; [|rewrite (ni_none (ci_inv C) v Hv) in Ev'; discriminate].
    pose proof (ni_node (ci_inv C) v Hv) as Hn. rewrite Ev' in Hn. tauto.
  Qed.
  Lemma caught_id M v d : CN M -> get v (nodes M) = Some (Running d) -> s_verifier (d_s d) = v.
  Proof.
    intros (H & ph & C) Ev. destruct (CI_both v C Ev) as (d' & _ & _ & S & _ & _ & _ & G & _). destruct S as (_ & _ & S & _). rewrite <- S. apply G.
  Qed.
  Lemma never_conv M H ph v d : CI M H ph -> get v (nodes M) = Some (Running d) -> can_finalize (d_a d) = Never ->
    exists d' k, get v (nodes H) = Some (Running d') /\ party v /\ stop v = Some k /\ ph v = (k, false) /\ conv k v (d_a d) (d_a d') /\ srel (d_s d) (d_s d') /\
      pvalid v (ph v) /\ good_sess sid h sk v (ph v) (d_s d') /\ good_acc sid h v (ph v) (d_a d') (d_todo d').
  Proof.
    intros C Ev Hn. destruct (CI_both v C Ev) as (d' & Ev' & Hv & S & Et & A & Hf & G & GA). exists d'.
    destruct A as [[Ea _]|(k & A)]; [|exists k; tauto]. exfalso. apply (never_never GA). rewrite Ea, can_sim. exact Hn.
  Qed.
  Lemma never_waiting (a : Accum Pr) : can_finalize a = Never -> is_empty (a_waiting a) = true.
  Proof. unfold can_finalize. destruct (forallb _ _); [discriminate|]. destruct (is_empty (a_waiting a)); [auto|discriminate]. Qed.
  Lemma conv_right k v a a' : stop v = Some k -> conv k v a a' -> blames_rightly sid h stop sd v (a_provable a) (a_unprovable a).
  Proof.
    intros Hst C. split.
    - intros u ev E. exists k. destruct (cv_prov C _ E). auto.
    - intros u e E. exists k. destruct (cv_unprov C _ E). auto.
  Qed.
  Lemma never_got M H ph v d d' k u : CI M H ph -> get v (nodes M) = Some (Running d) -> can_finalize (d_a d) = Never ->
    ph v = (k, false) -> conv k v (d_a d) (d_a d') -> good_acc sid h v (ph v) (d_a d') (d_todo d') -> mem u (pl_from h k v) = true ->
    contains u (a_payloads (d_a d')) = true.
  Proof.
    intros C Ev Hn Hp A GA Hu. apply never_waiting in Hn. rewrite <- (cv_wait A) in Hn. rewrite is_empty_get in Hn. specialize (Hn u). apply contains_false in Hn.
    change (mem u (a_waiting (d_a d')) = false) in Hn. rewrite (ga_waiting GA), Hp in Hn. unfold NetFacts.exp in Hn. cbn [fst snd] in Hn. rewrite Hu in Hn.
    destruct (contains u (a_payloads (d_a d'))); auto.
  Qed.
  Lemma never_full M H ph v d : CI M H ph -> get v (nodes M) = Some (Running d) -> can_finalize (d_a d) = Never ->
    blames_fully h stop v (a_provable (d_a d)) (a_unprovable (d_a d)).
  Proof.
    intros C Ev Hn. destruct (never_conv v C Ev Hn) as (d' & k & Ev' & Hv & Hst & Hp & A & S & Hf & G & GA). exists k. split; auto. intros u Hu.
    pose proof (cv_ban A u) as Hb. unfold a_is_banned in Hb. rewrite Hb, (@never_got M H ph v d d' k u C Ev Hn Hp A GA Hu). reflexivity.
  Qed.
  Lemma caught_never M v d : CN M -> get v (nodes M) = Some (Running d) -> can_finalize (d_a d) = Never ->
    exists rep, terminate_due_to_errors (d_s d) (d_a d) = Ok rep /\ caught_rep v rep.
  Proof.
    intros (H & ph & C) Ev Hn. destruct (never_conv v C Ev Hn) as (d' & k & Ev' & Hv & Hst & Hp & A & S & Hf & G & GA).
    destruct (ends (d_a d) Hf Hv G S) as (rep & R0 & R1 & R2 & R3 & R4).
    exists rep. split; [exact R0|]. split; auto. split; [apply R4, never_waiting; auto|]. rewrite R2, R3. split; [exact (conv_right Hst A)|exact (never_full v C Ev Hn)].
  Qed.
  Lemma caught_acc M : CN M -> Acc (follows r) M.
  Proof. intros (H & ph & C). eapply Macc; eauto. Qed.

  (** ** At rest *)
  Definition resting (M : Net Pr) : Prop := flight M = [] /\
    forall v d, get v (nodes M) = Some (Running d) -> all_sent d = true /\
      (d_todo d = [] /\ can_finalize (d_a d) = NotYet \/ can_finalize (d_a d) = Never).

  Definition waits (M : Net Pr) (v : Verifier) : bool :=
    match get v (nodes M) with Some (Running d) => match can_finalize (d_a d) with NotYet => true | _ => false end | _ => false end.
  Lemma waits_low M H ph v : CI M H ph -> resting M -> waits M v = true -> (forall w j, party w -> stop w = Some j -> prank (ph v) <= prank (j, false)) -> False.
  Proof.
    intros C [Hfl Hrest] Hw0 Hfirst.
    assert (Hall : In v (filter (waits M) (elements parties))).
    { apply filter_In. split; auto. apply in_elements. unfold waits in Hw0. destruct (get v (nodes M)) as [[d|rep]|] eqn:Ev; try discriminate.
      destruct (CI_both v C Ev) as (_ & _ & Hv & _). exact Hv. }
    destruct (@least P (fun v => prank (ph v)) (filter (waits M) (elements parties))) as (w & Hw & Hmin); [intros E; rewrite E in Hall; contradiction|].
    assert (Hrank : prank (ph w) <= prank (ph v)) by exact (Hmin v Hall).
    assert (Hfirst' : forall x j, party x -> stop x = Some j -> prank (ph w) <= prank (j, false)) by (intros x j Hx Hj; specialize (Hfirst x j Hx Hj); lia).
    clear v Hw0 Hall Hfirst Hrank. apply filter_In in Hw as [Hin Hw]. unfold waits in Hw. destruct (get w (nodes M)) as [[d|rep]|] eqn:Ev; try discriminate.
    destruct (can_finalize (d_a d)) eqn:Hny; try discriminate.
    destruct (CI_both w C Ev) as (d' & Ev' & Hv & S & Et & A & Hf & G & GA).
    destruct (Hrest w d Ev) as (Hs & [[Htd _]|Hn]); [|congruence].
    assert (Hcomplete : forall u, mem u (exp (ph w) w) = true -> contains u (a_payloads (d_a d')) = true).
    { intros u Hu. assert (Hpu : party u) by (eapply exp_party; [exact HR|apply Hf|exact Hv|exact Hu]).
      pose proof (ni_count (ci_inv C) u Hpu Hv Hf) as Hcount.
      rewrite Nat.leb_refl, (held_eq h H ph w (ph w) u Ev'), Nat.eqb_refl, (ci_flight C), Hfl, Et, Htd in Hcount.
      unfold cnt_fl, cnt_todo in Hcount. cbn [filter List.length plus] in Hcount.
      assert (Hsu : sent h H ph u (ph w) w = true).
      { pose proof Hu as Hd. rewrite <- (agree HR (ph w) u w (proj1 Hf) Hpu Hv) in Hd. unfold sent.
        destruct (Nat.ltb_spec (prank (ph w)) (prank (ph u))) as [L|L]; auto.
        pose proof (ni_node (ci_inv C) u Hpu) as Hn. pose proof (ci_nodes C u) as Ku. unfold onodrel, nodrel in Ku. unfold arts_of.
        destruct (get u (nodes H)) as [[du'|rep']|] eqn:Eu'; [| |contradiction].
        - destruct (get u (nodes M)) as [[du|rep]|] eqn:Eu; try contradiction. destruct Ku as (Su & Etu & Au). destruct Hn as (Hfu & Gu & GAu).
          destruct (Hrest u du Eu) as (Hsu & Hor).
          assert (E : prank (ph w) = prank (ph u)).
          { destruct Hor as [[_ Hor]|Hor].
            - assert (Hinu : In u (filter (waits M) (elements parties))).
              { apply filter_In. split; [now apply in_elements|]. unfold waits. now rewrite Eu, Hor. }
              pose proof (Hmin u Hinu). cbv beta in *. lia.
            - destruct (never_conv u C Eu Hor) as (_ & ku & _ & _ & Hku & Hp & _). pose proof (Hfirst' u ku Hpu Hku) as Lk. rewrite Hp in L |- *. lia. }
          rewrite E, Nat.eqb_refl. apply prank_inj in E. rewrite E in Hd.
          destruct du as [su au todou], du' as [su' au' todou']. cbn [d_s d_a d_todo] in *.
          assert (Hsu' : all_sent (DS su' au' todou') = true) by (rewrite (arel_all_sent todou todou' Su Au); exact Hsu).
          unfold all_sent in Hsu'. rewrite forallb_forall in Hsu'. apply Hsu'. apply in_elements. unfold message_destinations. cbn [d_s]. now rewrite (gs_comm Gu).
        - destruct Hn as (E & _). rewrite E in L. pose proof (rank_last Hf). lia. }
      rewrite Hsu in Hcount. destruct (contains u (a_payloads (d_a d'))); auto. discriminate. }
    destruct A as [[Ea A]|(kw & Hkw & Hp & A)].
    - pose proof (complete_yes GA Hcomplete) as Hy. rewrite Ea, can_sim in Hy. congruence.
    - assert (Hne : can_finalize (d_a d) <> Yes). { eapply not_yes; [apply (ci_inv C)|exact Hv|exact Hkw|exact Hp|exact Ev'|exact A]. }
      unfold can_finalize in Hny, Hne. destruct (forallb _ _); [congruence|].
      assert (Hemp : is_empty (a_waiting (d_a d)) = true).
      { rewrite <- (cv_wait A). apply is_empty_get. intros u. apply contains_false. change (mem u (a_waiting (d_a d')) = false).
        rewrite (ga_waiting GA). destruct (mem u (exp (ph w) w)) eqn:E; auto. now rewrite (Hcomplete u E). }
      rewrite Hemp in Hny. discriminate.
  Qed.
  Lemma waits_not M H ph v : CI M H ph -> resting M -> waits M v = true -> first_to_stop parties stop v -> False.
  Proof.
    intros C Hr Hw (Hv & k & Hst & Hfirst). apply (waits_low v C Hr Hw). intros w j Hpw Hj. specialize (Hfirst w j Hpw Hj).
    unfold waits in Hw. destruct (get v (nodes M)) as [[d|rep]|] eqn:Ev; try discriminate.
    destruct (CI_both v C Ev) as (d' & _ & _ & _ & _ & A & _). destruct A as [[_ A]|(k' & Hst' & A & _)].
    - specialize (A k Hst). unfold prank in A |- *. cbn [fst snd b2n] in A |- *. lia.
    - rewrite A. assert (k' = k) by congruence. subst k'. unfold prank. cbn [fst snd b2n]. lia.
  Qed.
  Lemma all_caught M H ph v : CI M H ph -> resting M -> first_to_stop parties stop v -> exists d, get v (nodes M) = Some (Running d) /\ can_finalize (d_a d) = Never.
  Proof.
    intros C Hr Hfst. pose proof Hfst as (Hv & k & Hst & _). pose proof (ci_nodes C v) as K. pose proof (ni_node (ci_inv C) v Hv) as Hn. unfold onodrel, nodrel in K.
    destruct (get v (nodes H)) as [[d'|rep']|]; [| |contradiction]; destruct (get v (nodes M)) as [[d|rep]|] eqn:Ev; try contradiction; [|destruct K; congruence].
    exists d. split; auto. destruct (proj2 Hr v d Ev) as (_ & [[_ Hny]|]); auto. exfalso. eapply (@waits_not M H ph v C Hr); auto. unfold waits. now rewrite Ev, Hny.
  Qed.
  Lemma all_right M H ph v nd : CI M H ph -> get v (nodes M) = Some nd -> node_right sid h stop sd v nd.
  Proof.
    intros C Ev. destruct nd as [d|rep].
    - destruct (CI_both v C Ev) as (d' & Ev' & Hv & S & Et & A & Hf & G & GA). cbn [node_right].
      destruct S as (_ & _ & _ & _ & _ & _ & _ & _ & _ & S10). pose proof (gt_prov (gs_tr G)) as E3. pose proof (gt_unprov (gs_tr G)) as E4. rewrite S10 in E3, E4.
      split; [|auto]. destruct A as [[Ea _]|(k & Hst & _ & A)]; [|exact (conv_right Hst A)].
      pose proof (ga_prov GA) as E1. pose proof (ga_unprov GA) as E2. rewrite Ea in E1, E2. cbn [SimFacts.macc a_provable a_unprovable] in E1, E2. rewrite E1, E2.
      split; intros u x; rewrite get_empty; discriminate.
    - pose proof (ci_nodes C v) as K. rewrite Ev in K. unfold onodrel, nodrel in K. cbn [node_right]. destruct (get v (nodes H)) as [[]|]; tauto.
  Qed.

  (** ** The start *)
  Lemma both_start v : party v -> exists s s', session_new (nr_new r v) sid (sk v) (ep v) = Ok s /\
    session_new (nr_new r v) sid (sk v) (ep_with f (ep v)) = Ok s' /\ srel s s'.
  Proof.
    intros Hv. destruct (session_start sk Hsk Hwire Hsig HR v Hv) as (s' & Es' & _).
    pose proof (@SimFacts.start_sim P Pr Q idP idA idR St_eq out (nr_new r v) sid (sk v) (ep v) (ep_with f (ep v))) as K.
    rewrite Es' in K. destruct (session_new (nr_new r v) sid (sk v) (ep v)) as [s| |].
    - exists s, s'. split; auto. split; auto. apply K. cbn [ep_with ep_make]. destruct (ep_make _ _ _ _); auto.
    - exfalso. apply K. cbn [ep_with ep_make]. destruct (ep_make _ _ _ _); auto.
    - exfalso. apply K. cbn [ep_with ep_make]. destruct (ep_make _ _ _ _); auto.
  Qed.

  Definition mknode (p : Signer * EntryPoint Pr) : res LocalError (Verifier * Node Pr) :=
    let* s := session_new (nr_new r (signer_key (fst p))) sid (fst p) (snd p) in Ok (signer_key (fst p), Running (start s)).
  Lemma caught_start : exists l H0, map_res mknode (map (fun v => (sk v, ep v)) (elements parties)) = Ok l /\
    map fst l = elements parties /\
    (forall v nd, In (v, nd) l -> exists s, session_new (nr_new r v) sid (sk v) (ep v) = Ok s /\ nd = Running (start s)) /\
    CI (mkNet (of_list l) []) H0 (fun _ => (0, false)) /\ (forall v, arts_of H0 v = empty).
  Proof.
    destruct (start_ok sk Hsk Hwire Hsig HR) as (H0 & E0 & I0). pose proof (t_start r sid (fun v => ep_with f (ep v)) h Hsk E0) as T0.
    pose proof E0 as E1. unfold net_start in E1. destruct (map_res _ _) as [l0|e|] eqn:El0; try discriminate. cbn [bind] in E1. injection E1 as <-.
    destruct (@RunSyncFacts.net_start_nodes _ _ r sid parties (fun v => ep_with f (ep v)) sk Hsk (elements parties)) with (l' := l0) as [Hk0 Hnd0]; [intros v; apply in_elements|exact El0|].
    assert (K : forall ps, (forall v, In v ps -> party v) -> exists l, map_res mknode (map (fun v => (sk v, ep v)) ps) = Ok l).
    { induction ps as [|v ps IH]; intros Hps; [exists []; reflexivity|]. destruct IH as [l E]; [intros w Hw; apply Hps; now right|].
      destruct (both_start v (Hps v (or_introl eq_refl))) as (s & s' & E1 & _). rewrite map_cons, map_res_cons, E. unfold mknode. cbn [fst snd].
      rewrite (Hsk _ (Hps v (or_introl eq_refl))), E1. cbn [bind]. eauto. }
    destruct (K (elements parties)) as [l El]; [intros v; apply in_elements|].
    destruct (@RunSyncFacts.net_start_nodes _ _ r sid parties ep sk Hsk (elements parties)) with (l' := l) as [Hk Hnd]; [intros v; apply in_elements|exact El|].
    assert (Hnode : forall v, party v -> exists s s', session_new (nr_new r v) sid (sk v) (ep v) = Ok s /\ srel s s' /\
      get v (of_list l) = Some (Running (start s)) /\ get v (of_list l0) = Some (Running (start s'))).
    { intros v Hv. destruct (both_start v Hv) as (s & s' & E1 & E2 & S). exists s, s'. split; auto. split; auto. split.
      - apply get_of_list_nodup; [rewrite Hk; apply NoDup_elements|]. apply in_elements in Hv. rewrite <- Hk in Hv.
        apply in_map_iff in Hv as ([w nd] & Ew & Hin). cbn [fst] in Ew. subst w. destruct (Hnd _ _ Hin) as (s1 & E & ->). congruence.
      - apply get_of_list_nodup; [rewrite Hk0; apply NoDup_elements|]. apply in_elements in Hv. rewrite <- Hk0 in Hv.
        apply in_map_iff in Hv as ([w nd] & Ew & Hin). cbn [fst] in Ew. subst w. destruct (Hnd0 _ _ Hin) as (s1 & E & ->). congruence. }
    assert (Hnone : forall v, mem v parties = false -> get v (of_list l) = None /\ get v (of_list l0) = None).
    { intros v Hv. split; apply get_of_list_none; rewrite ?Hk, ?Hk0; intros Hin; apply in_elements in Hin; congruence. }
    exists l, (mkNet (of_list l0) []). split; auto. split; auto. split; auto. split.
    - constructor; auto.
      + intros v d Hd. cbn [nodes] in Hd. destruct (mem v parties) eqn:Hv; [|destruct (Hnone v Hv); congruence].
        destruct (Hnode v Hv) as (s & s' & E1 & _ & E2 & _). rewrite E2 in Hd. injection Hd as <-. exists s, []. split; [|constructor].
        exists (nr_new r v), sid, (sk v), (ep v). exact E1.
      + intros v. cbn [nodes]. destruct (mem v parties) eqn:Hv; [|destruct (Hnone v Hv) as [-> ->]; exact I].
        destruct (Hnode v Hv) as (s & s' & _ & S & -> & ->). cbn [onodrel nodrel start d_s d_a d_todo]. split; auto. split; auto.
        destruct (stop v) as [[|k]|] eqn:Est.
        * right. exists 0. split; auto. split; auto. rewrite (macc_new S). apply conv_new; reflexivity.
        * left. split; [apply (macc_new S)|]. intros k' E. rewrite Est in E. injection E as <-. unfold prank. cbn [fst snd b2n]. lia.
        * left. split; [apply (macc_new S)|]. intros k' E. congruence.
    - intros v. unfold arts_of. cbn [nodes]. destruct (mem v parties) eqn:Hv; [|destruct (Hnone v Hv) as [_ ->]; reflexivity].
      destruct (Hnode v Hv) as (s & s' & _ & S & _ & ->). reflexivity.
  Qed.

  Lemma lock_steps M xs M' : steps r M xs M' -> forall H ph, CI M H ph -> exists H' ph', steps r H xs H' /\ CI M' H' ph'.
  Proof.
    induction 1 as [M|M x M1 xs M2 Hx _ IH]; intros H ph C; [exists H, ph; split; [constructor|auto]|].
    destruct (lock x C Hx) as (M' & H' & E & Hx' & C'). injection E as <-. destruct (IH _ _ C') as (H2 & ph2 & S2 & C2).
    exists H2, ph2. split; auto. econstructor; eauto.
  Qed.

  (** ** Networks *)
  Lemma idle_resting M : CN M -> (forall x, act r M x = None) -> resting M.
  Proof.
    intros (H & ph & C) Hx. split.
    - destruct (flight M) as [|[w m] fl] eqn:Ef; auto. specialize (Hx (ADeliver 0)). cbn [act] in Hx. rewrite Ef in Hx. cbn [take_nth] in Hx.
      destruct (get (msg_dest m) (nodes M)) as [[]|]; discriminate.
    - intros v d Ev. assert (Hs : all_sent d = true).
      { unfold all_sent. rewrite forallb_forall. intros u Hu. apply in_elements in Hu. destruct (contains u (a_artifacts (d_a d))) eqn:Ec; auto.
        specialize (Hx (ASend v u)). cbn [act] in Hx. rewrite Ev, Hu, Ec in Hx. discriminate. }
      split; auto. destruct (can_finalize (d_a d)) eqn:Ecf; auto.
      + specialize (Hx (AFinalize v)). cbn [act] in Hx. rewrite Ev, Ecf, Hs in Hx. discriminate.
      + left. split; auto. destruct (d_todo d) as [|m todo] eqn:Et; auto. specialize (Hx (AProcess v 0)). cbn [act] in Hx. rewrite Ev, Et in Hx. discriminate.
  Qed.
  Lemma sched_CN M0 xs M : CN M0 -> schedule r M0 xs M -> CN M.
  Proof.
    intros C0. induction 1 as [|M0 xs M1 x M2 _ IH Hx]; auto. destruct (caught_step x (IH C0) Hx) as (M' & E & C). injection E as <-. exact C.
  Qed.
  Theorem net_blames : exists net0, honest_net r sid parties sk ep = Ok net0 /\
    (forall xs net, schedule r net0 xs net ->
      (forall x o, act r net x = Some o -> exists net', o = Ok net') /\
      (forall c : nat -> Net Pr, c 0 = net -> ~ forall i, exists x, act r (c i) x = Some (Ok (c (S i)))) /\
      (forall v, mem v parties = true -> exists nd, get v (nodes net) = Some nd /\ node_right sid h stop sd v nd) /\
      ((forall x, act r net x = None) -> first_are_done parties h stop net)).
  Proof.
    destruct caught_start as (l & H0 & El & _ & _ & C0 & _). exists (mkNet (of_list l) []). split.
    - unfold honest_net, net_start. fold mknode. rewrite El. reflexivity.
    - intros xs net Hs. assert (CM : CN net) by (eapply sched_CN; [|exact Hs]; exists H0; eauto).
      split; [|split; [|split]].
      + intros x o Hx. destruct (caught_step x CM Hx) as (M' & -> & _). eauto.
      + apply acc_finite. now apply caught_acc.
      + intros v Hv. destruct CM as (H & ph & C). pose proof (ci_nodes C v) as K. pose proof (ni_node (ci_inv C) v Hv) as Hn.
        destruct (get v (nodes net)) as [nd|] eqn:Ev; [exists nd; split; auto; eapply all_right; eauto|]. destruct (get v (nodes H)); contradiction.
      + intros Hx. pose proof (idle_resting CM Hx) as Hrest. destruct CM as (H & ph & C). intros v Hfst.
        destruct (@all_caught net H ph v C Hrest Hfst) as (d & Ev & Hn). exists d. split; auto. split; auto. eapply never_full; eauto.
  Qed.

  (** ** The driver *)
  Hypothesis Hmore : exists v, first_to_stop parties stop v.
  Notation srun := (rel r sid sk ep caught_rep).
  Lemma caught_started : exists fuel0 y M, CN M /\ srun y M [] /\ q_is_empty (sy_queue y) = false /\
    forall fuel, fuel0 <= fuel ->
      sync_start fuel r sid (mkSync (q_new true) empty) (map (fun v => (sk v, ep v)) (elements parties)) = Some (Ok y).
  Proof.
    destruct caught_start as (l & H0 & El & Hk & Hnd & C0 & Ha0). set (M0 := mkNet (of_list l) []) in *.
    assert (Hg : CN M0) by (exists H0; eauto).
    destruct (@RunSyncFacts.start_sim _ _ r sid sk ep CN caught_step caught_id caught_rep caught_never caught_acc (elements parties) (mkSync (q_new true) empty) M0 Hg)
      as (fuel0 & y & M & xs & S1 & Q1 & R1 & F1).
    - split; [constructor; [apply QueueFacts.q_new_ok|reflexivity|intros x []]|]. intros v. unfold rel_n. cbn [sy_states]. rewrite get_empty.
      destruct (existsb (eqb v) (elements parties)) eqn:Hv.
      + apply existsb_in in Hv. rewrite <- Hk in Hv. apply in_map_iff in Hv as ([w nd] & Ew & Hin). simpl in Ew. subst w.
        destruct (Hnd _ _ Hin) as (s & Es & ->). exists s. split; auto. apply get_of_list_nodup; auto. rewrite Hk. apply NoDup_elements.
      + apply get_of_list_none. rewrite Hk. intros Hin. apply existsb_in in Hin. congruence.
    - apply NoDup_elements.
    - intros v Hv. apply Hsk. now apply in_elements.
    - exists fuel0, y, M. split; [exact (@steps_G _ _ r CN caught_step _ _ _ S1 Hg)|]. split; auto. split; auto.
      destruct (q_is_empty (sy_queue y)) eqn:He; auto. exfalso. pose proof (rest_at R1 He) as Hrest.
      destruct (lock_steps S1 C0) as (H & ph & SH & C). destruct Hmore as (v & Hfst).
      destruct (@all_caught M H ph v C Hrest Hfst) as (d & Ev & Hn). destruct (never_conv v C Ev Hn) as (d' & k & Ev' & Hv & Hst & Hp & A & _ & Hf & G & GA).
      destruct (@fl_stop _ _ _ _ _ _ _ _ HF v k Hv Hst) as (Hkn & t & Ht & _).
      assert (Hpt : party t) by (apply (exp_party HR (k, false) v t Hkn Hv Ht)).
      assert (Hkt : pvalid t (k, false)) by (split; [exact Hkn|discriminate]).
      pose proof (@never_got M H ph v d d' k t C Ev Hn Hp A GA Ht) as Hyes.
      assert (Hfl : flight H = flight H0) by (rewrite (ci_flight C), (ci_flight C0); apply Hrest).
      destruct (flight_grows SH Q1) as [_ Hidle]. specialize (Hidle Hfl).
      destruct (idle_steps Hsk Hwire Hsig HR SH Hidle (ci_inv C0)) as (ph' & I' & Ha & Hd); [exact Ha0|intros w g u' _ _ L; unfold prank in L; simpl in L; lia|].
      pose proof (ni_node I' v Hv) as Hnv. rewrite Ev' in Hnv. destruct Hnv as (Hf' & G' & _).
      assert (Hp' : ph' v = (k, false)).
      { rewrite <- Hp. apply (prid_eq HR Hf' Hf). rewrite <- (good_rid HR Hf Hv G), <- (good_rid HR Hf' Hv G'). reflexivity. }
      pose proof (ni_count I' t Hpt Hv Hf') as Hcount. rewrite Nat.leb_refl, (held_eq h H ph' v (ph' v) t Ev'), Nat.eqb_refl, Hyes in Hcount.
      cbn [b2n] in Hcount. destruct (sent h H ph' t (ph' v) v) eqn:Es; [|cbn [b2n] in Hcount; lia].
      unfold sent in Es. rewrite Hp' in Es. destruct (Nat.ltb_spec (prank (k, false)) (prank (ph' t))) as [L|L].
      + rewrite (Hd t (k, false) v Hpt Hkt L) in Es. discriminate.
      + rewrite (Ha t), contains_empty in Es. destruct (Nat.eqb _ _); discriminate.
  Qed.

  Theorem run_sync_blames picks : exists fuel0 reports, (forall fuel, fuel0 <= fuel ->
      run_sync fuel r picks sid (map (fun v => (sk v, ep v)) (elements parties)) = Some (Ok reports)) /\ reports_right sid parties h stop sd reports.
  Proof.
    destruct caught_started as (f1 & y1 & M1 & G1 & R1 & He & F1).
    destruct (@loop_sim _ _ r sid sk ep CN caught_step caught_id caught_rep caught_never caught_acc picks M1 G1 0 y1 R1 He)
      as (f2 & y2 & M & G2 & R2 & He2 & F2).
    pose proof (rest_at R2 He2) as Hrest. destruct G2 as (H & ph & C). destruct R2 as [Rq Rn].
    assert (Hparty : forall v, mem v parties = contains v (sy_states y2)).
    { intros v. specialize (Rn v). unfold rel_n in Rn. pose proof (ci_nodes C v) as K. unfold onodrel in K. destruct (mem v parties) eqn:Hv.
      - pose proof (ni_node (ci_inv C) v Hv) as Hn. destruct (get v (sy_states y2)) eqn:E; [symmetry; apply contains_get; eauto|].
        cbn [existsb] in Rn. rewrite Rn in K. destruct (get v (nodes H)); contradiction.
      - symmetry. apply contains_false. destruct (get v (sy_states y2)) eqn:E; auto. destruct Rn as (nd & E1 & _).
        rewrite (ni_none (ci_inv C) v Hv), E1 in K. contradiction. }
    set (ok := fun v (rep : Report (Rslt Pr)) => blames_rightly sid h stop sd v (rep_provable rep) (rep_unprovable rep) /\
      match rep_outcome rep with OResult x => stop v = None /\ x = pl_result h v | OTerminated => True | ONotEnough => False end /\
      (first_to_stop parties stop v -> rep_missing rep = empty /\ blames_fully h stop v (rep_provable rep) (rep_unprovable rep))).
    assert (Hst : forall v st, get v (sy_states y2) = Some st -> exists rep, sync_report st = Ok rep /\ ok v rep).
    { intros v st E. specialize (Rn v). unfold rel_n in Rn. rewrite E in Rn. destruct Rn as (nd & E2 & Hsd & _).
      pose proof (@all_right M H ph v nd C E2) as Hright.
      destruct st as [s a|rep]; cbn [stands] in Hsd; cbn [sync_report].
      - destruct Hsd as (-> & _ & Hny). destruct (CI_both v C E2) as (d' & Ev' & Hv & S & Et & A & Hf & G & GA). cbn [d_s d_a] in *.
        destruct (ends a Hf Hv G S) as (rep & R0 & R1' & R2' & R3' & _). exists rep. split; [exact R0|]. unfold ok. rewrite R1', R2', R3'.
        split; [apply Hright|]. split; auto. intros Hfst. exfalso. destruct (@all_caught M H ph v C Hrest Hfst) as (d & Ev & Hn). rewrite Ev in E2. injection E2 as ->.
        cbn [d_a] in Hn. congruence.
      - exists rep. split; auto. unfold ok. destruct Hsd as [->|(d & _ & _ & _ & (Ho & Hm & Hb1 & Hb2))].
        + cbn [node_right] in Hright. destruct Hright as (H1 & H2 & H3 & H4). rewrite H2, H3, H4. split; [split; intros u x; rewrite get_empty; discriminate|].
          split; auto. intros (_ & k & Hk & _). congruence.
        + rewrite Ho. auto. }
    assert (K : forall l : list (Verifier * NState Pr), (forall v st, In (v, st) l -> exists rep, sync_report st = Ok rep /\ ok v rep) ->
      exists l', map_res (fun kv => let* rep := sync_report (snd kv) in Ok (fst kv, rep)) l = Ok l' /\
        map fst l' = map fst l /\ forall v rep, In (v, rep) l' -> ok v rep).
    { induction l as [|[v st] l IH]; intros Hl; [exists []; split; [reflexivity|]; split; [reflexivity|intros v rep []]|]. destruct (Hl v st (or_introl eq_refl)) as (rep & E & Hok).
      destruct IH as (l' & E' & El & Hl'); [intros w x Hx; apply (Hl w); now right|]. exists ((v, rep) :: l'). rewrite map_res_cons. cbn [fst snd]. rewrite E. cbn [bind].
      rewrite E'. cbn [bind]. split; auto. split; [simpl; now rewrite El|]. intros w x [Ex|Hx]; [injection Ex as <- <-; auto|auto]. }
    destruct (K (to_list (sy_states y2))) as (l' & El & Em & Hok).
    { intros v st Hin. apply in_to_list in Hin. eauto. }
    change (map fst (to_list (sy_states y2))) with (keys (sy_states y2)) in Em.
    assert (Hnd : NoDup (map fst l')) by (rewrite Em; apply NoDup_keys).
    assert (Hget : forall v, party v -> exists rep, get v (of_list l') = Some rep /\ ok v rep).
    { intros v Hv. assert (Hin : In v (map fst l')) by (rewrite Em; apply in_keys; now rewrite <- Hparty).
      apply in_map_iff in Hin as ([w rep] & Ew & Hin). cbn [fst] in Ew. subst w. exists rep. split; [now apply get_of_list_nodup|eauto]. }
    exists (Nat.max f1 f2), (of_list l'). split.
    - intros fuel Hf'. unfold run_sync. rewrite F1 by lia. cbn [obind]. rewrite F2 by lia. cbn [obind]. unfold sync_reports. rewrite El. reflexivity.
    - split.
      + intros v. destruct (mem v parties) eqn:Hv.
        * destruct (Hget v Hv) as (rep & E & _). apply contains_get. eauto.
        * apply contains_false, get_of_list_none. rewrite Em, in_keys, <- Hparty. congruence.
      + intros v rep Ev. destruct (mem v parties) eqn:Hv; [|exfalso; assert (En : get v (of_list l') = None) by (apply get_of_list_none; rewrite Em, in_keys, <- Hparty; congruence); congruence].
        destruct (Hget v Hv) as (rep' & E & Hrep). rewrite E in Ev. injection Ev as <-. exact Hrep.
  Qed.
End Facts.
