(** Proofs about messages of other rounds. *)
From Coq Require Import List NArith Bool Lia.
From Verif Require Import Base BMap Errors RoundId Message Protocol Transcript Evidence Session Spec SpecCrypto MessageFacts SessionFacts RunFacts
  IntakeFacts RoundFacts HistoryFacts IdFacts Network RunSync Driver SpecDriver DriverFacts Par SpecPar ParFacts SpecForge ForgeFacts SpecAgain AgainFacts SpecLate.
Import ListNotations.
Set Implicit Arguments.

Section WithParams.
  Context {P : Params}.
  Context {Pr : Proto}.
  Implicit Types (s : Session Pr) (a : Accum Pr).

  Lemma keeps_cached a v rid : keeps a v rid <-> message_is_cached a v rid = true.
  Proof.
    unfold keeps, message_is_cached. split.
    - intros (c & vm & -> & E). apply contains_get. eauto.
    - destruct (get v (a_cached a)) as [c|]; [|discriminate]. intros E. apply contains_get in E as [vm E]. eauto.
  Qed.

  Lemma active_window (d : DState Pr) rid : plain_ids Pr -> reachable d -> may_be_active (d_s d) rid -> window (d_s d) rid.
  Proof.
    intros Hp Hr H. destruct (@simultaneous_total (s_tinfo (d_s d)) (match s_echo_info (d_s d) with Some _ => true | None => false end)) as [acc Ha].
    { intros Hx. apply (plain_window Hp Hr). destruct (s_echo_info (d_s d)); discriminate. }
    exists acc. split; [exact Ha|]. apply (simultaneous_window _ _ Ha). unfold may_be_active in H. destruct (s_echo_info (d_s d)); tauto.
  Qed.

  (** ** The session *)
  Lemma noted_only a v e : only_notes a v e (noted a v e).
  Proof. unfold only_notes, noted. cbn. repeat (split; [reflexivity|]). split; [apply get_insert_eq|]. intros u Hu. now apply get_insert_ne. Qed.

  Lemma other_round (d : DState Pr) from m rid : plain_ids Pr -> (forall mt, ser_meta mt <> None) -> reachable d -> ~ banned (d_s d) (d_a d) from ->
    message_authentic from (s_id (d_s d)) rid m -> rid <> s_round_id (d_s d) ->
    (may_be_active (d_s d) rid -> ~ keeps (d_a d) from rid ->
       exists a', preprocess_message (d_s d) (d_a d) from m = (a', Ok Cached) /\ only_keeps (d_a d) from rid a' /\ keeps a' from rid) /\
    (may_be_active (d_s d) rid -> keeps (d_a d) from rid ->
       exists a', preprocess_message (d_s d) (d_a d) from m = (a', Ok (PreError RE_DupCached)) /\ only_notes (d_a d) from RE_DupCached a') /\
    (~ may_be_active (d_s d) rid ->
       exists a', preprocess_message (d_s d) (d_a d) from m = (a', Ok (PreError RE_WrongRound)) /\ only_notes (d_a d) from RE_WrongRound a').
  Proof.
    intros Hp Hm Hre Nb (S1 & S2 & S3 & M1 & M2 & M3) Ne.
    destruct (@simultaneous_total (s_tinfo (d_s d)) (match s_echo_info (d_s d) with Some _ => true | None => false end)) as [acc Ha].
    { intros Hx. apply (plain_window Hp Hre). destruct (s_echo_info (d_s d)); discriminate. }
    assert (Hw : may_be_active (d_s d) rid <-> mem rid acc = true).
    { rewrite (simultaneous_window _ _ Ha rid). unfold may_be_active. destruct (s_echo_info (d_s d)); tauto. }
    set (vm := mkVMessage from (sp_meta (msg_direct m)) (msg_direct m) (msg_echo m) (msg_normal m)).
    assert (Eu : unify_metadata m = Some (mkCMessage (sp_meta (msg_direct m)) (msg_direct m) (msg_echo m) (msg_normal m)))
      by (apply unify_metadata_ok; repeat split; congruence).
    assert (Ev : verify_message from (mkCMessage (sp_meta (msg_direct m)) (msg_direct m) (msg_echo m) (msg_normal m)) = Ok vm)
      by (apply verify_message_ok; repeat split; auto).
    assert (E : preprocess_message (d_s d) (d_a d) from m =
      if mem rid acc then (if message_is_cached (d_a d) from rid then reject (d_a d) from RE_DupCached
        else let '(a', r) := cache_message (d_a d) vm in (a', let* _ := r in Ok Cached)) else reject (d_a d) from RE_WrongRound).
    { unfold preprocess_message. rewrite (proj2 (banned_false _ _ _) Nb), Eu. cbn [cm_meta]. rewrite Ev, M1. cbn [m_session m_round].
      replace (bytes_eqb (s_id (d_s d)) (s_id (d_s d))) with true by (symmetry; now apply bytes_eqb_spec). cbn [negb]. rewrite Ha.
      destruct (eqb_spec rid (s_round_id (d_s d))) as [X|_]; [contradiction|]. destruct (mem rid acc); [|reflexivity].
      destruct (message_is_cached (d_a d) from rid); reflexivity. }
    split; [|split].
    - intros A K. apply Hw in A. rewrite A in E. destruct (message_is_cached (d_a d) from rid) eqn:Ec; [now apply keeps_cached in Ec|].
      assert (Er : m_round (vm_meta vm) = rid) by (cbn [vm vm_meta]; rewrite M1; reflexivity).
      unfold cache_message in E. rewrite Er in E. cbn [vm_from vm] in E. fold vm in E.
      assert (Hc : contains rid (match get from (a_cached (d_a d)) with Some c => c | None => empty end) = false).
      { unfold message_is_cached in Ec. destruct (get from (a_cached (d_a d))); auto. }
      rewrite Hc in E. cbn [bind] in E. eexists. split; [exact E|].
      split.
      + unfold only_keeps. cbn. repeat (split; [reflexivity|]). split; [intros u Hu; now apply get_insert_ne|].
        eexists. split; [apply get_insert_eq|]. intros rid' N. rewrite get_insert_ne by exact N. destruct (get from (a_cached (d_a d))); reflexivity.
      + eexists _, vm. cbn. split; apply get_insert_eq.
    - intros A K. apply Hw in A. rewrite A in E. apply keeps_cached in K. rewrite K, (@reject_ok _ _ (d_s d)) in E by exact Nb.
      eexists. split; [exact E|]. apply noted_only.
    - intros A. destruct (mem rid acc) eqn:Em; [destruct (A (proj2 Hw eq_refl))|]. rewrite (@reject_ok _ _ (d_s d)) in E by exact Nb.
      eexists. split; [exact E|]. apply noted_only.
  Qed.

  (** ** Linear protocols *)
  Lemma linear_window n (d : DState Pr) : linear_here n (d_s d) -> reachable d ->
    exists k, (1 <= k)%N /\ (k <= n)%N /\ s_round_id (d_s d) = mkRid k [] (rid_echo (s_round_id (d_s d))) /\
    forall rid, may_be_active (d_s d) rid <->
      (k < n)%N /\ rid = rid_new (k + 1) \/
      (if rid_echo (s_round_id (d_s d)) then rid = rid_new k
       else match s_echo_info (d_s d) with Some _ => rid = mkRid k [] true | None => (1 < k)%N /\ rid = rid_new (k - 1) end).
  Proof.
    intros (Hn & k & K1 & K2 & E) Hre. pose proof (reachable_sinv Hre) as I.
    destruct (linear_rounds K1 K2 Hn) as (t & Et & H1 & H2 & H3 & _ & H4 & _). rewrite E in Et. injection Et as <-. clear E.
    pose proof (si_tinfo I) as Ht. destruct (si_shape I) as [st Hs|echos info st ps arts Hs Hn'].
    - rewrite Hs in Ht. cbn [rd_tinfo] in Ht. injection Ht as Ht. rewrite Hs in *. cbn [main_state] in *. rewrite Ht in *.
      exists k. split; [exact K1|]. split; [exact K2|]. unfold may_be_active, s_round_id. rewrite H1. split; [reflexivity|]. intros rid. cbn [rid_echo rid_new rid_round rid_groups].
      rewrite H2, H4. destruct (s_echo_info (d_s d)); [|rewrite H3]; intuition discriminate.
    - rewrite Hs in Ht. cbn [rd_tinfo] in Ht. rewrite Hs in *. cbn [main_state] in *.
      cbn [bind] in Ht. unfold ti_echo, echo in Ht. rewrite H1 in Ht. cbn [rid_echo rid_new bind rid_round rid_groups] in Ht. injection Ht as Ht.
      exists k. split; [exact K1|]. split; [exact K2|]. unfold may_be_active, s_round_id. rewrite <- Ht. cbn [ti_id ti_children ti_parents ti_siblings rid_echo].
      split; [reflexivity|]. intros rid. rewrite Hn', H2, mem_empty, mem_single. intuition discriminate.
  Qed.

  Lemma linear_children n (d : DState Pr) : linear_here n (d_s d) -> reachable d ->
    exists k, rid_round (s_round_id (d_s d)) = k /\ forall r, mem r (ti_children (s_tinfo (d_s d))) = true -> r = rid_new (k + 1).
  Proof.
    intros (Hn & k & K1 & K2 & E) Hre. pose proof (reachable_sinv Hre) as I. exists k.
    destruct (linear_rounds K1 K2 Hn) as (t & Et & H1 & H2 & _). rewrite E in Et. injection Et as <-. clear E.
    pose proof (si_tinfo I) as Ht. destruct (si_shape I) as [st Hs|echos info st ps arts Hs Hn']; rewrite Hs in *; cbn [rd_tinfo main_state] in *.
    - injection Ht as Ht. unfold s_round_id. rewrite <- Ht, H1. split; [reflexivity|]. intros r Hr. now apply H2 in Hr.
    - cbn [bind] in Ht. unfold ti_echo, echo in Ht. rewrite H1 in Ht. cbn [rid_echo rid_new bind rid_round rid_groups] in Ht. injection Ht as Ht.
      unfold s_round_id. rewrite <- Ht. cbn. split; [reflexivity|]. intros r Hr. now apply H2 in Hr.
  Qed.

  Lemma late_forgiven n (d : DState Pr) rid : linear_here n (d_s d) -> reachable d -> before rid (s_round_id (d_s d)) ->
    (may_be_active (d_s d) rid <-> forgiven (d_s d) rid).
  Proof.
    intros HL Hre (G1 & G2 & B). destruct (linear_window HL Hre) as (k & K1 & K2 & Hid & Hw). rewrite Hw. unfold forgiven.
    assert (Hk : rid_round (s_round_id (d_s d)) = k) by (rewrite Hid; reflexivity).
    rewrite Hk in *. destruct (rid_echo (s_round_id (d_s d))) eqn:Ee.
    - split; [|auto]. intros [[_ ->]|X]; [|exact X]. cbn in B. lia.
    - destruct (s_echo_info (d_s d)) as [i|].
      + split; [|intros (X & _); discriminate]. intros [[_ ->]| ->]; cbn in B; exfalso; [lia|]. destruct B as [B|(_ & B & _)]; [lia|discriminate].
      + split; [|tauto]. intros [[_ ->]|X]; [cbn in B; lia|]. tauto.
  Qed.

  Lemma before_ne r1 r2 : before r1 r2 -> r1 <> r2.
  Proof. intros (_ & _ & [H|(_ & H1 & H2)]) ->; [lia|congruence]. Qed.

  Lemma linear_late n (d : DState Pr) from m rid : plain_ids Pr -> linear_here n (d_s d) -> (forall mt, ser_meta mt <> None) -> reachable d ->
    ~ banned (d_s d) (d_a d) from -> message_authentic from (s_id (d_s d)) rid m -> before rid (s_round_id (d_s d)) ->
    (forgiven (d_s d) rid -> ~ keeps (d_a d) from rid ->
       exists a', preprocess_message (d_s d) (d_a d) from m = (a', Ok Cached) /\ only_keeps (d_a d) from rid a' /\ keeps a' from rid) /\
    (~ forgiven (d_s d) rid ->
       exists a', preprocess_message (d_s d) (d_a d) from m = (a', Ok (PreError RE_WrongRound)) /\ only_notes (d_a d) from RE_WrongRound a').
  Proof.
    intros Hp HL Hm Hre Nb Au B. destruct (other_round Hp Hm Hre Nb Au (before_ne B)) as (H1 & _ & H3).
    rewrite (late_forgiven HL Hre B) in H1, H3. auto.
  Qed.

  (** ** Rounds do not come back *)
  Lemma finalize_main rd g st : forall ps arts, rd_finalize rd g ps arts = Ok (AnotherRound st) ->
    exists g ps arts, finalize Pr (main_state rd) g ps arts = Ok (AnotherRound st).
  Proof.
    induction rd as [st0|v echos info main IH ps0 arts0]; intros ps arts; cbn [rd_finalize main_state]; [|apply IH].
    intros H. apply bind_ok in H as (q & _ & H). apply bind_ok in H as (b & _ & H). eauto.
  Qed.

  Lemma before_trans r1 r2 r3 : before r1 r2 -> before r2 r3 -> before r1 r3.
  Proof. intros (G1 & G2 & A) (_ & G3 & B). split; [exact G1|]. split; [exact G3|]. destruct A as [A|(A1 & A2 & A3)], B as [B|(B1 & B2 & B3)]; try (left; lia). congruence. Qed.

  Lemma linear_step n (d : DState Pr) e d' : linear_closed Pr n -> reachable d -> linear_here n (d_s d) -> step d e d' ->
    linear_here n (d_s d') /\ (if is_fin e then before (s_round_id (d_s d)) (s_round_id (d_s d')) else d_s d' = d_s d).
  Proof.
    intros Hc Hre HL St. assert (Hre' : reachable d') by (eapply reachable_run; [exact Hre|]; change [e] with ([] ++ [e]); eapply run_snoc; [constructor|exact St]).
    inversion St as [s a todo from m a' o Ep|s a t1 vm t2 a' Ea|s a todo g dest m art a' H1 H2 H3|s a todo g s' cached Hy Hf]; subst; cbn [d_s is_fin] in *; auto.
    pose proof (finalize_another _ _ _ Hf) as F. destruct (linear_window (d := DS s a todo) HL Hre) as (k & K1 & K2 & Hid & _). cbn [d_s] in Hid.
    destruct F as [t info echos Hcl Hi He C Hcd|t st Hcl Hi Hfm Hch C Hcd].
    - assert (HL' : linear_here n s') by (unfold linear_here; rewrite (cr_round C); exact HL). split; [exact HL'|].
      destruct (linear_window (d := DS s' (make_accumulator s') cached) HL' Hre') as (k' & _ & _ & Hid' & _). cbn [d_s] in Hid'.
      pose proof (si_tinfo (reachable_sinv Hre)) as Ht. cbn [d_s] in Ht.
      pose proof (cr_tinfo C) as T. cbn [rd_tinfo] in T. rewrite Ht in T. cbn [bind] in T. unfold ti_echo, echo in T.
      fold (s_round_id s) in T. destruct (rid_echo (s_round_id s)) eqn:Ee; cbn [bind] in T; [discriminate|].
      injection T as T. assert (X : s_round_id s' = mkRid (rid_round (s_round_id s)) (rid_groups (s_round_id s)) true).
      { unfold s_round_id at 1. rewrite <- T. reflexivity. }
      rewrite X, Hid. unfold before. cbn. split; [reflexivity|]. split; [reflexivity|]. right. auto.
    - apply finalize_main in Hfm as (g' & ps & arts & Ef). assert (HL' : linear_here n s') by (unfold linear_here; rewrite (cr_round C); exact (Hc _ _ _ _ _ HL Ef)).
      split; [exact HL'|]. pose proof (cr_tinfo C) as T. cbn [rd_tinfo] in T. injection T as T.
      assert (X : s_round_id s' = rid_new (k + 1)).
      { unfold s_round_id. rewrite <- T. destruct (linear_children (d := DS s a todo) HL Hre) as (k0 & E0 & Hch'). cbn [d_s] in *. apply Hch' in Hch. rewrite Hch. f_equal.
        rewrite Hid in E0. cbn in E0. lia. }
      rewrite X, Hid. unfold before. cbn. split; [reflexivity|]. split; [reflexivity|]. left. lia.
  Qed.

  Lemma linear_run n (d : DState Pr) es d' : linear_closed Pr n -> reachable d -> linear_here n (d_s d) -> run d es d' ->
    linear_here n (d_s d') /\ (s_round_id (d_s d') = s_round_id (d_s d) /\ in_round es \/ before (s_round_id (d_s d)) (s_round_id (d_s d')) /\ ~ in_round es).
  Proof.
    intros Hc Hre HL R. induction R as [d|d es d1 e d2 R IH St]; [split; [exact HL|left; split; reflexivity]|].
    destruct (IH Hre HL) as (HL1 & B1). destruct (linear_step Hc (reachable_run Hre R) HL1 St) as (HL2 & B2). split; [exact HL2|].
    unfold in_round. rewrite forallb_app. cbn [forallb]. fold (in_round es). rewrite andb_true_r, andb_true_iff.
    destruct (is_fin e); cbn [negb].
    - right. split; [|intros (_ & X); discriminate]. destruct B1 as [(<- & _)|(B1 & _)]; [exact B2|eapply before_trans; eauto].
    - rewrite B2. destruct B1 as [(B1 & I)|(B1 & I)]; [left|right]; split; auto. intros (X & _). exact (I X).
  Qed.

  Lemma late_never n (d : DState Pr) rid es d' vm : linear_closed Pr n -> reachable d -> linear_here n (d_s d) -> before rid (s_round_id (d_s d)) ->
    run d es d' -> In vm (d_todo d') -> m_round (vm_meta vm) <> rid.
  Proof.
    intros Hc Hre HL B R Hin. destruct (handed_out_authentic (reachable_run Hre R) vm Hin) as (_ & _ & _ & E & _). rewrite E. cbn [m_round].
    destruct (linear_run Hc Hre HL R) as (_ & [(-> & _)|(B' & _)]).
    - intros X. exact (before_ne B (eq_sym X)).
    - intros X. exact (before_ne (before_trans B B') (eq_sym X)).
  Qed.

  Lemma only_notes_banned s a v e a' : only_notes a v e a' -> banned s a' v.
  Proof. intros N. right; right; right. exists e. apply N. Qed.

  (** ** [run_session] *)
  Lemma session_outdated r (s0 : Session Pr) ls s a from m rid : plain_ids Pr -> (forall mt, ser_meta mt <> None) -> initial s0 ->
    run_session r s0 ls (DrvWait s a) -> can_finalize a = NotYet -> message_authentic from (s_id s) rid m ->
    rid <> s_round_id s -> ~ may_be_active s rid ->
    exists a', drv_step r (DrvWait s a) (IRecv from m) = Some ([LIn from m], DrvWait s a') /\ banned s a' from /\
      forall l3 s3 a3, drv_run r (DrvWait s a') l3 (DrvWait s3 a3) -> mem from (a_waiting a3) = true -> blocked r (DrvWait s3 a3).
  Proof.
    intros Hp Hm Hi H Y Au Ne Na. pose proof (session_state Hi H eq_refl) as Hre.
    assert (Ep : exists e a', preprocess_message s a from m = (a', Ok (PreError e)) /\ banned s a' from).
    { destruct (tr_is_banned (s_tr s) from || a_is_banned a from)%bool eqn:Eb; [apply banned_bool in Eb | apply banned_false in Eb].
      - exists RE_Banned, a. split; [now apply banned_inert|exact Eb].
      - destruct (other_round (d := DS s a []) Hp Hm Hre Eb Au Ne) as (_ & _ & K). destruct (K Na) as (a' & Ep & No).
        exists RE_WrongRound, a'. split; [exact Ep|]. eapply only_notes_banned; eauto. }
    destruct Ep as (e & a' & Ep & Bn). exists a'.
    assert (Sd : drv_step r (DrvWait s a) (IRecv from m) = Some ([LIn from m], DrvWait s a')) by (cbn [drv_step]; rewrite Y, Ep; reflexivity).
    split; [exact Sd|]. split; [exact Bn|]. intros l3 s3 a3 R3 W l4 d4 R4 C.
    destruct H as (lx & Ex & Hx).
    assert (H' : run_session r s0 (LEnter s0 :: (lx ++ [LIn from m]) ++ l3) (DrvWait s3 a3)).
    { eexists. split; [reflexivity|]. eapply drv_app; [exact (drun_snoc (IRecv from m) Hx Sd)|exact R3]. }
    assert (B3 : banned s3 a3 from).
    { assert (I' : dinv (DrvWait s a')) by exact (proj1 (run_dinv (drun_snoc (IRecv from m) Hx Sd) (dinv_enter s0 []))).
      destruct (proj2 (run_dinv R3 I') (DS s a' []) (DS s3 a3 []) eq_refl eq_refl) as [es3 Q]. destruct (errors_kept Q) as (_ & _ & K & _). exact (K from Bn). }
    exact (session_waits_on Hi H' W B3 R4 C).
  Qed.

  (** ** [par_run_session] *)
  Lemma par_session_outdated r (s0 : Session Pr) ls x from m rid : plain_ids Pr -> (forall mt, ser_meta mt <> None) -> initial s0 ->
    par_session r s0 ls (PRun x) -> listens x -> message_authentic from (s_id (pp_s x)) rid m ->
    rid <> s_round_id (pp_s x) -> ~ may_be_active (pp_s x) rid ->
    exists a', par_step r (PRun x) (AReceive from m) = Some ([LIn from m], PRun (set_acc x a')) /\ banned (pp_s x) a' from /\
      forall l3 z, par_run r (PRun (set_acc x a')) l3 (PRun z) -> lacks z from -> par_blocked r z.
  Proof.
    intros Hp Hm Hi H (Ph & Hh & Y) Au Ne Na. destruct (par_state Hi H) as (todo & Hre & _).
    assert (Ep : exists e a', preprocess_message (pp_s x) (pp_a x) from m = (a', Ok (PreError e)) /\ banned (pp_s x) a' from).
    { destruct (tr_is_banned (s_tr (pp_s x)) from || a_is_banned (pp_a x) from)%bool eqn:Eb; [apply banned_bool in Eb | apply banned_false in Eb].
      - exists RE_Banned, (pp_a x). split; [now apply banned_inert|exact Eb].
      - destruct (other_round (d := DS (pp_s x) (pp_a x) todo) Hp Hm Hre Eb Au Ne) as (_ & _ & K). destruct (K Na) as (a' & Ep & No).
        exists RE_WrongRound, a'. split; [exact Ep|]. eapply only_notes_banned; eauto. }
    destruct Ep as (e & a' & Ep & Bn). exists a'.
    assert (Sd : par_step r (PRun x) (AReceive from m) = Some ([LIn from m], PRun (set_acc x a'))) by (cbn [par_step]; rewrite Hh, Ph, Y, Ep; reflexivity).
    split; [exact Sd|]. split; [exact Bn|]. intros l3 z R3 (Pz & W & N) l4 p4 R4 C.
    destruct H as (lx & Ex & Hx). pose proof (prun_snoc (AReceive from m) Hx Sd) as Hy.
    assert (H' : par_session r s0 (LEnter s0 :: (lx ++ [LIn from m]) ++ l3) (PRun z)) by (eexists; split; [reflexivity|eapply par_app; eauto]).
    assert (B3 : banned (pp_s z) (pp_a z) from).
    { assert (Iy : pinv r (set_acc x a')) by exact (prun_pinv Hy (pinv_enter r s0 [])).
      destruct (prun_sim R3 eq_refl eq_refl Iy (todo := handed (set_acc x a')) []) as (es3 & t & rest & Q & _); [now rewrite app_nil_r|].
      destruct (errors_kept Q) as (_ & _ & K & _). exact (K from Bn). }
    exact (par_session_waits_on Hi H' Pz W B3 N R4 C).
  Qed.
End WithParams.
