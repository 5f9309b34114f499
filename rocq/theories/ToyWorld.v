(** Executable worlds over the toy parameters, for the examples. *)
From Coq Require Import List NArith Bool Lia.
From Verif Require Import Base BMap Errors RoundId Message Protocol Transcript Evidence Session Spec SpecCrypto SpecEvidence
  SpecWorld MessageFacts SessionFacts HistoryFacts RunSyncFacts Exec Toy ToyCrypto.
Import ListNotations.
Set Implicit Arguments.

Section Cfg.
  Context (c : Cfg).
  Context (hon : N -> bool).
  Notation W := (World (toyPr c)).

  Definition kinds : list kind := [KEcho; KNormal; KDirect].
  Definition odigest {k} (p : SPart k) : option bytes := @digest_of toyP k p.

  Definition part_unforged (sent : list (N * Message (P := toyP))) {k} (p : SPart k) : bool :=
    match toy_deser_sig (sp_sig p), odigest p with
    | Some (u, d), Some d' =>
        if (hon u && bytes_eqb d d')%bool then
          existsb (fun um => (N.eqb (fst um) u && existsb (fun k' => match odigest (@msg_part toyP k' (snd um)) with
                                                                    | Some d2 => bytes_eqb d' d2 | None => false end) kinds)%bool) sent
        else true
    | _, _ => true
    end.
  Definition unforgedb (w : W) (m : Message (P := toyP)) : bool :=
    forallb (fun k => part_unforged (w_sent w) (@msg_part toyP k m)) kinds.

  Lemma unforgedb_ok w m : unforgedb w m = true -> unforged (fun u => hon u = true) w m.
  Proof.
    unfold unforgedb. rewrite forallb_forall. intros H u k Hu (mb & g & H1 & H2 & H3).
    assert (Hk : In k kinds) by (destruct k; simpl; auto). specialize (H k Hk). unfold part_unforged in H.
    change (toy_deser_sig (sp_sig (msg_part k m)) = Some g) in H2. rewrite H2 in H. destruct g as [u' d].
    cbn [verify_sig toyP fst snd] in H3. apply andb_true_iff in H3 as [E1 E2]. apply N.eqb_eq in E1. apply bytes_eqb_spec in E2. subst u' d.
    unfold odigest, digest_of in H. rewrite H1, Hu in H.
    match type of H with (if (true && bytes_eqb ?x ?y)%bool then _ else _) = _ => replace (bytes_eqb x y) with true in H end.
    2: { symmetry. apply bytes_eqb_spec. reflexivity. }
    cbn [andb] in H. apply existsb_exists in H as ([v m'] & Hin & H). apply andb_true_iff in H as [Ev H].
    apply existsb_exists in H as (k' & _ & H). apply N.eqb_eq in Ev. cbn [fst] in Ev. subst v.
    exists m', k'. split; auto. cbn [snd] in H.
    unfold digest_of at 1. rewrite H1.
    apply bytes_eqb_spec in H. exact (f_equal Some H).
  Qed.

  Definition upd (f : N -> bytes -> option (DState (toyPr c))) (v : N) (d : DState (toyPr c)) : N -> bytes -> option (DState (toyPr c)) :=
    fun v' sid => if (N.eqb v' v && bytes_eqb sid sid0)%bool then Some d else f v' sid.

  Definition wexec1 (w : W) (vc : N * cmd (P := toyP)) : option W :=
    let '(v, x) := vc in
    match w_node w v sid0 with
    | None => None
    | Some d =>
        match exec1 g0 d x with
        | None => None
        | Some (e, d') =>
            match x with
            | CPre from m => if unforgedb w m then Some (mkWorld (upd (w_node w) v d') (w_sent w) (m :: w_seen w)) else None
            | CArt dest => Some (mkWorld (upd (w_node w) v d') ((v : @Verifier toyP, tmsg (d_s d) dest) :: w_sent w) (w_seen w))
            | _ => Some (mkWorld (upd (w_node w) v d') (w_sent w) (w_seen w))
            end
        end
    end.

  Lemma upd_only w v d snt sn : only_changes w (mkWorld (upd (w_node w) v d) snt sn) (v : @Verifier toyP) sid0 d.
  Proof.
    split; simpl; unfold upd.
    - now rewrite N.eqb_refl.
    - intros v' sid' Hne. destruct (N.eqb_spec v' v) as [->|]; auto. destruct (bytes_eqb sid' sid0) eqn:E; auto.
      apply bytes_eqb_spec in E. subst. congruence.
  Qed.

  Lemma wexec1_ok w vc w' : wexec1 w vc = Some w' -> wstep (fun u => hon u = true) w w'.
  Proof.
    destruct vc as [v x]. unfold wexec1. destruct (w_node w v sid0) as [d|] eqn:En; [|discriminate].
    destruct (exec1 g0 d x) as [[e d']|] eqn:Ee; [|discriminate]. pose proof (exec1_step _ _ _ Ee) as Hs.
    destruct x as [from m|n|dest|].
    - destruct (unforgedb w m) eqn:Eu; [|discriminate]. intros H. apply some_inj in H. subst w'.
      assert (exists o, e = EPre from m o) as [o ->].
      { destruct d as [s a todo]. cbn [exec1] in Ee. destruct (preprocess_message s a from m) as [a' [o| |]]; try discriminate.
        exists o. congruence. }
      eapply w_arrive; [exact En|exact (unforgedb_ok _ _ Eu)|exact Hs|apply upd_only|reflexivity|reflexivity].
    - intros H. apply some_inj in H. subst w'.
      eapply w_local; [exact En| |exact Hs|apply upd_only|reflexivity|reflexivity].
      left. destruct d as [s a todo]. cbn [exec1] in Ee. destruct (take_nth n todo) as [[[t1 vm] t2]|]; [|discriminate].
      destruct (add_processed _ _ _) as [a' [[]| |]]; try discriminate. exists vm. congruence.
    - intros H. apply some_inj in H. subst w'. destruct d as [s a todo].
      cbn [exec1] in Ee. destruct (mem dest _) eqn:Em; [|discriminate].
      destruct (make_message s g0 dest) as [[m [dest' art]]| |] eqn:Emk; try discriminate.
      destruct (eqb_spec dest' dest) as [->|]; [|discriminate].
      destruct (add_artifact a (dest, art)) as [a' [[]| |]] eqn:E; try discriminate.
      apply some_inj in Ee. injection Ee as <- <-.
      eapply w_send; [exact En|exact Emk|exact Hs|apply upd_only| |reflexivity].
      cbn [w_sent d_s]. unfold tmsg. rewrite Emk. reflexivity.
    - intros H. apply some_inj in H. subst w'.
      eapply w_local; [exact En| |exact Hs|apply upd_only|reflexivity|reflexivity].
      right. destruct d as [s a todo]. cbn [exec1] in Ee. destruct (can_finalize a); try discriminate.
      destruct (finalize_round s g0 a) as [[rep|s' cc]| |]; try discriminate. exists g0. congruence.
  Qed.

  (** The world in which the honest ones of three parties run one session. *)
  Definition wbegin : W := mkWorld (fun v sid => if (hon v && bytes_eqb sid sid0)%bool then Some (tstart c v) else None) [] [].

  Fixpoint wplay (w : W) (ws : list W) (xs : list (N * cmd (P := toyP))) : option (W * list W) :=
    match xs with
    | [] => Some (w, ws)
    | x :: xs => match wexec1 w x with Some w' => wplay w' (w :: ws) xs | None => None end
    end.

  Lemma session_fields me : s_verifier (tsession c me) = me /\ s_id (tsession c me) = sid0.
  Proof.
    unfold tsession. destruct (session_new g0 sid0 (me : @Signer toyP) (toyEP c)) as [s|e|] eqn:E.
    - simpl. apply session_new_ok in E as (st & _ & C). rewrite (cr_verifier C), (cr_id C). auto.
    - exfalso. unfold session_new, new_for_next_round, sign_part in E; simpl in E; destruct (is_empty _); simpl in E; discriminate.
    - exfalso. unfold session_new, new_for_next_round, sign_part in E; simpl in E; destruct (is_empty _); simpl in E; discriminate.
  Qed.

  Lemma wbegin_ok : wtrace (fun u => hon u = true) [wbegin].
  Proof.
    constructor. split; auto. split; auto. intros v sid d. simpl.
    destruct (hon v) eqn:Eh; [|discriminate]. destruct (bytes_eqb sid sid0) eqn:Es; [|discriminate]. cbn [andb].
    intros H. apply some_inj in H. apply bytes_eqb_spec in Es. subst. split; auto.
    exists (tsession c v). destruct (session_fields v) as [H1 H2]. split; [apply toy_initial|]. auto.
  Qed.

  Lemma wplay_ok w ws xs w' ws' : wtrace (fun u => hon u = true) (w :: ws) -> wplay w ws xs = Some (w', ws') ->
    wtrace (fun u => hon u = true) (w' :: ws').
  Proof.
    revert w ws. induction xs as [|x xs IH]; simpl; intros w ws Ht H.
    - injection H as <- <-. exact Ht.
    - destruct (wexec1 w x) as [w1|] eqn:E; [|discriminate]. apply (IH _ _ (wt_step Ht (wexec1_ok _ _ E)) H).
  Qed.

  Definition wfinal (xs : list (N * cmd (P := toyP))) : W * list W :=
    match wplay wbegin [] xs with Some p => p | None => (wbegin, []) end.
  Lemma wfinal_ok xs : wtrace (fun u => hon u = true) (fst (wfinal xs) :: snd (wfinal xs)).
  Proof.
    unfold wfinal. destruct (wplay wbegin [] xs) as [[w ws]|] eqn:E; simpl; [|apply wbegin_ok].
    eapply wplay_ok; [apply wbegin_ok|exact E].
  Qed.
  Definition wplays (xs : list (N * cmd (P := toyP))) : bool := match wplay wbegin [] xs with Some _ => true | None => false end.
End Cfg.

Lemma toy_no_return c : no_return (toyPr c).
Proof.
  exists (fun r => N.to_nat (rid_round r)). intros [n me sm] rid. simpl. unfold toy_tinfo. cbn [ts_round].
  destruct (N.ltb_spec n (c_last c)) as [H|H]; cbn [ti_children ti_id].
  - intros Hm. apply mem_set_of_list in Hm as [<-|[]]. simpl. lia.
  - intros Hm. unfold mem, sempty in Hm. apply contains_get in Hm as [x Hx]. rewrite get_empty in Hx. discriminate.
Qed.
