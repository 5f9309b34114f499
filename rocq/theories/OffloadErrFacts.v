(** [run_async] with [offload_processing = true]: why it can return an error. *)
From Coq Require Import List NArith Bool Arith Lia Permutation.
From Verif Require Import Base BMap Errors RoundId Message Protocol Transcript Evidence Session Spec SpecCrypto
  MessageFacts SessionFacts RunFacts Network SpecNet NetFacts RunSync RunSyncFacts Driver SpecDriver DriverFacts Par SpecPar ParFacts Async SpecAsync AsyncFacts
  Offload SpecOffload OffloadFacts.
Import ListNotations.
Set Implicit Arguments.

Section WithParams.
  Context {P : Params}.
  Context {Pr : Proto}.
  Variable r : NetRng.
  Variable cap : nat.

  Lemma gone_off (a : ONet Pr) v : gone (seen a) v -> off a v.
  Proof.
    unfold gone, off. rewrite seen_get. destruct (get v (on_nodes a)) as [[x|o]|]; cbn [option_map seen_node]; auto; intros [o' E]; [discriminate|eauto].
  Qed.
  Lemma off_stays (a : ONet Pr) x ls a' v : oact r cap a x = Some (ls, a') -> off a v -> off a' v.
  Proof.
    intros E. unfold off. destruct (oact_cases r cap _ _ E) as [(i & _ & _ & _ & ->)|(w & act & p & ls0 & p' & _ & Hw & Hs & _ & ->)]; [auto|].
    cbn [after on_nodes]. rewrite get_insert. destruct (eqb_spec v w) as [->|]; [|auto]. rewrite Hw. intros [o ->]. discriminate Hs.
  Qed.

  Lemma osched_lost ks (a : ONet Pr) tr a' : awf ks (seen a) -> ~ failed (on_disp a) -> oschedule r cap a tr a' ->
    exists lost, Permutation (waiting ks (seen a) ++ sent_in tr) (taken_in tr ++ waiting ks (seen a') ++ lost) /\
      (failed (on_disp a') -> exists o, In o lost /\ off a' (mo_to o)).
  Proof.
    intros W Hn H. induction H as [a|a tr a1 x ls a2 H IH Hx].
    - exists []. cbn [sent_in taken_in flat_map app]. rewrite !app_nil_r. split; [reflexivity|contradiction].
    - destruct (IH W Hn) as (lost & Hp & Hf). clear IH. pose proof (osched_wf W H) as W1.
      assert (K : exists lost', Permutation (waiting ks (seen a1) ++ sent_in ls) (taken_in ls ++ waiting ks (seen a2) ++ lost') /\
        (failed (on_disp a2) -> failed (on_disp a1) \/ exists o, In o lost' /\ off a2 (mo_to o))).
      { destruct (@oact_conserves _ _ r cap ks a1 x ls a2 W1 Hx) as (lost' & Hp' & Hl).
        destruct (oact_cases r cap _ _ Hx) as [(i & _ & Els & Ed & _)|(w & act & p & ls0 & p' & _ & _ & _ & _ & Ea)].
        - destruct Hl as [F|El].
          + destruct (@disp_fails _ _ cap ks (seen a1) i (seen a2) W1 Ed F) as (o & ms & Hg & Hp2). exists (o :: ms). rewrite Els. split.
            * cbn [sent_in taken_in flat_map app]. now rewrite app_nil_r.
            * intros _. right. exists o. split; [now left|now apply gone_off].
          + exists lost'. split; [exact Hp'|]. intros F. exfalso. subst lost' ls.
            destruct (@disp_fails _ _ cap ks (seen a1) i (seen a2) W1 Ed F) as (o & ms & _ & Hp2).
            cbn [sent_in taken_in flat_map app] in Hp'. rewrite app_nil_r in Hp'. rewrite Hp2 in Hp'. apply Permutation_length in Hp'.
            rewrite !app_length in Hp'. simpl in Hp'. lia.
        - exists lost'. split; [exact Hp'|]. intros F. left. subst a2. exact F. }
      destruct K as (lost' & Hp' & K). exists (lost' ++ lost). split.
      + rewrite sent_app, taken_app, app_assoc, Hp. rewrite <- !app_assoc. apply Permutation_app_head.
        rewrite (Permutation_app_comm lost (sent_in ls)), app_assoc, Hp'. rewrite <- !app_assoc. reflexivity.
      + intros F. destruct (K F) as [F1|(o & Hin & Hg)].
        * destruct (Hf F1) as (o & Hin & Hg). exists o. split; [apply in_or_app; now right|]. eapply off_stays; eauto.
        * exists o. split; [apply in_or_app; now left|exact Hg].
  Qed.

  (** A node that fails does so by itself, or the dispatcher has failed. *)
  Definition ocaused (ss : Verifier -> option (Session Pr)) (tr : list (Verifier * dlabel Pr)) (a : ONet Pr) : Prop :=
    forall v o, get v (on_nodes a) = Some (PStop o) -> (forall rep, o <> Ok rep) ->
      failed (on_disp a) \/ exists s, ss v = Some s /\ par_fails_by_itself r s (LEnter s :: doings v tr).
  Lemma action_closed (a : ONet Pr) x v act : node_action cap a x = Some (v, act) -> act = APut false \/ act = AClosed -> disp_done (on_disp a) = true.
  Proof.
    intros E H. destruct (disp_done (on_disp a)) eqn:Ed; [reflexivity|]. exfalso. destruct x as [w y|w|w|i]; cbn [node_action] in E; rewrite ?Ed in E.
    - destruct (by_itself y) eqn:Eb; [|discriminate]. assert (y = act) as -> by congruence. destruct H as [-> | ->]; discriminate.
    - destruct (Nat.ltb _ _); [|discriminate]. assert (act = APut true) as -> by congruence. destruct H; discriminate.
    - destruct (get w (on_in a)) as [[|[f m] q]|]; try discriminate. assert (act = AReceive f m) as -> by congruence. destruct H; discriminate.
    - discriminate.
  Qed.

  Lemma osched_caused ss (a0 : ONet Pr) tr a : (forall v p, get v (on_nodes a0) = Some p -> exists s, ss v = Some s /\ p = PRun (par_enter s [])) ->
    closed_ok a0 -> oschedule r cap a0 tr a -> ocaused ss tr a.
  Proof.
    intros H0 C0 H. induction H as [a|a tr a1 x ls a2 H IH Hx].
    - intros v o Hv. destruct (H0 v _ Hv) as (s & _ & E). discriminate.
    - specialize (IH H0 C0). pose proof (osched_closed C0 H) as C1. intros v o Hv Ho.
      destruct (oact_cases r cap _ _ Hx) as [(i & _ & -> & Ed & En)|(w & act & p & ls0 & p' & Ha & Hw & Hs & -> & ->)].
      + rewrite En in Hv. rewrite app_nil_r. destruct (IH v o Hv Ho) as [F|F]; [|now right]. left. exact (@ofailed_stays _ _ r cap _ x _ _ Hx F).
      + cbn [after on_nodes on_disp] in *. rewrite doings_app, doings_pair. rewrite get_insert in Hv. rewrite (eqb_sym w v). destruct (eqb_spec v w) as [->|Hne].
        * assert (p' = PStop o) as -> by congruence.
          assert (Hnode : exists p0, get w (on_nodes a) = Some p0).
          { destruct (get w (on_nodes a)) as [p0|] eqn:E; [eauto|]. exfalso. revert Hw E. clear - H. intros Hw E.
            assert (K : get w (on_nodes a1) = None); [|congruence]. clear Hw p. induction H as [|a tr a1 x ls a2 H IH Hx]; [exact E|]. specialize (IH E).
            destruct (oact_cases r cap _ _ Hx) as [(i & _ & _ & _ & ->)|(u & act & q & ls0 & q' & _ & Hu & _ & _ & ->)]; [exact IH|].
            cbn [after on_nodes]. rewrite get_insert. destruct (eqb_spec w u) as [->|]; [congruence|exact IH]. }
          destruct Hnode as [p0 Hp0]. destruct (H0 w p0 Hp0) as (s & Hss & ->). destruct (osched_nodes H _ Hp0) as (p1 & Hp1 & R).
          assert (p1 = p) as -> by congruence.
          assert (Hend : disp_done (on_disp a1) = true -> failed (on_disp a1)).
          { intros Hdd. destruct (on_disp a1) as [| | | | |[y|e|]] eqn:Ed; try discriminate Hdd; simpl; auto.
            destruct (C1 y Ed) as [_ Hall]. destruct (Hall _ _ Hw) as [o' ->]. discriminate Hs. }
          assert (Hown : act <> APut false -> act <> AClosed -> par_fails_by_itself r s (LEnter s :: doings w tr ++ ls0)).
          { intros N1 N2. exists (LEnter s :: doings w tr), p, act, ls0, o. repeat split; auto. exists (doings w tr). auto. }
          destruct act as [i|i| |[|]| |from m| | |]; try (right; exists s; split; [exact Hss|apply Hown; discriminate]);
            left; apply Hend; eapply action_closed; eauto.
        * rewrite app_nil_r. exact (IH v o Hv Ho).
  Qed.

  Theorem offload_error_cause sid (ps : list (Signer * EntryPoint Pr)) (a0 : ONet Pr) tr a e : NoDup (map (fun p => signer_key (fst p)) ps) ->
    onet_start r sid ps = Ok a0 -> oschedule r cap a0 tr a -> offload_returns a = Some (Err e) ->
    (exists o rest, Permutation (sent_in tr) (taken_in tr ++ o :: rest) /\ off a (mo_to o)) \/
    (exists sk ep s, In (sk, ep) ps /\ session_new (nr_new r (signer_key sk)) sid sk ep = Ok s /\ par_fails_by_itself r s (LEnter s :: doings (signer_key sk) tr)).
  Proof.
    intros Hnd H0 H E. destruct (@onet_start_ok _ _ r sid ps a0 Hnd H0) as (W & Ho & Hd & Hq & Hs).
    assert (Kf : failed (on_disp a) -> exists o rest, Permutation (sent_in tr) (taken_in tr ++ o :: rest) /\ off a (mo_to o)).
    { intros F. destruct (@osched_lost (map (fun p => signer_key (fst p)) ps) a0 tr a W) as (lost & Hp & Hl); [rewrite Hd; simpl; tauto|exact H|].
      destruct (Hl F) as (o & Hin & Hg). exists o. apply in_split in Hin as (l1 & l2 & ->). exists (waiting (map (fun p => signer_key (fst p)) ps) (seen a) ++ l1 ++ l2).
      split; [|exact Hg]. rewrite (@waiting_start P Pr _ (seen a0) Ho Hd Hq) in Hp. cbn [app] in Hp. rewrite Hp. apply Permutation_app_head.
      symmetry. rewrite !app_assoc. apply Permutation_cons_app. reflexivity. }
    destruct (returns_err _ E) as [F|(v & o & Hv & Hno)]; [left; auto|].
    rewrite seen_get in Hv. destruct (get v (on_nodes a)) as [[x|o']|] eqn:Ev; cbn [option_map seen_node] in Hv; try discriminate. assert (o' = o) as -> by congruence.
    set (ss := fun w => match find (fun p => eqb (signer_key (fst p)) w) ps with
                        | Some (sk, ep) => match session_new (nr_new r w) sid sk ep with Ok s => Some s | _ => None end | None => None end).
    assert (Hss : forall w s, ss w = Some s -> exists sk ep, In (sk, ep) ps /\ signer_key sk = w /\ session_new (nr_new r w) sid sk ep = Ok s).
    { intros w s. unfold ss. destruct (find _ ps) as [[sk ep]|] eqn:Ef; [|discriminate]. apply find_some in Ef as [Hin Hk]. cbn [fst] in Hk.
      destruct (eqb_spec (signer_key sk) w) as [<-|]; [|discriminate]. destruct (session_new _ _ _ _) as [s'| |] eqn:Es; try discriminate.
      intros E'. exists sk, ep. repeat split; auto. congruence. }
    assert (Hin0 : forall w p, get w (on_nodes a0) = Some p -> exists s, ss w = Some s /\ p = PRun (par_enter s [])).
    { intros w p Hw. destruct (Hs _ _ Hw) as (sk & ep & s & Hin & Hk & Hsn & ->). unfold ss.
      destruct (find (fun p => eqb (signer_key (fst p)) w) ps) as [[sk' ep']|] eqn:Ef.
      - apply find_some in Ef as [Hin' Hk']. cbn [fst] in Hk'. destruct (eqb_spec (signer_key sk') w) as [<-|]; [|discriminate].
        destruct (@ostart_session _ _ r sid ps a0 Hnd H0 _ _ Hin') as (s' & Hs1 & Hs2). rewrite Hs1. exists s'. split; [reflexivity|congruence].
      - pose proof (find_none _ _ Ef _ Hin) as Hx. cbn [fst] in Hx. rewrite Hk, eqb_refl in Hx. discriminate. }
    assert (C0 : closed_ok a0) by (intros x Hx; congruence).
    destruct (@osched_caused ss a0 tr a Hin0 C0 H v o Ev Hno) as [F|(s & Hsv & Hf)]; [left; auto|].
    right. destruct (Hss _ _ Hsv) as (sk & ep & Hin & <- & Hn). exists sk, ep, s. auto.
  Qed.
End WithParams.
