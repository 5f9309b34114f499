(** [run_async] with [offload_processing = true]: messages are neither invented, nor duplicated, nor redirected; the nodes run
    [par_run_session]. *)
From Coq Require Import List NArith Bool Arith Lia Permutation.
From Verif Require Import Base BMap Errors RoundId Message Protocol Transcript Evidence Session Spec SpecCrypto
  MessageFacts SessionFacts RunFacts Network SpecNet NetFacts RunSync RunSyncFacts Driver SpecDriver DriverFacts Par SpecPar ParFacts Async SpecAsync AsyncFacts
  Offload SpecOffload.
Import ListNotations.
Set Implicit Arguments.

Section WithParams.
  Context {P : Params}.
  Context {Pr : Proto}.
  Variable r : NetRng.
  Variable cap : nat.

  Lemma par_labels (p : Par Pr) act ls p' : par_step r p act = Some (ls, p') ->
    match act with AReceive from m => ls = [LIn from m] | _ => forall l, In l ls -> takes l = false end.
  Proof.
    destruct p as [x|o]; [|discriminate]. cbn [par_step].
    destruct act as [i|i| |sent| |from m| | |].
    - destruct (nth_error (pp_c x) i) as [[dest|dest m pa|o]|]; try discriminate; [|destruct (Nat.ltb _ _); [|discriminate]]; intros E; apply stp_inj in E as [-> _]; intros lb [].
    - destruct (nth_error (pp_p x) i) as [[dest|pm|o]|]; try discriminate; [|destruct (Nat.ltb _ _); [|discriminate]]; intros E; apply stp_inj in E as [-> _]; intros lb [].
    - destruct (pp_hand x); [discriminate|]. destruct (pp_out x); [discriminate|]. destruct (looks x); [|discriminate]. intros E; apply stp_inj in E as [-> _]; intros lb [].
    - destruct (pp_hand x); [|discriminate]. unfold put_out. destruct (pp_out x) as [|[[dest m] pa] out]; [discriminate|].
      destruct sent; intros E; apply stp_inj in E as [-> _]; intros lb [<-|[]]; reflexivity.
    - destruct (pp_hand x); [discriminate|]. destruct (pp_phase x); try discriminate. destruct (can_finalize (pp_a x)); try discriminate. destruct (pp_proc x); [discriminate|].
      intros E; apply stp_inj in E as [-> _]; intros lb [<-|[]]; reflexivity.
    - destruct (pp_hand x); [discriminate|]. destruct (pp_phase x); try discriminate. destruct (can_finalize (pp_a x)); try discriminate.
      intros E; apply stp_inj in E as [-> _]; reflexivity.
    - destruct (pp_hand x); [discriminate|]. destruct (pp_phase x); try discriminate. destruct (can_finalize (pp_a x)); try discriminate.
      intros E; apply stp_inj in E as [-> _]; intros lb [<-|[]]; reflexivity.
    - destruct (pp_hand x); [discriminate|]. destruct (pp_phase x); try discriminate. destruct (can_finalize (pp_a x)); try discriminate.
      intros E; apply stp_inj in E as [-> _]; intros lb [<-|[]]; reflexivity.
    - destruct (pp_hand x); [discriminate|]. destruct (pp_phase x) as [|b|b|b].
      + destruct (can_finalize (pp_a x)); try discriminate; intros E; apply stp_inj in E as [-> _]; intros lb [].
      + destruct (pp_c x) as [|[| |]]; try discriminate; intros E; apply stp_inj in E as [-> _]; intros lb [].
      + destruct (pp_p x) as [|[| |]]; try discriminate; intros E; apply stp_inj in E as [-> _]; intros lb [].
      + destruct (pp_out x); [|discriminate]. destruct b.
        * destruct (finalize_round _ _ _) as [[rep|s' c]|e|]; intros E; apply stp_inj in E as [-> _]; intros lb [<-|Hl]; try reflexivity; simpl in Hl; try contradiction; destruct Hl as [<-|[]]; reflexivity.
        * intros E; apply stp_inj in E as [-> _]; intros lb [<-|[]]; reflexivity.
  Qed.

  (** The state after node [v] did [ls] and is in state [p]. *)
  Definition after (a : ONet Pr) (v : Verifier) (ls : list (dlabel Pr)) (p : Par Pr) : ONet Pr :=
    mkONet (insert v p (on_nodes a)) (on_out a ++ flat_map (out_of v) ls) (on_disp a)
      (match get v (on_in a) with Some q => if existsb takes ls then insert v (tl q) (on_in a) else on_in a | None => on_in a end).

  Lemma oact_cases (a : ONet Pr) x ls a' : oact r cap a x = Some (ls, a') ->
    (exists i, x = ODisp i /\ ls = [] /\ disp_step cap (seen a) i = Some (seen a') /\ on_nodes a' = on_nodes a) \/
    (exists v act p ls0 p', node_action cap a x = Some (v, act) /\ get v (on_nodes a) = Some p /\ par_step r p act = Some (ls0, p') /\
       ls = map (pair v) ls0 /\ a' = after a v ls0 p').
  Proof.
    assert (K : match node_action cap a x with
                | None => None
                | Some (v, act) => match get v (on_nodes a) with None => None | Some p =>
                    match par_step r p act with None => None | Some (ls, p') => Some (map (pair v) ls, after a v ls p') end end end = Some (ls, a') ->
      exists v act p ls0 p', node_action cap a x = Some (v, act) /\ get v (on_nodes a) = Some p /\ par_step r p act = Some (ls0, p') /\
       ls = map (pair v) ls0 /\ a' = after a v ls0 p').
    { destruct (node_action cap a x) as [[v act]|]; [|discriminate]. destruct (get v (on_nodes a)) as [p|] eqn:Ev; [|discriminate].
      destruct (par_step r p act) as [[ls0 p']|] eqn:Es; [|discriminate]. intros E. apply stp_inj in E as [-> ->]. exists v, act, p, ls0, p'. auto. }
    destruct x as [v act|v|v|i]; intros E; [right; apply K; exact E..|]. left. exists i. cbn [oact] in E.
    destruct (disp_step cap (seen a) i) as [b|] eqn:Eb; [|discriminate]. apply stp_inj in E as [-> ->]. repeat split; auto.
    pose proof (@disp_nodes _ _ cap _ i _ Eb) as En. unfold seen. cbn [on_nodes on_out on_disp on_in]. change (map_values seen_node (on_nodes a)) with (an_nodes (seen a)).
    rewrite <- En. now destruct b.
  Qed.
  Lemma seen_get (a : ONet Pr) v : get v (an_nodes (seen a)) = option_map (@seen_node P Pr) (get v (on_nodes a)).
  Proof. apply get_map_values. Qed.
  Lemma action_takes (a : ONet Pr) x v act (p : Par Pr) ls p' : node_action cap a x = Some (v, act) -> par_step r p act = Some (ls, p') ->
    (forall l, In l ls -> takes l = false) \/ (exists from m q, ls = [LIn from m] /\ get v (on_in a) = Some ((from, m) :: q)).
  Proof.
    intros Ha Hs. pose proof (par_labels _ _ Hs) as Hl. destruct act as [i|i| |sent| |from m| | |]; auto. right.
    destruct x as [w y|w|w|i]; cbn [node_action] in Ha.
    - destruct y; cbn [by_itself] in Ha; try discriminate.
    - destruct (disp_done _); [discriminate|]. destruct (Nat.ltb _ _); discriminate.
    - destruct (get w (on_in a)) as [[|[f m'] q]|] eqn:Eq; try (destruct (disp_done _); discriminate).
      assert (w = v /\ f = from /\ m' = m) as (-> & -> & ->) by (repeat split; congruence). exists from, m, q. auto.
    - discriminate.
  Qed.

  Lemma after_wf ks (a : ONet Pr) v ls p p' : awf ks (seen a) -> get v (on_nodes a) = Some p -> awf ks (seen (after a v ls p')).
  Proof.
    intros [H1 H2 H3] Hv. constructor; auto.
    - intros w. rewrite seen_get. cbn [after on_nodes]. rewrite get_insert. specialize (H2 w). rewrite seen_get in H2.
      destruct (eqb_spec w v) as [->|]; [|exact H2]. rewrite Hv in H2. cbn [option_map] in *. split; [intros _; apply H2; discriminate|discriminate].
    - intros w. cbn [seen after an_in on_in]. specialize (H3 w). cbn [seen an_in] in H3. destruct (get v (on_in a)) as [q|] eqn:Eq; [|apply H3].
      destruct (existsb takes ls); [|apply H3]. rewrite get_insert. destruct (eqb_spec w v) as [->|]; [|apply H3]. split; [|discriminate]. intros _. apply H3. congruence.
  Qed.
  Lemma oact_wf ks (a : ONet Pr) x ls a' : awf ks (seen a) -> oact r cap a x = Some (ls, a') -> awf ks (seen a').
  Proof.
    intros W E. destruct (oact_cases _ _ E) as [(i & _ & _ & Ed & _)|(v & act & p & ls0 & p' & _ & Hv & _ & _ & ->)].
    - exact (@disp_wf _ _ cap ks _ i _ W Ed).
    - exact (after_wf _ ls0 p' W Hv).
  Qed.
  Lemma oact_conserves ks (a : ONet Pr) x ls a' : awf ks (seen a) -> oact r cap a x = Some (ls, a') ->
    exists lost, Permutation (waiting ks (seen a) ++ sent_in ls) (taken_in ls ++ waiting ks (seen a') ++ lost) /\ (failed (on_disp a') \/ lost = []).
  Proof.
    intros W E. destruct (oact_cases _ _ E) as [(i & _ & -> & Ed & _)|(v & act & p & ls0 & p' & Ha & Hv & Hs & -> & ->)].
    - cbn [sent_in taken_in flat_map app]. rewrite app_nil_r. exact (@disp_conserves _ _ cap ks _ i _ W Ed).
    - exists []. split; auto. rewrite app_nil_r. exact (@node_conserves P Pr ks (seen a) v ls0 _ W (@action_takes a x v act p ls0 p' Ha Hs)).
  Qed.
  Lemma ofailed_stays (a : ONet Pr) x ls a' : oact r cap a x = Some (ls, a') -> failed (on_disp a) -> failed (on_disp a').
  Proof.
    intros E F. destruct (oact_cases _ _ E) as [(i & _ & -> & Ed & _)|(v & act & p & ls0 & p' & Ha & Hv & Hs & -> & ->)]; [|exact F].
    unfold disp_step in Ed. cbn [seen an_disp] in Ed. destruct (on_disp a); try contradiction. discriminate.
  Qed.
  Lemma osched_wf ks (a : ONet Pr) tr a' : awf ks (seen a) -> oschedule r cap a tr a' -> awf ks (seen a').
  Proof. intros W H. induction H as [|a tr a1 x ls a2 H IH Hx]; auto. exact (oact_wf x (IH W) Hx). Qed.
  Lemma osched_conserves ks (a : ONet Pr) tr a' : awf ks (seen a) -> oschedule r cap a tr a' ->
    exists lost, Permutation (waiting ks (seen a) ++ sent_in tr) (taken_in tr ++ waiting ks (seen a') ++ lost) /\ (failed (on_disp a') \/ lost = []).
  Proof.
    intros W H. induction H as [a|a tr a1 x ls a2 H IH Hx].
    - exists []. cbn [sent_in taken_in flat_map app]. rewrite !app_nil_r. split; auto.
    - destruct (IH W) as (lost & Hp & Hf). destruct (oact_conserves x (osched_wf W H) Hx) as (lost' & Hp' & Hf').
      exists (lost' ++ lost). split.
      + rewrite sent_app, taken_app, app_assoc, Hp. rewrite <- !app_assoc. apply Permutation_app_head.
        rewrite (Permutation_app_comm lost (sent_in ls)), app_assoc, Hp'. rewrite <- !app_assoc. reflexivity.
      + destruct Hf' as [Hf'| ->]; auto. destruct Hf as [Hf| ->]; [left; eapply ofailed_stays; eauto|right; reflexivity].
  Qed.

  Lemma osched_nodes (a : ONet Pr) tr a' : oschedule r cap a tr a' -> forall v p, get v (on_nodes a) = Some p ->
    exists p', get v (on_nodes a') = Some p' /\ par_run r p (doings v tr) p'.
  Proof.
    intros H. induction H as [a|a tr a1 x ls a2 H IH Hx]; intros v p Hv; [exists p; split; auto; constructor|].
    destruct (IH v p Hv) as (p1 & H1 & R1). rewrite doings_app.
    destruct (oact_cases _ _ Hx) as [(i & _ & -> & _ & En)|(w & act & q & ls0 & q' & Ha & Hw & Hs & -> & ->)].
    - exists p1. rewrite En. cbn [doings filter map]. rewrite app_nil_r. auto.
    - rewrite doings_pair. cbn [after on_nodes]. destruct (eqb_spec w v) as [->|Hn].
      + rewrite get_insert_eq. exists q'. split; auto. assert (q = p1) by congruence. subst q. econstructor; eauto.
      + rewrite get_insert_ne by congruence. exists p1. rewrite app_nil_r. auto.
  Qed.

  (** ** The start *)
  Lemma onet_start_seen sid (ps : list (Signer * EntryPoint Pr)) a : onet_start r sid ps = Ok a -> exists b, anet_start r sid ps = Ok b /\
    on_out a = an_out b /\ on_disp a = an_disp b /\ on_in a = an_in b /\
    exists l, map_res (fun p => let* s := session_new (nr_new r (signer_key (fst p))) sid (fst p) (snd p) in Ok (signer_key (fst p), s)) ps = Ok l /\
      on_nodes a = of_list (map (fun vs => (fst vs, PRun (par_enter (snd vs) []))) l) /\ an_nodes b = of_list (map (fun vs => (fst vs, drv_enter (snd vs) [])) l).
  Proof.
    unfold onet_start, anet_start. destruct (map_res _ ps) as [l|e|]; try discriminate. cbn [bind]. intros E. injection E as <-.
    eexists. split; [reflexivity|]. cbn [on_out an_out on_disp an_disp on_in an_in on_nodes an_nodes]. repeat split; auto. exists l. auto.
  Qed.
  Lemma get_sessions (l : list (Verifier * Session Pr)) {B} (f : Session Pr -> B) v : NoDup (map fst l) ->
    get v (of_list (map (fun vs => (fst vs, f (snd vs))) l)) = option_map f (get v (of_list l)).
  Proof.
    intros Hnd. assert (Ef : map fst (map (fun vs => (fst vs, f (snd vs))) l) = map fst l) by (rewrite map_map; reflexivity).
    destruct (get v (of_list l)) as [s|] eqn:E; cbn [option_map].
    - apply get_of_list_nodup; [now rewrite Ef|]. apply get_of_list_nodup in E; auto. apply in_map_iff. exists (v, s). auto.
    - apply get_of_list_none. rewrite Ef. now apply get_of_list_none.
  Qed.
  Lemma onet_start_ok sid (ps : list (Signer * EntryPoint Pr)) a : NoDup (map (fun p => signer_key (fst p)) ps) -> onet_start r sid ps = Ok a ->
    awf (map (fun p => signer_key (fst p)) ps) (seen a) /\ on_out a = [] /\ on_disp a = DispRecv /\ (forall v q, get v (on_in a) = Some q -> q = []) /\
    (forall v p, get v (on_nodes a) = Some p -> exists sk e s, In (sk, e) ps /\ signer_key sk = v /\ session_new (nr_new r v) sid sk e = Ok s /\ p = PRun (par_enter s [])).
  Proof.
    intros Hnd E. destruct (onet_start_seen _ _ E) as (b & Eb & H1 & H2 & H3 & l & El & Ha & Hb).
    destruct (@anet_start_ok _ _ r sid ps _ Hnd Eb) as (W & O1 & O2 & O3 & O4).
    assert (K : map fst l = map (fun p => signer_key (fst p)) ps /\
      forall v s, In (v, s) l -> exists sk e, In (sk, e) ps /\ signer_key sk = v /\ session_new (nr_new r v) sid sk e = Ok s).
    { clear - El. revert l El. induction ps as [|[k e] ps IH]; intros l El; cbn [map_res fst snd] in El; [inversion El; subst; split; [reflexivity|intros v s []]|].
      destruct (session_new _ _ _ _) as [s|er|] eqn:Es; try discriminate. cbn [bind] in El. destruct (map_res _ ps) as [l1|er|]; try discriminate. cbn [bind] in El.
      injection El as <-. destruct (IH l1 eq_refl) as [H1 H2]. split; [simpl; now rewrite H1|]. intros v s' [E|Hin].
      - apply (f_equal fst) in E as E1. apply (f_equal snd) in E. cbn [fst snd] in *. subst v s'. exists k, e. split; [now left|]. auto.
      - destruct (H2 v s' Hin) as (k' & e' & Hk & H3). exists k', e'. split; [now right|exact H3]. }
    destruct K as [K1 K2]. assert (Hl : NoDup (map fst l)) by now rewrite K1.
    split; [|split; [congruence|split; [congruence|split]]].
    - destruct W as [W1 W2 W3]. constructor; [exact W1| |].
      + intros v. pose proof (get_sessions l (fun s => PRun (par_enter s [])) v Hl) as G1. pose proof (get_sessions l (fun s => drv_enter s []) v Hl) as G2.
        cbv beta in G1, G2. rewrite seen_get, Ha, <- (W2 v), Hb, G1, G2. destruct (get v (of_list l)); cbn; split; congruence.
      + intros v. cbn [seen an_in]. rewrite H3. apply W3.
    - intros v q. rewrite H3. apply O3.
    - intros v p Hv. rewrite Ha in Hv. apply get_of_list_nodup in Hv; [|rewrite map_map; exact Hl]. apply in_map_iff in Hv as ([w s] & E' & Hin). cbn [fst snd] in E'.
      apply (f_equal fst) in E' as E1. apply (f_equal snd) in E'. cbn [fst snd] in *. subst w p. destruct (K2 v s Hin) as (k & e & J1 & J2 & J3). exists k, e, s. auto.
  Qed.
  Lemma ostart_session sid (ps : list (Signer * EntryPoint Pr)) (a0 : ONet Pr) : NoDup (map (fun p => signer_key (fst p)) ps) -> onet_start r sid ps = Ok a0 ->
    forall sk e, In (sk, e) ps -> exists s, session_new (nr_new r (signer_key sk)) sid sk e = Ok s /\ get (signer_key sk) (on_nodes a0) = Some (PRun (par_enter s [])).
  Proof.
    intros Hnd H0 sk e Hin. destruct (onet_start_ok sid ps Hnd H0) as (W & _ & _ & _ & Hs).
    destruct (get (signer_key sk) (on_nodes a0)) as [d|] eqn:Ed.
    - destruct (Hs _ _ Ed) as (sk' & e' & s & Hin' & Hk & Hs' & ->). exists s. split; [|reflexivity].
      assert (E : (sk', e') = (sk, e)); [|inversion E; subst; exact Hs'].
      clear - Hnd Hin Hin' Hk. induction ps as [|p ps IH]; [destruct Hin|]. cbn [map] in Hnd. apply NoDup_cons_iff in Hnd as [Hn Hnd].
      destruct Hin as [->|Hin], Hin' as [Hx|Hin']; auto.
      + exfalso. apply Hn. apply in_map_iff. exists (sk', e'). split; auto.
      + exfalso. subst p. apply Hn. apply in_map_iff. exists (sk, e). split; auto.
    - exfalso. apply (proj2 (aw_node W (signer_key sk))); [|rewrite seen_get, Ed; reflexivity]. apply in_map_iff. exists (sk, e). auto.
  Qed.

  (** Once the dispatcher has returned without an error, all is done. *)
  Definition closed_ok (a : ONet Pr) : Prop := forall x, on_disp a = DispEnd (Ok x) -> on_out a = [] /\ forall v p, get v (on_nodes a) = Some p -> exists o, p = PStop o.
  Lemma disp_closes (b : ANet Pr) i b' x : disp_step cap b i = Some b' -> an_disp b' = DispEnd (Ok x) -> an_out b' = [] /\ all_done (an_nodes b) = true.
  Proof.
    intros E1 Hx. unfold disp_step in E1. destruct (an_disp b) as [|ms|[|y ms]|ms o|ms|o]; try discriminate.
    - destruct (an_out b); [destruct (all_done (an_nodes b)) eqn:Had; [|discriminate]|]; apply some_inj in E1; subst b'; try discriminate Hx. auto.
    - destruct (an_out b); apply some_inj in E1; subst b'; discriminate Hx.
    - apply some_inj in E1; subst b'; discriminate Hx.
    - destruct (swap_remove i (y :: ms)) as [[o ms']|]; [|discriminate]. apply some_inj in E1; subst b'; discriminate Hx.
    - destruct (get (mo_to o) (an_in b)) as [q|]; [destruct (get (mo_to o) (an_nodes b)) as [[| | |]|]; try (destruct (Nat.ltb (length q) cap); [|discriminate])|];
        apply some_inj in E1; subst b'; discriminate Hx.
    - destruct (an_out b); apply some_inj in E1; subst b'; discriminate Hx.
  Qed.
  Lemma oact_closed (a : ONet Pr) x ls a' : closed_ok a -> oact r cap a x = Some (ls, a') -> closed_ok a'.
  Proof.
    intros C E y Hy. destruct (oact_cases _ _ E) as [(i & _ & -> & Ed & En)|(v & act & p & ls0 & p' & Ha & Hv & Hs & -> & ->)].
    - destruct (disp_closes _ _ Ed Hy) as [H1 H2]. split; [exact H1|]. rewrite En. intros v p Hv. unfold all_done in H2. rewrite forallb_forall in H2.
      assert (Hin : In (v, seen_node p) (to_list (an_nodes (seen a)))) by (apply in_to_list; rewrite seen_get, Hv; reflexivity).
      specialize (H2 _ Hin). cbn [snd] in H2. destruct p as [x0|o]; [discriminate|eauto].
    - exfalso. destruct (C y Hy) as [_ Hall]. destruct (Hall _ _ Hv) as [o ->]. discriminate Hs.
  Qed.
  Lemma osched_closed (a : ONet Pr) tr a' : closed_ok a -> oschedule r cap a tr a' -> closed_ok a'.
  Proof. intros C H. induction H as [|a tr a1 x ls a2 H IH Hx]; auto. exact (oact_closed x (IH C) Hx). Qed.

  Theorem offload_faithful sid (ps : list (Signer * EntryPoint Pr)) (a0 : ONet Pr) tr a : NoDup (map (fun p => signer_key (fst p)) ps) ->
    onet_start r sid ps = Ok a0 -> oschedule r cap a0 tr a ->
    (forall sk e, In (sk, e) ps -> exists s p, session_new (nr_new r (signer_key sk)) sid sk e = Ok s /\
       get (signer_key sk) (on_nodes a) = Some p /\ par_session r s (LEnter s :: doings (signer_key sk) tr) p) /\
    (exists rest, Permutation (sent_in tr) (taken_in tr ++ rest)) /\
    (forall reports, offload_returns a = Some (Ok reports) ->
       Permutation (sent_in tr) (taken_in tr ++ left_over a) /\
       (forall v rep, get v reports = Some rep <-> get v (on_nodes a) = Some (PStop (Ok rep))) /\
       (forall sk e, In (sk, e) ps -> exists rep, get (signer_key sk) reports = Some rep)).
  Proof.
    intros Hnd H0 H. destruct (onet_start_ok sid ps Hnd H0) as (W & Ho & Hd & Hq & Hs).
    assert (K1 : forall sk e, In (sk, e) ps -> exists s p, session_new (nr_new r (signer_key sk)) sid sk e = Ok s /\
       get (signer_key sk) (on_nodes a) = Some p /\ par_session r s (LEnter s :: doings (signer_key sk) tr) p).
    { intros sk e Hin. destruct (@ostart_session sid ps a0 Hnd H0 _ _ Hin) as (s & Hs1 & Hs2). destruct (osched_nodes H _ Hs2) as (d & Hd1 & Hr).
      exists s, d. split; [exact Hs1|]. split; [exact Hd1|]. eexists. split; [reflexivity|exact Hr]. }
    destruct (osched_conserves W H) as (lost & Hp & Hl). rewrite (@waiting_start P Pr _ (seen a0) Ho Hd Hq) in Hp. cbn [app] in Hp.
    split; [exact K1|]. split; [eauto|].
    intros reports E. unfold offload_returns in E. destruct (returns_ok _ E) as [Hd1 Hr]. cbn [seen an_disp] in Hd1.
    assert (C0 : closed_ok a0) by (intros x Hx; congruence).
    destruct (osched_closed C0 H Hd1) as [Ho1 Hdone]. split; [|split].
    - destruct Hl as [F| ->]; [rewrite Hd1 in F; destruct F|]. rewrite app_nil_r in Hp. rewrite Hp. apply Permutation_app_head.
      change (left_over a) with (unread (seen a)). apply unread_waiting; [eapply osched_wf; eauto|exact Ho1|]. cbn [seen an_disp]. now rewrite Hd1.
    - intros v rep. specialize (Hr v). rewrite seen_get in Hr. destruct (get v (on_nodes a)) as [p|]; cbn [option_map] in Hr.
      + destruct Hr as (rep' & Ep & Hr). destruct p as [x|o]; [discriminate Ep|]. cbn [seen_node] in Ep. assert (o = Ok rep') as -> by congruence. rewrite Hr. split; congruence.
      + rewrite Hr. split; discriminate.
    - intros sk e Hin. destruct (K1 _ _ Hin) as (s & p & _ & Hpp & _). specialize (Hr (signer_key sk)). rewrite seen_get, Hpp in Hr. destruct Hr as (rep & _ & Hr). eauto.
  Qed.
End WithParams.
