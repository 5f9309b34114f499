(** dev/tokio.rs: the dispatcher neither invents, nor duplicates, nor redirects messages; the nodes run [run_session]. *)
From Coq Require Import List NArith Bool Arith Lia Permutation.
From Verif Require Import Base BMap Errors RoundId Message Protocol Transcript Evidence Session Spec SpecCrypto
  MessageFacts SessionFacts RunFacts Network SpecNet NetFacts RunSync RunSyncFacts Driver SpecDriver DriverFacts Async SpecAsync.
Import ListNotations.
Set Implicit Arguments.

Lemma flat_map_update {A B} (f g : A -> list B) (v : A) ks : NoDup ks -> In v ks -> (forall w, w <> v -> f w = g w) ->
  exists l, Permutation (flat_map f ks) (f v ++ l) /\ Permutation (flat_map g ks) (g v ++ l).
Proof.
  intros Hnd Hin Heq. apply in_split in Hin as (l1 & l2 & ->). exists (flat_map f l1 ++ flat_map f l2).
  assert (E : forall l, ~ In v l -> flat_map f l = flat_map g l).
  { induction l as [|w l IH]; intros H; [reflexivity|]. simpl. rewrite (Heq w), IH; auto; intros Hx; apply H; [right; exact Hx|left; congruence]. }
  apply NoDup_remove_2 in Hnd. rewrite !flat_map_app. cbn [flat_map].
  assert (H1 : ~ In v l1) by (intros H; apply Hnd, in_or_app; auto). assert (H2 : ~ In v l2) by (intros H; apply Hnd, in_or_app; auto).
  split.
  - rewrite !app_assoc. apply Permutation_app_tail, Permutation_app_comm.
  - rewrite (E l1 H1), (E l2 H2). rewrite !app_assoc. apply Permutation_app_tail, Permutation_app_comm.
Qed.

Lemma swap_remove_perm {A} i (l : list A) x l' : swap_remove i l = Some (x, l') -> Permutation l (x :: l').
Proof.
  unfold swap_remove. destruct (nth_error l i) as [y|] eqn:E; [|discriminate]. intros H. apply some_inj in H.
  apply (f_equal fst) in H as H1. apply (f_equal snd) in H. cbn [fst snd] in *. subst y l'.
  destruct (rev l) as [|z fr] eqn:Er; [apply (f_equal (@rev A)) in Er; rewrite rev_involutive in Er; subst l; destruct i; discriminate|].
  apply (f_equal (@rev A)) in Er. rewrite rev_involutive in Er. cbn [rev] in Er. subst l. set (f := rev fr) in *.
  replace (length fr) with (length f) by apply rev_length.
  destruct (Nat.eqb_spec i (length f)) as [->|Hne].
  - rewrite nth_error_app2, Nat.sub_diag in E by lia. apply some_inj in E. subst x. symmetry. apply Permutation_cons_append.
  - assert (Hlt : i < length f).
    { assert (H : nth_error (f ++ [z]) i <> None) by congruence. apply nth_error_Some in H. rewrite app_length in H. simpl in H. lia. }
    rewrite nth_error_app1 in E by exact Hlt. apply nth_error_split in E as (l1 & l2 & -> & <-).
    assert (firstn (length l1) (l1 ++ x :: l2) = l1) as -> by (rewrite firstn_app, Nat.sub_diag, firstn_all; apply app_nil_r).
    assert (skipn (S (length l1)) (l1 ++ x :: l2) = l2) as ->.
    { rewrite skipn_app. rewrite skipn_all2 by lia. replace (S (length l1) - length l1) with 1 by lia. reflexivity. }
    rewrite <- app_assoc. cbn [app]. symmetry. apply Permutation_cons_app. apply Permutation_app_head, Permutation_cons_append.
Qed.

Section WithParams.
  Context {P : Params}.
  Context {Pr : Proto}.
  Variable r : NetRng.
  Variable cap : nat.

  (** The messages on the way. *)
  Definition disp_msgs (p : Disp) : list MsgOut :=
    match p with
    | DispRecv => []
    | DispDrain ms | DispPick ms | DispPoll ms => ms
    | DispSend ms o => o :: ms
    | DispEnd _ => []
    end.
  Definition in_msgs (a : ANet Pr) (v : Verifier) : list MsgOut :=
    match get v (an_in a) with Some q => map (fun p => mkOut (fst p) v (snd p)) q | None => [] end.
  Definition waiting (ks : list Verifier) (a : ANet Pr) : list MsgOut := an_out a ++ disp_msgs (an_disp a) ++ flat_map (in_msgs a) ks.
  Definition failed (p : Disp) : Prop := match p with DispEnd (Ok _) => False | DispEnd _ => True | _ => False end.

  (** Every node has a channel. *)
  Record awf (ks : list Verifier) (a : ANet Pr) : Prop := {
    aw_nd : NoDup ks;
    aw_node : forall v, get v (an_nodes a) <> None <-> In v ks;
    aw_in : forall v, get v (an_in a) <> None <-> In v ks
  }.

  Lemma step_labels (d : Drv Pr) i ls d' : drv_step r d i = Some (ls, d') ->
    match i with IRecv from m => ls = [LIn from m] | _ => forall l, In l ls -> takes l = false end.
  Proof.
    destruct d as [s a dest dests c|s a vm c|s a|o]; cbn [drv_step]; intros E; [| | |discriminate].
    - destruct i; try discriminate.
      + destruct (make_message _ _ _) as [[m pa]|e|]; apply some_inj in E; apply (f_equal fst) in E; cbn [fst] in E; subst ls; intros l [<-|[]]; reflexivity.
      + apply some_inj in E; apply (f_equal fst) in E; cbn [fst] in E; subst ls. intros l [<-|[]]; reflexivity.
    - destruct i; try discriminate. apply some_inj in E; apply (f_equal fst) in E; cbn [fst] in E; subst ls. intros l [<-|[]]; reflexivity.
    - destruct (can_finalize a); destruct i; try discriminate.
      + destruct (finalize_round _ _ _) as [[rep|s' c]|e|]; apply some_inj in E; apply (f_equal fst) in E; cbn [fst] in E; subst ls;
          intros l [<-|H]; try reflexivity; simpl in H; try contradiction; destruct H as [<-|[]]; reflexivity.
      + apply some_inj in E; apply (f_equal fst) in E; cbn [fst] in E; now subst ls.
      + apply some_inj in E; apply (f_equal fst) in E; cbn [fst] in E; subst ls. intros l [<-|[]]; reflexivity.
      + apply some_inj in E; apply (f_equal fst) in E; cbn [fst] in E; subst ls. intros l [<-|[<-|[]]]; reflexivity.
      + apply some_inj in E; apply (f_equal fst) in E; cbn [fst] in E; subst ls. intros l [<-|[]]; reflexivity.
  Qed.

  Lemma sent_pair v ls : sent_in (map (pair v) ls) = flat_map (@out_of P Pr v) ls.
  Proof. unfold sent_in. induction ls as [|l ls IH]; [reflexivity|]. cbn [map flat_map fst snd]. rewrite IH. reflexivity. Qed.
  Lemma taken_none v (ls : list (dlabel Pr)) : (forall l, In l ls -> takes l = false) -> taken_in (map (pair v) ls) = [] /\ existsb (@takes P Pr) ls = false.
  Proof.
    intros H. split.
    - unfold taken_in. induction ls as [|l ls IH]; [reflexivity|]. cbn [map flat_map fst snd]. rewrite IH by (intros; apply H; now right).
      specialize (H l (or_introl eq_refl)). destruct l; try reflexivity. discriminate.
    - apply not_true_iff_false. intros Hx. apply existsb_exists in Hx as (l & Hl & Ht). rewrite (H l Hl) in Ht. discriminate.
  Qed.
  Lemma sent_app t1 t2 : sent_in (t1 ++ t2) = sent_in (Pr := Pr) t1 ++ sent_in t2.
  Proof. apply flat_map_app. Qed.
  Lemma taken_app t1 t2 : taken_in (t1 ++ t2) = taken_in (Pr := Pr) t1 ++ taken_in t2.
  Proof. apply flat_map_app. Qed.

  Lemma disp_wf ks a i a' : awf ks a -> disp_step cap a i = Some a' -> awf ks a'.
  Proof.
    intros [H1 H2 H3] E. unfold disp_step in E.
    destruct (an_disp a) as [|ms|[|x ms]|ms o|ms|o]; try discriminate.
    - destruct (an_out a); [destruct (all_done _); [|discriminate]|]; apply some_inj in E; subst a'; constructor; auto.
    - destruct (an_out a); apply some_inj in E; subst a'; constructor; auto.
    - apply some_inj in E; subst a'; constructor; auto.
    - destruct (swap_remove i (x :: ms)) as [[o ms']|]; [|discriminate]. apply some_inj in E; subst a'; constructor; auto.
    - destruct (get (mo_to o) (an_in a)) as [q|] eqn:Eq; [|apply some_inj in E; subst a'; constructor; auto].
      assert (K : Nat.ltb (length q) cap = true -> awf ks (mkANet (an_nodes a) (an_out a) (DispPoll ms) (insert (mo_to o) (q ++ [(mo_from o, mo_message o)]) (an_in a)))).
      { intros _. constructor; auto. intros v. cbn [an_in]. rewrite get_insert. destruct (eqb_spec v (mo_to o)) as [->|]; [|apply H3].
        split; intros _; [|discriminate]. apply H3. congruence. }
      destruct (get (mo_to o) (an_nodes a)) as [[| | |]|]; try (apply some_inj in E; subst a'; constructor; now auto);
        (destruct (Nat.ltb (length q) cap); [|discriminate]; apply some_inj in E; subst a'; apply K; reflexivity).
    - destruct (an_out a); apply some_inj in E; subst a'; constructor; auto.
  Qed.
  Lemma act_wf ks a x ls a' : awf ks a -> aact r cap a x = Some (ls, a') -> awf ks a'.
  Proof.
    intros H. destruct x as [v|i]; cbn [aact].
    - destruct (get v (an_nodes a)) as [d|] eqn:Ed; [|discriminate]. destruct (node_input cap a v d) as [i|]; [|discriminate].
      destruct (drv_step r d i) as [[ls0 d']|]; [|discriminate]. intros E. apply stp_inj in E as [_ ->]. destruct H as [H1 H2 H3]. constructor; auto.
      + intros w. cbn [an_nodes]. rewrite get_insert. destruct (eqb_spec w v) as [->|]; [|apply H2]. split; [|discriminate]. intros _. apply H2. congruence.
      + intros w. cbn [an_in]. destruct (get v (an_in a)) as [q|] eqn:Eq; [|apply H3]. destruct (existsb takes ls0); [|apply H3].
        rewrite get_insert. destruct (eqb_spec w v) as [->|]; [|apply H3]. split; [|discriminate]. intros _. apply H3. congruence.
    - destruct (disp_step cap a i) as [a1|] eqn:E1; [|discriminate]. intros E. apply stp_inj in E as [_ ->]. eapply disp_wf; eauto.
  Qed.

  Lemma disp_conserves ks a i a' : awf ks a -> disp_step cap a i = Some a' ->
    exists lost, Permutation (waiting ks a) (waiting ks a' ++ lost) /\ (failed (an_disp a') \/ lost = []).
  Proof.
    intros W E. unfold disp_step in E.
    destruct (an_disp a) as [|ms|[|x ms]|ms o|ms|o] eqn:Ed; try discriminate.
    - destruct (an_out a) as [|x out] eqn:Eo; [destruct (all_done _); [|discriminate]|]; apply some_inj in E; subst a'; exists []; rewrite app_nil_r; split; auto;
        unfold waiting; cbn [an_out an_disp disp_msgs an_in]; rewrite Eo, Ed; cbn [disp_msgs app].
      + reflexivity.
      + apply Permutation_cons_app. reflexivity.
    - destruct (an_out a) as [|x out] eqn:Eo; apply some_inj in E; subst a'; exists []; rewrite app_nil_r; split; auto;
        unfold waiting; cbn [an_out an_disp disp_msgs an_in]; rewrite Eo, Ed; cbn [disp_msgs app]; [reflexivity|].
      rewrite <- app_assoc. cbn [app]. rewrite !app_assoc. rewrite <- app_assoc. apply Permutation_cons_app. rewrite <- app_assoc. reflexivity.
    - apply some_inj in E; subst a'; exists []; rewrite app_nil_r; split; auto. unfold waiting; cbn [an_out an_disp disp_msgs an_in]; rewrite Ed. reflexivity.
    - destruct (swap_remove i (x :: ms)) as [[o ms']|] eqn:Es; [|discriminate]. apply some_inj in E; subst a'; exists []; rewrite app_nil_r; split; auto.
      unfold waiting; cbn [an_out an_disp disp_msgs an_in]; rewrite Ed. cbn [disp_msgs]. apply Permutation_app_head, Permutation_app_tail. eapply swap_remove_perm; eauto.
    - assert (Kerr : Permutation (waiting ks a) (waiting ks (mkANet (an_nodes a) (an_out a) (DispEnd (Err LE_Channel)) (an_in a)) ++ o :: ms)).
      { unfold waiting; cbn [an_out an_disp disp_msgs an_in]; rewrite Ed. cbn [disp_msgs app]. rewrite <- app_assoc. apply Permutation_app_head.
        change (o :: ms ++ flat_map (in_msgs a) ks) with ((o :: ms) ++ flat_map (in_msgs a) ks). apply Permutation_app_comm. }
      destruct (get (mo_to o) (an_in a)) as [q|] eqn:Eq; [|apply some_inj in E; subst a'; exists (o :: ms); split; [exact Kerr|left; exact I]].
      assert (Kok : Nat.ltb (length q) cap = true -> Permutation (waiting ks a) (waiting ks (mkANet (an_nodes a) (an_out a) (DispPoll ms) (insert (mo_to o) (q ++ [(mo_from o, mo_message o)]) (an_in a))))).
      { intros _. unfold waiting; cbn [an_out an_disp disp_msgs]; rewrite Ed. cbn [disp_msgs]. apply Permutation_app_head.
        set (a1 := mkANet (an_nodes a) (an_out a) (DispPoll ms) (insert (mo_to o) (q ++ [(mo_from o, mo_message o)]) (an_in a))).
        destruct (@flat_map_update _ _ (in_msgs a) (in_msgs a1) (mo_to o) ks) as (l & L1 & L2).
        - apply W.
        - apply (aw_in W). congruence.
        - intros w Hw. unfold in_msgs, a1. cbn [an_in]. now rewrite get_insert_ne.
        - rewrite L1, L2. unfold in_msgs, a1. cbn [an_in]. rewrite Eq, get_insert_eq, map_app. cbn [map fst snd]. destruct o as [f t m]. cbn [mo_from mo_to mo_message].
          rewrite <- !app_assoc. cbn [app]. rewrite !app_assoc. change (mkOut f t m :: ms) with ([mkOut f t m] ++ ms).
          etransitivity; [|apply Permutation_cons_app; reflexivity]. cbn [app]. rewrite <- !app_assoc. reflexivity. }
      destruct (get (mo_to o) (an_nodes a)) as [[| | |]|] eqn:En;
        try (apply some_inj in E; subst a'; exists (o :: ms); split; [exact Kerr|left; exact I]);
        (destruct (Nat.ltb (length q) cap); [|discriminate]; apply some_inj in E; subst a'; exists []; rewrite app_nil_r; split; [apply Kok; reflexivity|right; reflexivity]).
    - destruct (an_out a) as [|x out] eqn:Eo; apply some_inj in E; subst a'; exists []; rewrite app_nil_r; split; auto;
        unfold waiting; cbn [an_out an_disp disp_msgs an_in]; rewrite Eo, Ed; cbn [disp_msgs app]; [reflexivity|].
      rewrite <- app_assoc. cbn [app]. rewrite !app_assoc. rewrite <- app_assoc. apply Permutation_cons_app. rewrite <- app_assoc. reflexivity.
  Qed.

  (** A node does [ls] and then it is in another state. *)
  Lemma node_conserves ks (a : ANet Pr) v (ls0 : list (dlabel Pr)) nodes' : awf ks a ->
    (forall l, In l ls0 -> takes l = false) \/ (exists from m q, ls0 = [LIn from m] /\ get v (an_in a) = Some ((from, m) :: q)) ->
    Permutation (waiting ks a ++ sent_in (map (pair v) ls0))
      (taken_in (map (pair v) ls0) ++ waiting ks (mkANet nodes' (an_out a ++ flat_map (out_of v) ls0) (an_disp a)
        (match get v (an_in a) with Some q => if existsb takes ls0 then insert v (tl q) (an_in a) else an_in a | None => an_in a end))).
  Proof.
    intros W Hl. rewrite sent_pair. destruct Hl as [H|(from & m & q & -> & Hq)].
    - destruct (taken_none v _ H) as [-> ->]. cbn [app]. unfold waiting. cbn [an_out an_disp an_in].
      replace (match get v (an_in a) with Some _ => an_in a | None => an_in a end) with (an_in a) by (destruct (get v (an_in a)); reflexivity).
      unfold in_msgs. cbn [an_in]. rewrite <- !app_assoc. apply Permutation_app_head. rewrite (app_assoc (flat_map (out_of v) ls0)).
      rewrite (app_assoc (disp_msgs (an_disp a))). rewrite <- (app_assoc (flat_map (out_of v) ls0)). apply Permutation_app_comm.
    - cbn [flat_map out_of map taken_in existsb takes orb fst snd app]. rewrite !app_nil_r. rewrite Hq. cbn [tl]. unfold waiting. cbn [an_out an_disp].
      set (a1 := mkANet nodes' (an_out a) (an_disp a) (insert v q (an_in a))).
      destruct (@flat_map_update _ _ (in_msgs a) (in_msgs a1) v ks) as (l & L1 & L2).
      + apply W.
      + apply (aw_in W). congruence.
      + intros w Hw. unfold in_msgs, a1. cbn [an_in]. now rewrite get_insert_ne.
      + rewrite L1, L2. unfold in_msgs, a1. cbn [an_in]. rewrite Hq, get_insert_eq. cbn [map fst snd app].
        rewrite !app_assoc. symmetry. apply Permutation_cons_app. now rewrite <- !app_assoc.
  Qed.

  (** A step of the network: what was on the way and what is sent is taken, on the way, or lost; and it is lost only if the
      dispatcher fails. *)
  Lemma act_conserves ks a x ls a' : awf ks a -> aact r cap a x = Some (ls, a') ->
    exists lost, Permutation (waiting ks a ++ sent_in ls) (taken_in ls ++ waiting ks a' ++ lost) /\ (failed (an_disp a') \/ lost = []).
  Proof.
    intros W. destruct x as [v|i]; cbn [aact].
    - destruct (get v (an_nodes a)) as [d|] eqn:Ed; [|discriminate]. destruct (node_input cap a v d) as [i|] eqn:Ei; [|discriminate].
      destruct (drv_step r d i) as [[ls0 d']|] eqn:Es; [|discriminate]. intros E. apply stp_inj in E as [-> ->]. exists []. rewrite app_nil_r. split; auto.
      apply (node_conserves _ _ W). pose proof (step_labels _ _ Es) as Hl. destruct i as [| |from m| |]; auto. right. exists from, m.
      unfold node_input in Ei. destruct d as [| |s ac|]; try (destruct (disp_done _); [discriminate|]; destruct (Nat.ltb _ _); discriminate); try discriminate.
      destruct (can_finalize ac); try discriminate. destruct (get v (an_in a)) as [[|[f1 m1] q]|]; try (destruct (disp_done _); discriminate).
      assert (f1 = from /\ m1 = m) as [-> ->] by (split; congruence). eauto.
    - destruct (disp_step cap a i) as [a1|] eqn:E1; [|discriminate]. intros E. apply stp_inj in E as [-> ->].
      cbn [sent_in taken_in flat_map app]. rewrite app_nil_r. eapply disp_conserves; eauto.
  Qed.

  Lemma failed_stays (a : ANet Pr) x ls a' : aact r cap a x = Some (ls, a') -> failed (an_disp a) -> failed (an_disp a').
  Proof.
    destruct x as [v|i]; cbn [aact].
    - destruct (get v (an_nodes a)) as [d|] eqn:Ed; [|discriminate]. destruct (node_input cap a v d) as [i|]; [|discriminate].
      destruct (drv_step r d i) as [[ls0 d']|]; [|discriminate]. intros E. apply stp_inj in E as [_ ->]. auto.
    - unfold disp_step. destruct (an_disp a) as [| | | | |o]; intros E H; simpl in H; try contradiction; discriminate.
  Qed.

  Lemma sched_wf ks a tr a' : awf ks a -> aschedule r cap a tr a' -> awf ks a'.
  Proof. intros W H. induction H as [|a tr a1 x ls a2 H IH Hx]; auto. exact (act_wf x (IH W) Hx). Qed.
  Lemma sched_conserves ks a tr a' : awf ks a -> aschedule r cap a tr a' ->
    exists lost, Permutation (waiting ks a ++ sent_in tr) (taken_in tr ++ waiting ks a' ++ lost) /\ (failed (an_disp a') \/ lost = []).
  Proof.
    intros W H. induction H as [a|a tr a1 x ls a2 H IH Hx].
    - exists []. cbn [sent_in taken_in flat_map app]. rewrite !app_nil_r. split; auto.
    - destruct (IH W) as (lost & Hp & Hf). destruct (act_conserves x (sched_wf W H) Hx) as (lost' & Hp' & Hf').
      exists (lost' ++ lost). split.
      + rewrite sent_app, taken_app, app_assoc, Hp. rewrite <- !app_assoc. apply Permutation_app_head.
        rewrite (Permutation_app_comm lost (sent_in ls)), app_assoc, Hp'. rewrite <- !app_assoc. reflexivity.
      + destruct Hf' as [Hf'| ->]; auto. destruct Hf as [Hf| ->]; [left; eapply failed_stays; eauto|right; reflexivity].
  Qed.

  (** ** The nodes *)
  Lemma doings_app v (t1 t2 : list (Verifier * dlabel Pr)) : doings v (t1 ++ t2) = doings v t1 ++ doings v t2.
  Proof. unfold doings. now rewrite filter_app, map_app. Qed.
  Lemma doings_pair v w (ls : list (dlabel Pr)) : doings v (map (pair w) ls) = if eqb w v then ls else [].
  Proof.
    unfold doings. destruct (eqb_spec w v) as [->|Hn]; induction ls as [|l ls IH]; cbn [map filter fst]; auto.
    - rewrite eqb_refl. cbn [map snd]. now rewrite IH.
    - destruct (eqb_spec w v) as [->|_]; [contradiction|]. exact IH.
  Qed.
  Lemma disp_nodes (a : ANet Pr) i a' : disp_step cap a i = Some a' -> an_nodes a' = an_nodes a.
  Proof.
    unfold disp_step. destruct (an_disp a) as [|ms|[|x ms]|ms o|ms|o]; try discriminate.
    - destruct (an_out a); [destruct (all_done _); [|discriminate]|]; intros E; apply some_inj in E; now subst a'.
    - destruct (an_out a); intros E; apply some_inj in E; now subst a'.
    - intros E; apply some_inj in E; now subst a'.
    - destruct (swap_remove i (x :: ms)) as [[o ms']|]; [|discriminate]. intros E; apply some_inj in E; now subst a'.
    - destruct (get (mo_to o) (an_in a)) as [q|]; [|intros E; apply some_inj in E; now subst a'].
      destruct (get (mo_to o) (an_nodes a)) as [[| | |]|]; try (intros E; apply some_inj in E; now subst a');
        (destruct (Nat.ltb (length q) cap); [|discriminate]; intros E; apply some_inj in E; now subst a').
    - destruct (an_out a); intros E; apply some_inj in E; now subst a'.
  Qed.
  Lemma sched_nodes (a : ANet Pr) tr a' : aschedule r cap a tr a' -> forall v d, get v (an_nodes a) = Some d ->
    exists d', get v (an_nodes a') = Some d' /\ drv_run r d (doings v tr) d'.
  Proof.
    intros H. induction H as [a|a tr a1 x ls a2 H IH Hx]; intros v d Hv; [exists d; split; auto; constructor|].
    destruct (IH v d Hv) as (d1 & H1 & R1). rewrite doings_app. destruct x as [w|i]; cbn [aact] in Hx.
    - destruct (get w (an_nodes a1)) as [dw|] eqn:Ew; [|discriminate]. destruct (node_input cap a1 w dw) as [i|]; [|discriminate].
      destruct (drv_step r dw i) as [[ls0 d']|] eqn:Es; [|discriminate]. apply stp_inj in Hx as [-> ->]. cbn [an_nodes]. rewrite doings_pair.
      destruct (eqb_spec w v) as [->|Hn].
      + rewrite get_insert_eq. exists d'. split; auto. assert (dw = d1) by congruence. subst dw. econstructor; eauto.
      + rewrite get_insert_ne by congruence. exists d1. rewrite app_nil_r. auto.
    - destruct (disp_step cap a1 i) as [a3|] eqn:E3; [|discriminate]. apply stp_inj in Hx as [-> ->]. rewrite (disp_nodes _ _ E3). exists d1.
      cbn [doings filter map]. rewrite app_nil_r. auto.
  Qed.

  (** ** The start *)
  Lemma anet_start_ok sid (ps : list (Signer * EntryPoint Pr)) a : NoDup (map (fun p => signer_key (fst p)) ps) -> anet_start r sid ps = Ok a ->
    awf (map (fun p => signer_key (fst p)) ps) a /\ an_out a = [] /\ an_disp a = DispRecv /\ (forall v q, get v (an_in a) = Some q -> q = []) /\
    (forall v d, get v (an_nodes a) = Some d -> exists sk e s, In (sk, e) ps /\ signer_key sk = v /\ session_new (nr_new r v) sid sk e = Ok s /\ d = drv_enter s []).
  Proof.
    intros Hnd E. unfold anet_start in E. destruct (map_res _ ps) as [l|e|] eqn:El; try discriminate. cbn [bind] in E. injection E as <-.
    assert (K : map fst l = map (fun p => signer_key (fst p)) ps /\
      forall v s, In (v, s) l -> exists sk e, In (sk, e) ps /\ signer_key sk = v /\ session_new (nr_new r v) sid sk e = Ok s).
    { clear Hnd. revert l El. induction ps as [|[k e] ps IH]; intros l El; cbn [map_res fst snd] in El; [inversion El; subst; split; [reflexivity|intros v s []]|].
      destruct (session_new _ _ _ _) as [s|er|] eqn:Es; try discriminate. cbn [bind] in El. destruct (map_res _ ps) as [l1|er|]; try discriminate. cbn [bind] in El.
      injection El as <-. destruct (IH l1 eq_refl) as [H1 H2]. split; [simpl; now rewrite H1|]. intros v s' [E|Hin].
      - apply (f_equal fst) in E as E1. apply (f_equal snd) in E. cbn [fst snd] in *. subst v s'. exists k, e. split; [now left|]. auto.
      - destruct (H2 v s' Hin) as (k' & e' & Hk & H3). exists k', e'. split; [now right|exact H3]. }
    destruct K as [K1 K2]. cbn [an_nodes an_out an_disp an_in].
    assert (Kf : forall B (f : Session Pr -> B), map fst (map (fun vs => (fst vs, f (snd vs))) l) = map fst l).
    { intros B f. rewrite map_map. apply map_ext. reflexivity. }
    assert (Kget : forall B (f : Session Pr -> B) v, get v (of_list (map (fun vs => (fst vs, f (snd vs))) l)) <> None <-> In v (map (fun p => signer_key (fst p)) ps)).
    { intros B f v. rewrite <- K1, <- (Kf B f). split.
      - intros H. destruct (in_dec ord_dec v (map fst (map (fun vs => (fst vs, f (snd vs))) l))) as [Hi|Hn]; auto. destruct H. now apply get_of_list_none.
      - intros Hi H. now apply get_of_list_none in H. }
    split; [constructor; [exact Hnd|apply (Kget _ (fun s => drv_enter s []))|apply (Kget _ (fun s => []))]|]. split; auto. split; auto. split.
    - intros v q H. apply get_of_list_nodup in H; [|rewrite (Kf _ (fun _ => [])), K1; exact Hnd]. apply in_map_iff in H as ([w s] & E & _). congruence.
    - intros v d H. apply get_of_list_nodup in H; [|rewrite (Kf _ (fun s => drv_enter s [])), K1; exact Hnd]. apply in_map_iff in H as ([w s] & E & Hin). cbn [fst snd] in E.
      apply (f_equal fst) in E as E1. apply (f_equal snd) in E. cbn [fst snd] in *. subst w d. destruct (K2 v s Hin) as (k & e & H1 & H2 & H3). exists k, e, s. auto.
  Qed.
  Lemma waiting_start ks a : an_out a = [] -> an_disp a = DispRecv -> (forall v q, get v (an_in a) = Some q -> q = []) -> waiting ks a = [].
  Proof.
    intros H1 H2 H3. unfold waiting. rewrite H1, H2. cbn [disp_msgs app]. induction ks as [|k ks IH]; auto. cbn [flat_map]. rewrite IH, app_nil_r.
    unfold in_msgs. destruct (get k (an_in a)) as [q|] eqn:E; auto. now rewrite (H3 k q E).
  Qed.

  (** ** What [run_async] returns *)
  Lemma await_ok (l : list (Verifier * Drv Pr)) : forall m reports, NoDup (map fst l) -> (forall v, In v (map fst l) -> get v m = None) -> await_nodes l m = Some (Ok reports) ->
    (forall v d, In (v, d) l -> exists rep, d = DrvDone (Ok rep) /\ get v reports = Some rep) /\
    (forall v, ~ In v (map fst l) -> get v reports = get v m).
  Proof.
    induction l as [|[v d] l IH]; intros m reports Hnd Hm E; cbn [await_nodes] in E; [inversion E; subst; split; [contradiction|auto]|].
    destruct d as [| | |[rep|e|]]; try discriminate. cbn [map fst] in Hnd. apply NoDup_cons_iff in Hnd as [Hni Hnd].
    destruct (IH (insert v rep m) reports Hnd) with (2 := E) as [H1 H2].
    - intros w Hw. rewrite get_insert_ne; [apply Hm; now right|]. intros ->. contradiction.
    - split.
      + intros w d [Ew|Hin]; [|auto]. apply (f_equal fst) in Ew as E1. apply (f_equal snd) in Ew. cbn [fst snd] in *. subst w d. exists rep. split; auto.
        rewrite (H2 v Hni). apply get_insert_eq.
      + intros w Hw. cbn [map fst In] in Hw. rewrite H2 by tauto. apply get_insert_ne. intros ->. apply Hw. now left.
  Qed.
  Lemma returns_ok (a : ANet Pr) reports : async_returns a = Some (Ok reports) ->
    an_disp a = DispEnd (Ok tt) /\ forall v, match get v (an_nodes a) with
      | Some d => exists rep, d = DrvDone (Ok rep) /\ get v reports = Some rep
      | None => get v reports = None
      end.
  Proof.
    unfold async_returns. destruct (await_nodes _ _) as [[reps|e|]|] eqn:E; try discriminate. destruct (an_disp a) as [| | | | |[[]|e|]]; try discriminate.
    intros H. injection H as <-. split; auto. destruct (await_ok _ _ (NoDup_keys (an_nodes a)) (fun v _ => get_empty v) E) as [H1 H2].
    intros v. destruct (get v (an_nodes a)) as [d|] eqn:Ev.
    - apply H1, in_to_list, Ev.
    - rewrite H2, get_empty; auto. intros Hin. apply in_map_iff in Hin as ([w d] & <- & Hin). apply in_to_list in Hin. cbn [fst] in Ev. congruence.
  Qed.

  Lemma await_err (l : list (Verifier * Drv Pr)) : forall m e, await_nodes l m = Some (Err e) ->
    exists v o, In (v, DrvDone o) l /\ (forall rep, o <> Ok rep).
  Proof.
    induction l as [|[v d] l IH]; intros m e E; cbn [await_nodes] in E; [discriminate|].
    destruct d as [| | |[rep|e'|]]; try discriminate.
    - destruct (IH _ _ E) as (w & o & Hin & Ho). exists w, o. split; [now right|exact Ho].
    - exists v, (Err e'). split; [now left|]. intros rep Hx; discriminate Hx.
    - exists v, Panic. split; [now left|]. intros rep Hx; discriminate Hx.
  Qed.
  Lemma returns_err (a : ANet Pr) e : async_returns a = Some (Err e) ->
    failed (an_disp a) \/ exists v o, get v (an_nodes a) = Some (DrvDone o) /\ (forall rep, o <> Ok rep).
  Proof.
    unfold async_returns. destruct (await_nodes _ _) as [[reps|e'|]|] eqn:E; try discriminate.
    - destruct (an_disp a) as [| | | | |[[]|e'|]]; try discriminate; intros _; left; exact I.
    - intros _. right. destruct (await_err _ _ E) as (v & o & Hin & Ho). exists v, o. split; [now apply in_to_list|exact Ho].
  Qed.

  (** ** When messages are lost *)
  Lemma gone_stays (a : ANet Pr) x ls a' v : aact r cap a x = Some (ls, a') -> gone a v -> gone a' v.
  Proof.
    unfold gone. destruct x as [w|i]; cbn [aact].
    - destruct (get w (an_nodes a)) as [d|] eqn:Ed; [|discriminate]. destruct (node_input cap a w d) as [i|] eqn:Ei; [|discriminate].
      destruct (drv_step r d i) as [[ls0 d']|]; [|discriminate]. intros E. apply stp_inj in E as [_ ->]. cbn [an_nodes]. rewrite get_insert.
      destruct (eqb_spec v w) as [->|]; [|auto]. rewrite Ed. intros [o ->]. cbn [node_input] in Ei. discriminate.
    - destruct (disp_step cap a i) as [a1|] eqn:E1; [|discriminate]. intros E. apply stp_inj in E as [_ ->]. now rewrite (disp_nodes _ _ E1).
  Qed.
  Lemma disp_fails ks (a : ANet Pr) i a' : awf ks a -> disp_step cap a i = Some a' -> failed (an_disp a') ->
    exists o ms, gone a' (mo_to o) /\ Permutation (waiting ks a) (waiting ks a' ++ o :: ms).
  Proof.
    intros W E F. unfold disp_step in E. destruct (an_disp a) as [|ms|[|x ms]|ms o|ms|o] eqn:Ed; try discriminate.
    - destruct (an_out a); [destruct (all_done _); [|discriminate]|]; apply some_inj in E; subst a'; destruct F.
    - destruct (an_out a); apply some_inj in E; subst a'; destruct F.
    - apply some_inj in E; subst a'; destruct F.
    - destruct (swap_remove i (x :: ms)) as [[o ms']|]; [|discriminate]. apply some_inj in E; subst a'; destruct F.
    - assert (Kerr : Permutation (waiting ks a) (waiting ks (mkANet (an_nodes a) (an_out a) (DispEnd (Err LE_Channel)) (an_in a)) ++ o :: ms)).
      { unfold waiting; cbn [an_out an_disp disp_msgs an_in]; rewrite Ed. cbn [disp_msgs app]. rewrite <- app_assoc. apply Permutation_app_head.
        change (o :: ms ++ flat_map (in_msgs a) ks) with ((o :: ms) ++ flat_map (in_msgs a) ks). apply Permutation_app_comm. }
      unfold gone. destruct (get (mo_to o) (an_in a)) as [q|] eqn:Eq.
      + destruct (get (mo_to o) (an_nodes a)) as [[| | |x]|] eqn:En;
          try (destruct (Nat.ltb (length q) cap); [|discriminate]; apply some_inj in E; subst a'; destruct F);
          (apply some_inj in E; subst a'; exists o, ms; split; [cbn [an_nodes]; rewrite En; eauto|exact Kerr]).
      + apply some_inj in E; subst a'. exists o, ms. split; [|exact Kerr]. cbn [an_nodes].
        destruct (get (mo_to o) (an_nodes a)) as [d|] eqn:En; [|exact I]. exfalso. apply (proj2 (aw_in W (mo_to o))); [|exact Eq]. apply W. congruence.
    - destruct (an_out a); apply some_inj in E; subst a'; destruct F.
  Qed.

  Lemma sched_lost ks a tr a' : awf ks a -> ~ failed (an_disp a) -> aschedule r cap a tr a' ->
    exists lost, Permutation (waiting ks a ++ sent_in tr) (taken_in tr ++ waiting ks a' ++ lost) /\
      (failed (an_disp a') -> exists o, In o lost /\ gone a' (mo_to o)).
  Proof.
    intros W Hn H. induction H as [a|a tr a1 x ls a2 H IH Hx].
    - exists []. cbn [sent_in taken_in flat_map app]. rewrite !app_nil_r. split; [reflexivity|contradiction].
    - destruct (IH W Hn) as (lost & Hp & Hf). clear IH.
      assert (K : exists lost', Permutation (waiting ks a1 ++ sent_in ls) (taken_in ls ++ waiting ks a2 ++ lost') /\
        (failed (an_disp a2) -> failed (an_disp a1) \/ exists o, In o lost' /\ gone a2 (mo_to o))).
      { destruct x as [v|i].
        - destruct (act_conserves (ANode v) (sched_wf W H) Hx) as (lost' & Hp' & _). exists lost'. split; [exact Hp'|]. intros F. left.
          cbn [aact] in Hx. destruct (get v (an_nodes a1)) as [d|]; [|discriminate]. destruct (node_input cap a1 v d) as [i|]; [|discriminate].
          destruct (drv_step r d i) as [[ls0 d']|]; [|discriminate]. apply stp_inj in Hx as [_ ->]. exact F.
        - destruct (act_conserves (ADisp i) (sched_wf W H) Hx) as (lost' & Hp' & [F|F]).
          + cbn [aact] in Hx. destruct (disp_step cap a1 i) as [a3|] eqn:E1; [|discriminate]. apply stp_inj in Hx as [-> ->].
            destruct (disp_fails i (sched_wf W H) E1 F) as (o & ms & Hg & Hp2). exists (o :: ms). split; [|intros _; right; exists o; split; [now left|exact Hg]].
            cbn [sent_in taken_in flat_map app]. now rewrite app_nil_r.
          + exists lost'. split; [exact Hp'|]. intros Hf2. exfalso. subst lost'. cbn [aact] in Hx. destruct (disp_step cap a1 i) as [a3|] eqn:E1; [|discriminate].
            apply stp_inj in Hx as [-> ->]. destruct (disp_fails i (sched_wf W H) E1 Hf2) as (o & ms & _ & Hp2).
            cbn [sent_in taken_in flat_map app] in Hp'. rewrite app_nil_r in Hp'. rewrite Hp2 in Hp'. apply Permutation_length in Hp'. rewrite !app_length in Hp'. simpl in Hp'. lia. }
      destruct K as (lost' & Hp' & K). exists (lost' ++ lost). split.
      + rewrite sent_app, taken_app, app_assoc, Hp. rewrite <- !app_assoc. apply Permutation_app_head.
        rewrite (Permutation_app_comm lost (sent_in ls)), app_assoc, Hp'. rewrite <- !app_assoc. reflexivity.
      + intros F. destruct (K F) as [F1|(o & Hin & Hg)].
        * destruct (Hf F1) as (o & Hin & Hg). exists o. split; [apply in_or_app; now right|]. eapply gone_stays; eauto.
        * exists o. split; [apply in_or_app; now left|exact Hg].
  Qed.

  (** A node that fails does so by itself, or the dispatcher has failed. *)
  Record caused (ss : Verifier -> option (Session Pr)) (tr : list (Verifier * dlabel Pr)) (a : ANet Pr) : Prop := {
    ca_run : forall v d, get v (an_nodes a) = Some d -> exists s, ss v = Some s /\ run_session r s (LEnter s :: doings v tr) d;
    ca_end : forall x, an_disp a = DispEnd (Ok x) -> an_out a = [] /\ forall v d, get v (an_nodes a) = Some d -> drv_done d = true;
    ca_node : forall v o, get v (an_nodes a) = Some (DrvDone o) -> (forall rep, o <> Ok rep) ->
      failed (an_disp a) \/ exists s, ss v = Some s /\ fails_by_itself r s (LEnter s :: doings v tr)
  }.
  Lemma input_closed (a : ANet Pr) v d i : node_input cap a v d = Some i -> i = ISendFails \/ i = IClosed -> disp_done (an_disp a) = true.
  Proof.
    intros E H. destruct (disp_done (an_disp a)) eqn:Ed; [reflexivity|]. exfalso. unfold node_input in E. rewrite Ed in E.
    assert (K : i <> ISendFails /\ i <> IClosed); [|tauto].
    destruct d as [? ? ? ? ?|? ? ? ?|? ac|].
    - destruct (Nat.ltb _ _); [|discriminate]. apply some_inj in E. subst i. split; discriminate.
    - apply some_inj in E. subst i. split; discriminate.
    - destruct (can_finalize ac).
      all: try (apply some_inj in E; subst i; split; discriminate).
      destruct (get v (an_in a)) as [[|[? ?] ?]|]; try discriminate. apply some_inj in E. subst i. split; discriminate.
    - discriminate.
  Qed.
  Lemma act_caused ss tr a x ls a' : caused ss tr a -> aact r cap a x = Some (ls, a') -> caused ss (tr ++ ls) a'.
  Proof.
    intros C. destruct x as [v|i]; cbn [aact].
    - destruct (get v (an_nodes a)) as [d|] eqn:Ed; [|discriminate]. destruct (node_input cap a v d) as [i|] eqn:Ei; [|discriminate].
      destruct (drv_step r d i) as [[ls0 d']|] eqn:Es; [|discriminate]. intros E. apply stp_inj in E as [-> ->].
      assert (Hd : forall w, doings w (tr ++ map (pair v) ls0) = if eqb v w then doings v tr ++ ls0 else doings w tr).
      { intros w. rewrite doings_app, doings_pair. destruct (eqb_spec v w) as [->|]; [reflexivity|now rewrite app_nil_r]. }
      assert (Hnd : ~ (exists x, an_disp a = DispEnd (Ok x))).
      { intros [x Hx]. pose proof (proj2 (ca_end C Hx) _ _ Ed) as Hdone. destruct d as [| | |o]; try discriminate. }
      constructor; cbn [an_nodes an_disp].
      + intros w dw. rewrite get_insert, Hd. rewrite (eqb_sym v w). destruct (eqb_spec w v) as [->|Hw]; [|apply (ca_run C)]. intros E. apply some_inj in E. subst dw.
        destruct (ca_run C _ Ed) as (s & Hs & ls' & El & Hr). exists s. split; [exact Hs|]. exists (ls' ++ ls0). split; [now inversion El|]. econstructor; eauto.
      + intros x Hx. exfalso. apply Hnd. eauto.
      + intros w o. rewrite get_insert, Hd. rewrite (eqb_sym v w). destruct (eqb_spec w v) as [->|Hw]; [|apply (ca_node C)]. intros E Ho. apply some_inj in E. subst d'.
        destruct (ca_run C _ Ed) as (s & Hs & Hr).
        assert (Hend : disp_done (an_disp a) = true -> failed (an_disp a)).
        { intros Hdd. destruct (an_disp a) as [| | | | |[x|e|]]; try discriminate Hdd; simpl; auto. apply Hnd. eauto. }
        assert (Hown : i <> ISendFails -> i <> IClosed -> failed (an_disp a) \/ exists s, ss v = Some s /\ fails_by_itself r s (LEnter s :: doings v tr ++ ls0)).
        { intros H1 H2. right. exists s. split; [exact Hs|]. exists (LEnter s :: doings v tr), d, i, ls0, o. repeat split; auto. }
        destruct i as [| |from m| |]; try (apply Hown; discriminate); left; apply Hend; eapply input_closed; eauto.
    - destruct (disp_step cap a i) as [a1|] eqn:E1; [|discriminate]. intros E. apply stp_inj in E as [-> ->]. rewrite app_nil_r.
      assert (Hno : ~ failed (an_disp a)) by (unfold disp_step in E1; destruct (an_disp a) as [| | | | |[]]; try discriminate; simpl; tauto).
      pose proof (disp_nodes _ _ E1) as Hn. constructor; rewrite Hn.
      + apply (ca_run C).
      + intros x Hx. unfold disp_step in E1.
        destruct (an_disp a) as [|ms|[|y ms]|ms o|ms|o]; try discriminate.
        * destruct (an_out a); [destruct (all_done (an_nodes a)) eqn:Had; [|discriminate]|]; apply some_inj in E1; subst a1; try discriminate Hx.
          split; [reflexivity|]. intros v d Hv. unfold all_done in Had. rewrite forallb_forall in Had. apply in_to_list in Hv. apply (Had _ Hv).
        * destruct (an_out a); apply some_inj in E1; subst a1; discriminate Hx.
        * apply some_inj in E1; subst a1; discriminate Hx.
        * destruct (swap_remove i (y :: ms)) as [[o ms']|]; [|discriminate]. apply some_inj in E1; subst a1; discriminate Hx.
        * destruct (get (mo_to o) (an_in a)) as [q|]; [destruct (get (mo_to o) (an_nodes a)) as [[| | |]|]; try (destruct (Nat.ltb (length q) cap); [|discriminate])|];
            apply some_inj in E1; subst a1; discriminate Hx.
        * destruct (an_out a); apply some_inj in E1; subst a1; discriminate Hx.
      + intros v o Hv Ho. destruct (ca_node C _ Hv Ho) as [F|F]; [contradiction|now right].
  Qed.

  Lemma start_session sid (ps : list (Signer * EntryPoint Pr)) (a0 : ANet Pr) : NoDup (map (fun p => signer_key (fst p)) ps) -> anet_start r sid ps = Ok a0 ->
    forall sk e, In (sk, e) ps -> exists s, session_new (nr_new r (signer_key sk)) sid sk e = Ok s /\ get (signer_key sk) (an_nodes a0) = Some (drv_enter s []).
  Proof.
    intros Hnd H0 sk e Hin. destruct (anet_start_ok sid ps Hnd H0) as (W & _ & _ & _ & Hs).
    destruct (get (signer_key sk) (an_nodes a0)) as [d|] eqn:Ed.
    - destruct (Hs _ _ Ed) as (sk' & e' & s & Hin' & Hk & Hs' & ->). exists s. split; [|reflexivity].
      assert (E : (sk', e') = (sk, e)); [|inversion E; subst; exact Hs'].
      clear - Hnd Hin Hin' Hk. induction ps as [|p ps IH]; [destruct Hin|]. cbn [map] in Hnd. apply NoDup_cons_iff in Hnd as [Hn Hnd].
      destruct Hin as [->|Hin], Hin' as [Hx|Hin']; auto.
      + exfalso. apply Hn. apply in_map_iff. exists (sk', e'). split; auto.
      + exfalso. subst p. apply Hn. apply in_map_iff. exists (sk, e). split; auto.
    - exfalso. apply (proj2 (aw_node W (signer_key sk))); [|exact Ed]. apply in_map_iff. exists (sk, e). auto.
  Qed.

  Lemma sched_caused sid (ps : list (Signer * EntryPoint Pr)) (a0 : ANet Pr) tr a : NoDup (map (fun p => signer_key (fst p)) ps) -> anet_start r sid ps = Ok a0 ->
    aschedule r cap a0 tr a -> exists ss, caused ss tr a /\
    forall v s, ss v = Some s -> exists sk e, In (sk, e) ps /\ signer_key sk = v /\ session_new (nr_new r v) sid sk e = Ok s.
  Proof.
    intros Hnd H0 H. destruct (anet_start_ok sid ps Hnd H0) as (W & _ & Hd & _ & Hs).
    assert (Ke : exists ss : Verifier -> option (Session Pr), forall v, (forall d, get v (an_nodes a0) = Some d -> exists s, ss v = Some s /\ d = drv_enter s []) /\
      forall s, ss v = Some s -> exists sk e, In (sk, e) ps /\ signer_key sk = v /\ session_new (nr_new r v) sid sk e = Ok s).
    { exists (fun v => match find (fun p => eqb (signer_key (fst p)) v) ps with
                       | Some (sk, e) => match session_new (nr_new r v) sid sk e with Ok s => Some s | _ => None end | None => None end).
      intros v. destruct (find (fun p => eqb (signer_key (fst p)) v) ps) as [[sk e]|] eqn:Ef.
      - apply find_some in Ef as [Hin Hk]. cbn [fst] in Hk. destruct (eqb_spec (signer_key sk) v) as [<-|]; [|discriminate].
        destruct (@start_session sid ps a0 Hnd H0 _ _ Hin) as (s & Hs1 & Hs2). rewrite Hs1. split.
        + intros d E. exists s. split; [reflexivity|congruence].
        + intros s' E. exists sk, e. repeat split; auto; congruence.
      - split; [|discriminate]. intros d E. destruct (Hs _ _ E) as (sk & e & s & Hin & Hk & _). pose proof (find_none _ _ Ef _ Hin) as Hx. cbn [fst] in Hx.
        rewrite Hk, eqb_refl in Hx. discriminate. }
    destruct Ke as [ss Hss]. exists ss. split; [|intros v; apply Hss].
    assert (C0 : caused ss [] a0).
    { constructor.
      - intros v d Hv. destruct (proj1 (Hss v) d Hv) as (s & Hsv & ->). exists s. split; [exact Hsv|]. exists []. split; [reflexivity|constructor].
      - intros x Hx. rewrite Hd in Hx. discriminate.
      - intros v o Hv. exfalso. destruct (proj1 (Hss v) _ Hv) as (s & _ & Es). revert Es. unfold drv_enter, drv_send, drv_apply.
        destruct (elements _); discriminate. }
    clear - C0 H. induction H as [a0|a0 tr a1 x ls a2 H IH Hx]; [exact C0|eapply act_caused; eauto].
  Qed.

  Lemma unread_waiting ks (a : ANet Pr) : awf ks a -> an_out a = [] -> disp_msgs (an_disp a) = [] -> Permutation (waiting ks a) (unread a).
  Proof.
    intros W Ho Hd. unfold waiting, unread. rewrite Ho, Hd. cbn [app].
    assert (E : flat_map (fun p : Verifier * list (Verifier * Message) => map (fun q => mkOut (fst q) (fst p) (snd q)) (snd p)) (to_list (an_in a)) =
      flat_map (in_msgs a) (map fst (to_list (an_in a)))).
    { rewrite !flat_map_concat_map, map_map. f_equal. apply map_ext_in. intros [v q] Hin. cbn [fst snd]. apply in_to_list in Hin. unfold in_msgs. now rewrite Hin. }
    rewrite E. apply Permutation_flat_map. apply NoDup_Permutation; [apply W|apply NoDup_keys|]. intros v. rewrite <- (aw_in W). split.
    - intros Hn. destruct (get v (an_in a)) as [q|] eqn:Eq; [|congruence]. apply in_map_iff. exists (v, q). split; [reflexivity|now apply in_to_list].
    - intros Hin. apply in_map_iff in Hin as ([w q] & <- & Hin). apply in_to_list in Hin. cbn [fst]. congruence.
  Qed.

  Theorem async_faithful sid (ps : list (Signer * EntryPoint Pr)) (a0 : ANet Pr) tr a : NoDup (map (fun p => signer_key (fst p)) ps) ->
    anet_start r sid ps = Ok a0 -> aschedule r cap a0 tr a ->
    (forall sk e, In (sk, e) ps -> exists s d, session_new (nr_new r (signer_key sk)) sid sk e = Ok s /\
       get (signer_key sk) (an_nodes a) = Some d /\ run_session r s (LEnter s :: doings (signer_key sk) tr) d) /\
    (exists rest, Permutation (sent_in tr) (taken_in tr ++ rest)) /\
    (forall reports, async_returns a = Some (Ok reports) ->
       Permutation (sent_in tr) (taken_in tr ++ unread a) /\
       (forall v rep, get v reports = Some rep <-> get v (an_nodes a) = Some (DrvDone (Ok rep))) /\
       (forall sk e, In (sk, e) ps -> exists rep, get (signer_key sk) reports = Some rep)).
  Proof.
    intros Hnd H0 H. destruct (anet_start_ok sid ps Hnd H0) as (W & Ho & Hd & Hq & Hs).
    assert (K1 : forall sk e, In (sk, e) ps -> exists s d, session_new (nr_new r (signer_key sk)) sid sk e = Ok s /\
       get (signer_key sk) (an_nodes a) = Some d /\ run_session r s (LEnter s :: doings (signer_key sk) tr) d).
    { intros sk e Hin. destruct (@start_session sid ps a0 Hnd H0 _ _ Hin) as (s & Hs1 & Hs2). destruct (sched_nodes H _ Hs2) as (d & Hd1 & Hr).
      exists s, d. split; [exact Hs1|]. split; [exact Hd1|]. eexists. split; [reflexivity|exact Hr]. }
    destruct (sched_conserves W H) as (lost & Hp & Hl). rewrite (@waiting_start _ a0 Ho Hd Hq) in Hp. cbn [app] in Hp.
    split; [exact K1|]. split; [eauto|].
    intros reports E. destruct (returns_ok _ E) as [Hd1 Hr]. destruct (@sched_caused sid ps a0 tr a Hnd H0 H) as (ss & C & _).
    destruct (ca_end C Hd1) as [Ho1 Hdone]. split; [|split].
    - destruct Hl as [F| ->]; [rewrite Hd1 in F; destruct F|]. rewrite app_nil_r in Hp. rewrite Hp. apply Permutation_app_head.
      apply unread_waiting; [eapply sched_wf; eauto|exact Ho1|now rewrite Hd1].
    - intros v rep. specialize (Hr v). destruct (get v (an_nodes a)) as [d|].
      + destruct Hr as (rep' & -> & Hr). rewrite Hr. split; congruence.
      + rewrite Hr. split; discriminate.
    - intros sk e Hin. destruct (K1 _ _ Hin) as (s & d & _ & Hdd & _). specialize (Hr (signer_key sk)). rewrite Hdd in Hr. destruct Hr as (rep & _ & Hr). eauto.
  Qed.

  Theorem async_error_cause sid (ps : list (Signer * EntryPoint Pr)) (a0 : ANet Pr) tr a e : NoDup (map (fun p => signer_key (fst p)) ps) ->
    anet_start r sid ps = Ok a0 -> aschedule r cap a0 tr a -> async_returns a = Some (Err e) ->
    (exists o rest, Permutation (sent_in tr) (taken_in tr ++ o :: rest) /\ gone a (mo_to o)) \/
    (exists sk ep s, In (sk, ep) ps /\ session_new (nr_new r (signer_key sk)) sid sk ep = Ok s /\ fails_by_itself r s (LEnter s :: doings (signer_key sk) tr)).
  Proof.
    intros Hnd H0 H E. destruct (anet_start_ok sid ps Hnd H0) as (W & Ho & Hd & Hq & Hs).
    assert (Kf : failed (an_disp a) -> exists o rest, Permutation (sent_in tr) (taken_in tr ++ o :: rest) /\ gone a (mo_to o)).
    { intros F. destruct (@sched_lost (map (fun p => signer_key (fst p)) ps) a0 tr a W) as (lost & Hp & Hl); [rewrite Hd; simpl; tauto|exact H|].
      destruct (Hl F) as (o & Hin & Hg). exists o. apply in_split in Hin as (l1 & l2 & ->). exists (waiting (map (fun p => signer_key (fst p)) ps) a ++ l1 ++ l2).
      split; [|exact Hg]. rewrite (@waiting_start _ a0 Ho Hd Hq) in Hp. cbn [app] in Hp. rewrite Hp. apply Permutation_app_head.
      symmetry. rewrite !app_assoc. apply Permutation_cons_app. reflexivity. }
    destruct (returns_err _ E) as [F|(v & o & Hv & Hno)]; [left; auto|].
    destruct (@sched_caused sid ps a0 tr a Hnd H0 H) as (ss & C & Hss). destruct (ca_node C _ Hv Hno) as [F|(s & Hsv & Hf)]; [left; auto|].
    right. destruct (Hss _ _ Hsv) as (sk & ep & Hin & <- & Hn). exists sk, ep, s. auto.
  Qed.
End WithParams.
