(** More nodes that have returned do not change what the others can do (dev/tokio.rs). *)
From Coq Require Import List NArith Bool Arith Lia.
From Verif Require Import Base BMap Errors RoundId Message Protocol Transcript Evidence Session Spec Network SpecNet IntakeFacts RunSync Driver SpecDriver RunSyncFacts DriverFacts
  Par SpecPar Async SpecAsync AsyncFacts AsyncNetFacts Offload SpecOffload OffloadFacts.
Import ListNotations.
Set Implicit Arguments.

Section WithParams.
  Context {P : Params}.
  Context {Pr : Proto}.
  Variable r : NetRng.
  Variable cap : nat.

  (** [b] is [a] with some more nodes, all of which have returned reports. *)
  Record padded (a b : ANet Pr) : Prop := {
    pd_out : an_out b = an_out a;
    pd_disp : an_disp b = an_disp a;
    pd_node : forall v d, get v (an_nodes a) = Some d -> get v (an_nodes b) = Some d;
    pd_more : forall v d, get v (an_nodes b) = Some d -> get v (an_nodes a) = Some d \/ get v (an_nodes a) = None /\ exists rep, d = DrvDone (Ok rep);
    pd_in : forall v q, get v (an_in a) = Some q -> get v (an_in b) = Some q;
    pd_has : forall v, get v (an_nodes a) <> None -> get v (an_in a) <> None
  }.

  Lemma done_same (a b : ANet Pr) : padded a b -> all_done (an_nodes b) = all_done (an_nodes a).
  Proof.
    intros D. apply eq_true_iff_eq. unfold all_done. rewrite !forallb_forall. split; intros H [v d] Hin; apply in_to_list in Hin; cbn [snd].
    - apply (H (v, d)). apply in_to_list. now apply (pd_node D).
    - destruct (pd_more D _ Hin) as [Ha|[_ [rep ->]]]; [|reflexivity]. apply (H (v, d)). now apply in_to_list.
  Qed.

  Lemma padded_with (a b : ANet Pr) out p : padded a b -> padded (mkANet (an_nodes a) out p (an_in a)) (mkANet (an_nodes b) out p (an_in b)).
  Proof. intros [H1 H2 H3 H4 H5 H6]. constructor; cbn; auto. Qed.

  Lemma pad_disp (a b : ANet Pr) i a' : padded a b -> disp_step cap a i = Some a' -> disp_done (an_disp a') = false ->
    exists b', disp_step cap b i = Some b' /\ padded a' b' /\ an_nodes a' = an_nodes a /\ an_nodes b' = an_nodes b.
  Proof.
    intros D. pose proof (done_same D) as Ed. unfold disp_step. rewrite (pd_disp D), (pd_out D), Ed.
    assert (G : forall out p a', Some (mkANet (an_nodes a) out p (an_in a)) = Some a' -> exists b', Some (mkANet (an_nodes b) out p (an_in b)) = Some b' /\ padded a' b' /\ an_nodes a' = an_nodes a /\ an_nodes b' = an_nodes b).
    { intros out p x E. apply some_inj in E. subst x. eexists. split; [reflexivity|]. split; auto. now apply padded_with. }
    destruct (an_disp a) as [|ms|[|y ms]|ms o|ms|o]; try discriminate.
    - destruct (an_out a); [destruct (all_done (an_nodes a)); [|discriminate]|]; intros E _; eapply G; eauto.
    - destruct (an_out a); intros E _; eapply G; eauto.
    - intros E _; eapply G; eauto.
    - destruct (swap_remove i (y :: ms)) as [[o ms']|]; [|discriminate]. intros E _; eapply G; eauto.
    - destruct (get (mo_to o) (an_in a)) as [q|] eqn:Eq; [|intros E F; apply some_inj in E; subst a'; discriminate F]. rewrite (pd_in D _ Eq).
      destruct (get (mo_to o) (an_nodes a)) as [d|] eqn:En; [|intros E F; apply some_inj in E; subst a'; discriminate F]. rewrite (pd_node D _ En).
      destruct d; try (intros E F; apply some_inj in E; subst a'; discriminate F); (destruct (Nat.ltb (length q) cap); [|discriminate]; intros E _; apply some_inj in E; subst a';
        eexists; (split; [reflexivity|]); (split; [|auto]); constructor; cbn [an_out an_disp an_nodes an_in]; auto; try apply D;
        [intros v q'; destruct (eqb_spec v (mo_to o)) as [->|N]; [now rewrite !get_insert_eq|rewrite !get_insert_ne by congruence; apply (pd_in D)]
        |intros v Hv; destruct (eqb_spec v (mo_to o)) as [->|N]; [rewrite get_insert_eq; discriminate|rewrite get_insert_ne by congruence; now apply (pd_has D)]]).
    - destruct (an_out a); intros E _; eapply G; eauto.
  Qed.

  Lemma pad_input (a b : ANet Pr) v d : padded a b -> get v (an_nodes a) = Some d -> node_input cap b v d = node_input cap a v d.
  Proof.
    intros D Hv. unfold node_input. rewrite (pd_disp D), (pd_out D). destruct (get v (an_in a)) as [q|] eqn:Eq; [now rewrite (pd_in D _ Eq)|].
    exfalso. apply (pd_has D v); [rewrite Hv; discriminate|exact Eq].
  Qed.

  Lemma pad_node (a b : ANet Pr) v d' out q : padded a b -> get v (an_nodes a) <> None -> get v (an_in a) <> None ->
    padded (mkANet (insert v d' (an_nodes a)) out (an_disp a) (insert v q (an_in a))) (mkANet (insert v d' (an_nodes b)) out (an_disp b) (insert v q (an_in b))).
  Proof.
    intros D Hv Hq. constructor; cbn [an_out an_disp an_nodes an_in]; auto; try apply D.
    - intros w d. destruct (eqb_spec w v) as [->|N]; [now rewrite !get_insert_eq|rewrite !get_insert_ne by congruence; apply (pd_node D)].
    - intros w d. destruct (eqb_spec w v) as [->|N]; [rewrite !get_insert_eq; auto|rewrite !get_insert_ne by congruence; apply (pd_more D)].
    - intros w d. destruct (eqb_spec w v) as [->|N]; [now rewrite !get_insert_eq|rewrite !get_insert_ne by congruence; apply (pd_in D)].
    - intros w. destruct (eqb_spec w v) as [->|N]; [rewrite !get_insert_eq; auto|rewrite !get_insert_ne by congruence; apply (pd_has D)]. discriminate.
  Qed.
  Lemma insert_same {W} (v : Verifier) (q : W) m : get v m = Some q -> insert v q m = m.
  Proof. intros H. apply bmap_ext. intros w. destruct (eqb_spec w v) as [->|N]; [now rewrite get_insert_eq|now rewrite get_insert_ne by congruence]. Qed.

  Lemma pad_act (a b : ANet Pr) x ls a' : padded a b -> aact r cap a x = Some (ls, a') -> disp_done (an_disp a') = false ->
    exists b', aact r cap b x = Some (ls, b') /\ padded a' b'.
  Proof.
    intros D. destruct x as [v|i]; cbn [aact].
    - destruct (get v (an_nodes a)) as [d|] eqn:Ev; [|discriminate]. rewrite (pd_node D _ Ev), (pad_input _ D Ev). destruct (node_input cap a v d) as [i|]; [|discriminate].
      destruct (drv_step r d i) as [[ls0 d']|]; [|discriminate]. intros E _. apply stp_inj in E as [-> ->].
      destruct (get v (an_in a)) as [q|] eqn:Eq; [|exfalso; apply (pd_has D v); [rewrite Ev; discriminate|exact Eq]]. rewrite (pd_in D _ Eq), (pd_out D).
      eexists. split; [reflexivity|]. destruct (existsb _ ls0).
      + apply (@pad_node a b v d' (an_out a ++ flat_map (out_of v) ls0) (tl q) D); congruence.
      + pose proof (@pad_node a b v d' (an_out a ++ flat_map (out_of v) ls0) q D) as K. rewrite (@insert_same _ v q (an_in a) Eq), (@insert_same _ v q (an_in b) (pd_in D _ Eq)) in K. apply K; congruence.
    - destruct (disp_step cap a i) as [a1|] eqn:E1; [|discriminate]. intros E Hd. apply stp_inj in E as [-> ->]. destruct (@pad_disp a b i a1 D E1 Hd) as (b' & -> & K & _). eauto.
  Qed.
  Lemma ended_stays (a : ANet Pr) x ls a' : aact r cap a x = Some (ls, a') -> disp_done (an_disp a) = true -> disp_done (an_disp a') = true.
  Proof.
    destruct x as [v|i]; cbn [aact].
    - destruct (get v (an_nodes a)) as [d|]; [|discriminate]. destruct (node_input cap a v d); [|discriminate]. destruct (drv_step r d i) as [[ls0 d']|]; [|discriminate].
      intros E. apply stp_inj in E as [-> ->]. auto.
    - unfold disp_step. destruct (an_disp a); try discriminate.
  Qed.
  Lemma pad_sched (a : ANet Pr) tr a' : aschedule r cap a tr a' -> forall b, padded a b -> disp_done (an_disp a') = false -> exists b', aschedule r cap b tr b' /\ padded a' b'.
  Proof.
    intros H. induction H as [a|a tr a1 x ls a2 H IH Hx]; intros b D Hd; [exists b; split; [constructor|exact D]|].
    assert (H1 : disp_done (an_disp a1) = false) by (destruct (disp_done (an_disp a1)) eqn:E; [rewrite (ended_stays _ _ Hx E) in Hd; discriminate|reflexivity]).
    destruct (IH b D H1) as (b1 & K1 & D1). destruct (@pad_act a1 b1 x ls a2 D1 Hx Hd) as (b2 & K2 & D2). exists b2. split; [econstructor; eauto|exact D2].
  Qed.

  (** A jam: nobody can go on, nobody has returned, and the dispatcher is sending. *)
  Definition at_work (a : ANet Pr) : Prop := forall v d, get v (an_nodes a) = Some d -> drv_done d = false.
  Lemma pad_stuck (a b : ANet Pr) ms o : padded a b -> an_disp a = DispSend ms o -> get (mo_to o) (an_nodes a) <> None -> async_stuck r cap a -> async_stuck r cap b.
  Proof.
    intros D Ed Ho S [v|i].
    - pose proof (S (ANode v)) as Sv. cbn [aact] in *. destruct (get v (an_nodes b)) as [d|] eqn:Eb; [|reflexivity].
      destruct (pd_more D _ Eb) as [Ea|[_ [rep ->]]]; [|reflexivity]. rewrite Ea in Sv. rewrite (pad_input _ D Ea). destruct (node_input cap a v d) as [i|]; [|reflexivity].
      destruct (drv_step r d i) as [[ls d']|]; [discriminate|reflexivity].
    - pose proof (S (ADisp i)) as Si. cbn [aact] in *. unfold disp_step in *. rewrite (pd_disp D). rewrite Ed in *.
      destruct (get (mo_to o) (an_in a)) as [q|] eqn:Eq; [|discriminate]. rewrite (pd_in D _ Eq). destruct (get (mo_to o) (an_nodes a)) as [d|] eqn:En; [|congruence].
      rewrite (pd_node D _ En). destruct d; try discriminate; (destruct (Nat.ltb (length q) cap); [discriminate|reflexivity]).
  Qed.
  Lemma pad_returns (a b : ANet Pr) v : padded a b -> at_work a -> get v (an_nodes a) <> None -> async_returns b = None.
  Proof.
    intros D W Hv. unfold async_returns.
    assert (K : forall w d, In (w, d) (to_list (an_nodes b)) -> match d with DrvDone (Ok _) => True | DrvDone _ => False | _ => True end).
    { intros w d Hin. apply in_to_list in Hin. destruct (pd_more D _ Hin) as [Ha|[_ [rep ->]]]; [|exact I]. specialize (W w d Ha). destruct d; auto. discriminate. }
    pose proof (@await_cases P Pr (to_list (an_nodes b)) empty K) as C. destruct (await_nodes _ _) as [[x|e|]|]; try contradiction.
    - exfalso. destruct (get v (an_nodes a)) as [d|] eqn:Ea; [|congruence]. pose proof (pd_node D _ Ea) as Eb. apply in_to_list in Eb. specialize (C v d Eb). rewrite (W v d Ea) in C. discriminate.
    - reflexivity.
  Qed.

  (** ** The same with [offload_processing = true] *)
  Record opadded (a b : ONet Pr) : Prop := {
    op_out : on_out b = on_out a;
    op_disp : on_disp b = on_disp a;
    op_node : forall v p, get v (on_nodes a) = Some p -> get v (on_nodes b) = Some p;
    op_more : forall v p, get v (on_nodes b) = Some p -> get v (on_nodes a) = Some p \/ get v (on_nodes a) = None /\ exists rep, p = PStop (Ok rep);
    op_in : forall v q, get v (on_in a) = Some q -> get v (on_in b) = Some q;
    op_has : forall v, get v (on_nodes a) <> None -> get v (on_in a) <> None
  }.
  Lemma seen_padded (a b : ONet Pr) : opadded a b -> padded (seen a) (seen b).
  Proof.
    intros D. constructor; cbn [seen an_out an_disp an_nodes an_in]; try apply D.
    - intros v d H. rewrite get_map_values in *. destruct (get v (on_nodes a)) as [p|] eqn:E; [|discriminate]. now rewrite (op_node D _ E).
    - intros v d H. rewrite get_map_values in *. destruct (get v (on_nodes b)) as [p|] eqn:E; [|discriminate]. cbn [option_map] in *.
      destruct (op_more D _ E) as [->|[-> [rep ->]]]; [now left|]. right. split; [reflexivity|]. exists rep. cbn in H. congruence.
    - intros v H. apply (op_has D). intros E. apply H. now rewrite get_map_values, E.
  Qed.
  Lemma opad_disp (a b : ONet Pr) i c : opadded a b -> disp_step cap (seen a) i = Some c -> disp_done (an_disp c) = false ->
    exists c', disp_step cap (seen b) i = Some c' /\ opadded (mkONet (on_nodes a) (an_out c) (an_disp c) (an_in c)) (mkONet (on_nodes b) (an_out c') (an_disp c') (an_in c')).
  Proof.
    intros D E Hd. destruct (@pad_disp (seen a) (seen b) i c (seen_padded D) E Hd) as (c' & E' & K & Ha & Hb). exists c'. split; [exact E'|].
    constructor; cbn [on_out on_disp on_nodes on_in]; try apply K; try apply D.
    intros v Hv. apply (pd_has K). rewrite Ha. cbn [seen an_nodes]. rewrite get_map_values. destruct (get v (on_nodes a)); [discriminate|congruence].
  Qed.
  Definition actor (x : oaction (P := P)) : option Verifier := match x with OSelf v _ | OSend v | ORecv v => Some v | ODisp _ => None end.
  Lemma action_actor (a : ONet Pr) x v act : node_action (Pr := Pr) cap a x = Some (v, act) -> actor x = Some v.
  Proof.
    destruct x as [w y|w|w|i]; cbn [node_action actor].
    - destruct (by_itself y); congruence.
    - destruct (disp_done _); [congruence|]. destruct (Nat.ltb _ _); congruence.
    - destruct (get w (on_in a)) as [[|[f m] q]|]; try (destruct (disp_done _)); congruence.
    - discriminate.
  Qed.
  Lemma opad_same (a b : ONet Pr) x v : opadded a b -> actor x = Some v -> get v (on_nodes a) <> None -> node_action cap b x = node_action cap a x.
  Proof.
    intros D Hx Hv. destruct x as [w y|w|w|i]; cbn [node_action]; rewrite ?(op_disp D), ?(op_out D); auto. injection Hx as ->.
    destruct (get v (on_in a)) as [q|] eqn:Eq; [now rewrite (op_in D _ Eq)|]. exfalso. now apply (op_has D v).
  Qed.
  Lemma opad_node (a b : ONet Pr) v p out q : opadded a b -> get v (on_nodes a) <> None -> get v (on_in a) <> None ->
    opadded (mkONet (insert v p (on_nodes a)) out (on_disp a) (insert v q (on_in a))) (mkONet (insert v p (on_nodes b)) out (on_disp b) (insert v q (on_in b))).
  Proof.
    intros D Hv Hq. constructor; cbn [on_out on_disp on_nodes on_in]; auto; try apply D.
    - intros w d. destruct (eqb_spec w v) as [->|N]; [now rewrite !get_insert_eq|rewrite !get_insert_ne by congruence; apply (op_node D)].
    - intros w d. destruct (eqb_spec w v) as [->|N]; [rewrite !get_insert_eq; auto|rewrite !get_insert_ne by congruence; apply (op_more D)].
    - intros w d. destruct (eqb_spec w v) as [->|N]; [now rewrite !get_insert_eq|rewrite !get_insert_ne by congruence; apply (op_in D)].
    - intros w. destruct (eqb_spec w v) as [->|N]; [rewrite !get_insert_eq; discriminate|rewrite !get_insert_ne by congruence; apply (op_has D)].
  Qed.
  Lemma oact_node (a : ONet Pr) x v act p ls p' : node_action cap a x = Some (v, act) -> get v (on_nodes a) = Some p -> par_step r p act = Some (ls, p') ->
    oact r cap a x = Some (map (pair v) ls, mkONet (insert v p' (on_nodes a)) (on_out a ++ flat_map (out_of v) ls) (on_disp a)
                            (match get v (on_in a) with
                             | Some q => if existsb takes ls then insert v (tl q) (on_in a) else on_in a
                             | None => on_in a
                             end)).
  Proof. intros H1 H2 H3. destruct x; unfold oact; try discriminate H1; now rewrite H1, H2, H3. Qed.

  Lemma opad_act (a b : ONet Pr) x ls a' : opadded a b -> oact r cap a x = Some (ls, a') -> disp_done (on_disp a') = false ->
    exists b', oact r cap b x = Some (ls, b') /\ opadded a' b'.
  Proof.
    intros D E Hd. destruct (actor x) as [v|] eqn:Ex.
    - assert (E2 : exists act p ls0 p', node_action cap a x = Some (v, act) /\ get v (on_nodes a) = Some p /\ par_step r p act = Some (ls0, p')).
      { destruct (node_action cap a x) as [[w act]|] eqn:En; [|destruct x; unfold oact in E; rewrite ?En in E; discriminate].
        pose proof (action_actor _ _ En) as Ea. assert (w = v) by congruence. subst w.
        destruct (get v (on_nodes a)) as [p|] eqn:Ep; [|destruct x; unfold oact in E; rewrite ?En, ?Ep in E; discriminate].
        destruct (par_step r p act) as [[ls0 p']|] eqn:Es; [|destruct x; unfold oact in E; rewrite ?En, ?Ep, ?Es in E; discriminate]. exists act, p, ls0, p'. auto. }
      destruct E2 as (act & p & ls0 & p' & En & Ep & Es). rewrite (oact_node _ _ En Ep Es) in E. apply stp_inj in E as [-> ->].
      assert (Hv : get v (on_nodes a) <> None) by congruence.
      assert (Enb : node_action cap b x = Some (v, act)) by (rewrite (opad_same _ D Ex Hv); exact En).
      rewrite (oact_node _ _ Enb (op_node D _ Ep) Es). eexists. split; [reflexivity|].
      destruct (get v (on_in a)) as [q|] eqn:Eq; [|exfalso; now apply (op_has D v)]. rewrite (op_in D _ Eq), (op_out D). destruct (existsb _ ls0).
      + apply (@opad_node a b v p' (on_out a ++ flat_map (out_of v) ls0) (tl q) D); congruence.
      + pose proof (@opad_node a b v p' (on_out a ++ flat_map (out_of v) ls0) q D) as K.
        rewrite (@insert_same _ v q (on_in a) Eq), (@insert_same _ v q (on_in b) (op_in D _ Eq)) in K. apply K; congruence.
    - destruct x as [w y|w|w|i]; try discriminate Ex. cbn [oact] in *. destruct (disp_step cap (seen a) i) as [c|] eqn:Ec; [|discriminate].
      apply stp_inj in E as [-> ->]. destruct (@opad_disp a b i c D Ec Hd) as (c' & -> & K). eauto.
  Qed.
  Lemma oended_stays (a : ONet Pr) x ls a' : oact r cap a x = Some (ls, a') -> disp_done (on_disp a) = true -> disp_done (on_disp a') = true.
  Proof.
    intros E H. destruct x as [w y|w|w|i]; [unfold oact in E..|].
    1-3: destruct (node_action cap a _) as [[v act]|]; [|discriminate]; destruct (get v (on_nodes a)) as [p|]; [|discriminate]; destruct (par_step r p act) as [[ls0 p']|]; [|discriminate];
      apply stp_inj in E as [-> ->]; exact H.
    cbn [oact] in E. unfold disp_step in E. cbn [seen an_disp] in E. destruct (on_disp a); discriminate.
  Qed.
  Lemma opad_sched (a : ONet Pr) tr a' : oschedule r cap a tr a' -> forall b, opadded a b -> disp_done (on_disp a') = false -> exists b', oschedule r cap b tr b' /\ opadded a' b'.
  Proof.
    intros H. induction H as [a|a tr a1 x ls a2 H IH Hx]; intros b D Hd; [exists b; split; [constructor|exact D]|].
    assert (H1 : disp_done (on_disp a1) = false) by (destruct (disp_done (on_disp a1)) eqn:E; [rewrite (oended_stays _ _ Hx E) in Hd; discriminate|reflexivity]).
    destruct (IH b D H1) as (b1 & K1 & D1). destruct (@opad_act a1 b1 x ls a2 D1 Hx Hd) as (b2 & K2 & D2). exists b2. split; [econstructor; eauto|exact D2].
  Qed.
  Lemma opad_stuck (a b : ONet Pr) ms o : opadded a b -> on_disp a = DispSend ms o -> get (mo_to o) (on_nodes a) <> None -> offload_stuck r cap a -> offload_stuck r cap b.
  Proof.
    intros D Ed Ho S x. destruct (actor x) as [v|] eqn:Ex.
    - destruct (node_action cap b x) as [[w act]|] eqn:En; [|destruct x; unfold oact; rewrite ?En; try reflexivity; discriminate].
      pose proof (action_actor _ _ En) as Ea. assert (w = v) by congruence. subst w.
      assert (K : forall p, get v (on_nodes b) = Some p -> par_step r p act = None).
      { intros p Hp. destruct (op_more D _ Hp) as [Ha|[_ [rep ->]]]; [|reflexivity].
        assert (Hv : get v (on_nodes a) <> None) by congruence. rewrite (opad_same _ D Ex Hv) in En.
        destruct (par_step r p act) as [[ls p']|] eqn:Es; [|reflexivity]. pose proof (oact_node _ _ En Ha Es) as F. rewrite (S x) in F. discriminate. }
      destruct (get v (on_nodes b)) as [p|] eqn:Ep; [|destruct x; unfold oact; rewrite ?En, ?Ep; try reflexivity; discriminate].
      destruct x; unfold oact; try discriminate Ex; rewrite En, Ep, (K p eq_refl); reflexivity.
    - destruct x as [w y|w|w|i]; try discriminate Ex. pose proof (S (ODisp i)) as Si. cbn [oact] in *.
      destruct (disp_step cap (seen b) i) as [c|] eqn:Ec; [|reflexivity]. exfalso. revert Ec Si. unfold disp_step. cbn [seen an_disp an_in an_nodes an_out].
      rewrite (op_disp D), Ed. destruct (get (mo_to o) (on_in a)) as [q|] eqn:Eq; [|discriminate]. rewrite (op_in D _ Eq), !get_map_values.
      destruct (get (mo_to o) (on_nodes a)) as [p|] eqn:En; [|congruence]. rewrite (op_node D _ En). cbn [option_map].
      destruct (seen_node p); try discriminate; (destruct (Nat.ltb (length q) cap); discriminate).
  Qed.
End WithParams.
