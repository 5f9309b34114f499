(** dev/tokio.rs: with few enough honest parties, [run_async] returns everybody's result. *)
From Coq Require Import List NArith Bool Arith Lia Permutation.
From Verif Require Import Base BMap Errors RoundId Message Protocol Transcript Evidence Session Spec SpecCrypto
  MessageFacts SessionFacts RunFacts Network SpecNet NetFacts RunSync RunSyncFacts Driver SpecDriver DriverFacts DriverNetFacts
  Async SpecAsync AsyncFacts.
Import ListNotations.
Set Implicit Arguments.

(** ** How many messages can be on the way *)
Section Flight.
  Context {P : Params}.
  Context {Pr : Proto}.
  Variable r : NetRng.
  Variable sid : bytes.
  Variable parties : bset Verifier.
  Variable ep : Verifier -> EntryPoint Pr.
  Variable h : Plan Pr.
  Variable sk : Verifier -> Signer.
  Hypothesis Hsk : signers parties sk.
  Hypothesis Hwire : wire_total P.
  Hypothesis Hsig : signatures_correct P.
  Hypothesis HR : honest_run r sid parties ep h.
  Notation Inv := (NInv sid parties h sk).
  Notation party v := (mem v parties = true).
  Notation rnd m := (m_round (sp_meta (msg_direct m))).

  Lemma flight_facts net ph u m : Inv net ph -> In (u, m) (flight net) ->
    party u /\ party (msg_dest m) /\ u <> msg_dest m /\ (exists d, get (msg_dest m) (nodes net) = Some (Running d)) /\
    cnt_fl (flight net) u (msg_dest m) (rnd m) <= 1 /\
    (rnd m = prid h (ph (msg_dest m)) \/ rnd m = prid h (pnext h (msg_dest m) (ph (msg_dest m)))).
  Proof.
    intros I Hin. destruct (ni_flight I _ _ Hin) as (g & Hg & Hu & Gm & Hd). set (v := msg_dest m) in *.
    destruct (@dst_party _ _ r sid parties ep h HR g u v Hg Hu Hd) as [Hv Huv].
    assert (Hpv : pvalid h v g).
    { split; auto. intros Eb. unfold dst in Hd. rewrite Eb in Hd. destruct (echoes h (fst g) u) eqn:Ee; [|discriminate].
      now destruct (hr_partners (proj1 HR) (fst g) u v Hg Hu Ee Hd) as (_ & _ & Ev & _). }
    assert (Em : rnd m = prid h g) by (destruct Gm as (_ & (_ & _ & _ & -> & _) & _); reflexivity).
    assert (Hc : 1 <= cnt_fl (flight net) u v (prid h g)).
    { apply in_split in Hin as (l1 & l2 & ->). change ((u, m) :: l2) with ([(u, m)] ++ l2). rewrite !cnt_fl_app, cnt_fl_one.
      rewrite Em, !eqb_refl. simpl. lia. }
    pose proof (ni_count I u Hu Hv Hpv) as Hn. rewrite Em.
    destruct (Nat.leb_spec (prank (ph v)) (prank g)) as [Hle|]; [|lia].
    destruct (sent h net ph u g v) eqn:Es; [|simpl in Hn; lia]. simpl in Hn.
    destruct (sent_dst u g v I Hu Es) as [_ Hgu].
    pose proof (@skew _ _ r sid parties ep h sk HR net ph u g v I Hu Hv Hg Hgu Hd) as Hskew.
    pose proof (phase_ok v I Hv) as Hph.
    split; auto. split; auto. split; [congruence|]. split; [|split; [lia|]].
    - pose proof (ni_node I v Hv) as Hnode. destruct (get v (nodes net)) as [[d|rep]|]; [eauto| |contradiction].
      destruct Hnode as [E _]. rewrite E in Hle. unfold prank in Hle. simpl in Hle. destruct g as [n []]; simpl in *; lia.
    - destruct (Nat.eq_dec (prank g) (prank (ph v))) as [E|Hne]; [left; apply prank_inj in E; now subst g|right].
      destruct Hph as [Hph|Hph].
      + assert (prank (pnext h v (ph v)) <= prank g) by (apply prank_between; auto; lia). assert (E : prank g = prank (pnext h v (ph v))) by lia. apply prank_inj in E. now rewrite <- E.
      + rewrite Hph in Hle. unfold prank in Hle. simpl in Hle. destruct g as [n []]; simpl in *; lia.
  Qed.

  Definition meant_for (v : Verifier) (l : list (Verifier * Message)) := filter (fun x => eqb (msg_dest (snd x)) v) l.
  Definition mkey (x : Verifier * Message) : Verifier * RoundId := (fst x, rnd (snd x)).
  Lemma key_dec (x y : Verifier * RoundId) : {x = y} + {x <> y}.
  Proof. decide equality; apply ord_dec. Qed.
  Lemma count_keys l u v rid : count_occ key_dec (map mkey (meant_for v l)) (u, rid) = cnt_fl l u v rid.
  Proof.
    unfold cnt_fl, meant_for. induction l as [|[w m] l IH]; [reflexivity|]. cbn [filter fst snd].
    destruct (eqb_spec (msg_dest m) v) as [E|E]; [|rewrite andb_false_r; exact IH]. rewrite andb_true_r. cbn [map count_occ mkey fst snd].
    destruct (key_dec _ _) as [Ek|Ek].
    - apply (f_equal fst) in Ek as E1. apply (f_equal snd) in Ek. cbn [mkey fst snd] in *. subst w. rewrite Ek, !eqb_refl. cbn [andb length]. now rewrite IH.
    - assert ((eqb w u && eqb (rnd m) rid)%bool = false) as ->; [|exact IH].
      apply not_true_iff_false. intros Ht. apply andb_true_iff in Ht as [Ha Hb]. apply (proj1 (eqb_eq _ _)) in Ha. apply (proj1 (eqb_eq _ _)) in Hb. apply Ek. unfold mkey. cbn [fst snd]. congruence.
  Qed.

  Lemma few_in_flight net ph v : Inv net ph -> length (meant_for v (flight net)) <= 2 * (length (elements parties) - 1).
  Proof.
    intros I. destruct (meant_for v (flight net)) as [|x0 l0] eqn:El; [simpl; lia|]. rewrite <- El. clear x0 l0 El.
    destruct (mem v parties) eqn:Hv.
    2:{ destruct (meant_for v (flight net)) as [|[u m] l0] eqn:El; [simpl; lia|]. assert (Hin : In (u, m) (meant_for v (flight net))) by (rewrite El; now left).
        apply filter_In in Hin as [Hin Hd]. apply (proj1 (eqb_eq _ _)) in Hd. cbn [snd] in Hd. destruct (flight_facts _ _ I Hin) as (_ & Hp & _). congruence. }
    rewrite <- (map_length mkey).
    set (rids := [prid h (ph v); prid h (pnext h v (ph v))]).
    assert (Hlen : length (list_prod (elements (srem v parties)) rids) <= 2 * (length (elements parties) - 1)).
    { rewrite prod_length. unfold rids. cbn [length].
      assert (S (length (elements (srem v parties))) <= length (elements parties)); [|lia].
      change (S (length (elements (srem v parties)))) with (length (v :: elements (srem v parties))). apply NoDup_incl_length.
      - constructor; [|apply NoDup_elements]. rewrite in_elements, mem_rem, eqb_refl. discriminate.
      - intros u [<-|Hu]; apply in_elements; auto. apply in_elements in Hu. rewrite mem_rem in Hu. now apply andb_true_iff in Hu. }
    etransitivity; [|exact Hlen]. apply NoDup_incl_length.
    - apply (NoDup_count_occ key_dec). intros [u rid]. rewrite count_keys.
      destruct (cnt_fl (flight net) u v rid) as [|[|k]] eqn:Ec; try lia. exfalso.
      assert (Hin : In (u, rid) (map mkey (meant_for v (flight net)))). { apply (count_occ_In key_dec). rewrite count_keys, Ec. lia. }
      apply in_map_iff in Hin as ([w m] & Ek & Hin). apply filter_In in Hin as [Hin Hd]. apply (proj1 (eqb_eq _ _)) in Hd. cbn [snd] in Hd.
      apply (f_equal fst) in Ek as E1. apply (f_equal snd) in Ek. cbn [mkey fst snd] in *. subst w rid v.
      destruct (flight_facts _ _ I Hin) as (_ & _ & _ & _ & Hc & _). lia.
    - intros [u rid] Hin. apply in_map_iff in Hin as ([w m] & Ek & Hin). apply filter_In in Hin as [Hin Hd]. apply (proj1 (eqb_eq _ _)) in Hd. cbn [snd] in Hd.
      apply (f_equal fst) in Ek as E1. apply (f_equal snd) in Ek. cbn [mkey fst snd] in *. subst w rid v.
      destruct (flight_facts _ _ I Hin) as (Hu & _ & Hne & _ & _ & Hr). apply in_prod.
      + apply in_elements. rewrite mem_rem, Hu, andb_true_r. apply negb_true_iff. now apply eqb_neq.
      + unfold rids. destruct Hr as [->| ->]; [now left|right; now left].
  Qed.
End Flight.

Lemma take_nth_in {A} (x : A) l : In x l -> exists i rest, take_nth i l = Some (x, rest).
Proof.
  induction l as [|y l IH]; [contradiction|]. intros [->|H]; [exists 0, l; reflexivity|].
  destruct (IH H) as (i & rest & E). exists (S i), (y :: rest). cbn [take_nth]. now rewrite E.
Qed.
Lemma take_nth_perm {A} i (l : list A) x rest : take_nth i l = Some (x, rest) -> Permutation l (x :: rest).
Proof. intros H. apply take_nth_spec in H as (l1 & l2 & -> & ->). symmetry. apply Permutation_middle. Qed.
Lemma swap_remove_ok {A} (x : A) l : exists y l', swap_remove 0 (x :: l) = Some (y, l').
Proof. unfold swap_remove. simpl nth_error. eauto. Qed.

(** ** The simulation *)
Section Honest.
  Context {P : Params}.
  Context {Pr : Proto}.
  Variable r : NetRng.
  Variable sid : bytes.
  Variable parties : bset Verifier.
  Variable ep : Verifier -> EntryPoint Pr.
  Variable h : Plan Pr.
  Variable sk : Verifier -> Signer.
  Variable cap : nat.
  Hypothesis Hsk : signers parties sk.
  Hypothesis Hwire : wire_total P.
  Hypothesis Hsig : signatures_correct P.
  Hypothesis HR : honest_run r sid parties ep h.
  Hypothesis Hcap : 0 < cap.
  Hypothesis Hfew : 2 * (length (elements parties) - 1) <= cap.

  Notation good := (good_net sid parties h sk).
  Notation ks := (elements parties).

  Let Gs : forall net x o, good net -> act r net x = Some o -> exists net', o = Ok net' /\ good net'.
  Proof. intros net x o. exact (good_step Hsk Hwire Hsig HR x (o := o)). Qed.
  Let Gi : forall net v d, good net -> get v (nodes net) = Some (Running d) -> s_verifier (d_s d) = v.
  Proof. intros net v d. apply good_node; auto. Qed.
  Let Gn : forall net v d, good net -> get v (nodes net) = Some (Running d) -> can_finalize (d_a d) <> Never.
  Proof. intros net v d. apply good_never; auto. Qed.
  Let Ga : forall net, good net -> Acc (follows r) net.
  Proof. intros net. exact (good_acc_net Hsk Hwire Hsig HR (net := net)). Qed.

  Definition strip (o : MsgOut) : Verifier * Message := (mo_from o, mo_message o).
  Definition disp_fine (a : ANet Pr) : Prop :=
    match an_disp a with DispEnd (Ok _) => all_done (an_nodes a) = true | DispEnd _ => False | _ => True end.
  (** Whatever drives the nodes. *)
  Record hcore (a : ANet Pr) (net : Net Pr) : Prop := {
    hi_good : good net;
    hi_run : forall v d x, get v (an_nodes a) = Some d -> get v (nodes net) = Some (Running x) -> drv_done d = false;
    hi_wf : awf ks a;
    hi_flight : Permutation (map strip (waiting ks a)) (flight net);
    hi_to : forall o, In o (waiting ks a) -> mo_to o = msg_dest (mo_message o);
    hi_disp : disp_fine a
  }.
  Record hinv (a : ANet Pr) (net : Net Pr) : Prop := {
    hi_core : hcore a net;
    hi_rel : drel (mkDNet (an_nodes a) (flight net)) net
  }.
  Lemma hinv_intro a net : good net -> drel (mkDNet (an_nodes a) (flight net)) net -> awf ks a -> Permutation (map strip (waiting ks a)) (flight net) ->
    (forall o, In o (waiting ks a) -> mo_to o = msg_dest (mo_message o)) -> disp_fine a -> hinv a net.
  Proof.
    intros H1 H2 H3 H4 H5 H6. constructor; auto. constructor; auto. intros v d x Hd Hx. destruct (dr_some H2 v Hd) as (nd & Hnd & Hdn).
    rewrite Hx in Hnd. apply some_inj in Hnd. subst nd. destruct d as [| | |[rep|e|]]; simpl in Hdn; try reflexivity; try contradiction; discriminate Hdn.
  Qed.

  Definition disp_rank (p : Disp (P := P)) : nat :=
    match p with
    | DispEnd _ => 0
    | DispRecv => 1
    | DispPick ms => 2 + 8 * length ms
    | DispDrain ms => 3 + 8 * length ms
    | DispPoll ms => 4 + 8 * length ms
    | DispSend ms _ => 5 + 8 * length ms
    end.
  Definition dmu (a : ANet Pr) : nat := 12 * length (an_out a) + disp_rank (an_disp a).

  Lemma disp_less a i a' : disp_step cap a i = Some a' -> dmu a' < dmu a.
  Proof. clear Hcap Hfew.
    unfold disp_step, dmu. destruct (an_disp a) as [|ms|[|x ms]|ms o|ms|o] eqn:Ed; try discriminate.
    - destruct (an_out a) as [|x out] eqn:Eo; [destruct (all_done _); [|discriminate]|]; intros E; apply some_inj in E; subst a'; cbn [an_out an_disp disp_rank length]; lia.
    - destruct (an_out a) as [|x out] eqn:Eo; intros E; apply some_inj in E; subst a'; cbn [an_out an_disp disp_rank length]; rewrite ?app_length; cbn [length]; lia.
    - intros E; apply some_inj in E; subst a'; cbn [an_out an_disp disp_rank length]; lia.
    - destruct (swap_remove i (x :: ms)) as [[o ms']|] eqn:Es; [|discriminate]. intros E; apply some_inj in E; subst a'; cbn [an_out an_disp disp_rank].
      apply swap_remove_perm, Permutation_length in Es. cbn [length] in *. lia.
    - destruct (get (mo_to o) (an_in a)) as [q|]; [|intros E; apply some_inj in E; subst a'; cbn [an_out an_disp disp_rank]; lia].
      destruct (get (mo_to o) (an_nodes a)) as [[| | |]|]; try (intros E; apply some_inj in E; subst a'; cbn [an_out an_disp disp_rank]; lia);
        (destruct (Nat.ltb (length q) cap); [|discriminate]; intros E; apply some_inj in E; subst a'; cbn [an_out an_disp disp_rank]; lia).
    - destruct (an_out a) as [|x out] eqn:Eo; intros E; apply some_inj in E; subst a'; cbn [an_out an_disp disp_rank length]; rewrite ?app_length; cbn [length]; lia.
  Qed.

  Lemma waiting_running a net o : hcore a net -> In o (waiting ks a) ->
    exists d, get (mo_to o) (an_nodes a) = Some d /\ drv_done d = false /\ In (mo_to o) ks.
  Proof.
    intros I Ho. pose proof (hi_to I _ Ho) as Ht. destruct (hi_good I) as [ph J].
    assert (Hin : In (strip o) (flight net)) by (eapply Permutation_in; [apply (hi_flight I)|]; now apply in_map).
    destruct (@flight_facts _ _ r sid parties ep h sk HR net ph _ _ J Hin) as (_ & Hp & _ & [x Hx] & _). rewrite <- Ht in *.
    apply in_elements in Hp. pose proof (proj2 (aw_node (hi_wf I) (mo_to o)) Hp) as Hne.
    destruct (get (mo_to o) (an_nodes a)) as [d|] eqn:Ed; [|contradiction]. exists d. split; auto. split; auto. exact (hi_run I _ Ed Hx).
  Qed.

  Lemma waiting_meant v (l : list MsgOut) fl : (forall o, In o l -> mo_to o = msg_dest (mo_message o)) -> Permutation (map strip l) fl ->
    length (filter (fun o => eqb (mo_to o) v) l) = length (meant_for v fl).
  Proof.
    intros Ht Hp. transitivity (length (meant_for v (map strip l))).
    - revert Ht. clear Hp. induction l as [|o l IH]; intros Ht; [reflexivity|].
      unfold meant_for. cbn [map filter strip snd]. rewrite <- (Ht o (or_introl eq_refl)).
      assert (IH' := IH (fun o H => Ht o (or_intror H))). unfold meant_for in IH'. destruct (eqb (mo_to o) v); cbn [length]; rewrite IH'; reflexivity.
    - assert (Hperm : forall l l' : list (Verifier * Message), Permutation l l' -> length (meant_for v l) = length (meant_for v l')).
      { clear. intros l l' H. induction H as [|x l l' _ IH|x y l|l l' l'' _ IH1 _ IH2]; unfold meant_for in *; cbn [filter] in *; try congruence;
          repeat match goal with |- context [eqb ?a ?b] => destruct (eqb a b) end; cbn [length]; congruence. }
      apply Hperm, Hp.
  Qed.

  Lemma few_waiting a net v : hcore a net -> length (filter (fun o => eqb (mo_to o) v) (waiting ks a)) <= cap.
  Proof.
    intros I. destruct (hi_good I) as [ph J].
    pose proof (waiting_meant v _ (hi_to I) (hi_flight I)) as E.
    rewrite E. etransitivity; [|exact Hfew]. exact (@few_in_flight _ _ r sid parties ep h sk HR net ph v J).
  Qed.

  Lemma core_keeps a net i a' : hcore a net -> disp_step cap a i = Some a' -> hcore a' net.
  Proof.
    intros I E. pose proof (@disp_wf _ _ cap _ _ i _ (hi_wf I) E) as W. destruct (@disp_conserves _ _ cap _ _ i _ (hi_wf I) E) as (lost & Hp & Hl).
    pose proof (@disp_nodes _ _ cap _ i _ E) as En.
    assert (F : disp_fine a').
    { unfold disp_fine. rewrite En. unfold disp_step in E. destruct (an_disp a) as [|ms|[|x ms]|ms o|ms|o] eqn:Ed; try discriminate.
      - destruct (an_out a); [destruct (all_done _) eqn:Ea; [|discriminate]|]; apply some_inj in E; subst a'; cbn [an_disp]; auto.
      - destruct (an_out a); apply some_inj in E; subst a'; cbn [an_disp]; auto.
      - apply some_inj in E; subst a'; cbn [an_disp]; auto.
      - destruct (swap_remove i (x :: ms)) as [[o ms']|]; [|discriminate]. apply some_inj in E; subst a'; cbn [an_disp]; auto.
      - assert (Ho : In o (waiting ks a)). { unfold waiting. rewrite Ed. cbn [disp_msgs]. apply in_or_app. right. now left. }
        destruct (waiting_running o I Ho) as (d & Hd & Hdd & Hk). pose proof (proj2 (aw_in (hi_wf I) _) Hk) as Hq.
        destruct (get (mo_to o) (an_in a)) as [q|]; [|contradiction]. rewrite Hd in E.
        destruct d; try discriminate; (destruct (Nat.ltb (length q) cap); [|discriminate]); apply some_inj in E; subst a'; cbn [an_disp]; auto.
      - destruct (an_out a); apply some_inj in E; subst a'; cbn [an_disp]; auto. }
    assert (lost = []) as ->.
    { destruct Hl as [Hl|Hl]; auto. unfold disp_fine in F. unfold failed in Hl. destruct (an_disp a') as [| | | | |[]]; contradiction. }
    rewrite app_nil_r in Hp. constructor; auto.
    - apply I.
    - rewrite En. apply I.
    - etransitivity; [|apply (hi_flight I)]. apply Permutation_map. now symmetry.
    - intros o Ho. apply (hi_to I). eapply Permutation_in; [symmetry; exact Hp|exact Ho].
  Qed.
  Lemma disp_keeps a net i a' : hinv a net -> disp_step cap a i = Some a' -> hinv a' net.
  Proof. intros I E. constructor; [exact (core_keeps i (hi_core I) E)|]. rewrite (@disp_nodes _ _ cap _ i _ E). apply I. Qed.

  Lemma go_outs v (d : Drv Pr) ls d' : drv_step r d IGo = Some (ls, d') ->
    map strip (sent_in (map (pair v) ls)) = outs v ls /\ forall o, In o (sent_in (map (pair v) ls)) -> mo_to o = msg_dest (mo_message o).
  Proof.
    intros E. split.
    - unfold sent_in, outs. clear E. induction ls as [|l ls IH]; [reflexivity|]. cbn [map flat_map fst snd]. rewrite map_app, IH. destruct l; reflexivity.
    - intros o Ho. apply in_flat_map in Ho as ([w l] & Hl & Ho). apply in_map_iff in Hl as (l0 & El & Hl). apply (f_equal fst) in El as E1. apply (f_equal snd) in El.
      cbn [fst snd] in *. subst w l0. destruct l as [|dest m| | | | | | |]; try contradiction. destruct Ho as [<-|[]]. cbn [mo_to mo_message].
      destruct d as [s a de dests c|s a vm c|s a|oo]; cbn [drv_step] in E; [| | |discriminate].
      + destruct (make_message s _ de) as [[m1 pa]|e|] eqn:Em; apply some_inj in E; apply (f_equal fst) in E; cbn [fst] in E; subst ls; destruct Hl as [El|[]]; try discriminate El.
        apply made_msg in Em. destruct Em as [Em _]. congruence.
      + apply some_inj in E; apply (f_equal fst) in E; cbn [fst] in E; subst ls. destruct Hl as [El|[]]; discriminate El.
      + destruct (can_finalize a); try discriminate.
        * destruct (finalize_round _ _ _) as [[rep|s' c]|e|]; apply some_inj in E; apply (f_equal fst) in E; cbn [fst] in E; subst ls;
            destruct Hl as [El|Hl]; try discriminate El; simpl in Hl; try contradiction; destruct Hl as [El|[]]; discriminate El.
        * apply some_inj in E; apply (f_equal fst) in E; cbn [fst] in E; subst ls. destruct Hl as [El|[]]; discriminate El.
  Qed.

  Lemma all_done_node (m : bmap Verifier (Drv Pr)) v d : all_done m = true -> get v m = Some d -> drv_done d = true.
  Proof. intros H Hv. unfold all_done in H. rewrite forallb_forall in H. apply in_to_list in Hv. exact (H _ Hv). Qed.

  Lemma node_keeps a net v d i ls d' : hinv a net -> get v (an_nodes a) = Some d -> node_input cap a v d = Some i -> drv_step r d i = Some (ls, d') ->
    forall a', aact r cap a (ANode v) = Some (map (pair v) ls, a') -> an_nodes a' = insert v d' (an_nodes a) -> an_disp a' = an_disp a ->
    exists net', hinv a' net' /\ later r net' net.
  Proof.
    intros I Hv Hi Hs a' Hact En Ed. pose proof (@act_wf _ _ r cap _ _ (ANode v) _ _ (hi_wf (hi_core I)) Hact) as W.
    destruct (@act_conserves _ _ r cap _ _ (ANode v) _ _ (hi_wf (hi_core I)) Hact) as (lost & Hp & Hl).
    assert (Hnd : drv_done d = false) by (destruct d; auto; discriminate).
    assert (Hend : disp_done (an_disp a) = false).
    { pose proof (hi_disp (hi_core I)) as F. unfold disp_fine in F. destruct (an_disp a) as [| | | | |[u|e|]]; auto; [|contradiction|contradiction].
      rewrite (@all_done_node _ _ _ F Hv) in Hnd. discriminate. }
    assert (F : disp_fine a'). { unfold disp_fine. rewrite Ed. destruct (an_disp a); auto. discriminate. }
    assert (lost = []) as ->. { destruct Hl as [Hl|Hl]; auto. rewrite Ed in Hl. destruct (an_disp a); try contradiction. discriminate. }
    rewrite app_nil_r in Hp. clear Hl. pose proof (@step_labels _ _ r _ _ _ _ Hs) as Hlab.
    assert (Kgo : i = IGo -> exists net', hinv a' net' /\ later r net' net).
    { intros ->. destruct (@go_sim _ _ r good Gs Gi Gn v _ net d ls d' (hi_good (hi_core I)) (hi_rel I) Hv Hs) as (net' & L & Hg & R).
      cbn [dn_nodes dn_flight] in R. pose proof (dr_flight R) as Hf. cbn [dn_flight] in Hf.
      destruct (taken_none v _ Hlab) as [Ht _]. rewrite Ht in Hp. cbn [app] in Hp. destruct (go_outs v _ Hs) as [O1 O2].
      exists net'. split; auto. apply hinv_intro; auto.
      - rewrite En, <- Hf. exact R.
      - rewrite <- Hp, map_app, O1, <- Hf. apply Permutation_app_tail, (hi_core I).
      - intros o Ho. apply (Permutation_in _ (Permutation_sym Hp)) in Ho. apply in_app_or in Ho as [Ho|Ho]; [now apply (hi_to (hi_core I))|now apply O2]. }
    destruct i as [| |from m| |]; [apply Kgo; reflexivity| | | |].
    - unfold node_input in Hi. rewrite Hend in Hi. destruct d as [| |s ac|]; try (destruct (Nat.ltb _ _); discriminate); try discriminate.
      destruct (can_finalize ac); try discriminate. destruct (get v (an_in a)) as [[|[]]|]; discriminate.
    - subst ls. cbn [map sent_in taken_in flat_map fst snd app] in Hp. rewrite app_nil_r in Hp.
      assert (Ho : In (mkOut from v m) (waiting ks a)) by (eapply Permutation_in; [symmetry; exact Hp|now left]).
      pose proof (hi_to (hi_core I) _ Ho) as Ht. cbn [mo_to mo_message] in Ht.
      assert (Hin : In (from, m) (flight net)). { eapply Permutation_in; [apply (hi_flight (hi_core I))|]. exact (in_map strip _ _ Ho). }
      destruct (take_nth_in _ _ Hin) as (j & rest & Hj).
      assert (Hd : dact r (mkDNet (an_nodes a) (flight net)) (DDeliver j) = Some (mkDNet (insert v d' (an_nodes a)) rest)).
      { cbn [dact dn_flight dn_nodes]. rewrite Hj, <- Ht, Hv, Hs. destruct d; [reflexivity|reflexivity|reflexivity|discriminate]. }
      destruct (@dstep_sim _ _ r good Gs Gi Gn (DDeliver j) _ _ net (hi_good (hi_core I)) (hi_rel I) Hd) as (net' & L & Hg & R).
      pose proof (dr_flight R) as Hf. cbn [dn_flight] in Hf. exists net'. split; auto. apply hinv_intro; auto.
      + rewrite En, <- Hf. exact R.
      + rewrite <- Hf. apply Permutation_cons_inv with (a := (from, m)). rewrite <- (take_nth_perm _ _ Hj), <- (hi_flight (hi_core I)), Hp. reflexivity.
      + intros o Ho'. apply (hi_to (hi_core I)). eapply Permutation_in; [symmetry; exact Hp|now right].
    - unfold node_input in Hi. rewrite Hend in Hi. destruct d as [| |s ac|]; try (destruct (Nat.ltb _ _); discriminate); try discriminate.
      destruct (can_finalize ac); try discriminate. destruct (get v (an_in a)) as [[|[]]|]; discriminate.
    - unfold node_input in Hi. rewrite Hend in Hi. destruct d as [| |s ac|]; try (destruct (Nat.ltb _ _); discriminate); try discriminate.
      destruct (can_finalize ac); try discriminate. destruct (get v (an_in a)) as [[|[]]|]; discriminate.
  Qed.

  Lemma act_keeps a net x ls a' : hinv a net -> aact r cap a x = Some (ls, a') ->
    exists net', hinv a' net' /\ (later r net' net \/ net' = net /\ dmu a' < dmu a).
  Proof.
    intros I E. destruct x as [v|i].
    - pose proof E as E0. cbn [aact] in E. destruct (get v (an_nodes a)) as [d|] eqn:Hv; [|discriminate]. destruct (node_input cap a v d) as [i|] eqn:Hi; [|discriminate].
      destruct (drv_step r d i) as [[ls0 d']|] eqn:Hs; [|discriminate]. apply stp_inj in E as [-> E].
      destruct (@node_keeps a net v d i ls0 d' I Hv Hi Hs a' E0) as (net' & I' & L); [subst a'; reflexivity|subst a'; reflexivity|]. eauto.
    - cbn [aact] in E. destruct (disp_step cap a i) as [a1|] eqn:E1; [|discriminate]. apply stp_inj in E as [_ ->].
      exists net. split; [eapply disp_keeps; eauto|]. right. split; auto. eapply disp_less; eauto.
  Qed.

  Lemma sched_keeps a net tr a' : hinv a net -> aschedule r cap a tr a' -> exists net', hinv a' net'.
  Proof.
    intros I H. induction H as [a|a tr a1 x ls a2 H IH Hx]; [eauto|]. destruct (IH I) as [net1 I1]. destruct (act_keeps x I1 Hx) as (net2 & I2 & _). eauto.
  Qed.

  (** Nothing goes on for ever. *)
  Lemma async_finite net : good net -> forall a, hinv a net -> forall f : nat -> ANet Pr, f 0 = a -> ~ forall i, exists x ls, aact r cap (f i) x = Some (ls, f (S i)).
  Proof.
    intros Hg. pose proof (@later_acc _ _ r good Ga net Hg) as HA. induction HA as [net _ IH]. intros a I. remember (dmu a) as k eqn:Ek. revert a I Ek Hg.
    induction k as [k IHk] using lt_wf_ind. intros a I Ek Hg f E Hall.
    destruct (Hall 0) as (x & ls & Hx). rewrite E in Hx. destruct (act_keeps x I Hx) as (net' & I' & [L|[-> Hlt]]).
    - apply (IH net' L (hi_good (hi_core I')) _ I' (fun i => f (S i)) eq_refl). intros i. apply Hall.
    - subst k. apply (IHk _ Hlt _ I' eq_refl Hg (fun i => f (S i)) eq_refl). intros i. apply Hall.
  Qed.

  (** ** What it returns *)
  Lemma await_cases (l : list (Verifier * Drv Pr)) : forall m, (forall v d, In (v, d) l -> match d with DrvDone (Ok _) => True | DrvDone _ => False | _ => True end) ->
    match await_nodes l m with Some (Ok _) => forall v d, In (v, d) l -> drv_done d = true | Some _ => False | None => exists v d, In (v, d) l /\ drv_done d = false end.
  Proof.
    induction l as [|[v d] l IH]; intros m H; cbn [await_nodes]; [intros v d []|].
    pose proof (H v d (or_introl eq_refl)) as Hd.
    destruct d as [s a dest dests c|s a vm c|s a|[rep|e|]]; try contradiction; try (eexists v, _; split; [now left|reflexivity]).
    specialize (IH (insert v rep m) (fun v' d' H' => H v' d' (or_intror H'))). destruct (await_nodes l _) as [[x|e|]|]; auto.
    - intros w d [E|Hin]; [apply (f_equal snd) in E; cbn [snd] in E; now subst d|eauto].
    - destruct IH as (w & d & Hin & Hd'). exists w, d. split; auto. now right.
  Qed.

  Definition fine_nodes (a : ANet Pr) : Prop := forall v d, get v (an_nodes a) = Some d ->
    match d with DrvDone (Ok rep) => rep_outcome rep = OResult (pl_result h v) /\ no_errors (Ended rep) | DrvDone _ => False | _ => True end.
  Lemma ended_fine net v rep : good net -> get v (nodes net) = Some (Ended rep) -> rep_outcome rep = OResult (pl_result h v) /\ no_errors (Ended rep).
  Proof.
    intros [ph J] Hnd. assert (Hp : mem v parties = true).
    { destruct (mem v parties) eqn:Hp; auto. rewrite (ni_none J v Hp) in Hnd. discriminate. }
    pose proof (ni_node J v Hp) as Hn. rewrite Hnd in Hn. tauto.
  Qed.
  Lemma nodes_fine a net : hinv a net -> fine_nodes a.
  Proof.
    intros I v d Hv. destruct (dr_some (hi_rel I) v Hv) as (nd & Hnd & Hd). destruct d as [s a' dest dests c|s a' vm c|s a'|[rep|e|]]; auto.
    simpl in Hd. subst nd. exact (ended_fine v (hi_good (hi_core I)) Hnd).
  Qed.

  Lemma returned_core a net o : hcore a net -> fine_nodes a -> async_returns a = Some o -> exists reports, o = Ok reports /\ all_reports parties h reports.
  Proof.
    intros I Fn Ho.
    assert (Hc := @await_cases (to_list (an_nodes a)) empty).
    assert (Hpre : forall v d, In (v, d) (to_list (an_nodes a)) -> match d with DrvDone (Ok _) => True | DrvDone _ => False | _ => True end).
    { intros v d Hin. apply in_to_list in Hin. pose proof (Fn v d Hin) as H. destruct d as [| | |[rep|e|]]; auto. }
    specialize (Hc Hpre).
    assert (Hok : exists reports, o = Ok reports).
    { unfold async_returns in Ho. destruct (await_nodes _ _) as [[x|e|]|]; try contradiction; [|destruct (an_disp a) as [| | | | |[]]; discriminate].
      pose proof (hi_disp I) as F. unfold disp_fine in F. destruct (an_disp a) as [| | | | |[u|e|]]; try discriminate; try contradiction. exists x. congruence. }
    destruct Hok as [reports ->]. exists reports. split; auto. destruct (returns_ok _ Ho) as [_ Hr]. split.
    - intros v Hv. specialize (Hr v). destruct (get v (an_nodes a)) as [d|] eqn:Ed; auto.
      assert (Hin : In v ks) by (apply (aw_node (hi_wf I)); congruence). apply in_elements in Hin. congruence.
    - intros v Hv. specialize (Hr v). apply in_elements in Hv. pose proof (proj2 (aw_node (hi_wf I) v) Hv) as Hne.
      destruct (get v (an_nodes a)) as [d|] eqn:Ed; [|contradiction]. destruct Hr as (rep & -> & Hrep). exists rep. split; auto. exact (Fn v _ Ed).
  Qed.

  Lemma all_done_iff (m : bmap Verifier (Drv Pr)) : (forall v d, get v m = Some d -> drv_done d = true) -> all_done m = true.
  Proof. intros H. unfold all_done. apply forallb_forall. intros [v d] Hin. apply in_to_list in Hin. exact (H v d Hin). Qed.

  Lemma end_returns a net u : hcore a net -> fine_nodes a -> an_disp a = DispEnd (Ok u) -> async_returns a <> None.
  Proof.
    intros I Fn Hend. pose proof (hi_disp I) as F. unfold disp_fine in F. rewrite Hend in F.
    assert (Hpre : forall v d, In (v, d) (to_list (an_nodes a)) -> match d with DrvDone (Ok _) => True | DrvDone _ => False | _ => True end).
    { intros v d Hin. apply in_to_list in Hin. pose proof (Fn v d Hin) as H. destruct d as [| | |[rep|e|]]; auto. }
    pose proof (@await_cases _ empty Hpre) as Hc. unfold async_returns. rewrite Hend. destruct (await_nodes _ _) as [[x|e|]|]; try discriminate; try contradiction.
    destruct Hc as (v & d & Hin & Hd). apply in_to_list in Hin. rewrite (@all_done_node _ _ _ F Hin) in Hd. discriminate.
  Qed.

  (** The dispatcher is never kept waiting by a full channel. *)
  (** The messages that wait are for nodes that run. *)
  Definition live (a : ANet Pr) : Prop := forall o, In o (waiting ks a) ->
    exists d, get (mo_to o) (an_nodes a) = Some d /\ drv_done d = false /\ In (mo_to o) ks.
  Lemma disp_stuck_gen a : awf ks a -> disp_fine a -> live a -> (forall v, length (filter (fun o => eqb (mo_to o) v) (waiting ks a)) <= cap) -> (forall i, disp_step cap a i = None) ->
    (exists u, an_disp a = DispEnd (Ok u)) \/ an_disp a = DispRecv /\ an_out a = [] /\ all_done (an_nodes a) = false.
  Proof.
    intros W F L Hcnt Hdisp. destruct (an_disp a) as [|ms|[|x ms]|ms o|ms|o] eqn:Ed; [|exfalso|exfalso|exfalso|exfalso|exfalso|].
    - specialize (Hdisp 0). unfold disp_step in Hdisp. rewrite Ed in Hdisp. destruct (an_out a) as [|x out] eqn:Eo; [|discriminate].
      destruct (all_done (an_nodes a)) eqn:Ea; [discriminate|]. auto.
    - specialize (Hdisp 0). unfold disp_step in Hdisp. rewrite Ed in Hdisp. destruct (an_out a); discriminate.
    - specialize (Hdisp 0). unfold disp_step in Hdisp. rewrite Ed in Hdisp. discriminate.
    - specialize (Hdisp 0). unfold disp_step in Hdisp. rewrite Ed in Hdisp. destruct (swap_remove_ok x ms) as (y & l' & E). rewrite E in Hdisp. discriminate.
    - assert (Ho : In o (waiting ks a)). { unfold waiting. rewrite Ed. cbn [disp_msgs]. apply in_or_app. right. now left. }
      destruct (L _ Ho) as (d & Hd & Hdd & Hk). pose proof (proj2 (aw_in (W) _) Hk) as Hq.
      specialize (Hdisp 0). unfold disp_step in Hdisp. rewrite Ed in Hdisp. destruct (get (mo_to o) (an_in a)) as [q|] eqn:Eq; [|contradiction]. rewrite Hd in Hdisp.
      assert (Hlt : length q < cap).
      { pose proof (Hcnt (mo_to o)) as Hle. unfold waiting in Hle. rewrite Ed in Hle. cbn [disp_msgs] in Hle.
        rewrite !filter_app, !app_length in Hle. cbn [filter] in Hle. rewrite eqb_refl in Hle. cbn [length] in Hle.
        assert (length q <= length (filter (fun o' => eqb (mo_to o') (mo_to o)) (flat_map (in_msgs a) ks))); [|lia].
        destruct (@flat_map_update _ _ (in_msgs a) (in_msgs a) (mo_to o) ks) as (l & L' & _); [exact (aw_nd W)|exact Hk|reflexivity|].
        assert (Hperm : forall l l' : list MsgOut, Permutation l l' -> length (filter (fun o' => eqb (mo_to o') (mo_to o)) l) = length (filter (fun o' => eqb (mo_to o') (mo_to o)) l')).
        { intros l1 l2 H. induction H as [|z l1 l2 _ IH|z y l1|l1 l2 l3 _ IH1 _ IH2]; cbn [filter] in *; try congruence;
            repeat match goal with |- context [eqb ?a ?b] => destruct (eqb a b) end; cbn [length]; congruence. }
        rewrite (Hperm _ _ L'), filter_app, app_length. unfold in_msgs at 1. rewrite Eq.
        assert (length (filter (fun o' => eqb (mo_to o') (mo_to o)) (map (fun p => mkOut (fst p) (mo_to o) (snd p)) q)) = length q) as ->; [|lia].
        clear. induction q as [|x q IH]; [reflexivity|]. cbn [map filter mo_to]. rewrite eqb_refl. cbn [length]. now rewrite IH. }
      apply Nat.ltb_lt in Hlt. rewrite Hlt in Hdisp. destruct d; discriminate.
    - specialize (Hdisp 0). unfold disp_step in Hdisp. rewrite Ed in Hdisp. destruct (an_out a); discriminate.
    - left. unfold disp_fine in F. rewrite Ed in F. destruct o as [u|e|]; try contradiction. eauto.
  Qed.
  Lemma disp_stuck a net : hcore a net -> (forall i, disp_step cap a i = None) ->
    (exists u, an_disp a = DispEnd (Ok u)) \/ an_disp a = DispRecv /\ an_out a = [] /\ all_done (an_nodes a) = false.
  Proof. intros I. apply disp_stuck_gen; [apply I|apply I|intros o; exact (waiting_running o I)|intros v; exact (few_waiting v I)]. Qed.
  Lemma nothing_waiting (a : ANet Pr) : an_disp a = DispRecv -> an_out a = [] -> (forall v, In v ks -> in_msgs a v = []) -> waiting ks a = [].
  Proof.
    intros Ed Eo Hq. unfold waiting. rewrite Eo, Ed. cbn [disp_msgs app]. revert Hq. generalize ks. induction l as [|v l IH]; intros Hq; [reflexivity|]. cbn [flat_map].
    rewrite (Hq v (or_introl eq_refl)), IH; auto. intros w Hw. apply Hq. now right.
  Qed.

  Lemma stuck_quiet a : live a -> async_stuck r cap a -> an_disp a = DispRecv -> an_out a = [] ->
    (forall v d, get v (an_nodes a) = Some d -> drv_step r d IGo = None) /\ waiting ks a = [].
  Proof.
    intros L Hst Ed Eo.
    assert (Hnode : forall v d, get v (an_nodes a) = Some d -> forall i, node_input cap a v d = Some i -> drv_step r d i = None).
    { intros v d Hv i Hi. specialize (Hst (ANode v)). cbn [aact] in Hst. rewrite Hv, Hi in Hst. destruct (drv_step r d i) as [[ls d']|]; congruence. }
    assert (Hgo : forall v d, get v (an_nodes a) = Some d -> drv_step r d IGo = None).
    { intros v d Hv. destruct d as [s ac dest dests c|s ac vm c|s ac|oo]; [| | |reflexivity].
      - apply (Hnode v _ Hv). cbn [node_input]. rewrite Ed, Eo. cbn [disp_done length]. assert (Nat.ltb 0 cap = true) as -> by now apply Nat.ltb_lt. reflexivity.
      - apply (Hnode v _ Hv). reflexivity.
      - cbn [drv_step]. pose proof (Hnode v _ Hv) as Hn. cbn [node_input] in Hn. destruct (can_finalize ac) eqn:Ec; auto.
        + specialize (Hn _ eq_refl). cbn [drv_step] in Hn. rewrite Ec in Hn. exact Hn.
        + specialize (Hn _ eq_refl). cbn [drv_step] in Hn. rewrite Ec in Hn. exact Hn. }
    split; auto. apply nothing_waiting; auto.
    intros v Hv. unfold in_msgs. destruct (get v (an_in a)) as [[|[f m] q]|] eqn:Eq; auto. exfalso.
      assert (Ho : In (mkOut f v m) (waiting ks a)).
      { unfold waiting. rewrite Eo, Ed. cbn [disp_msgs app]. apply in_flat_map. exists v. split; auto. unfold in_msgs. rewrite Eq. now left. }
      destruct (L _ Ho) as (d & Hd & Hdd & _). cbn [mo_to] in Hd. pose proof (Hgo v d Hd) as Hg.
      destruct d as [s ac dest dests c|s ac vm c|s ac|oo]; [| | |discriminate].
      - cbn [drv_step] in Hg. destruct (make_message _ _ _) as [[]| |]; discriminate.
      - discriminate.
      - cbn [drv_step] in Hg. destruct (can_finalize ac) eqn:Ec.
        + destruct (finalize_round _ _ _) as [[]| |]; discriminate.
        + pose proof (Hnode v _ Hd (IRecv f m)) as Hn. cbn [node_input] in Hn. rewrite Ec, Eq in Hn. specialize (Hn eq_refl). cbn [drv_step] in Hn. rewrite Ec in Hn. discriminate.
        + discriminate.
  Qed.

  Lemma stuck_returned a net : hinv a net -> async_stuck r cap a -> async_returns a <> None.
  Proof.
    intros I Hst. pose proof (hi_core I) as C.
    assert (Hdisp : forall i, disp_step cap a i = None). { intros i. specialize (Hst (ADisp i)). cbn [aact] in Hst. destruct (disp_step cap a i); congruence. }
    destruct (disp_stuck C Hdisp) as [[u Hend]|(Ed & Eo & Ea)]; [exact (end_returns C (nodes_fine I) Hend)|exfalso].
    destruct (stuck_quiet (fun o => waiting_running o C) Hst Ed Eo) as [Hgo Hw].
    pose proof (hi_flight C) as Hf. rewrite Hw in Hf. apply Permutation_nil in Hf.
    destruct (hi_good C) as [ph J]. destruct (progress Hsk Hwire Hsig HR J) as [[Hall _]|(x & net2 & Hx)].
    - apply not_true_iff_false in Ea. apply Ea. apply all_done_iff. intros v d Hd.
      assert (Hp : mem v parties = true) by (apply in_elements; apply (aw_node (hi_wf C)); congruence).
      destruct (Hall v Hp) as (rep & Hrep & _). destruct (dr_some (hi_rel I) v Hd) as (nd & Hnd & Hdn). rewrite Hrep in Hnd. apply some_inj in Hnd. subst nd.
      destruct d as [s ac dest dests c|s ac vm c|s ac|oo]; auto; destruct Hdn as (_ & y & _ & Ey); discriminate Ey.
    - destruct (@dstep_back _ _ r good Gs _ net x _ (hi_good C) (hi_rel I) Hx) as (y & dn' & Hy). destruct y as [v|j]; cbn [dact dn_nodes dn_flight] in Hy.
      + destruct (get v (an_nodes a)) as [d|] eqn:Hd; [|discriminate]. rewrite (Hgo v d Hd) in Hy. discriminate.
      + rewrite Hf in Hy. destruct j; discriminate.
  Qed.

  (** ** The start *)
  Lemma starts_same ps : map_res (fun p : Signer * EntryPoint Pr =>
      let* s := session_new (nr_new r (signer_key (fst p))) sid (fst p) (snd p) in Ok (signer_key (fst p), drv_enter s [])) ps =
    let* l := map_res (fun p => let* s := session_new (nr_new r (signer_key (fst p))) sid (fst p) (snd p) in Ok (signer_key (fst p), s)) ps in
    Ok (map (fun vs => (fst vs, drv_enter (snd vs) [])) l).
  Proof.
    induction ps as [|p ps IH]; [reflexivity|]. cbn [map_res]. destruct (session_new _ _ _ _) as [s|e|]; try reflexivity. cbn [bind]. rewrite IH.
    match goal with |- context [map_res ?f ps] => destruct (map_res f ps) end; reflexivity.
  Qed.
  Lemma async_started : exists a net, honest_anet r sid parties sk ep = Ok a /\ hinv a net.
  Proof.
    destruct (@dnet_started _ _ r sid parties ep h sk Hsk Hwire Hsig HR) as (dn & net & Ed & Hg & R).
    unfold honest_dnet, dnet_start in Ed. rewrite starts_same in Ed.
    destruct (map_res _ _) as [l|e|] eqn:El; try discriminate. cbn [bind] in Ed. injection Ed as <-.
    assert (Hks : map (fun p : Signer * EntryPoint Pr => signer_key (fst p)) (map (fun v => (sk v, ep v)) ks) = ks).
    { rewrite map_map. cbn [fst]. transitivity (map (fun v : Verifier => v) ks); [|apply map_id]. apply map_ext_in. intros v Hv. apply Hsk. now apply in_elements. }
    assert (Ea : exists a, honest_anet r sid parties sk ep = Ok a /\ an_nodes a = of_list (map (fun vs => (fst vs, drv_enter (snd vs) [])) l)).
    { unfold honest_anet, anet_start. rewrite El. cbn [bind]. eexists. split; reflexivity. }
    destruct Ea as (a & Ea & Hn). exists a, net. split; auto. unfold honest_anet in Ea.
    assert (Hnd : NoDup (map (fun p : Signer * EntryPoint Pr => signer_key (fst p)) (map (fun v => (sk v, ep v)) ks))) by (rewrite Hks; apply NoDup_elements).
    destruct (@anet_start_ok _ _ r sid _ _ Hnd Ea) as (W & H1 & H2 & H3 & _).
    rewrite Hks in W. pose proof (dr_flight R) as Hf. cbn [dn_flight] in Hf. pose proof (waiting_start ks a H1 H2 H3) as Hw.
    apply hinv_intro; auto.
    - rewrite Hn, <- Hf. exact R.
    - rewrite Hw, <- Hf. reflexivity.
    - rewrite Hw. intros o [].
    - unfold disp_fine. now rewrite H2.
  Qed.

  Lemma honest_async : exists a0, honest_anet r sid parties sk ep = Ok a0 /\
    (forall tr a, aschedule r cap a0 tr a ->
       (forall o, async_returns a = Some o -> exists reports, o = Ok reports /\ all_reports parties h reports) /\
       (async_stuck r cap a -> async_returns a <> None)) /\
    (forall f : nat -> ANet Pr, f 0 = a0 -> ~ forall i, exists x ls, aact r cap (f i) x = Some (ls, f (S i))).
  Proof.
    destruct async_started as (a0 & net0 & E & I). exists a0. split; auto. split.
    - intros tr a H. destruct (sched_keeps I H) as [net I']. split; [intros o; apply (returned_core (hi_core I') (nodes_fine I'))|apply (stuck_returned I')].
    - intros f Hf. exact (async_finite (hi_good (hi_core I)) I f Hf).
  Qed.
End Honest.
