(** The results of the example protocols, whatever the other parties do; the ids of entry rounds. *)
From Coq Require Import List NArith Bool Lia Permutation.
From Verif Require Import Base BMap Errors RoundId Message Protocol Transcript Evidence Session Typed Simple Dining Spec SpecStory
  SpecNet SpecChain Chain Extend PartialEcho Bench DoubleSimple SessionFacts TypedFacts HonestFacts StoryFacts.
Import ListNotations.
Set Implicit Arguments.

Section Results.
  Context {P : Params}.

  Lemma contains_fun {V} (q : bmap Verifier V) dom (x0 : V) : (forall v, contains v q = true <-> mem v dom = true) ->
    is_map q dom (fun v => match get v q with Some x => x | None => x0 end).
  Proof.
    intros H u. specialize (H u). unfold contains in H. destruct (get u q), (mem u dom); simpl in *; auto; exfalso; intuition discriminate.
  Qed.

  Section SimpleResult.
    Variable W : SimpleWire.
    Variable parties : bset Verifier.
    Notation T := (simple W).
    Notation pos := (pos parties).

    Definition claims es sid rid c me (f : Verifier -> N) : Prop :=
      forall v, mem v parties = true -> v <> me -> wrote (Pr := wrap T) es sid rid c v (mkPosition (f v) (pos me)).
    Definition total me (f : Verifier -> N) : N := (pos me + nsum (map f (elements (srem me parties))))%N.

    Lemma position_pos {E} me n : @position _ E (sim_ctx parties me) me = Ok n -> n = pos me.
    Proof. unfold position, SpecNet.pos, sim_ctx. cbn [cx_positions]. destruct (get me _); intros H; now inv H. Qed.

    Lemma total_claims me q f t : is_map q (srem me parties) f -> simple_total (sim_ctx parties me) q = Ok t ->
      t = total me f /\ (t <= 255)%N.
    Proof.
      intros Hq H. unfold simple_total in H. cbn [cx_id sim_ctx] in H. apply bind_ok in H as (n & Hn & H). apply position_pos in Hn. subst n.
      rewrite u8_sum_eq, (nsum_perm (is_map_perm Hq)) in H.
      destruct (N.leb_spec (nsum (map f (elements (srem me parties)))) u8_max); cbn [bind] in H; [|discriminate].
      unfold u8_add in H. destruct (N.leb_spec (pos me + nsum (map f (elements (srem me parties)))) u8_max) as [L|L]; inv H. auto.
    Qed.

    Definition ctx_of k (x : simple_st k) : Ctx := simple_ctx k x.
    Lemma said_claims es sid k (x : simple_st k) q me : ctx_of k x = sim_ctx parties me -> said T es sid k x q ->
      exists f, is_map q (srem me parties) f /\
        claims es sid (ti_id (simple_tinfo k x)) (match k with SR1 => sw_message1 W | SR2 => sw_message2 W end) me f.
    Proof.
      intros Hc [H1 H2]. cbn [t_pay simple ty simple_ty] in q, H2.
      assert (Hd : forall v, contains v q = true <-> mem v (srem me parties) = true).
      { intros v. rewrite H1. cbn [t_cinfo simple]. unfold ctx_of in Hc. rewrite Hc. reflexivity. }
      exists (fun v => match get v q with Some y => y | None => 0%N end). split; [now apply contains_fun|].
      intros v Hv Hne. assert (Hcv : contains v q = true). { apply Hd. rewrite mem_rem, Hv. destruct (eqb_spec v me); [contradiction|auto]. }
      unfold contains in Hcv. destruct (get v q) as [y|] eqn:E; [|discriminate].
      destruct (H2 _ _ E) as (vm & d & e & n & V1 & V2 & V3 & D1 & _ & _ & R). exists vm.
      destruct k; cbn [t_direct simple simple_message part_deser msg] in D1;
        destruct (sp_body (vm_direct vm)) as [b|]; try discriminate; exists b; (split; [exact V1|split; [exact V2|split; [exact V3|split; [reflexivity|]]]]); rewrite D1; f_equal;
        cbn [t_receive simple] in R; unfold ctx_of, simple_ctx in Hc; unfold simple_receive in R; rewrite Hc in R; cbn [cx_id sim_ctx] in R;
        apply bind_ok in R as (m & Hm & R); apply position_pos in Hm; subst m; destruct (N.eqb_spec (pos me) (your_position d)) as [Ey|]; simpl in R; inv R; destruct d; simpl in *; congruence.
    Qed.

    Lemma simple_brings es sid me st : brings (Pr := wrap T) es sid (box T SR1 (sim_ctx parties me) : St (wrap T)) st ->
      st = box T SR1 (sim_ctx parties me) \/
      exists f, claims es sid (rid_new 1) (sw_message1 W) me f /\ st = box T SR2 (mkSimple2 (total me f) (sim_ctx parties me)).
    Proof.
      intros H. remember (box T SR1 (sim_ctx parties me) : St (wrap T)) as s0 eqn:E0. induction H as [st|st0 st g ps arts st' Hb IH Ho Hw Hf].
      - now left.
      - specialize (IH E0). clear Hb. right. destruct IH as [E|(f & Hcl & E)]; subst st; try subst st0.
        + destruct (@typed_story _ T SR1 _ _ _ _ _ Ho Hw) as (q & qa & Hs & Hfin). rewrite Hfin in Hf. clear Hfin.
          destruct (@said_claims es sid SR1 _ q me eq_refl Hs) as (f & Hm & Hcl). cbn [t_finalize simple] in Hf.
          apply bind_ok in Hf as (t & Ht & Hf). destruct (total_claims Hm Ht) as [-> _]. inv Hf. exists f. auto.
        + destruct (@typed_story _ T SR2 _ _ _ _ _ Ho Hw) as (q & qa & Hs & Hfin). rewrite Hfin in Hf. cbn [t_finalize simple] in Hf.
          apply bind_ok in Hf as (t & Ht & Hf). apply bind_ok in Hf as (t' & Ht' & Hf). discriminate.
    Qed.

    Lemma simple_result g sid signer s es (d : DState (wrap T)) g' rep :
      session_new g sid signer (simple_entry W parties) = Ok s -> run (start s) es d ->
      can_finalize (d_a d) = Yes -> finalize_round (d_s d) g' (d_a d) = Ok (ROFinished rep) ->
      let me := signer_key signer in
      exists f1 f2, claims es sid (rid_new 1) (sw_message1 W) me f1 /\ claims es sid (rid_new 2) (sw_message2 W) me f2 /\
        rep_outcome rep = OResult (total me f1 + total me f2)%N /\ (total me f1 + total me f2 <= 255)%N.
    Proof.
      intros Hn Hr Hy Hf me. destruct (@result_story _ _ _ _ _ _ _ _ _ _ _ Hn Hr Hy Hf) as (st0 & st & ps & arts & x & Hm & Hb & Ho & Hw & Hx & Hrep).
      cbn [ep_make simple_entry] in Hm. injection Hm as <-. rewrite Hrep. clear Hrep Hn Hr Hy Hf.
      destruct (simple_brings Hb) as [->|(f1 & Hc1 & ->)].
      - destruct (@typed_story _ T SR1 _ _ _ _ _ Ho Hw) as (q & qa & Hs & Hfin). rewrite Hfin in Hx. cbn [t_finalize simple] in Hx.
        apply bind_ok in Hx as (t & Ht & Hx). discriminate.
      - destruct (@typed_story _ T SR2 _ _ _ _ _ Ho Hw) as (q & qa & Hs & Hfin). rewrite Hfin in Hx. clear Hfin.
        destruct (@said_claims es sid SR2 (mkSimple2 (total me f1) (sim_ctx parties me)) q me eq_refl Hs) as (f2 & Hm & Hc2). cbn [t_finalize simple] in Hx.
        apply bind_ok in Hx as (t & Ht & Hx). destruct (total_claims Hm Ht) as [-> _]. apply bind_ok in Hx as (t & Ht' & Hx). inv Hx.
        exists f1, f2. split; auto. split; auto. unfold u8_add in Ht'. cbn [s2_sum] in Ht'. fold me in Ht'.
        destruct (N.leb_spec (total me f2 + total me f1) u8_max) as [L|L]; [injection Ht' as <-|discriminate].
        rewrite (N.add_comm (total me f1)). split; [reflexivity|exact L].
    Qed.

    Lemma simple_claims g sid signer s es (d : DState (wrap T)) g' rep :
      session_new g sid signer (simple_entry W parties) = Ok s -> run (start s) es d ->
      can_finalize (d_a d) = Yes -> finalize_round (d_s d) g' (d_a d) = Ok (ROFinished rep) ->
      let me := signer_key signer in
      let others := elements (srem me parties) in
      exists claim1 claim2 : Verifier -> N,
        (forall v, mem v parties = true -> v <> me ->
           wrote es sid (rid_new 1) (sw_message1 W) v (mkPosition (claim1 v) (pos me)) /\
           wrote es sid (rid_new 2) (sw_message2 W) v (mkPosition (claim2 v) (pos me))) /\
        let sum := (pos me + nsum (map claim1 others) + (pos me + nsum (map claim2 others)))%N in
        rep_outcome rep = OResult sum /\ (sum <= 255)%N.
    Proof.
      intros Hn Hr Hy Hf me others. destruct (@simple_result _ _ _ _ _ _ _ _ Hn Hr Hy Hf) as (f1 & f2 & H1 & H2 & H).
      exists f1, f2. split; [|exact H]. intros v Hv Hne. split; [now apply H1|now apply H2].
    Qed.
  End SimpleResult.

  Section DiningResult.
    Variables (diner : N -> Verifier) (num : Verifier -> N).
    Variables (toss_codec reveal_codec : Codec bool) (no_error : bytes -> bool).
    Notation T := (dining diner num toss_codec reveal_codec no_error).
    Implicit Types es : list (event (wrap T)).

    Definition left_of v : Verifier := diner (N.modulo (num v + 2) 3).
    Definition others_of v : bset Verifier := set_of_list (map diner (filter (fun i => negb (N.eqb i (num v))) [0; 1; 2]%N)).

    Lemma said_toss es sid x (q : bmap Verifier bool) : said T es sid DR1 x q ->
      forall v b, In (v, b) (to_list q) -> v = left_of (d1_id x) /\ wrote es sid (rid_new 1) toss_codec v b.
    Proof.
      intros [H1 H2] v b Hin. apply in_to_list in Hin. split.
      - assert (Hc : contains v q = true) by (unfold contains; now rewrite Hin). apply H1 in Hc. cbn [t_cinfo dining dining_comm ci_expect] in Hc.
        apply mem_set_of_list in Hc. destruct Hc as [<-|[]]. reflexivity.
      - destruct (H2 _ _ Hin) as (vm & d & e & n & V1 & V2 & V3 & D1 & _ & _ & R). cbn [t_direct dining dining_direct part_deser msg] in D1.
        destruct (sp_body (vm_direct vm)) as [p|] eqn:Ep; [|discriminate]. exists vm, p. cbn [t_receive dining] in R. injection R as ->. auto.
    Qed.
    Lemma said_reveal es sid x (q : bmap Verifier bool) : said T es sid DR2 x q ->
      keys q = elements (others_of (d2_id x)) /\ forall v b, In (v, b) (to_list q) -> broadcast es sid (rid_new 2) reveal_codec v b.
    Proof.
      intros [H1 H2]. split.
      - rewrite <- elements_keyset. f_equal. apply set_ext. intros v. rewrite mem_keyset. apply eq_true_iff_eq. rewrite H1. reflexivity.
      - intros v b Hin. apply in_to_list in Hin. destruct (H2 _ _ Hin) as (vm & d & e & n & V1 & V2 & V3 & _ & _ & D1 & R).
        cbn [t_normal dining dining_normal part_deser msg] in D1.
        destruct (sp_body (vm_normal vm)) as [p|] eqn:Ep; [|discriminate]. exists vm, p. cbn [t_receive dining] in R. injection R as ->. auto.
    Qed.

    Lemma dining_brings es sid x st : brings es sid (box T DR1 x : St (wrap T)) st ->
      st = box T DR1 x \/
      exists t, wrote es sid (rid_new 1) toss_codec (left_of (d1_id x)) t /\ st = box T DR2 (mkDining2 (d1_id x) (d1_toss x) t (d1_paid x)).
    Proof.
      intros H. remember (box T DR1 x : St (wrap T)) as s0 eqn:E0. induction H as [st|st0 st g ps arts st' Hb IH Ho Hw Hf].
      - now left.
      - specialize (IH E0). clear Hb. right. destruct IH as [E|(t & Hcl & E)]; subst st; try subst st0.
        + destruct (@typed_story _ T DR1 _ _ _ _ _ Ho Hw) as (q & qa & Hs & Hfin). change (bmap Verifier bool) in q. rewrite Hfin in Hf. clear Hfin.
          pose proof (said_toss Hs) as Ht. cbn [t_finalize dining] in Hf. destruct (to_list q) as [|[v b] l] eqn:El; [discriminate|].
          injection Hf as <-. destruct (Ht v b (or_introl eq_refl)) as [-> Hv]. exists b. auto.
        + destruct (@typed_story _ T DR2 _ _ _ _ _ Ho Hw) as (q & qa & Hs & Hfin). change (bmap Verifier bool) in q. rewrite Hfin in Hf. cbn [t_finalize dining] in Hf.
          destruct (map snd (to_list q)) as [|b0 [|b1 l]]; discriminate.
    Qed.

    Lemma dining_result (ep : EntryPoint (wrap T)) g sid signer s es (d : DState (wrap T)) g' rep x :
      session_new g sid signer ep = Ok s ->
      ep_make ep (rsub 0 g) sid (signer_key signer) = Ok (box T DR1 x : St (wrap T)) -> run (start s) es d ->
      can_finalize (d_a d) = Yes -> finalize_round (d_s d) g' (d_a d) = Ok (ROFinished rep) ->
      exists t a b bs b0 b1, wrote es sid (rid_new 1) toss_codec (left_of (d1_id x)) t /\
        elements (others_of (d1_id x)) = a :: b :: bs /\ broadcast es sid (rid_new 2) reveal_codec a b0 /\
        broadcast es sid (rid_new 2) reveal_codec b b1 /\
        rep_outcome rep = OResult (b0, b1, xorb (xorb (d1_toss x) t) (d1_paid x)).
    Proof.
      intros Hn He Hr Hy Hf. destruct (@result_story _ _ _ _ _ _ _ _ _ _ _ Hn Hr Hy Hf) as (st0 & st & ps & arts & y & Hm & Hb & Ho & Hw & Hx & Hrep).
      rewrite He in Hm. injection Hm as <-. rewrite Hrep. clear Hrep Hn Hr Hy Hf He.
      destruct (dining_brings Hb) as [->|(t & Ht & ->)].
      - destruct (@typed_story _ T DR1 _ _ _ _ _ Ho Hw) as (q & qa & Hs & Hfin). change (bmap Verifier bool) in q. rewrite Hfin in Hx. cbn [t_finalize dining] in Hx.
        destruct (to_list q) as [|[v b] l]; discriminate.
      - destruct (@typed_story _ T DR2 _ _ _ _ _ Ho Hw) as (q & qa & Hs & Hfin). change (bmap Verifier bool) in q. rewrite Hfin in Hx. clear Hfin.
        destruct (said_reveal Hs) as [Hk Hb']. cbn [d2_id] in Hk. change (map fst (to_list q) = elements (others_of (d1_id x))) in Hk. cbn [t_finalize dining] in Hx.
        destruct (to_list q) as [|[a b0] [|[b b1] l]] eqn:El; simpl in Hx; try discriminate. injection Hx as <-.
        exists t, a, b, (map fst l), b0, b1. split; auto. split; [symmetry; exact Hk|]. split; [apply Hb'; simpl; auto|]. split; [apply Hb'; simpl; auto|].
        f_equal. f_equal. unfold dining_own_reveal. cbn [d2_own d2_neighbour d2_paid]. destruct (d1_toss x), t, (d1_paid x); reflexivity.
    Qed.

    Lemma diner_result (ep : EntryPoint (wrap T)) g sid signer s es (d : DState (wrap T)) g' rep me toss paid :
      session_new g sid signer ep = Ok s ->
      ep_make ep (rsub 0 g) sid (signer_key signer) = Ok (box T DR1 (mkDining1 me toss paid) : St (wrap T)) -> run (start s) es d ->
      can_finalize (d_a d) = Yes -> finalize_round (d_s d) g' (d_a d) = Ok (ROFinished rep) ->
      let left := diner ((num me + 2) mod 3)%N in
      let others := set_of_list (map diner (filter (fun i => negb (N.eqb i (num me))) [0; 1; 2]%N)) in
      exists t a b more b0 b1, wrote es sid (rid_new 1) toss_codec left t /\ elements others = a :: b :: more /\
        broadcast es sid (rid_new 2) reveal_codec a b0 /\ broadcast es sid (rid_new 2) reveal_codec b b1 /\
        rep_outcome rep = OResult (b0, b1, xorb (xorb toss t) paid).
    Proof. intros Hn He Hr Hy Hf. exact (@dining_result ep g sid signer s es d g' rep (mkDining1 me toss paid) Hn He Hr Hy Hf). Qed.
  End DiningResult.
End Results.

(** ** Entry points *)
Section Entries.
  Context {P : Params}.

  Lemma chain_names (P1 P2 : Proto) (j : Join P1 P2) (ep : EntryPoint P1) (tr : J j) :
    names_its_round ep -> names_its_round (chain_entry j ep tr).
  Proof.
    intros H g sid me st Hm. cbn [ep_make chain_entry] in Hm. apply bind_ok in Hm as (st1 & Hm & E). injection E as <-.
    cbn [ep_id chain_entry]. rewrite <- (H _ _ _ _ Hm). cbn [tinfo chain chain_tinfo]. destruct (ti_result _); reflexivity.
  Qed.
  Lemma extend_names (T : TProto) (xp : Extendable T) : names_its_round (xp_entry xp) -> names_its_round (extendable_entry xp).
  Proof.
    intros H g sid me st Hm. cbn [ep_make extendable_entry] in Hm. apply bind_ok in Hm as (b & Hm & E).
    cbn [ep_id extendable_entry]. rewrite <- (H _ _ _ _ Hm). destruct b as [k x]. unfold wrap_round in E.
    destruct (exts_get _ _) as [[k' e]|]; [|injection E as <-; reflexivity].
    unfold extend_round, round_down in E. cbn [projT1 projT2] in E. destruct (tk_dec T k k') as [Hk|]; [|discriminate].
    destruct Hk. injection E as <-. reflexivity.
  Qed.
  Lemma entered g sid signer (Pr : Proto) (ep : EntryPoint Pr) s : names_its_round ep -> session_new g sid signer ep = Ok s -> s_round_id s = ep_id ep.
  Proof.
    intros H Hn. apply session_new_ok in Hn as (st & Hm & C). rewrite <- (H _ _ _ _ Hm). pose proof (cr_tinfo C) as E. cbn [rd_tinfo] in E. unfold s_round_id. injection E as <-. reflexivity.
  Qed.
  Lemma second_names (P1 P2 : Proto) (j : Join P1 P2) id sr (tr : J j) st st2 :
    (forall tr r, names_its_round (mkEP (j_entry j) (fun g sr id => j_make j tr r g sr id))) ->
    next (chain j) (Chain1 j id st sr tr : St (chain j)) (Chain2 j st2 : St (chain j)) ->
    ti_id (tinfo (chain j) (Chain2 j st2)) = group_under (j_entry j) 2.
  Proof.
    intros H (g & ps & arts & _ & Hf). cbn [finalize chain chain_finalize] in Hf.
    apply bind_ok in Hf as (ps' & _ & Hf). apply bind_ok in Hf as (arts' & _ & Hf). apply bind_ok in Hf as (o & _ & Hf).
    destruct o as [st'|r]; [discriminate|]. apply bind_ok in Hf as (st2' & Hm & Hf). injection Hf as ->.
    specialize (H tr r _ _ _ _ Hm). cbn [ep_id] in H. rewrite <- H. reflexivity.
  Qed.

  Lemma examples_name :
    (forall W ids, names_its_round (simple_entry W ids)) /\
    (forall W ids, names_its_round (double_entry W ids)) /\
    (forall diner num toss_codec reveal_codec no_error, names_its_round (dining_entry diner num toss_codec reveal_codec no_error)) /\
    (forall c e s, names_its_round (partial_entry c e s)) /\
    (forall W dc ec e s, names_its_round (bench_entry W dc ec e s)).
  Proof.
    assert (S : forall W ids, names_its_round (simple_entry W ids)).
    { intros W ids g sid me st H. cbn [ep_make simple_entry] in H. injection H as <-. reflexivity. }
    split; [exact S|]. split; [intros W ids; apply chain_names, S|]. split; [|split].
    - intros diner num tc rc ne g sid me st H. cbn [ep_make dining_entry] in H. injection H as <-. reflexivity.
    - intros c e s g sid me st H. cbn [ep_make partial_entry] in H. injection H as <-. reflexivity.
    - intros W dc ec e s g sid me st H. cbn [ep_make bench_entry] in H. injection H as <-.
      cbn [tinfo wrap box projT1 projT2 bench t_tinfo]. unfold bench_tinfo. cbn [bs_counter]. destruct (N.eqb _ _); reflexivity.
  Qed.
End Entries.
