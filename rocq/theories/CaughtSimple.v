(** The tests of examples/src/simple_test.rs: proofs. *)
From Coq Require Import List NArith Bool Arith Lia.
From Verif Require Import Base BMap Errors RoundId Message Protocol Transcript Evidence Session Spec SpecCrypto Typed TypedFacts Simple Extend SpecExtend
  Network SpecNet NetFacts HonestFacts RunSync Misbehave MisbehaveFacts SpecCaught CaughtFacts CaughtExt SimpleTest.
Import ListNotations.
Set Implicit Arguments.

Section SimpleTests.
  Context {P : Params}.
  Variable W : SimpleWire.
  Hypothesis HW : codec_ok (sw_message1 W) /\ codec_ok (sw_echo1 W) /\ codec_ok (sw_broadcast1 W) /\ codec_ok (sw_message2 W).
  Hypothesis HE1 : codec_ok (sw_error1 W).
  Hypothesis HE2 : codec_ok (sw_error2 W).
  Variable r : NetRng.
  Variable sid : bytes.
  Variable parties : bset Verifier.
  Notation ids := (elements parties).
  Hypothesis Hle : length ids <= 16.
  Variable t : Verifier.
  Variable front : list Verifier.
  Hypothesis Hlast : ids = front ++ [t].
  Hypothesis Hfront : front <> [].
  Notation T := (simple W).
  Notation h := (simple_plan W parties).
  Notation pos := (pos parties).

  Definition nocheck (b : St (wrap T)) (u : Verifier) (m : DynMsg) : res RecvErr (Payload (wrap T)) := Ok (existT (ty T) SPay (pos u) : Payload (wrap T)).

  Lemma Ht : mem t parties = true.
  Proof. apply in_elements. rewrite Hlast. apply in_or_app. right. now left. Qed.
  Lemma not_lone : lone parties = false.
  Proof. unfold lone. rewrite Hlast, app_length. cbn [length]. destruct front; [congruence|]. simpl. apply Nat.leb_gt. lia. Qed.
  Lemma pos_inj u v : mem u parties = true -> mem v parties = true -> pos u = pos v -> u = v.
  Proof.
    intros Hu Hv E. apply in_elements in Hu, Hv. apply In_nth_error in Hu as [i Hi]. apply In_nth_error in Hv as [j Hj].
    assert (H256 : length ids <= 256) by lia. revert E. unfold SpecNet.pos. rewrite (positions_nth parties i H256 Hi), (positions_nth parties j H256 Hj).
    intros E. apply Nat2N.inj in E. subst j. congruence.
  Qed.
  Lemma in_rem v u : mem v parties = true -> mem u (srem v parties) = true -> mem u parties = true /\ u <> v.
  Proof. intros Hv. rewrite mem_rem. destruct (eqb_spec u v); [discriminate|]. auto. Qed.

  Lemma HR : honest_run r sid parties (fun _ => simple_entry W parties) h.
  Proof. destruct (@result_eq P parties Hle) as [_ E]. apply simple_honest; auto. lia. Qed.
  Lemma two n : n <= pl_last h -> n = 0 \/ n = 1.
  Proof. cbn [pl_last simple_plan]. lia. Qed.

  Notation bad1 := (fun _ : Verifier => enc (sw_message1 W) (mkPosition (pos t) (pos t))).
  Notation bad2 := (fun _ : Verifier => enc (sw_message2 W) (mkPosition (pos t) (pos t))).
  Notation hb1 := (replaced nocheck h t 0 (pl_echo h 0 t) (pl_normal h 0 t) bad1).
  Notation hb2 := (replaced nocheck h t 1 (pl_echo h 1 t) (pl_normal h 1 t) bad2).

  Lemma misled1 : misled r h t 0 [existT _ SR1 (invalid1 W)] (pl_echo h 0 t) (pl_normal h 0 t) bad1.
  Proof.
    destruct HR as [L _]. pose proof Ht as Hp. assert (H256 : length ids <= 256) by lia. destruct HW as (H1 & H2 & H3 & H4). split.
    - intros j e Hj Hne. destruct (two Hj) as [->| ->]; [congruence|discriminate].
    - exists (invalid1 W). split; [reflexivity|]. split; [reflexivity|]. cbv zeta. split; [|split].
      + pose proof (hr_mk_echo L 0 t ltac:(lia) Hp) as E. cbn [pl_dest simple_plan] in *. rewrite (@lone_spec P parties t Hp), not_lone in *. exact E.
      + pose proof (hr_mk_normal L 0 t ltac:(lia) Hp) as E. cbn [pl_dest simple_plan] in *. rewrite (@lone_spec P parties t Hp), not_lone in *. exact E.
      + intros u Hu. unfold ext_direct. cbn [x_direct invalid1 projT1 projT2 pl_state simple_plan box]. unfold own_position. cbn [cx_id sim_ctx].
        rewrite (@position_eq P parties LocalError t t H256 Hp). cbn [bind].
        destruct (@enc_ok _ (sw_message1 W) (mkPosition (pos t) (pos t)) H1) as (b & E1 & E & _). cbn [part_new msg t_direct T0 simple simple_message]. rewrite E1, E. reflexivity.
  Qed.
  Lemma misled2 : misled r h t 1 [existT _ SR2 (invalid2 W)] (pl_echo h 1 t) (pl_normal h 1 t) bad2.
  Proof.
    destruct HR as [L _]. pose proof Ht as Hp. assert (H256 : length ids <= 256) by lia. destruct HW as (H1 & H2 & H3 & H4). split.
    - intros j e Hj Hne. destruct (two Hj) as [->| ->]; [discriminate|congruence].
    - exists (invalid2 W). split; [reflexivity|]. split; [reflexivity|]. cbv zeta. split; [|split].
      + pose proof (hr_mk_echo L 1 t ltac:(cbn; lia) Hp) as E. cbn [pl_dest simple_plan] in *. rewrite (@lone_spec P parties t Hp), not_lone in *. exact E.
      + pose proof (hr_mk_normal L 1 t ltac:(cbn; lia) Hp) as E. cbn [pl_dest simple_plan] in *. rewrite (@lone_spec P parties t Hp), not_lone in *. exact E.
      + intros u Hu. unfold ext_direct. cbn [x_direct invalid2 projT1 projT2 pl_state simple_plan box s2_ctx]. unfold own_position. cbn [cx_id sim_ctx].
        rewrite (@position_eq P parties LocalError t t H256 Hp). cbn [bind].
        destruct (@enc_ok _ (sw_message2 W) (mkPosition (pos t) (pos t)) H4) as (b & E1 & E & _). cbn [part_new msg t_direct T0 simple simple_message]. rewrite E1, E. reflexivity.
  Qed.

  (** What the others make of the messages. *)
  Lemma receive1 v : mem v parties = true -> v <> t ->
    receive (wrap T) (pl_state hb1 0 v) t (mkDynMsg (pl_echo hb1 0 t) (pl_normal hb1 0 t) (pl_direct hb1 0 t v)) =
      Err (RProtocol (box_error (error1 W) (tt : ety (error1 W)) (rid_new 1))).
  Proof.
    intros Hv Hvt. pose proof Ht as Hp. assert (H256 : length ids <= 256) by lia. destruct HW as (H1 & H2 & H3 & H4).
    cbn [pl_state pl_echo pl_normal pl_direct replaced simple_plan]. rewrite Nat.eqb_refl, eqb_refl, not_lone. cbn [andb].
    destruct (@enc_ok _ (sw_message1 W) (mkPosition (pos t) (pos t)) H1) as (b1 & _ & -> & D1).
    destruct (@enc_ok _ (sw_echo1 W) (pos t) H2) as (b2 & _ & -> & D2).
    destruct (@enc_ok _ (sw_broadcast1 W) (mkR1Broadcast 0 (pos t)) H3) as (b3 & _ & -> & D3).
    cbn [receive wrap w_receive box dm_direct dm_echo dm_normal T0 simple t_direct t_echo t_normal simple_message simple_echo simple_normal part_receive part_deser msg ok_or t_receive].
    rewrite D1, D2, D3. cbn [bind ok_or]. unfold simple_receive. cbn [cx_id sim_ctx].
    rewrite (@position_eq P parties _ v v H256 Hv). cbn [bind your_position]. destruct (N.eqb_spec (pos v) (pos t)) as [E|]; [|reflexivity].
    exfalso. apply Hvt. now apply pos_inj.
  Qed.
  Lemma receive2 v : mem v parties = true -> v <> t ->
    receive (wrap T) (pl_state hb2 1 v) t (mkDynMsg (pl_echo hb2 1 t) (pl_normal hb2 1 t) (pl_direct hb2 1 t v)) =
      Err (RProtocol (box_error (error2 W) (tt : ety (error2 W)) (rid_new 2))).
  Proof.
    intros Hv Hvt. pose proof Ht as Hp. assert (H256 : length ids <= 256) by lia. destruct HW as (H1 & H2 & H3 & H4).
    cbn [pl_state pl_echo pl_normal pl_direct replaced simple_plan]. rewrite Nat.eqb_refl, eqb_refl. cbn [andb].
    destruct (@enc_ok _ (sw_message2 W) (mkPosition (pos t) (pos t)) H4) as (b1 & _ & -> & D1).
    cbn [receive wrap w_receive box dm_direct dm_echo dm_normal T0 simple t_direct t_echo t_normal simple_message simple_echo simple_normal part_receive part_deser msg ok_or t_receive is_none].
    rewrite D1. cbn [bind ok_or]. unfold simple_receive. cbn [s2_ctx cx_id sim_ctx].
    rewrite (@position_eq P parties _ v v H256 Hv). cbn [bind your_position]. destruct (N.eqb_spec (pos v) (pos t)) as [E|]; [|reflexivity].
    exfalso. apply Hvt. now apply pos_inj.
  Qed.

  Lemma in_others v : mem v parties = true -> v <> t -> mem t (srem v parties) = true.
  Proof. intros Hv Hvt. rewrite mem_rem. destruct (eqb_spec t v); [congruence|]. apply Ht. Qed.
  Lemma get_single_list {K V} `{Ord K} (x : K) (y : V) z : get z (of_list [(x, y)]) = if eqb z x then Some y else None.
  Proof. cbn [of_list fold_left fst snd]. rewrite get_insert, get_empty. reflexivity. Qed.
  Lemma turned1 v : mem v parties = true -> v <> t -> turned_down (Pr := wrap T) sid hb1 t 0 (tt : TShared T) v.
  Proof.
    intros Hv Hvt. destruct HW as (H1 & H2 & H3 & H4). exists (w_info T SR1). split; [reflexivity|]. rewrite (receive1 Hv Hvt). cbv zeta.
    split; [apply api_direct; reflexivity|]. split; [split; [discriminate|discriminate]|].
    destruct (HE1 tt) as (eb & Es & Ed). exists eb. split; [exact Es|]. intros prev comb _ _.
    cbn [be_required box_error error1 rq_this rp_direct rp_normal rp_echo direct_only ri_verify w_info verify_error t_err simple simple_errors].
    rewrite Ed. cbn [ok_or bind es_message]. unfold es_direct_message, es_part. cbn [es_message em_direct ok_or bind].
    cbn [pl_direct replaced]. rewrite Nat.eqb_refl, eqb_refl. cbn [andb].
    destruct (@enc_ok _ (sw_message1 W) (mkPosition (pos t) (pos t)) H1) as (b1 & _ & -> & D1). cbn [part_deser msg]. rewrite D1. reflexivity.
  Qed.
  Lemma turned2 v : mem v parties = true -> v <> t -> turned_down (Pr := wrap T) sid hb2 t 1 (tt : TShared T) v.
  Proof.
    intros Hv Hvt. destruct HW as (H1 & H2 & H3 & H4). exists (w_info T SR2). split; [reflexivity|]. rewrite (receive2 Hv Hvt). cbv zeta.
    split; [apply api_direct; reflexivity|]. split; [split|].
    - intros pm rid rq E Hg. injection E as <-. rewrite get_single_list in Hg. destruct (eqb_spec rid (rid_new 1)) as [->|]; [|discriminate]. injection Hg as <-.
      exists 0. split; [lia|]. split; [reflexivity|]. split; [exact (in_others Hv Hvt)|]. split; [right; right; reflexivity|].
      split; [discriminate|]. split; [discriminate|]. intros _. cbn [pl_direct replaced simple_plan Nat.eqb andb].
      destruct (@enc_ok _ (sw_message1 W) (mkPosition (pos t) (pos v)) H1) as (b1 & _ & -> & _). discriminate.
    - intros cs rid E Hg. injection E as <-. apply mem_set_of_list in Hg. destruct Hg as [<-|[]].
      exists 0. split; [lia|]. split; [reflexivity|]. split; [|exact (in_others Hv Hvt)]. unfold echoes. cbn [pl_part pl_echo replaced simple_plan Nat.eqb andb].
      rewrite not_lone. destruct (@enc_ok _ (sw_echo1 W) (pos v) H2) as (b1 & _ & -> & _). reflexivity.
    - destruct (HE2 tt) as (eb & Es & Ed). exists eb. split; [exact Es|]. intros prev comb Hprev Hcomb.
      cbn [be_required box_error error2 rq_this rp_direct rp_normal rp_echo direct_only ri_verify w_info verify_error t_err simple simple_errors].
      rewrite Ed. cbn [ok_or bind es_message]. unfold es_direct_message, es_part. cbn [es_message em_direct ok_or bind].
      cbn [pl_direct replaced]. rewrite Nat.eqb_refl, eqb_refl. cbn [andb].
      destruct (@enc_ok _ (sw_message2 W) (mkPosition (pos t) (pos t)) H4) as (b1 & _ & -> & D1). cbn [part_deser msg]. rewrite D1. cbn [ok_or bind].
      assert (Hc : exists bodies, get (rid_new 1) comb = Some bodies /\ forall w b, get w bodies = Some b -> b = enc (sw_echo1 W) (pos w)).
      { destruct (get (rid_new 1) comb) as [bodies|] eqn:Ec.
        - exists bodies. split; auto. apply Hcomb in Ec as (cs & j & _ & _ & Hj & _ & Hb). assert (j = 0) as -> by lia. intros w b Hw. rewrite Hb in Hw.
          cbn [pl_echo replaced simple_plan Nat.eqb andb] in Hw. rewrite not_lone in Hw. destruct (mem w _); [|discriminate]. cbn [andb] in Hw. destruct (negb _); congruence.
        - exfalso. set (dom := srem t parties).
          assert (K : get (rid_new 1) comb = Some (of_list (map (fun w => (w, enc (sw_echo1 W) (pos w))) (elements dom)))).
          { apply Hcomb. eexists _, 0. split; [reflexivity|]. split; [reflexivity|]. split; [lia|]. split; [reflexivity|]. intros w.
            cbn [pl_echo pl_from replaced simple_plan Nat.eqb andb]. rewrite not_lone. fold dom.
            destruct (@enc_ok _ (sw_echo1 W) (pos w) H2) as (b2 & _ & E2 & _). rewrite E2. cbn [is_none negb]. rewrite andb_true_r.
            destruct (mem w dom) eqn:Hw.
            - apply get_of_list_nodup; [rewrite map_map; cbn [fst]; rewrite map_id; apply NoDup_elements|]. apply in_map_iff. exists w. split; [now rewrite E2|now apply in_elements].
            - apply get_of_list_none. rewrite map_map. cbn [fst]. rewrite map_id, in_elements. congruence. }
          congruence. }
      destruct Hc as (bodies & Hb & Hbs). unfold combined_echos. cbn [es_combined]. rewrite Hb. cbn [ok_or bind].
      assert (K : forall l, (forall w b, In (w, b) l -> b = enc (sw_echo1 W) (pos w)) ->
        exists l', map_res (fun kv : Verifier * body => let* x := ok_or (part_deser (msg (sw_echo1 W)) (snd kv)) EE_Invalid in Ok (fst kv, x)) l = Ok l').
      { induction l as [|[w b] l IH]; intros Hl; [now exists []|]. destruct IH as (l' & E'); [intros w' b' Hin; apply Hl; now right|].
        rewrite map_res_cons, E'. cbn [fst snd]. rewrite (Hl w b (or_introl eq_refl)). destruct (@enc_ok _ (sw_echo1 W) (pos w) H2) as (b2 & _ & -> & D2).
        cbn [part_deser msg]. rewrite D2. cbn [ok_or bind]. eauto. }
      destruct (K (to_list bodies)) as (l' & ->); [|reflexivity]. intros w b Hin. apply Hbs. now apply in_to_list.
  Qed.

  Lemma fault1 : one_fault (Pr := wrap T) sid parties hb1 t 0 (tt : TShared T).
  Proof.
    constructor; [cbn; lia|exact Ht|intros v Hv Hvt; exact (in_others Hv Hvt)| |intros v Hv Hvt; now apply turned1].
    exact (@rest_ok P (wrap T) r sid parties _ h nocheck t 0 (pl_echo h 0 t) (pl_normal h 0 t) bad1 HR).
  Qed.
  Lemma fault2 : one_fault (Pr := wrap T) sid parties hb2 t 1 (tt : TShared T).
  Proof.
    constructor; [cbn; lia|exact Ht|intros v Hv Hvt; exact (in_others Hv Hvt)| |intros v Hv Hvt; now apply turned2].
    exact (@rest_ok P (wrap T) r sid parties _ h nocheck t 1 (pl_echo h 1 t) (pl_normal h 1 t) bad2 HR).
  Qed.
  Lemma simple_plain : plain_ids (wrap T).
  Proof. intros [[|] x]; reflexivity. Qed.

  Variable sk : Verifier -> Signer.
  Hypothesis Hsk : signers parties sk.
  Hypothesis Hwire : wire_total P.
  Hypothesis Hsig : signatures_correct P.

  Lemma test1 picks (describes : Evidence -> bool) : accepts describes 1 (sw_error1 W) ->
    exists fuel0, forall fuel, fuel0 <= fuel ->
      check_evidence_with_extension fuel r picks sid (test_entry_points W parties sk) (tt : TShared T) (invalid1 W) describes = Some (Ok tt).
  Proof.
    intros Hd. apply (@misbehaviour_found P T r sid parties (fun _ => simple_entry W parties) h t 0 nocheck [existT _ SR1 (invalid1 W)]
      (pl_echo h 0 t) (pl_normal h 0 t) bad1 (tt : TShared T) HR misled1 eq_refl); auto.
    - exact fault1.
    - exact simple_plain.
    - exists front. auto.
    - intros v ev Hv Hvt (_ & _ & Hc). unfold charge in Hc. rewrite (receive1 Hv Hvt) in Hc. destruct Hc as (e & E1 & E2 & (p & E3 & E4 & _) & _).
      eapply Hd; eauto. now rewrite E4.
  Qed.
  Lemma test2 picks (describes : Evidence -> bool) : accepts describes 2 (sw_error2 W) ->
    exists fuel0, forall fuel, fuel0 <= fuel ->
      check_evidence_with_extension fuel r picks sid (test_entry_points W parties sk) (tt : TShared T) (invalid2 W) describes = Some (Ok tt).
  Proof.
    intros Hd. apply (@misbehaviour_found P T r sid parties (fun _ => simple_entry W parties) h t 1 nocheck [existT _ SR2 (invalid2 W)]
      (pl_echo h 1 t) (pl_normal h 1 t) bad2 (tt : TShared T) HR misled2 eq_refl); auto.
    - exact fault2.
    - exact simple_plain.
    - exists front. auto.
    - intros v ev Hv Hvt (_ & _ & Hc). unfold charge in Hc. rewrite (receive2 Hv Hvt) in Hc. destruct Hc as (e & E1 & E2 & (p & E3 & E4 & _) & _).
      eapply Hd; eauto. now rewrite E4.
  Qed.
End SimpleTests.

Lemma simple_tests (P : Params) W : codec_ok (sw_message1 W) /\ codec_ok (sw_echo1 W) /\ codec_ok (sw_broadcast1 W) /\ codec_ok (sw_message2 W) ->
  codec_ok (sw_error1 W) -> codec_ok (sw_error2 W) -> wire_total P -> signatures_correct P ->
  forall r sid parties sk picks, signers parties sk -> 2 <= length (elements parties) <= 16 ->
  (forall describes, accepts describes 1 (sw_error1 W) -> exists fuel0, forall fuel, fuel0 <= fuel ->
     check_evidence_with_extension fuel r picks sid (test_entry_points W parties sk) (tt : TShared (simple W)) (invalid1 W) describes = Some (Ok tt)) /\
  (forall describes, accepts describes 2 (sw_error2 W) -> exists fuel0, forall fuel, fuel0 <= fuel ->
     check_evidence_with_extension fuel r picks sid (test_entry_points W parties sk) (tt : TShared (simple W)) (invalid2 W) describes = Some (Ok tt)).
Proof.
  intros HW HE1 HE2 Hwire Hsig r sid parties sk picks Hsk [H2 H16].
  destruct (rev (elements parties)) as [|t front] eqn:E.
  { apply (f_equal (@rev _)) in E. rewrite rev_involutive in E. rewrite E in H2. simpl in H2. lia. }
  apply (f_equal (@rev _)) in E. rewrite rev_involutive in E. cbn [rev] in E.
  assert (Hf : rev front <> []).
  { intros F. rewrite F in E. rewrite E in H2. simpl in H2. lia. }
  split; intros describes Hd.
  - eapply test1; eauto.
  - eapply test2; eauto.
Qed.
