(** The example protocol in release builds. *)
From Coq Require Import List Arith NArith Bool Lia Permutation.
From Verif Require Import Base BMap Errors RoundId Message Protocol Transcript Evidence Session Typed Simple SimpleRelease Spec SpecCrypto SpecTyped
  Network SpecNet TypedFacts NetFacts HonestFacts.
Import ListNotations.
Set Implicit Arguments.

(** ** Sums *)
Lemma wrap_fold l : forall a, N.modulo (fold_left wrapping_add l a) 256 = N.modulo (a + nsum l) 256.
Proof.
  induction l as [|x l IH]; intros a; cbn [fold_left nsum fold_right].
  - now rewrite N.add_0_r.
  - rewrite IH. unfold wrapping_add. rewrite N.add_mod_idemp_l by discriminate. unfold nsum. now rewrite N.add_assoc.
Qed.
Lemma wrap_sum a l : wrapping_add a (wrapping_sum l) = N.modulo (a + nsum l) 256.
Proof.
  unfold wrapping_add, wrapping_sum. rewrite <- N.add_mod_idemp_r by discriminate. rewrite wrap_fold, N.add_0_l.
  now rewrite N.add_mod_idemp_r by discriminate.
Qed.

Section Release.
  Context {P : Params}.
  Variable W : SimpleWire.
  Hypothesis HW : codec_ok (sw_message1 W) /\ codec_ok (sw_echo1 W) /\ codec_ok (sw_broadcast1 W) /\ codec_ok (sw_message2 W).
  Variable r : NetRng.
  Variable sid : bytes.
  Variable parties : bset Verifier.
  Notation ids := (elements parties).
  Notation n := (length ids).
  Notation pos := (pos parties).
  Notation sim_ctx := (sim_ctx parties).
  Notation lone := (lone parties).
  Notation enc_ok := (@enc_ok).
  Notation lone_spec := (@lone_spec P parties).

  (** Positions wrap from the 257th party on. *)
  Lemma wrapped_nth i v : nth_error ids i = Some v -> get v (enum_positions ids) = Some (N.modulo (N.of_nat i) 256).
  Proof.
    intros Hi. unfold enum_positions. apply get_of_list_nodup.
    - rewrite map_map. cbn [fst]. assert (E : forall s, map (fun x : nat * Verifier => snd x) (combine (seq s (length ids)) ids) = ids).
      { generalize ids. induction l as [|x l IH]; simpl; intros s; auto. now rewrite IH. }
      rewrite E. apply NoDup_elements.
    - apply in_map_iff. exists (i, v). cbn [fst snd]. split; [reflexivity|].
      assert (K : forall (l : list Verifier) s j, nth_error l j = Some v -> In (s + j, v) (combine (seq s (length l)) l)).
      { induction l as [|x l IH]; intros s [|j] H; simpl in *; try discriminate.
        - inv H. left. now rewrite Nat.add_0_r.
        - right. rewrite Nat.add_succ_r. exact (IH (S s) j H). }
      exact (K ids 0 i Hi).
  Qed.
  Lemma wrapped_get v : mem v parties = true -> get v (enum_positions ids) = Some (pos v).
  Proof.
    intros Hv. apply in_elements in Hv. apply In_nth_error in Hv as [i Hi]. unfold SpecNet.pos. now rewrite (@wrapped_nth _ _ Hi).
  Qed.
  Lemma wrapped_position {E} v u : mem u parties = true -> @position _ E (sim_ctx v) u = Ok (pos u).
  Proof. intros Hu. unfold position. simpl. now rewrite wrapped_get. Qed.

  Notation S1 := (N.modulo (nsum (map pos ids)) 256).
  Lemma release_total_eq v ps : mem v parties = true -> is_map ps (srem v parties) pos ->
    release_total (sim_ctx v) ps = Ok S1.
  Proof.
    intros Hv Hps. unfold release_total. cbn [cx_id HonestFacts.sim_ctx]. rewrite (@wrapped_position LocalError v v Hv). cbn [bind].
    rewrite wrap_sum, (nsum_perm (is_map_perm Hps)).
    rewrite <- (nsum_perm (Permutation_map pos (@split_party _ _ _ Hv))). reflexivity.
  Qed.

  (** Twice a sum of wrapped positions, up to multiples of 256. *)
  Lemma wrapped_sum : forall l s, (forall i v, nth_error l i = Some v -> pos v = N.modulo (N.of_nat (s + i)) 256) ->
    exists q, (2 * (nsum (map pos l) + 256 * q) + N.of_nat (length l) = N.of_nat (length l) * (2 * N.of_nat s + N.of_nat (length l)))%N.
  Proof.
    induction l as [|v l IH]; intros s Hl; [exists 0%N; simpl; lia|]. cbn [map nsum fold_right length].
    assert (E0 : pos v = N.modulo (N.of_nat s) 256). { rewrite (Hl 0 v eq_refl). do 2 f_equal. lia. }
    destruct (IH (S s)) as (q & Hq). { intros i w Hi. rewrite (Hl (S i) w Hi). do 2 f_equal. lia. }
    exists (q + N.of_nat s / 256)%N. unfold nsum in Hq. rewrite E0.
    pose proof (N.div_mod (N.of_nat s) 256 ltac:(discriminate)) as D. revert Hq D.
    generalize (fold_right N.add 0%N (map pos l)) as t. generalize (N.of_nat s / 256)%N as d. generalize (N.modulo (N.of_nat s) 256) as m.
    rewrite Nat2N.inj_succ. generalize (length l) as k. intros k m d t Hq D. nia.
  Qed.
  Lemma release_result : N.modulo (S1 + S1) 256 = N.modulo (N.of_nat n * (N.of_nat n - 1)) 256.
  Proof.
    destruct (@wrapped_sum ids 0) as (q & Hq). { intros i v Hi. unfold SpecNet.pos. now rewrite (@wrapped_nth _ _ Hi). }
    rewrite <- N.add_mod by discriminate. revert Hq. generalize (nsum (map pos ids)) as s. generalize (N.of_nat n) as m. intros m s Hq.
    simpl N.of_nat in Hq. assert (E : (m * (m - 1) = s + s + (2 * q) * 256)%N) by nia. rewrite E. now rewrite N.mod_add by discriminate.
  Qed.

  Definition TR : TProto := simple_release W.
  Definition release_plan : Plan (wrap TR) := {|
    pl_last := 1;
    pl_rid := fun k => rid_new (N.of_nat k + 1);
    pl_part := fun _ _ => EPDefault;
    pl_dest := fun _ v => srem v parties;
    pl_from := fun _ v => srem v parties;
    pl_state := fun k v => match k with
      | O => (box TR SR1 (sim_ctx v) : St (wrap TR))
      | _ => (box TR SR2 (mkSimple2 S1 (sim_ctx v)) : St (wrap TR))
      end;
    pl_echo := fun k v => match k with O => if lone then None else enc (sw_echo1 W) (pos v) | _ => None end;
    pl_normal := fun k v => match k with O => if lone then None else enc (sw_broadcast1 W) (mkR1Broadcast 0 (pos v)) | _ => None end;
    pl_direct := fun k v u => match k with
      | O => enc (sw_message1 W) (mkPosition (pos v) (pos u))
      | _ => enc (sw_message2 W) (mkPosition (pos v) (pos u))
      end;
    pl_artifact := fun _ _ _ => (existT (ty TR) SUnit tt : Artifact (wrap TR));
    pl_payload := fun _ _ u => (existT (ty TR) SPay (pos u) : Payload (wrap TR));
    pl_result := fun _ => (N.modulo (S1 + S1) 256 : Rslt (wrap TR))
  |}.

  Lemma release_honest : honest_run r sid parties (fun _ => release_entry W parties) release_plan.
  Proof.
    destruct HW as (H1 & H2 & H3 & H4).
    assert (Hk : forall k, k <= pl_last release_plan -> k = 0 \/ k = 1) by (cbn [pl_last release_plan]; intros; lia).
    assert (Hrem : forall v u, mem v parties = true -> mem u (srem v parties) = true -> mem u parties = true /\ u <> v).
    { intros v u _ H. rewrite mem_rem in H. destruct (eqb_spec u v); try discriminate. auto. }
    assert (HA : all_to_all parties release_plan) by (intros k v _ _; split; reflexivity).
    assert (HE : full_echo parties release_plan).
    { intros k v Hk' Hv. split; [reflexivity|]. intros u Hu. destruct (Hk k Hk') as [->| ->]; cbn [pl_echo release_plan]; [|tauto].
      destruct (@enc_ok _ (sw_echo1 W) (pos u) H2) as (b & _ & -> & _). destruct (@enc_ok _ (sw_echo1 W) (pos v) H2) as (b' & _ & -> & _).
      destruct lone; [tauto|split; discriminate]. }
    destruct (all_to_all_shape HA HE) as (A1 & A2 & A3 & A4 & A5 & A6). split; [|exact A6].
    constructor.
    - intros k Hk'. destruct (Hk k Hk') as [->| ->]; reflexivity.
    - intros k j Hk' Hj. destruct (Hk k Hk') as [->| ->], (Hk j Hj) as [->| ->]; auto; discriminate.
    - intros k v Hk' Hv. destruct (Hk k Hk') as [->| ->]; reflexivity.
    - intros k v Hk' Hv. cbn [pl_last release_plan] in Hk'. assert (k = 0) as -> by lia. reflexivity.
    - intros k v Hk' Hv. destruct (Hk k Hk') as [->| ->]; reflexivity.
    - exact A1.
    - exact A2.
    - exact A3.
    - exact A4.
    - exact A5.
    - intros v Hv. reflexivity.
    - intros k v Hk' Hv. cbn [pl_dest release_plan]. rewrite lone_spec by auto. destruct (Hk k Hk') as [->| ->]; cbn [pl_echo pl_state release_plan]; destruct lone; auto.
      cbn [mk_echo wrap w_echo box typed_echo t_mk_echo TR simple_release simple t_echo simple_echo]. 
      cbn [cx_id HonestFacts.sim_ctx]. rewrite (@wrapped_position LocalError v v Hv). cbn [bind].
      destruct (@enc_ok _ (sw_echo1 W) (pos v) H2) as (b & E1 & E & _). cbn [part_new msg]. rewrite E1, E. reflexivity.
    - intros k v Hk' Hv. cbn [pl_dest release_plan]. rewrite lone_spec by auto. destruct (Hk k Hk') as [->| ->]; cbn [pl_normal pl_state release_plan]; destruct lone; auto.
      cbn [mk_normal wrap w_normal box typed_normal t_mk_normal TR simple_release simple t_normal simple_normal cx_id HonestFacts.sim_ctx]. rewrite (@wrapped_position LocalError v v Hv). cbn [bind].
      destruct (@enc_ok _ (sw_broadcast1 W) (mkR1Broadcast 0 (pos v)) H3) as (b & E1 & E & _). cbn [part_new msg]. rewrite E1, E. reflexivity.
    - intros k v u Hk' Hv Hu. apply Hrem in Hu as [Hu _]; auto. destruct (Hk k Hk') as [->| ->]; cbn [pl_direct pl_artifact pl_state release_plan].
      + cbn [mk_direct wrap w_direct box typed_direct t_mk_direct TR simple_release simple]. unfold simple_direct. cbn [cx_id HonestFacts.sim_ctx].
        rewrite (@wrapped_position LocalError v v Hv), (@wrapped_position LocalError v u Hu). cbn [bind].
        destruct (@enc_ok _ (sw_message1 W) (mkPosition (pos v) (pos u)) H1) as (b & E1 & E & _). cbn [part_new msg t_direct TR simple_release simple simple_message]. rewrite E1, E. reflexivity.
      + cbn [mk_direct wrap w_direct box typed_direct t_mk_direct TR simple_release simple]. unfold simple_direct. cbn [s2_ctx cx_id HonestFacts.sim_ctx].
        rewrite (@wrapped_position LocalError v v Hv), (@wrapped_position LocalError v u Hu). cbn [bind].
        destruct (@enc_ok _ (sw_message2 W) (mkPosition (pos v) (pos u)) H4) as (b & E1 & E & _). cbn [part_new msg t_direct TR simple_release simple simple_message]. rewrite E1, E. reflexivity.
    - intros k v u Hk' Hv Hu. apply Hrem in Hu as [Hu Hne]; auto.
      assert (El : lone = false).
      { rewrite <- (@lone_spec _ Hv). destruct (is_empty (srem v parties)) eqn:E; auto. rewrite is_empty_get in E. 
        assert (Hm : mem u (srem v parties) = true) by (rewrite mem_rem, Hu; destruct (eqb_spec u v); auto; congruence).
        unfold mem, contains in Hm. rewrite E in Hm. discriminate. }
      destruct (Hk k Hk') as [->| ->]; cbn [pl_echo pl_normal pl_direct pl_payload pl_state release_plan]; rewrite ?El.
      + destruct (@enc_ok _ (sw_message1 W) (mkPosition (pos u) (pos v)) H1) as (b1 & _ & E1 & D1).
        destruct (@enc_ok _ (sw_echo1 W) (pos u) H2) as (b2 & _ & E2 & D2).
        destruct (@enc_ok _ (sw_broadcast1 W) (mkR1Broadcast 0 (pos u)) H3) as (b3 & _ & E3 & D3). rewrite E1, E2, E3.
        cbn [receive wrap w_receive box dm_direct dm_echo dm_normal TR simple_release simple t_direct t_echo t_normal simple_message simple_echo simple_normal part_receive part_deser msg ok_or t_receive].
        rewrite D1, D2, D3. cbn [bind ok_or]. unfold simple_receive. cbn [cx_id HonestFacts.sim_ctx].
        rewrite (@wrapped_position _ v v Hv). cbn [bind your_position my_position]. rewrite N.eqb_refl. reflexivity.
      + destruct (@enc_ok _ (sw_message2 W) (mkPosition (pos u) (pos v)) H4) as (b1 & _ & E1 & D1). rewrite E1.
        cbn [receive wrap w_receive box dm_direct dm_echo dm_normal TR simple_release simple t_direct t_echo t_normal simple_message simple_echo simple_normal part_receive part_deser msg ok_or t_receive is_none].
        rewrite D1. cbn [bind ok_or]. unfold simple_receive. cbn [s2_ctx cx_id HonestFacts.sim_ctx].
        rewrite (@wrapped_position _ v v Hv). cbn [bind your_position my_position]. rewrite N.eqb_refl. reflexivity.
    - intros k v ps arts Hk' Hv Hps Harts.
      destruct (Hk k Hk') as [->| ->].
      + destruct (@w_finalize_map P TR SR1 (sim_ctx v) (rsub 0 (nr_fin r v (final_rid release_plan 0 v))) ps arts _ pos _ (fun _ => tt) Hps Harts) as (ps' & arts' & M1 & _ & E).
        etransitivity; [exact E|]. cbn [t_finalize TR simple_release simple]. rewrite (@release_total_eq v ps' Hv M1). reflexivity.
      + destruct (@w_finalize_map P TR SR2 (mkSimple2 S1 (sim_ctx v)) (rsub 0 (nr_fin r v (final_rid release_plan 1 v))) ps arts _ pos _ (fun _ => tt) Hps Harts) as (ps' & arts' & M1 & _ & E).
        etransitivity; [exact E|]. cbn [t_finalize TR simple_release simple s2_ctx s2_sum]. rewrite (@release_total_eq v ps' Hv M1). reflexivity.
  Qed.

  Hypothesis Hwire : wire_total P.
  Hypothesis Hsig : signatures_correct P.
  Variable sk : Verifier -> Signer.
  Hypothesis Hsk : signers parties sk.

  Lemma release_runs : exists net0, honest_net r sid parties sk (fun _ => release_entry W parties) = Ok net0 /\
    (forall xs net, schedule r net0 xs net ->
       fine parties net /\
       (forall x res, act r net x = Some res -> exists net', res = Ok net') /\
       (forall v rep, get v (nodes net) = Some (Ended rep) -> rep_outcome rep = OResult (N.modulo (N.of_nat n * (N.of_nat n - 1)) 256)) /\
       ((forall v, mem v parties = true -> exists rep, get v (nodes net) = Some (Ended rep)) \/ exists x net', act r net x = Some (Ok net'))) /\
    (forall f : nat -> Net (wrap (simple_release W)), f 0 = net0 -> ~ forall i, exists x, act r (f i) x = Some (Ok (f (S i)))).
  Proof.
    pose proof release_honest as HR.
    destruct (honest_fine sk Hsk Hwire Hsig HR) as (net0 & E & H). exists net0. split; auto. split.
    - intros xs net Hs. destruct (H xs net Hs) as [H1 H2]. split; auto. split; auto. split.
      + intros v rep Hg. destruct (honest_results sk Hsk Hwire Hsig HR E v Hs Hg) as [_ ->]. cbn [pl_result release_plan]. now rewrite release_result.
      + destruct (honest_progress sk Hsk Hwire Hsig HR E Hs) as [[Ha _]|Ha]; auto. left. intros v Hv. destruct (Ha v Hv) as (rep & Hg & _). eauto.
    - exact (honest_finite sk Hsk Hwire Hsig HR E).
  Qed.
End Release.

(** ** Compared with debug builds *)
Section Compared.
  Context {P : Params}.
  Variable W : SimpleWire.

  Lemma add_agrees {E} a b c : @u8_add E a b = Ok c -> wrapping_add a b = c.
  Proof.
    unfold u8_add, wrapping_add. destruct (N.leb_spec (a + b) u8_max) as [L|L]; [|discriminate]. intros H. inv H.
    apply N.mod_small. unfold u8_max in L. lia.
  Qed.
  Lemma fold_agrees {E} l : forall a c, fold_res (@u8_add E) a l = Ok c -> fold_left wrapping_add l a = c.
  Proof.
    induction l as [|x l IH]; simpl; intros a c H; [now inv H|].
    destruct (@u8_add E a x) as [y| |] eqn:E1; try discriminate. cbn [bind] in H. rewrite (add_agrees _ _ E1). now apply IH.
  Qed.
  Lemma total_agrees c ps s : simple_total c ps = Ok s -> release_total c ps = Ok s.
  Proof.
    unfold simple_total, release_total. destruct (position c (cx_id c)) as [me| |]; try discriminate. cbn [bind].
    destruct (u8_sum (map snd (to_list ps))) as [t| |] eqn:Et; try discriminate. cbn [bind]. intros H.
    unfold wrapping_sum. rewrite (fold_agrees _ _ Et). now rewrite (add_agrees _ _ H).
  Qed.
  Lemma debug_refines k (x : tst (simple W) k) g ps arts o :
    t_finalize (simple W) k x g ps arts = Ok o -> t_finalize (simple_release W) k x g ps arts = Ok o.
  Proof.
    destruct k; cbn [t_finalize simple simple_release].
    - destruct (simple_total x ps) as [s| |] eqn:E; try discriminate. intros H. rewrite (total_agrees _ _ E). exact H.
    - destruct (simple_total (s2_ctx x) ps) as [s| |] eqn:E; try discriminate. cbn [bind]. rewrite (total_agrees _ _ E). cbn [bind].
      destruct (u8_add s (s2_sum x)) as [y| |] eqn:E2; try discriminate. intros H. now rewrite (add_agrees _ _ E2).
  Qed.
  Lemma release_no_panic k (x : tst (simple W) k) g ps arts : get (cx_id (simple_ctx k x)) (cx_positions (simple_ctx k x)) <> None ->
    exists o, t_finalize (simple_release W) k x g ps arts = Ok o.
  Proof.
    intros H. destruct k; cbn [t_finalize simple_release]; unfold release_total, position; cbn [simple_ctx] in H.
    - destruct (get (cx_id x) (cx_positions x)); [|contradiction]. cbn [bind]. eauto.
    - destruct (get (cx_id (s2_ctx x)) (cx_positions (s2_ctx x))); [|contradiction]. cbn [bind]. eauto.
  Qed.
End Compared.

(** ** The wrapped result is the sum for few parties only *)
Lemma wrapped_iff m : N.modulo (N.of_nat m * (N.of_nat m - 1)) 256 = (N.of_nat m * (N.of_nat m - 1))%N <-> m <= 16.
Proof.
  split.
  - intros H. assert (L : (N.modulo (N.of_nat m * (N.of_nat m - 1)) 256 < 256)%N) by (apply N.mod_lt; discriminate).
    rewrite H in L. destruct (Nat.le_gt_cases m 16) as [|G]; auto. assert (17 <= N.of_nat m)%N by lia. nia.
  - intros H. apply N.mod_small. assert (N.of_nat m <= 16)%N by lia. nia.
Qed.
