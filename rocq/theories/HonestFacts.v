(** Honest executions of the example protocols. *)
From Coq Require Import List Arith NArith Bool Lia Permutation.
From Verif Require Import Base BMap Errors RoundId Message Protocol Transcript Evidence Session Typed Simple Dining Spec SpecCrypto SpecTyped
  Network SpecNet TypedFacts NetFacts.
Import ListNotations.
Set Implicit Arguments.

(** ** Sums *)
Lemma nsum_perm l l' : Permutation l l' -> nsum l = nsum l'.
Proof. induction 1; simpl; lia. Qed.

Lemma u8_fold {E} l : forall a, (a <= u8_max)%N ->
  fold_res (@u8_add E) a l = if N.leb (a + nsum l) u8_max then Ok (a + nsum l)%N else Panic.
Proof.
  induction l as [|x l IH]; simpl; intros a Ha.
  - rewrite N.add_0_r. now rewrite (proj2 (N.leb_le _ _) Ha).
  - unfold u8_add at 1. destruct (N.leb_spec (a + x) u8_max) as [L|L]; cbn [bind].
    + rewrite IH; auto. now rewrite N.add_assoc.
    + destruct (N.leb_spec (a + (x + nsum l)) u8_max); auto. lia.
Qed.
Lemma u8_sum_eq {E} l : @u8_sum E l = if N.leb (nsum l) u8_max then Ok (nsum l) else Panic.
Proof. unfold u8_sum. rewrite u8_fold; [now rewrite N.add_0_l|]. unfold u8_max. lia. Qed.

(** ** Maps given by a function on a set *)
Section Maps.
  Context {P : Params}.

  Lemma is_map_keys {V} (m : bmap Verifier V) dom f : is_map m dom f -> Permutation (keys m) (elements dom).
  Proof.
    intros H. apply NoDup_Permutation; [apply NoDup_keys|apply NoDup_elements|].
    intros v. rewrite in_keys, in_elements. unfold contains. rewrite H. destruct (mem v dom); simpl; intuition discriminate.
  Qed.
  Lemma is_map_values {V} (m : bmap Verifier V) dom f : is_map m dom f -> map snd (to_list m) = map f (keys m).
  Proof.
    intros H. unfold keys. rewrite map_map. apply map_ext_in. intros [k x] Hin. apply in_to_list in Hin. rewrite H in Hin.
    destruct (mem k dom); [|discriminate]. now inv Hin.
  Qed.
  Lemma is_map_perm {V} (m : bmap Verifier V) dom f : is_map m dom f -> Permutation (map snd (to_list m)) (map f (elements dom)).
  Proof. intros H. rewrite (is_map_values H). apply Permutation_map. exact (is_map_keys H). Qed.

  Lemma down_all_map (T : TProto) e t (m : bmap Verifier (any T)) dom (f : Verifier -> ty T t) :
    is_map m dom (fun u => existT (ty T) t (f u)) -> exists m', down_all e t m = Ok m' /\ is_map m' dom f.
  Proof.
    intros H.
    destruct (@convert_ok _ _ LocalError (any T) _ (any_down (T:=T) e t) m (fun y q => q = existT (ty T) t y)) as (m' & Hm & Hg).
    { intros k x Hx. rewrite H in Hx. destruct (mem k dom); [|discriminate]. inv Hx. exists (f k). split; auto. apply any_down_same. }
    exists m'. split; [exact Hm|]. intros u. specialize (Hg u). rewrite (H u) in Hg.
    destruct (mem u dom); destruct (get u m'); try contradiction; auto. destruct Hg as [Hg _]. rewrite any_down_same in Hg. now inv Hg.
  Qed.

  Lemma w_finalize_map (T : TProto) k (x : tst T k) g ps arts dp (fp : Verifier -> ty T (t_pay T k)) da (fa : Verifier -> ty T (t_art T k)) :
    is_map ps dp (fun u => existT (ty T) (t_pay T k) (fp u)) -> is_map arts da (fun u => existT (ty T) (t_art T k) (fa u)) ->
    exists ps' arts', is_map ps' dp fp /\ is_map arts' da fa /\
      finalize (wrap T) (box T k x : St (wrap T)) g ps arts = t_finalize T k x g ps' arts'.
  Proof.
    intros Hp Ha. destruct (@down_all_map T LE_PayloadDowncast _ _ _ _ Hp) as (ps' & E1 & M1).
    destruct (@down_all_map T LE_ArtifactDowncast _ _ _ _ Ha) as (arts' & E2 & M2). exists ps', arts'. split; auto. split; auto.
    cbn [finalize wrap w_finalize box]. now rewrite E1, E2.
  Qed.

  Lemma split_party (v : Verifier) parties : mem v parties = true -> Permutation (v :: elements (srem v parties)) (elements parties).
  Proof.
    intros Hv. apply NoDup_Permutation.
    - constructor; [|apply NoDup_elements]. rewrite in_elements, mem_rem, eqb_refl. discriminate.
    - apply NoDup_elements.
    - intros u. simpl. rewrite !in_elements, mem_rem. destruct (eqb_spec u v) as [->|Hne]; simpl; intuition congruence.
  Qed.
End Maps.

(** ** simple.rs *)
Section SimpleRun.
  Context {P : Params}.
  Variable W : SimpleWire.
  Hypothesis HW : codec_ok (sw_message1 W) /\ codec_ok (sw_echo1 W) /\ codec_ok (sw_broadcast1 W) /\ codec_ok (sw_message2 W).
  Variable r : NetRng.
  Variable sid : bytes.
  Variable parties : bset Verifier.
  Notation ids := (elements parties).
  Notation n := (length ids).

  Notation pos := (pos parties).

  Lemma positions_nth i v : n <= 256 -> nth_error ids i = Some v -> get v (enum_positions ids) = Some (N.of_nat i).
  Proof.
    intros Hn Hi. unfold enum_positions. apply get_of_list_nodup.
    - rewrite map_map. cbn [fst]. assert (E : forall s, map (fun x : nat * Verifier => snd x) (combine (seq s (length ids)) ids) = ids).
      { generalize ids. induction l as [|x l IH]; simpl; intros s; auto. now rewrite IH. }
      rewrite E. apply NoDup_elements.
    - apply in_map_iff. exists (i, v). cbn [fst snd]. assert (Hlt : i < n) by (apply nth_error_Some; congruence). split.
      + f_equal. apply N.mod_small. lia.
      + assert (K : forall (l : list Verifier) s j, nth_error l j = Some v -> In (s + j, v) (combine (seq s (length l)) l)).
        { induction l as [|x l IH]; intros s [|j] H; simpl in *; try discriminate.
          - inv H. left. now rewrite Nat.add_0_r.
          - right. rewrite Nat.add_succ_r. exact (IH (S s) j H). }
        exact (K ids 0 i Hi).
  Qed.
  Lemma positions_get v : n <= 256 -> mem v parties = true -> get v (enum_positions ids) = Some (pos v).
  Proof.
    intros Hn Hv. apply in_elements in Hv. apply In_nth_error in Hv as [i Hi]. unfold pos.
    now rewrite (@positions_nth _ _ Hn Hi).
  Qed.

  Lemma nsum_seq : forall l s, (forall i v, nth_error l i = Some v -> pos v = N.of_nat (s + i)) ->
    (2 * nsum (map pos l) + N.of_nat (length l) = N.of_nat (length l) * (2 * N.of_nat s + N.of_nat (length l)))%N.
  Proof.
    induction l as [|v l IH]; intros s Hl; [simpl; lia|]. cbn [map nsum fold_right length].
    assert (E0 : pos v = N.of_nat s). { rewrite (Hl 0 v eq_refl). f_equal. lia. }
    specialize (IH (S s)). unfold nsum in IH. rewrite E0. assert (IH' := IH ltac:(intros i w Hi; rewrite (Hl (S i) w Hi); f_equal; lia)). nia.
  Qed.
  Lemma sum_positions : n <= 256 -> (2 * nsum (map pos ids) + N.of_nat n = N.of_nat n * N.of_nat n)%N.
  Proof.
    intros Hn. pose proof (@nsum_seq ids 0) as H. simpl N.of_nat in H. rewrite N.mul_0_r, N.add_0_l in H. apply H.
    intros i v Hi. unfold pos. now rewrite (@positions_nth _ _ Hn Hi).
  Qed.
  Notation S1 := (nsum (map pos ids)).

  Definition sim_ctx (v : Verifier) : Ctx := mkCtx v (srem v parties) (enum_positions ids).
  Lemma position_eq {E} v u : n <= 256 -> mem u parties = true -> @position _ E (sim_ctx v) u = Ok (pos u).
  Proof. intros Hn Hu. unfold position. simpl. now rewrite positions_get. Qed.

  Lemma total_eq v ps : n <= 256 -> mem v parties = true -> is_map ps (srem v parties) pos ->
    simple_total (sim_ctx v) ps = if N.leb S1 u8_max then Ok S1 else Panic.
  Proof.
    intros Hn Hv Hps. unfold simple_total. cbn [cx_id sim_ctx]. rewrite (@position_eq LocalError v v Hn Hv). cbn [bind].
    rewrite u8_sum_eq. rewrite (nsum_perm (is_map_perm Hps)).
    assert (E : S1 = (pos v + nsum (map pos (elements (srem v parties))))%N).
    { rewrite <- (nsum_perm (Permutation_map pos (@split_party _ _ _ Hv))). reflexivity. }
    rewrite E. destruct (N.leb_spec (nsum (map pos (elements (srem v parties)))) u8_max) as [L|L]; cbn [bind].
    - reflexivity.
    - destruct (N.leb_spec (pos v + nsum (map pos (elements (srem v parties)))) u8_max); auto. lia.
  Qed.

  Definition enc {T} (c : Codec T) (x : T) : body := match c_ser c x with Some b => Some b | None => None end.
  Definition T0 : TProto := simple W.
  Definition lone : bool := Nat.leb n 1.

  Definition simple_plan : Plan (wrap T0) := {|
    pl_last := 1;
    pl_rid := fun k => rid_new (N.of_nat k + 1);
    pl_part := fun _ _ => EPDefault;
    pl_dest := fun _ v => srem v parties;
    pl_from := fun _ v => srem v parties;
    pl_state := fun k v => match k with
      | O => (box T0 SR1 (sim_ctx v) : St (wrap T0))
      | _ => (box T0 SR2 (mkSimple2 S1 (sim_ctx v)) : St (wrap T0))
      end;
    pl_echo := fun k v => match k with O => if lone then None else enc (sw_echo1 W) (pos v) | _ => None end;
    pl_normal := fun k v => match k with O => if lone then None else enc (sw_broadcast1 W) (mkR1Broadcast 0 (pos v)) | _ => None end;
    pl_direct := fun k v u => match k with
      | O => enc (sw_message1 W) (mkPosition (pos v) (pos u))
      | _ => enc (sw_message2 W) (mkPosition (pos v) (pos u))
      end;
    pl_artifact := fun _ _ _ => (existT (ty T0) SUnit tt : Artifact (wrap T0));
    pl_payload := fun _ _ u => (existT (ty T0) SPay (pos u) : Payload (wrap T0));
    pl_result := fun _ => ((S1 + S1)%N : Rslt (wrap T0))
  |}.

  Lemma enc_ok {T} (c : Codec T) x : codec_ok c -> exists b, c_ser c x = Some b /\ enc c x = Some b /\ c_deser c b = Some x.
  Proof. intros H. destruct (H x) as (b & E & D). exists b. unfold enc. rewrite E. auto. Qed.

  Lemma lone_spec v : mem v parties = true -> is_empty (srem v parties) = lone.
  Proof.
    intros Hv. pose proof (Permutation_length (@split_party _ _ _ Hv)) as E. simpl in E. unfold lone. rewrite <- E.
    destruct (is_empty (srem v parties)) eqn:Ee.
    - apply is_empty_spec in Ee. rewrite Ee. reflexivity.
    - apply not_empty_ex in Ee as (k & x & Hk). destruct (elements (srem v parties)) as [|u l] eqn:El; [|reflexivity].
      assert (Hin : In k (elements (srem v parties))). { apply in_elements. unfold mem, contains. now rewrite Hk. }
      rewrite El in Hin. contradiction.
  Qed.

  Lemma simple_honest : (S1 + S1 <= u8_max)%N -> n <= 256 -> honest_run r sid parties (fun _ => simple_entry W parties) simple_plan.
  Proof.
    intros Hsum Hn. destruct HW as (H1 & H2 & H3 & H4).
    assert (Hk : forall k, k <= pl_last simple_plan -> k = 0 \/ k = 1) by (cbn [pl_last simple_plan]; intros; lia).
    assert (Hrem : forall v u, mem v parties = true -> mem u (srem v parties) = true -> mem u parties = true /\ u <> v).
    { intros v u _ H. rewrite mem_rem in H. destruct (eqb_spec u v); try discriminate. auto. }
    assert (HA : all_to_all parties simple_plan) by (intros k v _ _; split; reflexivity).
    assert (HE : full_echo parties simple_plan).
    { intros k v Hk' Hv. split; [reflexivity|]. intros u Hu. destruct (Hk k Hk') as [->| ->]; cbn [pl_echo simple_plan]; [|tauto].
      destruct (@enc_ok _ (sw_echo1 W) (pos u) H2) as (b & _ & -> & _). destruct (@enc_ok _ (sw_echo1 W) (pos v) H2) as (b' & _ & -> & _).
      destruct lone; [tauto|split; discriminate]. }
    destruct (all_to_all_shape HA HE) as (A1 & A2 & A3 & A4 & A5 & A6). split; [|exact A6].
    constructor.
    - intros k Hk'. destruct (Hk k Hk') as [->| ->]; reflexivity.
    - intros k j Hk' Hj. destruct (Hk k Hk') as [->| ->], (Hk j Hj) as [->| ->]; auto; discriminate.
    - intros k v Hk' Hv. destruct (Hk k Hk') as [->| ->]; reflexivity.
    - intros k v Hk' Hv. cbn [pl_last simple_plan] in Hk'. assert (k = 0) as -> by lia. reflexivity.
    - intros k v Hk' Hv. destruct (Hk k Hk') as [->| ->]; reflexivity.
    - exact A1.
    - exact A2.
    - exact A3.
    - exact A4.
    - exact A5.
    - intros v Hv. reflexivity.
    - intros k v Hk' Hv. cbn [pl_dest simple_plan]. rewrite lone_spec by auto. destruct (Hk k Hk') as [->| ->]; cbn [pl_echo pl_state simple_plan]; destruct lone; auto.
      cbn [mk_echo wrap w_echo box typed_echo t_mk_echo T0 simple t_echo simple_echo]. 
      cbn [cx_id sim_ctx]. rewrite (@position_eq LocalError v v Hn Hv). cbn [bind].
      destruct (@enc_ok _ (sw_echo1 W) (pos v) H2) as (b & E1 & E & _). cbn [part_new msg]. rewrite E1, E. reflexivity.
    - intros k v Hk' Hv. cbn [pl_dest simple_plan]. rewrite lone_spec by auto. destruct (Hk k Hk') as [->| ->]; cbn [pl_normal pl_state simple_plan]; destruct lone; auto.
      cbn [mk_normal wrap w_normal box typed_normal t_mk_normal T0 simple t_normal simple_normal cx_id sim_ctx]. rewrite (@position_eq LocalError v v Hn Hv). cbn [bind].
      destruct (@enc_ok _ (sw_broadcast1 W) (mkR1Broadcast 0 (pos v)) H3) as (b & E1 & E & _). cbn [part_new msg]. rewrite E1, E. reflexivity.
    - intros k v u Hk' Hv Hu. apply Hrem in Hu as [Hu _]; auto. destruct (Hk k Hk') as [->| ->]; cbn [pl_direct pl_artifact pl_state simple_plan].
      + cbn [mk_direct wrap w_direct box typed_direct t_mk_direct T0 simple]. unfold simple_direct. cbn [cx_id sim_ctx].
        rewrite (@position_eq LocalError v v Hn Hv), (@position_eq LocalError v u Hn Hu). cbn [bind].
        destruct (@enc_ok _ (sw_message1 W) (mkPosition (pos v) (pos u)) H1) as (b & E1 & E & _). cbn [part_new msg t_direct simple simple_message]. rewrite E1, E. reflexivity.
      + cbn [mk_direct wrap w_direct box typed_direct t_mk_direct T0 simple]. unfold simple_direct. cbn [s2_ctx cx_id sim_ctx].
        rewrite (@position_eq LocalError v v Hn Hv), (@position_eq LocalError v u Hn Hu). cbn [bind].
        destruct (@enc_ok _ (sw_message2 W) (mkPosition (pos v) (pos u)) H4) as (b & E1 & E & _). cbn [part_new msg t_direct simple simple_message]. rewrite E1, E. reflexivity.
    - intros k v u Hk' Hv Hu. apply Hrem in Hu as [Hu Hne]; auto.
      assert (El : lone = false).
      { rewrite <- (@lone_spec _ Hv). destruct (is_empty (srem v parties)) eqn:E; auto. rewrite is_empty_get in E. 
        assert (Hm : mem u (srem v parties) = true) by (rewrite mem_rem, Hu; destruct (eqb_spec u v); auto; congruence).
        unfold mem, contains in Hm. rewrite E in Hm. discriminate. }
      destruct (Hk k Hk') as [->| ->]; cbn [pl_echo pl_normal pl_direct pl_payload pl_state simple_plan]; rewrite ?El.
      + destruct (@enc_ok _ (sw_message1 W) (mkPosition (pos u) (pos v)) H1) as (b1 & _ & E1 & D1).
        destruct (@enc_ok _ (sw_echo1 W) (pos u) H2) as (b2 & _ & E2 & D2).
        destruct (@enc_ok _ (sw_broadcast1 W) (mkR1Broadcast 0 (pos u)) H3) as (b3 & _ & E3 & D3). rewrite E1, E2, E3.
        cbn [receive wrap w_receive box dm_direct dm_echo dm_normal T0 simple t_direct t_echo t_normal simple_message simple_echo simple_normal part_receive part_deser msg ok_or t_receive].
        rewrite D1, D2, D3. cbn [bind ok_or]. unfold simple_receive. cbn [cx_id sim_ctx].
        rewrite (@position_eq _ v v Hn Hv). cbn [bind your_position my_position]. rewrite N.eqb_refl. reflexivity.
      + destruct (@enc_ok _ (sw_message2 W) (mkPosition (pos u) (pos v)) H4) as (b1 & _ & E1 & D1). rewrite E1.
        cbn [receive wrap w_receive box dm_direct dm_echo dm_normal T0 simple t_direct t_echo t_normal simple_message simple_echo simple_normal part_receive part_deser msg ok_or t_receive is_none].
        rewrite D1. cbn [bind ok_or]. unfold simple_receive. cbn [s2_ctx cx_id sim_ctx].
        rewrite (@position_eq _ v v Hn Hv). cbn [bind your_position my_position]. rewrite N.eqb_refl. reflexivity.
    - intros k v ps arts Hk' Hv Hps Harts.
      destruct (Hk k Hk') as [->| ->].
      + destruct (@w_finalize_map P T0 SR1 (sim_ctx v) (rsub 0 (nr_fin r v (final_rid simple_plan 0 v))) ps arts _ pos _ (fun _ => tt) Hps Harts) as (ps' & arts' & M1 & _ & E).
        etransitivity; [exact E|]. cbn [t_finalize T0 simple]. rewrite (@total_eq v ps' Hn Hv M1).
        destruct (N.leb_spec S1 u8_max); [reflexivity|lia].
      + destruct (@w_finalize_map P T0 SR2 (mkSimple2 S1 (sim_ctx v)) (rsub 0 (nr_fin r v (final_rid simple_plan 1 v))) ps arts _ pos _ (fun _ => tt) Hps Harts) as (ps' & arts' & M1 & _ & E).
        etransitivity; [exact E|]. cbn [t_finalize T0 simple s2_ctx s2_sum]. rewrite (@total_eq v ps' Hn Hv M1).
        destruct (N.leb_spec S1 u8_max); [|lia]. cbn [bind]. unfold u8_add. destruct (N.leb_spec (S1 + S1) u8_max); [reflexivity|lia].
  Qed.

  Hypothesis Hwire : wire_total P.
  Hypothesis Hsig : signatures_correct P.
  Variable sk : Verifier -> Signer.
  Hypothesis Hsk : signers parties sk.

  Lemma result_eq : n <= 16 -> (S1 + S1 = N.of_nat n * (N.of_nat n - 1))%N /\ (S1 + S1 <= u8_max)%N.
  Proof.
    intros Hn. pose proof sum_positions as H. assert (E := H ltac:(lia)). clear H. unfold u8_max.
    assert (Hb : (N.of_nat n <= 16)%N) by lia. revert E Hb. generalize (N.of_nat n) as m. generalize S1 as s. intros s m E Hb. split; [nia|].
    assert (m * m <= 16 * m)%N by nia. nia.
  Qed.

  Lemma simple_runs : n <= 16 -> exists net0, honest_net r sid parties sk (fun _ => simple_entry W parties) = Ok net0 /\
    (forall xs net, schedule r net0 xs net ->
       fine parties net /\
       (forall x res, act r net x = Some res -> exists net', res = Ok net') /\
       (forall v rep, get v (nodes net) = Some (Ended rep) -> rep_outcome rep = OResult (N.of_nat n * (N.of_nat n - 1))%N) /\
       ((forall v, mem v parties = true -> exists rep, get v (nodes net) = Some (Ended rep)) \/ exists x net', act r net x = Some (Ok net'))) /\
    (forall f : nat -> Net (wrap (simple W)), f 0 = net0 -> ~ forall i, exists x, act r (f i) x = Some (Ok (f (S i)))).
  Proof.
    intros Hn. destruct (result_eq Hn) as [E1 E2]. pose proof (simple_honest E2 ltac:(lia)) as HR.
    destruct (honest_fine sk Hsk Hwire Hsig HR) as (net0 & E & H). exists net0. split; auto. split.
    - intros xs net Hs. destruct (H xs net Hs) as [H1 H2]. split; auto. split; auto. split.
      + intros v rep Hg. destruct (honest_results sk Hsk Hwire Hsig HR E v Hs Hg) as [_ ->]. cbn [pl_result simple_plan]. now rewrite E1.
      + destruct (honest_progress sk Hsk Hwire Hsig HR E Hs) as [[Ha _]|Ha]; auto. left. intros v Hv. destruct (Ha v Hv) as (rep & Hg & _). eauto.
    - exact (honest_finite sk Hsk Hwire Hsig HR E).
  Qed.

  (** With more parties the sum does not fit. *)
  Lemma simple_overflows v g ps arts : 17 <= n -> n <= 256 -> mem v parties = true ->
    is_map ps (srem v parties) pos -> (S1 <= u8_max)%N ->
    t_finalize (simple W) SR2 (mkSimple2 S1 (sim_ctx v)) g ps arts = Panic.
  Proof.
    intros H17 Hn Hv Hps Hs. cbn [t_finalize simple s2_ctx s2_sum]. rewrite (@total_eq v ps Hn Hv Hps).
    rewrite (proj2 (N.leb_le _ _) Hs). cbn [bind]. unfold u8_add. destruct (N.leb_spec (S1 + S1) u8_max) as [L|]; auto. exfalso.
    pose proof (sum_positions Hn) as E. unfold u8_max in L.
    assert (Hb : (17 <= N.of_nat n)%N) by lia. revert E L Hb. generalize (N.of_nat n) as m. generalize S1 as s. intros s m E L Hb.
    assert (17 * m <= m * m)%N by nia. nia.
  Qed.
  Lemma simple_overflows_earlier v g ps arts : 24 <= n -> n <= 256 -> mem v parties = true ->
    is_map ps (srem v parties) pos -> t_finalize (simple W) SR1 (sim_ctx v) g ps arts = Panic.
  Proof.
    intros H17 Hn Hv Hps. cbn [t_finalize simple]. rewrite (@total_eq v ps Hn Hv Hps).
    destruct (N.leb_spec S1 u8_max) as [L|]; auto. exfalso.
    pose proof (sum_positions Hn) as E. unfold u8_max in L.
    assert (Hb : (24 <= N.of_nat n)%N) by lia. revert E L Hb. generalize (N.of_nat n) as m. generalize S1 as s. intros s m E L Hb.
    assert (24 * m <= m * m)%N by nia. nia.
  Qed.
End SimpleRun.

(** ** dining_cryptographers.rs *)
Section DiningRun.
  Context {P : Params}.
  Variables (diner : N -> Verifier) (num : Verifier -> N).
  Hypothesis Hnum : forall i, (i < 3)%N -> num (diner i) = i.
  Variables (toss_codec reveal_codec : Codec bool) (no_error : bytes -> bool).
  Hypothesis Hc1 : codec_ok toss_codec.
  Hypothesis Hc2 : codec_ok reveal_codec.
  Variable r : NetRng.
  Variable sid : bytes.
  Variables toss paid : Verifier -> bool.
  Definition table : bset Verifier := set_of_list (map diner [0; 1; 2]%N).
  Notation TD := (dining diner num toss_codec reveal_codec no_error).

  Lemma at_table v : mem v table = true -> v = diner 0 \/ v = diner 1 \/ v = diner 2.
  Proof. intros H. apply mem_set_of_list in H. simpl in H. intuition. Qed.
  Lemma diners_at_table i : (i < 3)%N -> mem (diner i) table = true.
  Proof.
    intros H. apply mem_set_of_list. assert (E : i = 0%N \/ i = 1%N \/ i = 2%N) by lia. simpl. destruct E as [->|[->| ->]]; auto.
  Qed.
  Lemma diner_inj i j : (i < 3)%N -> (j < 3)%N -> diner i = diner j -> i = j.
  Proof. intros Hi Hj E. rewrite <- (Hnum Hi), <- (Hnum Hj). now rewrite E. Qed.
  Lemma table_perm : Permutation (elements table) (map diner [0; 1; 2]%N).
  Proof.
    apply NoDup_Permutation; [apply NoDup_elements| |].
    - simpl. repeat constructor; simpl; intuition; match goal with H : diner _ = diner _ |- _ => apply diner_inj in H; lia end.
    - intros v. rewrite in_elements. unfold table. now rewrite mem_set_of_list.
  Qed.

  Definition left_of (v : Verifier) : Verifier := diner (N.modulo (num v + 2) 3).
  Definition right_of (v : Verifier) : Verifier := diner (N.modulo (num v + 1) 3).
  Definition second (v : Verifier) : Dining2 := mkDining2 v (toss v) (toss (left_of v)) (paid v).
  Definition reveal (v : Verifier) : bool := dining_reveal (second v).
  Lemma own_reveal v : dining_own_reveal (second v) = reveal v.
  Proof. unfold dining_own_reveal, reveal, dining_reveal. simpl. destruct (paid v), (toss v), (toss (left_of v)); reflexivity. Qed.

  Definition dining_plan : Plan (wrap TD) := {|
    pl_last := 1;
    pl_rid := fun k => rid_new (N.of_nat k + 1);
    pl_part := fun _ _ => EPDefault;
    pl_dest := fun k v => match k with O => set_of_list [right_of v] | _ => srem v table end;
    pl_from := fun k v => match k with O => set_of_list [left_of v] | _ => srem v table end;
    pl_state := fun k v => match k with
      | O => (box TD DR1 (mkDining1 v (toss v) (paid v)) : St (wrap TD))
      | _ => (box TD DR2 (second v) : St (wrap TD))
      end;
    pl_echo := fun _ _ => None;
    pl_normal := fun k v => match k with O => None | _ => enc reveal_codec (reveal v) end;
    pl_direct := fun k v _ => match k with O => enc toss_codec (toss v) | _ => None end;
    pl_artifact := fun k _ _ => (match k with O => existT (ty TD) DUnit tt | _ => existT (ty TD) DNoArt tt end : Artifact (wrap TD));
    pl_payload := fun k _ u => (existT (ty TD) DBool (match k with O => toss u | _ => reveal u end) : Payload (wrap TD));
    pl_result := fun v => (match elements (srem v table) with
      | [u; w] => (reveal u, reveal w, reveal v)
      | _ => (false, false, false)
      end : Rslt (wrap TD))
  |}.

  Lemma others_eq v : mem v table = true -> set_of_list (map diner (filter (fun i => negb (N.eqb i (num v))) [0; 1; 2]%N)) = srem v table.
  Proof.
    intros Hv. apply set_ext. intros u. apply eq_true_iff_eq. rewrite mem_rem, mem_set_of_list, in_map_iff. split.
    - intros (i & <- & Hi). apply filter_In in Hi as [Hi Hne]. assert (Hi3 : (i < 3)%N) by (simpl in Hi; intuition subst; lia).
      rewrite (diners_at_table Hi3), andb_true_r. apply negb_true_iff, eqb_neq. intros E. rewrite <- E, (Hnum Hi3), N.eqb_refl in Hne. discriminate.
    - intros H. apply andb_prop in H as [Hne Hu]. assert (E : exists i, (i < 3)%N /\ u = diner i).
      { apply at_table in Hu as [->|[->| ->]]; eexists; (split; [|reflexivity]); lia. }
      destruct E as (i & Hi & ->). exists i. split; auto. apply filter_In. split; [simpl; lia|].
      destruct (N.eqb_spec i (num v)) as [E|]; auto. exfalso.
      assert (E2 : exists j, (j < 3)%N /\ v = diner j).
      { apply at_table in Hv as [->|[->| ->]]; eexists; (split; [|reflexivity]); lia. }
      destruct E2 as (j & Hj & ->). rewrite (Hnum Hj) in E. subst j. rewrite eqb_refl in Hne. discriminate.
  Qed.

  Lemma neighbours v u : mem v table = true -> mem u table = true -> (v = left_of u <-> u = right_of v).
  Proof.
    intros Hv Hu.
    assert (forall i j, (i < 3)%N -> (j < 3)%N -> diner i = diner j <-> i = j) as Hd by (intros i j Hi Hj; split; [now apply diner_inj|congruence]).
    unfold left_of, right_of.
    apply at_table in Hv as [->|[->| ->]]; apply at_table in Hu as [->|[->| ->]]; rewrite !Hnum by lia; rewrite !Hd by (vm_compute; reflexivity); vm_compute; split; congruence.
  Qed.
  Lemma left_table v : mem v table = true -> mem (left_of v) table = true /\ left_of v <> v.
  Proof.
    intros Hv. unfold left_of. split.
    - apply diners_at_table. apply N.mod_lt. lia.
    - apply at_table in Hv as [->|[->| ->]]; rewrite Hnum by lia; intros E; apply diner_inj in E; vm_compute in *; congruence.
  Qed.
  Lemma right_table v : mem v table = true -> mem (right_of v) table = true /\ right_of v <> v.
  Proof.
    intros Hv. unfold right_of. split.
    - apply diners_at_table. apply N.mod_lt. lia.
    - apply at_table in Hv as [->|[->| ->]]; rewrite Hnum by lia; intros E; apply diner_inj in E; vm_compute in *; congruence.
  Qed.

  Lemma table_three v : mem v table = true -> exists u w, elements (srem v table) = [u; w].
  Proof.
    intros Hv. pose proof (Permutation_length (@split_party _ _ _ Hv)) as E. rewrite (Permutation_length table_perm) in E. simpl in E.
    destruct (elements (srem v table)) as [|u [|w [|]]]; try discriminate. eauto.
  Qed.

  Variable ep : Verifier -> EntryPoint (wrap TD).
  Hypothesis Hep : forall v, mem v table = true -> ep_make (ep v) (rsub 0 (nr_new r v)) sid v = Ok (box TD DR1 (mkDining1 v (toss v) (paid v)) : St (wrap TD)).

  Lemma mem_single (u v : Verifier) : mem u (set_of_list [v]) = true <-> u = v.
  Proof. rewrite mem_set_of_list. simpl. intuition. Qed.

  Lemma dining_honest : honest_run r sid table ep dining_plan.
  Proof.
    assert (Hk : forall k, k <= pl_last dining_plan -> k = 0 \/ k = 1) by (cbn [pl_last dining_plan]; intros; lia).
    assert (Hrem : forall v u, mem u (srem v table) = true -> mem u table = true /\ u <> v).
    { intros v u H. rewrite mem_rem in H. destruct (eqb_spec u v); try discriminate. auto. }
    assert (Hne : forall v, mem v table = true -> is_empty (set_of_list [right_of v]) = false /\ is_empty (srem v table) = false).
    { intros v Hv. split.
      - reflexivity.
      - destruct (is_empty _) eqn:E; auto. apply is_empty_spec in E. destruct (table_three v Hv) as (u & w & H). rewrite E in H. discriminate. }
    split.
    2:{ apply heard_in_step. split; [intros k v u _ _ He; discriminate|]. intros k v u Hk' _ _. cbn [pl_last dining_plan] in Hk'. assert (k = 0) as -> by lia. now left. }
    constructor.
    - intros k Hk'. destruct (Hk k Hk') as [->| ->]; reflexivity.
    - intros k j Hk' Hj. destruct (Hk k Hk') as [->| ->], (Hk j Hj) as [->| ->]; auto; discriminate.
    - intros k v Hk' Hv. destruct (Hk k Hk') as [->| ->]; reflexivity.
    - intros k v Hk' Hv. cbn [pl_last dining_plan] in Hk'. assert (k = 0) as -> by lia. reflexivity.
    - intros k v Hk' Hv. destruct (Hk k Hk') as [->| ->]; [reflexivity|]. cbn [pl_state pl_dest pl_from dining_plan].
      cbn [cinfo wrap box projT1 projT2 t_cinfo dining dining_comm d2_id second]. now rewrite others_eq.
    - intros k v u Hk' Hv Hu. destruct (Hk k Hk') as [->| ->]; cbn [pl_dest dining_plan] in Hu; [|exact (Hrem v u Hu)].
      apply mem_single in Hu as ->. exact (right_table v Hv).
    - intros k v u Hk' Hv Hu. destruct (Hk k Hk') as [->| ->]; cbn [pl_from dining_plan] in Hu; [|exact (Hrem v u Hu)].
      apply mem_single in Hu as ->. exact (left_table v Hv).
    - intros k u v Hk' Hu Hv. destruct (Hk k Hk') as [->| ->]; cbn [pl_dest pl_from dining_plan].
      + apply eq_true_iff_eq. rewrite !mem_single. symmetry. exact (@neighbours u v Hu Hv).
      + rewrite !mem_rem, Hu, Hv, eqb_sym. reflexivity.
    - intros k v u Hk' Hv He. discriminate.
    - intros k v u w Hk' Hv He. discriminate.
    - exact Hep.
    - intros k v Hk' Hv. destruct (Hk k Hk') as [->| ->]; cbn [pl_dest dining_plan]; destruct (is_empty _); reflexivity.
    - intros k v Hk' Hv. destruct (Hne v Hv) as [N1 N2]. destruct (Hk k Hk') as [->| ->]; cbn [pl_dest dining_plan]; rewrite ?N1, ?N2; [reflexivity|].
      cbn [pl_state pl_normal dining_plan mk_normal wrap w_normal box typed_normal t_mk_normal dining t_normal dining_normal bind part_new msg].
      fold (reveal v). destruct (@enc_ok _ reveal_codec (reveal v) Hc2) as (b & E1 & E & _). rewrite E1, E. reflexivity.
    - intros k v u Hk' Hv Hu. destruct (Hk k Hk') as [->| ->].
      + cbn [pl_state pl_direct pl_artifact dining_plan mk_direct wrap w_direct box typed_direct t_mk_direct dining t_direct dining_direct bind part_new msg d1_toss].
        destruct (@enc_ok _ toss_codec (toss v) Hc1) as (b & E1 & E & _). rewrite E1, E. reflexivity.
      + reflexivity.
    - intros k v u Hk' Hv Hu. destruct (Hk k Hk') as [->| ->].
      + destruct (@enc_ok _ toss_codec (toss u) Hc1) as (b & E1 & E & D). cbn [pl_state pl_echo pl_normal pl_direct pl_payload dining_plan]. rewrite E.
        cbn [receive wrap w_receive box dm_direct dm_echo dm_normal dining t_direct t_echo t_normal dining_direct dining_normal part_receive part_deser msg ok_or t_receive is_none].
        rewrite D. reflexivity.
      + destruct (@enc_ok _ reveal_codec (reveal u) Hc2) as (b & E1 & E & D). cbn [pl_state pl_echo pl_normal pl_direct pl_payload dining_plan]. rewrite E.
        cbn [receive wrap w_receive box dm_direct dm_echo dm_normal dining t_direct t_echo t_normal dining_direct dining_normal part_receive part_deser msg ok_or t_receive is_none].
        rewrite D. reflexivity.
    - intros k v ps arts Hk' Hv Hps Harts. destruct (Hk k Hk') as [->| ->].
      + destruct (@w_finalize_map P TD DR1 (mkDining1 v (toss v) (paid v)) (rsub 0 (nr_fin r v (final_rid dining_plan 0 v))) ps arts _ toss _ (fun _ => tt) Hps Harts) as (ps' & arts' & M1 & _ & E).
        etransitivity; [exact E|]. cbn [t_finalize dining]. change (ty TD (t_pay TD DR1)) with bool in *.
        assert (El : to_list ps' = [(left_of v, toss (left_of v))]).
        { assert (Hi : forall u x, In (u, x) (to_list ps') <-> u = left_of v /\ x = toss (left_of v)).
          { intros u x. rewrite in_to_list, (M1 u). cbn [pl_from dining_plan]. destruct (mem u (set_of_list [left_of v])) eqn:Em.
            - apply mem_single in Em as ->. split; [intros H; inv H; auto|intros [_ ->]; auto].
            - split; [discriminate|]. intros [-> ->]. rewrite (proj2 (mem_single _ _) eq_refl) in Em. discriminate. }
          assert (Hnd : NoDup (map fst (to_list ps'))) by apply (NoDup_keys ps'). destruct (to_list ps') as [|[u x] [|[u2 x2] l]].
          - exfalso. apply (proj2 (Hi (left_of v) _) (conj eq_refl eq_refl)).
          - destruct (proj1 (Hi u x)) as [-> ->]; [now left|reflexivity].
          - destruct (proj1 (Hi u x)) as [-> ->]; [now left|]. destruct (proj1 (Hi u2 x2)) as [-> ->]; [now right; left|].
            exfalso. cbn [map fst] in Hnd. apply NoDup_cons_iff in Hnd as [Hnd _]. apply Hnd. now left. }
        rewrite El. reflexivity.
      + destruct (@w_finalize_map P TD DR2 (second v) (rsub 0 (nr_fin r v (final_rid dining_plan 1 v))) ps arts _ reveal _ (fun _ => tt) Hps Harts) as (ps' & arts' & M1 & _ & E).
        etransitivity; [exact E|]. cbn [t_finalize dining]. change (ty TD (t_pay TD DR2)) with bool in *. rewrite (is_map_values M1).
        assert (Ek : keys ps' = elements (srem v table)).
        { rewrite <- elements_keyset. f_equal. apply set_ext. intros u. rewrite mem_keyset. unfold contains. rewrite (M1 u).
          cbn [pl_from dining_plan]. destruct (mem u (srem v table)); reflexivity. }
        rewrite Ek. destruct (table_three v Hv) as (u & w & El). cbn [pl_last pl_result dining_plan Nat.ltb Nat.leb]. rewrite El.
        cbn [map]. rewrite own_reveal. reflexivity.
  Qed.

  Definition xor_all (l : list bool) : bool := fold_right xorb false l.
  Lemma xor_all_perm l l' : Permutation l l' -> xor_all l = xor_all l'.
  Proof. unfold xor_all. induction 1; simpl; auto; try congruence. now rewrite <- !xorb_assoc, (xorb_comm x y). Qed.

  Lemma dining_parity v b0 b1 b2 : mem v table = true -> pl_result dining_plan v = (b0, b1, b2) ->
    xorb (xorb b0 b1) b2 = xorb (xorb (paid (diner 0)) (paid (diner 1))) (paid (diner 2)).
  Proof.
    intros Hv. cbn [pl_result dining_plan]. destruct (table_three v Hv) as (u & w & El). rewrite El. intros H. inv H.
    assert (E : xor_all (map reveal [v; u; w]) = xor_all (map reveal (map diner [0; 1; 2]%N))).
    { apply xor_all_perm, Permutation_map. rewrite <- table_perm, <- (@split_party _ _ _ Hv), El. reflexivity. }
    simpl in E. unfold xor_all in E. simpl in E. rewrite !xorb_false_r in E.
    assert (E2 : xorb (xorb (reveal u) (reveal w)) (reveal v) = xorb (reveal v) (xorb (reveal u) (reveal w))) by apply xorb_comm.
    rewrite E2, E. unfold reveal, dining_reveal, second, left_of. simpl. rewrite !Hnum by lia.
    change ((0 + 2) mod 3)%N with 2%N. change ((1 + 2) mod 3)%N with 0%N. change ((2 + 2) mod 3)%N with 1%N.
    destruct (toss (diner 0)), (toss (diner 1)), (toss (diner 2)), (paid (diner 0)), (paid (diner 1)), (paid (diner 2)); reflexivity.
  Qed.

  Hypothesis Hwire : wire_total P.
  Hypothesis Hsig : signatures_correct P.
  Variable sk : Verifier -> Signer.
  Hypothesis Hsk : signers table sk.

  Lemma dining_runs : (forall i j, (i < 3)%N -> (j < 3)%N -> paid (diner i) = true -> paid (diner j) = true -> i = j) ->
    exists net0, honest_net r sid table sk ep = Ok net0 /\
    (forall xs net, schedule r net0 xs net ->
       fine table net /\
       (forall x res, act r net x = Some res -> exists net', res = Ok net') /\
       (forall v rep, get v (nodes net) = Some (Ended rep) -> exists b0 b1 b2, rep_outcome rep = OResult (b0, b1, b2) /\
          (xorb (xorb b0 b1) b2 = true <-> exists i, (i < 3)%N /\ paid (diner i) = true)) /\
       ((forall v, mem v table = true -> exists rep, get v (nodes net) = Some (Ended rep)) \/ exists x net', act r net x = Some (Ok net'))) /\
    (forall f : nat -> Net (wrap TD), f 0 = net0 -> ~ forall i, exists x, act r (f i) x = Some (Ok (f (S i)))).
  Proof.
    intros Hone. pose proof dining_honest as HR.
    destruct (honest_fine sk Hsk Hwire Hsig HR) as (net0 & E & H). exists net0. split; auto. split.
    - intros xs net Hs. destruct (H xs net Hs) as [H1 H2]. split; auto. split; auto. split.
      + intros v rep Hg. destruct (honest_results sk Hsk Hwire Hsig HR E v Hs Hg) as [Hv ->].
        destruct (pl_result dining_plan v) as [[b0 b1] b2] eqn:Er. exists b0, b1, b2. split; auto. rewrite (@dining_parity v b0 b1 b2 Hv Er).
        assert (Hex : (exists i, (i < 3)%N /\ paid (diner i) = true) <-> paid (diner 0) = true \/ paid (diner 1) = true \/ paid (diner 2) = true).
        { split.
          - intros (i & Hi & Hp). assert (C : i = 0%N \/ i = 1%N \/ i = 2%N) by lia. destruct C as [->|[->| ->]]; auto.
          - intros [Hp|[Hp|Hp]]; eexists; (split; [|exact Hp]); lia. }
        rewrite Hex. pose proof (Hone 0%N 1%N) as K1. pose proof (Hone 0%N 2%N) as K2. pose proof (Hone 1%N 2%N) as K3.
        destruct (paid (diner 0)), (paid (diner 1)), (paid (diner 2)); simpl;
          try (exfalso; assert (F := K1 ltac:(lia) ltac:(lia) eq_refl eq_refl); discriminate F);
          try (exfalso; assert (F := K2 ltac:(lia) ltac:(lia) eq_refl eq_refl); discriminate F);
          try (exfalso; assert (F := K3 ltac:(lia) ltac:(lia) eq_refl eq_refl); discriminate F); intuition discriminate.
      + destruct (honest_progress sk Hsk Hwire Hsig HR E Hs) as [[Ha _]|Ha]; auto. left. intros v Hv. destruct (Ha v Hv) as (rep & Hg & _). eauto.
    - exact (honest_finite sk Hsk Hwire Hsig HR E).
  Qed.
End DiningRun.

(** The entry point of the example: only diner 0 may have paid. *)
Section DiningEntry.
  Context {P : Params}.
  Variables (diner : N -> Verifier) (num : Verifier -> N).
  Hypothesis Hnum : forall i, (i < 3)%N -> num (diner i) = i.
  Variables (toss_codec reveal_codec : Codec bool) (no_error : bytes -> bool).
  Hypothesis Hc1 : codec_ok toss_codec.
  Hypothesis Hc2 : codec_ok reveal_codec.
  Variable r : NetRng.
  Variable sid : bytes.
  Hypothesis Hwire : wire_total P.
  Hypothesis Hsig : signatures_correct P.
  Variable sk : Verifier -> Signer.
  Hypothesis Hsk : signers (table diner) sk.
  Definition drawn_paid (v : Verifier) : bool := (N.eqb (num v) 0 && even (rsub 0 (nr_new r v) [0]))%bool.
  Definition drawn_toss (v : Verifier) : bool := even (rsub 0 (nr_new r v) [if N.eqb (num v) 0 then 1 else 0]).

  Lemma dining_entry_make v : ep_make (dining_entry diner num toss_codec reveal_codec no_error) (rsub 0 (nr_new r v)) sid v =
    Ok (box (dining diner num toss_codec reveal_codec no_error) DR1 (mkDining1 v (drawn_toss v) (drawn_paid v))
        : St (wrap (dining diner num toss_codec reveal_codec no_error))).
  Proof. cbn [ep_make dining_entry]. unfold drawn_toss, drawn_paid. destruct (N.eqb (num v) 0); reflexivity. Qed.

  Lemma one_drawn i j : (i < 3)%N -> (j < 3)%N -> drawn_paid (diner i) = true -> drawn_paid (diner j) = true -> i = j.
  Proof.
    unfold drawn_paid. intros Hi Hj Pi Pj. apply andb_prop in Pi as [Pi _], Pj as [Pj _]. apply N.eqb_eq in Pi, Pj.
    rewrite Hnum in Pi, Pj by auto. congruence.
  Qed.

  Definition dining_entry_runs := @dining_runs P diner num Hnum toss_codec reveal_codec no_error Hc1 Hc2 r sid drawn_toss drawn_paid
    (fun _ => dining_entry diner num toss_codec reveal_codec no_error) (fun v _ => dining_entry_make v) Hwire Hsig sk Hsk one_drawn.
  Lemma some_drawn : (exists i, (i < 3)%N /\ drawn_paid (diner i) = true) <-> even (rsub 0 (nr_new r (diner 0%N)) [0]) = true.
  Proof.
    unfold drawn_paid. split.
    - intros (i & Hi & Hp). apply andb_prop in Hp as [E Hp]. apply N.eqb_eq in E. rewrite Hnum in E by auto. now subst i.
    - intros H. exists 0%N. split; [lia|]. rewrite Hnum by lia. now rewrite H.
  Qed.
End DiningEntry.

Lemma dining_entry_ok {P : Params} diner num toss_codec reveal_codec no_error r sid :
  (forall i, (i < 3)%N -> num (diner i) = i) ->
  let T := dining diner num toss_codec reveal_codec no_error in
  let paid := fun v => (N.eqb (num v) 0 && even (rsub 0 (nr_new r v) [0%nat]))%bool in
  (forall v, exists toss, ep_make (dining_entry diner num toss_codec reveal_codec no_error) (rsub 0 (nr_new r v)) sid v =
     Ok (box T DR1 (mkDining1 v toss (paid v)) : St (wrap T))) /\
  (forall i j, (i < 3)%N -> (j < 3)%N -> paid (diner i) = true -> paid (diner j) = true -> i = j) /\
  ((exists i, (i < 3)%N /\ paid (diner i) = true) <-> even (rsub 0 (nr_new r (diner 0%N)) [0]) = true).
Proof.
  intros H. cbv zeta. split; [|split].
  - intros v. exists (drawn_toss num r v). apply dining_entry_make.
  - apply (one_drawn diner num H r).
  - apply (some_drawn diner num H r).
Qed.

Lemma simple_bound {P : Params} W parties v g (ps : bmap Verifier N) (arts : bmap Verifier unit) :
  let ids := elements parties in
  let c := mkCtx v (srem v parties) (enum_positions ids) in
  let sum1 := nsum (map (pos parties) ids) in
  length ids <= 256 -> mem v parties = true -> is_map ps (srem v parties) (pos parties) ->
  (2 * sum1 + N.of_nat (length ids) = N.of_nat (length ids) * N.of_nat (length ids))%N /\
  (17 <= length ids -> (sum1 <= u8_max)%N -> t_finalize (simple W) SR2 (mkSimple2 sum1 c) g ps arts = Panic) /\
  (24 <= length ids -> t_finalize (simple W) SR1 c g ps arts = Panic).
Proof.
  intros ids c sum1 Hn Hv Hps. split; [now apply sum_positions|]. split; intros H.
  - intros Hs. now apply simple_overflows.
  - now apply simple_overflows_earlier.
Qed.
