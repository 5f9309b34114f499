(** Facts about dev/misbehave.rs. *)
From Coq Require Import List NArith Bool Arith Lia Eqdep_dec.
From Verif Require Import Base BMap Errors RoundId Message Protocol Transcript Evidence Session Typed Extend SpecExtend SpecCrypto
  Network SpecNet NetFacts RunSync ExtendFacts RunSyncFacts Misbehave.
Import ListNotations.
Set Implicit Arguments.

Lemma pop_last_app {A} (l : list A) x : pop_last (l ++ [x]) = Some (l, x).
Proof. unfold pop_last. rewrite rev_app_distr. cbn. now rewrite rev_involutive. Qed.

Section WithParams.
  Context {P : Params}.

  Lemma extend_one_ok (T : TProto) front signer ep (f : Extendable T -> Extendable T) :
    extend_one (front ++ [(signer, ep)]) f =
    Ok (signer_key signer, map (fun p => (fst p, extendable_new (snd p))) front ++ [(signer, f (extendable_new ep))]).
  Proof. unfold extend_one. now rewrite pop_last_app. Qed.
  Lemma extend_one_nil (T : TProto) (f : Extendable T -> Extendable T) : extend_one [] f = Err CE_NoEntryPoints.
  Proof. reflexivity. Qed.

  Context {Pr : Proto}.

  Lemma single (m : bmap Verifier Evidence) : is_empty m = false -> Nat.ltb 1 (length (to_list m)) = false ->
    exists u ev, to_list m = [(u, ev)].
  Proof.
    unfold is_empty. intros E L. apply Nat.ltb_ge in L. unfold to_list in *. destruct (bm_list m) as [|[u ev] [|]] eqn:H; [discriminate| |simpl in L; lia]. eauto.
  Qed.
  Lemma single_get (m : bmap Verifier Evidence) u ev : to_list m = [(u, ev)] -> forall v, get v m = if eqb v u then Some ev else None.
  Proof.
    intros H v. destruct (get v m) as [e|] eqn:E.
    - apply in_to_list in E. rewrite H in E. destruct E as [E|[]]. injection E as -> ->. now rewrite eqb_refl.
    - destruct (eqb_spec v u) as [E'|]; [|reflexivity]. subst v. exfalso.
      assert (X : get u m = Some ev) by (apply in_to_list; rewrite H; now left). congruence.
  Qed.
  Lemma get_single (m : bmap Verifier Evidence) u ev : get u m = Some ev -> (forall v, v <> u -> get v m = None) ->
    is_empty m = false /\ Nat.ltb 1 (length (to_list m)) = false.
  Proof.
    intros H1 H2. assert (E : m = insert u ev empty).
    { apply bmap_ext. intros k. rewrite get_insert, get_empty. destruct (eqb_spec k u) as [E|N]; [now rewrite E|auto]. }
    rewrite E. split; reflexivity.
  Qed.

  (** What is expected of the report of another party. *)
  Definition convicts (describes : Evidence -> bool) (target : Verifier) (sd : Shared Pr) (rep : Report (Rslt Pr)) : Prop :=
    exists ev, get target (rep_provable rep) = Some ev /\ (forall u, u <> target -> get u (rep_provable rep) = None) /\
      describes ev = true /\ verify_evidence Pr ev sd = Ok tt.

  Lemma check_report_ok describes target sd v rep : check_report describes target sd (v, rep) = Ok tt <-> convicts describes target sd rep.
  Proof.
    unfold check_report, convicts. split.
    - destruct (is_empty (rep_provable rep)) eqn:E1; [discriminate|]. destruct (Nat.ltb 1 _) eqn:E2; [discriminate|].
      destruct (single _ E1 E2) as (u & ev & Hl). pose proof (single_get _ Hl) as G.
      destruct (get target (rep_provable rep)) as [ev'|] eqn:E3; cbn [ok_or bind]; [|discriminate].
      destruct (describes ev') eqn:E4; cbn [negb]; [|discriminate].
      destruct (verify_evidence Pr ev' sd) as [[]| |] eqn:E5; try discriminate. intros _. exists ev'. split; [reflexivity|].
      split; [|auto]. rewrite G in E3. destruct (eqb_spec target u) as [->|]; [|discriminate].
      intros w Hw. rewrite G. now rewrite (proj2 (eqb_neq w u) Hw).
    - intros (ev & H1 & H2 & H3 & H4). destruct (get_single _ H1 H2) as [E1 E2]. rewrite E1, E2, H1. cbn [ok_or bind]. rewrite H3. cbn [negb]. now rewrite H4.
  Qed.

  Lemma check_report_err describes target sd v rep e : check_report describes target sd (v, rep) = Err e ->
    match e with
    | CE_NothingReported u => u = v /\ rep_provable rep = empty
    | CE_TooMuchReported u => u = v /\ exists x y ev ev', x <> y /\ get x (rep_provable rep) = Some ev /\ get y (rep_provable rep) = Some ev'
    | CE_OtherReported u => u = v /\ get target (rep_provable rep) = None /\ exists x ev, get x (rep_provable rep) = Some ev
    | CE_Description u => u = v /\ exists ev, get target (rep_provable rep) = Some ev /\ describes ev = false
    | CE_Unverified u => u = v /\ exists ev x, get target (rep_provable rep) = Some ev /\ verify_evidence Pr ev sd = Err x
    | _ => False
    end.
  Proof.
    unfold check_report. destruct (is_empty (rep_provable rep)) eqn:E1.
    { intros H. injection H as <-. split; [reflexivity|]. now apply is_empty_spec. }
    destruct (Nat.ltb 1 _) eqn:E2.
    { intros H. injection H as <-. split; [reflexivity|]. apply Nat.ltb_lt in E2.
      pose proof (NoDup_keys (rep_provable rep)) as ND. unfold keys in ND. unfold to_list in *.
      destruct (bm_list (rep_provable rep)) as [|[x ev] [|[y ev'] l]] eqn:Hl; [simpl in E2; lia|simpl in E2; lia|].
      exists x, y, ev, ev'. split.
      - cbn in ND. apply NoDup_cons_iff in ND as [ND _]. intros ->. apply ND. now left.
      - rewrite <- !in_to_list. unfold to_list. rewrite Hl. split; [now left|right; now left]. }
    destruct (get target (rep_provable rep)) as [ev|] eqn:E3; cbn [ok_or bind].
    2: { intros H. injection H as <-. split; [reflexivity|]. split; [reflexivity|]. destruct (not_empty_ex _ E1) as (x & ev & H). eauto. }
    destruct (describes ev) eqn:E4; cbn [negb].
    2: { intros H. injection H as <-. split; [reflexivity|]. eauto. }
    destruct (verify_evidence Pr ev sd) as [[]|x|] eqn:E5; try discriminate.
    intros H. injection H as <-. split; [reflexivity|]. eauto.
  Qed.

  Lemma check_report_panic describes target sd v rep : check_report describes target sd (v, rep) = Panic ->
    exists ev, get target (rep_provable rep) = Some ev /\ verify_evidence Pr ev sd = Panic.
  Proof.
    unfold check_report. destruct (is_empty (rep_provable rep)); [discriminate|]. destruct (Nat.ltb 1 _); [discriminate|].
    destruct (get target (rep_provable rep)) as [ev|] eqn:E3; cbn [ok_or bind]; [|discriminate].
    destruct (describes ev) eqn:E4; cbn [negb]; [|discriminate].
    destruct (verify_evidence Pr ev sd) as [[]|x|] eqn:E5; try discriminate. eauto.
  Qed.

  Lemma fold_unit {E A} (f : A -> res E unit) l :
    match fold_res (fun _ x => f x) tt l with
    | Ok _ => forall x, In x l -> f x = Ok tt
    | Err e => exists x, In x l /\ f x = Err e
    | Panic => exists x, In x l /\ f x = Panic
    end.
  Proof.
    induction l as [|x l IH]; cbn [fold_res]; [intros y []|]. destruct (f x) as [[]|e|] eqn:Ex; cbn [bind].
    - destruct (fold_res (fun _ x => f x) tt l) as [u|e|].
      + intros y [<-|Hy]; auto.
      + destruct IH as (y & Hy & H). exists y. split; [now right|auto].
      + destruct IH as (y & Hy & H). exists y. split; [now right|auto].
    - exists x. split; [now left|auto].
    - exists x. split; [now left|auto].
  Qed.

  Lemma in_others target v rep (reports : bmap Verifier (Report (Rslt Pr))) :
    In (v, rep) (to_list (remove target reports)) <-> v <> target /\ get v reports = Some rep.
  Proof.
    rewrite in_to_list, get_remove. destruct (eqb_spec v target) as [->|N]; split; intros H; try discriminate; try tauto. 
  Qed.

  Lemma check_ok describes target (reports : bmap Verifier (Report (Rslt Pr))) sd : check_evidence describes target reports sd = Ok tt <->
    (exists rep, get target reports = Some rep /\ rep_provable rep = empty) /\
    forall v rep, v <> target -> get v reports = Some rep -> convicts describes target sd rep.
  Proof.
    unfold check_evidence. destruct (get target reports) as [mine|] eqn:E; cbn [ok_or bind].
    2: { split; [discriminate|]. intros [(rep & H & _) _]. discriminate. }
    destruct (is_empty (rep_provable mine)) eqn:Em; cbn [negb].
    2: { split; [discriminate|]. intros [(rep & H & H') _]. injection H as <-. apply is_empty_spec in H'. congruence. }
    apply is_empty_spec in Em.
    pose proof (fold_unit (check_report describes target sd) (to_list (remove target reports))) as F. split.
    - intros H. rewrite H in F. split; [eauto|]. intros v rep Hv Hr. apply (check_report_ok describes target sd v rep), F, in_others. auto.
    - intros [_ H]. destruct (fold_res _ _ _) as [[]|e|]; [reflexivity| |]; destruct F as ([v rep] & Hi & Hf); exfalso;
        apply in_others in Hi as [Hv Hi]; pose proof (proj2 (check_report_ok _ _ _ v _) (H v rep Hv Hi)); congruence.
  Qed.

  Lemma check_err describes target (reports : bmap Verifier (Report (Rslt Pr))) sd e : check_evidence describes target reports sd = Err e ->
    match e with
    | CE_NoReport => get target reports = None
    | CE_NothingReported v => v <> target /\ exists rep, get v reports = Some rep /\ rep_provable rep = empty
    | CE_TooMuchReported v => v <> target /\ exists rep, get v reports = Some rep /\
        exists x y ev ev', x <> y /\ get x (rep_provable rep) = Some ev /\ get y (rep_provable rep) = Some ev'
    | CE_OtherReported v => v <> target /\ exists rep, get v reports = Some rep /\ get target (rep_provable rep) = None /\
        exists x ev, get x (rep_provable rep) = Some ev
    | CE_Description v => v <> target /\ exists rep ev, get v reports = Some rep /\ get target (rep_provable rep) = Some ev /\ describes ev = false
    | CE_Unverified v => v <> target /\ exists rep ev x, get v reports = Some rep /\ get target (rep_provable rep) = Some ev /\
        verify_evidence Pr ev sd = Err x
    | CE_NoEntryPoints | CE_Run _ => False
    end.
  Proof.
    unfold check_evidence. destruct (get target reports) as [mine|] eqn:E; cbn [ok_or bind].
    2: { intros H. injection H as <-. reflexivity. }
    destruct (is_empty (rep_provable mine)) eqn:Em; cbn [negb]; [|discriminate].
    pose proof (fold_unit (check_report describes target sd) (to_list (remove target reports))) as F.
    intros H. rewrite H in F. destruct F as ([v rep] & Hi & Hf). apply in_others in Hi as [Hv Hi].
    pose proof (check_report_err _ _ _ _ _ Hf) as X. destruct e as [| |u|u|u|u|u|]; try contradiction; destruct X as [-> X].
    - eauto.
    - destruct X as (x & y & ev & ev' & X). eauto 10.
    - destruct X as (X & x & ev & Y). eauto 10.
    - destruct X as (ev & X & Y). eauto 10.
    - destruct X as (ev & x & X & Y). eauto 10.
  Qed.

  Lemma check_panic describes target (reports : bmap Verifier (Report (Rslt Pr))) sd : check_evidence describes target reports sd = Panic ->
    (exists rep, get target reports = Some rep /\ rep_provable rep <> empty) \/
    (exists v rep ev, v <> target /\ get v reports = Some rep /\ get target (rep_provable rep) = Some ev /\ verify_evidence Pr ev sd = Panic).
  Proof.
    unfold check_evidence. destruct (get target reports) as [mine|] eqn:E; cbn [ok_or bind]; [|discriminate].
    destruct (is_empty (rep_provable mine)) eqn:Em; cbn [negb].
    2: { intros _. left. exists mine. split; [reflexivity|]. intros H. apply is_empty_spec in H. congruence. }
    pose proof (fold_unit (check_report describes target sd) (to_list (remove target reports))) as F.
    intros H. rewrite H in F. destruct F as ([v rep] & Hi & Hf). apply in_others in Hi as [Hv Hi].
    destruct (check_report_panic _ _ _ _ _ Hf) as (ev & H1 & H2). right. eauto 10.
  Qed.
  Lemma check_asserts describes target (reports : bmap Verifier (Report (Rslt Pr))) sd rep :
    get target reports = Some rep -> rep_provable rep <> empty -> check_evidence describes target reports sd = Panic.
  Proof.
    intros H N. unfold check_evidence. rewrite H. cbn [ok_or bind]. destruct (is_empty (rep_provable rep)) eqn:E; [|reflexivity].
    apply is_empty_spec in E. contradiction.
  Qed.
End WithParams.

(** ** Extensions that override nothing *)
Section Inert.
  Context {P : Params}.
  Context (T : TProto).

  Lemma wrap_finalize_ext k r (e : Ext T k) exts g ps arts : overrides_nothing e ->
    finalize (extended T) (XExtended k r e exts : St (extended T)) g ps arts =
    (let* o := finalize (wrap T) (existT _ k r : St (wrap T)) g ps arts in wrap_outcome exts o).
  Proof.
    intros (_ & _ & _ & E). cbn [finalize extended xr_finalize wrap w_finalize]. unfold ext_finalize. rewrite E.
    destruct (down_all LE_PayloadDowncast _ ps); [|reflexivity|reflexivity]. cbn [bind].
    destruct (down_all LE_ArtifactDowncast _ arts); reflexivity.
  Qed.

  Lemma inert_messages (b : boxed T) (e : Ext T (projT1 b)) exts : overrides_nothing e -> let x := XExtended (projT1 b) (projT2 b) e exts : St (extended T) in
    (forall g, mk_echo (extended T) x g = mk_echo (wrap T) b g) /\
    (forall g, mk_normal (extended T) x g = mk_normal (wrap T) b g) /\
    (forall g u, mk_direct (extended T) x g u = mk_direct (wrap T) b g u) /\
    (forall u m, receive (extended T) x u m = receive (wrap T) b u m) /\
    tinfo (extended T) x = tinfo (wrap T) b /\ cinfo (extended T) x = cinfo (wrap T) b.
  Proof.
    destruct b as [k y]. cbn [projT1 projT2] in *. intros (E1 & E2 & E3 & E4). cbn. unfold ext_echo, ext_normal, ext_direct. rewrite E1, E2, E3. repeat split.
  Qed.

  Variable r : NetRng.
  Variable sid : bytes.
  Variable parties : bset Verifier.
  Variable ep : Verifier -> EntryPoint (wrap T).
  Variable h : Plan (wrap T).
  Variable l : Verifier -> list (AnyExt T).
  Let exts v := xp_exts (register (ep v) (l v)).
  Hypothesis Hi : forall v b e, mem v parties = true -> last_for (l v) (projT1 b) = Some e -> (exists n, n <= pl_last h /\ b = pl_state h n v) -> overrides_nothing e.

  Definition xwrapped v (b : boxed T) : XRound T :=
    match wrap_round b (exts v) with Ok x => x | _ => XPassthrough b (exts v) end.
  Definition xplan : Plan (extended T) := {|
    pl_last := pl_last h; pl_rid := pl_rid h; pl_part := pl_part h; pl_dest := pl_dest h; pl_from := pl_from h;
    pl_state := fun n v => xwrapped v (pl_state h n v) : St (extended T);
    pl_echo := pl_echo h; pl_normal := pl_normal h; pl_direct := pl_direct h;
    pl_artifact := pl_artifact h; pl_payload := pl_payload h; pl_result := pl_result h |}.

  Lemma wrapped_cases v n : mem v parties = true -> n <= pl_last h -> let b := pl_state h n v in
    wrap_round b (exts v) = Ok (xwrapped v b) /\
    ((exists e, overrides_nothing e /\ xwrapped v b = XExtended (projT1 b) (projT2 b) e (exts v)) \/ xwrapped v b = XPassthrough b (exts v)).
  Proof.
    intros Hv Hn. cbv zeta. assert (He : forall e, last_for (l v) (projT1 (pl_state h n v)) = Some e -> overrides_nothing e) by (intros e H; eapply Hi; eauto).
    revert He. generalize (pl_state h n v). clear n Hn. intros b He.
    assert (Hx : forall k, exts_get k (exts v) = option_map (existT (Ext T) k) (last_for (l v) k)).
    { intros k. unfold exts, register. rewrite register_gen. cbn [extendable_new xp_exts exts_get]. destruct (last_for (l v) k); reflexivity. }
    unfold xwrapped. destruct (@wrap_rel P T (l v) (exts v) Hx b) as (x & E & H). rewrite E. split; [reflexivity|].
    destruct x as [k y e x'|b' x']; cbn [xrel] in H.
    - destruct H as (-> & Hc & ->). left. cbn [projT1 projT2] in *. exists e. split; auto.
    - destruct H as (-> & Hc & ->). now right.
  Qed.

  Lemma inert_honest : honest_run r sid parties ep h ->
    honest_run (Pr := extended T) r sid parties (fun v => extendable_entry (register (ep v) (l v))) xplan.
  Proof.
    intros [L S]. split; [|now apply (@in_step_same P _ _ parties h)].
    constructor; cbn [pl_last pl_rid pl_part pl_dest pl_from pl_state pl_echo pl_normal pl_direct pl_artifact pl_payload pl_result xplan].
    - exact (hr_plain L).
    - exact (hr_distinct L).
    - intros n v Hn Hv. rewrite <- (hr_id L n v Hn Hv). destruct (wrapped_cases v Hv Hn) as [_ [(e & He & E)|E]]; rewrite E; [|reflexivity]; destruct (inert_messages _ (exts v) He) as (M1 & M2 & M3 & M4 & M5 & M6); first [exact (M1 _)|exact (M2 _)|exact (M3 _ _)|exact (M4 _ _)|exact (f_equal _ M5)|exact M6].
    - intros n v Hn Hv. rewrite <- (hr_next L n v Hn Hv). destruct (wrapped_cases v Hv (Nat.lt_le_incl _ _ Hn)) as [_ [(e & He & E)|E]]; rewrite E; [|reflexivity]. now rewrite (proj1 (proj2 (proj2 (proj2 (proj2 (inert_messages _ (exts v) He)))))).
    - intros n v Hn Hv. rewrite <- (hr_comm L n v Hn Hv). destruct (wrapped_cases v Hv Hn) as [_ [(e & He & E)|E]]; rewrite E; [|reflexivity]; destruct (inert_messages _ (exts v) He) as (M1 & M2 & M3 & M4 & M5 & M6); first [exact (M1 _)|exact (M2 _)|exact (M3 _ _)|exact (M4 _ _)|exact (f_equal _ M5)|exact M6].
    - exact (hr_dest L).
    - exact (hr_from L).
    - exact (hr_agree L).
    - exact (hr_partners L).
    - exact (hr_echoed L).
    - intros v Hv. cbn [extendable_entry ep_make]. unfold register at 1. rewrite register_entry. cbn [extendable_new xp_entry].
      pose proof (hr_make L v Hv) as E. rewrite E. cbn [bind]. exact (proj1 (wrapped_cases v Hv (Nat.le_0_l _))).
    - intros n v Hn Hv. rewrite <- (hr_mk_echo L n v Hn Hv). destruct (is_empty (pl_dest h n v)); [reflexivity|].
      destruct (wrapped_cases v Hv Hn) as [_ [(e & He & E)|E]]; rewrite E; [|reflexivity]; destruct (inert_messages _ (exts v) He) as (M1 & M2 & M3 & M4 & M5 & M6); first [exact (M1 _)|exact (M2 _)|exact (M3 _ _)|exact (M4 _ _)|exact (f_equal _ M5)|exact M6].
    - intros n v Hn Hv. rewrite <- (hr_mk_normal L n v Hn Hv). destruct (is_empty (pl_dest h n v)); [reflexivity|].
      destruct (wrapped_cases v Hv Hn) as [_ [(e & He & E)|E]]; rewrite E; [|reflexivity]; destruct (inert_messages _ (exts v) He) as (M1 & M2 & M3 & M4 & M5 & M6); first [exact (M1 _)|exact (M2 _)|exact (M3 _ _)|exact (M4 _ _)|exact (f_equal _ M5)|exact M6].
    - intros n v u Hn Hv Hu. etransitivity; [|exact (hr_mk_direct L n v u Hn Hv Hu)].
      destruct (wrapped_cases v Hv Hn) as [_ [(e & He & E)|E]]; rewrite E; [|reflexivity]; destruct (inert_messages _ (exts v) He) as (M1 & M2 & M3 & M4 & M5 & M6); first [exact (M1 _)|exact (M2 _)|exact (M3 _ _)|exact (M4 _ _)|exact (f_equal _ M5)|exact M6].
    - intros n v u Hn Hv Hu. etransitivity; [|exact (hr_receive L n v u Hn Hv Hu)].
      destruct (wrapped_cases v Hv Hn) as [_ [(e & He & E)|E]]; rewrite E; [|reflexivity]; destruct (inert_messages _ (exts v) He) as (M1 & M2 & M3 & M4 & M5 & M6); first [exact (M1 _)|exact (M2 _)|exact (M3 _ _)|exact (M4 _ _)|exact (f_equal _ M5)|exact M6].
    - intros n v ps arts Hn Hv Hp Ha. pose proof (hr_finalize L n v ps arts Hn Hv Hp Ha) as F.
      assert (G : finalize (extended T) (xwrapped v (pl_state h n v) : St (extended T)) (rsub 0 (nr_fin r v (final_rid h n v))) ps arts =
        (let* o := finalize (wrap T) (pl_state h n v) (rsub 0 (nr_fin r v (final_rid h n v))) ps arts in wrap_outcome (exts v) o)).
      { destruct (wrapped_cases v Hv Hn) as [_ [(e & He & E)|E]]; rewrite E; [|reflexivity]. rewrite (wrap_finalize_ext _ _ _ _ _ He).
        now destruct (pl_state h n v). }
      etransitivity; [exact G|]. rewrite F. cbn [bind]. destruct (Nat.ltb n (pl_last h)) eqn:En; cbn [wrap_outcome]; [|reflexivity].
      apply Nat.ltb_lt in En. destruct (wrapped_cases v Hv En) as [E _]. rewrite E. reflexivity.
  Qed.
End Inert.

(** ** The whole check *)
Section Check.
  Context {P : Params}.
  Context (T : TProto).

  Lemma check_whole fuel r picks sid (eps : list (Signer * EntryPoint (wrap T))) sd extend describes :
    check_evidence_with_extensions fuel r picks sid eps sd extend describes = Some (Ok tt) ->
    exists front signer ep reports, eps = front ++ [(signer, ep)] /\
      run_sync (Pr := extended T) fuel r picks sid
        (map (fun p => (fst p, extendable_entry (extendable_new (snd p)))) front ++ [(signer, extendable_entry (extend (extendable_new ep)))])
        = Some (Ok reports) /\
      check_evidence (Pr := extended T) describes (signer_key signer) reports sd = Ok tt.
  Proof.
    unfold check_evidence_with_extensions. destruct (rev eps) as [|[signer ep] l] eqn:E.
    - apply (f_equal (@rev _)) in E. rewrite rev_involutive in E. cbn [rev] in E. subst eps. rewrite extend_one_nil. discriminate.
    - apply (f_equal (@rev _)) in E. rewrite rev_involutive in E. cbn [rev] in E. subst eps. rewrite extend_one_ok.
      rewrite map_app, map_map. cbn [map fst snd]. destruct (run_sync _ _ _ _ _) as [[reports| |]|] eqn:R; try discriminate.
      intros H. injection H as H. exists (rev l), signer, ep, reports. auto.
  Qed.

  Lemma check_whole_spelled fuel r picks sid (eps : list (Signer * EntryPoint (wrap T))) sd extend describes :
    check_evidence_with_extensions fuel r picks sid eps sd extend describes = Some (Ok tt) ->
    exists front signer ep reports, eps = front ++ [(signer, ep)] /\
      run_sync (Pr := extended T) fuel r picks sid
        (map (fun p => (fst p, extendable_entry (extendable_new (snd p)))) front ++ [(signer, extendable_entry (extend (extendable_new ep)))])
        = Some (Ok reports) /\
      (exists rep, get (signer_key signer) reports = Some rep /\ rep_provable rep = empty) /\
      forall v rep, v <> signer_key signer -> get v reports = Some rep ->
        exists ev, get (signer_key signer) (rep_provable rep) = Some ev /\
          (forall u, u <> signer_key signer -> get u (rep_provable rep) = None) /\
          describes ev = true /\ verify_evidence (wrap T) ev sd = Ok tt.
  Proof.
    intros H. destruct (check_whole _ _ _ _ _ _ _ _ H) as (front & signer & ep & reports & H1 & H2 & H3).
    apply check_ok in H3 as [H3 H4]. exists front, signer, ep, reports. auto.
  Qed.

  Lemma alarm_needs_misbehaviour r sid parties (ep : Verifier -> EntryPoint (wrap T)) (h : Plan (wrap T)) sk :
    signers parties sk -> wire_total P -> signatures_correct P -> honest_run r sid parties ep h ->
    forall (xs : list (AnyExt T)) (sd : TShared T) describes picks, 2 <= length (elements parties) ->
    (exists n v u, n <= pl_last h /\ mem v parties = true /\
       (mem u (pl_dest h n v) = true \/ (echoes h n v = true /\ mem u (partners h n v) = true))) ->
    (forall n v e, n <= pl_last h -> mem v parties = true -> last_for xs (projT1 (pl_state h n v)) = Some e -> overrides_nothing e) ->
    exists fuel0 v, mem v parties = true /\ forall fuel, fuel0 <= fuel ->
      check_evidence_with_extensions fuel r picks sid (map (fun v => (sk v, ep v)) (elements parties)) sd
        (fun xp => fold_left (fun xp e => with_extension xp (projT2 e)) xs xp) describes = Some (Err (CE_NothingReported v)).
  Proof.
    intros Hsk Hw Hs HR xs sd describes picks Hlen Hmsg Hi.
    destruct (rev (elements parties)) as [|t front] eqn:E.
    { apply (f_equal (@rev _)) in E. rewrite rev_involutive in E. rewrite E in Hlen. simpl in Hlen. lia. }
    apply (f_equal (@rev _)) in E. rewrite rev_involutive in E. cbn [rev] in E. set (fr := rev front) in *.
    pose proof (NoDup_elements parties) as ND. rewrite E in ND. apply NoDup_remove in ND as [_ Ht]. rewrite app_nil_r in Ht.
    set (l := fun v => if eqb v t then xs else []).
    assert (HR' := @inert_honest P T r sid parties ep h l). specialize (HR' ltac:(
      intros v b e Hv He (n & Hn & ->); unfold l in He; destruct (eqb v t); [eapply Hi; eauto|discriminate]) HR).
    destruct (run_sync_completes Hsk Hw Hs HR' picks) as (fuel0 & reports & results & H1 & H2 & H3 & _); [exact Hmsg|].
    assert (Hmem : forall v, mem v parties = true <-> In v (fr ++ [t])) by (intros v; rewrite <- E; symmetry; apply in_elements).
    assert (Hin : mem t parties = true) by (apply Hmem, in_or_app; right; now left).
    assert (Heps : map (fun v => (sk v, extendable_entry (register (ep v) (l v)))) (elements parties) =
      map (fun p => (fst p, extendable_entry (snd p))) (map (fun p => (fst p, extendable_new (snd p))) (map (fun v => (sk v, ep v)) fr) ++
        [(sk t, fold_left (fun xp e => with_extension xp (projT2 e)) xs (extendable_new (ep t)))])).
    { rewrite E, !map_app, !map_map. cbn [map fst snd]. unfold l at 2. rewrite eqb_refl. f_equal. apply map_ext_in. intros v Hv. unfold l.
      destruct (eqb_spec v t) as [->|]; [contradiction|reflexivity]. }
    destruct (check_evidence (Pr := extended T) describes t reports sd) as [[]|e|] eqn:C.
    - exfalso. apply check_ok in C as [_ C]. destruct fr as [|v fr'] eqn:Ef.
      { rewrite E in Hlen. simpl in Hlen. lia. }
      assert (Hv : v <> t) by (intros ->; apply Ht; now left).
      destruct (H3 v ltac:(apply Hmem; now left)) as (rep & Hg & _ & Hp & _).
      destruct (C v rep Hv Hg) as (ev & Hev & _). rewrite Hp, get_empty in Hev. discriminate.
    - pose proof (check_err _ _ _ _ C) as X.
      assert (Hr : forall v rep, get v reports = Some rep -> rep_provable rep = empty).
      { intros v rep G. destruct (mem v parties) eqn:M; [|rewrite (H2 v M) in G; discriminate].
        destruct (H3 v M) as (rep' & G' & _ & Hp & _). congruence. }
      exists fuel0. destruct e as [| |v|v|v|v|v|]; try contradiction.
      + exfalso. destruct (H3 t Hin) as (rep & G & _). congruence.
      + destruct X as (Hv & rep & G & _). exists v. split; [destruct (mem v parties) eqn:M; [reflexivity|rewrite (H2 v M) in G; discriminate]|].
        intros fuel Hf. unfold check_evidence_with_extensions. rewrite E, map_app. cbn [map]. rewrite extend_one_ok. rewrite <- Heps, (H1 fuel Hf).
        rewrite (Hsk t Hin), C. reflexivity.
      + exfalso. destruct X as (_ & rep & G & x & y & ev & ev' & _ & G' & _). rewrite (Hr _ _ G), get_empty in G'. discriminate.
      + exfalso. destruct X as (_ & rep & G & _ & x & ev & G'). rewrite (Hr _ _ G), get_empty in G'. discriminate.
      + exfalso. destruct X as (_ & rep & ev & G & G' & _). rewrite (Hr _ _ G), get_empty in G'. discriminate.
      + exfalso. destruct X as (_ & rep & ev & x & G & G' & _). rewrite (Hr _ _ G), get_empty in G'. discriminate.
    - exfalso. assert (Hr : forall v rep, get v reports = Some rep -> rep_provable rep = empty).
      { intros v rep G. destruct (mem v parties) eqn:M; [|rewrite (H2 v M) in G; discriminate].
        destruct (H3 v M) as (rep' & G' & _ & Hp & _). congruence. }
      destruct (check_panic _ _ _ _ C) as [(rep & G & N)|(v & rep & ev & _ & G & G' & _)].
      + apply N. eapply Hr; eauto.
      + rewrite (Hr _ _ G), get_empty in G'. discriminate.
  Qed.
End Check.
