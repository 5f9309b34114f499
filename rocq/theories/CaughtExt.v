(** The checks of dev/misbehave.rs succeed if the extended party misbehaves in one round: proofs. *)
From Coq Require Import List NArith Bool Arith Lia.
From Verif Require Import Base BMap Errors RoundId Message Protocol Transcript Evidence Session Spec SpecCrypto Typed TypedFacts Extend SpecExtend ExtendFacts
  Network SpecNet NetFacts RunSync Misbehave MisbehaveFacts SpecCaught CaughtFacts.
Import ListNotations.
Set Implicit Arguments.

Section Check.
  Context {P : Params}.
  Context {Pr : Proto}.
  Context {f : St Pr -> Verifier -> DynMsg -> res RecvErr (Payload Pr)}.
  Lemma convicted_check sid parties (h : Plan (with_receive Pr f)) t k sd reports (describes : Evidence -> bool) :
    convicted_by_all sid parties h t k sd reports ->
    (forall v ev, mem v parties = true -> v <> t -> proof_against sid h t k sd v ev -> describes ev = true) ->
    check_evidence (Pr := Pr) describes t reports sd = Ok tt.
  Proof.
    intros (H1 & (rep & H2 & H3 & _) & H4) Hd. apply check_ok. split; [eauto|]. intros v rep' Hv Hg.
    assert (Hp : mem v parties = true) by (rewrite <- H1; apply contains_get; eauto).
    destruct (H4 v Hp Hv) as (rep2 & ev & G & _ & Hpr & _ & _ & Hag). rewrite Hg in G. injection G as <-. exists ev. rewrite Hpr.
    split; [rewrite get_insert; destruct (eqb_spec t t); [reflexivity|congruence]|]. split.
    - intros u Hu. rewrite get_insert. destruct (eqb_spec u t); [congruence|apply get_empty].
    - split; [now apply (Hd v)|apply Hag].
  Qed.
End Check.

(** What is not replaced is received as before. *)
Lemma rest_ok {P : Params} {Pr : Proto} r sid parties (ep : Verifier -> EntryPoint Pr) (h : Plan Pr) f t k em nm dm : honest_run r sid parties ep h ->
  let hb := replaced f h t k em nm dm in
  forall n v u, n <= pl_last hb -> mem v parties = true -> mem u (pl_from hb n v) = true -> n < k \/ (n = k /\ u <> t) \/ v = t ->
    receive Pr (pl_state hb n v) u (mkDynMsg (pl_echo hb n u) (pl_normal hb n u) (pl_direct hb n u v)) = Ok (pl_payload hb n v u).
Proof.
  intros [L _] hb n v u Hn Hv Hu Hc. cbn [hb pl_last pl_from pl_state pl_echo pl_normal pl_direct pl_payload replaced] in *.
  assert (E : (Nat.eqb n k && eqb u t)%bool = false).
  { destruct (Nat.eqb_spec n k) as [->|]; auto. destruct (eqb_spec u t) as [->|]; auto. exfalso. destruct Hc as [H|[[_ H]|H]]; [lia|auto|subst v].
    exact (proj2 (hr_from L _ _ _ Hn Hv Hu) eq_refl). }
  rewrite E. exact (hr_receive L n v u Hn Hv Hu).
Qed.

Section Ext.
  Context {P : Params}.
  Context {T : TProto}.
  Variable r : NetRng.
  Variable sid : bytes.
  Variable parties : bset Verifier.
  Variable ep : Verifier -> EntryPoint (wrap T).
  Variable h : Plan (wrap T).
  Variable t : Verifier.
  Variable k : nat.
  Variable f : St (wrap T) -> Verifier -> DynMsg -> res RecvErr (Payload (wrap T)).
  Variable xs : list (AnyExt T).
  Variables em nm : body.
  Variable dm : Verifier -> body.
  Variable sd : TShared T.
  Hypothesis HR : honest_run r sid parties ep h.
  Hypothesis Hm : misled r h t k xs em nm dm.
  Hypothesis Hem : is_none em = is_none (pl_echo h k t).
  Notation hb := (replaced f h t k em nm dm).
  Hypothesis Hf : forall n v u, n <= pl_last h -> mem v parties = true -> mem u (pl_from h n v) = true ->
    f (pl_state h n v) u (mkDynMsg (pl_echo hb n u) (pl_normal hb n u) (pl_direct hb n u v)) = Ok (pl_payload h n v u).
  Hypothesis HF : one_fault (Pr := wrap T) sid parties hb t k sd.

  Definition xl (v : Verifier) : list (AnyExt T) := if eqb v t then xs else [].
  Notation exts v := (xp_exts (register (ep v) (xl v))).
  Definition base (x : XRound T) : boxed T := match x with XExtended k x _ _ => existT _ k x | XPassthrough b _ => b end.
  Definition fx (x : St (extended T)) : Verifier -> DynMsg -> res RecvErr (Payload (extended T)) := f (base x).
  Definition xw v (b : boxed T) : St (extended T) := match wrap_round b (exts v) with Ok x => x | _ => XPassthrough b (exts v) end.
  Definition hx : Plan (with_receive (extended T) fx) :=
    @mkPlan P (with_receive (extended T) fx) (pl_last hb) (pl_rid hb) (pl_part hb) (pl_dest hb) (pl_from hb) (fun n v => xw v (pl_state h n v))
      (pl_echo hb) (pl_normal hb) (pl_direct hb) (pl_artifact hb) (pl_payload hb) (pl_result hb).

  Lemma wrapped v b : wrap_round b (exts v) = Ok (xw v b) /\
    ((exists e, last_for (xl v) (projT1 b) = Some e /\ xw v b = XExtended (projT1 b) (projT2 b) e (exts v)) \/
     (last_for (xl v) (projT1 b) = None /\ xw v b = XPassthrough b (exts v))).
  Proof.
    assert (Hx : forall k, exts_get k (exts v) = option_map (existT (Ext T) k) (last_for (xl v) k)).
    { intros k'. unfold register. rewrite register_gen. cbn [extendable_new xp_exts exts_get]. destruct (last_for (xl v) k'); reflexivity. }
    unfold xw. destruct (@wrap_rel P T (xl v) (exts v) Hx b) as (x & E & H). rewrite E. split; [reflexivity|].
    destruct x as [k' y e x'|b' x']; cbn [xrel] in H.
    - destruct H as (-> & Hc & ->). left. cbn [projT1 projT2] in *. exists e. split; auto.
    - destruct H as (-> & Hc & ->). now right.
  Qed.
  Lemma base_xw v b : base (xw v b) = b.
  Proof. destruct (wrapped v b) as [_ [(e & _ & ->)|(_ & ->)]]; [destruct b|]; reflexivity. Qed.
  Lemma rec_xw v b u m : receive (extended T) (xw v b) u m = receive (wrap T) b u m.
  Proof. destruct (wrapped v b) as [_ [(e & _ & ->)|(_ & ->)]]; [destruct b|]; reflexivity. Qed.
  Lemma ti_xw v b : tinfo (extended T) (xw v b) = tinfo (wrap T) b.
  Proof. destruct (wrapped v b) as [_ [(e & _ & ->)|(_ & ->)]]; [destruct b|]; reflexivity. Qed.
  Lemma ci_xw v b : cinfo (extended T) (xw v b) = cinfo (wrap T) b.
  Proof. destruct (wrapped v b) as [_ [(e & _ & ->)|(_ & ->)]]; [destruct b|]; reflexivity. Qed.

  (** The extension of a round, if there is one. *)
  Lemma xw_cases n v : n <= pl_last h -> mem v parties = true -> let b := pl_state h n v in
    (n = k /\ v = t /\ exists e, last_for xs (projT1 b) = Some e /\ xw v b = XExtended (projT1 b) (projT2 b) e (exts v)) \/
    ((n = k /\ v = t -> False) /\
     ((exists e, overrides_nothing e /\ xw v b = XExtended (projT1 b) (projT2 b) e (exts v)) \/ xw v b = XPassthrough b (exts v))).
  Proof.
    intros Hn Hv. cbv zeta. destruct (wrapped v (pl_state h n v)) as [_ [(e & He & E)|(He & E)]]; unfold xl in He; destruct (eqb_spec v t) as [->|]; try discriminate.
    - destruct (Nat.eq_dec n k) as [->|Hk].
      + left. split; auto. split; auto. exists e. auto.
      + right. split; [tauto|]. left. exists e. split; auto. eapply (proj1 Hm); eauto.
    - right. split; auto. intros [-> _]. destruct Hm as [_ (e & He' & _)]. congruence.
    - right. split; [tauto|auto].
  Qed.
  Lemma fin_xw n v g ps arts : n <= pl_last h -> mem v parties = true ->
    finalize (extended T) (xw v (pl_state h n v)) g ps arts =
    (let* o := finalize (wrap T) (pl_state h n v) g ps arts in wrap_outcome (exts v) o).
  Proof.
    intros Hn Hv. assert (K : forall e, x_finalize e = None -> finalize (extended T) (XExtended (projT1 (pl_state h n v)) (projT2 (pl_state h n v)) e (exts v) : St (extended T)) g ps arts =
      (let* o := finalize (wrap T) (pl_state h n v) g ps arts in wrap_outcome (exts v) o)).
    { intros e E. destruct (pl_state h n v) as [K x]. cbn [projT1 projT2] in *. cbn [finalize extended xr_finalize wrap w_finalize]. unfold ext_finalize. rewrite E.
      destruct (down_all LE_PayloadDowncast _ ps); [|reflexivity|reflexivity]. cbn [bind].
      destruct (down_all LE_ArtifactDowncast _ arts); reflexivity. }
    destruct (xw_cases v Hn Hv) as [(-> & -> & e & He & E)|[_ [(e & He & E)|E]]]; rewrite E; [| |reflexivity].
    - apply K. destruct Hm as [_ (e' & He' & Hx & _)]. rewrite He in He'. injection He' as <-. exact Hx.
    - apply K, He.
  Qed.
  Lemma here_false n v : (n = k /\ v = t -> False) -> (Nat.eqb n k && eqb v t)%bool = false.
  Proof. intros H. destruct (Nat.eqb_spec n k); auto. destruct (eqb_spec v t); auto. tauto. Qed.
  Lemma here_true : (Nat.eqb k k && eqb t t)%bool = true.
  Proof. now rewrite Nat.eqb_refl, eqb_refl. Qed.

  Lemma bad_echo n u : is_none (pl_echo hb n u) = is_none (pl_echo h n u).
  Proof. cbn [pl_echo replaced]. destruct (Nat.eqb_spec n k) as [->|], (eqb_spec u t) as [->|]; cbn [andb]; auto. Qed.
  Lemma bad_echoes n v : echoes hx n v = echoes h n v.
  Proof. unfold echoes. change (pl_part hx n v) with (pl_part h n v). change (pl_echo hx n v) with (pl_echo hb n v). now rewrite bad_echo. Qed.
  Lemma bad_final n v : final_rid hx n v = final_rid h n v.
  Proof. unfold final_rid. rewrite bad_echoes. reflexivity. Qed.
  Lemma bad_rng n v : entry_rng r hx n v = entry_rng r h n v.
  Proof. destruct n; [reflexivity|]. cbn [entry_rng]. now rewrite bad_final. Qed.

  Lemma bad_honest : honest_run (Pr := with_receive (extended T) fx) r sid parties (fun v => ep_with fx (extendable_entry (register (ep v) (xl v)))) hx.
  Proof.
    destruct HR as [L HS]. split; [|now apply (@in_step_same P _ _ parties h hx); auto using bad_echoes].
    constructor.
    - exact (hr_plain L).
    - exact (hr_distinct L).
    - intros n v Hn Hv. etransitivity; [exact (f_equal ti_id (ti_xw v (pl_state h n v)))|exact (hr_id L n v Hn Hv)].
    - intros n v Hn Hv. etransitivity; [exact (f_equal (fun i => mem (pl_rid h (S n)) (ti_children i)) (ti_xw v (pl_state h n v)))|exact (hr_next L n v Hn Hv)].
    - intros n v Hn Hv. pose proof (hr_comm L n v Hn Hv) as E. etransitivity; [|exact E]. exact (ci_xw v (pl_state h n v)).
    - exact (hr_dest L).
    - exact (hr_from L).
    - exact (hr_agree L).
    - intros n v u Hn Hv. rewrite !bad_echoes. exact (hr_partners L n v u Hn Hv).
    - intros n v u w Hn Hv. rewrite bad_echoes. intros He Hu. pose proof (hr_echoed L n v u w Hn Hv He Hu) as E. change (pl_echo hx n w) with (pl_echo hb n w).
      rewrite bad_echo. exact E.
    - intros v Hv. cbn [ep_with ep_make extendable_entry]. unfold register at 1. rewrite register_entry. cbn [extendable_new xp_entry].
      pose proof (hr_make L v Hv) as E. rewrite E. cbn [bind]. exact (proj1 (wrapped v (pl_state h 0 v))).
    - intros n v Hn Hv. rewrite bad_rng. pose proof (hr_mk_echo L n v Hn Hv) as E. cbn [pl_dest pl_echo pl_state hx replaced with_receive mk_echo] in *.
      destruct (xw_cases v Hn Hv) as [(-> & -> & e & He & Ex)|[Hh Hc]].
      + rewrite here_true, Ex. destruct Hm as [_ (e' & He' & _ & H1 & _)]. rewrite He in He'. injection He' as <-. destruct (is_empty (pl_dest h k t)); [now rewrite H1|exact H1].
      + rewrite (here_false Hh). etransitivity; [|exact E]. destruct (is_empty (pl_dest h n v)); [reflexivity|]. destruct Hc as [(e & He & Ex)|Ex]; rewrite Ex; [|reflexivity].
        exact (proj1 (inert_messages _ (exts v) He) _).
    - intros n v Hn Hv. rewrite bad_rng. pose proof (hr_mk_normal L n v Hn Hv) as E. cbn [pl_dest pl_normal pl_state hx replaced with_receive mk_normal] in *.
      destruct (xw_cases v Hn Hv) as [(-> & -> & e & He & Ex)|[Hh Hc]].
      + rewrite here_true, Ex. destruct Hm as [_ (e' & He' & _ & _ & H1 & _)]. rewrite He in He'. injection He' as <-. destruct (is_empty (pl_dest h k t)); [now rewrite H1|exact H1].
      + rewrite (here_false Hh). etransitivity; [|exact E]. destruct (is_empty (pl_dest h n v)); [reflexivity|]. destruct Hc as [(e & He & Ex)|Ex]; rewrite Ex; [|reflexivity].
        exact (proj1 (proj2 (inert_messages _ (exts v) He)) _).
    - intros n v u Hn Hv Hu. pose proof (hr_mk_direct L n v u Hn Hv Hu) as E. cbn [pl_dest pl_direct pl_artifact pl_rid pl_state hx replaced with_receive mk_direct] in *.
      destruct (xw_cases v Hn Hv) as [(-> & -> & e & He & Ex)|[Hh Hc]].
      + rewrite here_true, Ex. destruct Hm as [_ (e' & He' & _ & _ & _ & H1)]. rewrite He in He'. injection He' as <-. exact (H1 u Hu).
      + rewrite (here_false Hh). etransitivity; [|exact E]. destruct Hc as [(e & He & Ex)|Ex]; rewrite Ex; [|reflexivity].
        exact (proj1 (proj2 (proj2 (inert_messages _ (exts v) He))) _ _).
    - intros n v u Hn Hv Hu. cbn [with_receive receive]. etransitivity; [|exact (@Hf n v u Hn Hv Hu)]. unfold fx. cbn [pl_state hx]. rewrite base_xw. reflexivity.
    - intros n v ps arts Hn Hv Hp Ha. rewrite bad_final. pose proof (hr_finalize L n v ps arts Hn Hv Hp Ha) as F.
      etransitivity; [exact (fin_xw v _ ps arts Hn Hv)|]. rewrite F. cbn [bind]. change (pl_last hx) with (pl_last h).
      destruct (Nat.ltb n (pl_last h)) eqn:En; cbn [wrap_outcome]; [|reflexivity].
      rewrite (proj1 (wrapped v (pl_state h (S n) v))). reflexivity.
  Qed.

  Lemma bad_turned v : turned_down (Pr := wrap T) sid hb t k sd v -> turned_down (Pr := extended T) sid hx t k sd v.
  Proof.
    intros (ri & Hri & H). exists ri. split; [exact Hri|].
    assert (E : receive (extended T) (pl_state hx k v) t (mkDynMsg (pl_echo hx k t) (pl_normal hx k t) (pl_direct hx k t v)) =
                receive (wrap T) (pl_state hb k v) t (mkDynMsg (pl_echo hb k t) (pl_normal hb k t) (pl_direct hb k t v))) by exact (rec_xw v _ t _).
    rewrite E. exact H.
  Qed.
  Lemma bad_fault : one_fault (Pr := extended T) sid parties hx t k sd.
  Proof.
    destruct HF as [F1 F2 F3 F4 F5]. constructor; auto.
    - intros n v u Hn Hv Hu Hc. etransitivity; [exact (rec_xw v (pl_state h n v) u _)|]. exact (F4 n v u Hn Hv Hu Hc).
    - intros v Hv Hvt. apply bad_turned, F5; auto.
  Qed.
  Lemma bad_proof v ev : proof_against (Pr := extended T) sid hx t k sd v ev -> proof_against (Pr := wrap T) sid hb t k sd v ev.
  Proof.
    intros (H1 & H2 & H3). split; auto. split; [exact H2|]. unfold charge in *.
    assert (E : receive (extended T) (pl_state hx k v) t (mkDynMsg (pl_echo hx k t) (pl_normal hx k t) (pl_direct hx k t v)) =
                receive (wrap T) (pl_state hb k v) t (mkDynMsg (pl_echo hb k t) (pl_normal hb k t) (pl_direct hb k t v))) by exact (rec_xw v _ t _).
    rewrite E in H3. exact H3.
  Qed.

  Variable sk : Verifier -> Signer.
  Hypothesis Hsk : signers parties sk.
  Hypothesis Hwire : wire_total P.
  Hypothesis Hsig : signatures_correct P.
  Hypothesis Hpl : plain_ids (wrap T).
  Hypothesis Hlast : exists front, elements parties = front ++ [t] /\ front <> [].

  Theorem misbehaviour_found picks (describes : Evidence -> bool) :
    (forall v ev, mem v parties = true -> v <> t -> proof_against (Pr := wrap T) sid hb t k sd v ev -> describes ev = true) ->
    exists fuel0, forall fuel, fuel0 <= fuel ->
      check_evidence_with_extensions fuel r picks sid (map (fun v => (sk v, ep v)) (elements parties)) sd
        (fun xp => fold_left (fun xp e => with_extension xp (projT2 e)) xs xp) describes = Some (Ok tt).
  Proof.
    intros Hd. destruct Hlast as (fr & E & Hfr). pose proof (NoDup_elements parties) as ND. rewrite E in ND. apply NoDup_remove in ND as [_ Ht]. rewrite app_nil_r in Ht.
    assert (Hmem : forall v, mem v parties = true <-> In v (fr ++ [t])) by (intros v; rewrite <- E; symmetry; apply in_elements).
    assert (Hin : mem t parties = true) by (apply Hmem, in_or_app; right; now left).
    assert (Hplx : plain_ids (extended T)).
    { intros x. change (rid_echo (ti_id (tinfo (extended T) x)) = false). rewrite <- (Hpl (base x)). destruct x; reflexivity. }
    destruct (@run_sync_convicts P (extended T) fx r sid parties (fun v => extendable_entry (register (ep v) (xl v))) hx sk Hsk Hwire Hsig Hplx bad_honest t k sd bad_fault)
      with (picks := picks) as (fuel0 & reports & Hrun & Hc).
    { destruct fr as [|v fr']; [congruence|]. exists v. split; [apply Hmem; now left|]. intros ->. apply Ht. now left. }
    exists fuel0. intros fuel Hfu. unfold check_evidence_with_extensions.
    assert (Heps : map (fun v => (sk v, extendable_entry (register (ep v) (xl v)))) (elements parties) =
      map (fun p => (fst p, extendable_entry (snd p))) (map (fun p => (fst p, extendable_new (snd p))) (map (fun v => (sk v, ep v)) fr) ++
        [(sk t, fold_left (fun xp e => with_extension xp (projT2 e)) xs (extendable_new (ep t)))])).
    { rewrite E, !map_app, !map_map. cbn [map fst snd]. unfold xl at 2. rewrite eqb_refl. f_equal. apply map_ext_in. intros v Hv. unfold xl.
      destruct (eqb_spec v t) as [->|]; [contradiction|reflexivity]. }
    rewrite E, map_app. cbn [map]. rewrite extend_one_ok. rewrite <- Heps, (Hrun fuel Hfu), (Hsk t Hin). f_equal.
    apply (@convicted_check P (extended T) fx sid parties hx t k sd reports describes Hc). intros v ev Hv Hvt Hp. apply (Hd v ev Hv Hvt). now apply bad_proof.
  Qed.
End Ext.
