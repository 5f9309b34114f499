(** Facts about extending composed protocols. *)
From Coq Require Import List NArith Bool.
From Verif Require Import Base BMap Errors RoundId Message Protocol Transcript Evidence Session Typed Chain Extend Network RunSync Misbehave SpecExtend SimFacts ExtendFacts Over SpecOver.
Import ListNotations.
Set Implicit Arguments.

(** ** Chains depend on the rounds of their parts only *)
Section Congruence.
  Context {P : Params}.
  Context (A1 B1 A2 B2 : Proto).
  Context (fp1 : Payload A1 -> Payload B1) (fa1 : Artifact A1 -> Artifact B1) (fr1 : Rslt A1 -> Rslt B1) (R1 : St A1 -> St B1 -> Prop).
  Context (fp2 : Payload A2 -> Payload B2) (fa2 : Artifact A2 -> Artifact B2) (fr2 : Rslt A2 -> Rslt B2) (R2 : St A2 -> St B2 -> Prop).
  Context (H1 : forall x y, R1 x y -> alike A1 B1 fp1 fa1 fr1 R1 x y).
  Context (H2 : forall x y, R2 x y -> alike A2 B2 fp2 fa2 fr2 R2 x y).
  Context (ja : Join A1 A2) (jb : Join B1 B2) (fj : J ja -> J jb).
  Context (Hid : j_entry jb = j_entry ja).
  Context (Hj : forall tr r g sr id,
    match j_make ja tr r g sr id, j_make jb (fj tr) (fr1 r) g sr id with
    | Ok x, Ok y => R2 x y | Err e, Err e' => e' = e | Panic, Panic => True | _, _ => False end).

  Definition both {X Y X' Y'} (f : X -> X') (h : Y -> Y') (s : X + Y) : X' + Y' :=
    match s with inl x => inl (f x) | inr y => inr (h y) end.
  Definition crel (x : St (chain ja)) (y : St (chain jb)) : Prop :=
    match x, y with
    | Chain1 _ id st sr tr, Chain1 _ id' st' sr' tr' => id' = id /\ sr' = sr /\ tr' = fj tr /\ R1 st st'
    | Chain2 _ st, Chain2 _ st' => R2 st st'
    | _, _ => False
    end.

  Lemma chain_alike x y : crel x y ->
    alike (chain ja) (chain jb) (both fp1 fp2) (both fa1 fa2) fr2 crel x y.
  Proof.
    intros H. destruct x as [id st sr tr|st]; destruct y as [id' st' sr' tr'|st']; try contradiction; cbn [crel] in H.
    - destruct H as (-> & -> & -> & H). pose proof (H1 H) as [At Ac Ad Ae An Ar Af]. constructor; intros.
      + cbn [tinfo chain chain_tinfo]. now rewrite At, Hid.
      + cbn. exact Ac.
      + cbn [mk_direct chain chain_direct]. rewrite Ad. destruct (mk_direct A1 st g v) as [[b a]| |]; reflexivity.
      + cbn. apply Ae.
      + cbn. apply An.
      + cbn [receive chain chain_receive]. rewrite Ar. destruct (receive A1 st v m); reflexivity.
      + cbn [Payload Artifact finalize chain chain_finalize] in *. change (@down_map P) with (@downcast P).
        rewrite (@down_sim P _ _ _ _ (down_l LE_PayloadDowncast) (down_l LE_PayloadDowncast) (both fp1 fp2) fp1 ps) by (intros [|]; reflexivity).
        rewrite (@down_sim P _ _ _ _ (down_l LE_ArtifactDowncast) (down_l LE_ArtifactDowncast) (both fa1 fa2) fa1 arts) by (intros [|]; reflexivity).
        destruct (downcast (down_l LE_PayloadDowncast) ps) as [p| |]; cbn [bind rmap orel]; auto.
        destruct (downcast (down_l LE_ArtifactDowncast) arts) as [a| |]; cbn [bind rmap orel]; auto.
        pose proof (Af (rsub 0 g) p a) as F. unfold orel in F.
        destruct (finalize A1 st (rsub 0 g) p a) as [[x|r]| |]; destruct (finalize B1 st' (rsub 0 g) _ _) as [[y|r']| |]; try contradiction;
          cbn [bind orel crel]; auto.
        subst r'. pose proof (Hj tr r (rsub 1 g) sr id) as G.
        destruct (j_make ja tr r (rsub 1 g) sr id) as [x| |]; destruct (j_make jb (fj tr) (fr1 r) (rsub 1 g) sr id) as [y| |]; try contradiction;
          cbn [bind orel crel]; auto.
    - pose proof (H2 H) as [At Ac Ad Ae An Ar Af]. constructor; intros.
      + cbn [tinfo chain chain_tinfo]. now rewrite At.
      + cbn. exact Ac.
      + cbn [mk_direct chain chain_direct]. rewrite Ad. destruct (mk_direct A2 st g v) as [[b a]| |]; reflexivity.
      + cbn. apply Ae.
      + cbn. apply An.
      + cbn [receive chain chain_receive]. rewrite Ar. destruct (receive A2 st v m); reflexivity.
      + cbn [Payload Artifact finalize chain chain_finalize] in *. change (@down_map P) with (@downcast P).
        rewrite (@down_sim P _ _ _ _ (down_r LE_PayloadDowncast) (down_r LE_PayloadDowncast) (both fp1 fp2) fp2 ps) by (intros [|]; reflexivity).
        rewrite (@down_sim P _ _ _ _ (down_r LE_ArtifactDowncast) (down_r LE_ArtifactDowncast) (both fa1 fa2) fa2 arts) by (intros [|]; reflexivity).
        destruct (downcast (down_r LE_PayloadDowncast) ps) as [p| |]; cbn [bind rmap orel]; auto.
        destruct (downcast (down_r LE_ArtifactDowncast) arts) as [a| |]; cbn [bind rmap orel]; auto.
        pose proof (Af g p a) as F. unfold orel in F.
        destruct (finalize A2 st g p a) as [[x|r]| |]; destruct (finalize B2 st' g _ _) as [[y|r']| |]; try contradiction; cbn [bind orel crel]; auto.
  Qed.

  Lemma chain_sessions g sid signer (ea : EntryPoint A1) (eb : EntryPoint B1) tr cs :
    (forall g sr id, match ep_make ea g sr id, ep_make eb g sr id with
     | Ok x, Ok y => R1 x y | Err e, Err e' => e' = e | Panic, Panic => True | _, _ => False end) ->
    session g sid signer (chain_entry jb eb (fj tr)) cs = rmap (map (manswer (chain ja) (chain jb) fr2)) (session g sid signer (chain_entry ja ea tr) cs).
  Proof.
    intros He. apply (@session_sim P (chain ja) (chain jb) (both fp1 fp2) (both fa1 fa2) fr2 crel chain_alike).
    cbn [chain_entry ep_make]. pose proof (He (rsub 0 g) sid (signer_key signer)) as E.
    destruct (ep_make ea _ _ _) as [x| |]; destruct (ep_make eb _ _ _) as [y| |]; try contradiction; cbn [bind crel]; auto.
  Qed.
End Congruence.

Section Over.
  Context {P : Params}.

  Lemma over_dynamic (D : Proto) (typed : St D -> bool) g sid signer (ep : EntryPoint D) x :
    ep_make ep (rsub 0 g) sid (signer_key signer) = Ok x -> typed x = false ->
    session_new g sid signer (over_entry typed ep) = Err LE_NotTyped.
  Proof.
    intros E Ht. unfold session_new. cbn [over_entry ep_make]. rewrite E. cbn [bind]. unfold over_round. rewrite Ht. reflexivity.
  Qed.

  Lemma chained_never (P1 P2 : Proto) (j : Join P1 P2) (ep : EntryPoint (chain j)) g sid signer :
    (forall s, session_new g sid signer (extend_chained ep) <> Ok s) /\
    (forall s, session_new g sid signer ep = Ok s -> session_new g sid signer (extend_chained ep) = Err LE_NotTyped).
  Proof.
    split; intros s.
    - unfold session_new, extend_chained. cbn [over_entry ep_make]. destruct (ep_make ep _ _ _); cbn [bind over_round chain_typed]; discriminate.
    - unfold session_new at 1. destruct (ep_make ep _ _ _) as [x| |] eqn:E; try discriminate. intros _.
      now apply (@over_dynamic (chain j) (@chain_typed P P1 P2 j) g sid signer ep x E).
  Qed.

  Lemma chained_run (P1 P2 : Proto) (j : Join P1 P2) fuel r picks sid (p : Signer * EntryPoint (chain j)) ps :
    match ep_make (snd p) (rsub 0 (nr_new r (signer_key (fst p)))) sid (signer_key (fst p)) with
    | Ok _ => run_sync fuel r picks sid (map (fun p => (fst p, extend_chained (snd p))) (p :: ps)) = Some (Err LE_NotTyped)
    | Err e => run_sync fuel r picks sid (map (fun p => (fst p, extend_chained (snd p))) (p :: ps)) = Some (Err e)
    | Panic => run_sync fuel r picks sid (map (fun p => (fst p, extend_chained (snd p))) (p :: ps)) = Some Panic
    end.
  Proof.
    destruct p as [signer ep]. cbn [fst snd].
    unfold run_sync. cbn [map sync_start fst snd]. unfold sync_add. cbn [fst snd]. unfold session_new, extend_chained. cbn [over_entry ep_make].
    destruct (ep_make ep _ _ _); reflexivity.
  Qed.

  Lemma pop_last_snoc {X} (l : list X) x : pop_last (l ++ [x]) = Some (l, x).
  Proof. unfold pop_last. rewrite rev_app_distr. cbn [rev app]. now rewrite rev_involutive. Qed.

  Lemma check_chained_never (P1 P2 : Proto) (j : Join P1 P2) fuel r picks sid (eps : list (Signer * EntryPoint (chain j))) sd describes :
    check_chained fuel r picks sid eps sd describes <> Some (Ok tt) /\
    (forall p ps x, eps = p :: ps -> ep_make (snd p) (rsub 0 (nr_new r (signer_key (fst p)))) sid (signer_key (fst p)) = Ok x ->
      check_chained fuel r picks sid eps sd describes = Some (Err (CE_Run LE_NotTyped))).
  Proof.
    unfold check_chained. destruct eps as [|p ps]; [split; [discriminate|intros ? ? ? E; discriminate]|].
    assert (E : exists rest q, p :: ps = rest ++ [q]) by (destruct (@exists_last _ (p :: ps)) as (rest & q & E); [discriminate|eauto]).
    destruct E as (rest & [signer ep] & E). rewrite E, pop_last_snoc.
    assert (E2 : map (fun p => (fst p, extend_chained (snd p))) rest ++ [(signer, extend_chained ep)] =
      map (fun p => (fst p, extend_chained (snd p))) (p :: ps)) by (rewrite E, map_app; reflexivity).
    rewrite E2. pose proof (chained_run fuel r picks sid p ps) as C. split.
    - destruct (ep_make (snd p) _ _ _); rewrite C; discriminate.
    - intros p' ps' x Ep Hx. rewrite <- E in Ep. injection Ep as -> ->. rewrite Hx in C. now rewrite C.
  Qed.

  Section Twice.
    Context (T : TProto) (ep : EntryPoint (wrap T)) (l : list (AnyExt T)).
    Let exts := xp_exts (register ep l).
    Lemma reg_exts k : exts_get k exts = option_map (existT (Ext T) k) (last_for l k).
    Proof. unfold exts, register. rewrite register_gen. cbn [extendable_new xp_exts exts_get]. destruct (last_for l k); reflexivity. Qed.

    Lemma reg_make g sr id :
      match ep_make (extendable_entry (register ep l)) g sr id, ep_make ep g sr id with
      | Ok x, Ok y => xrel l exts x y | Err e, Err e' => e' = e | Panic, Panic => True | _, _ => False end.
    Proof.
      cbn [extendable_entry ep_make]. fold exts. unfold register at 1. rewrite register_entry. cbn [extendable_new xp_entry].
      destruct (ep_make ep g sr id) as [b| |]; cbn [bind]; auto.
      destruct (@wrap_rel P T l exts reg_exts b) as (x & E & H). rewrite E. exact H.
    Qed.

    Lemma twice_never g sid signer b :
      ep_make ep (rsub 0 g) sid (signer_key signer) = Ok b -> last_for l (projT1 b) = None ->
      session_new g sid signer (extend_extended (register ep l)) = Err LE_NotTyped.
    Proof.
      intros E Hl. pose proof (reg_make (rsub 0 g) sid (signer_key signer)) as M. rewrite E in M.
      destruct (ep_make (extendable_entry (register ep l)) _ _ _) as [x| |] eqn:Ex; try contradiction.
      apply (@over_dynamic (extended T) (@extended_typed P T) g sid signer _ x Ex).
      destruct x as [k r e x'|b' x']; [|reflexivity]. destruct M as (_ & Hc & ->). cbn [projT1] in Hl. congruence.
    Qed.

    Lemma twice_all g sid signer cs :
      (forall b, enters (patched (last_for l) ep) b -> last_for l (projT1 b) <> None) ->
      session g sid signer (extend_extended (register ep l)) cs = session g sid signer (extendable_entry (register ep l)) cs.
    Proof.
      intros Hall.
      set (R := (fun x y => y = x /\ exists b, xrel l exts x b /\ enters (patched (last_for l) ep) b)
        : St (extended T) -> St (@over P (extended T) (@extended_typed P T)) -> Prop).
      assert (Ht : forall x b, xrel l exts x b -> enters (patched (last_for l) ep) b -> extended_typed x = true).
      { intros [k r e x'|b' x'] b Hx Hb; [reflexivity|]. destruct Hx as (_ & Hc & ->). exfalso. exact (Hall _ Hb Hc). }
      assert (HR : forall x y, R x y -> alike (extended T) (@over P (extended T) (@extended_typed P T)) (fun p => p) (fun a => a) (fun r => r) R x y).
      { intros x y (-> & b & Hx & Hb). constructor; intros; try reflexivity.
        - cbn. destruct (xr_direct x g0 v) as [[? ?]| |]; reflexivity.
        - cbn. destruct (xr_receive x v m); reflexivity.
        - rewrite !map_values_id by reflexivity.
          pose proof (al_f (@ext_alike P T l exts reg_exts x b Hx) g0 ps arts) as F. rewrite !map_values_id in F by reflexivity.
          change (finalize (@over P (extended T) (@extended_typed P T)) x g0 ps arts) with (@over_finalize P (extended T) (@extended_typed P T) x g0 ps arts). unfold over_finalize.
          destruct (finalize (extended T) x g0 ps arts) as [[y|r]| |] eqn:Ef; cbn [bind]; try reflexivity; try exact I.
          unfold orel in F. destruct (finalize (wrap (patch (last_for l))) b g0 ps arts) as [[b'|r']| |] eqn:Eb; try contradiction.
          assert (Hb' : enters (patched (last_for l) ep) b') by (eapply enters_next; eassumption).
          unfold over_round. rewrite (Ht y b' F Hb'). cbn [bind orel]. split; [reflexivity|]. exists b'. auto. }
      etransitivity.
      - apply (@session_sim P (extended T) (@over P (extended T) (@extended_typed P T)) (fun p => p) (fun a => a) (fun r => r) R HR g sid signer
                 (extendable_entry (register ep l)) (extend_extended (register ep l)) cs).
        unfold extend_extended. cbn [over_entry ep_make].
        pose proof (reg_make (rsub 0 g) sid (signer_key signer)) as M.
        change (ep_make ep) with (ep_make (patched (last_for l) ep)) in M.
        destruct (ep_make (extendable_entry (register ep l)) _ _ _) as [x| |]; cbn [bind]; auto.
        destruct (ep_make (patched (last_for l) ep) _ _ _) as [b| |] eqn:Eb; try contradiction.
        assert (Hb : enters (patched (last_for l) ep) b) by (eapply enters_first; eassumption).
        unfold over_round. rewrite (Ht x b M Hb). split; [reflexivity|]. exists b. auto.
      - destruct (session g sid signer (extendable_entry (register ep l)) cs) as [ws| |]; [|reflexivity|reflexivity].
        cbn [rmap]. f_equal. rewrite <- (map_id ws) at 2. apply map_ext. intros [| | | | | |r]; try reflexivity.
        cbn [manswer]. f_equal. apply reports_id.
    Qed.
  End Twice.

  Lemma answers_id {R} (o : res LocalError (list (answer R))) (h : answer R -> answer R) : (forall w, h w = w) -> rmap (map h) o = o.
  Proof. intros H. destruct o as [ws| |]; [|reflexivity|reflexivity]. cbn [rmap]. f_equal. rewrite <- (map_id ws) at 2. now apply map_ext. Qed.

  Definition exts_of (T : TProto) (l : list (AnyExt T)) : Exts T := fold_left (fun m e => exts_insert (projT1 e) (existT _ (projT1 e) (projT2 e)) m) l [].
  Lemma register_exts (T : TProto) (ep : EntryPoint (wrap T)) (l : list (AnyExt T)) : xp_exts (register ep l) = exts_of l.
  Proof.
    unfold register, exts_of. change (@nil (TK T * AnyExt T)) with (xp_exts (extendable_new ep)). generalize (extendable_new ep).
    induction l as [|e l IH]; intros xp; [reflexivity|]. cbn [fold_left]. now rewrite IH.
  Qed.

  Lemma parts_extended (T1 T2 : TProto) rid J (mk : J -> TRslt T1 -> EntryPoint (wrap T2)) (ep : EntryPoint (wrap T1))
      (l1 : list (AnyExt T1)) (l2 : list (AnyExt T2)) tr g sid signer cs :
    session g sid signer (chain_entry (chain_of_extended rid mk l2) (extendable_entry (register ep l1)) tr) cs =
    session g sid signer (chain_entry (chain_of_patched rid mk (last_for l1) (last_for l2)) (patched (last_for l1) ep) tr) cs.
  Proof.
    symmetry. etransitivity.
    - refine (@chain_sessions P (extended T1) (wrap (patch (last_for l1))) (extended T2) (wrap (patch (last_for l2)))
        (fun p => p) (fun a => a) (fun r => r) (xrel l1 (xp_exts (register ep l1)))
        (fun p => p) (fun a => a) (fun r => r) (xrel l2 (exts_of l2)) _ _
        (chain_of_extended rid mk l2) (chain_of_patched rid mk (last_for l1) (last_for l2)) (fun t => t) eq_refl _
        g sid signer (extendable_entry (register ep l1)) (patched (last_for l1) ep) tr cs _).
      + exact (@ext_alike P T1 l1 _ (reg_exts ep l1)).
      + refine (@ext_alike P T2 l2 (exts_of l2) _). intros k. rewrite <- (register_exts (@mkEP P (wrap T2) rid (fun _ _ _ => Panic)) l2). apply reg_exts.
      + intros t r g' sr id. cbn [chain_of_extended chain_of_patched join_of j_make]. rewrite <- (register_exts (mk t r) l2). apply (reg_make (mk t r) l2).
      + intros g' sr id. apply (reg_make ep l1).
    - apply answers_id. intros [| | | | | |r]; try reflexivity. cbn [manswer]. f_equal. apply reports_id.
  Qed.
End Over.
