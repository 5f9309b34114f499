(** Facts about extended protocols. *)
From Coq Require Import List NArith Bool Eqdep_dec.
From Verif Require Import Base BMap Errors RoundId Message Protocol Transcript Evidence Session Typed Extend SpecExtend SimFacts.
Import ListNotations.
Set Implicit Arguments.

Section Extended.
  Context {P : Params}.
  Context (T : TProto).

  Lemma exts_get_insert k k' (e : AnyExt T) l :
    exts_get k (exts_insert k' e l) = if tk_dec T k k' then Some e else exts_get k l.
  Proof.
    cbn [exts_insert exts_get]. destruct (tk_dec T k k') as [|Hne]; [reflexivity|].
    induction l as [|[k2 e2] l IH]; [reflexivity|]. cbn [filter fst exts_get].
    destruct (tk_dec T k' k2) as [->|]; cbn [exts_get].
    - rewrite IH. destruct (tk_dec T k k2); [contradiction|reflexivity].
    - destruct (tk_dec T k k2); [reflexivity|exact IH].
  Qed.

  Lemma register_gen (l : list (AnyExt T)) (xp : Extendable T) k :
    exts_get k (xp_exts (fold_left (fun xp e => with_extension xp (projT2 e)) l xp)) =
    match last_for l k with Some e => Some (existT _ k e) | None => exts_get k (xp_exts xp) end.
  Proof.
    revert xp. induction l as [|[k' e] l IH]; intros xp; [reflexivity|]. cbn [fold_left last_for projT2]. rewrite IH.
    destruct (last_for l k) as [e'|]; [reflexivity|]. cbn [xp_exts with_extension projT1]. rewrite exts_get_insert. cbn [projT1].
    destruct (tk_dec T k' k) as [<-|Hne].
    - destruct (tk_dec T k' k'); [reflexivity|congruence].
    - destruct (tk_dec T k k'); [congruence|reflexivity].
  Qed.
  Lemma register_entry (l : list (AnyExt T)) (xp : Extendable T) : xp_entry (fold_left (fun xp e => with_extension xp (projT2 e)) l xp) = xp_entry xp.
  Proof. revert xp. induction l as [|e l IH]; intros xp; [reflexivity|]. cbn [fold_left]. now rewrite IH. Qed.

  Section Registered.
    Context (l : list (AnyExt T)) (exts : Exts T).
    Hypothesis Hx : forall k, exts_get k exts = option_map (existT (Ext T) k) (last_for l k).
    Let c : choice T := last_for l.

    Definition xrel (x : XRound T) (y : boxed T) : Prop :=
      match x with
      | XExtended k r e x' => x' = exts /\ c k = Some e /\ y = existT _ k r
      | XPassthrough b x' => x' = exts /\ c (projT1 b) = None /\ y = b
      end.

    Lemma wrap_rel b : exists x, wrap_round b exts = Ok x /\ xrel x b.
    Proof.
      unfold wrap_round. rewrite Hx. destruct b as [k r]. cbn [projT1]. fold c. destruct (c k) as [e|] eqn:E; cbn [option_map].
      - unfold extend_round, round_down. cbn [projT1 projT2]. destruct (tk_dec T k k) as [H|]; [|congruence].
        rewrite <- (eq_rect_eq_dec (tk_dec T) (tst T) r H). eexists. split; [reflexivity|]. cbn. auto.
      - eexists. split; [reflexivity|]. cbn. auto.
    Qed.

    Notation A := (extended T).
    Notation B := (wrap (patch c)).

    Lemma outcome_rel o : @orel P A B (fun x => x) (xrel : St A -> St B -> Prop) (let* o := o in wrap_outcome exts o) o.
    Proof.
      destruct o as [[b|r]| |]; cbn; auto. destruct (wrap_rel b) as (x & E & H). rewrite E. exact H.
    Qed.

    Lemma ext_alike x y : xrel x y -> @alike P A B (fun p => p) (fun a => a) (fun r => r) (xrel : St A -> St B -> Prop) x y.
    Proof.
      intros H. destruct x as [k r e x'|[k r] x']; cbn [xrel projT1] in H; destruct H as (-> & Hc & ->).
      - constructor; intros; try reflexivity.
        + cbn. unfold typed_direct, ext_direct. cbn. rewrite Hc. destruct e as [en ee [f|] ef]; cbn.
          * destruct (f g r v) as [[m a]| |]; cbn; auto. destruct (part_new _ _); reflexivity.
          * unfold typed_direct. destruct (match t_mk_direct T k with Some _ => _ | None => _ end) as [[m a]| |]; cbn; auto.
            destruct (part_new _ _); reflexivity.
        + cbn. unfold typed_echo, ext_echo. cbn. rewrite Hc. destruct e as [en [f|] ed ef]; reflexivity.
        + cbn. unfold typed_normal, ext_normal. cbn. rewrite Hc. destruct e as [[f|] ee ed ef]; reflexivity.
        + cbn. destruct (let* d := _ in _); reflexivity.
        + rewrite !map_values_id by reflexivity. cbn -[down_all orel]. unfold ext_finalize. 
          change (@down_all P (patch c)) with (@down_all P T).
          destruct (down_all LE_PayloadDowncast (t_pay T k) ps); [|reflexivity|exact I]. cbn [bind].
          destruct (down_all LE_ArtifactDowncast (t_art T k) arts); [|reflexivity|exact I]. cbn [bind].
          rewrite Hc. destruct e as [en ee ed [f|]]; cbn [x_finalize]; apply outcome_rel.
      - constructor; intros; try reflexivity.
        + cbn. unfold typed_direct. cbn. rewrite Hc.
          destruct (match t_mk_direct T k with Some _ => _ | None => _ end) as [[m a]| |]; cbn; auto. destruct (part_new _ _); reflexivity.
        + cbn. unfold typed_echo. cbn. rewrite Hc. reflexivity.
        + cbn. unfold typed_normal. cbn. rewrite Hc. reflexivity.
        + cbn. destruct (let* d := _ in _); reflexivity.
        + rewrite !map_values_id by reflexivity. cbn [finalize extended xr_finalize wrap w_finalize t_finalize patch t_pay t_art].
          rewrite Hc. change (@down_all P (patch c)) with (@down_all P T). apply outcome_rel.
    Qed.
  End Registered.

  Lemma report_id {R} (r : Report R) :
    mkReport (match rep_outcome r with OResult x => OResult x | ONotEnough => ONotEnough | OTerminated => OTerminated end)
      (rep_provable r) (rep_unprovable r) (rep_missing r) = r.
  Proof. destruct r as [[x| |] p u m]; reflexivity. Qed.
  Lemma reports_id {R} (r : res LocalError (Report R)) :
    rmap (fun r => mkReport (match rep_outcome r with OResult x => OResult x | ONotEnough => ONotEnough | OTerminated => OTerminated end)
      (rep_provable r) (rep_unprovable r) (rep_missing r)) r = r.
  Proof. destruct r as [x| |]; [|reflexivity|reflexivity]. cbn [rmap]. now rewrite report_id. Qed.

  Lemma extended_session (ep : EntryPoint (wrap T)) (l : list (AnyExt T)) g sid signer cs :
    session g sid signer (extendable_entry (register ep l)) cs = session g sid signer (patched (last_for l) ep) cs.
  Proof.
    symmetry.
    set (exts := xp_exts (register ep l)).
    assert (Hx : forall k, exts_get k exts = option_map (existT (Ext T) k) (last_for l k)).
    { intros k. unfold exts, register. rewrite register_gen. cbn [extendable_new xp_exts exts_get]. destruct (last_for l k); reflexivity. }
    etransitivity.
    - apply (@session_sim P (extended T) (wrap (patch (last_for l))) (fun p => p) (fun a => a) (fun r => r)
               (xrel l exts : St (extended T) -> St (wrap (patch (last_for l))) -> Prop) (@ext_alike l exts Hx) g sid signer
               (extendable_entry (register ep l)) (patched (last_for l) ep) cs).
      cbn [extendable_entry ep_make patched]. fold exts. unfold register at 1. rewrite register_entry. cbn [extendable_new xp_entry].
      destruct (ep_make ep (rsub 0 g) sid (signer_key signer)) as [b| |]; cbn [bind]; auto.
      destruct (@wrap_rel l exts Hx b) as (x & E & H). cbn zeta. rewrite E. exact H.
    - destruct (session g sid signer (extendable_entry (register ep l)) cs) as [ws| |]; [|reflexivity|reflexivity].
      cbn [rmap]. f_equal. rewrite <- (map_id ws) at 2. apply map_ext. intros [| | | | | |r]; try reflexivity.
      cbn [manswer]. f_equal. apply reports_id.
  Qed.

  Lemma inert_session (ep : EntryPoint (wrap T)) (c : choice T) g sid signer cs :
    (forall b e, enters ep b -> c (projT1 b) = Some e -> overrides_nothing e) ->
    session g sid signer (patched c ep) cs = session g sid signer ep cs.
  Proof.
    intros Hi.
    set (R := (fun x y => y = x /\ enters ep x) : St (wrap T) -> St (wrap (patch c)) -> Prop).
    assert (HR : forall x y, R x y -> @alike P (wrap T) (wrap (patch c)) (fun p => p) (fun a => a) (fun r => r) R x y).
    { intros x y [-> He]. pose proof (Hi x) as Hx. destruct x as [k r]. cbn [projT1] in Hx.
      constructor; intros; try reflexivity.
      - cbn. unfold typed_direct. cbn. destruct (c k) as [e|] eqn:E.
        + destruct (Hx e He eq_refl) as (A1 & A2 & A3 & A4). destruct e; cbn in A1, A2, A3, A4; subst.
          destruct (match t_mk_direct T k with Some _ => _ | None => _ end) as [[m a]| |]; cbn; auto. destruct (part_new _ _); reflexivity.
        + destruct (match t_mk_direct T k with Some _ => _ | None => _ end) as [[m a]| |]; cbn; auto. destruct (part_new _ _); reflexivity.
      - cbn. unfold typed_echo. cbn. destruct (c k) as [e|] eqn:E; [|reflexivity].
        destruct (Hx e He eq_refl) as (A1 & A2 & A3 & A4). destruct e; cbn in A1, A2, A3, A4; subst. reflexivity.
      - cbn. unfold typed_normal. cbn. destruct (c k) as [e|] eqn:E; [|reflexivity].
        destruct (Hx e He eq_refl) as (A1 & A2 & A3 & A4). destruct e; cbn in A1, A2, A3, A4; subst. reflexivity.
      - cbn. destruct (let* d := _ in _); reflexivity.
      - rewrite !map_values_id by reflexivity.
        assert (F : finalize (wrap (patch c)) (existT _ k r : St (wrap (patch c))) g0 ps arts = finalize (wrap T) (existT _ k r : St (wrap T)) g0 ps arts).
        { cbn [finalize wrap w_finalize t_finalize patch t_pay t_art]. change (@down_all P (patch c)) with (@down_all P T).
          destruct (down_all LE_PayloadDowncast _ ps); [|reflexivity|reflexivity]. destruct (down_all LE_ArtifactDowncast _ arts); [|reflexivity|reflexivity].
          cbn [bind]. destruct (c k) as [e|] eqn:E; [|reflexivity].
          destruct (Hx e He eq_refl) as (A1 & A2 & A3 & A4). destruct e; cbn in A1, A2, A3, A4; subst. reflexivity. }
        refine (eq_ind_r (fun o => @orel P (wrap T) (wrap (patch c)) (fun r => r) R _ o) _ F).
        destruct (finalize (wrap T) (existT _ k r : St (wrap T)) g0 ps arts) as [[b'|r']| |] eqn:E; cbn [orel]; auto.
        split; auto. eapply enters_next; eauto. }
    etransitivity.
    - apply (@session_sim P (wrap T) (wrap (patch c)) (fun p => p) (fun a => a) (fun r => r) R HR g sid signer ep (patched c ep) cs).
      cbn [patched ep_make]. destruct (ep_make ep (rsub 0 g) sid (signer_key signer)) as [b| |] eqn:E; auto.
      split; auto. now apply enters_first with (g := rsub 0 g) (sr := sid) (id := signer_key signer).
    - destruct (session g sid signer ep cs) as [ws| |]; [|reflexivity|reflexivity].
      cbn [rmap]. f_equal. rewrite <- (map_id ws) at 2. apply map_ext. intros [| | | | | |r]; try reflexivity.
      cbn [manswer]. f_equal. apply reports_id.
  Qed.
End Extended.
