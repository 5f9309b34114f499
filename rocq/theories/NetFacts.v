(** Facts about networks of honest nodes. *)
From Coq Require Import List NArith Bool Lia Arith.
From Verif Require Import Base BMap Errors RoundId Message Protocol Transcript Evidence Session Spec SpecCrypto
  MessageFacts SessionFacts SignFacts Network SpecNet.
Import ListNotations.
Set Implicit Arguments.

Section Signing.
  Context {P : Params}.
  Hypothesis Hwire : wire_total P.
  Hypothesis Hsig : signatures_correct P.

  Lemma sign_total k g s sid rid b : exists p : SPart k, sign_part k g s sid rid b = Ok p /\
    part_signed (signer_key s) p /\ sp_meta p = mkMeta sid rid /\ sp_body p = b.
  Proof.
    assert (H : exists p : SPart k, sign_part k g s sid rid b = Ok p).
    { unfold sign_part, part_digest, message_digest. destruct (wt_meta Hwire (mkMeta sid rid)) as [mb ->]. simpl.
      destruct (wt_sign Hwire g s (hash (digest_preimage mb (part_hash k b)))) as (x & y & -> & H). simpl. rewrite H. simpl. eauto. }
    destruct H as [p H]. exists p. split; auto. split; [eapply sign_part_signed; eauto|].
    apply sign_part_ok in H. tauto.
  Qed.
End Signing.

Definition b2n (b : bool) : nat := if b then 1 else 0.

Section Facts.
  Context {P : Params}.
  Context {Pr : Proto}.
  Variable r : NetRng.
  Variable sid : bytes.
  Variable parties : bset Verifier.
  Variable ep : Verifier -> EntryPoint Pr.
  Variable h : Plan Pr.
  Variable sk : Verifier -> Signer.
  Hypothesis Hsk : forall v, mem v parties = true -> signer_key (sk v) = v.
  Hypothesis Hwire : wire_total P.
  Hypothesis Hsig : signatures_correct P.
  Hypothesis HL : lock_step r sid parties ep h.

  Notation N := (pl_last h).
  Notation R := (pl_rid h).
  Notation party v := (mem v parties = true).

  (** ** Phases: a round or its echo round *)
  Definition prid (f : phase) : RoundId := if snd f then echo_of (R (fst f)) else R (fst f).
  Definition pnext (v : Verifier) (f : phase) : phase :=
    if (negb (snd f) && echoes h (fst f) v)%bool then (fst f, true) else (S (fst f), false).
  Definition prank (f : phase) : nat := 2 * fst f + b2n (snd f).
  Definition pvalid (v : Verifier) (f : phase) : Prop := fst f <= N /\ (snd f = true -> echoes h (fst f) v = true).
  Definition dst (f : phase) (v : Verifier) :=
    if snd f then if echoes h (fst f) v then partners h (fst f) v else sempty else pl_dest h (fst f) v.
  Definition exp (f : phase) (v : Verifier) :=
    if snd f then if echoes h (fst f) v then partners h (fst f) v else sempty else pl_from h (fst f) v.
  Definition part (f : phase) (v : Verifier) : EchoPart := if snd f then EPDefault else pl_part h (fst f) v.

  Lemma prank_inj f g : prank f = prank g -> f = g.
  Proof. destruct f as [n []], g as [k []]; unfold prank; simpl; intros; f_equal; lia. Qed.

  Lemma prank_next v f : prank f < prank (pnext v f).
  Proof. destruct f as [n []]; unfold pnext, prank; simpl; [lia|]. destruct (echoes h n v); simpl; lia. Qed.

  Lemma prank_between v f g : pvalid v g \/ g = (S N, false) -> pvalid v f -> prank f < prank g -> prank (pnext v f) <= prank g.
  Proof.
    destruct f as [n b], g as [k c]. unfold prank, pnext, pvalid; simpl. intros Hg [Hn Hf] H.
    destruct b; simpl in *; [destruct c; simpl in *; lia|].
    destruct (echoes h n v) eqn:E; simpl; [lia|].
    assert (n = k -> c = false). { intros <-. destruct Hg as [[_ Hg]|Hg]; [|now inv Hg]. destruct c; auto. rewrite Hg in E by auto. discriminate. }
    destruct c; simpl in *; [|lia]. destruct (Nat.eq_dec n k); [|lia]. discriminate (H0 e).
  Qed.

  Lemma prid_inj f g : fst f <= N -> fst g <= N -> prid f = prid g -> f = g.
  Proof.
    destruct f as [n b], g as [k c]. unfold prid; simpl. intros Hn Hk E.
    pose proof (hr_plain HL _ Hn) as Pn. pose proof (hr_plain HL _ Hk) as Pk.
    destruct b, c.
    - assert (R n = R k); [|f_equal; now apply (hr_distinct HL)].
      destruct (R n) as [a x y], (R k) as [a' x' y']. unfold echo_of in E. simpl in *. congruence.
    - exfalso. rewrite <- E in Pk. discriminate.
    - exfalso. rewrite E in Pn. discriminate.
    - f_equal. now apply (hr_distinct HL).
  Qed.
  Lemma pv v f : pvalid v f -> fst f <= N.
  Proof. intros []; auto. Qed.
  Lemma prid_eq u v f g : pvalid u f -> pvalid v g -> prid f = prid g -> f = g.
  Proof. intros [Hf _] [Hg _]. now apply prid_inj. Qed.

  Lemma next_valid v f : pvalid v f -> pvalid v (pnext v f) \/ pnext v f = (S N, false).
  Proof.
    destruct f as [n b]. unfold pvalid, pnext; simpl. intros [Hn Hb].
    destruct (negb b && echoes h n v)%bool eqn:E; simpl.
    - left. split; auto. apply andb_true_iff in E. tauto.
    - destruct (Nat.eq_dec n N) as [->|]; [now right|left; split; [lia|discriminate]].
  Qed.

  (** ** Who sends to whom *)
  Lemma dst_party f v u : fst f <= N -> party v -> mem u (dst f v) = true -> party u /\ u <> v.
  Proof.
    destruct f as [n []]; unfold dst; cbn [fst snd]; intros Hn Hv Hu; [|now apply (hr_dest HL n)].
    destruct (echoes h n v) eqn:E; [|discriminate]. destruct (hr_partners HL n v u Hn Hv E Hu) as (A & B & _). auto.
  Qed.
  Lemma exp_party f v u : fst f <= N -> party v -> mem u (exp f v) = true -> party u /\ u <> v.
  Proof.
    destruct f as [n []]; unfold exp; cbn [fst snd]; intros Hn Hv Hu; [|now apply (hr_from HL n)].
    destruct (echoes h n v) eqn:E; [|discriminate]. destruct (hr_partners HL n v u Hn Hv E Hu) as (A & B & _). auto.
  Qed.
  Lemma agree g u v : fst g <= N -> party u -> party v -> mem v (dst g u) = mem u (exp g v).
  Proof.
    destruct g as [n []]; unfold dst, exp; cbn [fst snd]; intros Hn Hu Hv; [|now apply (hr_agree HL)].
    assert (K : forall x y, party x -> mem y (if echoes h n x then partners h n x else sempty) = true ->
      mem x (if echoes h n y then partners h n y else sempty) = true).
    { intros x y Hx Hy. destruct (echoes h n x) eqn:E; [|discriminate]. destruct (hr_partners HL n x y Hn Hx E Hy) as (_ & _ & -> & H). exact H. }
    apply eq_true_iff_eq. split; apply K; auto.
  Qed.
  Lemma dst_valid g u v : fst g <= N -> party u -> mem v (dst g u) = true -> pvalid u g /\ pvalid v g.
  Proof.
    destruct g as [n []]; unfold dst, pvalid; cbn [fst snd]; intros Hn Hu Hd; [|now auto].
    destruct (echoes h n u) eqn:E; [|discriminate]. destruct (hr_partners HL n u v Hn Hu E Hd) as (_ & _ & -> & _). auto.
  Qed.

  (** ** What honest messages contain *)
  Definition echo_map (n : nat) (u : Verifier) (msg : bmap Verifier SHash) : Prop :=
    forall w, if (mem w (pl_from h n u) && negb (is_none (pl_echo h n w)))%bool
      then exists x, get w msg = Some x /\ hash_signed w x /\ sh_meta x = mkMeta sid (R n) /\ sh_hash x = content_hash KEcho (pl_echo h n w)
      else get w msg = None.
  Definition good_bcast (f : phase) (u : Verifier) (be bn : body) : Prop :=
    if snd f then be = None /\ (is_empty (dst f u) = false -> exists x msg, bn = Some x /\ deser_echo x = Some msg /\ echo_map (fst f) u msg)
    else be = pl_echo h (fst f) u /\ bn = pl_normal h (fst f) u.
  Definition good_direct (f : phase) (u v : Verifier) : body := if snd f then None else pl_direct h (fst f) u v.
  Definition exp_payload (f : phase) (v u : Verifier) : SPayload Pr := if snd f then PEmpty else PVal (pl_payload h (fst f) v u).
  Definition exp_art (f : phase) (v u : Verifier) : SArtifact Pr := if snd f then ANone else AVal (pl_artifact h (fst f) v u).

  Definition good_part {k} (f : phase) (u : Verifier) (p : SPart k) : Prop := part_signed u p /\ sp_meta p = mkMeta sid (prid f).
  Definition good_msg (f : phase) (u v : Verifier) (m : Message) : Prop :=
    msg_dest m = v /\ message_authentic u sid (prid f) m /\
    good_bcast f u (sp_body (msg_echo m)) (sp_body (msg_normal m)) /\ sp_body (msg_direct m) = good_direct f u v.
  Definition good_vm (f : phase) (u v : Verifier) (m : VMessage) : Prop :=
    vm_from m = u /\ vmessage_authentic sid (prid f) m /\
    good_bcast f u (sp_body (vm_echo m)) (sp_body (vm_normal m)) /\ sp_body (vm_direct m) = good_direct f u v.

  (** ** Good sessions *)
  Definition einfo (n : nat) (v : Verifier) : EchoInfo := mkEchoInfo (partners h n v) (partners h n v) (echoed h n v).
  Definition all_echos (n : nat) (v : Verifier) (echos : bmap Verifier (SPart KEcho)) : Prop :=
    forall w, if (eqb w v || (mem w (pl_from h n v) && negb (is_none (pl_echo h n w))))%bool then exists p, get w echos = Some p /\ good_part (n, false) w p /\ sp_body p = pl_echo h n w
              else get w echos = None.
  Definition good_round (v : Verifier) (f : phase) (rd : Round Pr) : Prop :=
    if snd f then exists echos ps arts,
        rd = REcho v echos (einfo (fst f) v) (RMain (pl_state h (fst f) v)) ps arts /\ all_echos (fst f) v echos /\
        is_map ps (pl_from h (fst f) v) (fun u => PVal (pl_payload h (fst f) v u)) /\
        is_map arts (pl_dest h (fst f) v) (fun u => AVal (pl_artifact h (fst f) v u))
    else rd = RMain (pl_state h (fst f) v).
  Definition good_tinfo (v : Verifier) (f : phase) : TransitionInfo :=
    let t := tinfo Pr (pl_state h (fst f) v) in
    if snd f then mkTI (prid f) (set_of_list [ti_id t]) sempty (ti_children t) (ti_result t) else t.
  Record good_tr (f : phase) (t : Transcript) : Prop := {
    gt_prov : tr_provable t = empty;
    gt_unprov : tr_unprovable t = empty;
    gt_missing : tr_missing t = empty;
    gt_old : forall rid, (contains rid (tr_echo t) || contains rid (tr_normal t) || contains rid (tr_direct t))%bool = true ->
      exists g, fst g <= N /\ prank g < prank f /\ rid = prid g
  }.
  Record good_sess (v : Verifier) (f : phase) (s : Session Pr) : Prop := {
    gs_id : s_id s = sid;
    gs_signer : s_signer s = sk v;
    gs_verifier : s_verifier s = v;
    gs_round : good_round v f (s_round s);
    gs_comm : s_comm s = mkComm (dst f v) (exp f v) (part f v);
    gs_tinfo : s_tinfo s = good_tinfo v f;
    gs_echo_info : s_echo_info s = if (negb (snd f) && echoes h (fst f) v)%bool then Some (einfo (fst f) v) else None;
    gs_echo : good_part f v (s_echo s);
    gs_normal : good_part f v (s_normal s);
    gs_bcast : good_bcast f v (sp_body (s_echo s)) (sp_body (s_normal s));
    gs_tr : good_tr f (s_tr s)
  }.

  Lemma good_id v f : pvalid v f -> party v -> ti_id (good_tinfo v f) = prid f.
  Proof.
    destruct f as [n []]; intros [Hn _] Hv; unfold good_tinfo; simpl; auto. apply (hr_id HL); auto.
  Qed.
  Lemma good_rid v f s : pvalid v f -> party v -> good_sess v f s -> s_round_id s = prid f.
  Proof. intros Hf Hv G. unfold s_round_id. rewrite (gs_tinfo G). now apply good_id. Qed.

  Lemma echo_id n : n <= N -> echo (R n) = Ok (echo_of (R n)).
  Proof. intros Hn. unfold echo. now rewrite (hr_plain HL _ Hn). Qed.

  Lemma good_round_tinfo v f rd : pvalid v f -> party v -> good_round v f rd -> rd_tinfo rd = Ok (good_tinfo v f).
  Proof.
    destruct f as [n []]; intros [Hn Hb] Hv; unfold good_round, good_tinfo; simpl in *.
    - intros (echos & ps & arts & -> & _). simpl. unfold ti_echo. rewrite (hr_id HL n v Hn Hv), (echo_id Hn). reflexivity.
    - intros ->. reflexivity.
  Qed.

  Lemma good_round_cinfo v f rd : pvalid v f -> party v -> good_round v f rd -> rd_cinfo rd = mkComm (dst f v) (exp f v) (part f v).
  Proof.
    destruct f as [n []]; intros [Hn Hb] Hv; unfold good_round, dst, exp, part; simpl in *.
    - intros (echos & ps & arts & -> & _). rewrite Hb; auto.
    - intros ->. simpl. now apply (hr_comm HL).
  Qed.

  Lemma new_main n v t : n <= N -> party v -> good_tr (n, false) t ->
    exists s, new_for_next_round (rsub 1 (entry_rng r h n v)) sid (sk v) (RMain (pl_state h n v)) t = Ok s /\ good_sess v (n, false) s.
  Proof.
    intros Hn Hv Ht. unfold new_for_next_round. cbn [rd_tinfo bind rd_cinfo].
    rewrite (hr_comm HL n v Hn Hv). cbn [ci_dest].
    pose proof (hr_mk_echo HL n v Hn Hv) as He. pose proof (hr_mk_normal HL n v Hn Hv) as Hnm.
    unfold rd_mk_echo, rd_mk_normal. rewrite He. cbn [bind].
    destruct (sign_total Hwire Hsig KEcho (rsub 1 (rsub 1 (entry_rng r h n v))) (sk v) sid (ti_id (tinfo Pr (pl_state h n v))) (pl_echo h n v)) as (se & -> & S1 & S2 & S3).
    cbn [bind]. rewrite Hnm. cbn [bind].
    destruct (sign_total Hwire Hsig KNormal (rsub 3 (rsub 1 (entry_rng r h n v))) (sk v) sid (ti_id (tinfo Pr (pl_state h n v))) (pl_normal h n v)) as (sn & -> & T1 & T2 & T3).
    cbn [bind]. eexists. split; [reflexivity|]. rewrite (Hsk v Hv) in S1, T1. rewrite (hr_id HL n v Hn Hv) in S2, T2.
    constructor; cbn [s_id s_signer s_verifier s_round s_comm s_tinfo s_echo_info s_echo s_normal s_tr fst snd]; auto.
    - reflexivity.
    - unfold make_echo_info, einfo, partners, echoed, echoes. cbn [ci_part ci_dest ci_expect negb andb]. rewrite S3, (Hsk v Hv).
      destruct (pl_part h n v); auto. now destruct (is_none (pl_echo h n v)).
    - split; auto.
    - split; auto.
    - split; auto.
  Qed.

  Lemma new_echo n v t g echos ps arts : n <= N -> echoes h n v = true -> party v -> good_tr (n, true) t ->
    good_round v (n, true) (REcho v echos (einfo n v) (RMain (pl_state h n v)) ps arts) ->
    exists s, new_for_next_round g sid (sk v) (REcho v echos (einfo n v) (RMain (pl_state h n v)) ps arts) t = Ok s /\ good_sess v (n, true) s.
  Proof.
    intros Hn He Hv Ht Hrd. pose proof (@good_round_tinfo v (n, true) _ (conj Hn (fun _ => He)) Hv Hrd) as Hti.
    unfold new_for_next_round. rewrite Hti. cbn [bind].
    rewrite (@good_round_cinfo v (n, true) _ (conj Hn (fun _ => He)) Hv Hrd). cbn [ci_dest].
    rewrite (@good_id v (n, true) (conj Hn (fun _ => He)) Hv).
    assert (Eecho : (if is_empty (dst (n, true) v) then Ok None else rd_mk_echo (REcho v echos (einfo n v) (RMain (pl_state h n v)) ps arts) (rsub 0 g)) = Ok None)
      by now destruct (is_empty (dst (n, true) v)).
    rewrite Eecho. cbn [bind].
    destruct (sign_total Hwire Hsig KEcho (rsub 1 g) (sk v) sid (prid (n, true)) None) as (se & -> & S1 & S2 & S3).
    cbn [bind rd_mk_normal]. unfold echo_normal_broadcast.
    destruct Hrd as (echos' & ps' & arts' & E & Hall & Hps & Harts). inv E.
    pose proof (Hall v) as Hown. rewrite eqb_refl in Hown. destruct Hown as (own & Eown & _).
    assert (Hc : contains v echos' = true) by (apply contains_get; eauto). rewrite Hc.
    destruct (wt_echo Hwire (map_values (@to_signed_hash _ KEcho) (remove v echos'))) as (x & Ex & Dx). rewrite Ex. cbn [bind ok_or].
    set (bn := if is_empty (dst (n, true) v) then None else Some x).
    assert (Enormal : (if is_empty (dst (n, true) v) then Ok (E := LocalError) None else Ok (Some x)) = Ok bn) by (unfold bn; now destruct (is_empty (dst (n, true) v))).
    rewrite Enormal. cbn [bind].
    destruct (sign_total Hwire Hsig KNormal (rsub 3 g) (sk v) sid (prid (n, true)) bn) as (sn & -> & T1 & T2 & T3).
    cbn [bind]. eexists. split; [reflexivity|]. rewrite (Hsk v Hv) in S1, T1.
    constructor; cbn [s_id s_signer s_verifier s_round s_comm s_tinfo s_echo_info s_echo s_normal s_tr fst snd]; auto.
    - exists echos', ps', arts'. auto.
    - unfold make_echo_info. cbn [ci_part part snd]. now rewrite S3.
    - split; auto.
    - split; auto.
    - split; auto. intros Hne. rewrite T3. unfold bn. rewrite Hne. exists x, (map_values (@to_signed_hash _ KEcho) (remove v echos')). repeat split; auto.
      intros w. rewrite get_map_values, get_remove. pose proof (Hall w) as Hw. cbn [fst snd negb andb option_map] in *.
      destruct (eqb_spec w v) as [Ewv|Hwv].
      { rewrite Ewv. destruct (mem v (pl_from h n v)) eqn:Em; [destruct (hr_from HL _ _ _ Hn Hv Em); congruence|reflexivity]. }
      cbn [orb] in Hw. destruct (mem w (pl_from h n v) && negb (is_none (pl_echo h n w)))%bool; cbn [fst snd negb andb option_map] in *.
      + destruct Hw as (p & -> & [G1 G2] & Hb). cbn [fst snd negb andb option_map] in *. eexists. split; [reflexivity|].
        split; [now apply shash_signed|]. cbn [to_signed_hash sh_meta sh_hash]. split; auto. rewrite Hb. reflexivity.
      + now rewrite Hw.
  Qed.

  (** ** Making messages *)
  Lemma make_ok v f s u : pvalid v f -> party v -> good_sess v f s -> mem u (dst f v) = true ->
    exists m, make_message s (nr_msg r v (prid f) u) u = Ok (m, (u, exp_art f v u)) /\ good_msg f v u m.
  Proof.
    intros Hf Hv G Hu. unfold make_message.
    assert (Hd : rd_mk_direct (s_round s) (rsub 0 (nr_msg r v (prid f) u)) u = Ok (good_direct f v u, exp_art f v u)).
    { pose proof (gs_round G) as Hr. destruct f as [n []]; unfold good_round, good_direct, exp_art, prid in *; simpl in *.
      - destruct Hr as (echos & ps & arts & -> & _). reflexivity.
      - rewrite Hr. simpl. destruct Hf as [Hn _]. now rewrite (hr_mk_direct HL n v u Hn Hv Hu). }
    rewrite Hd. cbn [bind]. unfold message_new. rewrite (gs_id G), (gs_signer G), (@good_rid v f s Hf Hv G).
    destruct (sign_total Hwire Hsig KDirect (rsub 1 (nr_msg r v (prid f) u)) (sk v) sid (prid f) (good_direct f v u)) as (sd & -> & S1 & S2 & S3).
    cbn [bind]. eexists. split; [reflexivity|]. rewrite (Hsk v Hv) in S1.
    pose proof (gs_echo G) as [E1 E2]. pose proof (gs_normal G) as [N1 N2]. pose proof (gs_bcast G) as B.
    unfold good_msg, message_authentic. cbn [msg_dest msg_direct msg_echo msg_normal]. repeat split; auto.
  Qed.

  (** ** Good accumulators *)
  Definition cnt_todo (todo : list VMessage) (u : Verifier) : nat := List.length (filter (fun m => eqb (vm_from m) u) todo).
  Record good_acc (v : Verifier) (f : phase) (a : Accum Pr) (todo : list VMessage) : Prop := {
    ga_expect : a_expect a = exp f v;
    ga_prov : a_provable a = empty;
    ga_unprov : a_unprovable a = empty;
    ga_waiting : forall u, mem u (a_waiting a) = (mem u (exp f v) && negb (contains u (a_payloads a)))%bool;
    ga_payload : forall u p, get u (a_payloads a) = Some p -> mem u (exp f v) = true /\ p = exp_payload f v u;
    ga_echo_in : forall u, contains u (a_payloads a) = true -> snd f = false -> pl_echo h (fst f) u <> None -> contains u (a_echo a) = true;
    ga_echo : forall u p, get u (a_echo a) = Some p -> snd f = false -> mem u (exp f v) = true /\ good_part f u p /\ sp_body p = pl_echo h (fst f) u /\ pl_echo h (fst f) u <> None;
    ga_art : forall u x, get u (a_artifacts a) = Some x -> mem u (dst f v) = true /\ x = exp_art f v u;
    ga_cached : forall u c rid m, get u (a_cached a) = Some c -> get rid c = Some m ->
      rid = prid (pnext v f) /\ pvalid v (pnext v f) /\ good_vm (pnext v f) u v m /\ mem u (exp (pnext v f) v) = true;
    ga_todo : forall m, In m todo -> good_vm f (vm_from m) v m /\ mem (vm_from m) (exp f v) = true;
    ga_proc : forall u, mem u (a_processing a) = true -> 1 <= cnt_todo todo u + b2n (contains u (a_payloads a))
  }.

  Lemma good_start v f s todo : good_sess v f s ->
    (forall m, In m todo -> good_vm f (vm_from m) v m /\ mem (vm_from m) (exp f v) = true) ->
    good_acc v f (make_accumulator s) todo.
  Proof.
    intros G Ht. unfold make_accumulator. rewrite (gs_comm G).
    constructor; cbn [a_expect a_provable a_unprovable a_waiting a_payloads a_echo a_artifacts a_cached a_processing ci_expect]; auto;
      try (intros; rewrite ?get_empty in *; discriminate).
    - intros u. rewrite contains_empty. now rewrite andb_true_r.
  Qed.

  Lemma not_banned v f s a todo u : good_sess v f s -> good_acc v f a todo -> ~ banned s a u.
  Proof.
    intros G A. unfold banned. rewrite (gt_prov (gs_tr G)), (gt_unprov (gs_tr G)), (ga_prov A), (ga_unprov A).
    intros [[e H]|[[e H]|[[e H]|[e H]]]]; rewrite get_empty in H; discriminate.
  Qed.

  Lemma simultaneous v f s : pvalid v f -> party v -> good_sess v f s -> pvalid v (pnext v f) ->
    exists acc, simultaneous_rounds (s_tinfo s) (match s_echo_info s with Some _ => true | None => false end) = Ok acc /\
      mem (prid (pnext v f)) acc = true.
  Proof.
    intros Hf Hv G Hnx. rewrite (gs_tinfo G), (gs_echo_info G). unfold simultaneous_rounds.
    destruct f as [n b]. pose proof Hf as [Hn Hb]. cbn [fst snd] in *. destruct b; cbn [negb andb bind].
    - eexists. split; [reflexivity|]. rewrite mem_union. apply orb_true_iff. right.
      unfold good_tinfo. cbn [fst snd ti_children]. unfold pnext in Hnx |- *. cbn [fst snd negb andb] in *. destruct Hnx as [Hnx _]. simpl in Hnx.
      unfold prid. cbn [fst snd]. apply (hr_next HL); auto.
    - destruct (echoes h n v) eqn:E.
      + rewrite (@good_id v (n, false) Hf Hv). unfold prid at 1. cbn [fst snd]. rewrite (echo_id Hn). cbn [bind].
        eexists. split; [reflexivity|]. rewrite !mem_union. apply orb_true_iff. left. apply orb_true_iff. left.
        apply mem_set_of_list. unfold pnext. cbn [fst snd negb andb]. rewrite E. now left.
      + eexists. split; [reflexivity|]. rewrite mem_union. apply orb_true_iff. right.
        unfold pnext in Hnx |- *. cbn [fst snd negb andb] in *. rewrite E in Hnx |- *. destruct Hnx as [Hnx _]. simpl in Hnx.
        unfold prid, good_tinfo. cbn [fst snd]. apply (hr_next HL); auto.
  Qed.

  Definition vm_of (u : Verifier) (m : Message) : VMessage := mkVMessage u (sp_meta (msg_direct m)) (msg_direct m) (msg_echo m) (msg_normal m).
  Lemma good_vm_of f u v m : good_msg f u v m -> good_vm f u v (vm_of u m).
  Proof.
    intros (Hd & (A1 & A2 & A3 & A4 & A5 & A6) & B & D). unfold good_vm, vmessage_authentic, vm_of; simpl. repeat split; auto.
  Qed.

  (** ** Receiving *)
  Lemma pre_this v f s a todo u m : pvalid v f -> party v -> good_sess v f s -> good_acc v f a todo -> good_msg f u v m ->
    cnt_todo todo u + b2n (contains u (a_payloads a)) = 0 ->
    preprocess_message s a u m = (set_processing a (sadd u (a_processing a)), Ok (ToProcess (vm_of u m))).
  Proof.
    intros Hf Hv G A M Hz. apply preprocess_accepts.
    - eapply not_banned; eauto.
    - rewrite (gs_id G), (@good_rid v f s Hf Hv G). apply M.
    - destruct (mem u (a_processing a)) eqn:E; auto. pose proof (ga_proc A _ E). lia.
    - rewrite (gs_echo_info G), (@good_rid v f s Hf Hv G). destruct f as [n []]; simpl; [congruence|]. intros _. unfold prid; simpl.
      apply (hr_plain HL). apply Hf.
  Qed.

  Lemma pre_next v f s a todo u m : pvalid v f -> party v -> good_sess v f s -> good_acc v f a todo -> pvalid v (pnext v f) ->
    good_msg (pnext v f) u v m -> message_is_cached a u (prid (pnext v f)) = false ->
    preprocess_message s a u m =
      (fst (cache_message a (vm_of u m)), Ok Cached).
  Proof.
    intros Hf Hv G A Hnx (Hd & (H1 & H2 & H3 & M1 & M2 & M3) & B & D) Hc.
    pose proof (@not_banned v f s a todo u G A) as Hb. apply banned_false in Hb.
    unfold preprocess_message. rewrite Hb.
    assert (Eu : unify_metadata m = Some (mkCMessage (sp_meta (msg_direct m)) (msg_direct m) (msg_echo m) (msg_normal m)))
      by (apply unify_metadata_ok; repeat split; congruence).
    rewrite Eu. cbn [cm_meta]. rewrite M1. cbn [m_session m_round]. rewrite (gs_id G), bytes_eqb_refl. cbn [negb].
    destruct (simultaneous Hf Hv G Hnx) as (acc & -> & Hacc). rewrite (@good_rid v f s Hf Hv G).
    destruct (eqb_spec (prid (pnext v f)) (prid f)) as [E|Hne].
    { apply (prid_eq Hnx Hf) in E. pose proof (prank_next v f). rewrite E in H. lia. }
    rewrite Hacc, Hc.
    rewrite (proj2 (verify_message_ok u _ (vm_of u m))) by (simpl; unfold vm_of; rewrite M1; auto).
    unfold cache_message, vm_of. cbn [vm_meta vm_from]. rewrite M1. cbn [m_round].
    unfold message_is_cached in Hc.
    destruct (get u (a_cached a)) as [c|]; [rewrite Hc|rewrite contains_empty]; reflexivity.
  Qed.

  Lemma receive_ok v f s u m : pvalid v f -> party v -> good_sess v f s -> good_vm f u v m -> mem u (exp f v) = true ->
    rd_receive (s_round s) u (mkDynMsg (sp_body (vm_echo m)) (sp_body (vm_normal m)) (sp_body (vm_direct m))) = Ok (exp_payload f v u).
  Proof.
    intros Hf Hv G (_ & _ & B & D) Hu. pose proof (gs_round G) as Hr. rewrite D.
    destruct f as [n []]; unfold good_round, good_bcast, good_direct, exp_payload, exp in *; cbn [fst snd] in *.
    - destruct Hf as [Hn Hb]. specialize (Hb eq_refl). cbn [fst snd] in *. rewrite Hb in Hu.
      destruct (hr_partners HL n v u Hn Hv Hb Hu) as (Hpu & Huv & Hbu & Hvu).
      destruct Hr as (echos & ps & arts & -> & Hall & _). destruct B as (-> & B).
      destruct B as (x & msg & -> & Hx & Hmap).
      { unfold dst. cbn [fst snd]. rewrite Hbu. destruct (is_empty (partners h n u)) eqn:Ee; auto. pose proof (proj1 (is_empty_get _) Ee v) as Ev.
        apply contains_false in Ev. unfold mem in Hvu. congruence. }
      cbn [rd_receive]. unfold echo_receive. cbn [dm_echo dm_direct dm_normal is_none negb body_echo_msg]. rewrite Hx.
      cbn [ei_echos einfo].
      pose proof (fun w => hr_echoed HL n v u w Hn Hv Hb Hu) as Hset. set (S := srem u (echoed h n v)) in *.
      assert (Hkeys : forall w, mem w (keyset msg) = mem w S).
      { intros w. rewrite mem_keyset, Hset. specialize (Hmap w). destruct (mem w (pl_from h n u) && negb (is_none (pl_echo h n w)))%bool.
        - destruct Hmap as (y & Hy & _). apply contains_get; eauto.
        - now apply contains_false. }
      assert (Hd : is_empty (diff S (keyset msg)) = true /\ is_empty (diff (keyset msg) S) = true).
      { split; apply is_empty_get; intros w; apply contains_false; apply (eq_trans (mem_diff w _ _)); rewrite Hkeys; now destruct (mem w S). }
      destruct Hd as [-> ->]. cbn [negb].
      assert (Hit : iter_res (check_echo echos) (to_list msg) = Ok tt).
      { apply iter_res_ok. intros [w y] Hin. apply in_to_list in Hin. specialize (Hmap w). specialize (Hset w).
        destruct (mem w (pl_from h n u) && negb (is_none (pl_echo h n w)))%bool eqn:E; [|congruence]. apply andb_true_iff in E as [_ Hw].
        destruct Hmap as (y' & Hy & Hs & Hm & Hh). rewrite Hy in Hin. inv Hin.
        assert (Hin : (eqb w v || (mem w (pl_from h n v) && negb (is_none (pl_echo h n w))))%bool = true).
        { rewrite Hw, andb_true_r. unfold S in Hset. rewrite mem_rem in Hset. apply andb_true_iff in Hset as [_ Hset].
          unfold echoed in *. apply orb_true_iff. destruct (pl_part h n v); rewrite ?mem_add in *; try (now apply orb_true_iff); now right. }
        pose proof (Hall w) as Hpw. rewrite Hin in Hpw. destruct Hpw as (p & Hp & [_ Hpm] & Hpb).
        unfold check_echo. rewrite Hp. rewrite (proj2 (verify_shash_ok w y y) (conj eq_refl Hs)).
        rewrite Hm, Hpm. unfold prid. cbn [fst snd]. rewrite meta_eqb_refl. cbn [negb].
        unfold is_hash_of. rewrite Hh, Hpb, <- content_hash_eq, bytes_eqb_refl. reflexivity. }
      rewrite Hit. reflexivity.
    - destruct B as [-> ->]. rewrite Hr. simpl. destruct Hf as [Hn _]. now rewrite (hr_receive HL n v u Hn Hv Hu).
  Qed.

  Definition a_done (a : Accum Pr) (u : Verifier) (p : SPayload Pr) (m : VMessage) : Accum Pr :=
    mkAccum (srem u (a_waiting a)) (a_expect a) (a_processing a) (insert u p (a_payloads a)) (a_artifacts a) (a_cached a)
      (ins_part u (vm_echo m) (a_echo a)) (ins_part u (vm_normal m) (a_normal a)) (ins_part u (vm_direct m) (a_direct a))
      (a_provable a) (a_unprovable a).
  Lemma proc_ok v f s a todo u m : pvalid v f -> party v -> good_sess v f s -> good_acc v f a todo -> good_vm f u v m ->
    mem u (exp f v) = true -> contains u (a_payloads a) = false ->
    add_processed s a (process_message s m) = (a_done a u (exp_payload f v u) m, Ok tt).
  Proof.
    intros Hf Hv G A M Hu Hc. pose proof (proj1 M) as Efrom.
    unfold add_processed, process_message. cbn [pm_msg pm_res]. rewrite Efrom, Hc, (ga_waiting A), Hu, Hc. cbn [andb negb].
    rewrite (receive_ok Hf Hv G M Hu). reflexivity.
  Qed.

  (** ** Finalizing *)
  Lemma yes_complete v f a todo : good_acc v f a todo -> can_finalize a = Yes ->
    forall u, mem u (exp f v) = true -> contains u (a_payloads a) = true.
  Proof.
    intros A H u Hu. unfold can_finalize in H. destruct (forallb _ _) eqn:E; [|destruct (negb _); discriminate].
    rewrite forallb_forall in E. apply E. apply in_elements. now rewrite (ga_expect A).
  Qed.
  Lemma complete_yes v f a todo : good_acc v f a todo ->
    (forall u, mem u (exp f v) = true -> contains u (a_payloads a) = true) -> can_finalize a = Yes.
  Proof.
    intros A H. unfold can_finalize.
    rewrite (proj2 (forallb_forall _ _)); auto. intros u Hu. apply H. apply in_elements in Hu. now rewrite (ga_expect A) in Hu.
  Qed.
  Lemma never_never v f a todo : good_acc v f a todo -> can_finalize a <> Never.
  Proof.
    intros A. unfold can_finalize. destruct (forallb _ _) eqn:E; [discriminate|].
    destruct (is_empty (a_waiting a)) eqn:Ew; [|discriminate]. exfalso.
    rewrite (proj2 (forallb_forall _ _)) in E; [discriminate|]. intros u Hu. apply in_elements in Hu. rewrite (ga_expect A) in Hu.
    destruct (contains u (a_payloads a)) eqn:Ec; auto. exfalso.
    pose proof (ga_waiting A u) as Hw. rewrite Hu, Ec in Hw. cbn [andb negb] in Hw. apply contains_get in Hw as [x Hx].
    rewrite is_empty_get in Ew. congruence.
  Qed.

  Lemma merge_empty {V} e (m : bmap Verifier V) : merge_new e m empty = Ok m.
  Proof. reflexivity. Qed.

  Lemma close_ok v f s a todo : pvalid v f -> party v -> good_sess v f s -> good_acc v f a todo -> can_finalize a = Yes ->
    exists t, close_round s a = Ok t /\ good_tr (pnext v f) t /\ get (prid f) (tr_echo t) = Some (insert v (s_echo s) (a_echo a)).
  Proof.
    intros Hf Hv G A Hy. pose proof (gs_tr G) as T.
    assert (Hno : contains (prid f) (tr_echo (s_tr s)) = false /\ contains (prid f) (tr_normal (s_tr s)) = false /\ contains (prid f) (tr_direct (s_tr s)) = false).
    { assert (K : forall b, b = true -> b = (contains (prid f) (tr_echo (s_tr s)) || contains (prid f) (tr_normal (s_tr s)) || contains (prid f) (tr_direct (s_tr s)))%bool -> False).
      { intros b Hb E. rewrite Hb in E. destruct (gt_old T (prid f) (eq_sym E)) as (g & Hg & Hlt & Eg). apply prid_inj in Eg; auto; [|apply Hf]. subst g. lia. }
      destruct (contains (prid f) (tr_echo (s_tr s))); [exfalso; eapply K; eauto|].
      destruct (contains (prid f) (tr_normal (s_tr s))); [exfalso; eapply K; eauto|].
      destruct (contains (prid f) (tr_direct (s_tr s))); [exfalso; eapply K; eauto|]. auto. }
    destruct Hno as (N1 & N2 & N3).
    assert (Hw : is_empty (a_waiting a) = true).
    { apply is_empty_get. intros u. apply contains_false. change (mem u (a_waiting a) = false). rewrite (ga_waiting A).
      destruct (mem u (exp f v)) eqn:E; auto. now rewrite (yes_complete A Hy u E). }
    unfold close_round, tr_update. rewrite (@good_rid v f s Hf Hv G), N1. cbn [bind]. rewrite N2. cbn [bind]. rewrite N3. cbn [bind].
    rewrite (ga_prov A), (ga_unprov A), !merge_empty. cbn [bind]. rewrite (gt_missing T), contains_empty, Hw. cbn [bind].
    eexists. split; [reflexivity|]. rewrite (gs_verifier G). split.
    - constructor; cbn [tr_provable tr_unprovable tr_missing tr_echo tr_normal tr_direct].
      + apply (gt_prov T).
      + apply (gt_unprov T).
      + reflexivity.
      + intros rid. rewrite !contains_insert. destruct (eqb_spec rid (prid f)) as [->|Hne].
        * intros _. exists f. split; [apply Hf|]. split; auto. apply prank_next.
        * simpl. intros H. destruct (gt_old T rid H) as (g & Hg & Hlt & Eg). exists g. repeat split; try apply Hg; auto.
          pose proof (prank_next v f). lia.
    - cbn [tr_echo]. apply get_insert_eq.
  Qed.

  Lemma downcast_ok {A B} (f : A -> res LocalError B) (m : bmap Verifier A) dom (g : Verifier -> B) (w : Verifier -> A) :
    is_map m dom w -> (forall u, f (w u) = Ok (g u)) -> exists m', downcast f m = Ok m' /\ is_map m' dom g.
  Proof.
    intros Hm Hf. unfold downcast.
    assert (H : forall l, (forall u x, In (u, x) l -> x = w u) ->
      map_res (fun kv => let* y := f (snd kv) in Ok (fst kv, y)) l = Ok (map (fun kv => (fst kv, g (fst kv))) l)).
    { induction l as [|[u x] l IH]; intros Hl; simpl; auto. rewrite (Hl u x (or_introl eq_refl)), Hf. simpl.
      rewrite IH; auto. intros u' x' Hin. apply Hl. now right. }
    rewrite H.
    2:{ intros u x Hin. apply in_to_list in Hin. rewrite (Hm u) in Hin. destruct (mem u dom); congruence. }
    cbn [bind]. eexists. split; [reflexivity|]. intros u.
    assert (Hk : map fst (map (fun kv : Verifier * A => (fst kv, g (fst kv))) (to_list m)) = keys m).
    { rewrite map_map. reflexivity. }
    pose proof (Hm u) as Hu. destruct (mem u dom) eqn:E.
    - apply get_of_list_nodup; [rewrite Hk; apply NoDup_keys|]. apply in_map_iff. exists (u, w u). split; auto. now apply in_to_list.
    - apply get_of_list_none. rewrite Hk, in_keys. apply contains_false in Hu. congruence.
  Qed.

  Lemma payloads_map v f a todo : good_acc v f a todo -> can_finalize a = Yes -> is_map (a_payloads a) (exp f v) (exp_payload f v).
  Proof.
    intros A Hy u. destruct (mem u (exp f v)) eqn:E.
    - pose proof (yes_complete A Hy u E) as Hc. apply contains_get in Hc as [p Hp]. rewrite Hp. now destruct (ga_payload A u Hp) as [_ ->].
    - destruct (get u (a_payloads a)) eqn:Hp; auto. destruct (ga_payload A u Hp). congruence.
  Qed.
  Lemma artifacts_map v f (s : Session Pr) a todo : good_sess v f s -> good_acc v f a todo -> all_sent (DS s a todo) = true ->
    is_map (a_artifacts a) (dst f v) (exp_art f v).
  Proof.
    intros G A Hs u. unfold all_sent in Hs. cbn [d_a d_s] in Hs. unfold message_destinations in Hs. rewrite (gs_comm G) in Hs. cbn [ci_dest] in Hs.
    rewrite forallb_forall in Hs. destruct (mem u (dst f v)) eqn:E.
    - pose proof (Hs u (proj2 (in_elements u _) E)) as Hc. apply contains_get in Hc as [p Hp]. rewrite Hp. now destruct (ga_art A u Hp) as [_ ->].
    - destruct (get u (a_artifacts a)) eqn:Hp; auto. destruct (ga_art A u Hp). congruence.
  Qed.

  (** What the protocol answers at the end of a round. *)
  Lemma rd_finalize_ok v f s a todo : pvalid v f -> party v -> good_sess v f s -> good_acc v f a todo -> can_finalize a = Yes ->
    all_sent (DS s a todo) = true -> s_echo_info s = None ->
    prid f = final_rid h (fst f) v /\
    rd_finalize (s_round s) (rsub 0 (nr_fin r v (prid f))) (a_payloads a) (a_artifacts a) =
      Ok (if Nat.ltb (fst f) N then AnotherRound (pl_state h (S (fst f)) v) else Finished_ (pl_result h v)).
  Proof.
    intros Hf Hv G A Hy Hs He. pose proof (gs_round G) as Hr. rewrite (gs_echo_info G) in He.
    pose proof (payloads_map A Hy) as Hp. pose proof (artifacts_map G A Hs) as Ha.
    assert (Hid : prid f = final_rid h (fst f) v).
    { unfold prid, final_rid. destruct Hf as [_ Hb]. destruct (snd f); [now rewrite Hb|]. simpl in He.
      now destruct (echoes h (fst f) v). }
    split; auto. rewrite Hid.
    destruct f as [n b]. unfold good_round, exp, dst, exp_payload, exp_art in *. cbn [fst snd] in *. pose proof Hf as [Hn _]. cbn [fst] in Hn.
    assert (K : forall ps arts, is_map ps (pl_from h n v) (fun u => PVal (pl_payload h n v u)) ->
       is_map arts (pl_dest h n v) (fun u => AVal (pl_artifact h n v u)) ->
       rd_finalize (RMain (pl_state h n v)) (rsub 0 (nr_fin r v (final_rid h n v))) ps arts =
       Ok (if Nat.ltb n N then AnotherRound (pl_state h (S n) v) else Finished_ (pl_result h v))).
    { intros ps arts Hps Harts. cbn [rd_finalize].
      destruct (downcast_ok (down_payload (Pr := Pr)) (fun u => pl_payload h n v u) Hps (fun u => eq_refl)) as (ps' & -> & Hps').
      destruct (downcast_ok (down_artifact (Pr := Pr)) (fun u => pl_artifact h n v u) Harts (fun u => eq_refl)) as (arts' & -> & Harts').
      cbn [bind]. now apply (hr_finalize HL). }
    destruct b.
    - destruct Hr as (echos & ps & arts & -> & _ & Hps & Harts). cbn [rd_finalize]. now apply K.
    - rewrite Hr. now apply K.
  Qed.

  Lemma all_echos_ok v n s a todo : good_sess v (n, false) s -> good_acc v (n, false) a todo -> can_finalize a = Yes ->
    all_echos n v (insert v (s_echo s) (a_echo a)).
  Proof.
    intros G A Hy w. cbn [fst]. rewrite get_insert. destruct (eqb_spec w v) as [->|Hne]; cbn [orb].
    - eexists. split; [reflexivity|]. split; [apply (gs_echo G)|]. apply (proj1 (gs_bcast G)).
    - destruct (mem w (pl_from h n v)) eqn:Hw; cbn [andb].
      + pose proof (yes_complete A Hy w Hw) as Hc. destruct (is_none (pl_echo h n w)) eqn:En'; cbn [negb].
        * destruct (get w (a_echo a)) eqn:Ew; auto. destruct (ga_echo A w Ew eq_refl) as (_ & _ & Eb & Hsome).
           cbn [fst] in Hsome. destruct (pl_echo h n w); [discriminate|congruence].
        * assert (Hne' : pl_echo h n w <> None) by (intros Ew; now rewrite Ew in En').
           pose proof (ga_echo_in A w Hc eq_refl Hne') as Hce. apply contains_get in Hce as [p Hp].
           exists p. split; auto. destruct (ga_echo A w Hp eq_refl) as (_ & H1 & H2 & _). auto.
      + destruct (get w (a_echo a)) eqn:Ew; auto. destruct (ga_echo A w Ew eq_refl) as [H _]. unfold exp in H. cbn [fst snd] in H. congruence.
  Qed.

  Lemma fin_ok v f s a todo : pvalid v f -> party v -> good_sess v f s -> good_acc v f a todo -> can_finalize a = Yes ->
    all_sent (DS s a todo) = true ->
    (pvalid v (pnext v f) /\ exists s', finalize_round s (nr_fin r v (prid f)) a = Ok (ROAnother s' (filter_messages (a_cached a) (prid (pnext v f)))) /\
       good_sess v (pnext v f) s') \/
    (pnext v f = (S N, false) /\ exists rep, finalize_round s (nr_fin r v (prid f)) a = Ok (ROFinished rep) /\
       rep_outcome rep = OResult (pl_result h v) /\ no_errors (Ended rep)).
  Proof.
    intros Hf Hv G A Hy Hs. destruct (close_ok Hf Hv G A Hy) as (t & Et & Ht & Hecho).
    unfold finalize_round. rewrite Et. cbn [bind].
    destruct (s_echo_info s) as [info|] eqn:Ei.
    - left. pose proof Ei as Ei'. rewrite (gs_echo_info G) in Ei'. destruct f as [n b]. cbn [fst snd] in *.
      destruct b; [discriminate|]. destruct (echoes h n v) eqn:Ee; [|discriminate]. cbn [negb andb] in Ei'. inv Ei'.
      pose proof Hf as [Hn _]. cbn [fst] in Hn.
      assert (En : pnext v (n, false) = (n, true)) by (unfold pnext; cbn [fst snd negb andb]; now rewrite Ee). rewrite En in *.
      split; [split; auto|].
      unfold tr_echo_broadcasts. rewrite (@good_rid v _ s Hf Hv G), Hecho. cbn [ok_or bind].
      pose proof (gs_round G) as Hr. unfold good_round in Hr. cbn [fst snd] in Hr. rewrite Hr, (gs_verifier G), (gs_id G), (gs_signer G).
      assert (Hgr : good_round v (n, true) (REcho v (insert v (s_echo s) (a_echo a)) (einfo n v) (RMain (pl_state h n v)) (a_payloads a) (a_artifacts a))).
      { exists (insert v (s_echo s) (a_echo a)), (a_payloads a), (a_artifacts a). split; auto. split; [|split].
        - exact (all_echos_ok G A Hy).
        - exact (payloads_map A Hy).
        - exact (artifacts_map G A Hs). }
      rewrite (@good_round_tinfo v (n, true) _ (conj Hn (fun _ => Ee)) Hv Hgr). cbn [bind].
      rewrite (@good_id v (n, true) (conj Hn (fun _ => Ee)) Hv).
      destruct (@new_echo n v t (rsub 1 (nr_fin r v (prid (n, false)))) _ _ _ Hn Ee Hv Ht Hgr) as (s' & -> & Hs').
      cbn [bind]. eauto.
    - destruct (rd_finalize_ok Hf Hv G A Hy Hs Ei) as [Hid ->]. cbn [bind].
      rewrite (gs_echo_info G) in Ei.
      assert (En : pnext v f = (S (fst f), false)).
      { unfold pnext. destruct (negb (snd f) && echoes h (fst f) v)%bool; [discriminate|reflexivity]. }
      rewrite En in *. destruct (Nat.ltb_spec (fst f) N) as [Hlt|Hge].
      + left. split; [split; cbn [fst snd]; [lia|discriminate]|].
        rewrite (hr_id HL (S (fst f)) v) by (auto; lia).
        assert (Hch : mem (R (S (fst f))) (ti_children (s_tinfo s)) = true).
        { rewrite (gs_tinfo G). unfold good_tinfo. destruct (snd f); apply (hr_next HL); auto. }
        rewrite Hch. cbn [negb]. rewrite (gs_id G), (gs_signer G).
        assert (Hr' : nr_fin r v (prid f) = entry_rng r h (S (fst f)) v) by (simpl; now rewrite Hid). rewrite Hr'.
        destruct (@new_main (S (fst f)) v t Hlt Hv Ht) as (s' & -> & Hs'). cbn [bind]. exists s'. split; auto.
        f_equal. f_equal. unfold prid. cbn [fst snd].
        assert (Hfl : forall l : list VMessage, filter (fun m => negb (tr_is_banned t (vm_from m))) l = l).
        { intros l. induction l as [|m l IH]; simpl; auto. unfold tr_is_banned at 1. rewrite (gt_prov Ht), (gt_unprov Ht), !contains_empty. cbn [orb negb]. now rewrite IH. }
        apply Hfl.
      + right. assert (fst f = N) by (destruct Hf; lia). split; [congruence|]. eexists. split; [reflexivity|]. split; [reflexivity|].
        simpl. rewrite (gt_prov Ht), (gt_unprov Ht), (gt_missing Ht). auto.
  Qed.

  (** ** The invariant of the network *)
  Definition cnt_fl (l : list (Verifier * Message)) (u v : Verifier) (rid : RoundId) : nat :=
    List.length (filter (fun x => (eqb (fst x) u && eqb (msg_dest (snd x)) v && eqb (m_round (sp_meta (msg_direct (snd x)))) rid)%bool) l).
  Definition arts_of (net : Net Pr) (v : Verifier) : bmap Verifier (SArtifact Pr) :=
    match get v (nodes net) with Some (Running d) => a_artifacts (d_a d) | _ => empty end.
  Definition sent (net : Net Pr) (ph : Verifier -> phase) (u : Verifier) (g : phase) (v : Verifier) : bool :=
    if Nat.ltb (prank g) (prank (ph u)) then mem v (dst g u)
    else if Nat.eqb (prank g) (prank (ph u)) then contains v (arts_of net u) else false.
  Definition held (net : Net Pr) (ph : Verifier -> phase) (v : Verifier) (g : phase) (u : Verifier) : nat :=
    match get v (nodes net) with
    | Some (Running d) =>
        if Nat.eqb (prank g) (prank (ph v)) then cnt_todo (d_todo d) u + b2n (contains u (a_payloads (d_a d)))
        else if Nat.eqb (prank g) (prank (pnext v (ph v))) then b2n (message_is_cached (d_a d) u (prid g)) else 0
    | _ => 0
    end.
  Record NInv (net : Net Pr) (ph : Verifier -> phase) : Prop := {
    ni_none : forall v, mem v parties = false -> get v (nodes net) = None;
    ni_node : forall v, party v -> match get v (nodes net) with
      | Some (Running d) => pvalid v (ph v) /\ good_sess v (ph v) (d_s d) /\ good_acc v (ph v) (d_a d) (d_todo d)
      | Some (Ended rep) => ph v = (S N, false) /\ rep_outcome rep = OResult (pl_result h v) /\ no_errors (Ended rep)
      | None => False
      end;
    ni_flight : forall u m, In (u, m) (flight net) -> exists g, fst g <= N /\ party u /\ good_msg g u (msg_dest m) m /\ mem (msg_dest m) (dst g u) = true;
    ni_count : forall u v g, party u -> party v -> pvalid v g ->
      cnt_fl (flight net) u v (prid g) + held net ph v g u = if Nat.leb (prank (ph v)) (prank g) then b2n (sent net ph u g v) else 0;
    ni_sync : forall u v g, party u -> party v -> pvalid v g -> prank g < prank (ph v) -> mem u (exp g v) = true -> sent net ph u g v = true
  }.

  Arguments ni_count {net ph} _ u v {g} _ _ _.
  Arguments ni_sync {net ph} _ u v {g} _ _ _ _ _.

  Lemma phase_ok net ph v : NInv net ph -> party v -> pvalid v (ph v) \/ ph v = (S N, false).
  Proof. intros I Hv. pose proof (ni_node I v Hv) as H. destruct (get v (nodes net)) as [[d|rep]|]; tauto. Qed.

  Lemma sent_dst net ph u g v : NInv net ph -> party u -> sent net ph u g v = true -> mem v (dst g u) = true /\ prank g <= prank (ph u).
  Proof.
    intros I Hu. unfold sent. destruct (Nat.ltb_spec (prank g) (prank (ph u))); [split; auto; lia|].
    destruct (Nat.eqb_spec (prank g) (prank (ph u))) as [E|]; [|discriminate]. intros H'. split; [|lia].
    apply prank_inj in E. subst g. unfold arts_of in H'. pose proof (ni_node I u Hu) as Hn.
    destruct (get u (nodes net)) as [[d|rep]|]; try (rewrite contains_empty in H'; discriminate).
    destruct Hn as (_ & _ & A). apply contains_get in H' as [x Hx]. now destruct (ga_art A v Hx).
  Qed.

  Lemma next_mono v f g : pvalid v f -> pvalid v g \/ g = (S N, false) -> prank f <= prank g -> prank (pnext v f) <= prank (pnext v g).
  Proof.
    intros Hf Hg Hle. destruct (Nat.eq_dec (prank f) (prank g)) as [E|Hne].
    - apply prank_inj in E. now subst.
    - assert (prank (pnext v f) <= prank g) by (apply prank_between; auto; lia). pose proof (prank_next v g). lia.
  Qed.

  Lemma before_rank g g' : before g g' <-> prank g < prank g'.
  Proof. destruct g as [n []], g' as [k []]; unfold before, prank; simpl; split; intros; try lia; destruct H as [|(? & ? & ?)]; try lia; discriminate. Qed.
  Lemma exp_valid g v u : fst g <= N -> mem u (exp g v) = true -> pvalid v g.
  Proof. destruct g as [n []]; unfold exp; cbn [fst snd]; intros Hn H; split; auto; [|discriminate]. intros _. cbn [fst]. now destruct (echoes h n v). Qed.

  (** Who has certainly reached a phase has reached it. *)
  Lemma certain_reached net ph v g u q : NInv net ph -> certain h v g u q -> fst g <= N -> party v -> prank g <= prank (ph v) -> prank q <= prank (ph u).
  Proof.
    intros I H. induction H as [v g u|v g q E|v g g' w u q B E H IH]; intros Hn Hv Hle.
    - unfold prank at 1. simpl. lia.
    - destruct E as [->|E]; [exact Hle|]. apply before_rank in E. lia.
    - assert (Hn' : fst g' <= N) by (destruct B as [|(? & _)]; lia). apply before_rank in B. change (expects h g' v) with (exp g' v) in E.
      assert (Hw : party w) by exact (proj1 (@exp_party g' v w Hn' Hv E)). apply IH; auto.
      assert (Hs : sent net ph w g' v = true) by (apply (ni_sync I w v Hw Hv (@exp_valid g' v w Hn' E)); auto; lia). now apply (sent_dst w g' v I Hw) in Hs.
  Qed.

  (** The message is for the receiver's phase or its next one. *)
  Definition timely (net : Net Pr) (ph : Verifier -> phase) (i : nat) : Prop := forall u m rest g,
    take_nth i (flight net) = Some ((u, m), rest) -> fst g <= N -> m_round (sp_meta (msg_direct m)) = prid g ->
    prank g <= prank (pnext (msg_dest m) (ph (msg_dest m))).

  (** ** Lists *)
  Lemma take_nth_spec {A} i (l : list A) x rest : take_nth i l = Some (x, rest) -> exists l1 l2, l = l1 ++ x :: l2 /\ rest = l1 ++ l2.
  Proof.
    revert l rest. induction i as [|i IH]; intros [|y l] rest H; simpl in H; try discriminate.
    - inv H. exists [], rest. auto.
    - destruct (take_nth i l) as [[z l']|] eqn:E; [|discriminate]. inv H. destruct (IH _ _ E) as (l1 & l2 & -> & ->).
      exists (y :: l1), l2. auto.
  Qed.

  Lemma cnt_fl_app l1 l2 u v rid : cnt_fl (l1 ++ l2) u v rid = cnt_fl l1 u v rid + cnt_fl l2 u v rid.
  Proof. unfold cnt_fl. now rewrite filter_app, app_length. Qed.
  Lemma cnt_fl_one x m u v rid :
    cnt_fl [(x, m)] u v rid = b2n (eqb x u && eqb (msg_dest m) v && eqb (m_round (sp_meta (msg_direct m))) rid).
  Proof. unfold cnt_fl. simpl. now destruct (_ && _ && _)%bool. Qed.
  Lemma cnt_todo_app l1 l2 u : cnt_todo (l1 ++ l2) u = cnt_todo l1 u + cnt_todo l2 u.
  Proof. unfold cnt_todo. now rewrite filter_app, app_length. Qed.
  Lemma cnt_todo_cons m l u : cnt_todo (m :: l) u = b2n (eqb (vm_from m) u) + cnt_todo l u.
  Proof. unfold cnt_todo. simpl. now destruct (eqb (vm_from m) u). Qed.

  Lemma cnt_cached (c : bmap Verifier (bmap RoundId VMessage)) rid u :
    (forall k x m, get k c = Some x -> get rid x = Some m -> vm_from m = k) ->
    cnt_todo (filter_messages c rid) u = b2n (match get u c with Some x => contains rid x | None => false end).
  Proof.
    intros Hc. unfold filter_messages.
    assert (K : forall l, NoDup (map fst l) -> (forall k x m, In (k, x) l -> get rid x = Some m -> vm_from m = k) ->
      cnt_todo (flat_map (fun kv : Verifier * bmap RoundId VMessage => match get rid (snd kv) with Some m => [m] | None => [] end) l) u
      = b2n (existsb (fun kv => eqb (fst kv) u && contains rid (snd kv))%bool l)).
    { induction l as [|[k x] l IH]; intros Hnd Hl; auto. cbn [flat_map existsb fst snd]. inv Hnd. rewrite cnt_todo_app, IH; auto.
      2:{ intros k' x' m' Hin. apply Hl. now right. }
      assert (Hout : k = u -> existsb (fun kv : Verifier * bmap RoundId VMessage => (eqb (fst kv) u && contains rid (snd kv))%bool) l = false).
      { intros ->. apply not_true_iff_false. intros Hex. apply existsb_exists in Hex as ([k' x'] & Hin & Hk). apply andb_true_iff in Hk as [Hk _].
        cbn [fst] in Hk. apply (proj1 (eqb_eq _ _)) in Hk. subst k'. apply H1. apply in_map_iff. exists (u, x'). auto. }
      destruct (get rid x) as [m|] eqn:Em.
      - assert (contains rid x = true) as -> by (apply contains_get; eauto). rewrite andb_true_r.
        rewrite cnt_todo_cons. rewrite (Hl k x m (or_introl eq_refl) Em). cbn [cnt_todo filter List.length].
        destruct (eqb_spec k u) as [E|]; [rewrite (Hout E)|]; simpl; auto.
      - assert (contains rid x = false) as -> by now apply contains_false. rewrite andb_false_r. reflexivity. }
    rewrite K; [|apply (NoDup_keys c)|intros k x m Hin; apply in_to_list in Hin; now apply Hc].
    f_equal. apply eq_true_iff_eq. rewrite existsb_exists. split.
    - intros ([k x] & Hin & Hk). apply andb_true_iff in Hk as [Hk Hx]. cbn [fst snd] in *. apply (proj1 (eqb_eq _ _)) in Hk. subst k.
      apply in_to_list in Hin. now rewrite Hin.
    - destruct (get u c) as [x|] eqn:E; [|discriminate]. intros Hx. exists (u, x). split; [now apply in_to_list|]. simpl. now rewrite eqb_refl, Hx.
  Qed.

  (** ** A measure for termination *)
  Definition unsent (d : DState Pr) : nat :=
    List.length (filter (fun u => negb (contains u (a_artifacts (d_a d)))) (elements (message_destinations (d_s d)))).
  Definition weight (nd : option (Node Pr)) : nat :=
    match nd with Some (Running d) => 3 * unsent d + List.length (d_todo d) | _ => 0 end.
  Definition total (f : Verifier -> nat) : nat := list_sum (map f (elements parties)).
  Definition mu (net : Net Pr) : nat := total (fun v => weight (get v (nodes net))) + 2 * List.length (flight net).

  Lemma total_change f f' v : party v -> (forall w, w <> v -> f' w = f w) -> total f' + f v = total f + f' v.
  Proof.
    intros Hv Hne. unfold total. assert (Hin : In v (elements parties)) by now apply in_elements.
    pose proof (NoDup_elements parties) as Hnd. revert Hin Hnd. generalize (elements parties). induction l as [|w l IH]; intros Hin Hnd; [contradiction|].
    cbn [map list_sum fold_right]. inv Hnd. destruct (ord_dec w v) as [->|Hw].
    - assert (E : map f' l = map f l). { apply map_ext_in. intros x Hx. apply Hne. intros ->. contradiction. }
      unfold list_sum in *. rewrite E. lia.
    - destruct Hin as [|Hin]; [congruence|]. specialize (IH Hin H2). unfold list_sum in *. rewrite (Hne w Hw). lia.
  Qed.

  Lemma mu_change net v nd fl : party v ->
    mu (mkNet (insert v nd (nodes net)) fl) + weight (get v (nodes net)) + 2 * List.length (flight net) =
    mu net + weight (Some nd) + 2 * List.length fl.
  Proof.
    intros Hv. unfold mu. cbn [nodes flight].
    pose proof (@total_change (fun w => weight (get w (nodes net))) (fun w => weight (get w (insert v nd (nodes net)))) v Hv) as K.
    cbv beta in K. rewrite get_insert_eq in K. assert (Hne : forall w, w <> v -> weight (get w (insert v nd (nodes net))) = weight (get w (nodes net))) by (intros w Hw; now rewrite get_insert_ne). specialize (K Hne). lia.
  Qed.

  Lemma unsent_insert s a todo u x : mem u (message_destinations s) = true -> contains u (a_artifacts a) = false ->
    S (unsent (DS s (set_artifacts a (insert u x (a_artifacts a))) todo)) = unsent (DS s a todo).
  Proof.
    intros Hd Hc. unfold unsent. cbn [d_a d_s a_artifacts set_artifacts].
    pose proof (NoDup_elements (message_destinations s)) as Hnd. apply in_elements in Hd. revert Hd Hnd.
    generalize (elements (message_destinations s)). induction l as [|w l IH]; intros Hin Hnd; [contradiction|].
    inv Hnd. cbn [filter]. rewrite contains_insert. destruct (eqb_spec w u) as [->|Hw].
    - cbn [orb negb]. rewrite Hc. cbn [negb List.length]. f_equal. f_equal. apply filter_ext_in. intros y Hy. rewrite contains_insert.
      assert (Hne : y <> u) by (intros ->; contradiction). apply eqb_neq in Hne. now rewrite Hne.
    - destruct Hin as [|Hin]; [congruence|]. specialize (IH Hin H2). cbn [orb]. destruct (negb (contains w (a_artifacts a))); cbn [List.length]; lia.
  Qed.

  (** ** Actions preserve the invariant *)
  Lemma arts_of_insert net v nd fl w :
    arts_of (mkNet (insert v nd (nodes net)) fl) w = if eqb w v then match nd with Running d => a_artifacts (d_a d) | _ => empty end else arts_of net w.
  Proof. unfold arts_of. cbn [nodes]. rewrite get_insert. now destruct (eqb w v). Qed.

  Lemma step_send net ph v u res : NInv net ph -> act r net (ASend v u) = Some res ->
    exists net', res = Ok net' /\ NInv net' ph /\ mu net' < mu net.
  Proof.
    intros I Hact. cbn [act] in Hact. destruct (mem v parties) eqn:Hv; [|rewrite (ni_none I v Hv) in Hact; discriminate].
    pose proof (ni_node I v Hv) as Hnode. destruct (get v (nodes net)) as [[d|rep]|] eqn:Ev; try discriminate.
    destruct Hnode as (Hf & G & A). destruct (mem u (message_destinations (d_s d)) && negb (contains u (a_artifacts (d_a d))))%bool eqn:E; [|discriminate].
    apply andb_true_iff in E as [Hd Hc]. apply negb_true_iff in Hc. unfold message_destinations in Hd. rewrite (gs_comm G) in Hd. cbn [ci_dest] in Hd.
    rewrite (@good_rid v _ _ Hf Hv G) in Hact. destruct (@make_ok v (ph v) (d_s d) u Hf Hv G Hd) as (m & Hm & Gm). rewrite Hm in Hact. cbn [bind] in Hact.
    unfold add_artifact in Hact. cbn [fst snd] in Hact. rewrite Hc in Hact. cbn [with_accum bind] in Hact. inv Hact.
    eexists. split; [reflexivity|].
    assert (Hu : party u /\ u <> v) by exact (@dst_party (ph v) v u (pv Hf) Hv Hd). destruct Hu as [Hu Huv].
    set (a' := set_artifacts (d_a d) (insert u (exp_art (ph v) v u) (a_artifacts (d_a d)))) in *.
    set (net' := mkNet _ _).
    split.
    2:{ pose proof (@mu_change net v (Running (DS (d_s d) a' (d_todo d))) (flight net ++ [(v, m)]) Hv) as Hmu. fold net' in Hmu.
        rewrite Ev, app_length in Hmu. cbn [weight d_todo List.length] in Hmu.
        assert (Hdd : mem u (message_destinations (d_s d)) = true) by (unfold message_destinations; now rewrite (gs_comm G)).
        pose proof (@unsent_insert (d_s d) (d_a d) (d_todo d) u (exp_art (ph v) v u) Hdd Hc) as Hun. fold a' in Hun.
        destruct d as [s0 a0 t0]. cbn [d_s d_a d_todo] in *. lia. }
    assert (Hs : forall w g x, sent net' ph w g x = (sent net ph w g x || (eqb w v && Nat.eqb (prank g) (prank (ph v)) && eqb x u))%bool).
    { intros w g x. unfold sent, net'. rewrite arts_of_insert. destruct (eqb_spec w v) as [->|].
      - destruct (Nat.ltb_spec (prank g) (prank (ph v))).
        + destruct (Nat.eqb_spec (prank g) (prank (ph v))); [lia|]. cbn [andb]. now rewrite orb_false_r.
        + destruct (Nat.eqb_spec (prank g) (prank (ph v))); [|reflexivity]. cbn [andb d_a]. unfold arts_of. rewrite Ev. unfold a'. cbn [a_artifacts set_artifacts].
          rewrite contains_insert. apply orb_comm.
      - cbn [andb]. now rewrite orb_false_r. }
    assert (Hh : forall w g x, held net' ph w g x = held net ph w g x).
    { intros w g x. unfold held, net'. cbn [nodes]. rewrite get_insert. destruct (eqb_spec w v) as [->|]; auto. rewrite Ev. reflexivity. }
    constructor.
    - intros w Hw. unfold net'. cbn [nodes]. rewrite get_insert_ne by congruence. now apply (ni_none I).
    - intros w Hw. unfold net'. cbn [nodes]. rewrite get_insert. destruct (eqb_spec w v) as [->|]; [|now apply (ni_node I)].
      split; auto. split; auto. cbn [d_a d_todo]. destruct A. constructor; auto.
      unfold a'. cbn [a_artifacts set_artifacts]. intros w x Hx. rewrite get_insert in Hx. destruct (eqb_spec w u) as [->|]; [inv Hx; auto|]. eauto.
    - unfold net'. cbn [flight]. intros w m' Hin. apply in_app_or in Hin as [Hin|[Hin|[]]]; [now apply (ni_flight I)|]. inv Hin.
      exists (ph w). rewrite (proj1 Gm). split; [exact (pv Hf)|]. auto.
    - intros w x g Hw Hx Hg. rewrite Hh, Hs. unfold net'. cbn [flight]. rewrite cnt_fl_app, cnt_fl_one.
      pose proof (ni_count I w x Hw Hx Hg) as Hcount.
      assert (Em : m_round (sp_meta (msg_direct m)) = prid (ph v)). { destruct Gm as (_ & (_ & _ & _ & -> & _) & _). reflexivity. }
      rewrite Em, (proj1 Gm).
      assert (Eb : (eqb v w && eqb u x && eqb (prid (ph v)) (prid g))%bool = (eqb w v && Nat.eqb (prank g) (prank (ph v)) && eqb x u)%bool).
      { rewrite (eqb_sym v w), (eqb_sym u x). destruct (eqb w v), (eqb x u); cbn [andb]; auto; rewrite ?andb_false_r, ?andb_true_r; auto.
        destruct (Nat.eqb_spec (prank g) (prank (ph v))) as [E|E].
        - apply prank_inj in E. subst g. apply eqb_refl.
        - apply eqb_neq. intros E'. apply E. apply (prid_eq Hf Hg) in E'. now subst. }
      rewrite Eb. destruct (eqb w v && Nat.eqb (prank g) (prank (ph v)) && eqb x u)%bool eqn:E.
      + apply andb_true_iff in E as [E E3]. apply andb_true_iff in E as [E1 E2].
        apply (proj1 (eqb_eq _ _)) in E1, E3. apply Nat.eqb_eq in E2. apply prank_inj in E2. subst w x g.
        assert (Hns : sent net ph v (ph v) u = false).
        { unfold sent. rewrite Nat.ltb_irrefl, Nat.eqb_refl. unfold arts_of. now rewrite Ev. }
        rewrite Hns in *. cbn [orb b2n] in *.
        assert (Hle : prank (ph u) <= prank (ph v)).
        { destruct (Nat.le_gt_cases (prank (ph u)) (prank (ph v))) as [|Hlt]; auto. exfalso.
          pose proof (proj2 (@dst_valid (ph v) v u (pv Hf) Hv Hd)) as Hfu.
          rewrite (@agree (ph v) v u (pv Hf) Hv Hu) in Hd. rewrite (ni_sync I v u Hv Hu Hfu Hlt Hd) in Hns. discriminate. }
        apply Nat.leb_le in Hle. rewrite Hle in *. lia.
      + rewrite orb_false_r. cbn [b2n]. lia.
    - intros w x g Hw Hx Hg Hlt Hin. rewrite Hs. now rewrite (ni_sync I w x Hw Hx Hg Hlt Hin).
  Qed.

  Lemma sent_le net ph u g v : b2n (sent net ph u g v) <= 1.
  Proof. destruct (sent net ph u g v); simpl; lia. Qed.

  Lemma between v f g : pvalid v f -> pvalid v g -> prank f <= prank g -> prank g <= prank (pnext v f) -> g = f \/ g = pnext v f.
  Proof.
    intros Hf Hg H1 H2. destruct (Nat.eq_dec (prank g) (prank f)) as [E|Hne]; [left; now apply prank_inj|right].
    apply prank_inj. assert (prank (pnext v f) <= prank g) by (apply prank_between; auto; lia). lia.
  Qed.

  (** Replacing the state of a running node by one with the same session and artifacts. *)
  Lemma replace_node net ph v d a' todo' fl :
    NInv net ph -> party v -> get v (nodes net) = Some (Running d) ->
    good_acc v (ph v) a' todo' -> a_artifacts a' = a_artifacts (d_a d) ->
    (forall u m, In (u, m) fl -> In (u, m) (flight net)) ->
    let net' := mkNet (insert v (Running (DS (d_s d) a' todo')) (nodes net)) fl in
    (forall u w g, party u -> party w -> pvalid w g ->
       cnt_fl fl u w (prid g) + held net' ph w g u = cnt_fl (flight net) u w (prid g) + held net ph w g u) ->
    NInv net' ph.
  Proof.
    intros I Hv Ev A' Ha Hfl net' Hcnt. pose proof (ni_node I v Hv) as Hnode. rewrite Ev in Hnode. destruct Hnode as (Hf & G & A).
    assert (Hs : forall w g x, sent net' ph w g x = sent net ph w g x).
    { intros w g x. unfold sent, net'. rewrite arts_of_insert. destruct (eqb_spec w v) as [->|]; auto. cbn [d_a]. rewrite Ha. unfold arts_of. now rewrite Ev. }
    constructor.
    - intros w Hw. unfold net'. cbn [nodes]. rewrite get_insert_ne by congruence. now apply (ni_none I).
    - intros w Hw. unfold net'. cbn [nodes]. rewrite get_insert. destruct (eqb_spec w v) as [->|]; [|now apply (ni_node I)]. auto.
    - intros u m Hin. apply (ni_flight I). now apply Hfl.
    - intros u w g Hu Hw Hg. rewrite Hs. unfold net' at 1. cbn [flight]. rewrite Hcnt by auto. now apply (ni_count I).
    - intros u w g Hu Hw Hg Hlt Hin. rewrite Hs. now apply (ni_sync I).
  Qed.

  Lemma held_insert net ph v d s a todo fl w g u : get v (nodes net) = Some (Running d) ->
    held (mkNet (insert v (Running (DS s a todo)) (nodes net)) fl) ph w g u =
      if eqb w v then
        if Nat.eqb (prank g) (prank (ph v)) then cnt_todo todo u + b2n (contains u (a_payloads a))
        else if Nat.eqb (prank g) (prank (pnext v (ph v))) then b2n (message_is_cached a u (prid g)) else 0
      else held net ph w g u.
  Proof. intros Ev. unfold held. cbn [nodes]. rewrite get_insert. destruct (eqb_spec w v) as [->|]; auto. Qed.
  Lemma held_eq net ph v d g u : get v (nodes net) = Some (Running d) ->
    held net ph v g u =
        if Nat.eqb (prank g) (prank (ph v)) then cnt_todo (d_todo d) u + b2n (contains u (a_payloads (d_a d)))
        else if Nat.eqb (prank g) (prank (pnext v (ph v))) then b2n (message_is_cached (d_a d) u (prid g)) else 0.
  Proof. intros Ev. unfold held. now rewrite Ev. Qed.

  (** How a message in flight is taken in. *)
  Lemma deliver_kind_ net ph i u m rest d : timely net ph i -> NInv net ph -> take_nth i (flight net) = Some ((u, m), rest) -> get (msg_dest m) (nodes net) = Some (Running d) ->
    (contains u (a_payloads (d_a d)) = false /\ good_vm (ph (msg_dest m)) u (msg_dest m) (vm_of u m) /\
       preprocess_message (d_s d) (d_a d) u m = (set_processing (d_a d) (sadd u (a_processing (d_a d))), Ok (ToProcess (vm_of u m)))) \/
    preprocess_message (d_s d) (d_a d) u m = (fst (cache_message (d_a d) (vm_of u m)), Ok Cached).
  Proof.
    intros Ht I Et Ev. specialize (Ht u m rest). specialize (fun g => Ht g Et). destruct (take_nth_spec _ _ Et) as (l1 & l2 & El & ->).
    destruct (ni_flight I u m) as (g & Hgn & Hu & Gm & Hd). { rewrite El. apply in_or_app. right. now left. }
    set (v := msg_dest m) in *.
    destruct (@dst_party g u v Hgn Hu Hd) as [Hv Hvu]. destruct (@dst_valid g u v Hgn Hu Hd) as [_ Hg].
    pose proof (ni_count I u v Hu Hv Hg) as Hcount.
    assert (Em : m_round (sp_meta (msg_direct m)) = prid g). { destruct Gm as (_ & (_ & _ & _ & -> & _) & _). reflexivity. }
    assert (Hsplit : forall x y rid, cnt_fl (flight net) x y rid = cnt_fl (l1 ++ l2) x y rid + b2n (eqb u x && eqb v y && eqb (prid g) rid)).
    { intros x y rid. rewrite El. change (l1 ++ (u, m) :: l2) with (l1 ++ [(u, m)] ++ l2). rewrite !cnt_fl_app, cnt_fl_one, Em. fold v. lia. }
    rewrite Hsplit, !eqb_refl in Hcount. cbn [andb b2n] in Hcount.
    destruct (Nat.leb_spec (prank (ph v)) (prank g)) as [Hle|]; [|lia].
    pose proof (sent_le net ph u g v) as Hs1. destruct (sent net ph u g v) eqn:Hs; cbn [b2n] in *; [|lia].
    destruct (sent_dst u g v I Hu Hs) as [_ Hle2].
    pose proof (Ht g Hgn Em) as Hsk2. fold v in Hsk2.
    pose proof (ni_node I v Hv) as Hnode. rewrite Ev in Hnode. destruct Hnode as (Hf & G & A). rewrite (@held_eq net ph v _ g u Ev) in Hcount.
    destruct (between Hf Hg Hle Hsk2) as [->| ->].
    - rewrite Nat.eqb_refl in Hcount. left. split; [destruct (contains u (a_payloads (d_a d))); auto; cbn [b2n] in Hcount; lia|].
      split; [now apply good_vm_of|]. apply (@pre_this v (ph v) _ _ _ u m Hf Hv G A Gm). lia.
    - right. pose proof (prank_next v (ph v)) as Hlt.
      destruct (Nat.eqb_spec (prank (pnext v (ph v))) (prank (ph v))) as [E|_]; [lia|]. rewrite Nat.eqb_refl in Hcount.
      assert (Hnc : message_is_cached (d_a d) u (prid (pnext v (ph v))) = false) by (destruct (message_is_cached _ _ _); auto; simpl in Hcount; lia).
      exact (@pre_next v (ph v) _ _ _ u m Hf Hv G A Hg Gm Hnc).
  Qed.

  Lemma step_deliver_ net ph i res : timely net ph i -> NInv net ph -> act r net (ADeliver i) = Some res ->
    exists net', res = Ok net' /\ NInv net' ph /\ mu net' < mu net.
  Proof.
    intros Ht I Hact. cbn [act] in Hact. destruct (take_nth i (flight net)) as [[[u m] rest]|] eqn:Et; [|discriminate].
    specialize (Ht u m rest). specialize (fun g => Ht g Et). destruct (take_nth_spec _ _ Et) as (l1 & l2 & El & ->).
    destruct (ni_flight I u m) as (g & Hgn & Hu & Gm & Hd). { rewrite El. apply in_or_app. right. now left. }
    set (v := msg_dest m) in *.
    destruct (@dst_party g u v Hgn Hu Hd) as [Hv Hvu]. destruct (@dst_valid g u v Hgn Hu Hd) as [_ Hg].
    pose proof (ni_count I u v Hu Hv Hg) as Hcount.
    assert (Em : m_round (sp_meta (msg_direct m)) = prid g). { destruct Gm as (_ & (_ & _ & _ & -> & _) & _). reflexivity. }
    assert (Hsplit : forall x y rid, cnt_fl (flight net) x y rid = cnt_fl (l1 ++ l2) x y rid + b2n (eqb u x && eqb v y && eqb (prid g) rid)).
    { intros x y rid. rewrite El. change (l1 ++ (u, m) :: l2) with (l1 ++ [(u, m)] ++ l2). rewrite !cnt_fl_app, cnt_fl_one, Em. fold v. lia. }
    rewrite Hsplit, !eqb_refl in Hcount. cbn [andb b2n] in Hcount.
    destruct (Nat.leb_spec (prank (ph v)) (prank g)) as [Hle|]; [|lia].
    pose proof (sent_le net ph u g v) as Hs1. destruct (sent net ph u g v) eqn:Hs; cbn [b2n] in *; [|lia].
    destruct (sent_dst u g v I Hu Hs) as [_ Hle2].
    pose proof (Ht g Hgn Em) as Hsk2. fold v in Hsk2.
    pose proof (ni_node I v Hv) as Hnode. destruct (get v (nodes net)) as [[d|rep]|] eqn:Ev; [|exfalso|contradiction].
    2:{ destruct Hnode as (E & _). rewrite E in Hle. destruct Hg as [Hn _]. unfold prank in Hle. simpl in Hle. destruct (snd g); simpl in Hle; lia. }
    destruct Hnode as (Hf & G & A). rewrite (@held_eq net ph v _ g u Ev) in Hcount.
    assert (Hin : forall x y, In (x, y) (l1 ++ l2) -> In (x, y) (flight net)).
    { intros x y Hxy. rewrite El. apply in_app_or in Hxy. apply in_or_app. destruct Hxy; [now left|right; now right]. }
    assert (Hb : forall x y k, pvalid y k -> (eqb u x && eqb v y && eqb (prid g) (prid k))%bool = (eqb x u && eqb y v && Nat.eqb (prank k) (prank g))%bool).
    { intros x y k Hk. rewrite (eqb_sym u x), (eqb_sym v y). f_equal. destruct (Nat.eqb_spec (prank k) (prank g)) as [E|E].
      - apply prank_inj in E. subst k. apply eqb_refl.
      - apply eqb_neq. intros E'. apply E. apply (prid_eq Hg Hk) in E'. now subst. }
    assert (Hmu : forall a' todo', a_artifacts a' = a_artifacts (d_a d) -> List.length todo' <= S (List.length (d_todo d)) ->
       mu (mkNet (insert v (Running (DS (d_s d) a' todo')) (nodes net)) (l1 ++ l2)) < mu net).
    { intros a' todo' Ha Hlen. pose proof (@mu_change net v (Running (DS (d_s d) a' todo')) (l1 ++ l2) Hv) as Hmu.
      rewrite Ev in Hmu. assert (Hll : List.length (flight net) = S (List.length (l1 ++ l2))) by (rewrite El, !app_length; simpl; lia). rewrite Hll in Hmu.
      cbn [weight d_todo] in Hmu. unfold unsent in Hmu. cbn [d_a d_s] in Hmu. rewrite Ha in Hmu. lia. }
    destruct (between Hf Hg Hle Hsk2) as [->| ->].
    - rewrite Nat.eqb_refl in Hcount.
      rewrite (@pre_this v (ph v) _ _ _ u m Hf Hv G A Gm) in Hact by lia. cbn [with_accum bind] in Hact. inv Hact.
      eexists. split; [reflexivity|]. split; [|apply Hmu; auto]. apply replace_node; auto.
      + constructor; cbn [a_expect a_provable a_unprovable a_waiting a_payloads a_echo a_artifacts a_cached a_processing set_processing]; try apply A.
        * intros m' [<-|Hm']; [|now apply (ga_todo A)]. cbn [vm_of vm_from]. split; [now apply good_vm_of|]. now rewrite <- (@agree (ph v) u v (pv Hf) Hu Hv).
        * intros x. rewrite mem_add, cnt_todo_cons. cbn [vm_of vm_from]. rewrite (eqb_sym u x). destruct (eqb x u); simpl; [lia|]. apply (ga_proc A).
      + intros x y k Hx Hy Hk. rewrite (@held_insert net ph v _ _ _ _ _ y k x Ev), Hsplit, (Hb x y k Hk).
        destruct (eqb_spec y v) as [->|]; [|rewrite andb_false_r; simpl; lia]. rewrite (@held_eq net ph v _ k x Ev).
        destruct (Nat.eqb_spec (prank k) (prank (ph v))) as [E|E].
        * rewrite cnt_todo_cons. cbn [vm_of vm_from a_payloads set_processing]. rewrite (eqb_sym u x). destruct (eqb x u); simpl; lia.
        * rewrite !andb_false_r. simpl. change (message_is_cached (set_processing (d_a d) (sadd u (a_processing (d_a d)))) x (prid k)) with (message_is_cached (d_a d) x (prid k)). lia.
    - pose proof (prank_next v (ph v)) as Hlt.
      destruct (Nat.eqb_spec (prank (pnext v (ph v))) (prank (ph v))) as [E|_]; [lia|]. rewrite Nat.eqb_refl in Hcount.
      assert (Hnc : message_is_cached (d_a d) u (prid (pnext v (ph v))) = false) by (destruct (message_is_cached _ _ _); auto; simpl in Hcount; lia).
      rewrite (@pre_next v (ph v) _ _ _ u m Hf Hv G A Hg Gm Hnc) in Hact. cbn [with_accum bind] in Hact. inv Hact.
      eexists. split; [reflexivity|].
      assert (Hcm : forall x rid, message_is_cached (fst (cache_message (d_a d) (vm_of u m))) x rid =
        ((eqb x u && eqb rid (prid (pnext v (ph v)))) || message_is_cached (d_a d) x rid)%bool).
      { intros x rid. unfold message_is_cached, cache_message, vm_of. cbn [fst vm_from vm_meta a_cached set_cached]. rewrite Em, get_insert.
        destruct (eqb_spec x u) as [->|]; auto. rewrite contains_insert. cbn [andb]. destruct (get u (a_cached (d_a d))); [reflexivity|]. now rewrite contains_empty. }
      split; [|apply Hmu; auto]. apply replace_node; auto.
      + unfold cache_message, vm_of. cbn [fst vm_from vm_meta]. rewrite Em.
        constructor; cbn [a_expect a_provable a_unprovable a_waiting a_payloads a_echo a_artifacts a_cached a_processing set_cached]; try apply A.
        intros x c rid m' Hx Hc. rewrite get_insert in Hx. destruct (eqb_spec x u) as [->|]; [|eapply (ga_cached A); eauto]. inv Hx.
        rewrite get_insert in Hc. destruct (eqb_spec rid (prid (pnext v (ph v)))) as [->|].
        * inv Hc. split; auto. split; auto. split; [exact (good_vm_of Gm)|]. now rewrite <- (@agree (pnext v (ph v)) u v Hgn Hu Hv).
        * destruct (get u (a_cached (d_a d))) as [c|] eqn:Ec; [|rewrite get_empty in Hc; discriminate]. eapply (ga_cached A); eauto.
      + intros x y k Hx Hy Hk. rewrite (@held_insert net ph v _ _ _ _ _ y k x Ev), Hsplit, (Hb x y k Hk).
        destruct (eqb_spec y v) as [->|]; [|rewrite andb_false_r; simpl; lia]. rewrite (@held_eq net ph v _ k x Ev).
        destruct (Nat.eqb_spec (prank k) (prank (ph v))) as [E|E].
        * destruct (Nat.eqb_spec (prank k) (prank (pnext v (ph v)))) as [E2|_]; [lia|]. rewrite !andb_false_r. simpl.
          unfold cache_message. simpl. lia.
        * destruct (Nat.eqb_spec (prank k) (prank (pnext v (ph v)))) as [E2|_].
          -- rewrite Hcm. apply prank_inj in E2. subst k. rewrite !eqb_refl, !andb_true_r. destruct (eqb_spec x u) as [->|]; [rewrite Hnc|]; simpl; lia.
          -- rewrite !andb_false_r. simpl. lia.
  Qed.

  Lemma in_mid {A} (l1 l2 : list A) x y : In y (l1 ++ l2) -> In y (l1 ++ x :: l2).
  Proof. intros H. apply in_app_or in H. apply in_or_app. destruct H; [now left|right; now right]. Qed.

  Lemma step_process net ph v i res : NInv net ph -> act r net (AProcess v i) = Some res ->
    exists net', res = Ok net' /\ NInv net' ph /\ mu net' < mu net.
  Proof.
    intros I Hact. cbn [act] in Hact. destruct (mem v parties) eqn:Hv; [|rewrite (ni_none I v Hv) in Hact; discriminate].
    pose proof (ni_node I v Hv) as Hnode. destruct (get v (nodes net)) as [[d|rep]|] eqn:Ev; try discriminate.
    destruct Hnode as (Hf & G & A). destruct (take_nth i (d_todo d)) as [[m rest]|] eqn:Et; [|discriminate].
    destruct (take_nth_spec _ _ Et) as (l1 & l2 & El & ->).
    assert (Hin : In m (d_todo d)) by (rewrite El; apply in_or_app; right; now left).
    destruct (ga_todo A m Hin) as [Gm Hex]. remember (vm_from m) as u eqn:Eu.
    assert (Hu : party u) by exact (proj1 (@exp_party (ph v) v u (pv Hf) Hv Hex)).
    assert (Hct : forall x, cnt_todo (d_todo d) x = cnt_todo (l1 ++ l2) x + b2n (eqb u x)).
    { intros x. rewrite El, !cnt_todo_app, cnt_todo_cons, <- Eu. lia. }
    pose proof (ni_count I u v Hu Hv Hf) as Hcount. rewrite Nat.leb_refl, (@held_eq net ph v _ (ph v) u Ev), Nat.eqb_refl, Hct, eqb_refl in Hcount.
    pose proof (sent_le net ph u (ph v) v).
    assert (Hnc : contains u (a_payloads (d_a d)) = false). { destruct (contains u (a_payloads (d_a d))); auto. simpl in Hcount. lia. }
    rewrite (@proc_ok v (ph v) _ _ _ u m Hf Hv G A Gm Hex Hnc) in Hact. cbn [with_accum bind] in Hact. injection Hact as <-.
    eexists. split; [reflexivity|]. unfold set_node. split.
    2:{ match goal with |- mu (mkNet (insert v ?nd (nodes net)) _) < _ => pose proof (@mu_change net v nd (flight net) Hv) as Hmu end.
        rewrite Ev in Hmu. cbn [weight d_todo] in Hmu. unfold unsent in Hmu. cbn [d_a d_s a_done a_artifacts] in Hmu.
        assert (Hll : List.length (d_todo d) = S (List.length (l1 ++ l2))) by (rewrite El, !app_length; simpl; lia). lia. }
    apply replace_node; auto.
    - constructor; cbn [a_done a_expect a_provable a_unprovable a_waiting a_payloads a_echo a_artifacts a_cached a_processing]; try apply A.
      + intros x. rewrite mem_rem, contains_insert, (ga_waiting A). destruct (eqb x u); simpl; auto. now rewrite andb_false_r.
      + intros x p Hp. rewrite get_insert in Hp. destruct (eqb_spec x u) as [->|]; [inv Hp; auto|now apply (ga_payload A)].
      + intros x Hx Hb Hne. rewrite contains_insert in Hx. unfold ins_part.
        destruct Gm as (_ & _ & B & _). unfold good_bcast in B. rewrite Hb in B. destruct B as [B _].
        destruct (eqb_spec x u) as [E|]; [rewrite E in *|].
        * rewrite B. destruct (pl_echo h (fst (ph v)) u); [|congruence]. cbn [is_none]. rewrite contains_insert, eqb_refl. reflexivity.
        * simpl in Hx. pose proof (ga_echo_in A x Hx Hb Hne) as Hce. destruct (is_none _); auto. rewrite contains_insert, Hce. apply orb_true_r.
      + intros x p Hp Hb. unfold ins_part in Hp. destruct Gm as (_ & V & B & _). unfold good_bcast in B. rewrite Hb in B. destruct B as [B _].
        destruct (is_none (sp_body (vm_echo m))) eqn:Eno; [now apply (ga_echo A)|]. rewrite get_insert in Hp. destruct (eqb_spec x u) as [->|]; [|now apply (ga_echo A)].
        inv Hp. split; auto. destruct V as (_ & V1 & _ & _ & _ & V2 & _). unfold good_part. split; auto. split; auto. rewrite <- B. now intros En; rewrite En in Eno.
      + intros y Hy. apply (ga_todo A). rewrite El. now apply in_mid.
      + intros x Hx. pose proof (ga_proc A x Hx) as Hp. rewrite Hct in Hp. rewrite contains_insert, (eqb_sym x u). destruct (eqb u x); simpl in *; lia.
    - intros x y k Hx Hy Hk. rewrite (@held_insert net ph v _ _ _ _ _ y k x Ev). destruct (eqb_spec y v) as [->|]; [|reflexivity]. rewrite (@held_eq net ph v _ k x Ev).
      destruct (Nat.eqb_spec (prank k) (prank (ph v))) as [E|E]; [|reflexivity].
      rewrite Hct. cbn [a_done a_payloads]. rewrite contains_insert, (eqb_sym x u). destruct (eqb_spec u x) as [<-|]; simpl; [rewrite Hnc; simpl|]; lia.
  Qed.

  Lemma lt_next v f g : pvalid v f -> pvalid v g -> prank g < prank (pnext v f) -> prank g <= prank f.
  Proof.
    intros Hf Hg H. destruct (Nat.le_gt_cases (prank g) (prank f)); auto.
    assert (prank (pnext v f) <= prank g) by (apply prank_between; auto). lia.
  Qed.

  Lemma step_finalize net ph v res : NInv net ph -> act r net (AFinalize v) = Some res ->
    exists net', res = Ok net' /\ NInv net' (fun w => if eqb w v then pnext v (ph v) else ph w).
  Proof.
    intros I Hact. cbn [act] in Hact. destruct (mem v parties) eqn:Hv; [|rewrite (ni_none I v Hv) in Hact; discriminate].
    pose proof (ni_node I v Hv) as Hnode. destruct (get v (nodes net)) as [[d|rep]|] eqn:Ev; try discriminate.
    destruct Hnode as (Hf & G & A). destruct (can_finalize (d_a d)) eqn:Hy; try discriminate. destruct (all_sent d) eqn:Hall; [|discriminate].
    destruct d as [s a todo]. cbn [d_s d_a d_todo] in *. rewrite (@good_rid v _ _ Hf Hv G) in Hact.
    set (f := ph v) in *. set (f' := pnext v f) in *. pose proof (prank_next v f) as Hlt. fold f' in Hlt.
    pose proof (artifacts_map G A Hall) as Harts.
    set (ph' := fun w => if eqb w v then f' else ph w).
    assert (K : forall nd, (forall u, held (set_node net v nd) ph' v f u = 0) ->
       (forall u, party u -> pvalid v f' -> held (set_node net v nd) ph' v f' u = b2n (message_is_cached a u (prid f'))) ->
       (forall g u, prank g <> prank f' -> held (set_node net v nd) ph' v g u = 0) ->
       (pvalid v f' -> arts_of (set_node net v nd) v = empty) ->
       match nd with
       | Running d => pvalid v f' /\ good_sess v f' (d_s d) /\ good_acc v f' (d_a d) (d_todo d)
       | Ended rep => f' = (S N, false) /\ rep_outcome rep = OResult (pl_result h v) /\ no_errors (Ended rep)
       end -> NInv (set_node net v nd) ph').
    { intros nd H1 H2 H3 H4 H5. set (net' := set_node net v nd) in *.
      assert (Hph : forall w, w <> v -> ph' w = ph w). { intros w Hw. unfold ph'. apply eqb_neq in Hw. now rewrite Hw. }
      assert (Hpv : ph' v = f') by (unfold ph'; now rewrite eqb_refl).
      assert (Hs : forall w g x, fst g <= N -> sent net' ph' w g x = sent net ph w g x).
      { intros w g x Hg. unfold sent. destruct (eqb_spec w v) as [->|Hne].
        - rewrite Hpv. fold f. destruct (Nat.ltb_spec (prank g) (prank f)) as [L|L].
          + assert (L' : prank g < prank f') by lia. apply Nat.ltb_lt in L'. now rewrite L'.
          + destruct (Nat.eqb_spec (prank g) (prank f)) as [E|E].
            * assert (L' : prank g < prank f') by lia. apply Nat.ltb_lt in L'. rewrite L'. apply prank_inj in E. subst g.
              unfold arts_of. rewrite Ev. cbn [d_a]. pose proof (Harts x) as Hx. destruct (mem x (dst f v)).
              -- symmetry. apply contains_get; eauto.
              -- symmetry. now apply contains_false.
            * destruct (Nat.ltb_spec (prank g) (prank f')) as [L'|L'].
              { destruct (mem x (dst g v)) eqn:Ed; auto. pose proof (lt_next Hf (proj1 (@dst_valid g v x Hg Hv Ed)) L'). lia. }
              destruct (Nat.eqb_spec (prank g) (prank f')) as [E'|]; auto. apply prank_inj in E'. subst g. rewrite H4; [apply contains_empty|]. destruct (next_valid Hf) as [|Ef]; auto. exfalso. unfold f' in Hg. rewrite Ef in Hg. cbn [fst] in Hg. lia.
        - rewrite (Hph w Hne). unfold arts_of, net', set_node. cbn [nodes]. now rewrite get_insert_ne. }
      constructor.
      - intros w Hw. unfold net', set_node. cbn [nodes]. rewrite get_insert_ne by congruence. now apply (ni_none I).
      - intros w Hw. unfold net', set_node. cbn [nodes]. rewrite get_insert. destruct (eqb_spec w v) as [->|Hne].
        + rewrite Hpv. exact H5.
        + rewrite (Hph w Hne). now apply (ni_node I).
      - exact (ni_flight I).
      - intros u w g Hu Hw Hg. rewrite Hs by exact (pv Hg). change (flight net') with (flight net). pose proof (ni_count I u w Hu Hw Hg) as Hcount.
        destruct (eqb_spec w v) as [->|Hne].
        + rewrite Hpv. rewrite (@held_eq net ph v _ g u Ev) in Hcount. cbn [d_a d_todo] in Hcount. fold f in Hcount. fold f' in Hcount.
          destruct (Nat.leb_spec (prank f') (prank g)) as [L|L].
          * assert (prank f <= prank g) as L2 by lia. apply Nat.leb_le in L2. rewrite L2 in Hcount.
            destruct (Nat.eqb_spec (prank g) (prank f)) as [E|_]; [lia|].
            destruct (Nat.eqb_spec (prank g) (prank f')) as [E|E].
            -- apply prank_inj in E. subst g. rewrite H2; auto.
            -- rewrite H3; auto.
          * rewrite H3 by (auto; lia). pose proof (lt_next Hf Hg L) as L2.
            destruct (Nat.leb_spec (prank f) (prank g)) as [L3|]; [|lia].
            assert (E : prank g = prank f) by lia. apply prank_inj in E. subst g. rewrite Nat.eqb_refl in Hcount.
            pose proof (sent_le net ph u f v) as Hs1. destruct (sent net ph u f v) eqn:Hsent; [|simpl in Hcount; lia].
            destruct (sent_dst u f v I Hu Hsent) as [Hd _]. rewrite (@agree f u v (pv Hg) Hu Hv) in Hd.
            rewrite (yes_complete A Hy u Hd) in Hcount. simpl in Hcount. lia.
        + rewrite (Hph w Hne). rewrite <- Hcount. f_equal. unfold held, net', set_node. cbn [nodes]. rewrite get_insert_ne by auto.
          now rewrite (Hph w Hne).
      - intros u w g Hu Hw Hg L Hin. rewrite Hs by exact (pv Hg). destruct (eqb_spec w v) as [->|Hne].
        + rewrite Hpv in L. pose proof (lt_next Hf Hg L) as L2. destruct (Nat.eq_dec (prank g) (prank f)) as [E|E].
          * apply prank_inj in E. subst g. pose proof (ni_count I u v Hu Hv Hg) as Hcount. rewrite Nat.leb_refl, (@held_eq net ph v _ f u Ev) in Hcount.
            fold f in Hcount. rewrite Nat.eqb_refl in Hcount. cbn [d_a d_todo] in Hcount. rewrite (yes_complete A Hy u Hin) in Hcount.
            destruct (sent net ph u f v); auto. simpl in Hcount. lia.
          * apply (ni_sync I); auto. fold f. lia.
        + rewrite (Hph w Hne) in L. now apply (ni_sync I). }
    destruct (@fin_ok v f s a todo Hf Hv G A Hy Hall) as [(Hv' & s' & Ef & Gs)|(Hv' & rep & Ef & Hrep)]; rewrite Ef in Hact; cbn [bind] in Hact; inv Hact.
    - eexists. split; [reflexivity|]. fold f' in Hv', Gs, Ef |- *.
      assert (Hheld : forall g u, held (set_node net v (Running (DS s' (make_accumulator s') (filter_messages (a_cached a) (prid f'))))) ph' v g u =
        if Nat.eqb (prank g) (prank f') then b2n (message_is_cached a u (prid f')) else 0).
      { intros g u. unfold held, set_node. cbn [nodes]. rewrite get_insert_eq. unfold ph'. rewrite eqb_refl. cbn [d_todo d_a].
        destruct (Nat.eqb (prank g) (prank f')).
        - rewrite cnt_cached. + unfold make_accumulator at 1. cbn [a_payloads]. rewrite contains_empty. unfold message_is_cached. simpl. lia.
          + intros k c m Hc Hm. now destruct (@ga_cached _ _ _ _ A k _ (prid f') _ Hc Hm) as (_ & _ & (? & _) & _).
        - destruct (Nat.eqb _ _); auto. }
      apply K.
      + intros u. rewrite Hheld. destruct (Nat.eqb_spec (prank f) (prank f')); auto. lia.
      + intros u _ _. now rewrite Hheld, Nat.eqb_refl.
      + intros g u Hne. rewrite Hheld. apply Nat.eqb_neq in Hne. now rewrite Hne.
      + intros _. unfold arts_of, set_node. cbn [nodes]. now rewrite get_insert_eq.
      + split; auto. split; auto. apply good_start; auto. intros m Hin. unfold filter_messages in Hin. apply in_flat_map in Hin as ([k c] & Hkc & Hm).
        cbn [snd] in Hm. destruct (get (prid f') c) as [m'|] eqn:Ec; [|contradiction]. destruct Hm as [<-|[]]. apply in_to_list in Hkc.
        destruct (@ga_cached _ _ _ _ A k _ (prid f') _ Hkc Ec) as (_ & _ & Gm & Hex). fold f' in Gm, Hex. now rewrite (proj1 Gm).
    - eexists. split; [reflexivity|]. fold f' in Hv', Ef |- *.
      assert (Hinv : pvalid v f' -> False). { rewrite Hv'. intros [L _]. simpl in L. lia. }
      assert (Hheld : forall g u, held (set_node net v (Ended rep)) ph' v g u = 0).
      { intros g u. unfold held, set_node. cbn [nodes]. now rewrite get_insert_eq. }
      apply K; auto; intros; exfalso; auto.
  Qed.

  (** ** Phases and time *)
  Definition rest (ph : Verifier -> phase) (v : Verifier) : nat := prank (S N, false) - prank (ph v).
  Lemma rank_last v f : pvalid v f -> prank f < prank (S N, false).
  Proof. intros [Hn _]. unfold prank. simpl. destruct (snd f); simpl; lia. Qed.

  (** ** Everybody stays in step *)
  Hypothesis HS : in_step parties h.
  (** Nobody is more than one phase behind a party it is sent messages by. *)
  Lemma skew_ net ph u g v : NInv net ph -> party u -> party v -> fst g <= N -> prank g <= prank (ph u) -> mem v (dst g u) = true ->
    prank g <= prank (pnext v (ph v)).
  Proof.
    intros I Hu Hv Hn Hle Hd. destruct (@HS g u v Hn Hu Hd) as (q & Hc & Hq). pose proof (certain_reached I Hc Hn Hu Hle) as Hr.
    destruct (Nat.le_gt_cases (prank g) (prank (pnext v (ph v)))) as [|L]; auto. exfalso. pose proof (prank_next v (ph v)) as Hlt.
    assert (Hp : pvalid v (ph v)).
    { destruct (phase_ok v I Hv) as [|E]; auto. rewrite E in Hlt, L. clear - Hlt L Hn. destruct (pnext v (S N, false)) as [k c].
      destruct g as [n b]. unfold prank in *. cbn [fst snd] in *. destruct b, c; simpl in *; lia. }
    destruct (Hq (pnext v (ph v))) as [E1 E2]; [apply before_rank; lia|now apply before_rank|].
    destruct (next_valid Hp) as [[_ K]|K]; [rewrite (K E1) in E2; discriminate|rewrite K in E1; discriminate].
  Qed.
  Lemma always_timely net ph i : NInv net ph -> timely net ph i.
  Proof.
    intros I u m rest g Et Hn Em. destruct (take_nth_spec _ _ Et) as (l1 & l2 & El & ->).
    destruct (ni_flight I u m) as (g' & Hgn & Hu & Gm & Hd). { rewrite El. apply in_or_app. right. now left. }
    assert (Em' : m_round (sp_meta (msg_direct m)) = prid g'). { destruct Gm as (_ & (_ & _ & _ & -> & _) & _). reflexivity. }
    rewrite Em' in Em. apply (prid_inj _ _ Hgn Hn) in Em. subst g'. set (v := msg_dest m) in *.
    destruct (@dst_party g u v Hgn Hu Hd) as [Hv Hvu]. destruct (@dst_valid g u v Hgn Hu Hd) as [_ Hg].
    pose proof (ni_count I u v Hu Hv Hg) as Hcount.
    assert (Hc : 1 <= cnt_fl (flight net) u v (prid g)).
    { rewrite El. change (l1 ++ (u, m) :: l2) with (l1 ++ [(u, m)] ++ l2). rewrite !cnt_fl_app, cnt_fl_one, Em'. fold v. rewrite !eqb_refl. simpl. lia. }
    destruct (Nat.leb (prank (ph v)) (prank g)); [|lia]. destruct (sent net ph u g v) eqn:Hs; cbn [b2n] in *; [|lia].
    destruct (sent_dst u g v I Hu Hs) as [_ Hle2]. exact (skew_ u g v I Hu Hv Hgn Hle2 Hd).
  Qed.
  Lemma deliver_kind_' net ph i u m rest d : NInv net ph -> take_nth i (flight net) = Some ((u, m), rest) -> get (msg_dest m) (nodes net) = Some (Running d) ->
    (contains u (a_payloads (d_a d)) = false /\ good_vm (ph (msg_dest m)) u (msg_dest m) (vm_of u m) /\
       preprocess_message (d_s d) (d_a d) u m = (set_processing (d_a d) (sadd u (a_processing (d_a d))), Ok (ToProcess (vm_of u m)))) \/
    preprocess_message (d_s d) (d_a d) u m = (fst (cache_message (d_a d) (vm_of u m)), Ok Cached).
  Proof. intros I. exact (deliver_kind_ (always_timely i I) I). Qed.
  Lemma step_deliver_' net ph i res : NInv net ph -> act r net (ADeliver i) = Some res ->
    exists net', res = Ok net' /\ NInv net' ph /\ mu net' < mu net.
  Proof. intros I. exact (step_deliver_ (always_timely i I) I). Qed.

  (** ** Schedules *)
  Definition upd (ph : Verifier -> phase) (x : action) : Verifier -> phase :=
    match x with AFinalize v => fun w => if eqb w v then pnext v (ph v) else ph w | _ => ph end.
  Lemma step_ok_ net ph x res : NInv net ph -> act r net x = Some res ->
    exists net', res = Ok net' /\ NInv net' (upd ph x) /\
      (mu net' < mu net /\ upd ph x = ph \/ total (rest (upd ph x)) < total (rest ph)).
  Proof.
    intros I H. destruct x as [v u|i|v i|v]; cbn [upd].
    - destruct (step_send v u I H) as (net' & E & I' & M). eauto 6.
    - destruct (step_deliver_' i I H) as (net' & E & I' & M). eauto 6.
    - destruct (step_process v i I H) as (net' & E & I' & M). eauto 6.
    - destruct (step_finalize v I H) as (net' & E & I'). exists net'. split; auto. split; auto. right.
      assert (Hv : party v). { cbn [act] in H. destruct (mem v parties) eqn:Hv; auto. rewrite (ni_none I v Hv) in H. discriminate. }
      assert (Hf : pvalid v (ph v)).
      { pose proof (ni_node I v Hv) as Hn. cbn [act] in H. destruct (get v (nodes net)) as [[d|rep]|]; try discriminate. apply Hn. }
      pose proof (@total_change (rest ph) (rest (fun w => if eqb w v then pnext v (ph v) else ph w)) v Hv) as K.
      assert (Hne : forall w, w <> v -> rest (fun w => if eqb w v then pnext v (ph v) else ph w) w = rest ph w).
      { intros w Hw. unfold rest. apply eqb_neq in Hw. now rewrite Hw. }
      specialize (K Hne). unfold rest at 2 4 in K. rewrite eqb_refl in K.
      pose proof (prank_next v (ph v)). pose proof (rank_last Hf). lia.
  Qed.

  Definition follows (net2 net1 : Net Pr) : Prop := exists x, act r net1 x = Some (Ok net2).
  Lemma terminates_ net ph : NInv net ph -> Acc follows net.
  Proof.
    remember (total (rest ph)) as a eqn:Ea. revert net ph Ea. induction a as [a IHa] using lt_wf_ind.
    intros net. remember (mu net) as b eqn:Eb. revert net Eb. induction b as [b IHb] using lt_wf_ind.
    intros net Eb ph Ea I. constructor. intros net2 [x Hx]. destruct (step_ok_ x I Hx) as (net' & E & I' & [[M E']|M]).
    - inv E. rewrite E' in I'. eapply (IHb _ M); eauto.
    - inv E. eapply (IHa _ M); eauto.
  Qed.

  Lemma schedule_ok_ net ph xs net2 : NInv net ph -> schedule r net xs net2 -> exists ph2, NInv net2 ph2.
  Proof.
    intros I H. induction H as [|net xs net1 x net2 H IH Hx]; eauto. destruct (IH I) as [ph1 I1].
    destruct (step_ok_ x I1 Hx) as (net' & E & I' & _). inv E. eauto.
  Qed.

  (** ** Progress *)
  Lemma existsb_false {A} (p : A -> bool) l : existsb p l = false -> forall x, In x l -> p x = false.
  Proof. intros H x Hx. destruct (p x) eqn:E; auto. rewrite <- H. symmetry. apply existsb_exists. eauto. Qed.

  Lemma least (f : Verifier -> nat) (l : list Verifier) : l <> [] -> exists v, In v l /\ forall u, In u l -> f v <= f u.
  Proof.
    induction l as [|v l IH]; [congruence|]. intros _. destruct l as [|w l].
    - exists v. split; [now left|]. intros u [->|[]]. lia.
    - destruct IH as (m & Hm & Hmin); [discriminate|]. destruct (Nat.le_gt_cases (f v) (f m)) as [L|L].
      + exists v. split; [now left|]. intros u [->|Hu]; [lia|]. specialize (Hmin u Hu). lia.
      + exists m. split; [now right|]. intros u [->|Hu]; [lia|]. auto.
  Qed.

  Lemma progress_ net ph : NInv net ph -> all_ended parties h net /\ flight net = [] \/ exists x net2, act r net x = Some (Ok net2).
  Proof.
    intros I.
    assert (K : forall x res, act r net x = Some res -> exists net2, act r net x = Some (Ok net2)).
    { intros x res H. destruct (step_ok_ x I H) as (net' & E & _). subst res. eauto. }
    destruct (flight net) as [|[u m] fl] eqn:Efl.
    2:{ right. exists (ADeliver 0). cbn [act]. rewrite Efl. cbn [take_nth].
        assert (Ha : exists res, act r net (ADeliver 0) = Some res).
        { cbn [act]. rewrite Efl. cbn [take_nth]. destruct (get (msg_dest m) (nodes net)) as [[d|rep]|]; eauto. }
        destruct Ha as [res Ha]. destruct (K _ _ Ha) as [net2 H2]. exists net2. cbn [act] in H2. rewrite Efl in H2. exact H2. }
    destruct (existsb (fun v => match get v (nodes net) with Some (Running d) => negb (all_sent d) | _ => false end) (elements parties)) eqn:Eu.
    { right. apply existsb_exists in Eu as (v & Hv & Hs). destruct (get v (nodes net)) as [[d|rep]|] eqn:Ev; try discriminate.
      assert (Hex : exists u, mem u (message_destinations (d_s d)) = true /\ contains u (a_artifacts (d_a d)) = false).
      { unfold all_sent in Hs. apply negb_true_iff in Hs. revert Hs. 
        assert (Hl : forall u, In u (elements (message_destinations (d_s d))) -> mem u (message_destinations (d_s d)) = true) by (intros u; apply in_elements).
        revert Hl. generalize (elements (message_destinations (d_s d))). induction l as [|u l IH]; intros Hl Hs; [discriminate|].
        cbn [forallb] in Hs. destruct (contains u (a_artifacts (d_a d))) eqn:Ec.
        - apply IH; auto. intros w Hw. apply Hl. now right.
        - exists u. split; auto. apply Hl. now left. }
      destruct Hex as (u & Hu1 & Hu2). exists (ASend v u).
      assert (Ha : exists res, act r net (ASend v u) = Some res). { cbn [act]. rewrite Ev, Hu1, Hu2. cbn [andb negb]. eauto. }
      destruct Ha as [res Ha]. eauto. }
    destruct (existsb (fun v => match get v (nodes net) with Some (Running d) => match d_todo d with [] => false | _ => true end | _ => false end) (elements parties)) eqn:Et.
    { right. apply existsb_exists in Et as (v & Hv & Hs). destruct (get v (nodes net)) as [[d|rep]|] eqn:Ev; try discriminate.
      destruct (d_todo d) as [|m todo] eqn:Ed; [discriminate|]. exists (AProcess v 0).
      assert (Ha : exists res, act r net (AProcess v 0) = Some res). { cbn [act]. rewrite Ev, Ed. cbn [take_nth]. eauto. }
      destruct Ha as [res Ha]. eauto. }
    pose proof (existsb_false _ _ Eu) as Hsent. pose proof (existsb_false _ _ Et) as Htodo. cbv beta in Hsent, Htodo.
    destruct (filter (fun v => match get v (nodes net) with Some (Running _) => true | _ => false end) (elements parties)) as [|v0 l0] eqn:Er.
    - left. split; auto. intros v Hv. pose proof (ni_node I v Hv) as Hn. assert (Hin : In v (elements parties)) by now apply in_elements.
      destruct (get v (nodes net)) as [[d|rep]|] eqn:Ev; [exfalso|exists rep; tauto|contradiction].
      assert (Hf : In v []). { rewrite <- Er. apply filter_In. now rewrite Ev. } contradiction.
    - right. destruct (@least (fun v => prank (ph v)) (v0 :: l0)) as (v & Hv & Hmin); [discriminate|]. rewrite <- Er in Hv, Hmin.
      apply filter_In in Hv as [Hin Hrun]. pose proof (proj1 (in_elements _ _) Hin) as Hv. pose proof (ni_node I v Hv) as Hn.
      specialize (Hsent v Hin) as Hsv. specialize (Htodo v Hin) as Htv.
      destruct (get v (nodes net)) as [[d|rep]|] eqn:Ev; try discriminate. destruct Hn as (Hf & G & A). apply negb_false_iff in Hsv.
      destruct (d_todo d) eqn:Ed; [|discriminate].
      assert (Hy : can_finalize (d_a d) = Yes).
      { apply (complete_yes A). intros u Hu. assert (Hpu : party u) by exact (proj1 (@exp_party (ph v) v u (pv Hf) Hv Hu)).
        pose proof (ni_count I u v Hpu Hv Hf) as Hcount. rewrite Nat.leb_refl, (@held_eq net ph v _ (ph v) u Ev), Nat.eqb_refl, Efl, Ed in Hcount.
        cbn [cnt_fl cnt_todo filter List.length plus] in Hcount. unfold cnt_fl, cnt_todo in Hcount. simpl in Hcount.
        assert (Hsu : sent net ph u (ph v) v = true).
        { pose proof Hu as Hd. rewrite <- (@agree (ph v) u v (pv Hf) Hpu Hv) in Hd. unfold sent.
          destruct (Nat.ltb_spec (prank (ph v)) (prank (ph u))) as [L|L]; auto.
          pose proof (ni_node I u Hpu) as Hn. assert (Hinu : In u (elements parties)) by now apply in_elements.
          specialize (Hsent u Hinu). unfold arts_of. destruct (get u (nodes net)) as [[du|rep]|] eqn:Eu'; [| |contradiction].
          - destruct Hn as (Hfu & Gu & Au). assert (Hinf : In u (filter (fun v => match get v (nodes net) with Some (Running _) => true | _ => false end) (elements parties))).
            { apply filter_In. now rewrite Eu'. }
            specialize (Hmin u Hinf). cbv beta in Hmin. assert (E : prank (ph v) = prank (ph u)) by lia. rewrite E, Nat.eqb_refl. apply prank_inj in E. rewrite E in Hd.
            apply negb_false_iff in Hsent. unfold all_sent in Hsent. rewrite forallb_forall in Hsent. apply Hsent. apply in_elements.
            unfold message_destinations. now rewrite (gs_comm Gu).
          - destruct Hn as (E & _). rewrite E in L. pose proof (rank_last Hf). lia. }
        rewrite Hsu in Hcount. destruct (contains u (a_payloads (d_a d))); auto. discriminate. }
      exists (AFinalize v).
      assert (Ha : exists res, act r net (AFinalize v) = Some res). { cbn [act]. rewrite Ev, Hy, Hsv. eauto. }
      destruct Ha as [res Ha]. eauto.
  Qed.

  (** ** The start *)
  Lemma map_res_cons {E A B} (f : A -> Base.res E B) x l : map_res f (x :: l) = let* y := f x in let* ys := map_res f l in Ok (y :: ys).
  Proof. reflexivity. Qed.
  Lemma session_start v : party v -> exists s, session_new (nr_new r v) sid (sk v) (ep v) = Ok s /\ good_sess v (0, false) s.
  Proof.
    intros Hv. unfold session_new. rewrite (Hsk v Hv), (hr_make HL v Hv). cbn [bind].
    apply (@new_main 0 v tr_new); auto; [lia|]. constructor; auto. intros rid H. cbn [tr_new tr_echo tr_normal tr_direct] in H. rewrite !contains_empty in H. discriminate.
  Qed.

  Lemma start_ok : exists net, net_start r sid (map (fun v => (sk v, ep v)) (elements parties)) = Ok net /\ NInv net (fun _ => (0, false)).
  Proof.
    unfold net_start.
    assert (K : forall l, (forall v, In v l -> party v) -> exists l',
      map_res (fun p => let* s := session_new (nr_new r (signer_key (fst p))) sid (fst p) (snd p) in Ok (signer_key (fst p), Running (start s)))
        (map (fun v => (sk v, ep v)) l) = Ok l' /\ map fst l' = l /\
      (forall v nd, In (v, nd) l' -> exists s, nd = Running (start s) /\ good_sess v (0, false) s)).
    { induction l as [|v l IH]; intros Hl; [exists []; repeat split; auto; contradiction|].
      destruct IH as (l' & E & Ek & Hl'); [intros w Hw; apply Hl; now right|].
      assert (Hv : party v) by (apply Hl; now left). destruct (session_start v Hv) as (s & Es & Gs).
      rewrite map_cons, map_res_cons, E. cbn [fst snd]. rewrite (Hsk v Hv), Es. cbn [bind].
      eexists. split; [reflexivity|]. split; [simpl; now rewrite Ek|]. intros w nd [Hin|Hin]; [inv Hin; eauto|eauto]. }
    destruct (K (elements parties)) as (l' & E & Ek & Hl'); [intros v; apply in_elements|]. rewrite E. cbn [bind].
    eexists. split; [reflexivity|].
    assert (Hget : forall v, party v -> exists s, get v (of_list l') = Some (Running (start s)) /\ good_sess v (0, false) s).
    { intros v Hv. assert (Hin : In v (map fst l')) by (rewrite Ek; now apply in_elements). apply in_map_iff in Hin as ([w nd] & Ew & Hin). simpl in Ew. subst w.
      destruct (Hl' v nd Hin) as (s & -> & Gs). exists s. split; auto. apply get_of_list_nodup; auto. rewrite Ek. apply NoDup_elements. }
    assert (Hval : forall v, pvalid v (0, false)) by (split; simpl; [lia|discriminate]).
    set (net0 := mkNet (of_list l') []).
    assert (Hnos : forall u g v, sent net0 (fun _ => (0, false)) u g v = false).
    { intros u g v. unfold sent. destruct (Nat.ltb_spec (prank g) (prank (0, false))) as [L|]; [unfold prank in L; simpl in L; lia|].
      destruct (Nat.eqb _ _); auto. unfold arts_of, net0. cbn [nodes]. destruct (mem u parties) eqn:Hu.
      - destruct (Hget u Hu) as (s & -> & _). apply contains_empty.
      - assert (En : get u (of_list l') = None) by (apply get_of_list_none; rewrite Ek, in_elements; congruence). rewrite En. apply contains_empty. }
    constructor.
    - intros v Hv. unfold net0. cbn [nodes]. apply get_of_list_none. rewrite Ek, in_elements. congruence.
    - intros v Hv. unfold net0. cbn [nodes]. destruct (Hget v Hv) as (s & -> & Gs). split; auto. split; auto. apply good_start; auto. contradiction.
    - intros u m [].
    - intros u v g Hu Hv Hg. rewrite Hnos. cbn [flight cnt_fl filter List.length]. unfold held, net0. cbn [nodes].
      destruct (Hget v Hv) as (s & -> & Gs). cbn [start d_todo d_a]. unfold cnt_fl, cnt_todo, message_is_cached, make_accumulator.
      cbn [flight filter List.length a_payloads a_cached]. rewrite contains_empty, get_empty. cbn [b2n plus].
      repeat destruct (Nat.eqb _ _); destruct (Nat.leb _ _); reflexivity.
    - intros u v g _ _ _ L. unfold prank in L. simpl in L. lia.
  Qed.

  (** ** Conclusions *)
  Lemma inv_fine net ph : NInv net ph -> fine parties net.
  Proof.
    intros I v nd Hnd. destruct (mem v parties) eqn:Hv; [|rewrite (ni_none I v Hv) in Hnd; discriminate].
    pose proof (ni_node I v Hv) as Hn. rewrite Hnd in Hn. destruct nd as [d|rep].
    - destruct Hn as (_ & G & A). split; auto. split.
      + cbn [no_errors]. pose proof (gs_tr G) as Gt. repeat split; first [apply (ga_prov A)|apply (ga_unprov A)|apply Gt].
      + intros d' E. inv E. exact (never_never A).
    - split; auto. split; [apply Hn|discriminate].
  Qed.

  Lemma honest_fine_ : exists net0, honest_net r sid parties sk ep = Ok net0 /\
    forall xs net, schedule r net0 xs net -> fine parties net /\
      forall x res, act r net x = Some res -> exists net', res = Ok net'.
  Proof.
    unfold honest_net; destruct start_ok as (net0 & E & I). exists net0. split; auto. intros xs net Hs. destruct (schedule_ok_ I Hs) as [ph Ip].
    split; [exact (inv_fine Ip)|]. intros x res Hx. destruct (step_ok_ x Ip Hx) as (net' & -> & _). eauto.
  Qed.

  Lemma honest_progress_ net0 : honest_net r sid parties sk ep = Ok net0 ->
    forall xs net, schedule r net0 xs net ->
      (all_ended parties h net /\ flight net = []) \/ exists x net', act r net x = Some (Ok net').
  Proof.
    unfold honest_net; destruct start_ok as (net1 & E & I). rewrite E. intros H; inv H. intros xs net Hs. destruct (schedule_ok_ I Hs) as [ph Ip].
    exact (progress_ Ip).
  Qed.

  Lemma acc_finite net : Acc follows net -> forall f : nat -> Net Pr, f 0 = net ->
    ~ forall i, exists x, act r (f i) x = Some (Ok (f (S i))).
  Proof.
    induction 1 as [net _ IH]. intros f E Hf. apply (IH (f 1)) with (f := fun i => f (S i)); auto.
    rewrite <- E. exact (Hf 0).
  Qed.
  Lemma honest_finite_ net0 : honest_net r sid parties sk ep = Ok net0 ->
    forall f : nat -> Net Pr, f 0 = net0 -> ~ forall i, exists x, act r (f i) x = Some (Ok (f (S i))).
  Proof.
    unfold honest_net; destruct start_ok as (net1 & E & I). rewrite E. intros H; inv H. apply acc_finite. exact (terminates_ I).
  Qed.

  Lemma acc_completes_ net : Acc follows net -> forall ph, NInv net ph -> exists xs net', schedule r net xs net' /\ all_ended parties h net' /\ flight net' = [].
  Proof.
    induction 1 as [net _ IH]. intros ph I. destruct (progress_ I) as [[H1 H2]|(x & net2 & Hx)].
    - exists [], net. split; [constructor|]. auto.
    - destruct (step_ok_ x I Hx) as (net' & E & I' & _). inv E. destruct (IH net' (ex_intro _ x Hx) _ I') as (xs & net3 & Hs & Hd).
      exists (x :: xs), net3. split; auto. clear - Hs Hx. remember net' as n1 eqn:E. revert E. induction Hs; intros ->.
      + change [x] with ([] ++ [x]). econstructor; [constructor|exact Hx].
      + rewrite app_comm_cons. econstructor; eauto.
  Qed.
  Lemma honest_completes_ net0 : honest_net r sid parties sk ep = Ok net0 ->
    forall xs net, schedule r net0 xs net -> exists ys net', schedule r net ys net' /\ all_ended parties h net' /\ flight net' = [].
  Proof.
    unfold honest_net; destruct start_ok as (net1 & E & I). rewrite E. intros H; inv H. intros xs net Hs. destruct (schedule_ok_ I Hs) as [ph Ip].
    exact (acc_completes_ (terminates_ Ip) Ip).
  Qed.

  (** A node that has ended has the result of the plan. *)
  Lemma honest_results_ net0 : honest_net r sid parties sk ep = Ok net0 ->
    forall xs net v rep, schedule r net0 xs net -> get v (nodes net) = Some (Ended rep) ->
      mem v parties = true /\ rep_outcome rep = OResult (pl_result h v).
  Proof.
    unfold honest_net; destruct start_ok as (net1 & E & I). rewrite E. intros H; inv H. intros xs net v rep Hs Hg. destruct (schedule_ok_ I Hs) as [ph Ip].
    destruct (mem v parties) eqn:Hv; [|rewrite (ni_none Ip v Hv) in Hg; discriminate].
    pose proof (ni_node Ip v Hv) as Hn. rewrite Hg in Hn. split; auto. apply Hn.
  Qed.
End Facts.

(** The same with both parts of [honest_run] together. *)
Definition run_lock {P : Params} {Pr : Proto} {r sid parties} {ep : Verifier -> EntryPoint Pr} {h} (HR : honest_run r sid parties ep h) : lock_step r sid parties ep h := proj1 HR.
Coercion run_lock : honest_run >-> lock_step.
Definition skew P Pr r sid parties ep h sk (HR : @honest_run P Pr r sid parties ep h) := @skew_ P Pr r sid parties ep h sk (proj1 HR) (proj2 HR).
Definition deliver_kind P Pr r sid parties ep h sk (HR : @honest_run P Pr r sid parties ep h) := @deliver_kind_' P Pr r sid parties ep h sk (proj1 HR) (proj2 HR).
Definition step_ok P Pr r sid parties ep h sk Hsk Hwire Hsig (HR : @honest_run P Pr r sid parties ep h) := @step_ok_ P Pr r sid parties ep h sk Hsk Hwire Hsig (proj1 HR) (proj2 HR).
Definition terminates P Pr r sid parties ep h sk Hsk Hwire Hsig (HR : @honest_run P Pr r sid parties ep h) := @terminates_ P Pr r sid parties ep h sk Hsk Hwire Hsig (proj1 HR) (proj2 HR).
Definition schedule_ok P Pr r sid parties ep h sk Hsk Hwire Hsig (HR : @honest_run P Pr r sid parties ep h) := @schedule_ok_ P Pr r sid parties ep h sk Hsk Hwire Hsig (proj1 HR) (proj2 HR).
Definition progress P Pr r sid parties ep h sk Hsk Hwire Hsig (HR : @honest_run P Pr r sid parties ep h) := @progress_ P Pr r sid parties ep h sk Hsk Hwire Hsig (proj1 HR) (proj2 HR).
Definition honest_fine P Pr r sid parties ep h sk Hsk Hwire Hsig (HR : @honest_run P Pr r sid parties ep h) := @honest_fine_ P Pr r sid parties ep h sk Hsk Hwire Hsig (proj1 HR) (proj2 HR).
Definition honest_progress P Pr r sid parties ep h sk Hsk Hwire Hsig (HR : @honest_run P Pr r sid parties ep h) := @honest_progress_ P Pr r sid parties ep h sk Hsk Hwire Hsig (proj1 HR) (proj2 HR).
Definition honest_finite P Pr r sid parties ep h sk Hsk Hwire Hsig (HR : @honest_run P Pr r sid parties ep h) := @honest_finite_ P Pr r sid parties ep h sk Hsk Hwire Hsig (proj1 HR) (proj2 HR).
Definition acc_completes P Pr r sid parties ep h sk Hsk Hwire Hsig (HR : @honest_run P Pr r sid parties ep h) := @acc_completes_ P Pr r sid parties ep h sk Hsk Hwire Hsig (proj1 HR) (proj2 HR).
Definition honest_completes P Pr r sid parties ep h sk Hsk Hwire Hsig (HR : @honest_run P Pr r sid parties ep h) := @honest_completes_ P Pr r sid parties ep h sk Hsk Hwire Hsig (proj1 HR) (proj2 HR).
Definition honest_results P Pr r sid parties ep h sk Hsk Hwire Hsig (HR : @honest_run P Pr r sid parties ep h) := @honest_results_ P Pr r sid parties ep h sk Hsk Hwire Hsig (proj1 HR) (proj2 HR).

(** Only who sends and echoes to whom matters. *)
Lemma in_step_same {P : Params} {Pr Pr' : Proto} parties (h : Plan Pr) (h' : Plan Pr') : pl_last h' = pl_last h ->
  (forall n v, pl_dest h' n v = pl_dest h n v) -> (forall n v, pl_from h' n v = pl_from h n v) ->
  (forall n v, echoes h' n v = echoes h n v) -> (forall n v, partners h' n v = partners h n v) -> in_step parties h -> in_step parties h'.
Proof.
  intros E1 E2 E3 E4 E5 H g v u Hn Hv Hu.
  assert (Es : forall g v, sends h' g v = sends h g v) by (intros; unfold sends; now rewrite E2, E4, E5).
  assert (Ee : forall g v, expects h' g v = expects h g v) by (intros; unfold expects; now rewrite E3, E4, E5).
  rewrite E1 in Hn. rewrite Es in Hu. destruct (H g v u Hn Hv Hu) as (q & Hc & Hq). exists q. split.
  - clear - Hc Ee. induction Hc as [v g u|v g q E|v g g' w u q B E H IH]; [constructor|now constructor|].
    apply certain_heard with (g' := g') (w := w); auto. now rewrite Ee.
  - intros g' H1 H2. rewrite E4. auto.
Qed.
Lemma heard_in_step {P : Params} {Pr : Proto} parties (h : Plan Pr) : heard_from parties h -> in_step parties h.
Proof.
  intros [H1 H2] [n b] v u Hn Hv Hu. cbn [fst] in Hn. unfold sends in Hu. cbn [fst snd] in Hu. destruct b.
  - destruct (echoes h n v) eqn:E; [|discriminate]. exists (n, false). split.
    + destruct (H1 n v u Hn Hv E Hu) as [->|Hx]; [constructor|]. eapply certain_heard with (g' := (n, false)) (w := u); [now right|exact Hx|].
      constructor. now left.
    + intros [k c] [L|(L & L1 & L2)] [L'|(L' & L3 & L4)]; cbn [fst snd] in *; try lia; congruence.
  - destruct n as [|n].
    + exists (0, false). split; [constructor|]. intros [k c] _ [L'|(L' & L3 & L4)]; cbn [fst snd] in *; [lia|discriminate].
    + pose proof (H2 n v u Hn Hv Hu) as Hx. destruct (echoes h n u) eqn:E.
      * destruct Hx as [Ev Hx]. exists (n, true). split.
        -- eapply certain_heard with (g' := (n, true)) (w := u); [left; simpl; lia| |constructor; now left]. unfold expects. cbn [fst snd]. now rewrite Ev.
        -- intros [k c] [L|(L & L1 & L2)] [L'|(L' & L3 & L4)]; cbn [fst snd] in *; try lia; congruence.
      * exists (n, false). split.
        -- destruct Hx as [->|Hx]; [constructor|]. eapply certain_heard with (g' := (n, false)) (w := u); [left; simpl; lia|exact Hx|constructor; now left].
        -- intros [k c] [L|(L & L1 & L2)] [L'|(L' & L3 & L4)]; cbn [fst snd] in *; try lia; try congruence. subst k. auto.
Qed.

(** Where every round is all-to-all the conditions on who sends to whom hold. *)
Section AllToAll.
  Context {P : Params}.
  Context {Pr : Proto}.
  Variables (parties : bset Verifier) (h : Plan Pr).
  Hypothesis HA : all_to_all parties h.

  Hypothesis HE : full_echo parties h.

  Lemma all_to_all_shape :
    (forall n v u, n <= pl_last h -> mem v parties = true -> mem u (pl_dest h n v) = true -> mem u parties = true /\ u <> v) /\
    (forall n v u, n <= pl_last h -> mem v parties = true -> mem u (pl_from h n v) = true -> mem u parties = true /\ u <> v) /\
    (forall n u v, n <= pl_last h -> mem u parties = true -> mem v parties = true -> mem v (pl_dest h n u) = mem u (pl_from h n v)) /\
    (forall n v u, n <= pl_last h -> mem v parties = true -> echoes h n v = true -> mem u (partners h n v) = true ->
       mem u parties = true /\ u <> v /\ echoes h n u = true /\ mem v (partners h n u) = true) /\
    (forall n v u w, n <= pl_last h -> mem v parties = true -> echoes h n v = true -> mem u (partners h n v) = true ->
       mem w (srem u (echoed h n v)) = (mem w (pl_from h n u) && negb (is_none (pl_echo h n w)))%bool) /\
    in_step parties h.
  Proof.
    assert (K : forall v u, mem u (srem v parties) = true -> mem u parties = true /\ u <> v).
    { intros v u H. rewrite mem_rem in H. destruct (eqb_spec u v); try discriminate. auto. }
    assert (Hp : forall n v, n <= pl_last h -> mem v parties = true -> partners h n v = srem v parties).
    { intros n v Hn Hv. unfold partners. destruct (@HE n v Hn Hv) as [-> _]. now destruct (@HA n v Hn Hv) as [-> _]. }
    assert (He : forall n v, n <= pl_last h -> mem v parties = true -> echoes h n v = negb (is_none (pl_echo h n v))).
    { intros n v Hn Hv. unfold echoes. now destruct (@HE n v Hn Hv) as [-> _]. }
    assert (Hs : forall n v u, n <= pl_last h -> mem v parties = true -> mem u parties = true -> is_none (pl_echo h n u) = is_none (pl_echo h n v)).
    { intros n v u Hn Hv Hu. destruct (@HE n v Hn Hv) as [_ H]. specialize (H u Hu). destruct (pl_echo h n u), (pl_echo h n v); auto.
      - discriminate (proj2 H eq_refl).
      - discriminate (proj1 H eq_refl). }
    split; [|split; [|split; [|split; [|split; [|apply heard_in_step; split]]]]].
    - intros n v u Hn Hv. destruct (@HA n v Hn Hv) as [-> _]. apply K.
    - intros n v u Hn Hv. destruct (@HA n v Hn Hv) as [_ ->]. apply K.
    - intros n u v Hn Hu Hv. destruct (@HA n u Hn Hu) as [-> _]. destruct (@HA n v Hn Hv) as [_ ->]. now rewrite !mem_rem, Hu, Hv, eqb_sym.
    - intros n v u Hn Hv Ev Hm. rewrite (Hp n v Hn Hv) in Hm. destruct (K _ _ Hm) as [Hu Hne]. split; auto. split; auto.
      rewrite (He n u Hn Hu), (Hs n v u Hn Hv Hu), <- (He n v Hn Hv). split; auto. rewrite (Hp n u Hn Hu), mem_rem, Hv.
      destruct (eqb_spec v u); [congruence|reflexivity].
    - intros n v u w Hn Hv Ev Hm. rewrite (Hp n v Hn Hv) in Hm. destruct (K _ _ Hm) as [Hu Hne]. unfold echoed.
      destruct (@HE n v Hn Hv) as [-> _]. destruct (@HA n v Hn Hv) as [_ ->]. destruct (@HA n u Hn Hu) as [_ ->].
      rewrite !mem_rem, mem_add, mem_rem. destruct (eqb_spec w u) as [->|Hwu]; auto. cbn [negb andb].
      assert (Ew : mem w parties = true -> negb (is_none (pl_echo h n w)) = true).
      { intros Hw. rewrite (Hs n v w Hn Hv Hw), <- (He n v Hn Hv). auto. }
      destruct (eqb_spec w v) as [->|]; cbn [negb andb orb].
      + now rewrite Hv, Ew.
      + destruct (mem w parties); [now rewrite Ew|reflexivity].
    - intros n v u Hn Hv Ev Hm. right. rewrite (Hp n v Hn Hv) in Hm. now destruct (@HA n v Hn Hv) as [_ ->].
    - intros n v u Hn Hv. destruct (@HA (S n) v Hn Hv) as [-> _]. intros Hm. destruct (K _ _ Hm) as [Hu Hne]. assert (Hn' : n <= pl_last h) by lia.
      rewrite (He n u Hn' Hu), (Hs n v u Hn' Hv Hu), <- (He n v Hn' Hv), (Hp n v Hn' Hv). destruct (@HA n v Hn' Hv) as [_ ->].
      destruct (echoes h n v); auto.
  Qed.
End AllToAll.
