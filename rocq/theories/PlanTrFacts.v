(** What the transcripts of honest nodes contain. *)
From Coq Require Import List NArith Bool Lia Arith.
From Verif Require Import Base BMap Errors RoundId Message Protocol Transcript Evidence Session Spec SpecCrypto
  MessageFacts SessionFacts Network SpecNet NetFacts RunSyncFacts.
Import ListNotations.
Set Implicit Arguments.

Section Facts.
  Context {P : Params}.
  Context {Pr : Proto}.
  Variable r : NetRng.
  Variable sid : bytes.
  Variable parties : bset Verifier.
  Variable ep : Verifier -> EntryPoint Pr.
  Variable h : Plan Pr.
  Variable sk : Verifier -> Signer.
  Hypothesis Hsk : signers parties sk.
  Hypothesis Hwire : wire_total P.
  Hypothesis Hsig : signatures_correct P.
  Hypothesis HR : honest_run r sid parties ep h.

  Notation R := (pl_rid h).
  Notation Inv := (NInv sid parties h sk).
  Notation prid := (prid h).
  Notation pnext := (pnext h).
  Notation pvalid := (pvalid h).
  Notation exp := (exp h).
  Notation good_vm := (good_vm sid h).
  Notation all_echos := (all_echos sid h).

  Definition kept {k} (p : SPart k) (o : option (SPart k)) : Prop := sp_body p <> None -> o = Some p.
  Definition got {V} (rid : RoundId) (u : Verifier) (m : bmap RoundId (bmap Verifier V)) : option V :=
    match get rid m with Some x => get u x | None => None end.

  Record TN (v : Verifier) (f : phase) (s : Session Pr) (a : Accum Pr) : Prop := {
    tn_echo : forall j, j <= pl_last h -> prank (j, false) < prank f ->
      exists echos, get (R j) (tr_echo (s_tr s)) = Some echos /\ all_echos j v echos;
    tn_parts : forall g u, pvalid v g -> prank g < prank f -> mem u (exp g v) = true ->
      exists m, good_vm g u v m /\ kept (vm_normal m) (got (prid g) u (tr_normal (s_tr s))) /\
        kept (vm_direct m) (got (prid g) u (tr_direct (s_tr s)));
    tn_acc : forall u, contains u (a_payloads a) = true ->
      exists m, good_vm f u v m /\ kept (vm_normal m) (get u (a_normal a)) /\ kept (vm_direct m) (get u (a_direct a))
  }.
  Definition TInv (net : Net Pr) (ph : Verifier -> phase) : Prop :=
    forall v d, get v (nodes net) = Some (Running d) -> TN v (ph v) (d_s d) (d_a d).

  Lemma tn_same v f s a a' : a_payloads a' = a_payloads a -> a_normal a' = a_normal a -> a_direct a' = a_direct a -> TN v f s a -> TN v f s a'.
  Proof. intros H1 H2 H3 T. constructor; try apply T. rewrite H1, H2, H3. apply T. Qed.

  Lemma ins_kept {k} u (p : SPart k) m : kept p (get u (ins_part u p m)).
  Proof. unfold kept, ins_part. intros H. destruct (sp_body p); [|congruence]. cbn [is_none]. apply get_insert_eq. Qed.
  Lemma ins_kept_ne {k} u w (p q : SPart k) m : u <> w -> kept q (get u m) -> kept q (get u (ins_part w p m)).
  Proof. unfold kept, ins_part. intros Hne H Hq. destruct (is_none (sp_body p)); auto. rewrite get_insert_ne; auto. Qed.

  Lemma preprocessed_same (s : Session Pr) a from m a' o : preprocess_message s a from m = (a', o) ->
    a_payloads a' = a_payloads a /\ a_normal a' = a_normal a /\ a_direct a' = a_direct a.
  Proof.
    unfold preprocess_message, reject, register_unprovable, mark_processing, cache_message.
    repeat match goal with
      | |- (if ?b then _ else _) = _ -> _ => destruct b
      | |- match ?x with _ => _ end = _ -> _ => destruct x
      | |- (_, _) = _ -> _ => intros H; inv H; now auto
      end.
  Qed.

  (** Closing a round adds the messages of that round, and keeps the others. *)
  Lemma closed (s : Session Pr) a t : close_round s a = Ok t ->
    tr_echo t = insert (s_round_id s) (insert (s_verifier s) (s_echo s) (a_echo a)) (tr_echo (s_tr s)) /\
    tr_normal t = insert (s_round_id s) (a_normal a) (tr_normal (s_tr s)) /\
    tr_direct t = insert (s_round_id s) (a_direct a) (tr_direct (s_tr s)).
  Proof.
    unfold close_round, tr_update. intros H. apply bind_ok in H as (e & H1 & H). apply bind_ok in H as (n & H2 & H). apply bind_ok in H as (d & H3 & H).
    apply bind_ok in H as (p & H4 & H). apply bind_ok in H as (u & H5 & H). apply bind_ok in H as (m & H6 & H). inv H. cbn [tr_echo tr_normal tr_direct].
    destruct (contains _ (tr_echo _)); [discriminate|]. destruct (contains _ (tr_normal _)); [discriminate|]. destruct (contains _ (tr_direct _)); [discriminate|].
    inv H1. inv H2. inv H3. auto.
  Qed.

  Lemma tn_next v f s a todo t s' : mem v parties = true -> pvalid v f -> good_sess sid h sk v f s -> good_acc sid h v f a todo ->
    can_finalize a = Yes -> close_round s a = Ok t -> s_tr s' = t -> TN v f s a -> TN v (pnext v f) s' (make_accumulator s').
  Proof.
    intros Hv Hf G A Hy Ht Es T. destruct (closed _ _ Ht) as (E1 & E2 & E3). rewrite (good_rid HR Hf Hv G) in E1, E2, E3.
    rewrite (gs_verifier G) in E1.
    assert (Hpid : forall g, pvalid v g -> prank g < prank f -> prid g <> prid f).
    { intros g Hg Hlt E. apply (prid_eq HR Hg Hf) in E. subst. lia. }
    constructor; rewrite ?Es.
    - intros j Hj Hlt. assert (Hg : pvalid v (j, false)) by (split; [exact Hj|discriminate]). pose proof (lt_next Hf Hg Hlt) as Hle.
      destruct (Nat.eq_dec (prank (j, false)) (prank f)) as [E|Hne].
      + apply prank_inj in E. subst f. rewrite E1. change (R j) with (prid (j, false)). rewrite get_insert_eq. eexists. split; [reflexivity|].
        exact (all_echos_ok G A Hy).
      + rewrite E1. change (R j) with (prid (j, false)). rewrite get_insert_ne by (apply Hpid; auto; lia). apply (tn_echo T); auto. lia.
    - intros g u Hg Hlt Hu. pose proof (lt_next Hf Hg Hlt) as Hle. unfold got. rewrite E2, E3.
      destruct (Nat.eq_dec (prank g) (prank f)) as [E|Hne].
      + apply prank_inj in E. subst g. rewrite !get_insert_eq. exact (tn_acc T u (yes_complete A Hy u Hu)).
      + rewrite !get_insert_ne by (apply Hpid; auto; lia). apply (tn_parts T); auto. lia.
    - intros u Hu. unfold make_accumulator in Hu. cbn [a_payloads] in Hu. rewrite contains_empty in Hu. discriminate.
  Qed.

  Lemma finalize_tr (s : Session Pr) g a s' c : finalize_round s g a = Ok (ROAnother s' c) -> exists t, close_round s a = Ok t /\ s_tr s' = t.
  Proof. intros H. apply finalize_another in H as [t info echos H1 _ _ H2 _|t st H1 _ _ _ H2 _]; exists t; split; auto; apply (cr_tr H2). Qed.

  Lemma t_step net ph x net' : Inv net ph -> TInv net ph -> act r net x = Some (Ok net') -> TInv net' (upd h ph x).
  Proof.
    intros I T Hx w dw Hw. destruct x as [v u|i|v i|v]; cbn [act upd] in *.
    - destruct (get v (nodes net)) as [[d|rep]|] eqn:Ev; try discriminate. destruct (_ && _)%bool; [|discriminate]. apply some_inj in Hx.
      destruct (make_message _ _ _) as [[m pa]| |]; try discriminate. cbn [bind] in Hx. unfold with_accum in Hx.
      destruct (add_artifact (d_a d) pa) as [a [[]| |]] eqn:Ea; try discriminate. cbn [bind] in Hx. injection Hx as <-. cbn [nodes] in Hw.
      rewrite get_insert in Hw. destruct (eqb_spec w v) as [->|]; [|now apply T]. injection Hw as <-. cbn [d_s d_a].
      apply add_artifact_ok in Ea as (_ & ->). apply tn_same with (a := d_a d); auto.
    - destruct (take_nth i (flight net)) as [[[u m] rest]|]; [|discriminate].
      destruct (get (msg_dest m) (nodes net)) as [[d|rep]|] eqn:Ev; try discriminate.
      + apply some_inj in Hx. unfold with_accum in Hx. destruct (preprocess_message (d_s d) (d_a d) u m) as [a [o| |]] eqn:Ea; try discriminate.
        cbn [bind] in Hx. injection Hx as <-. cbn [nodes] in Hw. rewrite get_insert in Hw.
        destruct (eqb_spec w (msg_dest m)) as [->|]; [|now apply T]. injection Hw as <-. cbn [d_s d_a].
        destruct (preprocessed_same _ _ _ _ Ea) as (H1 & H2 & H3). apply tn_same with (a := d_a d); auto.
      + injection Hx as <-. now apply T.
    - destruct (get v (nodes net)) as [[d|rep]|] eqn:Ev; try discriminate. destruct (take_nth i (d_todo d)) as [[m todo]|] eqn:Et; [|discriminate].
      apply some_inj in Hx. unfold with_accum in Hx. destruct (add_processed (d_s d) (d_a d) (process_message (d_s d) m)) as [a [b| |]] eqn:Ea; try discriminate.
      cbn [bind] in Hx. injection Hx as <-. cbn [set_node nodes] in Hw. rewrite get_insert in Hw.
      destruct (eqb_spec w v) as [->|]; [|now apply T]. injection Hw as <-. cbn [d_s d_a].
      destruct (mem v parties) eqn:Hv; [|rewrite (ni_none I v Hv) in Ev; discriminate].
      pose proof (ni_node I v Hv) as Hn. rewrite Ev in Hn. destruct Hn as (Hf & G & A).
      destruct (take_nth_spec _ _ Et) as (l1 & l2 & El & ->). assert (Hin : In m (d_todo d)) by (rewrite El; apply in_or_app; right; now left).
      destruct (ga_todo A m Hin) as [Gm Hex].
      destruct (contains (vm_from m) (a_payloads (d_a d))) eqn:Hc.
      { unfold add_processed in Ea. cbn [process_message pm_msg] in Ea. rewrite Hc in Ea. discriminate. }
      rewrite (proc_ok HR Hf Hv G A Gm Hex Hc) in Ea. injection Ea as <- _. pose proof (T v d Ev) as Tn.
      constructor; [apply Tn|apply Tn|]. intros w Hu. cbn [a_done a_payloads a_normal a_direct] in *. rewrite contains_insert in Hu.
      destruct (eqb_spec w (vm_from m)) as [Ew|Hne]; [subst w|].
      + exists m. split; [exact Gm|]. split; apply ins_kept.
      + destruct (tn_acc Tn w Hu) as (m' & H1 & H2 & H3). exists m'. split; auto. split; now apply ins_kept_ne.
    - destruct (get v (nodes net)) as [[d|rep]|] eqn:Ev; try discriminate. destruct (can_finalize (d_a d)) eqn:Hy; try discriminate.
      destruct (all_sent d); [|discriminate]. apply some_inj in Hx.
      destruct (finalize_round _ _ _) as [ro| |] eqn:Ef; try discriminate. cbn [bind] in Hx. injection Hx as <-. cbn [set_node nodes] in Hw.
      rewrite get_insert in Hw. destruct (eqb_spec w v) as [->|]; [|now apply T]. destruct ro as [rep|s' c]; [discriminate|]. injection Hw as <-. cbn [d_s d_a].
      destruct (mem v parties) eqn:Hv; [|rewrite (ni_none I v Hv) in Ev; discriminate].
      pose proof (ni_node I v Hv) as Hn. rewrite Ev in Hn. destruct Hn as (Hf & G & A). destruct (finalize_tr _ _ _ Ef) as (t & Ht & Es).
      exact (tn_next _ Hv Hf G A Hy Ht Es (T v d Ev)).
  Qed.

  Lemma t_start net : net_start r sid (map (fun v => (sk v, ep v)) (elements parties)) = Ok net -> TInv net (fun _ => (0, false)).
  Proof.
    unfold net_start. intros H. apply bind_ok in H as (l & El & H). injection H as <-.
    destruct (@net_start_nodes _ _ r sid parties ep sk Hsk (elements parties)) with (l' := l) as [Hk Hl]; [intros v; apply in_elements|exact El|].
    intros v d Hd. cbn [nodes] in Hd. apply get_of_list_nodup in Hd; [|rewrite Hk; apply NoDup_elements]. destruct (Hl _ _ Hd) as (s & _ & E). injection E as ->. cbn [start d_s d_a].
    constructor.
    - intros j _ L. unfold prank in L. cbn [fst snd b2n] in L. lia.
    - intros g u _ L. unfold prank in L. cbn [fst snd b2n] in L. lia.
    - intros u Hu. unfold make_accumulator in Hu. cbn [a_payloads] in Hu. rewrite contains_empty in Hu. discriminate.
  Qed.
End Facts.
