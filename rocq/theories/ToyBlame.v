(** Executable worlds of correctly attributed messages over the toy parameters, for the examples and witnesses. *)
From Coq Require Import List NArith Bool Lia Permutation.
From Verif Require Import Base BMap Errors RoundId Message Protocol Transcript Evidence Session Spec SpecCrypto SpecEvidence
  SpecBlame MessageFacts IntakeFacts SessionFacts HistoryFacts RunSyncFacts BlameFacts Exec Toy ToyCrypto ToyWorld.
Import ListNotations.
Set Implicit Arguments.

(** The given parties, two rounds, everybody sends to everybody, echo broadcast in round 1. *)
Definition cfgL (ps : list N) : Cfg :=
  mkCfg 2 (fun n => N.eqb n 1) (fun _ me => @mkComm toyP (srem me (set_of_list ps)) (srem me (set_of_list ps)) (@EPDefault toyP)).
Definition toy_rids (n : nat) : RoundId := rid_new (N.of_nat (S n)).
Definition toy_echoed (n : nat) : bool := N.eqb (N.of_nat (S n)) 1.
Definition toy_at (n : nat) (v : N) (st : ToySt) : Prop := ts_round st = N.of_nat (S n) /\ ts_me st = v /\ n < 2.

Lemma toy_uniform x y ps : x <> y -> In x ps -> In y ps ->
  @uniform toyP (toyPr (cfgL ps)) (set_of_list ps) toy_rids toy_echoed toy_at.
Proof.
  intros Hne Hx Hy. constructor.
  - intros v. destruct (N.eq_dec v x) as [->|H]; [exists y|exists x]; (split; [congruence|]); now apply mem_set_of_list.
  - intros n k H. injection H as H. lia.
  - reflexivity.
  - intros n v [r me sm] (E & _). simpl in *. subst r. unfold toy_tinfo. cbn [ts_round]. destruct (N.ltb _ _); reflexivity.
  - intros n v [r me sm] u st' (E & _) (_ & _ & H). simpl in E. subst r. assert (n = 0) by lia. subst n. vm_compute. reflexivity.
  - intros n v [r me sm] (E1 & E2 & _). simpl in E1, E2. subst. reflexivity.
  - intros n v [r me sm] g b (E & _) H. cbn [ts_round] in E. subst r. cbn [mk_echo toyPr c_echo cfgL ts_round] in H. fold (toy_echoed n) in H.
    injection H as <-. destruct (toy_echoed n); reflexivity.
  - intros n v [r me sm] from m p (E & _) He H. cbn [ts_round] in E. subst r.
    change (toy_receive (cfgL ps) (mkToySt (N.of_nat (S n)) me sm) from m = Ok p) in H.
    unfold toy_receive in H. cbn [ts_round c_echo cfgL] in H. fold (toy_echoed n) in H. rewrite He in H.
    destruct (one_byte (dm_direct m)) as [b|]; [|discriminate]. destruct (dm_echo m); [reflexivity|discriminate].
  - intros n v [r me sm] g pl arts st' (E1 & E2 & Hn) H. cbn [ts_round ts_me] in E1, E2. subst r me.
    cbn [finalize toyPr ts_round c_last cfgL ts_me ts_sum] in H. destruct (N.ltb_spec (N.of_nat (S n)) 2) as [Hl|Hl]; [|discriminate].
    injection H as <-. unfold toy_at. cbn [ts_round ts_me]. repeat split; lia.
Qed.

Inductive ccmd :=
| XSend (v dest : @Verifier toyP)                              (* party v makes its message for dest *)
| XDeliver (n : nat)                                (* the n-th message on its way arrives *)
| XLie (v from : @Verifier toyP) (m : Message (P := toyP))       (* a message arrives in the name of a dishonest party *)
| XProc (v : @Verifier toyP) (n : nat)
| XFin (v : @Verifier toyP).

Section Cfg.
  Context (ps : list N).
  Context (hon : N -> bool).
  Notation W := (CWorld (toyPr (cfgL ps))).
  Implicit Types (w : W) (d : DState (toyPr (cfgL ps))).

  Definition cupd (f : N -> option (DState (toyPr (cfgL ps)))) (v : N) d : N -> option (DState (toyPr (cfgL ps))) :=
    fun v' => if N.eqb v' v then Some d else f v'.
  Lemma cupd_changes w v d way : changes w (mkCWorld (cupd (cw_node w) v d) way) (v : @Verifier toyP) d.
  Proof.
    split; simpl; unfold cupd; [now rewrite N.eqb_refl|]. intros v' H. destruct (N.eqb_spec v' v); congruence.
  Qed.

  Definition at_node w (v : N) (x : cmd (P := toyP)) : option (DState (toyPr (cfgL ps)) * DState (toyPr (cfgL ps))) :=
    match cw_node w v with
    | Some d => match exec1 g0 d x with Some (_, d') => Some (d, d') | None => None end
    | None => None
    end.

  Definition cexec1 w (x : ccmd) : option W :=
    match x with
    | XSend v dest =>
        match at_node w v (@CArt toyP dest) with
        | Some (d, d') => Some (mkCWorld (cupd (cw_node w) v d')
            ((if hon dest then [((v : @Verifier toyP), (dest : @Verifier toyP), tmsg (d_s d) dest)] else []) ++ cw_way w))
        | None => None
        end
    | XDeliver n =>
        match take_nth n (cw_way w) with
        | Some (l1, (u, v, m), l2) =>
            match at_node w v (CPre u m) with
            | Some (d, d') => Some (mkCWorld (cupd (cw_node w) v d') (l1 ++ l2))
            | None => None
            end
        | None => None
        end
    | XLie v from m =>
        if hon from then None else
        match at_node w v (@CPre toyP from m) with Some (d, d') => Some (mkCWorld (cupd (cw_node w) v d') (cw_way w)) | None => None end
    | XProc v n => match at_node w v (CProc n) with Some (d, d') => Some (mkCWorld (cupd (cw_node w) v d') (cw_way w)) | None => None end
    | XFin v => match at_node w v (CFin) with Some (d, d') => Some (mkCWorld (cupd (cw_node w) v d') (cw_way w)) | None => None end
    end.

  Lemma at_node_ok w v x d d' : at_node w v x = Some (d, d') -> cw_node w v = Some d /\ exists e, exec1 g0 d x = Some (e, d') /\ step d e d'.
  Proof.
    unfold at_node. destruct (cw_node w v) as [d1|]; [|discriminate]. destruct (exec1 g0 d1 x) as [[e d2]|] eqn:E; [|discriminate].
    intros H. apply some_inj in H. assert (d1 = d) by congruence. assert (d2 = d') by congruence. subst. split; auto.
    exists e. split; auto. exact (exec1_step _ _ _ E).
  Qed.

  Lemma pre_event d from m e d' : exec1 g0 d (CPre from m) = Some (e, d') -> exists o, e = EPre from m o.
  Proof.
    destruct d as [s a todo]. cbn [exec1]. destruct (preprocess_message s a from m) as [a' [o| |]]; try discriminate.
    intros H. exists o. congruence.
  Qed.

  Lemma cexec1_ok w x w' : cexec1 w x = Some w' -> cstep hon w w'.
  Proof.
    destruct x as [v dest|n|v from m|v n|v]; cbn [cexec1].
    - destruct (at_node w v _) as [[d d']|] eqn:E; [|discriminate]. intros H. apply some_inj in H. subst w'.
      apply at_node_ok in E as (En & e & Ee & Hs). destruct d as [s a todo].
      cbn [exec1] in Ee. match type of Ee with (if ?b then _ else _) = _ => destruct b eqn:Em; [|discriminate] end.
      destruct (make_message s g0 dest) as [[m [dest' art]]| |] eqn:Emk; try discriminate.
      destruct (eqb_spec dest' dest) as [->|]; [|discriminate].
      destruct (add_artifact a (dest, art)) as [a' [[]| |]] eqn:E; try discriminate.
      apply some_inj in Ee. injection Ee as <- <-.
      eapply c_send; [exact En|exact Emk|exact Hs|apply cupd_changes|].
      cbn [cw_way d_s]. unfold tmsg. rewrite Emk. reflexivity.
    - destruct (take_nth n (cw_way w)) as [[[l1 [[u v] m]] l2]|] eqn:Et; [|discriminate].
      destruct (at_node w v _) as [[d d']|] eqn:E; [|discriminate]. intros H. apply some_inj in H. subst w'.
      apply at_node_ok in E as (En & e & Ee & Hs). destruct (pre_event _ _ _ Ee) as [o ->].
      eapply c_deliver; [exact En| |exact Hs|apply cupd_changes]. apply take_nth_ok in Et. rewrite Et. cbn [cw_way].
      apply Permutation_sym, Permutation_middle.
    - destruct (hon from) eqn:Eh; [discriminate|].
      destruct (at_node w v _) as [[d d']|] eqn:E; [|discriminate]. intros H. apply some_inj in H. subst w'.
      apply at_node_ok in E as (En & e & Ee & Hs). destruct (pre_event _ _ _ Ee) as [o ->].
      eapply c_lie; [exact En|exact Eh|exact Hs|apply cupd_changes|reflexivity].
    - destruct (at_node w v _) as [[d d']|] eqn:E; [|discriminate]. intros H. apply some_inj in H. subst w'.
      apply at_node_ok in E as (En & e & Ee & Hs).
      eapply c_local; [exact En| |exact Hs|apply cupd_changes|reflexivity]. left.
      destruct d as [s a todo]. cbn [exec1] in Ee. destruct (take_nth n todo) as [[[t1 vm] t2]|]; [|discriminate].
      destruct (add_processed _ _ _) as [a' [[]| |]]; try discriminate. exists vm. congruence.
    - destruct (at_node w v _) as [[d d']|] eqn:E; [|discriminate]. intros H. apply some_inj in H. subst w'.
      apply at_node_ok in E as (En & e & Ee & Hs).
      eapply c_local; [exact En| |exact Hs|apply cupd_changes|reflexivity]. right.
      destruct d as [s a todo]. cbn [exec1] in Ee. destruct (can_finalize a); try discriminate.
      destruct (finalize_round s g0 a) as [[rep|s' cc]| |]; try discriminate. exists g0. congruence.
  Qed.

  (** The honest ones of the parties, at the start. *)
  Definition cbegin : W := mkCWorld (fun v => if (hon v && @mem _ OrdN v (set_of_list ps))%bool then Some (tstart (cfgL ps) v) else None) [].

  Lemma first_round me : s_round (tsession (cfgL ps) me) = RMain (mkToySt 1 me 0 : St (toyPr (cfgL ps))).
  Proof.
    unfold tsession. destruct (session_new g0 sid0 (me : @Signer toyP) (toyEP (cfgL ps))) as [s|e|] eqn:E.
    - simpl. apply session_new_ok in E as (st & Hst & C). cbn [ep_make toyEP] in Hst. rewrite (cr_round C).
      assert (Ok (mkToySt 1 me 0) = @Ok LocalError _ st) as H by exact Hst. injection H as <-. reflexivity.
    - exfalso. unfold session_new, new_for_next_round, sign_part in E; simpl in E; destruct (is_empty _); simpl in E; discriminate.
    - exfalso. unfold session_new, new_for_next_round, sign_part in E; simpl in E; destruct (is_empty _); simpl in E; discriminate.
  Qed.

  Lemma cbegin_ok : @cstart toyP (toyPr (cfgL ps)) hon (set_of_list ps) sid0 toy_at cbegin.
  Proof.
    split; auto. intros v d. cbn [cw_node cbegin].
    destruct (hon v) eqn:Eh; [|discriminate]. cbn [andb]. match goal with |- (if ?b then _ else _) = _ -> _ => destruct b eqn:Em; [|discriminate] end.
    intros H. apply some_inj in H. subst. split; auto. split; auto.
    exists (tsession (cfgL ps) v), (mkToySt 1 v 0 : St (toyPr (cfgL ps))). destruct (session_fields (cfgL ps) v) as [H1 H2].
    split; [apply toy_initial|]. split; auto. split; auto. split; [apply first_round|]. split; auto.
    unfold toy_at. cbn. repeat split; lia.
  Qed.

  Fixpoint cplay w (ws : list W) (xs : list ccmd) : option (W * list W) :=
    match xs with
    | [] => Some (w, ws)
    | x :: xs => match cexec1 w x with Some w' => cplay w' (w :: ws) xs | None => None end
    end.
  Lemma cplay_ok (b : W -> Prop) w ws xs w' ws' : ctrace hon b (w :: ws) -> cplay w ws xs = Some (w', ws') -> ctrace hon b (w' :: ws').
  Proof.
    revert w ws. induction xs as [|x xs IH]; simpl; intros w ws Ht H.
    - injection H as <- <-. exact Ht.
    - destruct (cexec1 w x) as [w1|] eqn:E; [|discriminate]. apply (IH _ _ (ct_step Ht (cexec1_ok _ _ E)) H).
  Qed.
  Definition cfinal (xs : list ccmd) : W * list W := match cplay cbegin [] xs with Some p => p | None => (cbegin, []) end.
  Definition cworlds (xs : list ccmd) : list W := fst (cfinal xs) :: snd (cfinal xs).
  Lemma cfinal_ok xs : ctrace hon (@cstart toyP (toyPr (cfgL ps)) hon (set_of_list ps) sid0 toy_at) (cworlds xs).
  Proof.
    unfold cworlds, cfinal. destruct (cplay cbegin [] xs) as [[w ws]|] eqn:E; simpl.
    - eapply cplay_ok; [constructor; apply cbegin_ok|exact E].
    - constructor. apply cbegin_ok.
  Qed.
  Definition cstate (xs : list ccmd) (v : N) : DState (toyPr (cfgL ps)) :=
    match cw_node (fst (cfinal xs)) v with Some d => d | None => tstart (cfgL ps) v end.
  Definition cplays (xs : list ccmd) (v : N) : bool :=
    (is_some (cplay cbegin [] xs) && is_some (cw_node (fst (cfinal xs)) (v : @Verifier toyP)))%bool.
  Lemma cplays_was xs v : cplays xs v = true -> cwas (cworlds xs) (v : @Verifier toyP) (cstate xs v).
  Proof.
    unfold cplays, cworlds, cstate. rewrite andb_true_iff. intros [_ H]. exists (fst (cfinal xs)). split; [now left|].
    destruct (cw_node (fst (cfinal xs)) (v : @Verifier toyP)) as [d|] eqn:E; [|discriminate]. reflexivity.
  Qed.
End Cfg.

(** Party 2 is dishonest and sends 0 and 1 different echo broadcasts; 0 and 1 exchange all their messages. *)
Definition first_two (v : N) : bool := negb (N.eqb v 2).
Definition claim (b : N) : Message (P := toyP) := tforge 2 sid0 (rid_new 1) (Some [12]%N) (Some [b]) None.
Definition two_claims : list ccmd :=
  [XSend 0%N 1%N; XSend 1%N 0%N; XSend 0%N 2%N; XSend 1%N 2%N; XDeliver 1; XLie 0%N 2%N (claim 22); XLie 1%N 2%N (claim 23); XDeliver 0;
   XProc 0%N 0; XProc 1%N 0; XProc 0%N 0; XProc 1%N 0; XFin 0%N; XSend 0%N 1%N; XFin 1%N; XSend 0%N 2%N; XDeliver 0; XSend 1%N 0%N; XSend 1%N 2%N; XProc 1%N 0;
   XDeliver 0; XProc 0%N 0].

(** Party 2 behaves; 0 is ahead of 1 and its message of the echo round arrives while 1 is still in the first round. *)
Definition early : list ccmd :=
  [XSend 0%N 1%N; XSend 1%N 0%N; XSend 0%N 2%N; XSend 1%N 2%N; XDeliver 1; XLie 0%N 2%N (claim 22); XLie 1%N 2%N (claim 22); XDeliver 0;
   XProc 0%N 0; XProc 1%N 0; XProc 0%N 0; XProc 1%N 0; XFin 0%N; XSend 0%N 1%N; XDeliver 0; XFin 1%N].

(** Party 88 is honest, but the protocol does not like what it sends. *)
Definition disliked : list ccmd := [XSend 0%N 88%N; XSend 88%N 0%N; XDeliver 1; XProc 88%N 0; XDeliver 0; XProc 0%N 0].

Definition unprovableb {c} (d : DState (toyPr c)) (u : N) : bool :=
  (contains (u : @Verifier toyP) (tr_unprovable (s_tr (d_s d))) || contains (u : @Verifier toyP) (a_unprovable (d_a d)))%bool.
Definition provableb {c} (d : DState (toyPr c)) (u : N) : bool :=
  (contains (u : @Verifier toyP) (tr_provable (s_tr (d_s d))) || contains (u : @Verifier toyP) (a_provable (d_a d)))%bool.
Lemma unprovableb_ok c (d : DState (toyPr c)) u : unprovableb d u = true -> has_unprovable d (u : @Verifier toyP).
Proof.
  unfold unprovableb. rewrite orb_true_iff. intros [H|H]; apply contains_get in H as [e He]; [left|right]; eauto.
Qed.
Lemma provableb_ok c (d : DState (toyPr c)) u : provableb d u = true -> exists ev, has_evidence d (u : @Verifier toyP) ev.
Proof.
  unfold provableb. rewrite orb_true_iff. intros [H|H]; apply contains_get in H as [e He]; exists e; [left|right]; auto.
Qed.
Definition in_echob {c} (s : Session (toyPr c)) : bool := match s_round s with REcho _ _ _ (RMain _) _ _ => true | _ => false end.
Lemma in_echob_ok c (s : Session (toyPr c)) : in_echob s = true -> in_echo_round s.
Proof.
  unfold in_echob, in_echo_round. destruct (s_round s) as [|? ? ? [|] ? ?]; try discriminate; eauto 10.
Qed.

(** ** [diligent] and [at_rest] as computations *)
Section Rest.
  Variable ps : list N.
  Variable hon : N -> bool.
  Notation W := (CWorld (toyPr (cfgL ps))).
  Implicit Types (ws : list W) (w : W).
  Notation V := (@Verifier toyP).
  Definition node_of w (u : N) : option (DState (toyPr (cfgL ps))) := cw_node w (u : V).

  Definition sentb ws (u v : N) (rid : RoundId) : bool :=
    existsb (fun w => match node_of w u with
                      | Some d => (eqb (s_round_id (d_s d)) rid && contains (v : V) (a_artifacts (d_a d)))%bool
                      | None => false end) ws.
  Lemma sentb_ok ws u v rid : sentb ws u v rid = true -> has_sent ws (u : V) (v : V) rid.
  Proof.
    unfold sentb. rewrite existsb_exists. intros (w & Hw & H). destruct (node_of w u) as [d|] eqn:E; [|discriminate].
    apply andb_true_iff in H as [H1 H2]. apply (proj1 (eqb_eq _ _)) in H1. exists d. split; [exists w; split; [exact Hw|exact E]|]. split; [exact H1|exact H2].
  Qed.
  Definition left_well ws (u : N) (d d' : DState (toyPr (cfgL ps))) : bool :=
    (eqb (s_round_id (d_s d)) (s_round_id (d_s d')) || forallb (fun v => sentb ws u v (s_round_id (d_s d))) (elements (message_destinations (d_s d))))%bool.
  Fixpoint diligentb all ws : bool :=
    match ws with
    | [] => true
    | w :: ws => (forallb (fun u => match node_of w u with
        | Some d' => forallb (fun w0 => match node_of w0 u with Some d => left_well all u d d' | None => true end) ws
        | None => true end) ps && diligentb all ws)%bool
    end.

  Hypothesis Hps : forall w u d, cw_node w u = Some d -> forall ws, ctrace hon (@cstart toyP (toyPr (cfgL ps)) hon (set_of_list ps) sid0 toy_at) ws -> In w ws -> In u ps.
  Lemma diligentb_ok all ws : ctrace hon (@cstart toyP (toyPr (cfgL ps)) hon (set_of_list ps) sid0 toy_at) all -> diligentb all ws = true ->
    forall later w earlier u d d', ws = later ++ w :: earlier -> (forall x, In x ws -> In x all) -> cw_node w u = Some d' -> cwas earlier u d ->
    s_round_id (d_s d) <> s_round_id (d_s d') -> forall v, mem v (message_destinations (d_s d)) = true -> has_sent all u v (s_round_id (d_s d)).
  Proof.
    intros Ht. induction ws as [|w1 ws IH]; intros H later w earlier u d d' E Hin Nd (w0 & Hw0 & N0) Hr v Hv; [destruct later; discriminate|].
    cbn [diligentb] in H. apply andb_true_iff in H as [H1 H2].
    destruct later as [|w2 later].
    - injection E as -> ->. rewrite forallb_forall in H1. specialize (H1 u).
      assert (Hu : In u ps) by (apply (Hps _ _ Nd Ht); apply Hin; simpl; auto). specialize (H1 Hu).
      unfold node_of in H1. rewrite Nd in H1. rewrite forallb_forall in H1. specialize (H1 w0 Hw0). rewrite N0 in H1.
      unfold left_well in H1. apply orb_true_iff in H1 as [H1|H1]; [apply (proj1 (eqb_eq _ _)) in H1; contradiction|].
      rewrite forallb_forall in H1. apply sentb_ok. apply H1. now apply in_elements.
    - injection E as -> E. apply (IH H2 later w earlier u d d' E); auto; [intros x Hx; apply Hin; simpl; auto|exists w0; auto].
  Qed.
  Definition restb w : bool := (match cw_way w with [] => true | _ => false end &&
    forallb (fun u => match node_of w u with
      | Some d => match d_todo d with [] => forallb (fun dest => contains dest (a_artifacts (d_a d))) (elements (message_destinations (d_s d))) | _ => false end
      | None => true end) ps)%bool.
  Lemma restb_ok w ws : ctrace hon (@cstart toyP (toyPr (cfgL ps)) hon (set_of_list ps) sid0 toy_at) (w :: ws) -> restb w = true -> at_rest w.
  Proof.
    intros Ht H. unfold restb in H. apply andb_true_iff in H as [H1 H2]. split.
    - destruct (cw_way w); [|discriminate]. intros u v m [].
    - intros v d Nd. rewrite forallb_forall in H2. specialize (H2 v (Hps _ _ Nd Ht (or_introl eq_refl))).
      unfold node_of in H2. rewrite Nd in H2. destruct (d_todo d); [|discriminate]. split; auto. intros dest Hd.
      rewrite forallb_forall in H2. apply H2. now apply in_elements.
  Qed.
End Rest.
Lemma node_party ps hon (a b : N) : a <> b -> In a ps -> In b ps -> forall w u d, cw_node w u = Some d ->
  forall ws, ctrace hon (@cstart toyP (toyPr (cfgL ps)) hon (set_of_list ps) sid0 toy_at) ws -> In w ws -> In u ps.
Proof.
  intros Hab Ha Hb w u d Nd ws Ht Hw.
  destruct (trace_good (@toy_uniform a b ps Hab Ha Hb) toy_signatures toy_codec Ht (u := u) (d := d)) as [f G]; [exists w; auto|].
  apply (mem_set_of_list (K := @Verifier toyP)). exact (gd_party G).
Qed.

(** Party 2 takes part in the first round and is silent in its echo round. *)
Definition silence : list ccmd :=
  [XSend 0%N 1%N; XSend 1%N 0%N; XSend 0%N 2%N; XSend 1%N 2%N; XDeliver 1; XLie 0%N 2%N (claim 22); XLie 1%N 2%N (claim 22); XDeliver 0;
   XProc 0%N 0; XProc 1%N 0; XProc 0%N 0; XProc 1%N 0; XFin 0%N; XSend 0%N 1%N; XFin 1%N; XSend 0%N 2%N; XDeliver 0; XSend 1%N 0%N; XSend 1%N 2%N; XProc 1%N 0;
   XDeliver 0; XProc 0%N 0].
