(** Properties of echo rounds: C21, C22, C23. *)
From Coq Require Import List NArith Bool.
From Verif Require Import Base BMap Errors RoundId Message Protocol Transcript Evidence Session Spec SpecCrypto SpecEvidence
  MessageFacts RunFacts IntakeFacts RoundFacts FinalizeFacts HistoryFacts SignFacts EchoFacts EvidenceFacts GuiltFacts Exec Toy ToyCrypto.
Import ListNotations.
Set Implicit Arguments.

(** C21. Session [d] (which echoes the round with protocol state [st]) completes its echo round after processing the echo
    message that session [dB] made. Then for every party whose broadcast is echoed to [d] - those it expected messages from,
    and itself if it sends a broadcast of its own - except [dB] itself, both hold a broadcast of that party, with the same
    payload (or a hash collision is exhibited). *)
Theorem C21_echo_agreement : forall (P : Params) (Pr : Proto) (d0 : DState Pr) es d (dB : DState Pr) st vm g dest m art,
  echo_codec P -> round_start d0 -> run d0 es d -> in_round es -> can_finalize (d_a d) = Yes -> echoing (d_s d) st ->
  reachable dB -> in_echo_round (d_s dB) -> make_message (d_s dB) g dest = Ok (m, art) ->
  In (EProc vm) es -> is_message_of (s_verifier (d_s dB)) m vm ->
  forall v, v <> s_verifier (d_s dB) ->
    mem v (ci_expect (cinfo Pr st)) = true \/ (ci_part (cinfo Pr st) = EPDefault /\ v = s_verifier (d_s d)) ->
    exists p p', held_echo (d_s d) v p /\ held_echo (d_s dB) v p' /\
      (sp_body p = sp_body p' \/ collide (content_bytes KEcho (sp_body p)) (content_bytes KEcho (sp_body p'))).
Proof. exact @echo_agreement. Qed.
Print Assumptions C21_echo_agreement.

(** The first round of three parties, and the echo messages to party 0. *)
Definition script1 (me : N) : list (cmd (P := toyP)) :=
  match me with
  | 0%N => [pre cfg3 1 0; pre cfg3 2 0; CProc 0; CProc 0]
  | 1%N => [pre cfg3 0 1; pre cfg3 2 1; CProc 0; CProc 0]
  | _ => [pre cfg3 0 2; pre cfg3 1 2; CProc 0; CProc 0]
  end.
Definition echoer (me : N) : DState (toyPr cfg3) := tthen (tfinal cfg3 me (script1 me)) [CFin].
Definition echoes0 : list (cmd (P := toyP)) :=
  [@CPre toyP 1%N (tmsg (d_s (echoer 1)) 0); @CPre toyP 2%N (tmsg (d_s (echoer 2)) 0); CProc 0; CProc 0].

Lemma echo_obs c (s : Session (toyPr c)) : match s_round s with REcho _ _ _ (RMain _) _ _ => true | _ => false end = true ->
  in_echo_round s /\ exists st, echoing s st.
Proof.
  unfold in_echo_round, echoing. destruct (s_round s) as [|v e i [st|] ps arts] eqn:E; try discriminate. intros _. split; eauto 10.
Qed.

Example C21_case : exists (st : St (toyPr cfg3)) vm m art, let d := tthen (echoer 0) echoes0 in let es := tsteps (echoer 0) echoes0 in
  echo_codec toyP /\ round_start (echoer 0) /\ run (echoer 0) es d /\ in_round es /\ can_finalize (d_a d) = Yes /\ echoing (d_s d) st /\
  reachable (echoer 1) /\ in_echo_round (d_s (echoer 1)) /\ make_message (d_s (echoer 1)) g0 (0%N : @Verifier toyP) = Ok (m, art) /\
  In (EProc vm) es /\ is_message_of (s_verifier (d_s (echoer 1))) m vm /\
  (2%N : @Verifier toyP) <> s_verifier (d_s (echoer 1)) /\ mem (2%N : @Verifier toyP) (ci_expect (cinfo (toyPr cfg3) st)) = true.
Proof.
  set (d := tthen (echoer 0) echoes0). set (es := tsteps (echoer 0) echoes0).
  destruct (@echo_obs cfg3 (d_s d)) as [_ [st Hst]]; [toy|].
  destruct (@echo_obs cfg3 (d_s (echoer 1))) as [H1 _]; [toy|].
  destruct (@tmsg_made cfg3 (d_s (echoer 1)) 0%N) as [art Ha]; [toy|].
  destruct (@processed_ok cfg3 es 1%N (tmsg (d_s (echoer 1)) 0)) as (vm & Hin & Hvm); [toy|].
  exists st, vm, (tmsg (d_s (echoer 1)) 0), art. cbv zeta. fold d es.
  split; [exact toy_codec|]. split; [apply then_round_start; [apply toy_reachable; toy|toy]|]. split; [apply then_run; toy|].
  split; [toy|]. split; [toy|]. split; [exact Hst|]. split; [apply then_reachable; [apply toy_reachable; toy|toy]|]. split; [exact H1|].
  split; [exact Ha|]. split; [exact Hin|].
  assert (Hv : s_verifier (d_s (echoer 1)) = 1%N) by toy. rewrite Hv. split; [exact Hvm|]. split; [discriminate|].
  destruct Hst as (v & e & i & ps & arts & Hr).
  assert (Hb : match s_round (d_s d) with REcho _ _ _ (RMain st) _ _ => mem 2%N (ci_expect (cinfo (toyPr cfg3) st)) | _ => false end = true) by toy.
  rewrite Hr in Hb. exact Hb.
Qed.

(** C22. If [dB] and [d] hold the same broadcasts - apart from [dB]'s own, and [dB] holds [d]'s own exactly if it was sent -
    then the message that [dB] makes for the echo round is accepted by [d]. *)
Theorem C22_honest_echo_accepted : forall (P : Params) (Pr : Proto) (d dB : DState Pr) st g dest m art,
  echo_codec P -> signatures_correct P -> echo_rounds_have_broadcasts Pr ->
  reachable d -> echoing (d_s d) st -> reachable dB -> in_echo_round (d_s dB) ->
  make_message (d_s dB) g dest = Ok (m, art) -> mem dest (message_destinations (d_s dB)) = true ->
  (forall v p, v <> s_verifier (d_s dB) ->
     (held_echo (d_s dB) v p <->
      held_echo (d_s d) v p /\ (v = s_verifier (d_s d) -> ci_part (cinfo Pr st) = EPDefault \/ mem v (ci_expect (cinfo Pr st)) = true))) ->
  rd_receive (s_round (d_s d)) (s_verifier (d_s dB)) (contents m) = Ok PEmpty.
Proof. exact @honest_echo_accepted. Qed.
Print Assumptions C22_honest_echo_accepted.

(** Parties 0 and 1 hold the same three broadcasts. *)
Definition echos_of c (s : Session (toyPr c)) : bmap (@Verifier toyP) (SPart KEcho) :=
  match get (main_of (s_round_id s)) (tr_echo (s_tr s)) with Some m => m | None => empty end.
Definition same_echos c (s s' : Session (toyPr c)) : bool :=
  (forallb (fun kv => match get (fst kv) (echos_of s') with Some q => part_eqb (snd kv) q | None => false end) (to_list (echos_of s)))%bool.
Lemma same_echos_ok c (s s' : Session (toyPr c)) v p : same_echos s s' = true -> held_echo s v p -> held_echo s' v p.
Proof.
  unfold same_echos, held_echo, recorded. rewrite forallb_forall. intros H (x & H1 & H2). specialize (H (v, p)).
  assert (Ex : echos_of s = x) by (unfold echos_of; now rewrite H1). rewrite Ex in H.
  assert (Hin : In (v, p) (to_list x)) by now apply in_to_list. apply H in Hin. cbn [fst snd] in Hin.
  destruct (get v (echos_of s')) as [q|] eqn:Eg; [|discriminate]. apply part_eqb_eq in Hin. subst q. unfold echos_of in Eg.
  destruct (get (main_of (s_round_id s')) (tr_echo (s_tr s'))) as [y|] eqn:Ey; [eauto|]. exfalso. clear - Eg. discriminate Eg.
Qed.
Example C22_case : exists (st : St (toyPr cfg3)) m art, let d := echoer 0 in let dB := echoer 1 in
  echo_codec toyP /\ signatures_correct toyP /\ echo_rounds_have_broadcasts (toyPr cfg3) /\
  reachable d /\ echoing (d_s d) st /\ reachable dB /\ in_echo_round (d_s dB) /\
  make_message (d_s dB) g0 (0%N : @Verifier toyP) = Ok (m, art) /\ mem (0%N : @Verifier toyP) (message_destinations (d_s dB)) = true /\
  (forall v p, v <> s_verifier (d_s dB) ->
     (held_echo (d_s dB) v p <->
      held_echo (d_s d) v p /\ (v = s_verifier (d_s d) -> ci_part (cinfo (toyPr cfg3) st) = EPDefault \/ mem v (ci_expect (cinfo (toyPr cfg3) st)) = true))).
Proof.
  destruct (@echo_obs cfg3 (d_s (echoer 0))) as [_ [st Hst]]; [toy|].
  destruct (@echo_obs cfg3 (d_s (echoer 1))) as [H1 _]; [toy|].
  destruct (@tmsg_made cfg3 (d_s (echoer 1)) 0%N) as [art Ha]; [toy|].
  exists st, (tmsg (d_s (echoer 1)) 0), art. cbv zeta.
  split; [exact toy_codec|]. split; [exact toy_signatures|]. split; [apply toy_broadcasts; intros n me tg; simpl; discriminate|].
  split; [apply then_reachable; [apply toy_reachable; toy|toy]|]. split; [exact Hst|].
  split; [apply then_reachable; [apply toy_reachable; toy|toy]|]. split; [exact H1|]. split; [exact Ha|]. split; [toy|].
  intros v p _. split.
  - intros H. split; [apply (@same_echos_ok cfg3 (d_s (echoer 1))); [toy|exact H]|]. intros _. left. reflexivity.
  - intros [H _]. apply (@same_echos_ok cfg3 (d_s (echoer 0))); [toy|exact H].
Qed.

(** C23 is false: party 2 sends different broadcasts to 0 and 1. Party 1 behaves honestly; when 0 processes its echo message
    the evidence is recorded for party 1, which is from then on banned, and party 2 is not banned. *)
Definition equivocation : list (cmd (P := toyP)) :=
  [pre cfg3 0 1; @CPre toyP 2%N (tforge 2 sid0 (rid_new 1) (Some [12%N]) (Some [99%N]) None); CProc 0; CProc 0].
Definition relayer : DState (toyPr cfg3) := tthen (tfinal cfg3 1 equivocation) [CFin].
Definition misled : DState (toyPr cfg3) := tthen (echoer 0) [@CPre toyP 1%N (tmsg (d_s relayer) 0)].
Definition bannedb c (d : DState (toyPr c)) (v : N) : bool :=
  (contains v (tr_provable (s_tr (d_s d))) || contains v (tr_unprovable (s_tr (d_s d))) ||
   contains v (a_provable (d_a d)) || contains v (a_unprovable (d_a d)))%bool.
Lemma bannedb_ok c (d : DState (toyPr c)) v : bannedb d v = true <-> banned (d_s d) (d_a d) v.
Proof. unfold bannedb, banned. rewrite !orb_true_iff, !contains_get. tauto. Qed.

Definition shows_mismatch (r : res (RecvErr (P := toyP)) (SPayload (toyPr cfg3))) : bool :=
  match r with
  | Err (REchoRound (Mismatched u p h)) => (N.eqb u 2 && is_ok (verify_part (2%N : @Verifier toyP) p) && is_ok (verify_shash (2%N : @Verifier toyP) h))%bool
  | _ => false
  end.
Lemma shows_mismatch_ok r : shows_mismatch r = true ->
  exists p h, r = Err (REchoRound (@Mismatched toyP 2%N p h)) /\ @part_signed toyP KEcho 2%N p /\ @hash_signed toyP 2%N h.
Proof.
  destruct r as [|[| | | | | |[|u p h]]|]; try discriminate. simpl. intros H. apply andb_prop in H as [H S2]. apply andb_prop in H as [Hu S1].
  apply N.eqb_eq in Hu. subst u. apply is_ok_ex in S1 as [x S1], S2 as [y S2]. apply verify_part_ok in S1 as [_ S1]. apply verify_shash_ok in S2 as [_ S2].
  eauto.
Qed.
Lemma first_todo c (d : DState (toyPr c)) (f : VMessage (P := toyP) -> bool) :
  match nth_error (d_todo d) 0 with Some vm => f vm | None => false end = true -> exists vm, nth_error (d_todo d) 0 = Some vm /\ f vm = true.
Proof. destruct (nth_error (d_todo d) 0); [eauto|discriminate]. Qed.

Theorem C23_equivocator_blamed_refuted : exists (P : Params) (Pr : Proto) (dB d d' : DState Pr) g m art vm u p h,
  signatures_correct P /\ reachable dB /\ reachable d /\ make_message (d_s dB) g (s_verifier (d_s d)) = Ok (m, art) /\
  is_message_of (s_verifier (d_s dB)) m vm /\
  rd_receive (s_round (d_s d)) (s_verifier (d_s dB)) (contents m) = Err (REchoRound (Mismatched u p h)) /\
  part_signed u p /\ hash_signed u h /\ u <> s_verifier (d_s dB) /\
  step d (EProc vm) d' /\ banned (d_s d') (d_a d') (s_verifier (d_s dB)) /\ ~ banned (d_s d') (d_a d') u.
Proof.
  destruct (@tmsg_made cfg3 (d_s relayer) 0%N) as [art Ha]; [toy|].
  destruct (@then_proc cfg3 misled 0) as (vm & Hvm & Hstep); [toy|].
  assert (HreB : reachable relayer) by (apply then_reachable; [apply toy_reachable; toy|toy]).
  assert (Hre : reachable misled) by (apply then_reachable; [apply then_reachable; [apply toy_reachable; toy|toy]|toy]).
  assert (E0 : s_verifier (d_s misled) = 0%N) by toy. assert (E1 : s_verifier (d_s relayer) = 1%N) by toy.
  destruct (@shows_mismatch_ok (rd_receive (s_round (d_s misled)) (1%N : @Verifier toyP) (contents (tmsg (d_s relayer) 0)))) as (p & h & Er & S1 & S2); [toy|].
  exists toyP, (toyPr cfg3), relayer, misled, (tthen misled [CProc 0]), g0, (tmsg (d_s relayer) 0), art, vm, (2%N : @Verifier toyP), p, h.
  rewrite E0, E1.
  split; [exact toy_signatures|]. split; [exact HreB|]. split; [exact Hre|]. split; [exact Ha|]. split.
  { apply is_message_ofb_ok.
    destruct (@first_todo cfg3 misled (is_message_ofb 1 (tmsg (d_s relayer) 0))) as (w & Hw & Hb); [toy|].
    rewrite Hvm in Hw. injection Hw as <-. exact Hb. }
  split; [exact Er|].
  split; [exact S1|]. split; [exact S2|].
  split; [discriminate|]. split; [exact Hstep|]. split.
  - apply bannedb_ok. toy.
  - intros H. apply bannedb_ok in H. assert (Hn : bannedb (tthen misled [CProc 0]) 2 = false) by toy. congruence.
Qed.
Print Assumptions C23_equivocator_blamed_refuted.

(** C23, what holds: the evidence that is recorded names the equivocator as guilty - but it is filed under the sender of the
    echo message [vm_from vm], who is banned as a consequence. *)
Theorem C23_equivocator_blamed_partial : forall (P : Params) (Pr : Proto) (d : DState Pr) vm a' u p h,
  reachable d -> In vm (d_todo d) ->
  rd_receive (s_round (d_s d)) (vm_from vm)
    (mkDynMsg (sp_body (vm_echo vm)) (sp_body (vm_normal vm)) (sp_body (vm_direct vm))) = Err (REchoRound (Mismatched u p h)) ->
  add_processed (d_s d) (d_a d) (process_message (d_s d) vm) = (a', Ok tt) ->
  get (vm_from vm) (a_provable a') = Some (mkEvidence u (EvMismatched u p h)).
Proof. exact @equivocation_evidence. Qed.
Print Assumptions C23_equivocator_blamed_partial.

Example C23_case : exists vm u p h, reachable misled /\ In vm (d_todo misled) /\
  rd_receive (s_round (d_s misled)) (vm_from vm)
    (mkDynMsg (sp_body (vm_echo vm)) (sp_body (vm_normal vm)) (sp_body (vm_direct vm))) = Err (REchoRound (Mismatched u p h)) /\
  exists a', add_processed (d_s misled) (d_a misled) (process_message (d_s misled) vm) = (a', Ok tt).
Proof.
  destruct (@first_todo cfg3 misled (fun vm =>
    (shows_mismatch (rd_receive (s_round (d_s misled)) (vm_from vm) (mkDynMsg (sp_body (vm_echo vm)) (sp_body (vm_normal vm)) (sp_body (vm_direct vm)))) &&
     is_ok (snd (add_processed (d_s misled) (d_a misled) (process_message (d_s misled) vm))))%bool)) as (vm & Hvm & Hb); [toy|].
  apply andb_prop in Hb as [H1 H2]. apply shows_mismatch_ok in H1 as (p & h & Er & _).
  exists vm, (2%N : @Verifier toyP), p, h. split; [apply then_reachable; [apply then_reachable; [apply toy_reachable; toy|toy]|toy]|].
  split; [exact (nth_error_In _ _ Hvm)|]. split; [exact Er|].
  apply is_ok_ex in H2 as [[] H2]. exists (fst (add_processed (d_s misled) (d_a misled) (process_message (d_s misled) vm))).
  rewrite <- H2. apply surjective_pairing.
Qed.
