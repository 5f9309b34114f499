(** Properties of finalizing rounds: C09, C14, C15, C16, C17, C18, C19, C53, C55. *)
From Coq Require Import List NArith Bool.
From Verif Require Import Base BMap Errors RoundId Message Protocol Transcript Evidence Session Spec MessageFacts RunFacts
  IntakeFacts RoundFacts FinalizeFacts HistoryFacts LocalFacts RedirectFacts Exec Toy.
Import ListNotations.
Set Implicit Arguments.

(** C09. A round that is not followed by an echo round is finalized with proper inputs ([Spec.proper_inputs]), and the
    answer of the protocol is what [finalize_round] reports. *)
Theorem C09_finalized_with_proper_inputs : forall (P : Params) (Pr : Proto) (d0 : DState Pr) es d st g ro,
  round_start d0 -> run d0 es d -> in_round es -> can_finalize (d_a d) = Yes -> s_round (d_s d) = RMain st ->
  s_echo_info (d_s d) = None -> finalize_round (d_s d) g (d_a d) = Ok ro ->
  exists ps arts out, finalize Pr st (rsub 0 g) ps arts = Ok out /\ reported out ro /\ proper_inputs (d_s d) st es ps arts.
Proof. exact @finalize_inputs. Qed.
Print Assumptions C09_finalized_with_proper_inputs.

(** Two messages sent, two received: round 2 is reached. *)
Definition c09_script : list (cmd (P := toyP)) :=
  [CArt (1%N : @Verifier toyP); pre cfg3n 1 0; pre cfg3n 2 0; CProc 0; CArt (2%N : @Verifier toyP); CProc 0].
Example C09_case :
  let d := tfinal cfg3n 0 c09_script in
  round_start (tstart cfg3n 0) /\ run (tstart cfg3n 0) (ttrace cfg3n 0 c09_script) d /\ in_round (ttrace cfg3n 0 c09_script) /\
  can_finalize (d_a d) = Yes /\ match s_round (d_s d) with RMain _ => true | _ => false end = true /\
  is_some (s_echo_info (d_s d)) = false /\ is_ok (finalize_round (d_s d) g0 (d_a d)) = true.
Proof.
  split; [apply toy_start|]. split; [apply toy_run; toy|]. split; [toy|]. split; [toy|]. split; [toy|]. split; toy.
Qed.

(** C09 and C17. A round that is followed by an echo round is finalized - when the echo round is - with proper inputs
    collected in the round itself, whatever happened in the echo round. *)
Theorem C17_echo_round_transparent : forall (P : Params) (Pr : Proto) (d0 : DState Pr) es d st g d1,
  round_start d0 -> run d0 es d -> in_round es -> s_round (d_s d) = RMain st ->
  s_echo_info (d_s d) <> None -> step d (EFin g) d1 ->
  exists ps arts, proper_inputs (d_s d) st es ps arts /\
    forall es1 d2 g' ro, run d1 es1 d2 -> in_round es1 -> finalize_round (d_s d2) g' (d_a d2) = Ok ro ->
      exists out, finalize Pr st (rsub 0 g') ps arts = Ok out /\ reported out ro.
Proof. exact @finalize_inputs_echo. Qed.
Print Assumptions C17_echo_round_transparent.

(** The echo round of party 0 in the protocol with an echo broadcast, and its completion. *)
Definition round1 (me : N) : list (cmd (P := toyP)) :=
  match me with
  | 0%N => [pre cfg3 1 0; pre cfg3 2 0; CProc 0; CProc 0]
  | 1%N => [pre cfg3 0 1; pre cfg3 2 1; CProc 0; CProc 0]
  | _ => [pre cfg3 0 2; pre cfg3 1 2; CProc 0; CProc 0]
  end.
Definition echo3 (me : N) : DState (toyPr cfg3) := tfinal cfg3 me (round1 me ++ [CFin]).
Definition echo_msgs3 : list (cmd (P := toyP)) :=
  [@CPre toyP 1%N (tmsg (d_s (echo3 1)) 0); @CPre toyP 2%N (tmsg (d_s (echo3 2)) 0); CProc 0; CProc 0].
Example C17_case :
  let d := tfinal cfg3 0 (round1 0) in
  run (tstart cfg3 0) (ttrace cfg3 0 (round1 0)) d /\ in_round (ttrace cfg3 0 (round1 0)) /\
  is_some (s_echo_info (d_s d)) = true /\ step d (EFin g0) (tthen d [CFin]) /\
  let d1 := tthen d [CFin] in
  run d1 (tsteps d1 echo_msgs3) (tthen d1 echo_msgs3) /\ in_round (tsteps d1 echo_msgs3) /\
  is_ok (finalize_round (d_s (tthen d1 echo_msgs3)) g0 (d_a (tthen d1 echo_msgs3))) = true.
Proof.
  split; [apply toy_run; toy|]. split; [toy|]. split; [toy|]. split; [apply then_fin; toy|].
  split; [apply then_run; toy|]. split; toy.
Qed.

(** C14. The round after the round with protocol state [st] (or after its echo round) is the echo round of the former, or
    a protocol round with a declared child id. *)
Theorem C14_declared_transitions : forall (P : Params) (Pr : Proto) (d : DState Pr) g s' c st,
  reachable d -> finalize_round (d_s d) g (d_a d) = Ok (ROAnother s' c) ->
  (s_round (d_s d) = RMain st \/ exists v echos info ps arts, s_round (d_s d) = REcho v echos info (RMain st) ps arts) ->
  (s_round_id s' = echo_of (ti_id (tinfo Pr st)) /\ s_round (d_s d) = RMain st) \/
  (exists st', s_round s' = RMain st' /\ s_round_id s' = ti_id (tinfo Pr st') /\
     mem (s_round_id s') (ti_children (tinfo Pr st)) = true).
Proof. exact @transition_declared. Qed.
Print Assumptions C14_declared_transitions.

(** Both transitions occur. *)
Example C14_case :
  let d := tfinal cfg3 0 (round1 0) in
  reachable d /\ s_round_id (d_s (tthen d [CFin])) = echo_of (rid_new 1) /\
  let d1 := tthen (tthen d [CFin]) echo_msgs3 in
  reachable d1 /\ s_round_id (d_s (tthen d1 [CFin])) = rid_new 2.
Proof.
  assert (H : reachable (tfinal cfg3 0 (round1 0))) by (apply toy_reachable; toy).
  split; [exact H|]. split; [toy|]. split; [|toy]. apply then_reachable; [apply then_reachable; [exact H|toy]|toy].
Qed.

(** C15. After a round has been closed, a session that is again in a round with the same id cannot close it. *)
Theorem C15_no_round_twice : forall (P : Params) (Pr : Proto) (d1 : DState Pr) g d2 es d3,
  step d1 (EFin g) d2 -> run d2 es d3 -> s_round_id (d_s d3) = s_round_id (d_s d1) ->
  (forall g', finalize_round (d_s d3) g' (d_a d3) = Err LE_TrEcho) /\
  terminate (d_s d3) (d_a d3) = Err LE_TrEcho /\ terminate_due_to_errors (d_s d3) (d_a d3) = Err LE_TrEcho.
Proof. exact @never_twice. Qed.
Print Assumptions C15_no_round_twice.

(** C15, bound: a session finalizes at most two rounds per protocol round id. *)
Theorem C15_bounded_rounds : forall (P : Params) (Pr : Proto) ids (s : Session Pr) es d,
  (forall st, In (ti_id (tinfo Pr st)) ids) -> initial s -> run (start s) es d -> fins es <= 2 * length ids.
Proof. exact @bounded_rounds. Qed.
Print Assumptions C15_bounded_rounds.

(** A cyclic protocol: round 1 is its own child; nobody talks. *)
Definition loopPr : Proto (P := toyP) := {|
  St := unit; Rslt := unit; Shared := unit; Payload := unit; Artifact := unit;
  tinfo := fun _ => mkTI (rid_new 1) sempty sempty (set_of_list [rid_new 1]) false;
  cinfo := fun _ => mkComm sempty sempty EPDefault;
  mk_direct := fun _ _ _ => Ok (None, tt); mk_echo := fun _ _ => Ok None; mk_normal := fun _ _ => Ok None;
  receive := fun _ _ _ => Err RDirect;
  finalize := fun _ _ _ _ => Ok (AnotherRound tt);
  round_info := fun _ => None
|}.
Definition loopEP : EntryPoint loopPr := @mkEP toyP loopPr (rid_new 1) (fun _ _ _ => Ok tt).
Example C15_case : exists d1 d2 : DState loopPr,
  reachable d1 /\ step d1 (EFin g0) d2 /\ run d2 [] d2 /\ s_round_id (d_s d2) = s_round_id (d_s d1) /\
  (forall st, In (ti_id (tinfo loopPr st)) [rid_new 1]).
Proof.
  destruct (session_new g0 sid0 (0%N : @Signer toyP) loopEP) as [s|e|] eqn:E; [|discriminate E|discriminate E].
  destruct (finalize_round s g0 (make_accumulator s)) as [[|s' c]|e|] eqn:E2;
    injection E as <-; try discriminate E2.
  match type of E2 with finalize_round ?s _ _ = _ => exists (start s) end.
  exists (DS s' (make_accumulator s') c). split.
  { eexists _, []. split; [|constructor]. exists g0, sid0, (0%N : @Signer toyP), loopEP. reflexivity. }
  split; [apply step_fin; [reflexivity|exact E2]|]. split; [constructor|]. split; [|intros []; simpl; auto].
  injection E2 as <- _. reflexivity.
Qed.

(** C16. When there is an echo round, whom it talks to, and which echoes an accepted echo message contains. *)
Theorem C16_echo_round : forall (P : Params) (Pr : Proto) (d : DState Pr) g d' st,
  reachable d -> step d (EFin g) d' -> s_round (d_s d) = RMain st ->
  (in_echo_round (d_s d') <->
    (ci_part (cinfo Pr st) = EPDefault /\ sp_body (s_echo (d_s d)) <> None) \/
    (exists targets, ci_part (cinfo Pr st) = EPReceive targets)) /\
  (in_echo_round (d_s d') -> s_round_id (d_s d') = echo_of (ti_id (tinfo Pr st)) /\
    let peers := match ci_part (cinfo Pr st) with EPReceive targets => targets | _ => ci_dest (cinfo Pr st) end in
    message_destinations (d_s d') = peers /\ (forall v, expected (d_s d') v <-> mem v peers = true) /\
    forall from m p, rd_receive (s_round (d_s d')) from m = Ok p ->
      exists hashes, body_echo_msg (dm_normal m) = Some hashes /\
        forall v, contains v hashes = true <->
          v <> from /\ (expected (d_s d) v \/ (ci_part (cinfo Pr st) = EPDefault /\ v = s_verifier (d_s d)))).
Proof. exact @echo_round_description. Qed.
Print Assumptions C16_echo_round.

Theorem C16_no_echo_after_echo : forall (P : Params) (Pr : Proto) (d : DState Pr) g d',
  reachable d -> step d (EFin g) d' -> in_echo_round (d_s d) -> ~ in_echo_round (d_s d').
Proof. exact @echo_after_echo. Qed.
Print Assumptions C16_no_echo_after_echo.

(** A default node with an echo broadcast, a receiving node, a sending node. *)
Definition echo_b {c} (d : DState (toyPr c)) : bool := match s_round (d_s d) with REcho _ _ _ _ _ _ => true | _ => false end.
Example C16_case :
  (let d := tfinal cfg3 0 (round1 0) in reachable d /\ step d (EFin g0) (tthen d [CFin]) /\ echo_b (tthen d [CFin]) = true) /\
  (let d := tfinal cfgS 0 [pre cfgS 1 0; CProc 0] in
     reachable d /\ step d (EFin g0) (tthen d [CFin]) /\ echo_b (tthen d [CFin]) = true) /\
  (let d := tstart cfgS 1 in reachable d /\ step d (EFin g0) (tthen d [CFin]) /\ echo_b (tthen d [CFin]) = false).
Proof.
  split; [|split].
  - split; [apply toy_reachable; toy|]. split; [apply then_fin; toy|toy].
  - split; [apply toy_reachable; toy|]. split; [apply then_fin; toy|toy].
  - split; [apply toy_reachable_start|]. split; [apply then_fin; toy|toy].
Qed.

(** C18. What is handed out when a new round starts: exactly the messages cached for it in the last round - except, if the
    new round is not an echo round, those of banned senders - and at most one per sender. *)
Theorem C18_cached_messages_delivered : forall (P : Params) (Pr : Proto) (d0 : DState Pr) es d g d',
  round_start d0 -> run d0 es d -> in_round es -> step d (EFin g) d' ->
  NoDup (map (@vm_from _) (d_todo d')) /\
  forall vm, In vm (d_todo d') <->
    cached_for es (s_round_id (d_s d')) vm /\ (in_echo_round (d_s d') \/ ~ banned (d_s d) (d_a d) (vm_from vm)).
Proof. exact @delivery. Qed.
Print Assumptions C18_cached_messages_delivered.

(** A round 2 message of party 1 is cached and delivered, one of party 2 - banned later - is not. *)
Definition c18_script : list (cmd (P := toyP)) :=
  [pre cfg3n 1 0; pre cfg3n 2 0; CProc 0; CProc 0;
   @CPre toyP 1%N (tforge 1 sid0 (rid_new 2) (Some [5]%N) None None);
   @CPre toyP 2%N (tforge 2 sid0 (rid_new 2) (Some [5]%N) None None);
   @CPre toyP 2%N (tforge 2 sid0 (rid_new 9) (Some [5]%N) None None)].
Example C18_case :
  let d := tfinal cfg3n 0 c18_script in
  run (tstart cfg3n 0) (ttrace cfg3n 0 c18_script) d /\ in_round (ttrace cfg3n 0 c18_script) /\
  step d (EFin g0) (tthen d [CFin]) /\ map (@vm_from _) (d_todo (tthen d [CFin])) = [1%N].
Proof. split; [apply toy_run; toy|]. split; [toy|]. split; [apply then_fin; toy|toy]. Qed.

(** C19 is false for echo rounds. Party 1 sends its round 1 message, a (cached) message for the echo round, and then a
    duplicate, for which it is banned; the echo round message is delivered nevertheless. *)
Definition bad_echo_script : list (cmd (P := toyP)) :=
  round1 0 ++ [@CPre toyP 1%N (tforge 1 sid0 (echo_of (rid_new 1)) None None (Some (toy_ser_echo empty))); pre cfg3 1 0].
Theorem C19_no_banned_from_cache_refuted : exists (P : Params) (Pr : Proto) (d d' : DState Pr) g vm,
  reachable d /\ step d (EFin g) d' /\ In vm (d_todo d') /\ banned (d_s d) (d_a d) (vm_from vm).
Proof.
  set (d := tfinal cfg3 0 bad_echo_script).
  exists toyP, (toyPr cfg3), d, (tthen d [CFin]), g0, (nth 0 (d_todo (tthen d [CFin])) dummy_vm).
  split; [apply toy_reachable; toy|]. split; [apply then_fin; toy|].
  split; [apply nth_In; apply PeanoNat.Nat.ltb_lt; toy|].
  right; right; right. apply contains_get. toy.
Qed.
Print Assumptions C19_no_banned_from_cache_refuted.

(** C19, what holds: it is true for transitions to protocol rounds. *)
Theorem C19_no_banned_from_cache_partial : forall (P : Params) (Pr : Proto) (d : DState Pr) g d',
  reachable d -> step d (EFin g) d' -> ~ in_echo_round (d_s d') ->
  forall vm, In vm (d_todo d') -> ~ banned (d_s d) (d_a d) (vm_from vm).
Proof. exact @no_banned_from_cache. Qed.
Print Assumptions C19_no_banned_from_cache_partial.

Example C19_case : let d := tfinal cfg3n 0 c18_script in
  reachable d /\ step d (EFin g0) (tthen d [CFin]) /\ echo_b (tthen d [CFin]) = false /\ length (d_todo (tthen d [CFin])) = 1.
Proof. split; [apply toy_reachable; toy|]. split; [apply then_fin; toy|]. split; toy. Qed.

(** C55 is false, as a consequence of the failure of C19: if the delivered echo message of the banned party 1 is bad (here: it
    lacks echoes), a second unprovable error is recorded for party 1 and the session cannot even be terminated. *)
Theorem C55_can_terminate_refuted : exists (P : Params) (Pr : Proto) (d : DState Pr) e,
  reachable d /\ contains (s_round_id (d_s d)) (tr_echo (s_tr (d_s d))) = false /\
  terminate (d_s d) (d_a d) = Err e /\ terminate_due_to_errors (d_s d) (d_a d) = Err e /\
  forall g, finalize_round (d_s d) g (d_a d) = Err e.
Proof.
  set (d := tfinal cfg3 0 (bad_echo_script ++ [CFin; CProc 0])).
  exists toyP, (toyPr cfg3), d, LE_TrUnprovable. split; [apply toy_reachable; toy|]. split; [toy|].
  assert (H : close_round (d_s d) (d_a d) = Err LE_TrUnprovable).
  { assert (Hb : match close_round (d_s d) (d_a d) with Err LE_TrUnprovable => true | _ => false end = true) by toy.
    destruct (close_round (d_s d) (d_a d)) as [|[]|]; try discriminate. reflexivity. }
  unfold terminate, terminate_due_to_errors, terminate_inner, finalize_round. rewrite H. auto.
Qed.
Print Assumptions C55_can_terminate_refuted.

(** C55, what holds: a session can be terminated if its round id was not closed before and no message of a banned party
    was delivered at the start of the round (by C19_partial this covers every round that is not an echo round). *)
Theorem C55_can_terminate_partial : forall (P : Params) (Pr : Proto) (d0 : DState Pr) es d,
  round_start d0 -> run d0 es d -> in_round es ->
  (forall vm, In vm (d_todo d0) -> ~ banned (d_s d0) (d_a d0) (vm_from vm)) ->
  contains (s_round_id (d_s d)) (tr_echo (s_tr (d_s d))) = false ->
  (exists rep, terminate (d_s d) (d_a d) = Ok rep) /\ (exists rep, terminate_due_to_errors (d_s d) (d_a d) = Ok rep).
Proof. exact @can_terminate. Qed.
Print Assumptions C55_can_terminate_partial.

Example C55_case :
  let d0 := tthen (tfinal cfg3n 0 c18_script) [CFin] in let cs := [CProc 0] in
  round_start d0 /\ run d0 (tsteps d0 cs) (tthen d0 cs) /\ in_round (tsteps d0 cs) /\
  forallb (fun vm => negb (tr_is_banned (s_tr (d_s d0)) (vm_from vm) || a_is_banned (d_a d0) (vm_from vm))) (d_todo d0) = true /\
  contains (s_round_id (d_s (tthen d0 cs))) (tr_echo (s_tr (d_s (tthen d0 cs)))) = false.
Proof.
  split; [apply then_round_start; [apply toy_reachable; toy|toy]|]. split; [apply then_run; toy|]. split; [toy|]. split; toy.
Qed.

(** C53 is false. All parties are honest; in round 1 party 1 only sends (no echo), parties 0 and 2 receive and then echo.
    Party 1 is in round 2 right away; its round 2 message reaches party 0 before its round 1 message and is cached. When
    party 0 enters the echo round the cache is dropped, so in round 2 the message is not there; party 1 will not send it
    again. *)
Definition c53_party2 : DState (toyPr cfgS) := tfinal cfgS 2 [pre cfgS 1 2; CProc 0; CFin].
Definition c53_party1 : DState (toyPr cfgS) := tfinal cfgS 1 [CFin].
Definition c53_script : list (cmd (P := toyP)) :=
  [@CPre toyP 1%N (tmsg (d_s c53_party1) 0); pre cfgS 1 0; CProc 0; CFin; @CPre toyP 2%N (tmsg (d_s c53_party2) 0); CProc 0].
Theorem C53_early_messages_survive_refuted : exists (P : Params) (Pr : Proto) (s : Session Pr) es d g d' from m,
  initial s /\ run (start s) es d /\ step d (EFin g) d' /\
  (* the message was reported as cached, and its round begins now *)
  In (EPre from m Cached) es /\ m_round (sp_meta (msg_direct m)) = s_round_id (d_s d') /\
  (* the sender is still trusted and its message is needed *)
  ~ banned (d_s d') (d_a d') from /\ expected (d_s d') from /\
  (* all messages received were made by honest sessions for this party *)
  (forall v m' o, In (EPre v m' o) es -> exists (dv : DState Pr) g art, reachable dv /\ s_verifier (d_s dv) = v /\
     mem (s_verifier s) (message_destinations (d_s dv)) = true /\ make_message (d_s dv) g (s_verifier s) = Ok (m', art)) /\
  (* but the message is not delivered *)
  d_todo d' = [].
Proof.
  set (d := tfinal cfgS 0 c53_script).
  assert (Hr : run (tstart cfgS 0) (ttrace cfgS 0 c53_script) d) by (apply toy_run; toy).
  assert (Hc : existsb (fun e => match e with
      | EPre v m Cached => (N.eqb v 1 && eqb (m_round (sp_meta (msg_direct m))) (s_round_id (d_s (tthen d [CFin]))))%bool
      | _ => false end) (ttrace cfgS 0 c53_script) = true) by toy.
  apply existsb_exists in Hc as (e & Hin & He).
  destruct e as [from m []| | |]; try discriminate He. apply andb_prop in He as [He1 He2].
  apply N.eqb_eq in He1. apply (proj1 (eqb_eq _ _)) in He2.
  exists toyP, (toyPr cfgS), (tsession cfgS 0), (ttrace cfgS 0 c53_script), d, g0, (tthen d [CFin]), from, m.
  split; [apply toy_initial|]. split; [exact Hr|]. split; [apply then_fin; toy|]. split; [exact Hin|]. split; [exact He2|].
  subst from. split.
  { rewrite <- SessionFacts.banned_false. toy. }
  split; [toy|]. split; [|toy].
  intros v m' o Hin'. change (ttrace cfgS 0 c53_script) with (tsteps (tstart cfgS 0) c53_script) in Hin'.
  apply tsteps_pre in Hin'. unfold c53_script, pre in Hin'. cbn [In] in Hin'.
  change (s_verifier (tsession cfgS 0)) with (0%N : @Verifier toyP).
  destruct Hin' as [H|[H|[H|[H|[H|[H|[]]]]]]]; try discriminate H; injection H as <- <-.
  - destruct (@tmsg_made cfgS (d_s c53_party1) 0%N) as [art Ha]; [toy|].
    exists c53_party1, g0, art. split; [apply toy_reachable; toy|]. split; [toy|]. split; [toy|exact Ha].
  - destruct (@tmsg_made cfgS (tsession cfgS 1) 0%N) as [art Ha]; [toy|].
    exists (tstart cfgS 1), g0, art. split; [apply toy_reachable_start|]. split; [toy|]. split; [toy|exact Ha].
  - destruct (@tmsg_made cfgS (d_s c53_party2) 0%N) as [art Ha]; [toy|].
    exists c53_party2, g0, art. split; [apply toy_reachable; toy|]. split; [toy|]. split; [toy|exact Ha].
Qed.
Print Assumptions C53_early_messages_survive_refuted.

(** C53, what holds: a message that was cached in the round just before its own - the echo round, if there is one - is
    delivered when its round begins, unless its sender has been banned. *)
Theorem C53_early_messages_survive_partial : forall (P : Params) (Pr : Proto) (d0 : DState Pr) es d g d' from m,
  round_start d0 -> run d0 es d -> in_round es -> step d (EFin g) d' ->
  In (EPre from m Cached) es -> m_round (sp_meta (msg_direct m)) = s_round_id (d_s d') -> ~ banned (d_s d) (d_a d) from ->
  exists vm, In vm (d_todo d') /\ is_message_of from m vm.
Proof. exact @early_delivered. Qed.
Print Assumptions C53_early_messages_survive_partial.

Example C53_case :
  let d := tfinal cfg3n 0 c18_script in
  run (tstart cfg3n 0) (ttrace cfg3n 0 c18_script) d /\ in_round (ttrace cfg3n 0 c18_script) /\ step d (EFin g0) (tthen d [CFin]) /\
  (exists from m, In (EPre from m Cached) (ttrace cfg3n 0 c18_script) /\ from = 1%N /\
     m_round (sp_meta (msg_direct m)) = s_round_id (d_s (tthen d [CFin]))) /\ ~ banned (d_s d) (d_a d) (1%N : @Verifier toyP).
Proof.
  set (d := tfinal cfg3n 0 c18_script).
  assert (Hc : existsb (fun e => match e with
      | EPre v m Cached => (N.eqb v 1 && eqb (m_round (sp_meta (msg_direct m))) (s_round_id (d_s (tthen d [CFin]))))%bool
      | _ => false end) (ttrace cfg3n 0 c18_script) = true) by toy.
  apply existsb_exists in Hc as (e & Hin & He).
  destruct e as [from m []| | |]; try discriminate He. apply andb_prop in He as [He1 He2].
  apply N.eqb_eq in He1. apply (proj1 (eqb_eq _ _)) in He2.
  split; [apply toy_run; toy|]. split; [toy|]. split; [apply then_fin; toy|]. split; [exists from, m; split; [exact Hin|split; [exact He1|exact He2]]|].
  rewrite <- SessionFacts.banned_false. toy.
Qed.
