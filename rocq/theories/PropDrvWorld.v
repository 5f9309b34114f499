(** Properties of [run_session] among dishonest parties: C140. *)
From Coq Require Import List NArith Bool.
From Verif Require Import Base BMap Errors RoundId Message Protocol Transcript Evidence Session Spec SpecCrypto SpecEvidence
  Network RunSync Driver SpecDriver SpecWorld SpecFrame SpecDrvWorld MessageFacts IntakeFacts HistoryFacts SignFacts EchoFacts DrvWorldFacts
  Exec Toy ToyCrypto ToyWorld ToyFrame ToyDrvWorld PropEcho PropEvidence PropWorld PropFrame.
Import ListNotations.
Set Implicit Arguments.

(** C140. Honest parties run their sessions with [run_session]; whatever the dishonest parties and the network do, and
    whenever channels are closed or sessions are cancelled: the payload that a party holds for an honest party [u] is what its
    round computes from parts that [u] sent in the same session and the same round (or a hash collision is found). *)
Theorem C140_authentic : forall (P : Params) (Pr : Proto) (honest : Verifier -> Prop) r (w : DWorld Pr) ws v sid d x st u p,
  prefix_free_meta P -> dwtrace honest r (w :: ws) -> dw_node w v sid = Some d -> drv_state d = Some x ->
  s_round (d_s x) = RMain st -> honest u -> get u (a_payloads (d_a x)) = Some (PVal p) ->
  dcollision w \/
  exists e n y, receive Pr st u (mkDynMsg e n y) = Ok p /\
    drove_part (w :: ws) u sid (s_round_id (d_s x)) KEcho e /\
    drove_part (w :: ws) u sid (s_round_id (d_s x)) KNormal n /\
    drove_part (w :: ws) u sid (s_round_id (d_s x)) KDirect y.
Proof. exact @driver_payload. Qed.
Print Assumptions C140_authentic.

(** If no round of the protocol is ever repeated, they are the parts of one message that [u] made. *)
Theorem C140_one_message : forall (P : Params) (Pr : Proto) (honest : Verifier -> Prop) r (w : DWorld Pr) ws v sid d x st u p,
  prefix_free_meta P -> plain_ids Pr -> no_return Pr -> dwtrace honest r (w :: ws) -> dw_node w v sid = Some d ->
  drv_state d = Some x -> s_round (d_s x) = RMain st -> honest u -> get u (a_payloads (d_a x)) = Some (PVal p) ->
  dcollision w \/
  exists s g dest m art, drove (w :: ws) u sid s /\ s_round_id s = s_round_id (d_s x) /\
    mem dest (message_destinations s) = true /\ make_message s g dest = Ok (m, (dest, art)) /\
    receive Pr st u (contents m) = Ok p.
Proof. exact @driver_message. Qed.
Print Assumptions C140_one_message.

(** When the driver of an honest party [v] is about to finalize an echo round, each honest party [u] that it expected an echo
    message from has been in that echo round too, and held the same broadcast of every other party whose broadcasts are
    echoed (or hashes collide). *)
Theorem C140_echo_agreement : forall (P : Params) (Pr : Proto) (honest : Verifier -> Prop) r (w : DWorld Pr) ws v sid d x st u,
  prefix_free_meta P -> echo_codec P -> plain_ids Pr -> dwtrace honest r (w :: ws) -> dw_node w v sid = Some d ->
  drv_state d = Some x -> echoing (d_s x) st -> can_finalize (d_a x) = Yes -> honest u -> expected (d_s x) u ->
  dcollision w \/
  exists s, drove (w :: ws) u sid s /\ s_round_id s = s_round_id (d_s x) /\ in_echo_round s /\
    forall y, y <> u -> mem y (ci_expect (cinfo Pr st)) = true \/ (ci_part (cinfo Pr st) = EPDefault /\ y = v) ->
      exists p p', held_echo (d_s x) y p /\ held_echo s y p' /\
        (sp_body p = sp_body p' \/ collide (content_bytes KEcho (sp_body p)) (content_bytes KEcho (sp_body p'))).
Proof. exact @driver_agreement. Qed.
Print Assumptions C140_echo_agreement.

(** Evidence against an honest party in the report that [run_session] returns to an honest party [v] (or that it has collected
    so far): either the protocol itself rejected a message that this party made in the same round, or a dishonest party
    [x] echoed the hash of a part of another kind as that of the echo broadcast (or hashes collide). *)
Theorem C140_no_false_evidence : forall (P : Params) (Pr : Proto) (honest : Verifier -> Prop) r (w : DWorld Pr) ws v sid x (ev : Evidence),
  prefix_free_meta P -> echo_codec P -> signatures_correct P -> plain_ids Pr -> no_return Pr -> no_echo_errors Pr ->
  (forall u, honest u \/ ~ honest u) -> dwtrace honest r (w :: ws) -> dunforged_echoes honest w ->
  (exists rep, dw_node w v sid = Some (DrvDone (Ok rep)) /\ get x (rep_provable rep) = Some ev) \/
  (exists d y, dw_node w v sid = Some d /\ drv_state d = Some y /\ has_evidence y x ev) ->
  honest (ev_guilty ev) ->
  dcollision w \/ decho_collision w \/
  (x = ev_guilty ev /\ exists s1 st s g dest m art err, drove (w :: ws) v sid s1 /\ s_round s1 = RMain st /\
     drove (w :: ws) x sid s /\ s_round_id s = s_round_id s1 /\
     mem dest (message_destinations s) = true /\ make_message s g dest = Ok (m, (dest, art)) /\
     receive Pr st x (contents m) = Err err) \/
  (~ honest x /\ exists s1 p h k b, drove (w :: ws) v sid s1 /\ in_echo_round s1 /\
     ev_body ev = EvMismatched (ev_guilty ev) p h /\ held_echo s1 (ev_guilty ev) p /\ k <> KEcho /\
     drove_part (w :: ws) (ev_guilty ev) sid (main_of (s_round_id s1)) k b /\
     sh_meta h = mkMeta sid (main_of (s_round_id s1)) /\ sh_hash h = hash (content_bytes k b)).
Proof. exact @evidence_transferred. Qed.
Print Assumptions C140_no_false_evidence.

(** The drivers of the honest parties 0 and 1 send their messages of round 1. Party 0 gets the message that party 1 made for
    party 2; party 2 sends different direct messages to the two. *)
Definition drivers1 : list (N * input (P := toyP)) :=
  [(0, IGo); (0, IGo); (1, IGo); (1, IGo);
   (0, @IRecv toyP 1 (tmsg (tsession cfg3 1) 2)); (1, @IRecv toyP 0 (tmsg (tsession cfg3 0) 1));
   (0, @IRecv toyP 2 (bad2 55)); (1, @IRecv toyP 2 (bad2 56))]%N.
Definition drivers2 : list (N * input (P := toyP)) :=
  (drivers1 ++ [(0, IGo); (1, IGo); (0, IGo); (0, IGo); (1, IGo); (1, IGo);
   (0, @IRecv toyP 1 (tmsg (d_s (echoer 1)) 2)); (0, @IRecv toyP 2 (tmsg (d_s (echoer 2)) 1))])%N.
(** The attack of C69 on party 0, which then gives up. *)
Definition drivers3 : list (N * input (P := toyP)) :=
  (drivers1 ++ [(0, IGo); (0, IGo); (0, IGo); (0, @IRecv toyP 2 (tforge 2 sid0 (echo_of (rid_new 1)) None None (Some (toy_ser_echo confused))));
   (0, ICancel)])%N.

Example C140_case : exists d x st p, prefix_free_meta toyP /\ plain_ids (toyPr cfg3) /\ no_return (toyPr cfg3) /\
  dwtrace (fun u => hon u = true) rW (fst (dwfinal cfg3 hon drivers1) :: snd (dwfinal cfg3 hon drivers1)) /\
  dw_node (fst (dwfinal cfg3 hon drivers1)) (0%N : @Verifier toyP) sid0 = Some d /\ drv_state d = Some x /\
  s_round (d_s x) = RMain st /\ hon 1 = true /\ get (1%N : @Verifier toyP) (a_payloads (d_a x)) = Some (PVal p).
Proof.
  assert (H : match dw_node (fst (dwfinal cfg3 hon drivers1)) 0%N sid0 with
              | Some d => match drv_state d with
                  | Some x => match s_round (d_s x) with RMain _ => match get 1%N (a_payloads (d_a x)) with Some (PVal p) => true | _ => false end | _ => false end
                  | None => false end
              | None => false end = true) by toy.
  destruct (dw_node (fst (dwfinal cfg3 hon drivers1)) 0%N sid0) as [d|] eqn:E; [|discriminate H].
  destruct (drv_state d) as [x|] eqn:Ex; [|discriminate H]. destruct (s_round (d_s x)) as [st|] eqn:Er; [|discriminate H].
  destruct (get 1%N (a_payloads (d_a x))) as [[|p]|] eqn:Ep; try discriminate H.
  exists d, x, st, p. split; [exact toy_prefix_free|]. split; [apply toy_plain|]. split; [apply toy_no_return|].
  split; [apply dwfinal_ok|]. auto.
Qed.

Example C140_echo_case : exists d x st, echo_codec toyP /\
  dwtrace (fun u => hon u = true) rW (fst (dwfinal cfg3 hon drivers2) :: snd (dwfinal cfg3 hon drivers2)) /\
  dw_node (fst (dwfinal cfg3 hon drivers2)) (0%N : @Verifier toyP) sid0 = Some d /\ drv_state d = Some x /\
  echoing (d_s x) st /\ can_finalize (d_a x) = Yes /\ hon 1 = true /\ expected (d_s x) (1%N : @Verifier toyP) /\
  mem (2%N : @Verifier toyP) (ci_expect (cinfo (toyPr cfg3) st)) = true.
Proof.
  assert (H : match dw_node (fst (dwfinal cfg3 hon drivers2)) 0%N sid0 with
              | Some d => match drv_state d with
                  | Some x => match s_round (d_s x), can_finalize (d_a x) with
                          | REcho _ _ _ (RMain st) _ _, Yes =>
                              (mem 1%N (ci_expect (s_comm (d_s x))) && mem 2%N (ci_expect (cinfo (toyPr cfg3) st)))%bool
                          | _, _ => false end
                  | None => false end
              | None => false end = true) by toy.
  destruct (dw_node (fst (dwfinal cfg3 hon drivers2)) 0%N sid0) as [d|] eqn:E; [|discriminate H].
  destruct (drv_state d) as [x|] eqn:Ex; [|discriminate H].
  destruct (s_round (d_s x)) as [|v0 es info [st|] ps arts] eqn:Er; try discriminate H.
  destruct (can_finalize (d_a x)) eqn:Ec; try discriminate H. apply andb_true_iff in H as [H1 H2].
  exists d, x, st. split; [exact toy_codec|]. split; [apply dwfinal_ok|]. split; [reflexivity|]. split; [exact Ex|].
  split; [unfold echoing; eauto 10|]. auto.
Qed.

(** As C69 is false, so is its claim about drivers: the report of party 0 has evidence against party 1. *)
Example C140_report_case : let w := fst (dwfinal cfg3 hon drivers3) in exists rep ev,
  signatures_correct toyP /\ no_echo_errors (toyPr cfg3) /\ (forall u, hon u = true \/ hon u <> true) /\
  dwtrace (fun u => hon u = true) rW (w :: snd (dwfinal cfg3 hon drivers3)) /\ dunforged_echoes (fun u => hon u = true) w /\
  dw_node w (0%N : @Verifier toyP) sid0 = Some (DrvDone (Ok rep)) /\ get (2%N : @Verifier toyP) (rep_provable rep) = Some ev /\
  ev_guilty ev = (1%N : @Verifier toyP) /\ hon 1 = true.
Proof.
  intros w.
  assert (H : match dw_node w 0%N sid0 with
              | Some (DrvDone (Ok rep)) => match get 2%N (rep_provable rep) with Some ev => N.eqb (ev_guilty ev) 1 | None => false end
              | _ => false end = true) by toy.
  destruct (dw_node w 0%N sid0) as [[| | |[rep|e|]]|] eqn:E; try discriminate H.
  destruct (get 2%N (rep_provable rep)) as [ev|] eqn:Ev; [|discriminate H]. apply N.eqb_eq in H.
  exists rep, ev. split; [exact toy_signatures|]. split; [apply toy_no_echo_errors|]. split; [intros u; destruct (hon u); auto|].
  split; [apply dwfinal_ok|]. split; [apply dunforged_echoesb_ok; toy|]. auto.
Qed.
