(** Properties of honest parties among dishonest ones: C65, C66. *)
From Coq Require Import List NArith Bool.
From Verif Require Import Base BMap Errors RoundId Message Protocol Transcript Evidence Session Spec SpecCrypto SpecEvidence
  SpecWorld WorldFacts RedirectFacts IntakeFacts HistoryFacts Exec Toy ToyCrypto ToyWorld PropEcho.
Import ListNotations.
Set Implicit Arguments.

(** C65. Whatever the dishonest parties and the network do: the payload that a session of an honest party holds for an honest
    party [u] is what its round computes from parts that [u] sent in the same session and the same round (or a hash collision
    is found). *)
Theorem C65_authentic : forall (P : Params) (Pr : Proto) (honest : Verifier -> Prop) (w : World Pr) ws v sid d st u p,
  prefix_free_meta P -> wtrace honest (w :: ws) -> w_node w v sid = Some d -> s_round (d_s d) = RMain st -> honest u ->
  get u (a_payloads (d_a d)) = Some (PVal p) ->
  found_collision w \/
  exists e n x, receive Pr st u (mkDynMsg e n x) = Ok p /\
    sent_part (w :: ws) u sid (s_round_id (d_s d)) KEcho e /\
    sent_part (w :: ws) u sid (s_round_id (d_s d)) KNormal n /\
    sent_part (w :: ws) u sid (s_round_id (d_s d)) KDirect x.
Proof. exact @main_payload. Qed.
Print Assumptions C65_authentic.

(** If no round of the protocol is ever repeated, they are the parts of one message that [u] made (not necessarily for
    [v]: see C45). *)
Theorem C65_one_message : forall (P : Params) (Pr : Proto) (honest : Verifier -> Prop) (w : World Pr) ws v sid d st u p,
  prefix_free_meta P -> plain_ids Pr -> no_return Pr -> wtrace honest (w :: ws) -> w_node w v sid = Some d ->
  s_round (d_s d) = RMain st -> honest u -> get u (a_payloads (d_a d)) = Some (PVal p) ->
  found_collision w \/
  exists dU g dest m art, was (w :: ws) u sid dU /\ s_round_id (d_s dU) = s_round_id (d_s d) /\
    mem dest (message_destinations (d_s dU)) = true /\ make_message (d_s dU) g dest = Ok (m, (dest, art)) /\
    receive Pr st u (contents m) = Ok p.
Proof. exact @main_payload_message. Qed.
Print Assumptions C65_one_message.

(** C45, what holds although the destination is not checked (it has no effect at all): ... *)
Theorem C45_destination_ignored : forall (P : Params) (Pr : Proto) (s : Session Pr) a from m m',
  msg_direct m = msg_direct m' -> msg_echo m = msg_echo m' -> msg_normal m = msg_normal m' ->
  preprocess_message s a from m = preprocess_message s a from m'.
Proof. exact @dest_ignored. Qed.
Print Assumptions C45_destination_ignored.
(** ... of what an honest party [v] accepts from an honest party [u], only the direct part can have been meant for another
    destination; the broadcasts are those of the message [m0] that [u] makes for [v]. *)
Theorem C45_only_direct_parts_partial : forall (P : Params) (Pr : Proto) (honest : Verifier -> Prop) (w : World Pr) ws v sid d st u p dU0 g0 m0 art0,
  prefix_free_meta P -> plain_ids Pr -> no_return Pr -> wtrace honest (w :: ws) -> w_node w v sid = Some d ->
  s_round (d_s d) = RMain st -> honest u -> get u (a_payloads (d_a d)) = Some (PVal p) ->
  was (w :: ws) u sid dU0 -> s_round_id (d_s dU0) = s_round_id (d_s d) -> make_message (d_s dU0) g0 v = Ok (m0, art0) ->
  found_collision w \/
  exists g dest m art, mem dest (message_destinations (d_s dU0)) = true /\ make_message (d_s dU0) g dest = Ok (m, (dest, art)) /\
    receive Pr st u (mkDynMsg (sp_body (msg_echo m0)) (sp_body (msg_normal m0)) (sp_body (msg_direct m))) = Ok p.
Proof. exact @redirected. Qed.
Print Assumptions C45_only_direct_parts_partial.

(** C66. Whatever the dishonest parties and the network do: when a session of an honest party [v] can finalize its echo round,
    each honest party [u] that it expected an echo message from has been in that echo round too, and held the same broadcast
    of every other party whose broadcasts are echoed (or a hash collision is found). *)
Theorem C66_echo_agreement : forall (P : Params) (Pr : Proto) (honest : Verifier -> Prop) (w : World Pr) ws v sid d st u,
  prefix_free_meta P -> echo_codec P -> plain_ids Pr -> wtrace honest (w :: ws) -> w_node w v sid = Some d ->
  echoing (d_s d) st -> can_finalize (d_a d) = Yes -> honest u -> expected (d_s d) u ->
  found_collision w \/
  exists dU, was (w :: ws) u sid dU /\ s_round_id (d_s dU) = s_round_id (d_s d) /\ in_echo_round (d_s dU) /\
    forall x, x <> u -> mem x (ci_expect (cinfo Pr st)) = true \/ (ci_part (cinfo Pr st) = EPDefault /\ x = v) ->
      exists p p', held_echo (d_s d) x p /\ held_echo (d_s dU) x p' /\
        (sp_body p = sp_body p' \/ collide (content_bytes KEcho (sp_body p)) (content_bytes KEcho (sp_body p'))).
Proof. exact @world_agreement. Qed.
Print Assumptions C66_echo_agreement.

(** Parties 0 and 1 are honest, 2 is not. In round 1, party 0 gets the message that party 1 made for party 2, and the
    dishonest party sends different direct messages to the two, but the same echo broadcast. *)
Definition hon (u : N) : bool := N.ltb u 2.
Definition bad2 (b : N) : Message (P := toyP) := tforge 2 sid0 (rid_new 1) (Some [b]) (Some [22%N]) None.
Definition world1 : list (N * cmd (P := toyP)) :=
  [(0, @CArt toyP 1); (0, @CArt toyP 2); (1, @CArt toyP 0); (1, @CArt toyP 2);
   (0, @CPre toyP 1 (tmsg (tsession cfg3 1) 2)); (1, @CPre toyP 0 (tmsg (tsession cfg3 0) 1));
   (0, @CPre toyP 2 (bad2 55)); (1, @CPre toyP 2 (bad2 56));
   (0, CProc 0); (1, CProc 0); (0, CProc 0); (1, CProc 0)]%N.
Definition world2 : list (N * cmd (P := toyP)) :=
  (world1 ++ [(0, CFin); (1, CFin); (0, @CArt toyP 1); (1, @CArt toyP 2);
   (0, @CPre toyP 1 (tmsg (d_s (echoer 1)) 2)); (0, @CPre toyP 2 (tmsg (d_s (echoer 2)) 1)); (0, CProc 0); (0, CProc 0)])%N.

Example C65_case : exists d st p, prefix_free_meta toyP /\ plain_ids (toyPr cfg3) /\ no_return (toyPr cfg3) /\
  wtrace (fun u => hon u = true) (fst (wfinal cfg3 hon world1) :: snd (wfinal cfg3 hon world1)) /\
  w_node (fst (wfinal cfg3 hon world1)) (0%N : @Verifier toyP) sid0 = Some d /\ s_round (d_s d) = RMain st /\ hon 1 = true /\
  get (1%N : @Verifier toyP) (a_payloads (d_a d)) = Some (PVal p).
Proof.
  assert (H : match w_node (fst (wfinal cfg3 hon world1)) 0%N sid0 with
              | Some d => match s_round (d_s d) with RMain _ => match get 1%N (a_payloads (d_a d)) with Some (PVal p) => true | _ => false end | _ => false end
              | None => false end = true) by toy.
  destruct (w_node (fst (wfinal cfg3 hon world1)) 0%N sid0) as [d|] eqn:E; [|discriminate H].
  destruct (s_round (d_s d)) as [st|] eqn:Er; [|discriminate H].
  destruct (get 1%N (a_payloads (d_a d))) as [[|p]|] eqn:Ep; try discriminate H.
  exists d, st, p. split; [exact toy_prefix_free|]. split; [apply toy_plain|]. split; [apply toy_no_return|].
  split; [apply wfinal_ok|]. auto.
Qed.

Example C45_case : exists d st p dU0 m0 art0,
  wtrace (fun u => hon u = true) (fst (wfinal cfg3 hon world1) :: snd (wfinal cfg3 hon world1)) /\
  w_node (fst (wfinal cfg3 hon world1)) (0%N : @Verifier toyP) sid0 = Some d /\ s_round (d_s d) = RMain st /\ hon 1 = true /\
  get (1%N : @Verifier toyP) (a_payloads (d_a d)) = Some (PVal p) /\
  was (fst (wfinal cfg3 hon world1) :: snd (wfinal cfg3 hon world1)) (1%N : @Verifier toyP) sid0 dU0 /\
  s_round_id (d_s dU0) = s_round_id (d_s d) /\ make_message (d_s dU0) g0 (0%N : @Verifier toyP) = Ok (m0, art0).
Proof.
  assert (H : match w_node (fst (wfinal cfg3 hon world1)) 0%N sid0, w_node (fst (wfinal cfg3 hon world1)) 1%N sid0 with
              | Some d, Some dU => match s_round (d_s d), make_message (d_s dU) g0 0%N with
                  | RMain _, Ok _ => match get 1%N (a_payloads (d_a d)) with Some (PVal p) => eqb (s_round_id (d_s dU)) (s_round_id (d_s d)) | _ => false end
                  | _, _ => false end
              | _, _ => false end = true) by toy.
  destruct (w_node (fst (wfinal cfg3 hon world1)) 0%N sid0) as [d|] eqn:E; [|discriminate H].
  destruct (w_node (fst (wfinal cfg3 hon world1)) 1%N sid0) as [dU|] eqn:E1; [|discriminate H].
  destruct (s_round (d_s d)) as [st|] eqn:Er; [|discriminate H]. destruct (make_message (d_s dU) g0 0%N) as [[m0 art0]| |] eqn:Em; try discriminate H.
  destruct (get 1%N (a_payloads (d_a d))) as [[|p]|] eqn:Ep; try discriminate H.
  apply (proj1 (eqb_eq _ _)) in H.
  exists d, st, p, dU, m0, art0. split; [apply wfinal_ok|]. split; [reflexivity|]. split; [exact Er|]. split; [reflexivity|]. split; [exact Ep|].
  split; [exists (fst (wfinal cfg3 hon world1)); split; [apply in_eq|exact E1]|]. split; [exact H|exact Em].
Qed.

Example C66_case : exists d st, prefix_free_meta toyP /\ echo_codec toyP /\ plain_ids (toyPr cfg3) /\
  wtrace (fun u => hon u = true) (fst (wfinal cfg3 hon world2) :: snd (wfinal cfg3 hon world2)) /\
  w_node (fst (wfinal cfg3 hon world2)) (0%N : @Verifier toyP) sid0 = Some d /\
  echoing (d_s d) st /\ can_finalize (d_a d) = Yes /\ hon 1 = true /\ expected (d_s d) (1%N : @Verifier toyP) /\
  mem (2%N : @Verifier toyP) (ci_expect (cinfo (toyPr cfg3) st)) = true.
Proof.
  assert (H : match w_node (fst (wfinal cfg3 hon world2)) 0%N sid0 with
              | Some d => match s_round (d_s d), can_finalize (d_a d) with
                          | REcho _ _ _ (RMain st) _ _, Yes =>
                              (mem 1%N (ci_expect (s_comm (d_s d))) && mem 2%N (ci_expect (cinfo (toyPr cfg3) st)))%bool
                          | _, _ => false end
              | None => false end = true) by toy.
  destruct (w_node (fst (wfinal cfg3 hon world2)) 0%N sid0) as [d|] eqn:E; [|discriminate H].
  destruct (s_round (d_s d)) as [|v0 es info [st|] ps arts] eqn:Er; try discriminate H.
  destruct (can_finalize (d_a d)) eqn:Ec; try discriminate H. apply andb_true_iff in H as [H1 H2].
  exists d, st. split; [exact toy_prefix_free|]. split; [exact toy_codec|]. split; [apply toy_plain|].
  split; [apply wfinal_ok|]. split; [reflexivity|]. split; [unfold echoing; eauto 10|]. auto.
Qed.
