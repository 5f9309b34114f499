(** Messages handed to somebody else than their destination, and messages that come early. *)
From Coq Require Import List NArith Bool.
From Verif Require Import Base BMap Errors RoundId Message Protocol Transcript Evidence Session Spec SpecCrypto SpecEvidence SpecWorld
  RunFacts HistoryFacts WorldFacts.
Import ListNotations.
Set Implicit Arguments.

Section WithParams.
  Context {P : Params}.
  Context {Pr : Proto}.

  Lemma dest_ignored (s : Session Pr) a from m m' :
    msg_direct m = msg_direct m' -> msg_echo m = msg_echo m' -> msg_normal m = msg_normal m' ->
    preprocess_message s a from m = preprocess_message s a from m'.
  Proof. destruct m, m'. cbn. intros -> -> ->. reflexivity. Qed.

  Lemma redirected (honest : Verifier -> Prop) (w : World Pr) ws v sid d st u p dU0 g0 m0 art0 :
    prefix_free_meta P -> plain_ids Pr -> no_return Pr -> wtrace honest (w :: ws) -> w_node w v sid = Some d ->
    s_round (d_s d) = RMain st -> honest u -> get u (a_payloads (d_a d)) = Some (PVal p) ->
    was (w :: ws) u sid dU0 -> s_round_id (d_s dU0) = s_round_id (d_s d) -> make_message (d_s dU0) g0 v = Ok (m0, art0) ->
    found_collision w \/
    exists g dest m art, mem dest (message_destinations (d_s dU0)) = true /\ make_message (d_s dU0) g dest = Ok (m, (dest, art)) /\
      receive Pr st u (mkDynMsg (sp_body (msg_echo m0)) (sp_body (msg_normal m0)) (sp_body (msg_direct m))) = Ok p.
  Proof.
    intros Hp Hpl Hnr Ht Hn Hst Hu Hg Hw Hr Hm.
    destruct (@main_payload_message P Pr honest w ws v sid d st u p Hp Hpl Hnr Ht Hn Hst Hu Hg) as [C|(dU & g & dest & m & art & W & R & D & M & K)]; auto.
    right. assert (E : d_s dU = d_s dU0) by (eapply same_session; eauto; congruence).
    rewrite E in *. exists g, dest, m, art. split; auto. split; auto.
    destruct (@make_message_parts P Pr dU0 _ _ _ _ Hm) as [-> ->]. destruct (@make_message_parts P Pr dU0 _ _ _ _ M) as [E1 E2].
    unfold contents in K. now rewrite E1, E2 in K.
  Qed.

  Lemma early_delivered (d0 : DState Pr) es d g d' from m : round_start d0 -> run d0 es d -> in_round es -> step d (EFin g) d' ->
    In (EPre from m Cached) es -> m_round (sp_meta (msg_direct m)) = s_round_id (d_s d') -> ~ banned (d_s d) (d_a d) from ->
    exists vm, In vm (d_todo d') /\ is_message_of from m vm.
  Proof.
    intros H1 H2 H3 H4 Hin Hr Hb. destruct (delivery H1 H2 H3 H4) as [_ H].
    exists (mkVMessage from (sp_meta (msg_direct m)) (msg_direct m) (msg_echo m) (msg_normal m)).
    assert (K : is_message_of from m (mkVMessage from (sp_meta (msg_direct m)) (msg_direct m) (msg_echo m) (msg_normal m))) by (repeat split).
    split; auto. apply H. cbn [vm_from]. split; auto. exists m. auto.
  Qed.
End WithParams.
