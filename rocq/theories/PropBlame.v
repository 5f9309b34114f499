(** What honest parties hold against each other when messages are attributed correctly. *)
From Coq Require Import List NArith Bool.
From Verif Require Import Base BMap Errors RoundId Message Protocol Transcript Evidence Session Spec SpecCrypto SpecEvidence
  SpecBlame BlameFacts BlameProgress Exec Toy ToyCrypto ToyBlame.
Import ListNotations.
Set Implicit Arguments.

(** C73. Dishonest parties do whatever they like in their own names; messages between honest parties arrive in any order, at
    most once. Then an honest party [v] holds an unprovable error of an honest party [u] only if the protocol's code at [v]
    answered an unprovable error to a message that [u] made for [v] in the same round; and it holds evidence against [u] only
    if the protocol's code at [v] turned down such a message, or some dishonest party sent [u] and [v] different echo
    broadcasts. In particular, never because of timing: not for a message that is early, late, or a duplicate. *)
Theorem C73_honest_blame : forall (P : Params) (Pr : Proto) (honest : Verifier -> bool) parties sid rids echoed at_ ws v d u,
  @uniform P Pr parties rids echoed at_ -> signatures_correct P -> echo_codec P ->
  ctrace honest (cstart honest parties sid at_) ws -> cwas ws v d -> honest u = true ->
  (has_unprovable d u -> exists e, turned_down ws u v (RUnprovable e)) /\
  (forall ev, has_evidence d u ev -> (exists e, turned_down ws u v e) \/ equivocated honest ws u v).
Proof. intros P Pr honest parties sid rids echoed at_ ws v d u U Hs Hc. intros Ht Hw Hu. exact (@blame _ _ _ _ _ _ _ _ U Hs Hc ws v d u Ht Hw Hu). Qed.
Print Assumptions C73_honest_blame.

(** Both causes occur. Three parties of which 2 is dishonest and sends 0 and 1 different echo broadcasts: 0 ends up with
    evidence against the honest 1. And a protocol that does not like what the honest party 88 sends. *)
Example C73_example_equivocation : exists d ev,
  @uniform toyP (toyPr (cfgL [0; 1; 2]%N)) (set_of_list [0; 1; 2]%N) toy_rids toy_echoed toy_at /\
  ctrace first_two (@cstart toyP (toyPr (cfgL [0; 1; 2]%N)) first_two (set_of_list [0; 1; 2]%N) sid0 toy_at)
    (cworlds [0; 1; 2]%N first_two two_claims) /\
  cwas (cworlds [0; 1; 2]%N first_two two_claims) (0%N : @Verifier toyP) d /\ has_evidence d (1%N : @Verifier toyP) ev.
Proof.
  destruct (@provableb_ok _ (cstate [0; 1; 2]%N first_two two_claims 0%N) 1%N) as [ev Hev]; [vm_compute; reflexivity|].
  exists (cstate [0; 1; 2]%N first_two two_claims 0%N), ev. split; [|split; [|split; [|exact Hev]]].
  - apply (@toy_uniform 0%N 1%N); [discriminate| |]; simpl; auto.
  - apply cfinal_ok.
  - apply cplays_was. vm_compute. reflexivity.
Qed.

Example C73_example_turned_down : exists d,
  @uniform toyP (toyPr (cfgL [0; 88; 2]%N)) (set_of_list [0; 88; 2]%N) toy_rids toy_echoed toy_at /\
  ctrace first_two (@cstart toyP (toyPr (cfgL [0; 88; 2]%N)) first_two (set_of_list [0; 88; 2]%N) sid0 toy_at)
    (cworlds [0; 88; 2]%N first_two disliked) /\
  cwas (cworlds [0; 88; 2]%N first_two disliked) (0%N : @Verifier toyP) d /\ has_unprovable d (88%N : @Verifier toyP).
Proof.
  exists (cstate [0; 88; 2]%N first_two disliked 0%N). split; [|split; [|split]].
  - apply (@toy_uniform 0%N 88%N); [discriminate| |]; simpl; auto.
  - apply cfinal_ok.
  - apply cplays_was. vm_compute. reflexivity.
  - apply unprovableb_ok. vm_compute. reflexivity.
Qed.

(** C74. In the same situation, messages between honest parties are never lost: if an honest party [u] has made its message for
    [v] of the round [v] is in, then this message is on its way, or [v] has been told to process it, or [v] has its payload;
    or else [v] has turned it, or an earlier one, down for one of the two reasons of C73. Dishonest parties can neither make
    [v] drop it nor take its place. *)
Theorem C74_honest_messages_kept : forall (P : Params) (Pr : Proto) (honest : Verifier -> bool) parties sid rids echoed at_ w ws v d u,
  @uniform P Pr parties rids echoed at_ -> signatures_correct P -> echo_codec P ->
  ctrace honest (cstart honest parties sid at_) (w :: ws) -> cw_node w v = Some d -> honest u = true -> u <> v ->
  has_sent (w :: ws) u v (s_round_id (d_s d)) ->
  on_way w u v (s_round_id (d_s d)) \/ (exists vm, In vm (d_todo d) /\ vm_from vm = u) \/ contains u (a_payloads (d_a d)) = true \/
  (exists e, turned_down (w :: ws) u v e) \/ equivocated honest (w :: ws) u v.
Proof.
  intros P Pr honest parties sid rids echoed at_ w ws v d u U Hs Hc Ht Hn Hu Hne Hk.
  exact (@waits _ _ _ _ _ _ _ _ U Hs Hc w ws v d u Ht Hn Hu Hne Hk).
Qed.
Print Assumptions C74_honest_messages_kept.

(** Party 0 is ahead of party 1: its message of the echo round arrives while 1 is in the first round; it is handed out when 1
    enters the echo round. *)
Example C74_example : exists d,
  @uniform toyP (toyPr (cfgL [0; 1; 2]%N)) (set_of_list [0; 1; 2]%N) toy_rids toy_echoed toy_at /\
  ctrace first_two (@cstart toyP (toyPr (cfgL [0; 1; 2]%N)) first_two (set_of_list [0; 1; 2]%N) sid0 toy_at)
    (cworlds [0; 1; 2]%N first_two early) /\
  cwas (cworlds [0; 1; 2]%N first_two early) (1%N : @Verifier toyP) d /\
  has_sent (cworlds [0; 1; 2]%N first_two early) (0%N : @Verifier toyP) (1%N : @Verifier toyP) (s_round_id (d_s d)) /\
  in_echo_round (d_s d) /\ map (@vm_from toyP) (d_todo d) = [0%N] /\ is_empty (a_payloads (d_a d)) = true.
Proof.
  exists (cstate [0; 1; 2]%N first_two early 1%N). split; [|split; [|split; [|split; [|split; [|split]]]]].
  - apply (@toy_uniform 0%N 1%N); [discriminate| |]; simpl; auto.
  - apply cfinal_ok.
  - apply cplays_was. vm_compute. reflexivity.
  - exists (cstate [0; 1; 2]%N first_two early 0%N). split; [apply cplays_was; vm_compute; reflexivity|].
    split; vm_compute; reflexivity.
  - apply in_echob_ok. vm_compute. reflexivity.
  - vm_compute. reflexivity.
  - vm_compute. reflexivity.
Qed.

(** C76. In the same situation, nobody is kept waiting by honest parties alone. Suppose that whoever left a round had sent its
    messages, that everything sent between honest parties has arrived and has been processed, and that all messages of the
    current rounds have been made. If then some session cannot be finalized, there is a session [v'] that waits for a party
    [u] that is dishonest, or has no session, or that [v'] turned down for one of the two reasons of C73, or that could
    finalize its own round right now. *)
Theorem C76_whom_to_wait_for : forall (P : Params) (Pr : Proto) (honest : Verifier -> bool) parties sid rids echoed at_ w ws v d,
  @uniform P Pr parties rids echoed at_ -> signatures_correct P -> echo_codec P ->
  ctrace honest (cstart honest parties sid at_) (w :: ws) -> diligent (w :: ws) -> at_rest w ->
  cw_node w v = Some d -> can_finalize (d_a d) <> Yes ->
  exists v' d' u, cw_node w v' = Some d' /\ can_finalize (d_a d') <> Yes /\
    mem u parties = true /\ u <> v' /\ contains u (a_payloads (d_a d')) = false /\
    (honest u = false \/ cw_node w u = None \/ (exists e, turned_down (w :: ws) u v' e) \/ equivocated honest (w :: ws) u v' \/
     exists dU, cw_node w u = Some dU /\ can_finalize (d_a dU) = Yes).
Proof.
  intros P Pr honest parties sid rids echoed at_ w ws v d U Hs Hc.
  exact (@whom_to_wait_for _ _ _ _ _ _ _ _ U Hs Hc w ws v d).
Qed.
Print Assumptions C76_whom_to_wait_for.

(** The dishonest party 2 is silent in the echo round; 0 and 1 have exchanged everything and wait for it. *)
Example C76_example : exists w ws d,
  @uniform toyP (toyPr (cfgL [0; 1; 2]%N)) (set_of_list [0; 1; 2]%N) toy_rids toy_echoed toy_at /\
  ctrace first_two (@cstart toyP (toyPr (cfgL [0; 1; 2]%N)) first_two (set_of_list [0; 1; 2]%N) sid0 toy_at) (w :: ws) /\
  diligent (w :: ws) /\ at_rest w /\
  cw_node w (0%N : @Verifier toyP) = Some d /\ in_echo_round (d_s d) /\ can_finalize (d_a d) = NotYet /\
  map (fun u => contains (u : @Verifier toyP) (a_payloads (d_a d))) [1; 2]%N = [true; false].
Proof.
  assert (Hps : forall w u d, cw_node w u = Some d -> forall ws,
    ctrace first_two (@cstart toyP (toyPr (cfgL [0; 1; 2]%N)) first_two (set_of_list [0; 1; 2]%N) sid0 toy_at) ws -> In w ws -> In u [0; 1; 2]%N)
    by (apply (@node_party [0; 1; 2]%N first_two 0%N 1%N); [discriminate| |]; simpl; auto).
  exists (fst (cfinal [0; 1; 2]%N first_two silence)), (snd (cfinal [0; 1; 2]%N first_two silence)), (cstate [0; 1; 2]%N first_two silence 0%N).
  split; [|split; [|split; [|split; [|split; [|split; [|split]]]]]].
  - apply (@toy_uniform 0%N 1%N); [discriminate| |]; simpl; auto.
  - exact (cfinal_ok [0; 1; 2]%N first_two silence).
  - intros later w earlier u d d' E.
    refine (@diligentb_ok [0; 1; 2]%N first_two Hps _ (cworlds [0; 1; 2]%N first_two silence) (cfinal_ok [0; 1; 2]%N first_two silence) _
      later w earlier u d d' E (fun _ H => H)). vm_cast_no_check (eq_refl true).
  - apply (@restb_ok [0; 1; 2]%N first_two Hps _ _ (cfinal_ok [0; 1; 2]%N first_two silence)). vm_cast_no_check (eq_refl true).
  - unfold cstate. assert (F : match cw_node (fst (cfinal [0; 1; 2]%N first_two silence)) (0%N : @Verifier toyP) with Some _ => true | None => false end = true) by (vm_cast_no_check (eq_refl true)).
    destruct (cw_node _ _); [reflexivity|discriminate F].
  - apply in_echob_ok. vm_compute. reflexivity.
  - vm_compute. reflexivity.
  - vm_compute. reflexivity.
Qed.
