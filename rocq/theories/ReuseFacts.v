(** Proofs about executions that use the same session id. *)
From Coq Require Import List NArith Bool.
From Verif Require Import Base BMap Errors RoundId Message Protocol Transcript Evidence Session Spec SpecCrypto SpecEvidence SpecVerify MessageFacts SignFacts SessionFacts RunFacts
  IntakeFacts RoundFacts HistoryFacts VerifyFacts.
Import ListNotations.
Set Implicit Arguments.

Section WithParams.
  Context {P : Params}.
  Context {Pr1 Pr2 : Proto}.
  Context (d1 : DState Pr1).

  Lemma reused_accepts (d0 d2 : DState Pr2) es g dest m art : plain_ids Pr2 -> signatures_correct P ->
    reachable d1 -> make_message (d_s d1) g dest = Ok (m, art) ->
    round_start d0 -> run d0 es d2 -> in_round es ->
    s_id (d_s d2) = s_id (d_s d1) -> s_round_id (d_s d2) = s_round_id (d_s d1) ->
    ~ banned (d_s d2) (d_a d2) (s_verifier (d_s d1)) -> (forall m' vm, ~ In (EPre (s_verifier (d_s d1)) m' (ToProcess vm)) es) ->
    exists a' vm, preprocess_message (d_s d2) (d_a d2) (s_verifier (d_s d1)) m = (a', Ok (ToProcess vm)) /\
      is_message_of (s_verifier (d_s d1)) m vm /\
      pm_res (process_message (d_s d2) vm) = rd_receive (s_round (d_s d2)) (s_verifier (d_s d1))
        (mkDynMsg (sp_body (msg_echo m)) (sp_body (msg_normal m)) (sp_body (msg_direct m))).
  Proof.
    intros Hpl Hc Hre Hm Hs Hr Hin Hid Hrid Hb Hpr. destruct (@made_message _ _ _ _ _ _ _ Hre Hc Hm) as (Ha & _).
    rewrite <- Hid, <- Hrid in Ha.
    assert (Hre' : reachable d2) by (eapply reachable_run; [apply round_start_reachable|]; eauto).
    assert (Hp : mem (s_verifier (d_s d1)) (a_processing (d_a d2)) = false).
    { destruct (mem _ _) eqn:E; auto. exfalso. apply (h_processing (round_history Hs Hr Hin)) in E as (m' & vm & E). eapply Hpr; eauto. }
    rewrite (@preprocess_accepts _ _ _ _ _ _ Hb Ha Hp).
    - eexists _, _. split; [reflexivity|]. split; [unfold is_message_of; simpl; auto|]. reflexivity.
    - apply plain_window; auto.
  Qed.

  (** After that the message which the party sends in the second execution is turned down. *)
  Lemma reused_rejects (d0 d2 d : DState Pr2) es m' vm g dest m art : plain_ids Pr2 -> signatures_correct P ->
    reachable d -> make_message (d_s d) g dest = Ok (m, art) ->
    round_start d0 -> run d0 es d2 -> in_round es -> In (EPre (s_verifier (d_s d)) m' (ToProcess vm)) es -> s_round_id (d_s d2) = s_round_id (d_s d) ->
    exists a' e, preprocess_message (d_s d2) (d_a d2) (s_verifier (d_s d)) m = (a', Ok (PreError e)) /\ banned (d_s d2) a' (s_verifier (d_s d)).
  Proof.
    intros Hp Hc Hre Hm Hs Hr Hin Hi Hrid. destruct (@made_message _ _ _ _ _ _ _ Hre Hc Hm) as ((S1 & _ & _ & M & ME & MN) & _).
    assert (Hre2 : reachable d2) by (eapply reachable_run; [apply round_start_reachable|]; eauto).
    destruct (preprocess_message (d_s d2) (d_a d2) (s_verifier (d_s d)) m) as [a' o] eqn:E.
    assert (X : exists o', o = Ok o').
    { pose proof (preprocess_cases _ _ _ _ E) as C. inv C; eauto. exfalso.
      destruct H0 as [[e' He']|(_ & _ & _ & X)]; [|rewrite M in X; destruct S1 as (mb & sg & X' & _); rewrite M in X'; congruence].
      destruct (@simultaneous_total (s_tinfo (d_s d2)) (match s_echo_info (d_s d2) with Some _ => true | None => false end)) as [acc Ha]; [|congruence].
      intros Hx. apply (plain_window Hp Hre2). destruct (s_echo_info (d_s d2)); discriminate. }
    destruct X as [o' ->]. destruct (proj1 (@at_most_one _ _ _ _ _ _ _ _ _ Hs Hr Hin E)) as (e & -> & B); [eauto| |eauto].
    rewrite M, Hrid. reflexivity.
  Qed.

  Lemma reused_frames {Pr : Proto} (d2 : DState Pr2) g dest m art g' dest' m' art' (sd : Shared Pr) : signatures_correct P ->
    reachable d1 -> reachable d2 -> make_message (d_s d1) g dest = Ok (m, art) -> make_message (d_s d2) g' dest' = Ok (m', art') ->
    s_verifier (d_s d2) = s_verifier (d_s d1) -> s_id (d_s d2) = s_id (d_s d1) -> s_round_id (d_s d2) = s_round_id (d_s d1) ->
    sp_body (msg_echo m) <> sp_body (msg_echo m') ->
    verify_evidence Pr (mkEvidence (s_verifier (d_s d1)) (EvMismatched (s_verifier (d_s d1)) (msg_echo m) (to_signed_hash (msg_echo m')))) sd = Ok tt \/
    collide (content_bytes KEcho (sp_body (msg_echo m'))) (content_bytes KEcho (sp_body (msg_echo m))).
  Proof.
    intros Hc R1 R2 E1 E2 Hv Hid Hrid Ne.
    destruct (@made_message _ _ _ _ _ _ _ R1 Hc E1) as ((_ & S1 & _ & _ & M1 & _) & _).
    destruct (@made_message _ _ _ _ _ _ _ R2 Hc E2) as ((_ & S2 & _ & _ & M2 & _) & _).
    destruct (bytes_eqb (sh_hash (to_signed_hash (msg_echo m'))) (hash (content_bytes KEcho (sp_body (msg_echo m))))) eqn:E.
    - apply bytes_eqb_spec in E. right. cbn [to_signed_hash sh_hash] in E. rewrite <- content_hash_eq, <- content_hash_bytes in E.
      destruct (content_hash_binding _ _ _ _ E) as [[_ X]|C]; [congruence|exact C].
    - left. apply verifies_iff. cbn [shows_guilt ev_body]. unfold shows_guilt. cbn [ev_body]. split; [exact S1|]. split; [apply shash_signed; now rewrite <- Hv|].
      split; [cbn [to_signed_hash sh_meta]; congruence|]. intros X. apply bytes_eqb_spec in X. congruence.
  Qed.
End WithParams.
