(** More about examples/dining_cryptographers.rs: [main], and what the diners learn. *)
From Coq Require Import List Arith NArith Bool Lia Permutation.
From Verif Require Import Base BMap Errors RoundId Message Protocol Transcript Evidence Session Spec SpecCrypto SpecTyped Typed Network RunSync
  Simple Dining SpecNet TypedFacts NetFacts HonestFacts RunSyncFacts.
Import ListNotations.
Set Implicit Arguments.

(** ** What is in flight in an honest network *)
Section Flight.
  Context {P : Params}.
  Context {Pr : Proto}.
  Variable r : NetRng.
  Variable sid : bytes.
  Variable parties : bset Verifier.
  Variable ep : Verifier -> EntryPoint Pr.
  Variable h : Plan Pr.
  Variable sk : Verifier -> Signer.
  Hypothesis Hsk : signers parties sk.
  Hypothesis Hwire : wire_total P.
  Hypothesis Hsig : signatures_correct P.
  Hypothesis HR : honest_run r sid parties ep h.

  Lemma honest_shown net0 xs net u m : honest_net r sid parties sk ep = Ok net0 -> schedule r net0 xs net -> In (u, m) (flight net) ->
    exists n e, n <= pl_last h /\ mem u parties = true /\ (e = true -> echoes h n u = true) /\
      sp_meta (msg_direct m) = mkMeta sid (if e then echo_of (pl_rid h n) else pl_rid h n) /\
      (e = false -> mem (msg_dest m) (pl_dest h n u) = true /\ sp_body (msg_echo m) = pl_echo h n u /\ sp_body (msg_normal m) = pl_normal h n u /\
        sp_body (msg_direct m) = pl_direct h n u (msg_dest m)).
  Proof.
    intros E Hs Hi. unfold honest_net in E. destruct (start_ok sk Hsk Hwire Hsig HR) as (net1 & E1 & I).
    assert (net1 = net0) as -> by congruence.
    destruct (schedule_ok Hsk Hwire Hsig HR I Hs) as [ph Ip].
    destruct (ni_flight Ip u m Hi) as (g & Hg & Hu & (_ & Ha & Hb & Hd) & Hm).
    destruct g as [n e]. cbn [fst snd] in *. exists n, e. split; auto. split; auto. split.
    { intros ->. destruct (dst_valid HR (n, true) u (msg_dest m) Hg Hu Hm) as [[_ K] _]. apply K. reflexivity. }
    split. { unfold message_authentic in Ha. unfold prid in Ha. cbn [fst snd] in Ha. apply Ha. }
    intros ->. unfold dst, good_bcast, good_direct in *. cbn [fst snd] in *. intuition.
  Qed.
End Flight.

(** ** [main] *)
Section Main.
  Context {P : Params}.
  Variables (diner : N -> Verifier) (num : Verifier -> N).
  Hypothesis Hnum : forall i, (i < 3)%N -> num (diner i) = i.
  Variables (toss_codec reveal_codec : Codec bool) (no_error : bytes -> bool).
  Hypothesis Hc1 : codec_ok toss_codec.
  Hypothesis Hc2 : codec_ok reveal_codec.
  Notation TD := (dining diner num toss_codec reveal_codec no_error).
  Notation table := (table diner).
  Hypothesis Hwire : wire_total P.
  Hypothesis Hsig : signatures_correct P.
  Variable sk : Verifier -> Signer.
  Hypothesis Hsk : signers table sk.

  Lemma dining_main r sid picks :
    exists fuel0 reports results, (forall fuel, fuel0 <= fuel ->
        run_sync fuel r picks sid (map (fun v => (sk v, dining_entry diner num toss_codec reveal_codec no_error)) (elements table)) = Some (Ok reports)) /\
      exec_results reports = Some results /\
      forall v, if mem v table
        then exists b0 b1 b2, get v results = Some (b0, b1, b2) /\ xorb (xorb b0 b1) b2 = even (rsub 0 (nr_new r (diner 0%N)) [0])
        else get v results = None.
  Proof.
    assert (HR : honest_run r sid table (fun _ => dining_entry diner num toss_codec reveal_codec no_error)
              (dining_plan diner num toss_codec reveal_codec no_error (drawn_toss num r) (drawn_paid num r))).
    { apply (dining_honest Hnum Hc1 Hc2). intros v _. apply dining_entry_make. }
    destruct (run_sync_completes Hsk Hwire Hsig HR picks) as (fuel0 & reports & results & H1 & _ & _ & H2 & H3).
    { exists 0, (diner 0%N), (right_of diner num (diner 0%N)). split; [cbn; lia|]. split; [apply diners_at_table; lia|]. left.
      cbn [pl_dest dining_plan]. apply mem_single. reflexivity. }
    exists fuel0, reports, results. split; [exact H1|]. split; [exact H2|]. intros v. rewrite (H3 v). destruct (mem v table) eqn:Hv; [|reflexivity].
    destruct (pl_result (dining_plan diner num toss_codec reveal_codec no_error (drawn_toss num r) (drawn_paid num r)) v) as [[b0 b1] b2] eqn:Er.
    exists b0, b1, b2. split; [reflexivity|].
    rewrite (dining_parity Hnum sid _ _ v Hv Er).
    unfold drawn_paid. rewrite !Hnum by lia. cbn. now rewrite !xorb_false_r.
  Qed.

  (** ** What a diner learns *)
  Section Anonymity.
    Variable v : Verifier.
    Hypothesis Hv : mem v table = true.
    Variable toss : Verifier -> bool.
    Let left := left_of diner num v.
    Let right := right_of diner num v.
    Definition other_toss (u : Verifier) : bool := if eqb u right then negb (toss u) else toss u.

    Lemma same_reveal u : mem u table = true ->
      reveal diner num toss (fun u => eqb u left) u = reveal diner num other_toss (fun u => eqb u right) u.
    Proof.
      intros Hu. unfold reveal, dining_reveal, second, other_toss, left, right, left_of, right_of. cbn [d2_own d2_neighbour d2_paid].
      assert (Hd : forall i j, (i < 3)%N -> (j < 3)%N -> eqb (diner i) (diner j) = N.eqb i j).
      { intros i j Hi Hj. destruct (N.eqb_spec i j) as [->|Hne]; [apply eqb_refl|]. apply eqb_neq. intros E.
        apply Hne. exact (diner_inj diner num Hnum Hi Hj E). }
      destruct (at_table diner no_error [] toss toss v Hv) as [E|[E|E]]; destruct (at_table diner no_error [] toss toss u Hu) as [E'|[E'|E']]; rewrite E, E'; rewrite !Hnum by lia;
      change ((0 + 2) mod 3)%N with 2%N; change ((1 + 2) mod 3)%N with 0%N; change ((2 + 2) mod 3)%N with 1%N;
      change ((0 + 1) mod 3)%N with 1%N; change ((1 + 1) mod 3)%N with 2%N; change ((2 + 1) mod 3)%N with 0%N;
      rewrite !Hd by lia; cbn;
      destruct (toss (diner 0)), (toss (diner 1)), (toss (diner 2)); reflexivity.
    Qed.

    Lemma not_right u : mem u table = true -> v = right_of diner num u -> eqb u right = false.
    Proof.
      intros Hu E. apply eqb_neq. unfold right. intros E'. rewrite E' in E.
      destruct (at_table diner no_error [] toss toss v Hv) as [F|[F|F]]; unfold right_of in E; rewrite F in E; rewrite !Hnum in E by (try apply N.mod_lt; lia);
      apply (diner_inj diner num Hnum) in E; vm_compute in E; try discriminate; vm_compute; reflexivity.
    Qed.

    Variables r r' : NetRng (P := P).
    Variable sid : bytes.
    Variables ep ep' : Verifier -> EntryPoint (wrap TD).
    Hypothesis Hep : forall u, mem u table = true ->
      ep_make (ep u) (rsub 0 (nr_new r u)) sid u = Ok (box TD DR1 (mkDining1 u (toss u) (eqb u left)) : St (wrap TD)).
    Hypothesis Hep' : forall u, mem u table = true ->
      ep_make (ep' u) (rsub 0 (nr_new r' u)) sid u = Ok (box TD DR1 (mkDining1 u (other_toss u) (eqb u right)) : St (wrap TD)).

    Lemma anonymous net0 net0' xs xs' net net' :
      honest_net r sid table sk ep = Ok net0 -> honest_net r' sid table sk ep' = Ok net0' ->
      schedule r net0 xs net -> schedule r' net0' xs' net' ->
      (forall u m m', In (u, m) (flight net) -> In (u, m') (flight net') -> msg_dest m = v -> msg_dest m' = v ->
         sp_meta (msg_direct m) = sp_meta (msg_direct m') ->
         sp_body (msg_echo m) = sp_body (msg_echo m') /\ sp_body (msg_normal m) = sp_body (msg_normal m') /\
         sp_body (msg_direct m) = sp_body (msg_direct m')) /\
      (forall rep rep', get v (nodes net) = Some (Ended rep) -> get v (nodes net') = Some (Ended rep') -> rep_outcome rep = rep_outcome rep').
    Proof.
      intros E E' Hs Hs'.
      pose proof (@dining_honest P diner num Hnum toss_codec reveal_codec no_error Hc1 Hc2 r sid toss (fun u => eqb u left) ep Hep) as HR.
      pose proof (@dining_honest P diner num Hnum toss_codec reveal_codec no_error Hc1 Hc2 r' sid other_toss (fun u => eqb u right) ep' Hep') as HR'.
      split.
      - intros u m m' Hi Hi' Hd Hd' Hm.
        destruct (honest_shown Hsk Hwire Hsig HR u m E Hs Hi) as (n & e & Hn & Hu & He & M & B).
        destruct (honest_shown Hsk Hwire Hsig HR' u m' E' Hs' Hi') as (n' & e' & Hn' & _ & He' & M' & B').
        assert (e = false) as -> by (destruct e; auto; discriminate (He eq_refl)).
        assert (e' = false) as -> by (destruct e'; auto; discriminate (He' eq_refl)).
        specialize (B eq_refl). specialize (B' eq_refl). destruct B as (D & B1 & B2 & B3). destruct B' as (D' & B1' & B2' & B3').
        rewrite M, M' in Hm. cbn [pl_rid pl_last dining_plan] in *.
        assert (n = n') as <-. { injection Hm as Hm. lia. }
        rewrite B1, B1', B2, B2', B3, B3', Hd, Hd'. cbn [pl_echo pl_normal pl_direct dining_plan]. split; [reflexivity|].
        destruct n as [|n].
        + split; [reflexivity|]. f_equal. unfold other_toss. rewrite Hd in D. cbn [pl_dest dining_plan] in D. apply mem_single in D.
          rewrite (not_right Hu D). reflexivity.
        + split; [|reflexivity]. f_equal. apply same_reveal. exact Hu.
      - intros rep rep' Hg Hg'.
        destruct (honest_results sk Hsk Hwire Hsig HR E v Hs Hg) as [_ ->]. destruct (honest_results sk Hsk Hwire Hsig HR' E' v Hs' Hg') as [_ ->].
        f_equal. cbn [pl_result dining_plan]. destruct (table_three diner num Hnum no_error sid v Hv) as (u & w & El). rewrite El.
        assert (Hin : forall x, In x [u; w] -> mem x table = true).
        { intros x Hx. rewrite <- El in Hx. apply in_elements in Hx. rewrite mem_rem in Hx. apply andb_prop in Hx as [_ Hx]. exact Hx. }
        rewrite (same_reveal u (Hin u (or_introl eq_refl))), (same_reveal w (Hin w (or_intror (or_introl eq_refl)))), (same_reveal v Hv). reflexivity.
    Qed.
  End Anonymity.
End Main.
