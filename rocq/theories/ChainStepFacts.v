(** Who waits for whom in a chain of two protocols. *)
From Coq Require Import List NArith Bool Arith Lia.
From Verif Require Import Base BMap Errors RoundId Message Protocol Transcript Evidence Session Spec SpecCrypto Typed Network SpecNet SpecPartial NetFacts
  PartialFacts StepFacts Chain SpecCompose ComposeFacts.
Import ListNotations.
Set Implicit Arguments.

Section Chained.
  Context {P : Params}.
  Context (P1 P2 : Proto) (j : Join P1 P2).
  Variable r : NetRng.
  Variable sid : bytes.
  Variable parties : bset Verifier.
  Variable tr : Verifier -> J j.
  Variable h1 : Plan P1.
  Variable h2 : Plan P2.
  Notation l1 := (pl_last h1).
  Notation h := (joined_plan j sid tr h1 h2).

  Lemma dest_first n v : n <= l1 -> pl_dest h n v = pl_dest h1 n v.
  Proof. intros H. cbn [pl_dest joined_plan]. now rewrite pick_first. Qed.
  Lemma dest_second k v : pl_dest h (S l1 + k) v = pl_dest h2 k v.
  Proof. cbn [pl_dest joined_plan]. now rewrite pick_second. Qed.
  Lemma from_first n v : n <= l1 -> pl_from h n v = pl_from h1 n v.
  Proof. intros H. cbn [pl_from joined_plan]. now rewrite pick_first. Qed.
  Lemma from_second k v : pl_from h (S l1 + k) v = pl_from h2 k v.
  Proof. cbn [pl_from joined_plan]. now rewrite pick_second. Qed.

  Lemma heard_first n v u : n <= l1 -> (heard h n v u <-> heard h1 n v u).
  Proof.
    intros H. unfold heard. rewrite !echoes_first, !partners_first, from_first by auto. destruct (echoes h1 n u); [tauto|].
    split; (intros [Hx|(E & w & Hw & Hx)]; [now left|right; split; auto; exists w; split; auto; revert Hx; now rewrite from_first by auto]).
  Qed.
  Lemma heard_second k v u : heard h (S l1 + k) v u <-> heard h2 k v u.
  Proof.
    unfold heard. rewrite !echoes_second, !partners_second, from_second. destruct (echoes h2 k u); [tauto|].
    split; (intros [Hx|(E & w & Hw & Hx)]; [now left|right; split; auto; exists w; split; auto; revert Hx; now rewrite from_second by auto]).
  Qed.

  Lemma joined_waits : waits parties h <-> waits parties h1 /\ always_waits parties h2 /\ crossing parties h1 h2.
  Proof.
    split.
    - intros [W1 W2]. split; [|split].
      + split.
        * intros n v u Hn Hv. specialize (W1 n v u). rewrite echoes_first, partners_first, from_first in W1 by auto. apply W1; auto. cbn [pl_last joined_plan]. lia.
        * intros n v u Hn Hv Hu. specialize (W2 n v u). rewrite dest_first, echoes_first, heard_first in W2 by lia. apply W2; auto. cbn [pl_last joined_plan]. lia.
      + split.
        * intros k v u Hk Hv He Hu. destruct (W1 (S l1 + k) v u) as [E|E]; rewrite ?echoes_second, ?partners_second; auto; [cbn [pl_last joined_plan]; lia|lia|].
          now rewrite from_second in E.
        * intros k v u Hk Hv Hu. destruct (W2 (S l1 + k) v u) as [[E _]|E]; auto; [cbn [pl_last joined_plan]; lia| |lia|now apply heard_second].
          replace (S (S l1 + k)) with (S l1 + S k) by lia. now rewrite dest_second.
      + intros v u Hv Hu. destruct (W2 l1 v u) as [E|E]; auto; [cbn [pl_last joined_plan]; lia| | |right; now apply heard_first].
        * replace (S l1) with (S l1 + 0) by lia. now rewrite dest_second.
        * left. now rewrite echoes_first in E by lia.
    - intros ([A1 A2] & [B1 B2] & C). split.
      + intros n v u Hn Hv. destruct (cases Hn) as [Hf|(k & -> & Hk)].
        * rewrite echoes_first, partners_first, from_first by auto. now apply A1.
        * rewrite echoes_second, partners_second, from_second. intros He Hu. right. now apply B1.
      + intros n v u Hn Hv. destruct (cases Hn) as [Hf|(k & E & Hk)].
        * rewrite dest_first, echoes_first, heard_first by lia. intros Hu. now apply A2.
        * destruct k as [|k].
          -- assert (n = l1) as -> by lia. replace (S l1) with (S l1 + 0) by lia. rewrite dest_second, echoes_first, heard_first by lia. intros Hu. now apply C.
          -- assert (n = S l1 + k) as -> by lia. replace (S (S l1 + k)) with (S l1 + S k) by lia. rewrite dest_second, heard_second. intros Hu. right. apply B2; auto.
  Qed.
End Chained.

Section Exact.
  Context {P : Params}.
  Context (P1 P2 : Proto) (j : Join P1 P2).
  Variables (r : NetRng) (sid : bytes) (parties : bset Verifier) (ep : Verifier -> EntryPoint P1) (tr : Verifier -> J j) (sk : Verifier -> Signer).
  Variable h1 : Plan P1.
  Variable h2 : Plan P2.
  Hypothesis Hsk : signers parties sk.
  Hypothesis Hwire : wire_total P.
  Hypothesis Hsig : signatures_correct P.
  Hypothesis HC : chained j r sid parties ep tr h1 h2.

  Lemma chained_lock_step : lock_step r sid parties (fun v => chain_entry j (ep v) (tr v)) (joined_plan j sid tr h1 h2).
  Proof. destruct HC as (H1 & H2 & H3 & H4). now apply joined_lock_step. Qed.

  Lemma chain_waits_exact net0 : honest_net r sid parties sk (fun v => chain_entry j (ep v) (tr v)) = Ok net0 ->
    (waits parties h1 /\ always_waits parties h2 /\ crossing parties h1 h2 <->
     forall xs net, schedule r net0 xs net -> fine parties net /\ keeps r net).
  Proof. intros E. rewrite <- (joined_waits j sid parties tr h1 h2). exact (waits_exact Hsk Hwire Hsig chained_lock_step E). Qed.

  Lemma chain_waits_runs : waits parties h1 -> always_waits parties h2 -> crossing parties h1 h2 ->
    exists net0, honest_net r sid parties sk (fun v => chain_entry j (ep v) (tr v)) = Ok net0 /\
      (forall xs net, schedule r net0 xs net ->
         fine parties net /\
         (forall x res, act r net x = Some res -> exists net', res = Ok net') /\
         ((forall v, mem v parties = true -> exists rep, get v (nodes net) = Some (Ended rep) /\
             rep_outcome rep = OResult (pl_result h2 v : Rslt (chain j)) /\ no_errors (Ended rep)) \/
          exists x net', act r net x = Some (Ok net'))) /\
      (forall f : nat -> Net (chain j), f 0 = net0 -> ~ forall i, exists x, act r (f i) x = Some (Ok (f (S i)))).
  Proof.
    intros W1 W2 W3. assert (W : in_step parties (joined_plan j sid tr h1 h2)) by (apply (in_step_waits chained_lock_step), joined_waits; auto).
    destruct (@in_step_runs P (chain j) r sid parties _ _ sk Hsk Hwire Hsig chained_lock_step W) as (net0 & E & H1 & H2). exists net0. split; [exact E|]. split; [|exact H2].
    intros xs net Hs. destruct (H1 xs net Hs) as (F & A & [[K _]|K]); (split; [exact F|split; [exact A|]]); [left|right; exact K]. exact K.
  Qed.
End Exact.
