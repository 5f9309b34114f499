(** Examples for [PropStore.v]: messages of parties that do not take part. *)
From Coq Require Import List NArith Bool Lia.
From Verif Require Import Base BMap Errors RoundId Message Protocol Transcript Evidence Session Spec SpecCrypto SpecStore MessageFacts SessionFacts RunFacts SignFacts StoreFacts
  Exec Toy ToyCrypto.
Import ListNotations.

Notation cV i := (N.of_nat i : @Verifier toyP).
(** A message of party [i] for round 2. *)
Definition early (i : nat) : Message (P := toyP) := tforge (N.of_nat i) sid0 (rid_new 2) (Some [5]%N) None None.

Lemma toy_part k (i : nat) rid b : exists p, sign_part (P := toyP) k g0 (N.of_nat i : @Signer toyP) sid0 rid b = Ok p /\
  sp_meta p = mkMeta sid0 rid /\ part_signed (cV i) p.
Proof.
  destruct (sign_part (P := toyP) k g0 (N.of_nat i : @Signer toyP) sid0 rid b) as [p|e|] eqn:E.
  - exists p. split; auto. split; [apply (sign_part_ok _ _ _ _ _ E)|]. exact (@sign_part_signed _ _ _ _ _ _ _ _ toy_signatures E).
  - exfalso. unfold sign_part, part_digest, message_digest in E. simpl in E. discriminate.
  - now apply sign_part_no_panic in E.
Qed.
Lemma early_authentic i : message_authentic (cV i) sid0 (rid_new 2) (early i).
Proof.
  unfold early, tforge.
  destruct (toy_part KDirect i (rid_new 2) (Some [5]%N)) as (p1 & E1 & M1 & S1).
  destruct (toy_part KEcho i (rid_new 2) None) as (p2 & E2 & M2 & S2).
  destruct (toy_part KNormal i (rid_new 2) None) as (p3 & E3 & M3 & S3).
  rewrite E1, E2, E3. cbn [ok_def]. repeat split; auto.
Qed.

Definition crowd_state (n : nat) : Prop := exists es a, run (tstart cfg3n 0) es (DS (tsession cfg3n 0) a []) /\ in_round es /\
  (forall from m o, In (EPre from m o) es -> (5 <= from)%N /\ o = Cached) /\
  (forall e, In e es -> exists from m, e = EPre from m Cached) /\
  (forall v, get v (a_provable a) = None) /\ (forall v, get v (a_unprovable a) = None) /\
  (forall v c, get v (a_cached a) = Some c -> exists vm, get (rid_new 2) c = Some vm) /\
  (forall i, contains (cV i) (a_cached a) = true <-> 5 <= i < 5 + n).
Lemma crowd_all n : crowd_state n.
Proof.
  induction n as [|n (es & a & H1 & H2 & H3 & H3' & H4 & H5 & H7 & H6)].
  - exists [], (make_accumulator (tsession cfg3n 0)). split; [constructor|]. split; [reflexivity|]. split; [simpl; tauto|]. split; [simpl; tauto|]. split; [reflexivity|]. split; [reflexivity|].
    split; [intros v c Hv; simpl in Hv; rewrite get_empty in Hv; discriminate|].
    intros i. replace (contains (cV i) (a_cached (make_accumulator (tsession cfg3n 0)))) with false by (symmetry; apply contains_empty). split; [discriminate|lia].
  - set (u := cV (5 + n)).
    assert (Hb : ~ banned (tsession cfg3n 0) a u).
    { unfold banned. rewrite H4, H5. intros [[e H]|[[e H]|[[e H]|[e H]]]]; discriminate. }
    assert (Hc : get u (a_cached a) = None).
    { apply contains_false. destruct (contains u (a_cached a)) eqn:E; auto. apply H6 in E. lia. }
    assert (Hw : window (tsession cfg3n 0) (rid_new 2)) by (eexists; split; [vm_compute; reflexivity|vm_compute; reflexivity]).
    pose proof (@preprocess_caches _ _ (tsession cfg3n 0) a u (early (5 + n)) (rid_new 2) Hb (early_authentic (5 + n))) as E.
    assert (Hn : rid_new 2 <> s_round_id (tsession cfg3n 0)) by (vm_compute; discriminate).
    assert (Hmc : message_is_cached a u (rid_new 2) = false) by (unfold message_is_cached; now rewrite Hc).
    specialize (E Hn Hw Hmc). rewrite Hc in E.
    eexists (es ++ [EPre u (early (5 + n)) Cached]), _. split; [eapply run_snoc; [exact H1|]; exact (@step_pre toyP (toyPr cfg3n) (tsession cfg3n 0) a [] u (early (5 + n)) _ Cached E)|].
    split; [apply in_round_app; split; [exact H2|reflexivity]|].
    split; [intros from m o Hin; apply in_app_iff in Hin as [Hin|[Hin|[]]]; [eauto|]; inversion Hin; subst; split; [unfold u; lia|reflexivity]|].
    split; [intros e Hin; apply in_app_iff in Hin as [Hin|[<-|[]]]; eauto|].
    cbn [set_cached a_provable a_unprovable a_cached]. split; [exact H4|]. split; [exact H5|].
    split; [intros v c; rewrite get_insert; destruct (eqb v u); [intros Hv; injection Hv as <-; rewrite get_insert_eq; eauto|eauto]|].
    intros i. rewrite contains_insert, orb_true_iff, eqb_eq, H6. unfold u. split; [intros [H|H]; [apply Nnat.Nat2N.inj in H|]; lia|].
    intros H. destruct (PeanoNat.Nat.eq_dec i (5 + n)) as [->|]; [now left|right; lia].
Qed.

Lemma entries2_ge {V} (m : bmap (@Verifier toyP) (bmap RoundId V)) l : NoDup l -> (forall k, In k l -> exists x, get k m = Some x /\ 1 <= entries x) -> length l <= entries2 m.
Proof.
  intros Hn H. unfold entries2. assert (G : forall ys : list (@Verifier toyP * bmap RoundId V), (forall k, In k l -> exists x, In (k, x) ys /\ 1 <= entries x) -> length l <= list_sum (map (fun kv => entries (snd kv)) ys)).
  { clear H. intros ys. revert l Hn. induction ys as [|[k x] ys IH]; intros l Hn H.
    - destruct l as [|v l]; [simpl; lia|]. destruct (H v (or_introl eq_refl)) as (x & [] & _).
    - change (list_sum (map (fun kv => entries (snd kv)) ((k, x) :: ys))) with (entries x + list_sum (map (fun kv => entries (snd kv)) ys)).
      destruct (in_dec (fun a b => ord_dec a b) k l) as [Hi|Hi].
      + apply in_split in Hi as (l1 & l2 & ->). assert (Hk : ~ In k (l1 ++ l2)) by now apply NoDup_remove_2. apply NoDup_remove_1 in Hn.
        rewrite app_length. cbn [length]. rewrite PeanoNat.Nat.add_succ_r, <- app_length.
        assert (Hx : 1 <= entries x \/ entries x = 0) by lia.
        assert (HL : length (l1 ++ l2) <= list_sum (map (fun kv => entries (snd kv)) ys)).
        { apply IH; auto. intros v Hv. destruct (H v) as (y & [Hy|Hy] & E); [now apply in_or_mid|inversion Hy; subst; contradiction|eauto]. }
        destruct Hx as [Hx|Hx]; [lia|]. destruct (H k) as (y & [Hy|Hy] & E); [apply in_elt|inversion Hy; subst; lia|].
        assert (length (k :: l1 ++ l2) <= list_sum (map (fun kv => entries (snd kv)) ys)).
        { apply IH; [now constructor|]. intros v [<-|Hv]; [eauto|]. destruct (H v) as (z & [Hz|Hz] & Ez); [now apply in_or_mid|inversion Hz; subst; contradiction|eauto]. }
        cbn [length] in *. lia.
      + assert (length l <= list_sum (map (fun kv => entries (snd kv)) ys)); [|lia].
        apply IH; auto. intros v Hv. destruct (H v Hv) as (y & [Hy|Hy] & E); [inversion Hy; subst; contradiction|eauto]. }
  apply G. intros k Hk. destruct (H k Hk) as (x & Hx & E). exists x. split; auto. now apply in_to_list.
Qed.

Lemma entries_pos {K V} `{Ord K} (m : bmap K V) k x : get k m = Some x -> 1 <= entries m.
Proof. intros H0. apply in_to_list in H0. unfold entries. destruct (to_list m); [contradiction|simpl; lia]. Qed.

Lemma outsiders_stored : exists (P : Params) (Pr : Proto) (s : Session Pr), initial s /\ length (elements (ci_expect (s_comm s))) = 2 /\
  forall n, exists es d, run (start s) es d /\ (forall e, In e es -> exists from m, e = EPre from m Cached) /\
    (forall from m o, In (EPre from m o) es -> mem from (ci_expect (s_comm s)) = false /\ from <> s_verifier s) /\ n <= stored d.
Proof.
  exists toyP, (toyPr cfg3n), (tsession cfg3n 0). split; [apply toy_initial|]. split; [vm_compute; reflexivity|].
  intros n. destruct (crowd_all n) as (es & a & H1 & H2 & H3 & H3' & H4 & H5 & H7 & H6). exists es, (DS (tsession cfg3n 0) a []).
  split; [exact H1|]. split; [exact H3'|]. split.
  - intros from m o Hin. apply H3 in Hin as [Hin _]. split.
    + assert (E : elements (ci_expect (s_comm (tsession cfg3n 0))) = [1; 2]%N) by (vm_compute; reflexivity).
      destruct (mem from (ci_expect (s_comm (tsession cfg3n 0)))) eqn:Em; auto. apply in_elements in Em. rewrite E in Em. destruct Em as [<-|[<-|[]]]; lia.
    + replace (s_verifier (tsession cfg3n 0)) with 0%N by (vm_compute; reflexivity). lia.
  - assert (Hc : n <= entries2 (a_cached a)); [|unfold stored; cbn [d_a d_todo length]; lia].
    rewrite <- (seq_length n 5), <- (map_length (fun i => cV i) (seq 5 n)). apply entries2_ge.
    + apply FinFun.Injective_map_NoDup; [intros x y; apply Nnat.Nat2N.inj|apply seq_NoDup].
    + intros k Hk. apply in_map_iff in Hk as (i & <- & Hi). apply in_seq in Hi. assert (Hx : contains (cV i) (a_cached a) = true) by (apply H6; lia).
      apply contains_get in Hx as [c Hx]. exists c. split; auto.
      destruct (H7 _ _ Hx) as [vm Hvm]. exact (entries_pos _ _ _ Hvm).
Qed.
