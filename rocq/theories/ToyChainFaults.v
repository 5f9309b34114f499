(** The protocol of ToyFaults.v after another one in which 3 cheats on 2. Used only by PropChainFaults.v. *)
From Coq Require Import List Arith NArith Bool Lia.
From Verif Require Import Base BMap Errors RoundId Message Protocol Transcript Evidence Session Spec SpecCrypto Network SpecNet Chain SpecCompose SpecCaught SpecFaults SpecChainFaults
  RunSync Toy ToyCrypto ToyNet ToyFaults.
Import ListNotations.
Set Implicit Arguments.

Definition greeting (u v : N) : N := if (N.eqb u 3 && N.eqb v 2)%bool then 66 else 65.
Definition greetings : Proto (P := toyP) := {|
  St := N; Rslt := N; Shared := unit; Payload := unit; Artifact := unit;
  tinfo := fun st => mkTI (rid_new 1) sempty sempty sempty true;
  cinfo := fun st => mkComm (P := toyP) (srem st (group 4)) (srem st (group 4)) EPDefault;
  mk_direct := fun st g dest => Ok (Some [greeting st dest], tt);
  mk_echo := fun st g => Ok None;
  mk_normal := fun st g => Ok None;
  receive := fun st from m => reads (dm_direct m);
  finalize := fun st g ps _ => Ok (Finished_ st);
  round_info := fun r => Some (mkRInfo (fun b => match reads b with Err RDirect => Ok tt | _ => Err EE_Invalid end)
    (fun _ => Err EE_Invalid) (fun _ => Err EE_Invalid) (fun _ _ _ _ _ _ _ _ => Err EE_Invalid))
|}.
Definition greetings_entry : EntryPoint greetings := @mkEP toyP greetings (rid_new 1) (fun _ _ me => Ok me).
Definition anyone : St greetings -> @Verifier toyP -> DynMsg -> res RecvErr (Payload greetings) := fun _ _ _ => Ok tt.
Definition greetings_plan : Plan (with_receive greetings anyone) :=
  @mkPlan toyP (with_receive greetings anyone) 0 (fun k => rid_new (N.of_nat (S k))) (fun _ _ => @EPDefault toyP)
    (fun _ v => srem v (group 4)) (fun _ v => srem v (group 4)) (fun k v => v) (fun _ _ => None) (fun _ _ => None)
    (fun k u v => Some [greeting u v]) (fun _ _ _ => tt) (fun _ _ _ => tt) (fun v => v).
Definition greetings_stop (v : @Verifier toyP) : option nat := if N.eqb v 2 then Some 0 else None.
(** The result of the first protocol is passed on. *)
Definition correspondence : Join greetings letters :=
  @mkJoin toyP greetings letters (rid_new 1) unit (fun _ res _ _ _ => Ok ((true, res) : St letters)).

Lemma in_rest (u v : @Verifier toyP) : mem u (srem v (group 4)) = true <-> mem u (group 4) = true /\ u <> v.
Proof. rewrite mem_rem, andb_true_iff, negb_true_iff, eqb_neq. tauto. Qed.
Lemma skip_if (b : bool) (x : res LocalError body) : x = Ok None -> (if b then Ok None else x) = Ok None.
Proof. intros ->. now destruct b. Qed.

Lemma greetings_lock r : lock_step r sid0 (group 4) (fun _ => ep_with anyone greetings_entry) greetings_plan.
Proof.
  constructor.
  - intros; reflexivity.
  - intros k l _ _ E. injection E as E. lia.
  - intros k v Hk _. assert (k = 0) as -> by (simpl in Hk; lia). reflexivity.
  - intros k v Hk _. simpl in Hk. lia.
  - intros; reflexivity.
  - intros k v u _ _ H. now apply in_rest in H.
  - intros k v u _ _ H. now apply in_rest in H.
  - intros k u v _ Hu Hv. apply eq_true_iff_eq. cbn [pl_dest pl_from greetings_plan]. rewrite !in_rest. intuition congruence.
  - intros k v u _ _ H. discriminate H.
  - intros k v u w _ _ H. discriminate H.
  - intros v _. reflexivity.
  - intros k v _ _. apply skip_if. reflexivity.
  - intros k v _ _. apply skip_if. reflexivity.
  - intros k v u _ _ _. reflexivity.
  - intros k v u _ _ _. reflexivity.
  - intros k v ps arts Hk _ _ _. assert (k = 0) as -> by (simpl in Hk; lia). reflexivity.
Qed.
Lemma letters_lock r : lock_step r sid0 (group 4) (fun v => ep_with anything (second_entry correspondence (fun _ => tt) (pl_result greetings_plan : Verifier -> Rslt greetings) v)) letters_plan.
Proof.
  constructor.
  - intros; reflexivity.
  - intros k l _ _ E. injection E as E. lia.
  - intros [|[|k]] v Hk _; try reflexivity. simpl in Hk. lia.
  - intros k v Hk _. assert (k = 0) as -> by (simpl in Hk; lia). reflexivity.
  - intros; reflexivity.
  - intros k v u _ _ H. now apply in_rest in H.
  - intros k v u _ _ H. now apply in_rest in H.
  - intros k u v _ Hu Hv. apply eq_true_iff_eq. cbn [pl_dest pl_from letters_plan]. rewrite !in_rest. intuition congruence.
  - intros k v u _ _ H. discriminate H.
  - intros k v u w _ _ H. discriminate H.
  - intros v _. reflexivity.
  - intros k v _ _. apply skip_if. reflexivity.
  - intros k v _ _. apply skip_if. reflexivity.
  - intros k v u _ _ _. reflexivity.
  - intros k v u _ _ _. reflexivity.
  - intros [|[|k]] v ps arts Hk _ _ _; reflexivity.
Qed.
Lemma greetings_everybody : everybody (group 4) greetings_plan.
Proof. split; [intros n v _ _; split; reflexivity|]. intros n v _ _. split; [reflexivity|]. intros u _. split; reflexivity. Qed.
Lemma letters_everybody : everybody (group 4) letters_plan.
Proof. split; [intros n v _ _; split; reflexivity|]. intros n v _ _. split; [reflexivity|]. intros u _. split; reflexivity. Qed.

Lemma greetings_from n v u : mem u (pl_from greetings_plan n v) = true -> mem u (group 4) = true /\ u <> v.
Proof. apply in_rest. Qed.
Lemma greetings_faults : faults sid0 (group 4) greetings_plan greetings_stop (tt : Shared greetings).
Proof.
  constructor.
  - intros n v u Hn Hv Hu Hs. apply greetings_from in Hu as [Hu Hne]. apply group4 in Hv, Hu. cbn [pl_last greetings_plan] in Hn.
    assert (n = 0) as -> by lia. destruct Hv as [<-|[<-|[<-|[<-|[]]]]]; cbn in Hs; try lia;
      destruct Hu as [<-|[<-|[<-|[<-|[]]]]]; try congruence; reflexivity.
  - intros v k Hv Hs. apply group4 in Hv. unfold greetings_stop in Hs.
    destruct Hv as [<-|[<-|[<-|[<-|[]]]]]; cbn in Hs; try discriminate; injection Hs as <-. split; [cbn; lia|].
    exists (3%N : @Verifier toyP). split; reflexivity.
  - intros v k u Hv Hs Hu. apply greetings_from in Hu as [Hu Hne]. apply group4 in Hv, Hu. unfold greetings_stop in Hs.
    destruct Hv as [<-|[<-|[<-|[<-|[]]]]]; cbn in Hs; try discriminate; injection Hs as <-;
      destruct Hu as [<-|[<-|[<-|[<-|[]]]]]; try congruence; try (left; reflexivity);
      right; left; eexists; (split; reflexivity).
Qed.
Lemma greetings_plain : plain_ids greetings.
Proof. intros v. reflexivity. Qed.
Lemma chained_first v : first_to_stop (group 4) (stop_after greetings_plan greetings_stop letters_stop) v <-> v = 2%N.
Proof.
  split.
  - intros (Hv & k & Hk & Hmin). apply group4 in Hv. specialize (Hmin (2%N : @Verifier toyP) 0 eq_refl eq_refl).
    destruct Hv as [<-|[<-|[<-|[<-|[]]]]]; auto; exfalso; cbn in Hk; try discriminate Hk; injection Hk as <-; lia.
  - intros ->. split; [reflexivity|]. exists 0. split; [reflexivity|]. intros; lia.
Qed.
