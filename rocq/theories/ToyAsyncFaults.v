(** A protocol for four parties in which invalid messages are sent in the last round. Used only by PropAsyncFaults.v. *)
From Coq Require Import List Arith NArith Bool Lia.
From Verif Require Import Base BMap Errors RoundId Message Protocol Transcript Evidence Session Spec SpecCrypto Network SpecNet SpecCaught SpecFaults
  RunSync Toy ToyCrypto ToyNet ToyFaults SpecAsyncFaults.
From Verif Require NetFacts.
Import ListNotations.
Set Implicit Arguments.

(** What [u] sends to [v] in the first ([true]) and in the second round: 65 is valid, 66 is not, 67 is not, but that cannot
    be proved. In the second round, 3 cheats on 0 and 1, and 1 on 0. *)
Definition late_letter (first : bool) (u v : N) : N :=
  if first then 65 else if (N.eqb u 3 && N.ltb v 2)%bool then 66 else if (N.eqb u 1 && N.eqb v 0)%bool then 67 else 65.
Definition late : Proto (P := toyP) := {|
  St := bool * N; Rslt := N; Shared := unit; Payload := unit; Artifact := unit;
  tinfo := fun st => if fst st then mkTI (rid_new 1) sempty sempty (set_of_list [rid_new 2]) false
                     else mkTI (rid_new 2) (set_of_list [rid_new 1]) sempty sempty true;
  cinfo := fun st => mkComm (P := toyP) (srem (snd st) (group 4)) (srem (snd st) (group 4)) EPDefault;
  mk_direct := fun st g dest => Ok (Some [late_letter (fst st) (snd st) dest], tt);
  mk_echo := fun st g => Ok None;
  mk_normal := fun st g => Ok None;
  receive := fun st from m => reads (dm_direct m);
  finalize := fun st g ps _ => Ok (if fst st then AnotherRound (false, snd st) else Finished_ (snd st));
  round_info := fun r => Some (mkRInfo (fun b => match reads b with Err RDirect => Ok tt | _ => Err EE_Invalid end)
    (fun _ => Err EE_Invalid) (fun _ => Err EE_Invalid) (fun _ _ _ _ _ _ _ _ => Err EE_Invalid))
|}.
Definition late_entry : EntryPoint late := @mkEP toyP late (rid_new 1) (fun _ _ me => Ok (true, me)).
Definition whatever : St late -> @Verifier toyP -> DynMsg -> res RecvErr (Payload late) := fun _ _ _ => Ok tt.
Definition late_plan : Plan (with_receive late whatever) :=
  @mkPlan toyP (with_receive late whatever) 1 (fun k => rid_new (N.of_nat (S k))) (fun _ _ => @EPDefault toyP)
    (fun _ v => srem v (group 4)) (fun _ v => srem v (group 4)) (fun k v => (Nat.eqb k 0, v)) (fun _ _ => None) (fun _ _ => None)
    (fun k u v => Some [late_letter (Nat.eqb k 0) u v]) (fun _ _ _ => tt) (fun _ _ _ => tt) (fun v => v).
Definition late_stop (v : @Verifier toyP) : option nat := if N.ltb v 2 then Some 1 else None.

Lemma late_honest : honest_run rN sid0 (group 4) (fun _ => ep_with whatever late_entry) late_plan.
Proof.
  assert (Hrem : forall u v : @Verifier toyP, mem u (srem v (group 4)) = true <-> mem u (group 4) = true /\ u <> v).
  { intros u v. rewrite mem_rem, andb_true_iff, negb_true_iff, eqb_neq. tauto. }
  assert (Hif : forall (b : bool) (x : res LocalError body), x = Ok None -> (if b then Ok None else x) = Ok None) by (intros [] x ->; reflexivity).
  split; [constructor|apply NetFacts.heard_in_step; split].
  - intros; reflexivity.
  - intros k l _ _ E. injection E as E. lia.
  - intros [|[|k]] v Hk _; try reflexivity. simpl in Hk. lia.
  - intros k v Hk _. assert (k = 0) as -> by (simpl in Hk; lia). reflexivity.
  - intros; reflexivity.
  - intros k v u _ _ H. now apply Hrem in H.
  - intros k v u _ _ H. now apply Hrem in H.
  - intros k u v _ Hu Hv. apply eq_true_iff_eq. cbn [pl_dest pl_from late_plan]. rewrite !Hrem. intuition congruence.
  - intros k v u _ _ H. discriminate H.
  - intros k v u w _ _ H. discriminate H.
  - intros v _. reflexivity.
  - intros k v _ _. apply Hif. reflexivity.
  - intros k v _ _. apply Hif. reflexivity.
  - intros k v u _ _ _. reflexivity.
  - intros k v u _ _ _. reflexivity.
  - intros [|[|k]] v ps arts Hk _ _ _; reflexivity.
  - intros k v u _ _ H. discriminate H.
  - intros k v u Hk _ _. cbn in Hk. assert (k = 0) as -> by lia. left. reflexivity.
Qed.

Lemma late_from n v u : mem u (pl_from late_plan n v) = true -> mem u (group 4) = true /\ u <> v.
Proof. cbn [late_plan pl_from]. rewrite mem_rem, andb_true_iff, negb_true_iff, eqb_neq. tauto. Qed.

Lemma late_faults : faults sid0 (group 4) late_plan late_stop (tt : Shared late).
Proof.
  constructor.
  - intros n v u Hn Hv Hu Hs. apply late_from in Hu as [Hu Hne]. apply group4 in Hv, Hu. cbn [pl_last late_plan] in Hn.
    destruct Hv as [<-|[<-|[<-|[<-|[]]]]]; cbn in Hs; try lia;
      destruct Hu as [<-|[<-|[<-|[<-|[]]]]]; try congruence; (assert (n = 0 \/ n = 1) as [->| ->] by lia); try lia; reflexivity.
  - intros v k Hv Hs. apply group4 in Hv. unfold late_stop in Hs.
    destruct Hv as [<-|[<-|[<-|[<-|[]]]]]; cbn in Hs; try discriminate; injection Hs as <-; (split; [cbn; lia|]).
    + exists (3%N : @Verifier toyP). split; reflexivity.
    + exists (3%N : @Verifier toyP). split; reflexivity.
  - intros v k u Hv Hs Hu. apply late_from in Hu as [Hu Hne]. apply group4 in Hv, Hu. unfold late_stop in Hs.
    destruct Hv as [<-|[<-|[<-|[<-|[]]]]]; cbn in Hs; try discriminate; injection Hs as <-;
      destruct Hu as [<-|[<-|[<-|[<-|[]]]]]; try congruence; try (left; reflexivity); try (right; right; eexists; reflexivity);
      right; left; eexists; (split; reflexivity).
Qed.

Lemma late_plain : plain_ids late.
Proof. intros [[|] v]; reflexivity. Qed.

Lemma late_same : nobody_goes_past (group 4) late_plan late_stop 1.
Proof. intros v Hv. apply group4 in Hv. destruct Hv as [<-|[<-|[<-|[<-|[]]]]]; auto. Qed.
