(** A protocol for four parties in which several of them send invalid messages. Used only by PropFaults.v. *)
From Coq Require Import List Arith NArith Bool Lia.
From Verif Require Import Base BMap Errors RoundId Message Protocol Transcript Evidence Session Spec SpecCrypto Network SpecNet SpecCaught SpecFaults
  RunSync Toy ToyCrypto ToyNet.
From Verif Require NetFacts.
Import ListNotations.
Set Implicit Arguments.

(** What [u] sends to [v] in the first ([true]) and in the second round: 65 is valid, 66 is not, 67 is not, but that cannot
    be proved. In the first round, 3 cheats on 0 and 1, and 1 on 0; in the second round, 0 would cheat on 2. *)
Definition letter (first : bool) (u v : N) : N :=
  if first then if (N.eqb u 3 && N.ltb v 2)%bool then 66 else if (N.eqb u 1 && N.eqb v 0)%bool then 67 else 65
  else if (N.eqb u 0 && N.eqb v 2)%bool then 66 else 65.
Definition reads (b : body) : res RecvErr unit :=
  match b with
  | Some [65%N] => Ok tt
  | Some [67%N] => Err (RUnprovable (RE_Protocol 0))
  | _ => Err RDirect
  end.
Definition letters : Proto (P := toyP) := {|
  St := bool * N; Rslt := N; Shared := unit; Payload := unit; Artifact := unit;
  tinfo := fun st => if fst st then mkTI (rid_new 1) sempty sempty (set_of_list [rid_new 2]) false
                     else mkTI (rid_new 2) (set_of_list [rid_new 1]) sempty sempty true;
  cinfo := fun st => mkComm (P := toyP) (srem (snd st) (group 4)) (srem (snd st) (group 4)) EPDefault;
  mk_direct := fun st g dest => Ok (Some [letter (fst st) (snd st) dest], tt);
  mk_echo := fun st g => Ok None;
  mk_normal := fun st g => Ok None;
  receive := fun st from m => reads (dm_direct m);
  finalize := fun st g ps _ => Ok (if fst st then AnotherRound (false, snd st) else Finished_ (snd st));
  round_info := fun r => Some (mkRInfo (fun b => match reads b with Err RDirect => Ok tt | _ => Err EE_Invalid end)
    (fun _ => Err EE_Invalid) (fun _ => Err EE_Invalid) (fun _ _ _ _ _ _ _ _ => Err EE_Invalid))
|}.
Definition letters_entry : EntryPoint letters := @mkEP toyP letters (rid_new 1) (fun _ _ me => Ok (true, me)).
Definition anything : St letters -> @Verifier toyP -> DynMsg -> res RecvErr (Payload letters) := fun _ _ _ => Ok tt.
Definition letters_plan : Plan (with_receive letters anything) :=
  @mkPlan toyP (with_receive letters anything) 1 (fun k => rid_new (N.of_nat (S k))) (fun _ _ => @EPDefault toyP)
    (fun _ v => srem v (group 4)) (fun _ v => srem v (group 4)) (fun k v => (Nat.eqb k 0, v)) (fun _ _ => None) (fun _ _ => None)
    (fun k u v => Some [letter (Nat.eqb k 0) u v]) (fun _ _ _ => tt) (fun _ _ _ => tt) (fun v => v).
Definition letters_stop (v : @Verifier toyP) : option nat := if N.ltb v 2 then Some 0 else if N.eqb v 2 then Some 1 else None.

Lemma letters_honest : honest_run rN sid0 (group 4) (fun _ => ep_with anything letters_entry) letters_plan.
Proof.
  assert (Hrem : forall u v : @Verifier toyP, mem u (srem v (group 4)) = true <-> mem u (group 4) = true /\ u <> v).
  { intros u v. rewrite mem_rem, andb_true_iff, negb_true_iff, eqb_neq. tauto. }
  assert (Hif : forall (b : bool) (x : res LocalError body), x = Ok None -> (if b then Ok None else x) = Ok None) by (intros [] x ->; reflexivity).
  split; [constructor|apply NetFacts.heard_in_step; split].
  - intros; reflexivity.
  - intros k l _ _ E. injection E as E. lia.
  - intros [|[|k]] v Hk _; try reflexivity. simpl in Hk. lia.
  - intros k v Hk _. assert (k = 0) as -> by (simpl in Hk; lia). reflexivity.
  - intros; reflexivity.
  - intros k v u _ _ H. now apply Hrem in H.
  - intros k v u _ _ H. now apply Hrem in H.
  - intros k u v _ Hu Hv. apply eq_true_iff_eq. cbn [pl_dest pl_from letters_plan]. rewrite !Hrem. intuition congruence.
  - intros k v u _ _ H. discriminate H.
  - intros k v u w _ _ H. discriminate H.
  - intros v _. reflexivity.
  - intros k v _ _. apply Hif. reflexivity.
  - intros k v _ _. apply Hif. reflexivity.
  - intros k v u _ _ _. reflexivity.
  - intros k v u _ _ _. reflexivity.
  - intros [|[|k]] v ps arts Hk _ _ _; reflexivity.
  - intros k v u _ _ H. discriminate H.
  - intros k v u Hk _ _. cbn in Hk. assert (k = 0) as -> by lia. left. reflexivity.
Qed.

Lemma group4 v : mem v (group 4) = true -> In v ([0; 1; 2; 3]%N : list (@Verifier toyP)).
Proof. intros H. apply in_elements in H. exact H. Qed.
Lemma letters_from n v u : mem u (pl_from letters_plan n v) = true -> mem u (group 4) = true /\ u <> v.
Proof. cbn [letters_plan pl_from]. rewrite mem_rem, andb_true_iff, negb_true_iff, eqb_neq. tauto. Qed.

Lemma letters_faults : faults sid0 (group 4) letters_plan letters_stop (tt : Shared letters).
Proof.
  constructor.
  - intros n v u Hn Hv Hu Hs. apply letters_from in Hu as [Hu Hne]. apply group4 in Hv, Hu. cbn [pl_last letters_plan] in Hn.
    destruct Hv as [<-|[<-|[<-|[<-|[]]]]]; cbn in Hs; try lia;
      destruct Hu as [<-|[<-|[<-|[<-|[]]]]]; try congruence; (assert (n = 0 \/ n = 1) as [->| ->] by lia); try lia; reflexivity.
  - intros v k Hv Hs. apply group4 in Hv. unfold letters_stop in Hs.
    destruct Hv as [<-|[<-|[<-|[<-|[]]]]]; cbn in Hs; try discriminate; injection Hs as <-; (split; [cbn; lia|]).
    + exists (3%N : @Verifier toyP). split; reflexivity.
    + exists (3%N : @Verifier toyP). split; reflexivity.
    + exists (0%N : @Verifier toyP). split; reflexivity.
  - intros v k u Hv Hs Hu. apply letters_from in Hu as [Hu Hne]. apply group4 in Hv, Hu. unfold letters_stop in Hs.
    destruct Hv as [<-|[<-|[<-|[<-|[]]]]]; cbn in Hs; try discriminate; injection Hs as <-;
      destruct Hu as [<-|[<-|[<-|[<-|[]]]]]; try congruence; try (left; reflexivity); try (right; right; eexists; reflexivity);
      right; left; eexists; (split; reflexivity).
Qed.

Lemma letters_first v : first_to_stop (group 4) letters_stop v <-> v = 0%N \/ v = 1%N.
Proof.
  split.
  - intros (Hv & k & Hk & Hmin). apply group4 in Hv. specialize (Hmin (0%N : @Verifier toyP) 0 eq_refl eq_refl).
    destruct Hv as [<-|[<-|[<-|[<-|[]]]]]; auto; exfalso; cbn in Hk; try discriminate. injection Hk as <-. lia.
  - intros [->| ->]; (split; [reflexivity|]; exists 0; split; [reflexivity|]; intros; lia).
Qed.
Lemma letters_plain : plain_ids letters.
Proof. intros [[|] v]; reflexivity. Qed.
