(** A network in which one party speaks to everybody else and expects no answer. Used only by a witness. *)
From Coq Require Import List NArith Bool Arith Lia Permutation.
From Verif Require Import Base BMap Errors RoundId Message Protocol Transcript Evidence Session Spec SpecCrypto Typed SpecTyped
  MessageFacts IntakeFacts Network SpecNet RunSync Driver SpecDriver Par SpecPar DriverFacts RunSyncFacts ParFacts ParDeadFacts ParNetFacts ParBoundFacts Toy ToyCrypto ToySimple HonestFacts ToyNet ToyPar.
From Verif Require NetFacts.
Import ListNotations.
Set Implicit Arguments.

Notation V := (@Verifier toyP).
Definition to_all (n : nat) (v : V) : bset V := if eqb v (0%N : V) then srem (0%N : V) (group n) else sempty.
Definition from_hub (n : nat) (v : V) : bset V := if eqb v (0%N : V) then sempty else set_of_list [0%N : V].
(** One round: party 0 sends an empty message to everybody else. *)
Definition hub (n : nat) : Proto (P := toyP) := {|
  St := V; Rslt := unit; Shared := unit; Payload := unit; Artifact := unit;
  tinfo := fun _ => mkTI (rid_new 1) sempty sempty sempty true;
  cinfo := fun me => @mkComm toyP (to_all n me) (from_hub n me) (@EPDefault toyP);
  mk_direct := fun st g dest => Ok (None, tt);
  mk_echo := fun st g => Ok None;
  mk_normal := fun st g => Ok None;
  receive := fun st from m => Ok tt;
  finalize := fun st g ps _ => Ok (Finished_ tt);
  round_info := fun r => None
|}.
Definition hub_entry (n : nat) : EntryPoint (hub n) := @mkEP toyP (hub n) (rid_new 1) (fun _ _ me => Ok me).
Definition hub_plan (n : nat) : Plan (hub n) := @mkPlan toyP (hub n) 0 (fun k => rid_new (N.of_nat (S k))) (fun _ _ => @EPDefault toyP)
  (fun _ => to_all n) (fun _ => from_hub n) (fun _ v => v) (fun _ _ => None) (fun _ _ => None) (fun _ _ _ => None)
  (fun _ _ _ => tt) (fun _ _ _ => tt) (fun _ => tt).

Lemma hub_zero n : 0 < n -> mem (0%N : V) (group n) = true.
Proof.
  intros H. unfold group, set_of_list. apply mem_set_of_list. destruct n; [lia|]. left. reflexivity.
Qed.
Lemma hub_honest n : 0 < n -> honest_run rN sid0 (group n) (fun _ => hub_entry n) (hub_plan n).
Proof.
  intros Hn.
  assert (Hto : forall u v : V, mem u (to_all n v) = true <-> mem u (group n) = true /\ u <> v /\ v = 0%N).
  { intros u v. unfold to_all. destruct (eqb_spec v (0%N : V)) as [->|H].
    - rewrite mem_rem, andb_true_iff, negb_true_iff, eqb_neq. tauto.
    - split; [discriminate|tauto]. }
  assert (Hfrom : forall u v : V, mem u (from_hub n v) = true <-> v <> 0%N /\ u = 0%N).
  { intros u v. unfold from_hub. destruct (eqb_spec v (0%N : V)) as [->|H]; [split; [discriminate|tauto]|].
    rewrite mem_set_of_list. split; [intros [<-|[]]; auto|intros [_ ->]; now left]. }
  assert (Hif : forall (b : bool) (x : res LocalError body), x = Ok None -> (if b then Ok None else x) = Ok None) by (intros [] x ->; reflexivity).
  split; [constructor|apply NetFacts.heard_in_step; split].
  - intros; reflexivity.
  - intros k l _ _ E. injection E as E. lia.
  - intros [|k] v Hk _; try reflexivity. simpl in Hk. lia.
  - intros k v Hk _. simpl in Hk. lia.
  - intros; reflexivity.
  - intros k v u _ _ H. apply Hto in H. intuition.
  - intros k v u _ _ H. apply Hfrom in H as [H ->]. split; [now apply hub_zero|congruence].
  - intros k u v _ Hu Hv. apply eq_true_iff_eq. cbn [pl_dest pl_from hub_plan]. rewrite Hto, Hfrom. intuition congruence.
  - intros k v u _ _ H. discriminate H.
  - intros k v u w _ _ H. discriminate H.
  - intros v _. reflexivity.
  - intros k v _ _. apply Hif. reflexivity.
  - intros k v _ _. apply Hif. reflexivity.
  - intros k v u _ _ _. reflexivity.
  - intros k v u _ _ _. reflexivity.
  - intros k v ps arts Hk _ _ _. cbn [pl_last hub_plan] in *. assert (k = 0) as -> by lia. reflexivity.
  - intros k v u _ _ H. discriminate H.
  - intros k v u Hk Hv Hu. left. cbn [pl_last hub_plan] in Hk. lia.
Qed.

Lemma key_signs n : signers (group n) key.
Proof. intros v _. reflexivity. Qed.
Lemma group_size n : length (elements (group n)) = n.
Proof.
  transitivity (length (persons n)); [|unfold persons; now rewrite map_length, seq_length].
  apply Permutation_length, NoDup_Permutation; [apply NoDup_elements| |].
  - apply (@FinFun.Injective_map_NoDup nat N); [intros x y; apply Nat2N.inj|apply seq_NoDup].
  - intros u. rewrite in_elements. unfold group. now rewrite mem_set_of_list.
Qed.
Lemma hub_dest n : 0 < n -> length (elements (to_all n 0%N)) = n - 1.
Proof. intros Hn. change (to_all n (0%N : V)) with (srem (0%N : V) (group n)). rewrite <- (group_size n) at 2. exact (@rem_size toyP (group n) (0%N : V) (hub_zero Hn)). Qed.

Lemma par_never_completes n : 101 < n -> exists (P : Params) (Pr : Proto) r sid parties (ep : Verifier -> EntryPoint Pr) (h : Plan Pr) sk pn0,
  signers parties sk /\ wire_total P /\ signatures_correct P /\ honest_run r sid parties ep h /\ length (elements parties) = n /\
  honest_pnet r sid parties sk ep = Ok pn0 /\ forall xs pn, nschedule r pn0 xs pn -> ~ all_stopped parties h pn.
Proof.
  intros Hn. assert (H0 : 0 < n) by lia.
  destruct (honest_par_any (@key_signs n) toy_wire toy_signatures (hub_honest H0)) as (pn0 & E0 & _).
  exists toyP, (hub n), rN, sid0, (group n), (fun _ => hub_entry n), (hub_plan n), key, pn0.
  split; [apply key_signs|]. split; [apply toy_wire|]. split; [apply toy_signatures|]. split; [now apply hub_honest|]. split; [apply group_size|].
  split; [exact E0|].
  apply (silent_never_ends (@key_signs n) toy_wire toy_signatures (hub_honest H0) (0%N : V)); auto.
  - now apply hub_zero.
  - cbn [pl_dest hub_plan]. rewrite (hub_dest H0). unfold capacity. lia.
Qed.

(** ** The other way round *)
(** One round: everybody else sends an empty message to party 0. *)
Definition collect (n : nat) : Proto (P := toyP) := {|
  St := V; Rslt := unit; Shared := unit; Payload := unit; Artifact := unit;
  tinfo := fun _ => mkTI (rid_new 1) sempty sempty sempty true;
  cinfo := fun me => @mkComm toyP (from_hub n me) (to_all n me) (@EPDefault toyP);
  mk_direct := fun st g dest => Ok (None, tt);
  mk_echo := fun st g => Ok None;
  mk_normal := fun st g => Ok None;
  receive := fun st from m => Ok tt;
  finalize := fun st g ps _ => Ok (Finished_ tt);
  round_info := fun r => None
|}.
Definition collect_entry (n : nat) : EntryPoint (collect n) := @mkEP toyP (collect n) (rid_new 1) (fun _ _ me => Ok me).
Definition collect_plan (n : nat) : Plan (collect n) := @mkPlan toyP (collect n) 0 (fun k => rid_new (N.of_nat (S k))) (fun _ _ => @EPDefault toyP)
  (fun _ => from_hub n) (fun _ => to_all n) (fun _ v => v) (fun _ _ => None) (fun _ _ => None) (fun _ _ _ => None)
  (fun _ _ _ => tt) (fun _ _ _ => tt) (fun _ => tt).

Lemma collect_honest n : 0 < n -> honest_run rN sid0 (group n) (fun _ => collect_entry n) (collect_plan n).
Proof.
  intros Hn.
  assert (Hto : forall u v : V, mem u (to_all n v) = true <-> mem u (group n) = true /\ u <> v /\ v = 0%N).
  { intros u v. unfold to_all. destruct (eqb_spec v (0%N : V)) as [->|H].
    - rewrite mem_rem, andb_true_iff, negb_true_iff, eqb_neq. tauto.
    - split; [discriminate|tauto]. }
  assert (Hfrom : forall u v : V, mem u (from_hub n v) = true <-> v <> 0%N /\ u = 0%N).
  { intros u v. unfold from_hub. destruct (eqb_spec v (0%N : V)) as [->|H]; [split; [discriminate|tauto]|].
    rewrite mem_set_of_list. split; [intros [<-|[]]; auto|intros [_ ->]; now left]. }
  assert (Hif : forall (b : bool) (x : res LocalError body), x = Ok None -> (if b then Ok None else x) = Ok None) by (intros [] x ->; reflexivity).
  split; [constructor|apply NetFacts.heard_in_step; split].
  - intros; reflexivity.
  - intros k l _ _ E. injection E as E. lia.
  - intros [|k] v Hk _; try reflexivity. simpl in Hk. lia.
  - intros k v Hk _. simpl in Hk. lia.
  - intros; reflexivity.
  - intros k v u _ _ H. apply Hfrom in H as [H ->]. split; [now apply hub_zero|congruence].
  - intros k v u _ _ H. apply Hto in H. intuition.
  - intros k u v _ Hu Hv. apply eq_true_iff_eq. cbn [pl_dest pl_from collect_plan]. rewrite Hto, Hfrom. intuition congruence.
  - intros k v u _ _ H. discriminate H.
  - intros k v u w _ _ H. discriminate H.
  - intros v _. reflexivity.
  - intros k v _ _. apply Hif. reflexivity.
  - intros k v _ _. apply Hif. reflexivity.
  - intros k v u _ _ _. reflexivity.
  - intros k v u _ _ _. reflexivity.
  - intros k v ps arts Hk _ _ _. cbn [pl_last collect_plan] in *. assert (k = 0) as -> by lia. reflexivity.
  - intros k v u _ _ H. discriminate H.
  - intros k v u Hk Hv Hu. left. cbn [pl_last collect_plan] in Hk. lia.
Qed.
Lemma collect_few n : few_destinations (group n) (collect_plan n).
Proof.
  intros k v _ _. split; [|discriminate]. cbn [pl_dest collect_plan]. unfold from_hub. destruct (eqb v (0%N : V)).
  - simpl. lia.
  - vm_compute. repeat constructor.
Qed.
