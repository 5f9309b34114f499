(** [run_async] with any number of parties: some of them speak, the others only run along. Used only by witnesses. *)
From Coq Require Import List NArith Bool Arith Lia.
From Verif Require Import Base BMap Errors RoundId Message Protocol Transcript Evidence Session Spec SpecCrypto Typed SpecTyped Simple Extend SpecExtend
  IntakeFacts Network SpecNet RunSync Driver SpecDriver RunSyncFacts DriverFacts Misbehave Par SpecPar Async SpecAsync AsyncFacts AsyncNetFacts Offload SpecOffload OffloadFacts OffloadNetFacts
  PadFacts Toy ToyCrypto ToySimple HonestFacts ToyNet ToyMisbehave ToyHub ToyAsync ToyOffload.
From Verif Require NetFacts.
Import ListNotations.
Set Implicit Arguments.

(** As [hello] in ToyAsync.v for the first [m] parties; the other ones have nobody to speak to. *)
Definition others (m : nat) (me : option V) : bset V := match me with Some v => srem v (group m) | None => sempty end.
Definition crowd (m : nat) : Proto (P := toyP) := {|
  St := (bool * option N); Rslt := unit; Shared := unit; Payload := unit; Artifact := unit;
  tinfo := fun st => hello_tinfo (fst st);
  cinfo := fun st => @mkComm toyP (others m (snd st)) (others m (snd st)) (@EPDefault toyP);
  mk_direct := fun st g dest => Ok (None, tt);
  mk_echo := fun st g => Ok None;
  mk_normal := fun st g => Ok None;
  receive := fun st from m => Ok tt;
  finalize := fun st g ps _ => Ok (if fst st then AnotherRound (false, snd st) else Finished_ tt);
  round_info := fun r => None
|}.
Definition who (m : nat) (v : V) : option V := if N.ltb v (N.of_nat m) then Some v else None.
Definition crowd_entry (m : nat) (w : option V) : EntryPoint (crowd m) := @mkEP toyP (crowd m) (rid_new 1) (fun _ _ _ => Ok (true, w)).
Definition crowd_plan (m : nat) : Plan (crowd m) := @mkPlan toyP (crowd m) 1 (fun k => rid_new (N.of_nat (S k))) (fun _ _ => @EPDefault toyP)
  (fun _ v => others m (who m v)) (fun _ v => others m (who m v)) (fun k v => (Nat.eqb k 0, who m v)) (fun _ _ => None) (fun _ _ => None) (fun _ _ _ => None)
  (fun _ _ _ => tt) (fun _ _ _ => tt) (fun _ => tt).

Lemma in_group n (v : V) : mem v (group n) = true <-> (v < N.of_nat n)%N.
Proof.
  unfold group. rewrite mem_set_of_list. unfold persons. rewrite in_map_iff. split.
  - intros (k & <- & H). apply in_seq in H. lia.
  - intros H. exists (N.to_nat v). split; [lia|]. apply in_seq. lia.
Qed.
Lemma in_others m (u v : V) : mem u (others m (who m v)) = true <-> (u < N.of_nat m)%N /\ (v < N.of_nat m)%N /\ u <> v.
Proof.
  unfold others, who. destruct (N.ltb_spec v (N.of_nat m)).
  - rewrite mem_rem, andb_true_iff, negb_true_iff, eqb_neq, in_group. tauto.
  - split; [discriminate|lia].
Qed.

Lemma crowd_honest m n : m <= n -> honest_run rN sid0 (group n) (fun v => crowd_entry m (who m v)) (crowd_plan m).
Proof.
  intros Hmn.
  assert (Hif : forall (b : bool) (x : res LocalError body), x = Ok None -> (if b then Ok None else x) = Ok None) by (intros [] x ->; reflexivity).
  split; [constructor|apply NetFacts.heard_in_step; split].
  - intros; reflexivity.
  - intros k l _ _ E. injection E as E. lia.
  - intros [|[|k]] v Hk _; try reflexivity. simpl in Hk. lia.
  - intros k v Hk _. assert (k = 0) as -> by (simpl in Hk; lia). reflexivity.
  - intros; reflexivity.
  - intros k v u _ _ H. apply in_others in H. rewrite in_group. split; [lia|tauto].
  - intros k v u _ _ H. apply in_others in H. rewrite in_group. split; [lia|tauto].
  - intros k u v _ Hu Hv. apply eq_true_iff_eq. cbn [pl_dest pl_from crowd_plan]. rewrite !in_others. intuition congruence.
  - intros k v u _ _ H. discriminate H.
  - intros k v u w _ _ H. discriminate H.
  - intros v _. reflexivity.
  - intros k v _ _. apply Hif. reflexivity.
  - intros k v _ _. apply Hif. reflexivity.
  - intros k v u _ _ _. reflexivity.
  - intros k v u _ _ _. reflexivity.
  - intros [|[|k]] v ps arts Hk _ _ _; reflexivity.
  - intros k v u _ _ H. discriminate H.
  - intros k v u Hk Hv Hu. cbn [echoes pl_part pl_echo crowd_plan is_none negb]. right. apply in_others in Hu. apply in_others. intuition congruence.
Qed.

(** ** The start *)
Notation crowd_ep m := (fun v : V => crowd_entry m (who m v)).
Definition begins (m : nat) (v : V) (s : Session (crowd m)) : Prop := session_new (nr_new rN v) sid0 (key v) (crowd_entry m (who m v)) = Ok s.
Definition crowd_list (m n : nat) := map (fun v : V => (key v, crowd_entry m (who m v))) (elements (group n)).
Lemma crowd_keys m n : map (fun p => signer_key (fst p)) (crowd_list m n) = elements (group n).
Proof. unfold crowd_list. rewrite map_map. cbn [fst]. apply map_id. Qed.
Lemma crowd_nodup m n : NoDup (map (fun p => signer_key (fst p)) (crowd_list m n)).
Proof. rewrite crowd_keys. apply NoDup_elements. Qed.
Lemma crowd_member m n (v : V) : (v < N.of_nat n)%N -> In (key v, crowd_entry m (who m v)) (crowd_list m n).
Proof. intros H. apply (in_map (fun v : V => (key v, crowd_entry m (who m v)))). apply in_elements. now apply in_group. Qed.
Lemma crowd_in n (v : V) : In v (elements (group n)) <-> (v < N.of_nat n)%N.
Proof. rewrite in_elements. apply in_group. Qed.

Lemma crowd_start m n : m <= n -> exists a, honest_anet rN sid0 (group n) key (crowd_ep m) = Ok a /\ an_out a = [] /\ an_disp a = DispRecv /\
  (forall v : V, (v < N.of_nat n)%N -> (exists s, begins v s /\ get v (an_nodes a) = Some (drv_enter s [])) /\ get v (an_in a) = Some []) /\
  (forall v : V, ~ (v < N.of_nat n)%N -> get v (an_nodes a) = None /\ get v (an_in a) = None).
Proof.
  intros Hmn. destruct (@async_started toyP (crowd m) rN sid0 (group n) (crowd_ep m) (crowd_plan m) key (key_signers n) toy_wire toy_signatures (crowd_honest Hmn)) as (a & _ & Ea & _).
  exists a. split; [exact Ea|]. pose proof Ea as Ea'. unfold honest_anet in Ea'. change (map _ _) with (crowd_list m n) in Ea'.
  destruct (@anet_start_ok _ _ rN sid0 (crowd_list m n) a (crowd_nodup m n) Ea') as (W & H1 & H2 & H3 & H4). rewrite crowd_keys in W. split; [exact H1|]. split; [exact H2|]. split.
  - intros v Hv. destruct (@start_session _ _ rN sid0 (crowd_list m n) a (crowd_nodup m n) Ea' _ _ (@crowd_member m n v Hv)) as (s & Hs & Hn). split; [exists s; split; [exact Hs|exact Hn]|].
    destruct (get v (an_in a)) as [q|] eqn:Eq; [now rewrite (H3 _ _ Eq)|]. exfalso. apply (proj2 (aw_in W v)); [|exact Eq]. now apply crowd_in.
  - intros v Hv. split.
    + destruct (get v (an_nodes a)) as [d|] eqn:En; [|reflexivity]. exfalso. apply Hv. apply crowd_in. apply (proj1 (aw_node W v)). rewrite En. discriminate.
    + destruct (get v (an_in a)) as [d|] eqn:En; [|reflexivity]. exfalso. apply Hv. apply crowd_in. apply (proj1 (aw_in W v)). rewrite En. discriminate.
Qed.

Definition idle_check (m : nat) (v : V) : bool :=
  match session_new (nr_new rN v) sid0 (key v) (crowd_entry m None) with
  | Ok s =>
      match drv_enter s [] with
      | DrvWait s0 a0 =>
          match can_finalize a0, finalize_round s0 (nr_fin rN (s_verifier s0) (s_round_id s0)) a0 with
          | Yes, Ok (ROAnother s1 c1) =>
              match drv_enter s1 c1 with
              | DrvWait s2 a2 =>
                  match can_finalize a2, finalize_round s2 (nr_fin rN (s_verifier s2) (s_round_id s2)) a2 with
                  | Yes, Ok (ROFinished _) => true
                  | _, _ => false
                  end
              | _ => false
              end
          | _, _ => false
          end
      | _ => false
      end
  | _ => false
  end.
Lemma idle_checked m v : idle_check m v = true.
Proof. vm_compute. reflexivity. Qed.
(** A party that has nobody to speak to goes through both rounds by itself. *)
Lemma idle_runs m (v : V) (s : Session (crowd m)) : who m v = None -> begins v s -> exists d1 ls1 rep ls2,
  drv_step rN (drv_enter s []) IGo = Some (ls1, d1) /\ drv_step rN d1 IGo = Some (ls2, DrvDone (Ok rep)) /\
  (forall net, node_input 100 net v (drv_enter s []) = Some IGo) /\ (forall net, node_input 100 net v d1 = Some IGo) /\
  (flat_map (out_of v) ls1 = [] /\ existsb (@takes _ _) ls1 = false) /\ flat_map (out_of v) ls2 = [] /\ existsb (@takes _ _) ls2 = false.
Proof.
  unfold begins. intros Hw Hs. rewrite Hw in Hs. pose proof (idle_checked m v) as C. unfold idle_check in C. rewrite Hs in C.
  destruct (drv_enter s []) as [| |s0 a0|] eqn:E0; try discriminate C. cbn [drv_step] in *. destruct (can_finalize a0) eqn:F0; try discriminate C.
  destruct (finalize_round s0 _ a0) as [[rep|s1 c1]|e|]; try discriminate C. destruct (drv_enter s1 c1) as [| |s2 a2|] eqn:E2; try discriminate C.
  destruct (can_finalize a2) eqn:F2; try discriminate C. destruct (finalize_round s2 _ a2) as [[rep|s3 c3]|e|] eqn:E3; try discriminate C.
  exists (DrvWait s2 a2). eexists. exists rep. eexists. cbn [drv_step]. rewrite F2, E3. split; [reflexivity|]. split; [reflexivity|].
  split; [intros net; cbn [node_input]; now rewrite F0|]. split; [intros net; cbn [node_input]; now rewrite F2|]. repeat split.
Qed.

Lemma quiet_step {Pr : Proto (P := toyP)} (b : ANet Pr) v d ls d' : get v (an_nodes b) = Some d -> node_input 100 b v d = Some IGo -> drv_step rN d IGo = Some (ls, d') ->
  flat_map (out_of v) ls = [] /\ existsb (@takes _ _) ls = false ->
  aact rN 100 b (ANode v) = Some (map (pair v) ls, mkANet (insert v d' (an_nodes b)) (an_out b) (an_disp b) (an_in b)).
Proof.
  intros H1 H2 H3 [H4 H5]. cbn [aact]. rewrite H1, H2, H3, H4, H5, app_nil_r. destruct (get v (an_in b)); reflexivity.
Qed.

Definition rested (m : nat) (l : list V) (b0 b : ANet (crowd m)) : Prop :=
  an_out b = an_out b0 /\ an_disp b = an_disp b0 /\ an_in b = an_in b0 /\
  (forall v, ~ In v l -> get v (an_nodes b) = get v (an_nodes b0)) /\ (forall v, In v l -> exists rep, get v (an_nodes b) = Some (DrvDone (Ok rep))).
Lemma idle_rest m l (b0 : ANet (crowd m)) : NoDup l -> (forall v, In v l -> who m v = None /\ exists s, begins v s /\ get v (an_nodes b0) = Some (drv_enter s [])) ->
  exists tr b, aschedule rN 100 b0 tr b /\ rested l b0 b.
Proof.
  induction l as [|v l IH]; intros Hnd H; [exists [], b0; split; [constructor|]; repeat split; auto; intros v []|].
  apply NoDup_cons_iff in Hnd as [Hv Hnd]. destruct (IH Hnd (fun w Hw => H w (or_intror Hw))) as (tr & b & Hb & R1 & R2 & R3 & R4 & R5).
  destruct (H v (or_introl eq_refl)) as (Hw & s & Hs & Hn). rewrite <- (R4 v Hv) in Hn.
  destruct (idle_runs Hw Hs) as (d1 & ls1 & rep & ls2 & S1 & S2 & N1 & N2 & O1 & O2).
  pose proof (@quiet_step _ b v _ _ _ Hn (N1 b) S1 O1) as A1. set (b1 := mkANet _ _ _ _) in A1.
  assert (Hn1 : get v (an_nodes b1) = Some d1) by apply get_insert_eq.
  pose proof (@quiet_step _ b1 v _ _ _ Hn1 (N2 b1) S2 O2) as A2.
  eexists _, _. split; [eapply asched_snoc; [eapply asched_snoc; [exact Hb|exact A1]|exact A2]|].
  split; [exact R1|]. split; [exact R2|]. split; [exact R3|]. cbn [an_nodes b1]. split.
  - intros w Hw'. rewrite !get_insert_ne by (intros ->; apply Hw'; now left). apply R4. intros Hi. apply Hw'. now right.
  - intros w [->|Hi]; [exists rep; apply get_insert_eq|]. destruct (R5 w Hi) as [rep' Hr]. exists rep'.
    assert (w <> v) by (intros ->; contradiction). now rewrite !get_insert_ne by auto.
Qed.

Lemma begins_same m (v : V) (s s' : Session (crowd m)) : begins v s -> begins v s' -> s = s'.
Proof. unfold begins. intros H H'. rewrite H in H'. now injection H'. Qed.

Lemma crowd_padded m n : m <= n -> exists a b0 tr b, honest_anet rN sid0 (group m) key (crowd_ep m) = Ok a /\ honest_anet rN sid0 (group n) key (crowd_ep m) = Ok b0 /\
  aschedule rN 100 b0 tr b /\ padded a b.
Proof.
  intros Hmn. destruct (crowd_start (Nat.le_refl m)) as (a & Ea & Oa & Da & Ga & Na). destruct (crowd_start Hmn) as (b0 & Eb & Ob & Db & Gb & Nb).
  destruct (@idle_rest m (filter (fun v : V => negb (N.ltb v (N.of_nat m))) (elements (group n))) b0) as (tr & b & Hb & R1 & R2 & R3 & R4 & R5).
  { apply NoDup_filter, NoDup_elements. }
  { intros v Hv. apply filter_In in Hv as [Hv Hf]. apply crowd_in in Hv. unfold who. destruct (N.ltb v (N.of_nat m)); [discriminate|]. split; [reflexivity|]. apply (Gb v Hv). }
  assert (Hl : forall v : V, In v (filter (fun v : V => negb (N.ltb v (N.of_nat m))) (elements (group n))) <-> (v < N.of_nat n)%N /\ ~ (v < N.of_nat m)%N).
  { intros v. rewrite filter_In, crowd_in, negb_true_iff, N.ltb_nlt. tauto. }
  assert (K : forall v : V, (v < N.of_nat m)%N -> get v (an_nodes b) = get v (an_nodes a)).
  { intros v Hv. destruct (Ga v Hv) as [(s & Hs & Ha) _]. rewrite (R4 v) by (rewrite Hl; tauto). destruct (Gb v) as [(s' & Hs' & Hb') _]; [lia|].
    rewrite Ha, Hb', (begins_same Hs Hs'). reflexivity. }
  exists a, b0, tr, b. split; [exact Ea|]. split; [exact Eb|]. split; [exact Hb|]. constructor.
  - congruence.
  - congruence.
  - intros v d Hv. destruct (N.lt_ge_cases v (N.of_nat m)) as [H|H]; [now rewrite (K v H)|]. rewrite (proj1 (Na v ltac:(lia))) in Hv. discriminate Hv.
  - intros v d Hv. destruct (N.lt_ge_cases v (N.of_nat m)) as [H|H]; [left; now rewrite <- (K v H)|]. right. split; [apply (Na v); lia|].
    destruct (N.lt_ge_cases v (N.of_nat n)) as [H'|H'].
    + destruct (R5 v) as [rep Hr]; [apply Hl; lia|]. exists rep. rewrite Hr in Hv. now injection Hv.
    + exfalso. rewrite (R4 v) in Hv by (rewrite Hl; lia). rewrite (proj1 (Nb v ltac:(lia))) in Hv. discriminate Hv.
  - intros v q Hq. rewrite R3. destruct (N.lt_ge_cases v (N.of_nat m)) as [H|H].
    + destruct (Ga v H) as [_ Hi]. destruct (Gb v) as [_ Hi']; [lia|]. rewrite Hi'. rewrite Hi in Hq. exact Hq.
    + exfalso. rewrite (proj2 (Na v ltac:(lia))) in Hq. discriminate Hq.
  - intros v Hv Hi. destruct (N.lt_ge_cases v (N.of_nat m)) as [H|H].
    + destruct (Ga v H) as [_ Hi']. rewrite Hi' in Hi. discriminate Hi.
    + apply Hv. apply (Na v). lia.
Qed.

(** ** The jam *)
Definition crowd_net (m : nat) := @honest_anet toyP (crowd m) rN sid0 (group m) key (crowd_ep m).
Definition crowd_jammed (m : nat) : bool :=
  match crowd_net m with
  | Ok a0 =>
      match aplay rN 100 a0 (jam m 100) with
      | Some a => no_input 100 a && forallb (fun kv => negb (drv_done (snd kv))) (to_list (an_nodes a)) &&
                  match an_disp a with DispSend _ o => is_some (get (mo_to o) (an_nodes a)) | _ => false end
      | None => false
      end
  | _ => false
  end.
Lemma crowd_jammed_52 : crowd_jammed 52 = true.
Proof. vm_compute. reflexivity. Qed.

Lemma crowd_deadlock m n : crowd_jammed m = true -> m <= n ->
  exists b0 tr b, honest_anet rN sid0 (group n) key (crowd_ep m) = Ok b0 /\ aschedule rN 100 b0 tr b /\ async_stuck rN 100 b /\ async_returns b = None.
Proof.
  intros C Hmn. destruct (crowd_padded Hmn) as (a0 & b0 & tr0 & b1 & Ea & Eb & Hb1 & D). unfold crowd_jammed, crowd_net in C. rewrite Ea in C.
  destruct (aplay rN 100 a0 (jam m 100)) as [a|] eqn:E; [|discriminate C]. apply andb_prop in C as [C C3]. apply andb_prop in C as [C1 C2].
  destruct (@aplay_sched _ 100 _ a0 [] a0 a (asched_nil _ _ _) E) as [tr Htr].
  destruct (an_disp a) as [| | |ms o| |] eqn:Ed; try discriminate C3. destruct (get (mo_to o) (an_nodes a)) as [d|] eqn:Eo; [|discriminate C3].
  destruct (@pad_sched _ _ rN 100 a0 tr a Htr b1 D) as (b & Hb & D'); [now rewrite Ed|].
  assert (S : exists tr', aschedule rN 100 b0 tr' b).
  { clear - Hb1 Hb. induction Hb as [b1|b1 tr b2 x ls b3 H IH Hx]; [eauto|]. destruct (IH Hb1) as [tr' Htr']. eexists. econstructor; eauto. }
  destruct S as [tr' Hs]. exists b0, tr', b. split; [exact Eb|]. split; [exact Hs|]. split.
  - eapply pad_stuck; [exact D'|exact Ed|rewrite Eo; discriminate|now apply no_input_stuck].
  - apply (@pad_returns _ _ a b (mo_to o) D'); [|rewrite Eo; discriminate]. intros v d' Hv. rewrite forallb_forall in C2. apply in_to_list in Hv.
    specialize (C2 _ Hv). cbn [snd] in C2. now apply negb_true_iff in C2.
Qed.

Lemma async_deadlock n : 51 < n -> exists (P : Params) (Pr : Proto) r sid parties (ep : Verifier -> EntryPoint Pr) (h : Plan Pr) sk a0 tr a,
  signers parties sk /\ wire_total P /\ signatures_correct P /\ honest_run r sid parties ep h /\ length (elements parties) = n /\
  honest_anet r sid parties sk ep = Ok a0 /\ aschedule r 100 a0 tr a /\ async_stuck r 100 a /\ async_returns a = None.
Proof.
  intros Hn. destruct (@crowd_deadlock 52 n crowd_jammed_52 Hn) as (a0 & tr & a & H1 & H2 & H3 & H4).
  exists toyP, (crowd 52), rN, sid0, (group n), (crowd_ep 52), (crowd_plan 52), key, a0, tr, a.
  split; [apply key_signers|]. split; [apply toy_wire|]. split; [apply toy_signatures|]. split; [exact (@crowd_honest 52 n Hn)|].
  split; [apply group_size|]. split; [exact H1|]. split; [exact H2|]. split; [exact H3|exact H4].
Qed.

(** ** The same with [offload_processing = true] *)
Lemma ocrowd_start m n : m <= n -> exists a, honest_onet rN sid0 (group n) key (crowd_ep m) = Ok a /\ on_out a = [] /\ on_disp a = DispRecv /\
  (forall v : V, (v < N.of_nat n)%N -> (exists s, begins v s /\ get v (on_nodes a) = Some (PRun (par_enter s []))) /\ get v (on_in a) = Some []) /\
  (forall v : V, ~ (v < N.of_nat n)%N -> get v (on_nodes a) = None /\ get v (on_in a) = None).
Proof.
  intros Hmn. destruct (@offload_started toyP (crowd m) rN sid0 (group n) (crowd_ep m) (crowd_plan m) key (key_signers n) toy_wire toy_signatures (crowd_honest Hmn)) as (a & _ & Ea & _).
  exists a. split; [exact Ea|]. pose proof Ea as Ea'. unfold honest_onet in Ea'. change (map _ _) with (crowd_list m n) in Ea'.
  destruct (@onet_start_ok _ _ rN sid0 (crowd_list m n) a (crowd_nodup m n) Ea') as (W & H1 & H2 & H3 & H4). rewrite crowd_keys in W. split; [exact H1|]. split; [exact H2|]. split.
  - intros v Hv. destruct (@ostart_session _ _ rN sid0 (crowd_list m n) a (crowd_nodup m n) Ea' _ _ (@crowd_member m n v Hv)) as (s & Hs & Hn). split; [exists s; split; [exact Hs|exact Hn]|].
    destruct (get v (on_in a)) as [q|] eqn:Eq; [now rewrite (H3 _ _ Eq)|]. exfalso. apply (proj2 (aw_in W v)); [|exact Eq]. now apply crowd_in.
  - intros v Hv. split.
    + destruct (get v (on_nodes a)) as [d|] eqn:En; [|reflexivity]. exfalso. apply Hv. apply crowd_in. apply (proj1 (aw_node W v)). cbn [seen an_nodes].
      rewrite get_map_values, En. discriminate.
    + destruct (get v (on_in a)) as [d|] eqn:En; [|reflexivity]. exfalso. apply Hv. apply crowd_in. apply (proj1 (aw_in W v)). cbn [seen an_in]. rewrite En. discriminate.
Qed.

(** [k] steps by which the node goes on by itself. *)
Fixpoint goes {Pr : Proto (P := toyP)} (k : nat) (v : V) (p : Par Pr) : option (Par Pr) :=
  match k with
  | O => Some p
  | S k =>
      match par_step rN p AGo with
      | Some (ls, p') => match flat_map (@out_of toyP Pr v) ls, existsb (@takes toyP Pr) ls with [], false => goes k v p' | _, _ => None end
      | None => None
      end
  end.
Definition oidle_check (m : nat) (v : V) : bool :=
  match session_new (nr_new rN v) sid0 (key v) (crowd_entry m None) with
  | Ok s => match goes 8 v (PRun (par_enter s [])) with Some (PStop (Ok _)) => true | _ => false end
  | _ => false
  end.
Lemma oidle_checked m v : oidle_check m v = true.
Proof. vm_compute. reflexivity. Qed.

Lemma goes_on {Pr : Proto (P := toyP)} k v : forall (b : ONet Pr) p p', get v (on_nodes b) = Some p -> goes k v p = Some p' ->
  forall tr0 b0, oschedule rN 100 b0 tr0 b ->
  exists tr, oschedule rN 100 b0 tr (mkONet (insert v p' (on_nodes b)) (on_out b) (on_disp b) (on_in b)).
Proof.
  induction k as [|k IH]; intros b p p' Hv E tr0 b0 Hb; cbn [goes] in E.
  - injection E as <-. exists tr0. rewrite (@insert_same _ _ v p (on_nodes b) Hv). destruct b. exact Hb.
  - destruct (par_step rN p AGo) as [[ls p1]|] eqn:Es; [|discriminate]. destruct (flat_map (out_of v) ls) eqn:Eo; [|discriminate]. destruct (existsb _ ls) eqn:Et; [discriminate|].
    pose proof (@oact_node _ _ rN 100 b (OSelf v AGo) v AGo p ls p1 eq_refl Hv Es) as A. rewrite Eo, Et, app_nil_r in A.
    assert (A' : oact rN 100 b (OSelf v AGo) = Some (map (pair v) ls, mkONet (insert v p1 (on_nodes b)) (on_out b) (on_disp b) (on_in b))) by (rewrite A; destruct (get v (on_in b)); reflexivity).
    destruct (IH (mkONet (insert v p1 (on_nodes b)) (on_out b) (on_disp b) (on_in b)) p1 p' (get_insert_eq v p1 (on_nodes b)) E _ b0 (osched_snoc _ Hb A')) as [tr H]. exists tr. cbn [on_nodes on_out on_disp on_in] in H.
    replace (insert v p' (insert v p1 (on_nodes b))) with (insert v p' (on_nodes b)) in H; [exact H|].
    apply bmap_ext. intros w. destruct (eqb_spec w v) as [->|N]; [now rewrite !get_insert_eq|now rewrite !get_insert_ne by congruence].
Qed.
Lemma oidle_rest m l (b0 : ONet (crowd m)) : NoDup l -> (forall v, In v l -> who m v = None /\ exists s, begins v s /\ get v (on_nodes b0) = Some (PRun (par_enter s []))) ->
  exists tr b, oschedule rN 100 b0 tr b /\ on_out b = on_out b0 /\ on_disp b = on_disp b0 /\ on_in b = on_in b0 /\
    (forall v, ~ In v l -> get v (on_nodes b) = get v (on_nodes b0)) /\ (forall v, In v l -> exists rep, get v (on_nodes b) = Some (PStop (Ok rep))).
Proof.
  induction l as [|v l IH]; intros Hnd H; [exists [], b0; split; [constructor|]; repeat split; auto; intros v []|].
  apply NoDup_cons_iff in Hnd as [Hv Hnd]. destruct (IH Hnd (fun w Hw => H w (or_intror Hw))) as (tr & b & Hb & R1 & R2 & R3 & R4 & R5).
  destruct (H v (or_introl eq_refl)) as (Hw & s & Hs & Hn). rewrite <- (R4 v Hv) in Hn. unfold begins in Hs. rewrite Hw in Hs.
  pose proof (oidle_checked m v) as C. unfold oidle_check in C. rewrite Hs in C. destruct (goes 8 v _) as [[x|[rep|e|]]|] eqn:Eg; try discriminate C.
  destruct (@goes_on _ 8 v b _ _ Hn Eg tr b0 Hb) as [tr' H']. eexists _, _. split; [exact H'|]. cbn [on_out on_disp on_in on_nodes].
  split; [exact R1|]. split; [exact R2|]. split; [exact R3|]. split.
  - intros w Hw'. rewrite get_insert_ne by (intros ->; apply Hw'; now left). apply R4. intros Hi. apply Hw'. now right.
  - intros w [->|Hi]; [exists rep; apply get_insert_eq|]. destruct (R5 w Hi) as [rep' Hr]. exists rep'. assert (w <> v) by (intros ->; contradiction). now rewrite get_insert_ne by auto.
Qed.

Lemma ocrowd_padded m n : m <= n -> exists a b0 tr b, honest_onet rN sid0 (group m) key (crowd_ep m) = Ok a /\ honest_onet rN sid0 (group n) key (crowd_ep m) = Ok b0 /\
  oschedule rN 100 b0 tr b /\ opadded a b.
Proof.
  intros Hmn. destruct (ocrowd_start (Nat.le_refl m)) as (a & Ea & Oa & Da & Ga & Na). destruct (ocrowd_start Hmn) as (b0 & Eb & Ob & Db & Gb & Nb).
  destruct (@oidle_rest m (filter (fun v : V => negb (N.ltb v (N.of_nat m))) (elements (group n))) b0) as (tr & b & Hb & R1 & R2 & R3 & R4 & R5).
  { apply NoDup_filter, NoDup_elements. }
  { intros v Hv. apply filter_In in Hv as [Hv Hf]. apply crowd_in in Hv. unfold who. destruct (N.ltb v (N.of_nat m)); [discriminate|]. split; [reflexivity|]. apply (Gb v Hv). }
  assert (Hl : forall v : V, In v (filter (fun v : V => negb (N.ltb v (N.of_nat m))) (elements (group n))) <-> (v < N.of_nat n)%N /\ ~ (v < N.of_nat m)%N).
  { intros v. rewrite filter_In, crowd_in, negb_true_iff, N.ltb_nlt. tauto. }
  assert (K : forall v : V, (v < N.of_nat m)%N -> get v (on_nodes b) = get v (on_nodes a)).
  { intros v Hv. destruct (Ga v Hv) as [(s & Hs & Ha) _]. rewrite (R4 v) by (rewrite Hl; tauto). destruct (Gb v) as [(s' & Hs' & Hb') _]; [lia|].
    rewrite Ha, Hb', (begins_same Hs Hs'). reflexivity. }
  exists a, b0, tr, b. split; [exact Ea|]. split; [exact Eb|]. split; [exact Hb|]. constructor.
  - congruence.
  - congruence.
  - intros v d Hv. destruct (N.lt_ge_cases v (N.of_nat m)) as [H|H]; [now rewrite (K v H)|]. rewrite (proj1 (Na v ltac:(lia))) in Hv. discriminate Hv.
  - intros v d Hv. destruct (N.lt_ge_cases v (N.of_nat m)) as [H|H]; [left; now rewrite <- (K v H)|]. right. split; [apply (Na v); lia|].
    destruct (N.lt_ge_cases v (N.of_nat n)) as [H'|H'].
    + destruct (R5 v) as [rep Hr]; [apply Hl; lia|]. exists rep. rewrite Hr in Hv. now injection Hv.
    + exfalso. rewrite (R4 v) in Hv by (rewrite Hl; lia). rewrite (proj1 (Nb v ltac:(lia))) in Hv. discriminate Hv.
  - intros v q Hq. rewrite R3. destruct (N.lt_ge_cases v (N.of_nat m)) as [H|H].
    + destruct (Ga v H) as [_ Hi]. destruct (Gb v) as [_ Hi']; [lia|]. rewrite Hi'. rewrite Hi in Hq. exact Hq.
    + exfalso. rewrite (proj2 (Na v ltac:(lia))) in Hq. discriminate Hq.
  - intros v Hv Hi. destruct (N.lt_ge_cases v (N.of_nat m)) as [H|H].
    + destruct (Ga v H) as [_ Hi']. rewrite Hi' in Hi. discriminate Hi.
    + apply Hv. apply (Na v). lia.
Qed.

Definition ocrowd_net (m : nat) := @honest_onet toyP (crowd m) rN sid0 (group m) key (crowd_ep m).
Definition ocrowd_jammed (m : nat) : bool :=
  match ocrowd_net m with
  | Ok a0 =>
      let a := oend 100 (ojam m 100) a0 in
      nothing_left 100 a && forallb (fun kv => match snd kv with PRun _ => true | _ => false end) (to_list (on_nodes a)) &&
      match on_disp a with DispSend _ o => is_some (get (mo_to o) (on_nodes a)) | _ => false end
  | _ => false
  end.
Lemma ocrowd_jammed_52 : ocrowd_jammed 52 = true.
Proof. vm_compute. reflexivity. Qed.

Lemma ocrowd_deadlock m n : ocrowd_jammed m = true -> m <= n ->
  exists b0 tr b, honest_onet rN sid0 (group n) key (crowd_ep m) = Ok b0 /\ oschedule rN 100 b0 tr b /\ offload_stuck rN 100 b /\ offload_returns b = None.
Proof.
  intros C Hmn. destruct (ocrowd_padded Hmn) as (a0 & b0 & tr0 & b1 & Ea & Eb & Hb1 & D). unfold ocrowd_jammed, ocrowd_net in C. rewrite Ea in C. cbv zeta in C.
  destruct (@oend_sched _ 100 (ojam m 100) a0 [] a0 (osched_nil _ _ _)) as [tr Htr]. set (a := oend 100 (ojam m 100) a0) in *. clearbody a.
  apply andb_prop in C as [C C3]. apply andb_prop in C as [C1 C2].
  destruct (on_disp a) as [| | |ms o| |] eqn:Ed; try discriminate C3. destruct (get (mo_to o) (on_nodes a)) as [d|] eqn:Eo; [|discriminate C3].
  destruct (@opad_sched _ _ rN 100 a0 tr a Htr b1 D) as (b & Hb & D'); [now rewrite Ed|].
  assert (S : exists tr', oschedule rN 100 b0 tr' b).
  { clear - Hb1 Hb. induction Hb as [b1|b1 tr b2 x ls b3 H IH Hx]; [eauto|]. destruct (IH Hb1) as [tr' Htr']. eexists. econstructor; eauto. }
  destruct S as [tr' Hs]. exists b0, tr', b. split; [exact Eb|]. split; [exact Hs|]. split.
  - eapply opad_stuck; [exact D'|exact Ed|rewrite Eo; discriminate|now apply nothing_left_stuck].
  - apply (@pad_returns _ _ (seen a) (seen b) (mo_to o) (seen_padded D')); [|cbn [seen an_nodes]; rewrite get_map_values, Eo; discriminate].
    intros v d' Hv. cbn [seen an_nodes] in Hv. rewrite get_map_values in Hv. destruct (get v (on_nodes a)) as [p|] eqn:Ep; [|discriminate Hv].
    rewrite forallb_forall in C2. apply in_to_list in Ep. specialize (C2 _ Ep). cbn [snd] in C2. destruct p; [|discriminate C2]. injection Hv as <-. reflexivity.
Qed.

Lemma offload_deadlock n : 51 < n -> exists (P : Params) (Pr : Proto) r sid parties (ep : Verifier -> EntryPoint Pr) (h : Plan Pr) sk a0 tr a,
  signers parties sk /\ wire_total P /\ signatures_correct P /\ honest_run r sid parties ep h /\ length (elements parties) = n /\
  honest_onet r sid parties sk ep = Ok a0 /\ oschedule r 100 a0 tr a /\ offload_stuck r 100 a /\ offload_returns a = None.
Proof.
  intros Hn. destruct (@ocrowd_deadlock 52 n ocrowd_jammed_52 Hn) as (a0 & tr & a & H1 & H2 & H3 & H4).
  exists toyP, (crowd 52), rN, sid0, (group n), (crowd_ep 52), (crowd_plan 52), key, a0, tr, a.
  split; [apply key_signers|]. split; [apply toy_wire|]. split; [apply toy_signatures|]. split; [exact (@crowd_honest 52 n Hn)|].
  split; [apply group_size|]. split; [exact H1|]. split; [exact H2|]. split; [exact H3|exact H4].
Qed.
