(** [run_async] with the concrete parameters of Toy.v. Used only by [Example]s and witnesses. *)
From Coq Require Import List NArith Bool Arith Lia.
From Verif Require Import Base BMap Errors RoundId Message Protocol Transcript Evidence Session Spec SpecCrypto Typed SpecTyped Simple Extend SpecExtend
  IntakeFacts Network SpecNet RunSync Driver SpecDriver Misbehave Async SpecAsync Toy ToyCrypto ToySimple HonestFacts ToyNet ToyMisbehave.
From Verif Require NetFacts.
Import ListNotations.
Set Implicit Arguments.

Section Play.
  Context {P : Params}.
  Context {Pr : Proto}.
  Variable r : NetRng.
  Variable cap : nat.

  Fixpoint aplay (a : ANet Pr) (xs : list aaction) : option (ANet Pr) :=
    match xs with
    | [] => Some a
    | x :: xs => match aact r cap a x with Some (_, a1) => aplay a1 xs | None => None end
    end.
End Play.

(** ** A protocol with nothing but empty messages: two rounds, everybody sends to everybody else. *)
Definition hello_tinfo (first : bool) : TransitionInfo :=
  if first then mkTI (rid_new 1) sempty sempty (set_of_list [rid_new 2]) false
  else mkTI (rid_new 2) (set_of_list [rid_new 1]) sempty sempty true.
Definition hello (n : nat) : Proto (P := toyP) := {|
  St := (bool * N); Rslt := unit; Shared := unit; Payload := unit; Artifact := unit;
  tinfo := fun st => hello_tinfo (fst st);
  cinfo := fun st => @mkComm toyP (srem (snd st : @Verifier toyP) (group n)) (srem (snd st : @Verifier toyP) (group n)) (@EPDefault toyP);
  mk_direct := fun st g dest => Ok (None, tt);
  mk_echo := fun st g => Ok None;
  mk_normal := fun st g => Ok None;
  receive := fun st from m => Ok tt;
  finalize := fun st g ps _ => Ok (if fst st then AnotherRound (false, snd st) else Finished_ tt);
  round_info := fun r => None
|}.
Definition hello_entry (n : nat) : EntryPoint (hello n) := @mkEP toyP (hello n) (rid_new 1) (fun _ _ me => Ok (true, me)).

(** A schedule after which nobody can go on, for [n] parties: [k] is the number of messages of the second round that fit
    into the channel of party 0. *)
Definition hand_over : list (aaction (P := toyP)) := repeat (@ADisp toyP 0) 6.
Definition jam (n cap : nat) : list (aaction (P := toyP)) :=
  let later := tl (persons n) in
  (* everybody sends the messages of the first round, except for the last message of party 0 *)
  flat_map (fun v => flat_map (fun _ => @ANode toyP v :: hand_over) (seq 0 (n - 1))) later ++
  flat_map (fun _ => @ANode toyP 0%N :: hand_over) (seq 0 (n - 2)) ++
  (* everybody except for party 0 takes what is there; those that can go on to the second round *)
  flat_map (fun v => repeat (@ANode toyP v) (n - 1)) (firstn (n - 2) later) ++
  repeat (@ANode toyP (N.of_nat (n - 1))) (n - 2) ++
  map (@ANode toyP) (firstn (n - 2) later) ++
  (* and begin with a message to party 0 *)
  flat_map (fun v => @ANode toyP v :: hand_over) (firstn (cap - (n - 1)) later) ++
  map (@ANode toyP) (firstn 1 (skipn (cap - (n - 1)) later)) ++ repeat (@ADisp toyP 0) 3 ++
  (* the next one does not fit; the others fill the channel of the dispatcher *)
  flat_map (fun v => repeat (@ANode toyP v) (n - 2)) (firstn (cap / (n - 2)) later).
Definition no_input {Pr : Proto (P := toyP)} (cap : nat) (a : ANet Pr) : bool :=
  (forallb (fun kv => negb (is_some (node_input cap a (fst kv) (snd kv)))) (to_list (an_nodes a)) &&
   match an_disp a with
   | DispSend _ _ => negb (is_some (disp_step cap a 0))
   | _ => false
   end)%bool.

Definition hello_plan (n : nat) : Plan (hello n) := @mkPlan toyP (hello n) 1 (fun k => rid_new (N.of_nat (S k))) (fun _ _ => @EPDefault toyP)
  (fun _ v => srem v (group n)) (fun _ v => srem v (group n)) (fun k v => (Nat.eqb k 0, v)) (fun _ _ => None) (fun _ _ => None) (fun _ _ _ => None)
  (fun _ _ _ => tt) (fun _ _ _ => tt) (fun _ => tt).

Lemma hello_honest n : honest_run rN sid0 (group n) (fun _ => hello_entry n) (hello_plan n).
Proof.
  assert (Hrem : forall u v : @Verifier toyP, mem u (srem v (group n)) = true <-> mem u (group n) = true /\ u <> v).
  { intros u v. rewrite mem_rem, andb_true_iff, negb_true_iff, eqb_neq. tauto. }
  assert (Hif : forall (b : bool) (x : res LocalError body), x = Ok None -> (if b then Ok None else x) = Ok None) by (intros [] x ->; reflexivity).
  split; [constructor|apply NetFacts.heard_in_step; split].
  - intros; reflexivity.
  - intros k l _ _ E. injection E as E. lia.
  - intros [|[|k]] v Hk _; try reflexivity. simpl in Hk. lia.
  - intros k v Hk _. assert (k = 0) as -> by (simpl in Hk; lia). reflexivity.
  - intros; reflexivity.
  - intros k v u _ _ H. now apply Hrem in H.
  - intros k v u _ _ H. now apply Hrem in H.
  - intros k u v _ Hu Hv. apply eq_true_iff_eq. cbn [pl_dest pl_from hello_plan]. rewrite !Hrem. intuition congruence.
  - intros k v u _ _ H. discriminate H.
  - intros k v u w _ _ H. discriminate H.
  - intros v _. reflexivity.
  - intros k v _ _. apply Hif. reflexivity.
  - intros k v _ _. apply Hif. reflexivity.
  - intros k v u _ _ _. reflexivity.
  - intros k v u _ _ _. reflexivity.
  - intros [|[|k]] v ps arts Hk _ _ _; reflexivity.
  - intros k v u _ _ H. discriminate H.
  - intros k v u Hk Hv Hu. cbn [echoes pl_part pl_echo hello_plan is_none negb]. right. apply Hrem in Hu. apply Hrem. intuition congruence.
Qed.

Lemma aplay_sched {Pr : Proto (P := toyP)} cap xs : forall a0 tr (a a' : ANet Pr), aschedule rN cap a0 tr a -> aplay rN cap a xs = Some a' ->
  exists tr', aschedule rN cap a0 tr' a'.
Proof.
  induction xs as [|x xs IH]; intros a0 tr a a' H E; cbn [aplay] in E; [assert (a = a') by congruence; subst; eauto|].
  destruct (aact rN cap a x) as [[ls a1]|] eqn:Ex; [|discriminate]. eapply IH; [|exact E]. econstructor; eauto.
Qed.

Lemma no_input_stuck {Pr : Proto (P := toyP)} cap (a : ANet Pr) : no_input cap a = true -> async_stuck rN cap a.
Proof.
  unfold no_input. intros H. apply andb_prop in H as [H1 H2]. rewrite forallb_forall in H1. intros [v|i]; cbn [aact].
  - destruct (get v (an_nodes a)) as [d|] eqn:Ed; [|reflexivity]. apply in_to_list in Ed. specialize (H1 _ Ed). cbn [fst snd] in H1.
    destruct (node_input cap a v d); [discriminate|reflexivity].
  - unfold disp_step in *. destruct (an_disp a) as [| | |ms o| |]; try discriminate.
    destruct (get (mo_to o) (an_in a)) as [q|]; [|discriminate].
    destruct (get (mo_to o) (an_nodes a)) as [[| | |]|]; try discriminate; (destruct (Nat.ltb (length q) cap); [discriminate|reflexivity]).
Qed.

Lemma key_signers n : signers (group n) key.
Proof. intros v _. reflexivity. Qed.

(** ** [run_async] with one party that sends a wrong message (the second test of simple_test.rs) *)
Definition bad_parties (n : nat) : list (@Signer toyP * EntryPoint (extended simT)) :=
  match extend_one (make_entry_points n) (fun xp => with_extension xp invalid1) with
  | Ok (_, l) => map (fun p => (fst p, extendable_entry (snd p))) l
  | _ => []
  end.
Definition bad_net (n : nat) := @anet_start toyP (extended simT) rN sid0 (bad_parties n).
(** Everybody sends and takes the messages of round 1; 0 and 1 return; 2 goes on to the echo round and sends a message to 0. *)
Definition bad_run : list (aaction (P := toyP)) :=
  map (@ANode toyP) [2; 2; 0; 0; 1; 1]%N ++ repeat (@ADisp toyP 0) 26 ++ map (@ANode toyP) [0; 0; 0; 1; 1; 1; 2; 2; 2; 2]%N ++
  repeat (@ADisp toyP 0) 4 ++ map (@ANode toyP) [2]%N.

Lemma bad_extend : exists l, extend_one (make_entry_points 3) (fun xp => with_extension xp invalid1) = Ok (2%N : @Verifier toyP, l) /\
  bad_parties 3 = map (fun p => (fst p, extendable_entry (snd p))) l.
Proof. eexists. split; reflexivity. Qed.
Definition bad_result : bool :=
  match bad_net 3 with
  | Ok a0 => match aplay rN 100 a0 bad_run with
             | Some a =>
                 match async_returns a with Some (Err _) => true | _ => false end &&
                 forallb (fun v => match get (v : @Verifier toyP) (an_nodes a) with
                                   | Some (DrvDone (Ok rep)) => match get (2%N : @Verifier toyP) (rep_provable rep) with
                                                                | Some ev => match verify_evidence (extended simT) ev tt with Ok tt => true | _ => false end
                                                                | None => false
                                                                end
                                   | _ => false
                                   end) [0; 1]%N
             | None => false
             end
  | _ => false
  end.
Lemma bad_checked : bad_result = true.
Proof. vm_compute. reflexivity. Qed.

Lemma async_loses_reports : exists (P : Params) (T : TProto) r sid (eps : list (Signer * EntryPoint (wrap T))) (k : TK T) (x : Ext T k) sd bad modified a0 tr a e,
  NoDup (map (fun p => signer_key (fst p)) eps) /\
  extend_one eps (fun xp => with_extension xp x) = Ok (bad, modified) /\
  anet_start (Pr := extended T) r sid (map (fun p => (fst p, extendable_entry (snd p))) modified) = Ok a0 /\
  aschedule r 100 a0 tr a /\ async_returns a = Some (Err e) /\
  forall v, v <> bad -> In v (map (fun p => signer_key (fst p)) eps) ->
    exists rep ev, get v (an_nodes a) = Some (DrvDone (Ok rep)) /\ get bad (rep_provable rep) = Some ev /\ verify_evidence (extended T) ev sd = Ok tt.
Proof.
  destruct bad_extend as (l & Hl & Hps). pose proof bad_checked as H. unfold bad_result, bad_net in H. rewrite Hps in H.
  destruct (anet_start rN sid0 _) as [a0|e|] eqn:E0; try discriminate. destruct (aplay rN 100 a0 bad_run) as [a|] eqn:E; [|discriminate].
  apply andb_prop in H as [H1 H2]. destruct (async_returns a) as [[|e|]|] eqn:Er; try discriminate.
  destruct (@aplay_sched _ 100 _ a0 [] a0 a (asched_nil _ _ _) E) as [tr Htr].
  exists toyP, simT, rN, sid0, (make_entry_points 3), SR1, invalid1, tt, (2%N : @Verifier toyP), l, a0, tr, a, e.
  split; [|split; [exact Hl|split; [exact E0|split; [exact Htr|split; [exact Er|]]]]].
  - vm_compute. repeat constructor; simpl; intuition discriminate.
  - intros v Hv Hin. rewrite forallb_forall in H2.
    assert (Hv' : In v [0; 1]%N) by (vm_compute in Hin; destruct Hin as [<-|[<-|[<-|[]]]]; simpl; auto; contradiction).
    specialize (H2 v Hv'). cbv beta in H2. destruct (get v (an_nodes a)) as [[| | |[rep|?|]]|]; try discriminate.
    exists rep. destruct (get _ (rep_provable rep)) as [ev|]; [|discriminate]. exists ev. repeat split.
    destruct (verify_evidence (extended simT) ev tt) as [[]| |]; try discriminate. reflexivity.
Qed.

(** ** A complete run: as long as something can happen, the first thing of a list that can. *)
Fixpoint aauto {Pr : Proto (P := toyP)} (cap fuel : nat) (xs : list (aaction (P := toyP))) (tr : list (@Verifier toyP * dlabel Pr)) (a : ANet Pr)
    : list (@Verifier toyP * dlabel Pr) * ANet Pr :=
  match fuel with
  | O => (tr, a)
  | S fuel =>
      match find (fun x => is_some (aact rN cap a x)) xs with
      | None => (tr, a)
      | Some x => match aact rN cap a x with Some (ls, a') => aauto cap fuel xs (tr ++ ls) a' | None => (tr, a) end
      end
  end.
Lemma aauto_sched {Pr : Proto (P := toyP)} cap fuel xs : forall (a0 : ANet Pr) tr a, aschedule rN cap a0 tr a ->
  aschedule rN cap a0 (fst (aauto cap fuel xs tr a)) (snd (aauto cap fuel xs tr a)).
Proof.
  induction fuel as [|fuel IH]; intros a0 tr a H; cbn [aauto]; [exact H|].
  destruct (find _ xs) as [x|]; [|exact H]. destruct (aact rN cap a x) as [[ls a']|] eqn:E; [|exact H]. apply IH. econstructor; eauto.
Qed.
Definition astarted {Pr : Proto (P := toyP)} (x : res LocalError (ANet Pr)) : ANet Pr :=
  match x with Ok a => a | _ => mkANet empty [] (DispEnd Panic) empty end.
Definition aresults {Pr : Proto (P := toyP)} (a : ANet Pr) : list (@Verifier toyP * option (Rslt Pr)) :=
  match async_returns a with
  | Some (Ok reports) => map (fun kv => (fst kv, match rep_outcome (snd kv) with OResult x => Some x | _ => None end)) (to_list reports)
  | _ => []
  end.
