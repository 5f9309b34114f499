(** Chained executions: two protocols that do not go together, and the example of simple_chain.rs. *)
From Coq Require Import List NArith Bool Arith Lia.
From Verif Require Import Base BMap Errors RoundId Message Protocol Transcript Evidence Session Spec SpecCrypto Typed SpecTyped Simple Chain DoubleSimple
  IntakeFacts Network SpecNet NetFacts RunSync RunSyncFacts Driver SpecDriver Par SpecPar Async SpecAsync AsyncNetFacts Offload SpecOffload OffloadNetFacts
  SpecPartial SpecCompose ComposeFacts Toy ToyCrypto ToySimple HonestFacts ToyNet ToySync TestParams TestParamsFacts ToyTest.
Import ListNotations.
Set Implicit Arguments.

(** ** Protocols with empty messages: in each round those who send and those who receive are given by a list of pairs. *)
Definition to_whom (es : list (N * N)) (v : N) : bset (@Verifier toyP) := set_of_list (map snd (filter (fun e => N.eqb (fst e) v) es)).
Definition from_whom (es : list (N * N)) (v : N) : bset (@Verifier toyP) := set_of_list (map fst (filter (fun e => N.eqb (snd e) v) es)).
Definition pat (rs : list (list (N * N))) : Proto (P := toyP) := {|
  St := nat * N; Rslt := unit; Shared := unit; Payload := unit; Artifact := unit;
  tinfo := fun st => let k := fst st in mkTI (rid_new (N.of_nat (S k))) (if Nat.eqb k 0 then sempty else set_of_list [rid_new (N.of_nat k)]) sempty
    (if Nat.ltb (S k) (length rs) then set_of_list [rid_new (N.of_nat (S (S k)))] else sempty) (Nat.eqb (S k) (length rs));
  cinfo := fun st => let es := nth (fst st) rs [] in @mkComm toyP (to_whom es (snd st)) (from_whom es (snd st)) (@EPDefault toyP);
  mk_direct := fun st g dest => Ok (None, tt);
  mk_echo := fun st g => Ok None;
  mk_normal := fun st g => Ok None;
  receive := fun st from m => Ok tt;
  finalize := fun st g ps _ => Ok (if Nat.ltb (S (fst st)) (length rs) then AnotherRound (S (fst st), snd st) else Finished_ tt);
  round_info := fun r => None
|}.
Definition pat_make (rs : list (list (N * N))) (me : N) : res LocalError (St (pat rs)) := Ok (0, me).
Definition pat_entry (rs : list (list (N * N))) : EntryPoint (pat rs) := @mkEP toyP (pat rs) (rid_new 1) (fun _ _ me => pat_make rs me).
Definition pat_plan (rs : list (list (N * N))) : Plan (pat rs) := @mkPlan toyP (pat rs) (pred (length rs)) (fun k => rid_new (N.of_nat (S k)))
  (fun _ _ => @EPDefault toyP) (fun k v => to_whom (nth k rs []) v) (fun k v => from_whom (nth k rs []) v) (fun k v => (k, v)) (fun _ _ => None) (fun _ _ => None) (fun _ _ _ => None)
  (fun _ _ _ => tt) (fun _ _ _ => tt) (fun _ => tt).

Lemma to_whom_in es u v : mem u (to_whom es v) = true <-> In (v, u) es.
Proof.
  unfold to_whom. rewrite mem_set_of_list, in_map_iff. split.
  - intros ([a b] & E & H). apply filter_In in H as [H F]. cbn [fst snd] in *. apply N.eqb_eq in F. now subst.
  - intros H. exists (v, u). split; auto. apply filter_In. split; auto. cbn [fst]. apply N.eqb_refl.
Qed.
Lemma from_whom_in es u v : mem u (from_whom es v) = true <-> In (u, v) es.
Proof.
  unfold from_whom. rewrite mem_set_of_list, in_map_iff. split.
  - intros ([a b] & E & H). apply filter_In in H as [H F]. cbn [fst snd] in *. apply N.eqb_eq in F. now subst.
  - intros H. exists (u, v). split; auto. apply filter_In. split; auto. cbn [snd]. apply N.eqb_refl.
Qed.

Lemma pat_lock_step (rs : list (list (N * N))) n r sid : rs <> [] -> (forall es u v, In es rs -> In (u, v) es -> mem u (group n) = true /\ mem v (group n) = true /\ u <> v) ->
  lock_step r sid (group n) (fun _ => pat_entry rs) (pat_plan rs).
Proof.
  intros Hr He. assert (Hl : length rs <> 0) by (destruct rs; [congruence|discriminate]).
  assert (He' : forall k u v, In (u, v) (nth k rs []) -> mem u (group n) = true /\ mem v (group n) = true /\ u <> v).
  { intros k u v H. destruct (nth_in_or_default k rs []) as [Hi|E]; [eauto|]. rewrite E in H. contradiction. }
  assert (Hif : forall (b : bool) (x : res LocalError body), x = Ok None -> (if b then Ok None else x) = Ok None) by (intros [] x ->; reflexivity).
  constructor.
  - intros; reflexivity.
  - intros k l _ _ E. injection E as E. lia.
  - intros; reflexivity.
  - intros k v Hk _. cbn [pl_last pat_plan] in Hk. cbn [tinfo pat pl_state pat_plan ti_children fst pl_rid].
    assert (Hlt : S k < length rs) by (apply Nat.lt_succ_lt_pred; exact Hk). apply Nat.ltb_lt in Hlt. rewrite Hlt. apply mem_set_of_list. now left.
  - intros; reflexivity.
  - intros k v u _ _ H. apply to_whom_in in H. apply He' in H. intuition congruence.
  - intros k v u _ _ H. apply from_whom_in in H. apply He' in H. intuition congruence.
  - intros k u v _ _ _. apply eq_true_iff_eq. cbn [pl_dest pl_from pat_plan]. rewrite to_whom_in, from_whom_in. reflexivity.
  - intros k v u _ _ H. discriminate H.
  - intros k v u w _ _ H. discriminate H.
  - intros v _. reflexivity.
  - intros k v _ _. apply Hif. reflexivity.
  - intros k v _ _. apply Hif. reflexivity.
  - intros k v u _ _ _. reflexivity.
  - intros k v u _ _ _. reflexivity.
  - intros k v ps arts Hk _ _ _. cbn [finalize pat pl_state pat_plan fst snd]. cbn [pl_last pat_plan] in *.
    destruct (Nat.ltb_spec (S k) (length rs)), (Nat.ltb_spec k (pred (length rs))); try lia; reflexivity.
Qed.

(** In the first protocol 3 sends to 2; in the second one nobody sends anything in the first round, and 0 sends to 2 in the
    second. *)
Definition rs1 : list (list (N * N)) := [[(3, 2)]]%N.
Definition rs2 : list (list (N * N)) := [[]; [(0, 2)]]%N.
Definition pat_join : Join (pat rs1) (pat rs2) := @mkJoin toyP (pat rs1) (pat rs2) (rid_new 1) unit (fun _ _ _ _ me => pat_make rs2 me).
Definition pat_net := @honest_net toyP (chain pat_join) rN sid0 (group 4) key (fun _ => chain_entry pat_join (pat_entry rs1) (tt : J pat_join)).

Lemma pat_in_step1 : in_step (group 4) (pat_plan rs1).
Proof. apply heard_in_step. split; intros k v u Hk; [discriminate|]. cbn in Hk. lia. Qed.
Lemma pat_in_step2 : in_step (group 4) (pat_plan rs2).
Proof. apply heard_in_step. split; intros k v u Hk; [discriminate|]. cbn in Hk. assert (k = 0) as -> by lia. intros _ _. cbn. now left. Qed.

Lemma pat_honest1 r : honest_run r sid0 (group 4) (fun _ => pat_entry rs1) (pat_plan rs1).
Proof.
  split; [|apply pat_in_step1]. apply pat_lock_step; [discriminate|]. intros es u v [<-|[]] [E|[]]. injection E as <- <-. repeat split; discriminate.
Qed.
Lemma pat_lock2 r : lock_step r sid0 (group 4) (fun _ => pat_entry rs2) (pat_plan rs2).
Proof. apply pat_lock_step; [discriminate|]. intros es u v [<-|[<-|[]]]; [intros []|]. intros [E|[]]. injection E as <- <-. repeat split; discriminate. Qed.
Lemma second_lock {P : Params} {Pr : Proto} r sid parties (ep ep' : Verifier -> EntryPoint Pr) h :
  (forall v g sr me, ep_make (ep v) g sr me = ep_make (ep' v) g sr me) -> lock_step r sid parties ep h -> lock_step r sid parties ep' h.
Proof. intros E L. destruct L. constructor; auto. intros v Hv. rewrite <- E. auto. Qed.
Lemma pat_honest2 r (res : @Verifier toyP -> unit) : honest_run r sid0 (group 4) (second_entry pat_join (fun _ => tt : J pat_join) res) (pat_plan rs2).
Proof. split; [|apply pat_in_step2]. eapply second_lock; [|apply pat_lock2]. reflexivity. Qed.

(** 0 goes on to the last round and sends its message; 2 is still waiting for the message of 3. *)
Definition pat_run : list (action (P := toyP)) := [@AFinalize toyP 0%N; @AFinalize toyP 0%N; @ASend toyP 0%N 2%N; @ADeliver toyP 0].
Definition pat_result : Net (chain pat_join) := net_of (play (started pat_net) pat_run).
Definition pat_blamed : bool := match get (2%N : @Verifier toyP) (nodes pat_result) with Some (Running d) => contains (0%N : @Verifier toyP) (a_unprovable (d_a d)) | _ => false end.

Lemma pat_fails : exists net, schedule rN (started pat_net) pat_run net /\
  exists d, get (2%N : @Verifier toyP) (nodes net) = Some (Running d) /\ contains (0%N : @Verifier toyP) (a_unprovable (d_a d)) = true.
Proof.
  exists pat_result. split; [apply play_ok; vm_compute; reflexivity|]. assert (H : pat_blamed = true) by (vm_compute; reflexivity).
  unfold pat_blamed in H. destruct (get _ (nodes pat_result)) as [[d|rep]|]; try discriminate. eauto.
Qed.

Lemma chain_fails : exists (P : Params) (P1 P2 : Proto) (j : Join P1 P2) sid parties (ep : Verifier -> EntryPoint P1) (tr : Verifier -> J j) sk r net0 xs net v d u,
  signers parties sk /\ wire_total P /\ signatures_correct P /\
  (forall r, exists h, honest_run r sid parties ep h) /\
  (forall res r, exists h, honest_run r sid parties (second_entry j tr res) h /\ pl_rid h 0 = j_entry j) /\
  (exists h, lock_step r sid parties (fun v => chain_entry j (ep v) (tr v)) h) /\
  honest_net r sid parties sk (fun v => chain_entry j (ep v) (tr v)) = Ok net0 /\ schedule r net0 xs net /\
  mem u parties = true /\ get v (nodes net) = Some (Running d) /\ contains u (a_unprovable (d_a d)) = true.
Proof.
  destruct pat_fails as (net & Hs & d & Hd & Hc).
  exists toyP, (pat rs1), (pat rs2), pat_join, sid0, (group 4), (fun _ => pat_entry rs1), (fun _ => tt), key, rN, (started pat_net), pat_run, net, (2%N : @Verifier toyP), d, (0%N : @Verifier toyP).
  split; [intros v _; reflexivity|]. split; [exact toy_wire|]. split; [exact toy_signatures|].
  split; [intros r; eexists; apply pat_honest1|]. split; [intros res r; eexists; split; [apply pat_honest2|reflexivity]|].
  split; [eexists; apply joined_lock_step; [apply pat_honest1|apply pat_honest2|reflexivity|reflexivity]|].
  split; [apply started_ok; vm_compute; reflexivity|]. split; [exact Hs|]. split; [reflexivity|]. split; [exact Hd|exact Hc].
Qed.

(** In these two 2 and 3 exchange messages in all rounds but the last, in which 3 sends to 2. *)
Definition rs3 : list (list (N * N)) := [[(2, 3); (3, 2)]; [(2, 3); (3, 2)]]%N.
Definition rs4 : list (list (N * N)) := [[(2, 3); (3, 2)]; [(3, 2)]]%N.
Definition pair_join : Join (pat rs3) (pat rs4) := @mkJoin toyP (pat rs3) (pat rs4) (rid_new 1) unit (fun _ _ _ _ me => pat_make rs4 me).
Lemma waiting_cases :
  (exists h1 h2, chained pair_join rN sid0 (group 4) (fun _ => pat_entry rs3) (fun _ => tt : J pair_join) h1 h2 /\
     waits (group 4) h1 /\ always_waits (group 4) h2 /\ crossing (group 4) h1 h2 /\ pl_last h1 = 1 /\ pl_last h2 = 1) /\
  (exists h1 h2, chained pat_join rN sid0 (group 4) (fun _ => pat_entry rs1) (fun _ => tt : J pat_join) h1 h2 /\
     waits (group 4) h1 /\ waits (group 4) h2 /\ ~ always_waits (group 4) h2).
Proof.
  assert (H32 : forall k (rs : list (list (N * N))), nth k rs [] = [(2, 3); (3, 2)]%N ->
    forall es v u, (es = [(3, 2)] \/ es = [(2, 3); (3, 2)])%N -> mem u (to_whom es v) = true -> heard (pat_plan rs) k v u).
  { intros k rs E es v u Hes Hu. apply to_whom_in in Hu. unfold heard. change (echoes (pat_plan rs) k u) with false. left. cbn [pl_from pat_plan]. rewrite E.
    apply from_whom_in. destruct Hes as [-> | ->]; cbn [In] in Hu; repeat (destruct Hu as [Hu|Hu]; [injection Hu as <- <-; cbn [In]; tauto|]); contradiction. }
  split.
  - exists (pat_plan rs3), (pat_plan rs4). split; [|split; [|split; [|split; [|split; reflexivity]]]].
    + split; [|split; [|split; reflexivity]].
      * apply pat_lock_step; [discriminate|]. intros es u v [<-|[<-|[]]] [E|[E|[]]]; injection E as <- <-; repeat split; discriminate.
      * eapply second_lock; [|apply (@pat_lock_step rs4 4)]; [reflexivity|discriminate|].
        intros es u v [<-|[<-|[]]]; [intros [E|[E|[]]]|intros [E|[]]]; injection E as <- <-; repeat split; discriminate.
    + split; [discriminate|]. intros k v u Hk _ Hu. cbn in Hk. assert (k = 0) as -> by lia. right. apply (H32 0 rs3 eq_refl _ v u (or_intror eq_refl) Hu).
    + split; [discriminate|]. intros k v u Hk _ Hu. cbn in Hk. assert (k = 0) as -> by lia. apply (H32 0 rs4 eq_refl _ v u (or_introl eq_refl) Hu).
    + intros v u _ Hu. right. apply (H32 1 rs3 eq_refl _ v u (or_intror eq_refl) Hu).
  - exists (pat_plan rs1), (pat_plan rs2). split; [|split; [|split]].
    + split; [apply pat_honest1|]. split; [apply (@pat_honest2 _ (fun _ => tt))|]. split; reflexivity.
    + split; [discriminate|]. intros k v u Hk. cbn in Hk. lia.
    + split; [discriminate|]. intros k v u Hk _ _. cbn in Hk. assert (k = 0) as -> by lia. left. now split.
    + intros [_ H]. specialize (H 0 0%N 2%N (le_n 1) eq_refl eq_refl). destruct H as [H|[H _]]; discriminate.
Qed.

(** ** simple.rs, and simple_chain.rs *)
Section Double.
  Context {P : Params}.
  Variable W : SimpleWire.
  Variable HW : codec_ok (sw_message1 W) /\ codec_ok (sw_echo1 W) /\ codec_ok (sw_broadcast1 W) /\ codec_ok (sw_message2 W).
  Variable sid : bytes.
  Variable parties : bset Verifier.
  Notation n := (length (elements parties)).
  Hypothesis Hn : n <= 16.

  Lemma simple_executes : executes_well (everybody parties) sid parties (fun _ => simple_entry W parties) (rid_new 1)
    (fun res => forall v, res v = (N.of_nat n * (N.of_nat n - 1))%N).
  Proof.
    intros r. destruct (result_eq parties Hn) as [E1 E2]. exists (simple_plan W parties).
    split; [apply simple_honest; auto; lia|]. split; [split|split; [reflexivity|split; [reflexivity|]]].
    - intros k v _ _. split; reflexivity.
    - intros k v _ _. split; [reflexivity|]. intros u _. destruct HW as (_ & H2 & _ & _). destruct k as [|k]; cbn [pl_echo simple_plan]; [|tauto].
      destruct (enc_ok (pos parties u) H2) as (b & _ & -> & _). destruct (enc_ok (pos parties v) H2) as (b' & _ & -> & _).
      destruct (lone parties); [tauto|split; discriminate].
    - intros v. exact E1.
  Qed.
  Lemma double_executes : executes_well (everybody parties) sid parties (fun _ => double_entry W parties) (group_under (rid_new 1) 1)
    (fun res => forall v, res v = (N.of_nat n * (N.of_nat n - 1))%N).
  Proof.
    apply (@chain_succeeds P _ _ (double_join W) sid parties (fun _ => simple_entry W parties) (fun _ => parties) (rid_new 1) _ _ simple_executes).
    intros res _ r. destruct (simple_executes r) as (h & L & K). exists h. split; [|exact K]. eapply second_lock; [|exact L]. reflexivity.
  Qed.
End Double.

Lemma double_all {P : Params} W : codec_ok (sw_message1 W) /\ codec_ok (sw_echo1 W) /\ codec_ok (sw_broadcast1 W) /\ codec_ok (sw_message2 W) ->
  forall sid parties sk, wire_total P -> signatures_correct P -> signers parties sk ->
  let n := length (elements parties) in 2 <= n <= 16 -> let R := fun res : Verifier -> N => forall v, res v = (N.of_nat n * (N.of_nat n - 1))%N in
  forall r, run_sync_completes r sid parties sk (fun _ => double_entry W parties) R /\
    run_async_completes r sid parties sk (fun _ => double_entry W parties) R /\ run_async_offload_completes r sid parties sk (fun _ => double_entry W parties) R.
Proof.
  intros HW sid parties sk H1 H2 H3 n Hn R r. assert (Hle : length (elements parties) <= 16) by (fold n; lia). pose proof (@double_executes P W HW sid parties Hle) as E.
  split; [apply (well_sync H3 H1 H2 E r); fold n; lia|]. split; [apply (well_async H3 H1 H2 E r); lia|apply (well_offload H3 H1 H2 E r); lia].
Qed.
Lemma test_double (ids : bset N) r sid :
  let n := length (elements ids) in 2 <= n <= 16 -> let R := fun res : N -> N => forall v, res v = (N.of_nat n * (N.of_nat n - 1))%N in
  let ep := fun _ => double_entry (P := testP) testW ids in
  run_sync_completes (P := testP) r sid ids (fun v => v) ep R /\
  run_async_completes (P := testP) r sid ids (fun v => v) ep R /\ run_async_offload_completes (P := testP) r sid ids (fun v => v) ep R.
Proof. intros n Hn R ep. apply (@double_all testP testW test_codecs sid ids (fun v => v) test_wire test_signatures); auto. intros v _. reflexivity. Qed.
Lemma test_async (ids : bset N) r sid :
  let n := length (elements ids) in n <= 16 -> let R := fun res : N -> N => forall v, res v = (N.of_nat n * (N.of_nat n - 1))%N in
  let ep := fun _ => simple_entry (P := testP) testW ids in
  run_async_completes (P := testP) r sid ids (fun v => v) ep R /\ run_async_offload_completes (P := testP) r sid ids (fun v => v) ep R.
Proof.
  intros n Hn R ep. pose proof (@simple_executes testP testW test_codecs sid ids Hn) as E. assert (H3 : signers (P := testP) ids (fun v => v)) by (intros v _; reflexivity).
  assert (Hle : length (elements ids) <= 51) by (fold n; lia).
  split; [exact (well_async H3 test_wire test_signatures E r Hle)|exact (well_offload H3 test_wire test_signatures E r Hle)].
Qed.

Definition double_results picks : list N :=
  match run_sync (P := testP) 80 test_rng picks [1; 2]%N
    (map (fun v => (v, double_entry (P := testP) testW (set_of_list [0; 1; 2]%N))) (elements (set_of_list [0; 1; 2]%N))) with
  | Some (Ok reports) => flat_map (fun kv => match rep_outcome (snd kv) with OResult x => [x] | _ => [] end) (to_list reports)
  | _ => []
  end.
Lemma double_case : length (elements (set_of_list [0; 1; 2]%N)) = 3 /\ double_results (fun k => 5 * k + 2) = [6; 6; 6]%N.
Proof. split; vm_compute; reflexivity. Qed.

(** The network of the tests of async_runner.rs, run with the first thing of a list that can happen. *)
Definition test_net := honest_anet (P := testP) test_rng [1; 2]%N (set_of_list [0; 1; 2]%N) (fun v => v)
  (fun _ => simple_entry (P := testP) testW (set_of_list [0; 1; 2]%N)).
Fixpoint tauto {Pr : Proto (P := testP)} (fuel : nat) (xs : list (aaction (P := testP))) (a : ANet Pr) : ANet Pr :=
  match fuel with
  | O => a
  | S fuel => match find (fun x => is_some (aact test_rng 100 a x)) xs with
              | None => a
              | Some x => match aact test_rng 100 a x with Some (_, a') => tauto fuel xs a' | None => a end
              end
  end.
Lemma tauto_sched {Pr : Proto (P := testP)} fuel xs : forall (a0 : ANet Pr) tr a, aschedule test_rng 100 a0 tr a ->
  exists tr', aschedule test_rng 100 a0 tr' (tauto fuel xs a).
Proof.
  induction fuel as [|fuel IH]; intros a0 tr a H; cbn [tauto]; [eauto|].
  destruct (find _ xs) as [x|]; [|eauto]. destruct (aact test_rng 100 a x) as [[ls a']|] eqn:E; [|eauto]. apply (IH _ (tr ++ ls)). econstructor; eauto.
Qed.
Definition test_astarted := match test_net with Ok a => a | _ => mkANet empty [] (DispEnd Panic) empty end.
Definition test_arun := tauto 300 [@ADisp testP 0; @ANode testP 2%N; @ANode testP 0%N; @ANode testP 1%N] test_astarted.
Definition test_aresults : list (N * option N) :=
  match async_returns test_arun with
  | Some (Ok reports) => map (fun kv => (fst kv, match rep_outcome (snd kv) with OResult x => Some x | _ => None end)) (to_list reports)
  | _ => []
  end.
Lemma test_async_case : (exists tr, aschedule test_rng 100 test_astarted tr test_arun) /\ test_aresults = [(0, Some 6); (1, Some 6); (2, Some 6)]%N.
Proof. split; [apply tauto_sched with (tr := []); constructor|vm_compute; reflexivity]. Qed.
