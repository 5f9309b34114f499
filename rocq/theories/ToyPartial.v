(** Networks of toy protocols in which the parties do not all talk to each other, and the setup of tests/partial_echo.rs.
    Used only by [Example]s and witnesses. *)
From Coq Require Import List NArith Bool Arith Lia.
From Verif Require Import Base BMap Errors RoundId Message Protocol Transcript Evidence Session Spec SpecCrypto Exec Typed SpecTyped Simple
  IntakeFacts HistoryFacts Network SpecNet Toy ToyCrypto ToySimple HonestFacts ToyNet PartialEcho SpecPartial NetFacts StepFacts.
Import ListNotations.
Set Implicit Arguments.

Notation toyV := (@Verifier toyP).

(** ** The conditions of [lock_step] on who sends to whom, as a computation *)
Section Shape.
  Context {Pr : Proto (P := toyP)}.
  Variable parties : bset toyV.
  Variable h : Plan Pr.

  Definition other (v u : toyV) : bool := (mem u parties && negb (N.eqb u v))%bool.
  Definition same_on (a b : toyV -> bool) (l : list toyV) : bool := forallb (fun w => Bool.eqb (a w) (b w)) l.
  Definition shape_at (n : nat) (v : toyV) : bool :=
    (forallb (other v) (elements (pl_dest h n v)) && forallb (other v) (elements (pl_from h n v)) &&
     forallb (fun u => Bool.eqb (mem u (pl_dest h n v)) (mem v (pl_from h n u))) (elements parties) &&
     (negb (echoes h n v) ||
      forallb (fun u => other v u && echoes h n u && mem v (partners h n u) &&
        same_on (fun w => mem w (srem u (echoed h n v))) (fun w => mem w (pl_from h n u) && negb (is_none (pl_echo h n w)))%bool
                (elements (srem u (echoed h n v)) ++ elements (pl_from h n u))) (elements (partners h n v))))%bool.
  Definition shape : bool := forallb (fun n => forallb (shape_at n) (elements parties)) (seq 0 (S (pl_last h))).

  Hypothesis H : shape = true.
  Lemma shape_get n v : n <= pl_last h -> mem v parties = true -> shape_at n v = true.
  Proof.
    intros Hn Hv. unfold shape in H. rewrite forallb_forall in H. assert (Hin : In n (seq 0 (S (pl_last h)))) by (apply in_seq; lia).
    specialize (H n Hin). rewrite forallb_forall in H. apply H. now apply in_elements.
  Qed.
  Lemma other_spec v u : other v u = true -> mem u parties = true /\ u <> v.
  Proof. unfold other. intros E. apply andb_prop in E as [E1 E2]. split; auto. apply negb_true_iff, N.eqb_neq in E2. exact E2. Qed.
  Lemma forallb_mem f (s : bset toyV) u : forallb f (elements s) = true -> mem u s = true -> f u = true.
  Proof. intros Hf Hu. rewrite forallb_forall in Hf. apply Hf. now apply in_elements. Qed.
  Ltac shape_tac Hn Hv := pose proof (@shape_get _ _ Hn Hv) as S0; unfold shape_at in S0;
    apply andb_prop in S0 as [S0 S4]; apply andb_prop in S0 as [S0 S3]; apply andb_prop in S0 as [S1 S2].
  Lemma shape_dest n v u : n <= pl_last h -> mem v parties = true -> mem u (pl_dest h n v) = true -> mem u parties = true /\ u <> v.
  Proof. intros Hn Hv Hu. shape_tac Hn Hv. apply other_spec. exact (@forallb_mem _ _ _ S1 Hu). Qed.
  Lemma shape_from n v u : n <= pl_last h -> mem v parties = true -> mem u (pl_from h n v) = true -> mem u parties = true /\ u <> v.
  Proof. intros Hn Hv Hu. shape_tac Hn Hv. apply other_spec. exact (@forallb_mem _ _ _ S2 Hu). Qed.
  Lemma shape_agree n u v : n <= pl_last h -> mem u parties = true -> mem v parties = true -> mem v (pl_dest h n u) = mem u (pl_from h n v).
  Proof. intros Hn Hu Hv. shape_tac Hn Hu. apply eqb_prop. exact (@forallb_mem _ _ _ S3 Hv). Qed.
  Lemma shape_partners n v u : n <= pl_last h -> mem v parties = true -> echoes h n v = true -> mem u (partners h n v) = true ->
    mem u parties = true /\ u <> v /\ echoes h n u = true /\ mem v (partners h n u) = true.
  Proof.
    intros Hn Hv He Hu. shape_tac Hn Hv. rewrite He in S4. cbn [negb orb] in S4. apply forallb_mem with (u := u) in S4; auto.
    apply andb_prop in S4 as [S4 _]. apply andb_prop in S4 as [S4 S5]. apply andb_prop in S4 as [S4 S6]. apply other_spec in S4 as [S4 S7]. auto.
  Qed.
  Lemma shape_echoed n v u w : n <= pl_last h -> mem v parties = true -> echoes h n v = true -> mem u (partners h n v) = true ->
    mem w (srem u (echoed h n v)) = (mem w (pl_from h n u) && negb (is_none (pl_echo h n w)))%bool.
  Proof.
    intros Hn Hv He Hu. shape_tac Hn Hv. rewrite He in S4. cbn [negb orb] in S4. apply forallb_mem with (u := u) in S4; auto.
    apply andb_prop in S4 as [_ S4]. unfold same_on in S4. rewrite forallb_forall in S4. specialize (S4 w). rewrite in_app_iff, !in_elements in S4.
    destruct (mem w (srem u (echoed h n v))); [symmetry; apply eqb_prop; rewrite eqb_true_iff; symmetry; apply eqb_prop; apply S4; auto|].
    destruct (mem w (pl_from h n u)); [apply eqb_prop; apply S4; auto|reflexivity].
  Qed.
End Shape.

(** ** Executions of the toy protocol in lock step *)
Section ToyPlan.
  Variable c : Cfg.
  Variable last : nat.
  Hypothesis Hlast : c_last c = N.of_nat (S last).
  Variable parties : bset toyV.

  Definition heard (n : nat) (v : toyV) : bset toyV := ci_expect (c_comm c (N.of_nat (S n)) v).
  Definition told (n : nat) (v : toyV) : bset toyV := ci_dest (c_comm c (N.of_nat (S n)) v).
  Fixpoint running_sum (n : nat) (v : toyV) : N :=
    match n with O => 0%N | S k => fold_left N.add (map (fun u => 10 + u)%N (elements (heard k v))) (running_sum k v) end.

  Definition toy_plan : Plan (toyPr c) := @mkPlan toyP (toyPr c) last
    (fun n => rid_new (N.of_nat (S n)))
    (fun n v => ci_part (c_comm c (N.of_nat (S n)) v))
    told heard
    (fun n v => mkToySt (N.of_nat (S n)) v (running_sum n v))
    (fun n v => if is_empty (told n v) then None else if c_echo c (N.of_nat (S n)) then Some [20 + v]%N else None)
    (fun _ _ => None)
    (fun _ v _ => Some [10 + v]%N)
    (fun _ _ u => u)
    (fun _ _ u => 10 + u)%N
    (fun v => running_sum (S last) v).

  Hypothesis Hshape : shape parties toy_plan = true.
  (** The message bytes 97 to 100 have a special meaning. *)
  Hypothesis Hsmall : forall v, mem v parties = true -> (v < 87)%N.

  Lemma toy_lock_step : lock_step rN sid0 parties (fun _ => toyEP c) toy_plan.
  Proof.
    constructor.
    - reflexivity.
    - intros n k _ _ E. cbn [pl_rid toy_plan] in E. unfold rid_new in E. injection E as E. lia.
    - intros n v Hn Hv. cbn [tinfo toyPr pl_state toy_plan]. unfold toy_tinfo. cbn [ts_round].
      destruct (N.ltb (N.of_nat (S n)) (c_last c)); reflexivity.
    - intros n v Hn Hv. cbn [pl_last toy_plan] in Hn. cbn [tinfo toyPr pl_state toy_plan pl_rid]. unfold toy_tinfo. cbn [ts_round].
      replace (N.ltb (N.of_nat (S n)) (c_last c)) with true by (symmetry; apply N.ltb_lt; rewrite Hlast; lia). cbn [ti_children].
      apply mem_set_of_list. left. f_equal. lia.
    - intros n v _ _. cbn [cinfo toyPr pl_state toy_plan pl_dest pl_from pl_part ts_round ts_me]. unfold told, heard.
      destruct (c_comm c (N.of_nat (S n)) v); reflexivity.
    - exact (@shape_dest _ _ _ Hshape).
    - exact (@shape_from _ _ _ Hshape).
    - exact (@shape_agree _ _ _ Hshape).
    - exact (@shape_partners _ _ _ Hshape).
    - exact (@shape_echoed _ _ _ Hshape).
    - reflexivity.
    - intros n v _ _. cbn [pl_dest toy_plan pl_echo mk_echo toyPr pl_state ts_round ts_me]. destruct (is_empty (told n v)); reflexivity.
    - intros n v _ _. cbn [pl_dest toy_plan pl_normal mk_normal toyPr]. destruct (is_empty (told n v)); reflexivity.
    - reflexivity.
    - intros n v u Hn Hv Hu. destruct (@shape_from _ _ _ Hshape n v u Hn Hv Hu) as [Hup _].
      assert (Hd : is_empty (told n u) = false).
      { destruct (is_empty (told n u)) eqn:E; auto. rewrite is_empty_get in E. pose proof (@shape_agree _ _ _ Hshape n u v Hn Hup Hv) as Ha.
        rewrite Hu in Ha. cbn [pl_dest toy_plan] in Ha. unfold mem, contains in Ha. rewrite E in Ha. discriminate. }
      cbn [receive toyPr pl_state pl_echo pl_normal pl_direct pl_payload toy_plan]. unfold toy_receive. cbn [dm_direct one_byte dm_echo dm_normal ts_round is_none negb].
      rewrite Hd. pose proof (Hsmall u Hup). 
      replace (Bool.eqb (c_echo c (N.of_nat (S n))) _) with true by (destruct (c_echo c (N.of_nat (S n))); reflexivity). cbn [negb].
      repeat (match goal with |- context [N.eqb ?a ?b] => replace (N.eqb a b) with false by (symmetry; apply N.eqb_neq; lia) end).
      reflexivity.
    - intros n v ps arts Hn Hv Hps _. cbn [pl_last toy_plan] in Hn. cbn [finalize toyPr pl_state toy_plan ts_round ts_me ts_sum pl_last pl_result].
      assert (E : map snd (to_list ps) = map (fun u => 10 + u)%N (elements (heard n v))).
      { rewrite (is_map_values Hps). f_equal. rewrite <- elements_keyset. f_equal. apply set_ext. intros u. rewrite mem_keyset. unfold contains.
        rewrite (Hps u). cbn [pl_from toy_plan]. destruct (mem u (heard n v)); reflexivity. }
      assert (E2 : fold_left N.add (map snd (to_list ps)) (running_sum n v) = running_sum (S n) v) by now rewrite E.
      cbv zeta. lazymatch goal with |- context [fold_left N.add ?l ?s] => replace (fold_left N.add l s) with (running_sum (S n) v) by (symmetry; exact E2) end.
      rewrite Hlast.
      destruct (Nat.ltb_spec n last) as [L|L].
      + replace (N.ltb (N.of_nat (S n)) (N.of_nat (S last))) with true by (symmetry; apply N.ltb_lt; lia).
        replace (N.of_nat (S n) + 1)%N with (N.of_nat (S (S n))) by lia. reflexivity.
      + replace (N.ltb (N.of_nat (S n)) (N.of_nat (S last))) with false by (symmetry; apply N.ltb_ge; lia). assert (n = last) as -> by lia. reflexivity.
  Qed.
End ToyPlan.

Definition vset (l : list N) : bset toyV := set_of_list (l : list toyV).
Lemma small_group n v : (n <= 87)%nat -> mem v (group n) = true -> (v < 87)%N.
Proof.
  intros Hn H. unfold group in H. apply mem_set_of_list in H. unfold persons in H. apply in_map_iff in H as (i & <- & Hi). apply in_seq in Hi. lia.
Qed.

(** ** Nothing can happen any more *)
Section Stuck.
  Context {Pr : Proto (P := toyP)}.
  Definition idle (nd : Node Pr) : bool :=
    match nd with
    | Ended _ => true
    | Running d => (match d_todo d with [] => true | _ => false end && all_sent d &&
                    negb (match can_finalize (d_a d) with Yes => true | _ => false end))%bool
    end.
  Definition stuck (net : Net Pr) : bool :=
    (match flight net with [] => true | _ => false end && forallb (fun kv => idle (snd kv)) (to_list (nodes net)))%bool.
  Lemma take_nth_nil {A} i : @take_nth A i [] = None.
  Proof. destruct i; reflexivity. Qed.
  Lemma stuck_spec net : stuck net = true -> flight net = [] /\ forall x, act rN net x = None.
  Proof.
    unfold stuck. intros H. apply andb_prop in H as [H1 H2]. destruct (flight net) eqn:Ef; [|discriminate]. split; auto.
    rewrite forallb_forall in H2.
    assert (Hg : forall v d, get v (nodes net) = Some (Running d) -> d_todo d = [] /\ all_sent d = true /\ can_finalize (d_a d) <> Yes).
    { intros v d Hg. apply in_to_list in Hg. apply H2 in Hg. cbn [snd idle] in Hg. apply andb_prop in Hg as [Hg G3]. apply andb_prop in Hg as [G1 G2].
      split; [destruct (d_todo d); [reflexivity|discriminate]|]. split; auto. intros E. rewrite E in G3. discriminate. }
    intros [v u|i|v i|v]; cbn [act].
    - destruct (get v (nodes net)) as [[d|rep]|] eqn:E; auto. destruct (Hg v d E) as (_ & G & _). unfold all_sent in G.
      destruct (mem u (message_destinations (d_s d))) eqn:Em; auto. rewrite forallb_forall in G. rewrite G; [reflexivity|]. now apply in_elements.
    - rewrite Ef, take_nth_nil. reflexivity.
    - destruct (get v (nodes net)) as [[d|rep]|] eqn:E; auto. destruct (Hg v d E) as (-> & _). rewrite take_nth_nil. reflexivity.
    - destruct (get v (nodes net)) as [[d|rep]|] eqn:E; auto. destruct (Hg v d E) as (_ & _ & G). destruct (can_finalize (d_a d)); auto. congruence.
  Qed.

  Definition runs (net : Net Pr) (v : toyV) : bool := match get v (nodes net) with Some (Running _) => true | _ => false end.
  Definition blames (net : Net Pr) (v u : toyV) : bool :=
    match get v (nodes net) with Some (Running d) => contains u (a_unprovable (d_a d)) | _ => false end.
  Lemma stuck_witness (start : res LocalError (Net Pr)) xs v :
    (is_ok start && is_some (play (started start) xs) && stuck (net_of (play (started start) xs)) && runs (net_of (play (started start) xs)) v)%bool = true ->
    exists net0 net d, start = Ok net0 /\ schedule rN net0 xs net /\ get v (nodes net) = Some (Running d) /\ flight net = [] /\ forall x, act rN net x = None.
  Proof.
    intros H. apply andb_prop in H as [H H4]. apply andb_prop in H as [H H3]. apply andb_prop in H as [H1 H2].
    unfold runs in H4. destruct (get v (nodes (net_of (play (started start) xs)))) as [[d|]|] eqn:E; try discriminate. apply stuck_spec in H3.
    eexists _, _, d. split; [exact (started_ok _ H1)|]. split; [exact (play_ok _ _ H2)|]. split; [exact E|exact H3].
  Qed.
  Lemma blames_witness (start : res LocalError (Net Pr)) xs v u :
    (is_ok start && is_some (play (started start) xs) && blames (net_of (play (started start) xs)) v u)%bool = true ->
    exists net0 net d, start = Ok net0 /\ schedule rN net0 xs net /\ get v (nodes net) = Some (Running d) /\ contains u (a_unprovable (d_a d)) = true.
  Proof.
    intros H. apply andb_prop in H as [H H3]. apply andb_prop in H as [H1 H2].
    unfold blames in H3. destruct (get v (nodes (net_of (play (started start) xs)))) as [[d|]|] eqn:E; try discriminate.
    eexists _, _, d. split; [exact (started_ok _ H1)|]. split; [exact (play_ok _ _ H2)|]. split; [exact E|exact H3].
  Qed.
End Stuck.

Notation toy_net c n := (@honest_net toyP (toyPr c) rN sid0 (group n) key (fun _ => toyEP c)).

(** Party 0 sends to 1 and 2 in both rounds; they compare what they have received in the first one. *)
Definition cfgP1 : Cfg := mkCfg 2 (fun n => N.eqb n 1) (fun n v =>
  match v with
  | 0%N => mkComm (vset [1; 2]%N) sempty EPSend
  | 1%N => mkComm sempty (vset [0]%N) (if N.eqb n 1 then EPReceive (vset [2]%N) else EPDefault)
  | _ => mkComm sempty (vset [0]%N) (if N.eqb n 1 then EPReceive (vset [1]%N) else EPDefault)
  end).
Definition script1 : list (action (P := toyP)) :=
  [@ASend toyP 0 1; @ASend toyP 0 2; @AFinalize toyP 0; @ASend toyP 0 1; @ASend toyP 0 2;
   ADeliver 0; ADeliver 0; ADeliver 0; ADeliver 0; @AFinalize toyP 0; @AProcess toyP 1 0; @AProcess toyP 2 0;
   @AFinalize toyP 1; @AFinalize toyP 2; @ASend toyP 1 2; @ASend toyP 2 1; ADeliver 0; ADeliver 0;
   @AProcess toyP 1 0; @AProcess toyP 2 0; @AFinalize toyP 1; @AFinalize toyP 2]%N.

(** Everybody to everybody, then the same. *)
Definition cfgP2 : Cfg := mkCfg 2 (fun n => N.eqb n 2) (fun n v =>
  if N.eqb n 1 then mkComm (srem v (group 3)) (srem v (group 3)) EPDefault else
  match v with
  | 0%N => mkComm (vset [1; 2]%N) sempty EPSend
  | 1%N => mkComm sempty (vset [0]%N) (EPReceive (vset [2]%N))
  | _ => mkComm sempty (vset [0]%N) (EPReceive (vset [1]%N))
  end).
Definition script2 : list (action (P := toyP)) :=
  [@ASend toyP 0 1; @ASend toyP 1 0; @ASend toyP 2 1; @ASend toyP 2 0; @ASend toyP 1 2; @ASend toyP 0 2;
   ADeliver 0; ADeliver 0; ADeliver 0; ADeliver 0; @AProcess toyP 0 0; @AProcess toyP 0 0; @AProcess toyP 1 0; @AProcess toyP 1 0;
   @AFinalize toyP 0; @AFinalize toyP 1; @ASend toyP 0 1; ADeliver 2; @AProcess toyP 1 0; @AFinalize toyP 1; @ASend toyP 1 2; ADeliver 2]%N.

(** Party 0 sends to party 1 in each of three rounds. *)
Definition cfgP3 : Cfg := mkCfg 3 (fun _ => false) (fun _ v =>
  match v with
  | 0%N => mkComm (vset [1]%N) sempty EPDefault
  | _ => mkComm sempty (vset [0]%N) EPDefault
  end).
Definition script3 : list (action (P := toyP)) :=
  [@ASend toyP 0 1; @AFinalize toyP 0; @ASend toyP 0 1; @AFinalize toyP 0; @ASend toyP 0 1; ADeliver 2]%N.

(** The setup of tests/partial_echo.rs:143-193. *)
Definition id_codec : Codec toyV := mkCodec (fun x : N => Some [x]) (fun b => match b with [x] => Some x | _ => None end).
Definition test_inputs (v : toyV) : Inputs (P := toyP) :=
  match v with
  | 0%N => @mkInputs toyP 0%N (vset [1; 2; 3]%N) sempty EPSend
  | 1%N => @mkInputs toyP 1%N (vset [2; 3]%N) (vset [0]%N) EPDefault
  | 2%N => @mkInputs toyP 2%N sempty (vset [0; 1]%N) (EPReceive (vset [1; 3]%N))
  | 3%N => @mkInputs toyP 3%N sempty (vset [0; 1]%N) (EPReceive (vset [1; 2]%N))
  | _ => @mkInputs toyP v sempty sempty EPDefault
  end.
Lemma id_codec_ok : codec_ok id_codec.
Proof. intros x. eexists. split; reflexivity. Qed.

Lemma group5 v : mem v (group 5) = true -> v = 0%N \/ v = 1%N \/ v = 2%N \/ v = 3%N \/ v = 4%N.
Proof. intros H. apply mem_set_of_list in H. cbn in H. intuition. Qed.
Lemma test_consistent : consistent (group 5) test_inputs.
Proof.
  assert (B : forall (f : toyV -> bool) (s : bset toyV), forallb f (elements s) = true -> forall u, mem u s = true -> f u = true)
    by (intros f s Hf u; exact (@forallb_mem f s u Hf)).
  constructor.
  - intros v Hv. destruct (group5 v Hv) as [->|[->|[->|[->| ->]]]]; reflexivity.
  - intros v u Hv Hu. destruct (group5 v Hv) as [->|[->|[->|[->| ->]]]];
      apply (@other_spec (group 5)); revert u Hu; apply B; vm_compute; reflexivity.
  - intros v u Hv Hu. destruct (group5 v Hv) as [->|[->|[->|[->| ->]]]]; revert u Hu; apply B; vm_compute; reflexivity.
  - intros v u Hv Hu. destruct (group5 v Hv) as [->|[->|[->|[->| ->]]]], (group5 u Hu) as [->|[->|[->|[->| ->]]]]; vm_compute; reflexivity.
  - intros v u Hv He Hu.
    assert (K : (other (group 5) v u && in_echo_round (test_inputs u) && mem v (echo_peers (test_inputs u)))%bool = true).
    { destruct (group5 v Hv) as [->|[->|[->|[->| ->]]]]; try discriminate He; revert u Hu; apply B; vm_compute; reflexivity. }
    apply andb_prop in K as [K K3]. apply andb_prop in K as [K1 K2]. apply other_spec in K1 as [K0 K1]. auto.
  - intros v u w Hv He Hu Hw. destruct (group5 v Hv) as [->|[->|[->|[->| ->]]]]; try discriminate He;
      apply mem_set_of_list in Hu; cbn in Hu; destruct Hu as [<-|[<-|[]]];
      cbn [test_inputs in_from in_part]; unfold vset; rewrite ?mem_set_of_list; cbn [In]; intuition (try discriminate; try congruence).
Qed.
Notation partial_net := (@honest_net toyP (wrap (@partial_echo toyP id_codec (fun _ => false))) rN sid0 (group 5) key
  (fun v => partial_entry id_codec (fun _ => false) (test_inputs v))).
(** The three who echo: 1, 2 and 3. *)
Definition echo_script : list (action (P := toyP)) :=
  [@ASend toyP 0 1; @ASend toyP 0 2; @ASend toyP 0 3; @ASend toyP 1 2; @ASend toyP 1 3; @AFinalize toyP 0; @AFinalize toyP 4;
   ADeliver 0; ADeliver 0; ADeliver 0; ADeliver 0; ADeliver 0; @AProcess toyP 1 0; @AProcess toyP 2 0; @AProcess toyP 2 0;
   @AProcess toyP 3 0; @AProcess toyP 3 0; @AFinalize toyP 1; @AFinalize toyP 2; @AFinalize toyP 3;
   @ASend toyP 1 2; @ASend toyP 1 3; @ASend toyP 2 1; @ASend toyP 2 3; @ASend toyP 3 1; @ASend toyP 3 2;
   ADeliver 0; ADeliver 0; ADeliver 0; ADeliver 0; ADeliver 0; ADeliver 0; @AProcess toyP 1 0; @AProcess toyP 1 0;
   @AProcess toyP 2 0; @AProcess toyP 2 0; @AProcess toyP 3 0; @AProcess toyP 3 0; @AFinalize toyP 1; @AFinalize toyP 2; @AFinalize toyP 3]%N.

(** ** Witnesses *)
Lemma early_message_lost : exists (P : Params) (Pr : Proto) r sid parties (ep : Verifier -> EntryPoint Pr) (h : Plan Pr) sk net0 xs net v d,
  signers parties sk /\ wire_total P /\ signatures_correct P /\ lock_step r sid parties ep h /\
  honest_net r sid parties sk ep = Ok net0 /\ schedule r net0 xs net /\
  get v (nodes net) = Some (Running d) /\ flight net = [] /\ forall x, act r net x = None.
Proof.
  destruct (@stuck_witness (toyPr cfgP1) (toy_net cfgP1 3) script1 1%N) as (net0 & net & d & H1 & H2 & H3 & H4 & H5); [vm_cast_no_check (eq_refl true)|].
  exists toyP, (toyPr cfgP1), rN, sid0, (group 3), (fun _ => toyEP cfgP1), (toy_plan cfgP1 1), key, net0, script1, net, (1%N : toyV), d.
  split; [exact (@toy_signers 3)|]. split; [exact toy_wire|]. split; [exact toy_signatures|].
  split; [apply toy_lock_step; [reflexivity|vm_compute; reflexivity|intros v; apply small_group; lia]|].
  split; [exact H1|]. split; [exact H2|]. split; [exact H3|]. split; [exact H4|exact H5].
Qed.
Lemma early_echo_rejected : exists (P : Params) (Pr : Proto) r sid parties (ep : Verifier -> EntryPoint Pr) (h : Plan Pr) sk net0 xs net v d u,
  signers parties sk /\ wire_total P /\ signatures_correct P /\ lock_step r sid parties ep h /\
  (forall n v, S n <= pl_last h -> mem v parties = true -> pl_dest h n v = srem v parties /\ pl_from h n v = srem v parties) /\
  honest_net r sid parties sk ep = Ok net0 /\ schedule r net0 xs net /\
  mem u parties = true /\ get v (nodes net) = Some (Running d) /\ contains u (a_unprovable (d_a d)) = true.
Proof.
  destruct (@blames_witness (toyPr cfgP2) (toy_net cfgP2 3) script2 2%N 1%N) as (net0 & net & d & H1 & H2 & H3 & H4); [vm_cast_no_check (eq_refl true)|].
  exists toyP, (toyPr cfgP2), rN, sid0, (group 3), (fun _ => toyEP cfgP2), (toy_plan cfgP2 1), key, net0, script2, net, (2%N : toyV), d, (1%N : toyV).
  split; [exact (@toy_signers 3)|]. split; [exact toy_wire|]. split; [exact toy_signatures|].
  split; [apply toy_lock_step; [reflexivity|vm_compute; reflexivity|intros v; apply small_group; lia]|].
  split; [intros n v Hn _; cbn [pl_last toy_plan] in Hn; assert (n = 0) as -> by lia; split; reflexivity|].
  split; [exact H1|]. split; [exact H2|]. split; [reflexivity|]. split; [exact H3|exact H4].
Qed.
Lemma two_rounds_ahead_rejected : exists (P : Params) (Pr : Proto) r sid parties (ep : Verifier -> EntryPoint Pr) (h : Plan Pr) sk net0 xs net v d u,
  signers parties sk /\ wire_total P /\ signatures_correct P /\ lock_step r sid parties ep h /\
  (forall n w, echoes h n w = false) /\
  honest_net r sid parties sk ep = Ok net0 /\ schedule r net0 xs net /\
  mem u parties = true /\ get v (nodes net) = Some (Running d) /\ contains u (a_unprovable (d_a d)) = true.
Proof.
  destruct (@blames_witness (toyPr cfgP3) (toy_net cfgP3 2) script3 1%N 0%N) as (net0 & net & d & H1 & H2 & H3 & H4); [vm_cast_no_check (eq_refl true)|].
  exists toyP, (toyPr cfgP3), rN, sid0, (group 2), (fun _ => toyEP cfgP3), (toy_plan cfgP3 2), key, net0, script3, net, (1%N : toyV), d, (0%N : toyV).
  split; [exact (@toy_signers 2)|]. split; [exact toy_wire|]. split; [exact toy_signatures|].
  split; [apply toy_lock_step; [reflexivity|vm_compute; reflexivity|intros v; apply small_group; lia]|].
  split.
  { intros n w. unfold echoes. cbn [pl_part pl_echo toy_plan c_comm cfgP3 c_echo]. destruct w as [|w]; cbn [ci_part]; unfold told; cbn [c_comm cfgP3 ci_dest];
      destruct (is_empty _); reflexivity. }
  split; [exact H1|]. split; [exact H2|]. split; [reflexivity|]. split; [exact H3|exact H4].
Qed.

(** Round 1 as in [cfgP1]; then 1 and 2 send to 0, which had no echo round; then 0 sends to them again. *)
Definition cfgP4 : Cfg := mkCfg 3 (fun n => N.eqb n 1) (fun n v =>
  if N.eqb n 2 then match v with 0%N => mkComm sempty (vset [1; 2]%N) EPDefault | _ => mkComm (vset [0]%N) sempty EPDefault end else
  match v with
  | 0%N => mkComm (vset [1; 2]%N) sempty EPSend
  | 1%N => mkComm sempty (vset [0]%N) (if N.eqb n 1 then EPReceive (vset [2]%N) else EPDefault)
  | _ => mkComm sempty (vset [0]%N) (if N.eqb n 1 then EPReceive (vset [1]%N) else EPDefault)
  end).
Section InStep.
  Context {Pr : Proto (P := toyP)}.
  Variable parties : bset toyV.
  Variable h : Plan Pr.
  Definition step_at (n : nat) (v : toyV) : bool :=
    ((negb (echoes h n v) || forallb (fun u => Nat.eqb n 0 || mem u (pl_from h n v)) (elements (partners h n v))) &&
     (Nat.eqb n (pl_last h) ||
      forallb (fun u => if echoes h n u then echoes h n v && mem u (partners h n v) else Nat.eqb n 0 || mem u (pl_from h n v))
        (elements (pl_dest h (S n) v))))%bool.
  Lemma steps_in_step : forallb (fun n => forallb (step_at n) (elements parties)) (seq 0 (S (pl_last h))) = true -> in_step parties h.
  Proof.
    intros H. assert (K : forall n v, n <= pl_last h -> mem v parties = true -> step_at n v = true).
    { intros n v Hn Hv. rewrite forallb_forall in H. assert (Hin : In n (seq 0 (S (pl_last h)))) by (apply in_seq; lia).
      specialize (H n Hin). exact (@forallb_mem _ _ _ H Hv). }
    apply heard_in_step. split.
    - intros n v u Hn Hv He Hu. specialize (K n v Hn Hv). apply andb_prop in K as [K _]. rewrite He in K. cbn [negb orb] in K.
      apply (@forallb_mem _ _ _ K) in Hu. apply orb_prop in Hu as [Hu|Hu]; auto. left. now apply Nat.eqb_eq.
    - intros n v u Hn Hv Hu. assert (Hn' : n <= pl_last h) by lia. specialize (K n v Hn' Hv). apply andb_prop in K as [_ K].
      replace (Nat.eqb n (pl_last h)) with false in K by (symmetry; apply Nat.eqb_neq; lia). cbn [orb] in K.
      apply (@forallb_mem _ _ _ K) in Hu. destruct (echoes h n u).
      + now apply andb_prop in Hu.
      + apply orb_prop in Hu as [Hu|Hu]; auto. left. now apply Nat.eqb_eq.
  Qed.
End InStep.
Lemma good_pattern : exists h : Plan (toyPr cfgP4),
  lock_step rN sid0 (group 3) (fun _ => toyEP cfgP4) h /\ in_step (group 3) h /\ pl_last h = 2 /\
  map (echoes h 0) [0; 1; 2]%N = [false; true; true].
Proof.
  exists (toy_plan cfgP4 2).
  split; [apply toy_lock_step; [reflexivity|vm_compute; reflexivity|intros v; apply small_group; lia]|].
  split; [apply steps_in_step; vm_compute; reflexivity|]. split; reflexivity.
Qed.
Lemma waits_cases :
  (exists h : Plan (toyPr cfgP4), lock_step rN sid0 (group 3) (fun _ => toyEP cfgP4) h /\ waits (group 3) h /\ pl_last h = 2) /\
  (exists h : Plan (toyPr cfgP3), lock_step rN sid0 (group 2) (fun _ => toyEP cfgP3) h /\ ~ waits (group 2) h /\ pl_last h = 2).
Proof.
  split.
  - destruct good_pattern as (h & L & S & E & _). exists h. split; [exact L|]. split; [exact (proj1 (in_step_waits L) S)|exact E].
  - exists (toy_plan cfgP3 2). split; [apply toy_lock_step; [reflexivity|vm_compute; reflexivity|intros v; apply small_group; lia]|]. split; [|reflexivity].
    intros [_ H]. specialize (H 1 0%N 1%N (le_n 2) eq_refl eq_refl). vm_compute in H. destruct H as [[H _]|[H|[H _]]]; discriminate.
Qed.
