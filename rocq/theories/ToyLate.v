(** A concrete run of [run_session] that is blocked by a message delivered again in the next round. *)
From Coq Require Import List NArith Bool Lia.
From Verif Require Import Base BMap Errors RoundId Message Protocol Transcript Evidence Session Spec SpecCrypto MessageFacts SignFacts SessionFacts RunFacts IntakeFacts IdFacts
  Network SpecNet RunSync Driver SpecDriver SpecForge ForgeFacts SpecAgain AgainFacts SpecLate LateFacts Exec Toy ToyCrypto ToyNet ToyDriver ToyAgain.
Import ListNotations.
Set Implicit Arguments.

(** Three parties, two rounds, echo broadcast in round 2. *)
Definition cfg3e : Cfg := mkCfg 2 (fun n => N.eqb n 2) (fun _ me => @mkComm toyP (others3 me) (others3 me) (@EPDefault toyP)).

(** Configurations are linear. *)
Lemma toy_linear_state c (st : ToySt) : (c_last c <= u8_max)%N -> (1 <= ts_round st)%N -> (ts_round st <= c_last c)%N -> linear_state (Pr := toyPr c) (c_last c) st.
Proof.
  intros Hn H1 H2. split; [exact Hn|]. exists (ts_round st). split; [exact H1|]. split; [exact H2|]. unfold linear_round, new_linear. cbn [toyPr tinfo]. unfold toy_tinfo.
  destruct (N.ltb_spec (ts_round st) (c_last c)); [|reflexivity]. destruct (N.leb_spec u8_max (ts_round st)); [lia|reflexivity].
Qed.
Lemma toy_here c (s : Session (toyPr c)) : (N.leb (c_last c) u8_max && N.leb 1 (ts_round (main_state (s_round s))) && N.leb (ts_round (main_state (s_round s))) (c_last c))%bool = true ->
  linear_here (c_last c) s.
Proof. rewrite !andb_true_iff, !N.leb_le. intros ((A & B) & C). apply toy_linear_state; auto. Qed.
Lemma toy_linear_closed c : linear_closed (toyPr c) (c_last c).
Proof.
  intros st g ps arts st' (Hn & k & K1 & K2 & E) F.
  assert (Ek : ts_round st = k).
  { destruct (linear_rounds K1 K2 Hn) as (t & Et & H1 & _). rewrite E in Et. injection Et as <-. cbn [toyPr tinfo] in H1. unfold toy_tinfo in H1.
    destruct (N.ltb (ts_round st) (c_last c)); cbn [ti_id] in H1; injection H1; auto. }
  cbn [toyPr finalize] in F. destruct (N.ltb_spec (ts_round st) (c_last c)); [|discriminate]. injection F as <-. apply toy_linear_state; cbn [ts_round]; lia.
Qed.

(** A message made by party [me] is authentic. *)
Lemma forge_authentic (me : N) rid d e n : message_authentic (me : @Verifier toyP) sid0 rid (tforge me sid0 rid d e n).
Proof.
  assert (H : forall k b, exists p, sign_part (P := toyP) k g0 (me : @Signer toyP) sid0 rid b = Ok p /\ sp_meta p = mkMeta sid0 rid /\ part_signed (me : @Verifier toyP) p).
  { intros k b. destruct (sign_part (P := toyP) k g0 (me : @Signer toyP) sid0 rid b) as [p|x|] eqn:E.
    - exists p. split; auto. split; [apply (sign_part_ok _ _ _ _ _ E)|]. exact (@sign_part_signed _ _ _ _ _ _ _ _ toy_signatures E).
    - exfalso. unfold sign_part, part_digest, message_digest in E. simpl in E. discriminate.
    - now apply sign_part_no_panic in E. }
  unfold tforge. destruct (H KDirect d) as (p1 & E1 & M1 & S1). destruct (H KEcho e) as (p2 & E2 & M2 & S2). destruct (H KNormal n) as (p3 & E3 & M3 & S3).
  rewrite E1, E2, E3. cbn [ok_def]. repeat split; auto.
Qed.

(** The conditions as boolean functions. *)
Definition activeb {P : Params} {Pr : Proto} (s : Session Pr) (rid : RoundId) : bool :=
  mem rid (ti_siblings (s_tinfo s)) || mem rid (ti_children (s_tinfo s)) ||
  match s_echo_info s with Some _ => eqb rid (mkRid (rid_round (s_round_id s)) (rid_groups (s_round_id s)) true) | None => mem rid (ti_parents (s_tinfo s)) end.
Lemma active_yes {P : Params} {Pr : Proto} (s : Session Pr) rid : activeb s rid = true -> may_be_active s rid.
Proof.
  unfold activeb, may_be_active. rewrite !orb_true_iff. destruct (s_echo_info s); [|tauto].
  destruct (eqb_spec rid (mkRid (rid_round (s_round_id s)) (rid_groups (s_round_id s)) true)); intuition discriminate.
Qed.
Lemma active_no {P : Params} {Pr : Proto} (s : Session Pr) rid : activeb s rid = false -> ~ may_be_active s rid.
Proof.
  unfold activeb, may_be_active. rewrite !orb_false_iff. intros ((A & B) & C). rewrite A, B. destruct (s_echo_info s); [|intuition congruence].
  destruct (eqb_spec rid (mkRid (rid_round (s_round_id s)) (rid_groups (s_round_id s)) true)); intuition discriminate.
Qed.
Definition forgivenb {P : Params} {Pr : Proto} (s : Session Pr) (rid : RoundId) : bool :=
  if rid_echo (s_round_id s) then eqb rid (mkRid (rid_round (s_round_id s)) [] false)
  else match s_echo_info s with None => true | Some _ => false end && N.ltb 1 (rid_round (s_round_id s)) && eqb rid (rid_new (rid_round (s_round_id s) - 1)).
Lemma forgiven_iff {P : Params} {Pr : Proto} (s : Session Pr) rid : forgiven s rid <-> forgivenb s rid = true.
Proof.
  unfold forgiven, forgivenb. destruct (rid_echo (s_round_id s)).
  - destruct (eqb_spec rid (mkRid (rid_round (s_round_id s)) [] false)); intuition discriminate.
  - rewrite !andb_true_iff, N.ltb_lt. destruct (eqb_spec rid (rid_new (rid_round (s_round_id s) - 1))), (s_echo_info s); intuition discriminate.
Qed.
Lemma forgiven_yes {P : Params} {Pr : Proto} (s : Session Pr) rid : forgivenb s rid = true -> forgiven s rid.
Proof. apply forgiven_iff. Qed.
Lemma forgiven_no {P : Params} {Pr : Proto} (s : Session Pr) rid : forgivenb s rid = false -> ~ forgiven s rid.
Proof. rewrite forgiven_iff. congruence. Qed.
Definition beforeb (r1 r2 : RoundId) : bool := match rid_groups r1, rid_groups r2 with
  | [], [] => N.ltb (rid_round r1) (rid_round r2) || N.eqb (rid_round r1) (rid_round r2) && negb (rid_echo r1) && rid_echo r2 | _, _ => false end.
Lemma before_yes r1 r2 : beforeb r1 r2 = true -> before r1 r2.
Proof.
  unfold beforeb, before. destruct (rid_groups r1), (rid_groups r2); try discriminate. rewrite orb_true_iff, !andb_true_iff, N.ltb_lt, N.eqb_eq, negb_true_iff. tauto.
Qed.
Lemma keeps_yes {P : Params} {Pr : Proto} (a : Accum Pr) v rid : message_is_cached a v rid = true -> keeps a v rid.
Proof. apply keeps_cached. Qed.
Lemma keeps_no {P : Params} {Pr : Proto} (a : Accum Pr) v rid : message_is_cached a v rid = false -> ~ keeps a v rid.
Proof. rewrite keeps_cached. congruence. Qed.

(** Party 0 in round 2. *)
Definition in_two : list (input (P := toyP)) := [@IGo toyP; @IGo toyP; rx cfg3e 1 0; rx cfg3e 2 0; @IGo toyP; @IGo toyP; @IGo toyP].
Definition of_one : Message (P := toyP) := tmsg (tsession cfg3e 1) 0.

Lemma one_authentic : message_authentic (1%N : @Verifier toyP) sid0 (rid_new 1) of_one.
Proof.
  assert (C : match make_message (tsession cfg3e 1) g0 (0%N : @Verifier toyP) with Ok _ => true | _ => false end = true) by toy.
  unfold of_one, tmsg. destruct (make_message (tsession cfg3e 1) g0 (0%N : @Verifier toyP)) as [[m art]| |] eqn:E; try discriminate C. cbn [bind ok_def].
  destruct (@same_broadcasts toyP (toyPr cfg3e) (start (tsession cfg3e 1)) _ _ _ _ _ _ _ _ (ex_intro _ _ (ex_intro _ [] (conj (toy_initial cfg3e 1) (run_nil _)))) toy_signatures E E) as (_ & _ & A).
  assert (E1 : s_verifier (tsession cfg3e 1) = (1%N : @Verifier toyP)) by toy. assert (E2 : s_id (tsession cfg3e 1) = sid0) by toy.
  assert (E3 : s_round_id (tsession cfg3e 1) = rid_new 1) by toy.
  cbn [d_s start] in A. rewrite <- E2, <- E3, <- E1. exact A.
Qed.

Lemma late_blocks_toy : exists (P : Params) (Pr : Proto) n r (s0 s1 : Session Pr) l1 from m l2 s a a' g art,
  plain_ids Pr /\ (forall mt, ser_meta mt <> None) /\ linear_closed Pr n /\ linear_here n s0 /\ initial s0 /\ initial s1 /\ s_id s1 = s_id s0 /\
  s_verifier s1 = from /\ make_message s1 g (s_verifier s0) = Ok (m, art) /\
  run_session r s0 (l1 ++ LIn from m :: l2) (DrvWait s a) /\ rid_round (s_round_id s) = (rid_round (s_round_id s1) + 1)%N /\
  ~ banned s a from /\
  drv_step r (DrvWait s a) (IRecv from m) = Some ([LIn from m], DrvWait s a') /\ blocked r (DrvWait s a').
Proof.
  assert (R : run_session rN (tsession cfg3e 0) (tlabels cfg3e 0 in_two) (tdriver cfg3e 0 in_two)) by (apply tdrive_run; vm_compute; reflexivity).
  assert (C0 : exists l1 l2, tlabels cfg3e 0 in_two = l1 ++ LIn (1%N : @Verifier toyP) of_one :: l2).
  { apply in_split, received_in.
    assert (E : received (tlabels cfg3e 0 in_two) = [(1%N : @Verifier toyP, of_one); (2%N : @Verifier toyP, tmsg (tsession cfg3e 2) 0)]) by (vm_compute; reflexivity).
    rewrite E. now left. }
  assert (C1 : match tdriver cfg3e 0 in_two with DrvWait s a => match can_finalize a with NotYet => true | _ => false end &&
      bytes_eqb (s_id s) sid0 && eqb (s_round_id s) (rid_new 2) && match s_echo_info s with Some _ => true | None => false end &&
      negb (mem (rid_new 1) (ti_siblings (s_tinfo s)) || mem (rid_new 1) (ti_children (s_tinfo s))) && mem (1%N : @Verifier toyP) (a_waiting a) &&
      negb (tr_is_banned (s_tr s) (1%N : @Verifier toyP) || a_is_banned a (1%N : @Verifier toyP))
      | _ => false end = true) by (vm_compute; reflexivity).
  assert (C2 : match make_message (tsession cfg3e 1) g0 (0%N : @Verifier toyP) with Ok _ => true | _ => false end = true) by toy.
  assert (C3 : s_round_id (tsession cfg3e 1) = rid_new 1) by toy.
  assert (C4 : exists art, make_message (tsession cfg3e 1) g0 (0%N : @Verifier toyP) = Ok (of_one, art)) by (apply tmsg_made; toy).
  assert (C5 : s_id (tsession cfg3e 1) = s_id (tsession cfg3e 0)) by toy.
  assert (C6 : s_verifier (tsession cfg3e 1) = (1%N : @Verifier toyP)) by toy. assert (C7 : s_verifier (tsession cfg3e 0) = (0%N : @Verifier toyP)) by toy.
  assert (C8 : linear_here 2 (tsession cfg3e 0)).
  { unfold linear_here. apply (@toy_linear_state cfg3e); [discriminate| |]; vm_compute; discriminate. }
  destruct C0 as (l1 & l2 & El). destruct C4 as [art Em]. pose proof one_authentic as Au. revert R C1 El Em Au.
  generalize (tlabels cfg3e 0 in_two) (tdriver cfg3e 0 in_two) of_one. intros ls d m R C1 -> Em Au.
  destruct d as [| |s a|]; try discriminate C1. repeat (apply andb_prop in C1 as [C1 ?]).
  rename H into Nb, H0 into W, H1 into Mem, H2 into Ei, H3 into Er, H4 into Es.
  destruct (can_finalize a) eqn:Y; try discriminate C1. apply bytes_eqb_spec in Es. destruct (eqb_spec (s_round_id s) (rid_new 2)) as [Er'|]; [|discriminate].
  apply negb_true_iff, orb_false_iff in Mem as [M1 M2].
  destruct (@session_outdated toyP (toyPr cfg3e) rN (tsession cfg3e 0) _ s a (1%N : @Verifier toyP) m (rid_new 1) (@toy_plain cfg3e) ltac:(discriminate) (toy_initial cfg3e 0) R Y) as (a' & St & Bn & Bl).
  { rewrite Es. exact Au. } { rewrite Er'. discriminate. }
  { unfold may_be_active. rewrite M1, M2. destruct (s_echo_info s); [|discriminate]. intros [X|[X|X]]; discriminate. }
  exists toyP, (toyPr cfg3e), 2%N, rN, (tsession cfg3e 0), (tsession cfg3e 1), l1, (1%N : @Verifier toyP), m, l2, s, a, a', g0, art.
  split; [apply toy_plain|]. split; [discriminate|]. split; [exact (@toy_linear_closed cfg3e)|]. split; [exact C8|]. split; [apply toy_initial|]. split; [apply toy_initial|].
  split; [exact C5|]. split; [exact C6|]. split; [rewrite C7; exact Em|]. split; [exact R|]. split; [rewrite Er', C3; reflexivity|].
  split; [apply banned_false; apply negb_true_iff in Nb; exact Nb|]. split; [exact St|].
  apply (Bl [] s a'); [constructor|].
  assert (Ew : a_waiting a' = a_waiting a).
  { cbn [drv_step] in St. rewrite Y in St. cbn [acc_call] in St. unfold acc_call in St.
    destruct (preprocess_message s a (1%N : @Verifier toyP) m) as [a1 o] eqn:Ep. pose proof (preprocess_cases _ _ _ _ Ep) as PC.
    assert (E1 : a_waiting a1 = a_waiting a) by (inversion PC; reflexivity).
    destruct o as [o| |]; cbn in St; [|discriminate St|discriminate St].
    inversion PC as [Hb|e0 Hb Hl|e0 Hb|Hb Hau Hpr|rid0 Hb Hau Hne0 Hw Hmc]; subst; cbn in St; try (injection St as <-; reflexivity).
    exfalso. destruct Hau as (_ & _ & _ & X & _), Au as (_ & _ & _ & X' & _). rewrite X in X'. injection X' as _ X'. rewrite Er' in X'. discriminate. }
  rewrite Ew. exact W.
Qed.
