(** Concrete runs of [par_run_session] whose outcome depends on the order in which tasks finish. *)
From Coq Require Import List NArith Bool.
From Verif Require Import Base BMap Errors RoundId Message Protocol Transcript Evidence Session Spec IntakeFacts Network SpecNet RunSync Driver
  SpecDriver Par SpecPar SpecParFailure RunFacts Exec Toy ToyNet ToyDriver ToyPar ToyStranger.
Import ListNotations.
Set Implicit Arguments.

(** Party 0 waits for the parties 1 and 2. Both messages, and one of party 5, have arrived; nothing is processed yet. *)
Definition race_before : list (paction (P := toyP)) :=
  twice (@ACreate toyP) 1 ++ [prx (collect 2) 1 0; prx (collect 2) 2 0; @AReceive toyP 5%N strange_message].
Definition race_lost : list (paction (P := toyP)) := [@AHandle toyP 2; @AHandle toyP 2; @ATakeProcessed toyP].
Definition race_won : list (paction (P := toyP)) :=
  [@AHandle toyP 0; @AHandle toyP 0; @ATakeProcessed toyP; @AHandle toyP 1; @AHandle toyP 1; @ATakeProcessed toyP; @AHandle toyP 2; @AHandle toyP 2] ++
  go 7 ++ [@ATakeOut toyP; @APut toyP true] ++ go 1.

Definition fails_here {c} (o : option (list (dlabel (toyPr c)) * Par (toyPr c))) : bool :=
  match o with Some (l, PStop (Err LE_NotExpected)) => match inbox l with [] => negb (existsb (fun l => match l with LCancel => true | _ => false end) l) | _ => false end | _ => false end.
Definition succeeds_here {c} (o : option (list (dlabel (toyPr c)) * Par (toyPr c))) : bool :=
  match o with
  | Some (l, PStop (Ok rep)) => match inbox l, rep_outcome rep with [], OResult _ => negb (existsb (fun l => match l with LCancel => true | _ => false end) l) | _, _ => false end
  | _ => false
  end.
Definition unexpected_here {c} (p : Par (toyPr c)) : bool :=
  match p with PRun x => negb (mem (5%N : @Verifier toyP) (ci_expect (s_comm (pp_s x)))) | _ => false end.

Lemma race_check : (is_some (tpar (collect 2) 0 race_before) && unexpected_here (tparty (collect 2) 0 race_before) &&
  fails_here (pplay rN (tparty (collect 2) 0 race_before) race_lost) &&
  succeeds_here (pplay rN (tparty (collect 2) 0 race_before) race_won))%bool = true.
Proof. toy. Qed.

Lemma not_cancelled {P : Params} {Pr : Proto} (l : list (dlabel Pr)) :
  negb (existsb (fun l => match l with LCancel => true | _ => false end) l) = true -> ~ In LCancel l.
Proof.
  intros H Hin. apply negb_true_iff in H. rewrite <- not_true_iff_false in H. apply H. apply existsb_exists. exists LCancel. auto.
Qed.

Lemma race_witness : exists (P : Params) (Pr : Proto) r (s0 : Session Pr) ls x l1 e l2 rep y,
  initial s0 /\ par_session r s0 ls (PRun x) /\
  par_run r (PRun x) l1 (PStop (Err e)) /\ inbox l1 = [] /\ ~ In LCancel l1 /\
  par_run r (PRun x) l2 (PStop (Ok rep)) /\ inbox l2 = [] /\ ~ In LCancel l2 /\ rep_outcome rep = OResult y.
Proof.
  pose proof race_check as C. apply andb_prop in C as [C C4]. apply andb_prop in C as [C C3]. apply andb_prop in C as [C1 C2].
  pose proof (tpar_run _ _ _ C1) as R. revert R C2 C3 C4. clear C1.
  generalize (plabels (collect 2) 0 race_before) (tparty (collect 2) 0 race_before). intros ls p R C2 C3 C4.
  destruct p as [x|]; [|discriminate C2].
  destruct (pplay rN (PRun x) race_lost) as [[l1 p1]|] eqn:E1; [|discriminate C3]. apply pplay_run in E1.
  destruct (pplay rN (PRun x) race_won) as [[l2 p2]|] eqn:E2; [|discriminate C4]. apply pplay_run in E2.
  destruct p1 as [|[|e|]]; try discriminate C3. destruct p2 as [|[rep|e'|]]; try discriminate C4.
  cbn [fails_here succeeds_here] in C3, C4. destruct e; try discriminate C3. destruct (inbox l1) eqn:I1; try discriminate C3. destruct (inbox l2) eqn:I2; try discriminate C4.
  destruct (rep_outcome rep) as [y| |] eqn:Eo; try discriminate C4.
  exists toyP, (toyPr (collect 2)), rN, (tsession (collect 2) 0), ls, x, l1, LE_NotExpected, l2, rep, y.
  split; [apply toy_initial|]. split; [exact R|]. split; [exact E1|]. split; [exact I1|]. split; [now apply not_cancelled|].
  split; [exact E2|]. split; [exact I2|]. split; [now apply not_cancelled|]. exact Eo.
Qed.

(** ** Different results *)
(** Party 1 signs two messages for round 2, and the one party 0 receives first is cached too early: it is lost in the echo
    round. If party 0 is faster, the other one is late. *)
Definition early : paction (P := toyP) := @AReceive toyP 1%N (tforge 1 sid0 (rid_new 2) (Some [5]%N) None None).
Definition late : paction (P := toyP) := @AReceive toyP 1%N (tforge 1 sid0 (rid_new 2) (Some [6]%N) None None).
Definition echo2 : paction (P := toyP) := @AReceive toyP 2%N (tmsg (d_s (tfinal cfgS 2 [pre cfgS 1 2; CProc 0; CFin])) 0).
Definition from2 : paction (P := toyP) := @AReceive toyP 2%N (tforge 2 sid0 (rid_new 2) (Some [7]%N) None None).
Definition in_echo : list (paction (P := toyP)) :=
  [@ACreate toyP 0; @ACreate toyP 0; @ATakeOut toyP; @APut toyP true; echo2; @AHandle toyP 0; @AHandle toyP 0; @ATakeProcessed toyP] ++ go 6.
Definition in_last : list (paction (P := toyP)) :=
  twice (@ACreate toyP) 2 ++ [@ATakeOut toyP; @APut toyP true; @ATakeOut toyP; @APut toyP true; from2; late] ++ twice (@AHandle toyP) 2 ++
  [@ATakeProcessed toyP; @ATakeProcessed toyP].
Definition slow : list (paction (P := toyP)) :=
  [prx cfgS 1 0; early; @AHandle toyP 0; @AHandle toyP 0; @ATakeProcessed toyP] ++ go 5 ++ in_echo ++ in_last ++ go 8.
Definition fast : list (paction (P := toyP)) :=
  [prx cfgS 1 0; @AHandle toyP 0; @AHandle toyP 0; @ATakeProcessed toyP] ++ go 5 ++ [early] ++ in_echo ++ in_last ++ [@AHandle toyP 2; @AHandle toyP 2] ++ go 9.
Definition result_is {c} (p : Par (toyPr c)) (n : N) : bool :=
  match p with PStop (Ok rep) => match rep_outcome rep with OResult x => N.eqb x n | _ => false end | _ => false end.
Definition calm {c} (l : list (dlabel (toyPr c))) : bool := negb (existsb (fun l => match l with LCancel => true | _ => false end) l).

Lemma results_check : (is_some (tpar cfgS 0 slow) && is_some (tpar cfgS 0 fast) && result_is (tparty cfgS 0 slow) 24 && result_is (tparty cfgS 0 fast) 23 &&
  calm (plabels cfgS 0 slow) && calm (plabels cfgS 0 fast))%bool = true.
Proof. toy. Qed.
Lemma same_inbox : inbox (plabels cfgS 0 slow) = inbox (plabels cfgS 0 fast).
Proof. vm_compute. reflexivity. Qed.

Lemma results_witness : exists (P : Params) (Pr : Proto) r (s0 : Session Pr) ls rep x ls' rep' x',
  initial s0 /\ par_session r s0 ls (PStop (Ok rep)) /\ par_session r s0 ls' (PStop (Ok rep')) /\
  inbox ls = inbox ls' /\ ~ In LCancel ls /\ ~ In LCancel ls' /\
  rep_outcome rep = OResult x /\ rep_outcome rep' = OResult x' /\ x <> x'.
Proof.
  pose proof results_check as C. apply andb_prop in C as [C C6]. apply andb_prop in C as [C C5]. apply andb_prop in C as [C C4].
  apply andb_prop in C as [C C3]. apply andb_prop in C as [C1 C2].
  pose proof (tpar_run _ _ _ C1) as R. pose proof (tpar_run _ _ _ C2) as R'. pose proof same_inbox as I. clear C1 C2.
  revert R R' I C3 C4 C5 C6. generalize (plabels cfgS 0 slow) (tparty cfgS 0 slow) (plabels cfgS 0 fast) (tparty cfgS 0 fast).
  intros ls p ls' p' R R' I C3 C4 C5 C6.
  destruct p as [|[rep| |]]; try discriminate C3. cbn [result_is] in C3. destruct (rep_outcome rep) as [x| |] eqn:Eo; try discriminate C3. apply N.eqb_eq in C3.
  destruct p' as [|[rep'| |]]; try discriminate C4. cbn [result_is] in C4. destruct (rep_outcome rep') as [x'| |] eqn:Eo'; try discriminate C4. apply N.eqb_eq in C4.
  exists toyP, (toyPr cfgS), rN, (tsession cfgS 0), ls, rep, x, ls', rep', x'.
  split; [apply toy_initial|]. split; [exact R|]. split; [exact R'|]. split; [exact I|]. split; [now apply not_cancelled|]. split; [now apply not_cancelled|].
  split; [exact Eo|]. split; [exact Eo'|]. subst x x'. discriminate.
Qed.
