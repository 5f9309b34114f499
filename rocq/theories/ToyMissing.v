(** A driver of Toy.v that reports a message missing which it has received and processed. Used only by [Example]s and witnesses. *)
From Coq Require Import List NArith Bool.
From Verif Require Import Base BMap Errors RoundId Message Protocol Transcript Evidence Session Spec SpecCrypto
  SignFacts IntakeFacts Network SpecNet SpecTimeout RunSync Driver SpecDriver Par SpecPar SpecMissing Toy ToyCrypto ToyNet ToyDriver ToyPar.
Import ListNotations.
Set Implicit Arguments.

(** The message of party 1 arrives and is processed; before the driver takes the result from its channel, it is cancelled. *)
Definition from1 : Message (P := toyP) := tmsg (tsession cfg3n 1) 0.
Definition read : list (paction (P := toyP)) :=
  twice (@ACreate toyP) 2 ++ [@AReceive toyP 1%N from1; @AHandle toyP 0; @AHandle toyP 0].
Definition unread : list (paction (P := toyP)) := read ++ forgotten.

Definition ready {c} (p : Par (toyPr c)) : bool :=
  match p with
  | PRun x => match pp_proc x with
              | [pm] => (N.eqb (vm_from (pm_msg pm) : N) 1 && match pm_res pm with Ok _ => true | _ => false end)%bool
              | _ => false
              end
  | _ => false
  end.
Definition said_missing {c} (v : N) (p : Par (toyPr c)) : bool :=
  match p with
  | PStop (Ok rep) => (clean p && match get (rid_new 1) (rep_missing rep) with Some vs => mem (v : @Verifier toyP) vs | None => false end)%bool
  | _ => false
  end.
Definition no_enter {c} (l : list (dlabel (toyPr c))) : bool := forallb (fun y => match y with LEnter _ => false | _ => true end) l.
Definition has_in {c} (l : list (dlabel (toyPr c))) : list (@Verifier toyP * Message (P := toyP)) :=
  flat_map (fun y => match y with LIn u m => [(u, m)] | _ => [] end) l.

Lemma unread_check : (is_some (tpar cfg3n 0 read) && ready (tparty cfg3n 0 read) &&
  match pplay rN (tparty cfg3n 0 read) forgotten with Some (ls, p) => said_missing 1 p && no_enter ls | None => false end &&
  match tpar cfg3n 0 read with Some (ls, _) => no_enter ls | _ => false end)%bool = true.
Proof. toy. Qed.
Lemma unread_in : match tpar cfg3n 0 read with Some (ls, _) => has_in ls | None => [] end = [(1%N : @Verifier toyP, from1)].
Proof. toy. Qed.
Lemma from1_made : match make_message (tsession cfg3n 1) g0 (0%N : @Verifier toyP) with Ok _ => true | _ => false end = true.
Proof. toy. Qed.
Lemma from1_authentic : message_authentic (1%N : @Verifier toyP) (s_id (tsession cfg3n 0)) (s_round_id (tsession cfg3n 0)) from1.
Proof.
  pose proof from1_made as C. unfold from1, tmsg. destruct (make_message (tsession cfg3n 1) g0 (0%N : @Verifier toyP)) as [[m art]| |] eqn:E; try discriminate C. cbn [bind ok_def].
  destruct (@same_broadcasts toyP (toyPr cfg3n) (start (tsession cfg3n 1)) _ _ _ _ _ _ _ _ (ex_intro _ _ (ex_intro _ [] (conj (toy_initial cfg3n 1) (run_nil _)))) toy_signatures E E) as (_ & _ & A).
  assert (E1 : s_verifier (tsession cfg3n 1) = (1%N : @Verifier toyP)) by toy. assert (E2 : s_id (tsession cfg3n 1) = s_id (tsession cfg3n 0)) by toy.
  assert (E3 : s_round_id (tsession cfg3n 1) = s_round_id (tsession cfg3n 0)) by toy.
  cbn [d_s start] in A. rewrite <- E2, <- E3, <- E1. exact A.
Qed.
Lemma no_enter_in {c} (l : list (dlabel (toyPr c))) : no_enter l = true -> forall s, ~ In (LEnter s) l.
Proof. unfold no_enter. rewrite forallb_forall. intros H s K. discriminate (H _ K). Qed.

Lemma unread_witness : exists (P : Params) (Pr : Proto) r (s0 : Session Pr) l1 x pm p l2 rep u m,
  initial s0 /\ par_session r s0 (LEnter s0 :: l1) (PRun x) /\ par_run r (PRun x) l2 (PStop (Ok rep)) /\ last_round (LEnter s0 :: l1 ++ l2) s0 (l1 ++ l2) /\
  expected s0 u /\ In (LIn u m) (l1 ++ l2) /\ message_authentic u (s_id s0) (s_round_id s0) m /\
  In pm (pp_proc x) /\ vm_from (pm_msg pm) = u /\ pm_res pm = Ok p /\
  ~ blamed_in rep u /\ reported_missing rep (s_round_id s0) u.
Proof.
  pose proof unread_check as C. apply andb_prop in C as [C C4]. apply andb_prop in C as [C C3]. apply andb_prop in C as [C1 C2].
  pose proof (tpar_run _ _ _ C1) as R. pose proof unread_in as U. unfold plabels in R.
  revert R C2 C3 C4 U. generalize (tparty cfg3n 0 read). intros y R C2 C3 C4 U.
  destruct (tpar cfg3n 0 read) as [[ls y']|]; [|discriminate C1].
  destruct (pplay rN y forgotten) as [[l2 p2]|] eqn:E; [|discriminate C3]. apply pplay_run in E. revert E C3. generalize forgotten. intros _ E C3.
  apply andb_prop in C3 as [C3 C6].
  destruct y as [x|o]; [|discriminate C2]. cbn [ready] in C2.
  destruct (pp_proc x) as [|pm [|]] eqn:Ep; try discriminate C2. apply andb_prop in C2 as [C2 C5]. apply N.eqb_eq in C2.
  destruct p2 as [|[rep| |]]; try discriminate C3. cbn [said_missing clean] in C3. apply andb_prop in C3 as [C3 C7]. apply andb_prop in C3 as [C3 C8].
  destruct (pm_res pm) as [p|e|] eqn:Er; try discriminate C5.
  assert (X : expected (tsession cfg3n 0) (1%N : @Verifier toyP)) by toy. assert (E1 : s_round_id (tsession cfg3n 0) = rid_new 1) by toy.
  pose proof from1_authentic as A. revert R A X E1. generalize (toy_initial cfg3n 0). generalize (tsession cfg3n 0). intros s0 Hi R A X E1.
  exists toyP, (toyPr cfg3n), rN, s0, ls, x, pm, p, l2, rep, (1%N : @Verifier toyP), from1.
  split; [exact Hi|]. split; [exact R|]. split; [exact E|]. split; [split; [now exists []|]|].
  { intros s K. apply in_app_iff in K as [K|K]; [exact (no_enter_in _ C4 _ K)|exact (no_enter_in _ C6 _ K)]. }
  split; [exact X|]. split; [|split; [exact A|]].
  { apply in_app_iff. left. assert (K : In (1%N : @Verifier toyP, from1) (has_in ls)) by (rewrite U; now left).
    unfold has_in in K. apply in_flat_map in K as (z & K1 & K2). destruct z; try contradiction. destruct K2 as [K2|[]].
    assert (F : LIn (Pr := toyPr cfg3n) from m = LIn (Pr := toyPr cfg3n) (1%N : @Verifier toyP) from1) by (apply (f_equal (fun q => LIn (Pr := toyPr cfg3n) (fst q) (snd q))) in K2; exact K2).
    rewrite <- F. exact K1. }
  split; [rewrite Ep; now left|]. split; [exact C2|]. split; [exact Er|]. split.
  - intros [K|K]; apply contains_get in K as [z K]; [apply is_empty_get with (k := (1%N : @Verifier toyP)) in C3|apply is_empty_get with (k := (1%N : @Verifier toyP)) in C8]; congruence.
  - unfold reported_missing. rewrite E1. destruct (get (rid_new 1) (rep_missing rep)) as [vs|]; [|discriminate C7]. eauto.
Qed.
