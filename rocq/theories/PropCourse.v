(** Property C114: the course of a session depends on nothing but the messages processed. *)
From Coq Require Import List NArith Bool.
From Verif Require Import Base BMap Errors RoundId Message Protocol Transcript Evidence Session Spec SpecCourse Exec CourseFacts Toy.
Import ListNotations.
Set Implicit Arguments.

(** C114. If in two histories of a session, round by round, the same messages were processed and the same artifacts made, and
    the rounds were finalized with the same random choices, then - whatever else was received, and in whatever order - the
    sessions are the same but for the errors noted, they send the same messages, and the rounds have the same outcomes. *)
Theorem C114_course : forall (P : Params) (Pr : Proto) (s : Session Pr) es es' d d',
  same_course es es' -> run (start s) es d -> run (start s) es' d' ->
  alike (d_s d) (d_s d') /\ a_payloads (d_a d') = a_payloads (d_a d) /\ a_artifacts (d_a d') = a_artifacts (d_a d) /\
  (forall g dest, make_message (d_s d') g dest = make_message (d_s d) g dest) /\
  (forall g ro ro', finalize_round (d_s d) g (d_a d) = Ok ro -> finalize_round (d_s d') g (d_a d') = Ok ro' -> alike_outcomes ro ro').
Proof. exact @same_courses. Qed.
Print Assumptions C114_course.

(** In the second history the messages are received and processed in the other order, and there is a message of a stranger. *)
Definition c114_a : list (cmd (P := toyP)) := [pre cfg3 1 0; pre cfg3 2 0; CProc 0; CProc 0].
Definition c114_b : list (cmd (P := toyP)) :=
  [@CPre toyP 5%N (tforge 5 [8]%N (rid_new 1) None None None); pre cfg3 2 0; pre cfg3 1 0; CProc 0; CProc 0].
Definition procs {c} (es : list (event (toyPr c))) : list (VMessage (P := toyP)) :=
  flat_map (fun e => match e with EProc vm => [vm] | _ => [] end) es.
Definition arts {c} (es : list (event (toyPr c))) : bool := existsb (fun e => match e with EArt _ _ _ => true | _ => false end) es.
Example C114_case :
  let es := ttrace cfg3 0 c114_a ++ [EFin g0] in let es' := ttrace cfg3 0 c114_b ++ [EFin g0] in
  let d := tthen (tfinal cfg3 0 c114_a) [CFin] in let d' := tthen (tfinal cfg3 0 c114_b) [CFin] in
  same_course es es' /\ run (start (tsession cfg3 0)) es d /\ run (start (tsession cfg3 0)) es' d' /\
  s_round_id (d_s d) = mkRid 1 [] true /\ tr_is_banned (s_tr (d_s d)) (5%N : @Verifier toyP) = false /\
  tr_is_banned (s_tr (d_s d')) (5%N : @Verifier toyP) = true.
Proof.
  assert (Pm : forall c (es : list (event (toyPr c))) vm, In (EProc vm) es <-> In vm (procs es)).
  { intros c es vm. unfold procs. rewrite in_flat_map. split.
    - intros H. exists (EProc vm). simpl. auto.
    - intros ([?|x|?|?] & H & H2); simpl in H2; try contradiction. destruct H2 as [<-|[]]. auto. }
  assert (Pa : forall c (es : list (event (toyPr c))) g v x, arts es = false -> ~ In (EArt g v x) es).
  { intros c es g v x H Hin. enough (arts es = true) by congruence. apply existsb_exists. eauto. }
  split.
  { apply Course_round; [toy|toy| |apply Course_now; [reflexivity|reflexivity|split; intros; reflexivity]]. split.
    - intros vm. rewrite !Pm. replace (procs (ttrace cfg3 0 c114_b)) with (rev (procs (ttrace cfg3 0 c114_a))) by toy. apply in_rev.
    - intros v x. split; intros [g H]; exfalso; revert H; apply Pa; toy. }
  split; [eapply run_snoc; [apply toy_run; toy|apply then_fin; toy]|].
  split; [eapply run_snoc; [apply toy_run; toy|apply then_fin; toy]|]. split; [toy|]. split; toy.
Qed.
