(** Facts about the concrete parameters of Toy.v, used only by examples and witnesses. *)
From Coq Require Import List NArith Bool.
From Verif Require Import Base BMap Errors RoundId Message Protocol Transcript Evidence Session Spec SpecCrypto SpecEvidence
  MessageFacts SessionFacts RunFacts IntakeFacts SignFacts Exec Toy.
Import ListNotations.
Set Implicit Arguments.

Lemma toy_prefix_free : prefix_free_meta toyP.
Proof.
  intros m m' mb mb' r r' H H' E. simpl in H, H'. injection H as <-. injection H' as <-.
  assert (D : toy_deser_meta (toy_ser_meta m ++ r) = toy_deser_meta (toy_ser_meta m' ++ r')) by now rewrite E.
  rewrite !deser_ser_meta in D. now injection D.
Qed.

Lemma toy_signatures : signatures_correct toyP.
Proof.
  intros r s d g gb H H'. simpl in *. injection H as <-. injection H' as <-. exists (s, d). simpl. split; auto.
  now rewrite N.eqb_refl, bytes_eqb_refl.
Qed.

Lemma toy_codec : echo_codec toyP.
Proof. intros m b H. simpl in *. injection H as <-. apply toy_echo_round_trip. Qed.

Lemma toy_receive_err c st from m e : toy_receive c st from m = Err e ->
  (e = RDirect /\ one_byte (dm_direct m) = None) \/
  (e = REchoB /\ Bool.eqb (c_echo c (ts_round st)) (match one_byte (dm_echo m) with Some _ => true | None => false end) = false) \/
  (e = RNormal /\ is_none (dm_normal m) = false) \/ (exists l, e = RL l) \/ (exists r, e = RUnprovable r) \/
  (exists b, e = RProtocol b /\ rq_this (be_required b) = mkReqParts false false true).
Proof.
  unfold toy_receive. destruct (one_byte (dm_direct m)) as [x|]; [|intros H; inv H; auto].
  destruct (Bool.eqb _ _) eqn:Ee; cbn [negb]; [|intros H; inv H; auto].
  destruct (is_none (dm_normal m)) eqn:En; cbn [negb]; [|intros H; inv H; auto].
  destruct (N.eqb x 97); [intros H; inv H; eauto 10|]. destruct (N.eqb x 98); [intros H; inv H; eauto 10|].
  destruct (N.eqb x 99); [intros H; inv H; do 5 right; eauto|]. destruct (N.eqb x 100); [intros H; inv H; do 5 right; eauto|discriminate].
Qed.

Lemma toy_info_found c (st : St (toyPr c)) : round_info (toyPr c) (ti_id (tinfo (toyPr c) st)) = Some (toy_info c (ts_round st)).
Proof. destruct st as [n me sm]. simpl. unfold toy_tinfo. simpl. destruct (N.ltb n (c_last c)); reflexivity. Qed.

Lemma toy_consistent c : info_consistent (toyPr c).
Proof.
  intros st. exists (toy_info c (ts_round st)). split; [apply toy_info_found|]. intros from m. simpl. repeat split; intros H;
    apply toy_receive_err in H as [[E H]|[[E H]|[[E H]|[[? E]|[[? E]|(? & E & _)]]]]]; try discriminate; rewrite H; reflexivity.
Qed.

Lemma toy_no_echo_errors c : no_echo_errors (toyPr c).
Proof.
  intros st from m e H. simpl in H.
  apply toy_receive_err in H as [[E H]|[[E H]|[[E H]|[[? E]|[[? E]|(? & E & _)]]]]]; discriminate.
Qed.

Lemma toy_own_valid c : own_parts_valid (toyPr c).
Proof.
  intros st. exists (toy_info c (ts_round st)). split; [apply toy_info_found|]. simpl. repeat split; intros.
  - injection H as <- <-. discriminate.
  - injection H as <-. destruct (c_echo c (ts_round st)); discriminate.
  - injection H as <-. discriminate.
Qed.

Lemma toy_api c st from m err : receive (toyPr c) st from m = Err (RProtocol err) -> api_parts (rq_this (be_required err)).
Proof.
  intros H. simpl in H. apply toy_receive_err in H as [[E H]|[[E H]|[[E H]|[[? E]|[[? E]|(? & E & H)]]]]]; try discriminate.
  injection E as <-. rewrite H. now apply api_direct.
Qed.

(** Boolean equality of verified messages. *)
Definition part_eqb {k} (p q : SPart k) : bool :=
  (bytes_eqb (sp_sig p) (sp_sig q) && meta_eqb (sp_meta p) (sp_meta q) &&
   match sp_body p, sp_body q with None, None => true | Some x, Some y => bytes_eqb x y | _, _ => false end)%bool.
Definition is_message_ofb (from : N) (m : Message (P := toyP)) (vm : VMessage (P := toyP)) : bool :=
  (N.eqb (vm_from vm) from && part_eqb (vm_direct vm) (msg_direct m) && part_eqb (vm_echo vm) (msg_echo m) &&
   part_eqb (vm_normal vm) (msg_normal m) && meta_eqb (vm_meta vm) (sp_meta (msg_direct m)))%bool.
Lemma part_eqb_eq {k} (p q : SPart k) : part_eqb p q = true -> p = q.
Proof.
  destruct p as [g m b], q as [g' m' b']. unfold part_eqb. simpl. rewrite !andb_true_iff, bytes_eqb_spec, meta_eqb_spec.
  intros [[-> ->] H]. destruct b, b'; try discriminate; auto. apply bytes_eqb_spec in H. now subst.
Qed.
Lemma is_message_ofb_ok from m vm : is_message_ofb from m vm = true -> @is_message_of toyP from m vm.
Proof.
  unfold is_message_ofb. rewrite !andb_true_iff, meta_eqb_spec. intros [[[[H1 H2] H3] H4] H5]. apply N.eqb_eq in H1.
  apply part_eqb_eq in H2, H3, H4. repeat split; auto.
Qed.
Definition processed c (es : list (event (toyPr c))) (from : N) (m : Message (P := toyP)) : bool :=
  existsb (fun e => match e with EProc vm => is_message_ofb from m vm | _ => false end) es.
Lemma processed_ok c es from m : @processed c es from m = true -> exists vm, In (EProc vm) es /\ @is_message_of toyP from m vm.
Proof.
  unfold processed. intros H. apply existsb_exists in H as (e & Hin & H). destruct e; try discriminate.
  eexists; split; eauto. now apply is_message_ofb_ok.
Qed.

(** The last processed message, and the state before it. *)
Lemma then_proc c (d : DState (toyPr c)) n : truns d [CProc n] = true ->
  exists vm, nth_error (d_todo d) n = Some vm /\ step d (EProc vm) (tthen d [CProc n]).
Proof.
  unfold truns, tthen, final. cbn [exec]. destruct (exec1 g0 d (CProc n)) as [[e d1]|] eqn:E; [|discriminate]. intros _.
  pose proof (exec1_step _ _ _ E) as Hs. destruct d as [s a todo]. cbn [exec1] in E.
  destruct (take_nth n todo) as [[[l1 vm] l2]|] eqn:Et; [|discriminate].
  destruct (add_processed s a _) as [a' [[]| |]]; try discriminate. inv E. exists vm. split; [|exact Hs].
  simpl. clear Hs. revert n l1 Et. clear. induction todo as [|x todo IH]; intros [|n] l1 Et; simpl in *; try discriminate.
  - inv Et. auto.
  - destruct (take_nth n todo) as [[[l1' vm'] l2']|] eqn:E; [|discriminate]. inv Et. eauto.
Qed.
