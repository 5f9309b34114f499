(** The example protocol of simple.rs with the concrete parameters of Toy.v and three parties. Used only by [Example]s and
    witnesses. *)
From Coq Require Import List NArith Bool.
From Verif Require Import Base BMap Errors RoundId Message Protocol Transcript Evidence Session Spec Exec Typed SpecTyped Simple Dining IntakeFacts HistoryFacts Toy.
Import ListNotations.
Set Implicit Arguments.

Definition one_codec : Codec N := mkCodec (fun x => Some [x]) (fun b => match b with [x] => Some x | _ => None end).
Definition position_codec : Codec Position :=
  mkCodec (fun p => Some [my_position p; your_position p]) (fun b => match b with [x; y] => Some (mkPosition x y) | _ => None end).
Definition broadcast_codec : Codec R1Broadcast :=
  mkCodec (fun p => Some [rb_x p; rb_position p]) (fun b => match b with [x; y] => Some (mkR1Broadcast x y) | _ => None end).
Definition unit_codec : Codec unit := mkCodec (fun _ => Some []) (fun b => match b with [] => Some tt | _ => None end).
Definition toyW : SimpleWire := mkSimpleWire position_codec one_codec broadcast_codec position_codec unit_codec unit_codec.

Definition simT : TProto (P := toyP) := @simple toyP toyW.
Definition simPr : Proto (P := toyP) := wrap simT.
Definition sim_ids : bset N := set_of_list [0; 1; 2]%N.
Definition simEP : EntryPoint simPr := @simple_entry toyP toyW sim_ids.

Definition sim_dummy : Session simPr :=
  @mkSession toyP simPr [] 0%N 0%N (RMain (box simT SR1 (mkCtx (0%N : @Verifier toyP) sempty empty) : St simPr))
    (mkComm sempty sempty EPDefault) None
    dummy_part dummy_part (mkTI (rid_new 0) sempty sempty sempty false) tr_new.
Definition sim_session (me : N) : Session simPr := ok_def sim_dummy (session_new g0 sid0 me simEP).
Definition sim_msg (s : Session simPr) (dest : N) : Message (P := toyP) :=
  ok_def dummy_msg (let* (m, _) := make_message s g0 dest in Ok m).

Lemma sim_initial me : is_ok (session_new g0 sid0 (me : @Signer toyP) simEP) = true -> initial (sim_session me).
Proof.
  intros H. exists g0, sid0, me, simEP. unfold sim_session.
  destruct (session_new g0 sid0 (me : @Signer toyP) simEP) as [s|e|]; try discriminate. reflexivity.
Qed.

Definition sim_final (me : N) (cs : list (cmd (P := toyP))) : DState simPr := final g0 (start (sim_session me)) cs.
Lemma sim_reachable me cs :
  (is_ok (session_new g0 sid0 (me : @Signer toyP) simEP) && is_some (exec g0 (start (sim_session me)) cs))%bool = true ->
  reachable (sim_final me cs).
Proof.
  intros H. apply andb_prop in H as [H1 H2]. apply final_reachable; [now apply sim_initial|]. intros E. rewrite E in H2. discriminate.
Qed.

(** Party 0 has sent and received everything of round 1. *)
Definition sim_round1 : list (cmd (P := toyP)) :=
  [@CArt toyP 1%N; @CArt toyP 2%N; @CPre toyP 1%N (sim_msg (sim_session 1) 0); CProc 0; @CPre toyP 2%N (sim_msg (sim_session 2) 0); CProc 0].

Lemma es_part_no_panic m o : es_part m o <> Panic.
Proof. unfold es_part. apply bind_no_panic; [apply ok_or_no_panic|]. intros b. apply ok_or_no_panic. Qed.
Lemma combined_no_panic m (es : EvMsgs (P := toyP)) n : combined_echos m es n <> Panic.
Proof.
  unfold combined_echos. apply bind_no_panic; [apply ok_or_no_panic|]. intros c. apply bind_no_panic; [|discriminate].
  induction (to_list c) as [|[u b] l IH]; simpl; [discriminate|]. apply bind_no_panic; [|intros z; apply bind_no_panic; [exact IH|discriminate]].
  apply bind_no_panic; [apply ok_or_no_panic|discriminate].
Qed.
Lemma sim_errors_total : errors_total simT.
Proof.
  assert (D : forall A (x : A), @Ok EvidenceError A x <> Panic) by discriminate.
  intros [|]; cbn -[es_direct_message combined_echos bind]; intros e rid v sid sd es.
  - apply bind_no_panic; [exact (@es_part_no_panic (msg position_codec) _)|]. intros; apply D.
  - apply bind_no_panic; [exact (@es_part_no_panic (msg position_codec) _)|]. intros _.
    apply bind_no_panic; [exact (@combined_no_panic (msg one_codec) _ _)|]. intros; apply D.
Qed.

Lemma sim_hypotheses : info_typed simT /\ codecs simT /\ echo_typed simT.
Proof.
  split; [|split].
  - intros [|] x; reflexivity.
  - intros [|]; simpl; repeat split; auto; intros x b H; inv H; try destruct x; reflexivity.
  - intros [|] x tg H; discriminate.
Qed.

(** The dining cryptographers with the same parameters; [NoProtocolErrors] is a unit struct, so it deserializes from its
    (empty) serialization. *)
Definition bool_codec : Codec bool :=
  mkCodec (fun b : bool => Some [if b then 1%N else 0%N]) (fun b => match b with [0%N] => Some false | [1%N] => Some true | _ => None end).
Definition dinT : TProto (P := toyP) :=
  @dining toyP (fun n : N => n) (fun v : N => v) bool_codec bool_codec (fun b : bytes => match b with [] => true | _ => false end).
Definition dinEP : EntryPoint (wrap dinT) :=
  @dining_entry toyP (fun n : N => n) (fun v : N => v) bool_codec bool_codec (fun b : bytes => match b with [] => true | _ => false end).
Definition din_dummy : Session (wrap dinT) :=
  @mkSession toyP (wrap dinT) [] 0%N 0%N (RMain (box dinT DR1 (@mkDining1 toyP 0%N false false) : St (wrap dinT)))
    (mkComm sempty sempty EPDefault) None
    dummy_part dummy_part (mkTI (rid_new 0) sempty sempty sempty false) tr_new.
Definition din_session (me : N) : Session (wrap dinT) := ok_def din_dummy (session_new g0 sid0 me dinEP).
Lemma din_initial me : is_ok (session_new g0 sid0 (me : @Signer toyP) dinEP) = true -> initial (din_session me).
Proof.
  intros H. exists g0, sid0, me, dinEP. unfold din_session.
  destruct (session_new g0 sid0 (me : @Signer toyP) dinEP) as [s|e|]; try discriminate. reflexivity.
Qed.
Lemma din_made (s : Session (wrap dinT)) (dest : N) : is_ok (make_message s g0 (dest : @Verifier toyP)) = true ->
  exists m art, make_message s g0 (dest : @Verifier toyP) = Ok (m, art) /\ m = ok_def dummy_msg (let* (m, _) := make_message s g0 (dest : @Verifier toyP) in Ok m).
Proof. destruct (make_message s g0 (dest : @Verifier toyP)) as [[m art]| |]; try discriminate. simpl. eauto. Qed.
(** A part of a message with no deviation from the protocol, used as evidence with the serialized [NoProtocolErrors]. *)
Definition blame (v : N) (m : Message (P := toyP)) : Evidence (P := toyP) :=
  @mkEvidence toyP v (EvProtocol (@mkProtoEv toyP [] (Some (msg_direct m)) None None empty empty empty empty empty)).
Lemma dining_evidence_panics : exists (P : Params) (T : TProto) (ev : Evidence) (sd : Shared (wrap T)) (d : DState (wrap T)) g dest m art e,
  reachable d /\ mem dest (message_destinations (d_s d)) = true /\ make_message (d_s d) g dest = Ok (m, art) /\
  ev = mkEvidence (s_verifier (d_s d)) (EvProtocol (mkProtoEv e (Some (msg_direct m)) None None empty empty empty empty empty)) /\
  verify_evidence (wrap T) ev sd = Panic.
Proof.
  destruct (@din_made (din_session 1) 2%N) as (m & art & Hm & Em); [toy|].
  exists toyP, dinT, (blame 1 m), (tt : Shared (wrap dinT)), (start (din_session 1)), g0, (2%N : @Verifier toyP), m, art, [].
  split; [exists (din_session 1), []; split; [apply din_initial; toy|constructor]|]. split; [toy|]. split; [exact Hm|].
  split; [reflexivity|]. rewrite Em. toy.
Qed.
