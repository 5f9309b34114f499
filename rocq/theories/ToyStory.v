(** Three parties executing the examples, one of which does not tell its position. Used only by [Example]s. *)
From Coq Require Import List NArith Bool.
From Verif Require Import Base BMap Errors RoundId Message Protocol Transcript Evidence Session Spec Exec Typed Simple Dining IntakeFacts
  Toy ToySimple ToyChain.
Import ListNotations.
Set Implicit Arguments.

Definition sim_created me : is_ok (session_new g0 sid0 (me : @Signer toyP) simEP) = true ->
  session_new g0 sid0 (me : @Signer toyP) simEP = Ok (sim_session me).
Proof.
  intros H. unfold sim_session. destruct (session_new g0 sid0 (me : @Signer toyP) simEP) as [s|e|]; try discriminate. reflexivity.
Qed.
(** Party 1 claims position [x] in round [n]. *)
Definition lie (n x : N) (c : cmd (P := toyP)) : cmd (P := toyP) :=
  match c with
  | CPre v m =>
      if (N.eqb v 1 && eqb (m_round (sp_meta (msg_direct m))) (rid_new n))%bool
      then @CPre toyP v (@mkMessage toyP (msg_dest m) (ok_def dummy_part (sign_part KDirect g0 (1%N : @Signer toyP) sid0 (rid_new n) (Some [x; 0]%N))) (msg_echo m) (msg_normal m))
      else c
  | _ => c
  end.
Definition sim_starts : list (@Verifier toyP * DState simPr) := map (fun v : N => (v : @Verifier toyP, start (sim_session v))) [0; 1; 2]%N.
(** What party 0 does, up to the last finalization, in [k] rounds. *)
Definition lied_cmds (k : nat) (n x : N) : list (cmd (P := toyP)) :=
  map (lie n x) (removelast (play_cmds g0 k sim_starts (0%N : @Verifier toyP))).
Definition lied (k : nat) (n x : N) : DState simPr := final g0 (start (sim_session 0)) (lied_cmds k n x).
Lemma lied_run k n x : is_some (exec g0 (start (sim_session 0)) (lied_cmds k n x)) = true ->
  run (start (sim_session 0)) (trace g0 (start (sim_session 0)) (lied_cmds k n x)) (lied k n x).
Proof. intros H. apply final_run. intros E. rewrite E in H. discriminate. Qed.

Definition din_starts : list (@Verifier toyP * DState (wrap dinT)) := map (fun v : N => (v : @Verifier toyP, start (din_session v))) [0; 1; 2]%N.
Definition din_cmds (k : nat) : list (cmd (P := toyP)) := removelast (play_cmds g0 k din_starts (0%N : @Verifier toyP)).
Definition din_final (k : nat) : DState (wrap dinT) := final g0 (start (din_session 0)) (din_cmds k).
Lemma din_created me : is_ok (session_new g0 sid0 (me : @Signer toyP) dinEP) = true ->
  session_new g0 sid0 (me : @Signer toyP) dinEP = Ok (din_session me).
Proof.
  intros H. unfold din_session. destruct (session_new g0 sid0 (me : @Signer toyP) dinEP) as [s|e|]; try discriminate. reflexivity.
Qed.
Lemma din_run k : is_some (exec g0 (start (din_session 0)) (din_cmds k)) = true ->
  run (start (din_session 0)) (trace g0 (start (din_session 0)) (din_cmds k)) (din_final k).
Proof. intros H. apply final_run. intros E. rewrite E in H. discriminate. Qed.
