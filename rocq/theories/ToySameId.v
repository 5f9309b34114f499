(** A party of Toy.v that is given another session id than the others. Used only by [Example]s. *)
From Coq Require Import List NArith Bool.
From Verif Require Import Base BMap Errors RoundId Message Protocol Transcript Evidence Session Spec Exec Toy.
Import ListNotations.
Set Implicit Arguments.

Definition wrong_id : bytes := [8; 8]%N.
Definition astray (me : N) : Session (toyPr cfg3n) := ok_def (dummy_session cfg3n) (session_new g0 wrong_id me (toyEP cfg3n)).

Lemma astray_initial (me : N) : initial (astray me).
Proof.
  exists g0, wrong_id, me, (toyEP cfg3n). unfold astray.
  destruct (session_new g0 wrong_id (me : @Signer toyP) (toyEP cfg3n)) as [s|e|] eqn:E; auto; exfalso;
  unfold session_new, new_for_next_round, sign_part in E; simpl in E; destruct (is_empty _); simpl in E; discriminate.
Qed.
Lemma astray_reachable (me : N) : reachable (start (astray me)).
Proof. exists (astray me), []. split; [apply astray_initial|constructor]. Qed.
Definition astray_message : Message (P := toyP) := tmsg (astray 1) 0.
