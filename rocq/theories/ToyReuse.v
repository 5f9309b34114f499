(** A party of Toy.v that takes part in a second execution with the same session id, with another input. Used only by [Example]s and witnesses. *)
From Coq Require Import List NArith Bool.
From Verif Require Import Base BMap Errors RoundId Message Protocol Transcript Evidence Session Spec Exec Toy.
Import ListNotations.
Set Implicit Arguments.

Definition otherEP (c : Cfg) (x : N) : EntryPoint (toyPr c) := @mkEP toyP (toyPr c) (rid_new 1) (fun _ _ _ => Ok (mkToySt 1 x 0)).
(** Party [me] with input [x]. *)
Definition osession (c : Cfg) (me x : N) : Session (toyPr c) := ok_def (dummy_session c) (session_new g0 sid0 me (otherEP c x)).
Definition with_input (x : N) : Cfg := mkCfg 2 (fun n => N.eqb n 1) (fun _ me => @mkComm toyP (set_of_list [0]%N) sempty (@EPDefault toyP)).

Lemma other_initial (me x : N) : initial (osession (with_input x) me x).
Proof.
  exists g0, sid0, me, (otherEP (with_input x) x). unfold osession.
  destruct (session_new g0 sid0 (me : @Signer toyP) (otherEP (with_input x) x)) as [s|e|] eqn:E; auto; exfalso;
  unfold session_new, new_for_next_round, sign_part in E; simpl in E; discriminate.
Qed.
Definition ostart (me x : N) : DState (toyPr (with_input x)) := start (osession (with_input x) me x).
Lemma other_reachable (me x : N) : reachable (ostart me x).
Proof. exists (osession (with_input x) me x), []. split; [apply other_initial|constructor]. Qed.
