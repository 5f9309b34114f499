(** A protocol of one round in which everybody broadcasts some bytes to everybody else. Used only by [Example]s and witnesses. *)
From Coq Require Import List NArith Bool.
From Verif Require Import Base BMap Errors RoundId Message Protocol Transcript Evidence Session Spec SpecCrypto SpecEvidence Exec Toy ToyCrypto.
Import ListNotations.
Set Implicit Arguments.

Definition blob (b : bytes) : Proto (P := toyP) := {|
  St := N; Rslt := unit; Shared := unit; Payload := unit; Artifact := unit;
  tinfo := fun _ => mkTI (rid_new 1) sempty sempty sempty true;
  cinfo := fun me => let others := srem (me : @Verifier toyP) (set_of_list ([0; 1; 2]%N : list (@Verifier toyP))) in @mkComm toyP others others (@EPDefault toyP);
  mk_direct := fun _ _ _ => Ok (None, tt);
  mk_echo := fun _ _ => Ok None;
  mk_normal := fun _ _ => Ok (Some b);
  receive := fun _ _ _ => Ok tt;
  finalize := fun _ _ _ _ => Ok (Finished_ tt);
  round_info := fun r => None
|}.
Definition blob_entry (b : bytes) : EntryPoint (blob b) := @mkEP toyP (blob b) (rid_new 1) (fun _ _ me => Ok me).
Definition blob_new (b : bytes) := session_new (Pr := blob b) g0 sid0 (0%N : @Signer toyP) (blob_entry b).

(** These bytes could be an echo of a hash by party 2, with a signature that is not one. *)
Definition bytes_for_2 : bytes := toy_ser_echo (insert 2%N (mkSHash [] (mkMeta [] (rid_new 0)) []) empty).
Lemma blob_frames : exists s m art,
  initial (Pr := blob bytes_for_2) s /\ ~ in_echo_round s /\ (forall st g, mk_echo (blob bytes_for_2) st g = Ok None) /\
  mem (1%N : @Verifier toyP) (message_destinations s) = true /\ make_message s g0 (1%N : @Verifier toyP) = Ok (m, art) /\
  verify_evidence (blob bytes_for_2) (@mkEvidence toyP (s_verifier s) (@EvInvalidEcho toyP (msg_normal m) 2%N)) tt = Ok tt.
Proof.
  assert (H : match blob_new bytes_for_2 with
    | Ok s => match s_round s with RMain _ => true | _ => false end && mem (1%N : @Verifier toyP) (message_destinations s) &&
        match make_message s g0 (1%N : @Verifier toyP) with
        | Ok (m, _) => match verify_evidence (blob bytes_for_2) (@mkEvidence toyP (s_verifier s) (@EvInvalidEcho toyP (msg_normal m) 2%N)) tt with Ok tt => true | _ => false end
        | _ => false
        end
    | _ => false
    end%bool = true) by (vm_compute; reflexivity).
  destruct (blob_new bytes_for_2) as [s| |] eqn:E; try discriminate. apply andb_prop in H as [H H3]. apply andb_prop in H as [H1 H2].
  destruct (make_message s g0 (1%N : @Verifier toyP)) as [[m art]| |] eqn:Em; try discriminate. exists s, m, art.
  split; [exists g0, sid0, (0%N : @Signer toyP), (blob_entry bytes_for_2); exact E|].
  split; [intros (v & e & i & r & ps & arts & Hr); rewrite Hr in H1; discriminate|]. split; [reflexivity|]. split; [exact H2|]. split; [exact Em|].
  destruct (verify_evidence (blob bytes_for_2) _ tt) as [[]| |]; [reflexivity|discriminate|discriminate].
Qed.
