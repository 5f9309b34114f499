(** Parameters under which the only valid signatures of party 0 are those on the message of one session of party 0, and a
    one-round protocol; an instance of the hypotheses of C28. *)
From Coq Require Import List NArith Bool.
From Verif Require Import Base BMap Errors RoundId Message Protocol Transcript Evidence Session Spec SpecCrypto SpecEvidence
  MessageFacts SessionFacts RunFacts SignFacts Exec Toy ToyCrypto.
Import ListNotations.
Set Implicit Arguments.

Definition own_digest (k : kind) (b : body) : bytes :=
  ok_def [] (@part_digest toyP k (mkMeta sid0 (rid_new 1)) b).
Definition own_digests : list bytes := [own_digest KDirect (Some [10%N]); own_digest KEcho (Some [20%N]); own_digest KNormal None].

Definition ownP : Params := {|
  Verifier := N; OrdVerifier := OrdN; Signer := N; signer_key := fun s => s; Sig := N * bytes;
  sign := fun _ s d => Some (s, d);
  verify_sig := fun v d g => (N.eqb v 0 && N.eqb (fst g) v && bytes_eqb (snd g) d && existsb (bytes_eqb d) own_digests)%bool;
  hash := fun x => x;
  ser_sig := fun g => Some (fst g :: snd g);
  deser_sig := toy_deser_sig;
  ser_meta := fun m => Some (toy_ser_meta m);
  ser_echo := fun m => Some (toy_ser_echo m);
  deser_echo := toy_deser_echo
|}.

Definition own_info : RInfo (P := ownP) unit :=
  @mkRInfo ownP unit
    (fun b => match one_byte b with None => Ok tt | Some _ => Err EE_Invalid end)
    (fun b => match one_byte b with None => Ok tt | Some _ => Err EE_Invalid end)
    (fun b => if is_none b then Err EE_Invalid else Ok tt)
    (fun _ _ _ _ _ _ _ _ => Err EE_Invalid).

Definition ownPr : Proto (P := ownP) := {|
  St := unit; Rslt := unit; Shared := unit; Payload := unit; Artifact := unit;
  tinfo := fun _ => mkTI (rid_new 1) sempty sempty sempty true;
  cinfo := fun _ => @mkComm ownP (set_of_list [1]%N) (set_of_list [1]%N) EPDefault;
  mk_direct := fun _ _ _ => Ok (Some [10]%N, tt); mk_echo := fun _ _ => Ok (Some [20]%N); mk_normal := fun _ _ => Ok None;
  receive := fun _ _ _ => Ok tt;
  finalize := fun _ _ _ _ => Ok (Finished_ tt);
  round_info := fun _ => Some own_info
|}.
Definition ownEP : EntryPoint ownPr := @mkEP ownP ownPr (rid_new 1) (fun _ _ _ => Ok tt).

Lemma own_plain : plain_ids ownPr.
Proof. intros st. reflexivity. Qed.
Lemma own_codec : echo_codec ownP.
Proof. intros m b H. simpl in *. injection H as <-. apply toy_echo_round_trip. Qed.
Lemma own_valid : own_parts_valid ownPr.
Proof.
  intros st. exists own_info. split; [reflexivity|]. simpl. repeat split; intros.
  - injection H as <- _. discriminate.
  - injection H as <-. discriminate.
  - injection H as <-. discriminate.
Qed.

Lemma own_prefix_free : prefix_free_meta ownP.
Proof. exact toy_prefix_free. Qed.

Lemma own_no_collision k k' m m' b b' : ~ @parts_collide ownP k k' m m' b b'.
Proof. intros [[H E]|(mb & mb' & _ & _ & [H E])]; apply H; exact E. Qed.

Lemma own_signed k (p : SPart k) : @part_signed ownP k 0%N p ->
  sp_meta p = mkMeta sid0 (rid_new 1) /\ sp_body p = match k with KDirect => Some [10%N] | KEcho => Some [20%N] | KNormal => None end.
Proof.
  intros H. apply signed_digest in H as (d & g & Hd & _ & Hv). cbn [verify_sig ownP] in Hv. apply andb_prop in Hv as [_ Hv].
  apply existsb_exists in Hv as (d' & Hin & E). apply bytes_eqb_spec in E. subst d'.
  assert (G : forall k' b', @part_digest ownP k' (mkMeta sid0 (rid_new 1)) b' = Ok d ->
    sp_meta p = mkMeta sid0 (rid_new 1) /\ k = k' /\ sp_body p = b').
  { intros k' b' Hd'. destruct (@digest_binding ownP k k' _ _ _ _ _ own_prefix_free Hd Hd') as [(E1 & E2 & E3 & E4)|C].
    - split; auto. destruct (sp_meta p) as [i r]. simpl in *. congruence.
    - exfalso. eapply own_no_collision; eauto. }
  destruct Hin as [<-|[<-|[<-|[]]]].
  - destruct (G KDirect (Some [10%N])) as (E1 & -> & E2); auto.
  - destruct (G KEcho (Some [20%N])) as (E1 & -> & E2); auto.
  - destruct (G KNormal None) as (E1 & -> & E2); auto.
Qed.

Lemma own_signs : @signs_only_sent_messages ownP ownPr 0%N.
Proof.
  intros k p H. apply own_signed in H as [H1 H2].
  destruct (session_new g0 sid0 (0%N : @Signer ownP) ownEP) as [s|e|] eqn:E; [|discriminate E|discriminate E].
  assert (Hi : initial s) by (exists g0, sid0, (0%N : @Signer ownP), ownEP; exact E).
  destruct (make_message s g0 (1%N : @Verifier ownP)) as [[m art]|e|] eqn:Em; injection E as <-; [|discriminate Em|discriminate Em].
  eexists (start _), g0, (1%N : @Verifier ownP), m, art. split; [eexists _, []; split; [exact Hi|constructor]|].
  split; [reflexivity|]. split; [reflexivity|]. split; [exact Em|]. injection Em as <- _.
  destruct k; cbn [msg_part msg_direct msg_echo msg_normal]; split; rewrite ?H1, ?H2; reflexivity.
Qed.
