(** Executable checks for the examples about evidence against honest parties. *)
From Coq Require Import List NArith Bool.
From Verif Require Import Base BMap Errors RoundId Message Protocol Transcript Evidence Session Spec SpecCrypto SpecEvidence
  SpecWorld SpecFrame MessageFacts Exec Toy ToyCrypto ToyWorld.
Import ListNotations.
Set Implicit Arguments.

Section Check.
  Context (c : Cfg) (hon : N -> bool).
  Definition hash_unforged (sent : list (N * Message (P := toyP))) (u : N) (h : SHash) : bool :=
    match @digest_of_hash toyP h with
    | Some D => existsb (fun um => (N.eqb (fst um) u && existsb (fun k' => match odigest (@msg_part toyP k' (snd um)) with
                                                                    | Some d2 => bytes_eqb D d2 | None => false end) kinds)%bool) sent
    | None => false
    end.
  Definition unforged_echoesb (w : World (toyPr c)) : bool :=
    forallb (fun m => match @body_echo_msg toyP (sp_body (@msg_normal toyP m)) with
                      | Some msg => forallb (fun kv => (negb (hon (fst kv)) || hash_unforged (w_sent w) (fst kv) (snd kv))%bool) (to_list msg)
                      | None => true end) (w_seen w).
  Lemma hash_unforged_ok w u h : hash_unforged (w_sent w) u h = true -> @signed_in toyP (toyPr c) w u (@digest_of_hash toyP h).
  Proof.
    unfold hash_unforged. destruct (@digest_of_hash toyP h) as [D|] eqn:E; [|discriminate]. intros H.
    apply existsb_exists in H as ([v m'] & Hi & H). apply andb_true_iff in H as [Ev H].
    apply existsb_exists in H as (k' & _ & H). apply N.eqb_eq in Ev. cbn [fst] in Ev. subst v.
    exists m', k'. split; auto. cbn [snd] in H. unfold odigest in H.
    destruct (@digest_of toyP k' (msg_part k' m')) as [d2|]; [|discriminate]. apply bytes_eqb_spec in H. now subst.
  Qed.
  Lemma unforged_echoesb_ok w : unforged_echoesb w = true -> unforged_echoes (fun u => hon u = true) w.
  Proof.
    unfold unforged_echoesb. rewrite forallb_forall. intros H m msg u h Hin Hm Hu Hh _. specialize (H m Hin). rewrite Hm in H.
    rewrite forallb_forall in H. specialize (H (u, h) (proj2 (in_to_list _ _ _) Hu)). cbn [fst snd] in H.
    replace (hon u) with true in H by (symmetry; exact Hh). now apply hash_unforged_ok.
  Qed.
End Check.

Lemma digest_of_signed_hash {P : Params} {k} (p : SPart k) : digest_of p = digest_of_hash (to_signed_hash p).
Proof.
  unfold digest_of, digest_of_hash, to_signed_hash. cbn [sh_meta sh_hash]. destruct (ser_meta (sp_meta p)) as [mb|]; auto.
Qed.

Definition node0 c (w : World (toyPr c)) : DState (toyPr c) := match w_node w 0%N sid0 with Some d => d | None => tstart c 0 end.
