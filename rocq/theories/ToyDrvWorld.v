(** Executable driver worlds over the toy parameters, for the examples. *)
From Coq Require Import List NArith Bool Lia.
From Verif Require Import Base BMap Errors RoundId Message Protocol Transcript Evidence Session Spec SpecCrypto SpecEvidence
  Network RunSync Driver SpecDriver SpecWorld SpecFrame SpecDrvWorld MessageFacts SessionFacts HistoryFacts RunSyncFacts Exec Toy ToyCrypto
  ToyWorld ToyFrame ToyNet.
Import ListNotations.
Set Implicit Arguments.

Section Cfg.
  Context (c : Cfg).
  Context (hon : N -> bool).
  Notation W := (DWorld (toyPr c)).
  Definition rW : @Verifier toyP -> bytes -> NetRng (P := toyP) := fun _ _ => rN.

  (** The messages of a driver world. *)
  Definition mail (w : W) : World (toyPr c) := mkWorld (fun _ _ => None) (dw_sent w) (dw_seen w).
  Definition dupd (f : N -> bytes -> option (Drv (toyPr c))) (v : N) (d : Drv (toyPr c)) : N -> bytes -> option (Drv (toyPr c)) :=
    fun v' sid => if (N.eqb v' v && bytes_eqb sid sid0)%bool then Some d else f v' sid.
  Definition seen_after (w : W) (i : input (P := toyP)) : list Message := match i with IRecv _ m => m :: dw_seen w | _ => dw_seen w end.
  Definition arrives (w : W) (i : input (P := toyP)) : bool := match i with IRecv _ m => unforgedb hon (mail w) m | _ => true end.
  Definition dwexec1 (w : W) (vi : N * input (P := toyP)) : option W :=
    match dw_node w (fst vi) sid0 with
    | None => None
    | Some d =>
        match drv_step rN d (snd vi) with
        | None => None
        | Some (ls, d') =>
            if arrives w (snd vi)
            then Some (mkDWorld (dupd (dw_node w) (fst vi) d') (outs (fst vi : @Verifier toyP) ls ++ dw_sent w) (seen_after w (snd vi)))
            else None
        end
    end.
  Lemma dwexec1_ok w vi w' : dwexec1 w vi = Some w' -> dwstep (fun u => hon u = true) rW w w'.
  Proof.
    destruct vi as [v i]. unfold dwexec1. cbn [fst snd]. destruct (dw_node w v sid0) as [d|] eqn:En; [|discriminate].
    destruct (drv_step rN d i) as [[ls d']|] eqn:Es; [|discriminate]. destruct (arrives w i) eqn:Ea; [|discriminate].
    intros H. apply some_inj in H. subst w'. exists v, sid0, d, i, ls, d'. split; auto. split; [exact Es|]. split.
    - intros from m ->. exact (unforgedb_ok _ _ _ Ea).
    - split; [cbn [dw_node]; unfold dupd; now rewrite N.eqb_refl|]. split; [|split; reflexivity].
      intros v' sid' Hne. cbn [dw_node]. unfold dupd. destruct (N.eqb_spec v' v) as [->|]; auto. destruct (bytes_eqb sid' sid0) eqn:E; auto.
      apply bytes_eqb_spec in E. subst. congruence.
  Qed.

  Definition dwbegin : W := mkDWorld (fun v sid => if (hon v && bytes_eqb sid sid0)%bool then Some (drv_enter (tsession c v) []) else None) [] [].
  Fixpoint dwplay (w : W) (ws : list W) (xs : list (N * input (P := toyP))) : option (W * list W) :=
    match xs with
    | [] => Some (w, ws)
    | x :: xs => match dwexec1 w x with Some w' => dwplay w' (w :: ws) xs | None => None end
    end.
  Lemma dwbegin_ok : dwtrace (fun u => hon u = true) rW [dwbegin].
  Proof.
    constructor. split; auto. split; auto. intros v sid d. simpl.
    destruct (hon v) eqn:Eh; [|discriminate]. destruct (bytes_eqb sid sid0) eqn:Es; [|discriminate]. cbn [andb].
    intros H. apply some_inj in H. apply bytes_eqb_spec in Es. subst. split; auto.
    exists (tsession c v). destruct (session_fields c v) as [H1 H2]. split; [apply toy_initial|]. auto.
  Qed.
  Lemma dwplay_ok w ws xs w' ws' : dwtrace (fun u => hon u = true) rW (w :: ws) -> dwplay w ws xs = Some (w', ws') ->
    dwtrace (fun u => hon u = true) rW (w' :: ws').
  Proof.
    revert w ws. induction xs as [|x xs IH]; simpl; intros w ws Ht H.
    - injection H as <- <-. exact Ht.
    - destruct (dwexec1 w x) as [w1|] eqn:E; [|discriminate]. apply (IH _ _ (dwt_step Ht (dwexec1_ok _ _ E)) H).
  Qed.
  Definition dwfinal (xs : list (N * input (P := toyP))) : W * list W :=
    match dwplay dwbegin [] xs with Some p => p | None => (dwbegin, []) end.
  Lemma dwfinal_ok xs : dwtrace (fun u => hon u = true) rW (fst (dwfinal xs) :: snd (dwfinal xs)).
  Proof.
    unfold dwfinal. destruct (dwplay dwbegin [] xs) as [[w ws]|] eqn:E; simpl; [|apply dwbegin_ok].
    eapply dwplay_ok; [apply dwbegin_ok|exact E].
  Qed.
  Lemma dunforged_echoesb_ok w : unforged_echoesb hon (mail w) = true -> dunforged_echoes (fun u => hon u = true) w.
  Proof. intros H. exact (unforged_echoesb_ok _ _ H). Qed.
End Cfg.
