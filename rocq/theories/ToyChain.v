(** Three parties executing a protocol in lock step, and the chained example protocol. Used only by [Example]s and witnesses. *)
From Coq Require Import List NArith Bool.
From Verif Require Import Base BMap Errors RoundId Message Protocol Transcript Evidence Session Spec Exec Typed SpecTyped Simple Chain SpecChain IntakeFacts
  DoubleSimple Toy ToySimple ChainFacts.
Import ListNotations.
Set Implicit Arguments.

Section Play.
  Context {P : Params}.
  Context {Pr : Proto}.
  Context (g : rng).

  (** The commands of party [me] in one round, given the states of all parties. *)
  Definition round_cmds (ds : list (Verifier * DState Pr)) (me : Verifier) (d : DState Pr) : list cmd :=
    map CArt (elements (message_destinations (d_s d))) ++
    flat_map (fun ud => if eqb (fst ud) me then [] else
      if mem me (message_destinations (d_s (snd ud))) then
        match make_message (d_s (snd ud)) g me with Ok (m, _) => [CPre (fst ud) m; CProc 0] | _ => [] end
      else []) ds ++ [CFin].
  Fixpoint play (n : nat) (ds : list (Verifier * DState Pr)) : list (Verifier * DState Pr) :=
    match n with
    | O => ds
    | S n => play n (map (fun vd => (fst vd, final g (snd vd) (round_cmds ds (fst vd) (snd vd)))) ds)
    end.
  (** All the commands of party [me]. *)
  Fixpoint play_cmds (n : nat) (ds : list (Verifier * DState Pr)) (me : Verifier) : list cmd :=
    match n with
    | O => []
    | S n => match find (fun vd => eqb (fst vd) me) ds with
             | Some (_, d) => round_cmds ds me d
             | None => []
             end ++ play_cmds n (map (fun vd => (fst vd, final g (snd vd) (round_cmds ds (fst vd) (snd vd)))) ds) me
    end.
End Play.

Definition dblPr : Proto (P := toyP) := @double_simple toyP toyW.
Definition dblEP : EntryPoint dblPr := @double_entry toyP toyW sim_ids.
Definition dbl_dummy : Session dblPr :=
  @mkSession toyP dblPr [] 0%N 0%N (RMain (Chain2 (@double_join toyP toyW) (box simT SR1 (mkCtx (0%N : @Verifier toyP) sempty empty) : St simPr) : St dblPr))
    (mkComm sempty sempty EPDefault) None
    dummy_part dummy_part (mkTI (rid_new 0) sempty sempty sempty false) tr_new.
Definition dbl_session (me : N) : Session dblPr := ok_def dbl_dummy (session_new g0 sid0 me dblEP).
Lemma dbl_created me : is_ok (session_new g0 sid0 (me : @Signer toyP) dblEP) = true -> session_new g0 sid0 (me : @Signer toyP) dblEP = Ok (dbl_session me).
Proof.
  intros H. unfold dbl_session. destruct (session_new g0 sid0 (me : @Signer toyP) dblEP) as [s|e|]; try discriminate. reflexivity.
Qed.

Definition dbl_start : list (@Verifier toyP * DState dblPr) := map (fun v : N => (v : @Verifier toyP, start (dbl_session v))) [0; 1; 2]%N.
Definition dbl_cmds (n : nat) : list (cmd (P := toyP)) := play_cmds g0 n dbl_start (0%N : @Verifier toyP).
Definition dbl_final (n : nat) : DState dblPr := final g0 (start (dbl_session 0)) (dbl_cmds n).
Definition dbl_where (d : DState dblPr) : N * RoundId :=
  (match s_round (d_s d) with
   | RMain (Chain1 _ _ _ _ _) => 1 | RMain (Chain2 _ _) => 2
   | REcho _ _ _ (RMain (Chain1 _ _ _ _ _)) _ _ => 1 | _ => 2 end, s_round_id (d_s d))%N.
Lemma dbl_run n : is_some (exec g0 (start (dbl_session 0)) (dbl_cmds n)) = true -> run (start (dbl_session 0)) (trace g0 (start (dbl_session 0)) (dbl_cmds n)) (dbl_final n).
Proof. intros H. apply final_run. intros E. rewrite E in H. discriminate. Qed.

Definition dbl_part (rid : RoundId) : SPart KDirect :=
  ok_def dummy_part (sign_part KDirect g0 (1%N : @Signer toyP) sid0 rid (Some [1; 0]%N)).
(** Evidence of a protocol error of party 1 in round 1, with earlier direct messages. *)
Definition dbl_evidence (groups : list N) (directs : bmap RoundId (SPart KDirect)) : Evidence (P := toyP) :=
  @mkEvidence toyP 1%N (EvProtocol (@mkProtoEv toyP [] (Some (dbl_part (mkRid 1 groups false))) None None directs empty empty empty empty)).

Lemma sim_declares : declares simPr.
Proof.
  split.
  - intros [[|] x] [[|] x'] (g & ps & arts & _ & Hf); simpl in Hf; try reflexivity;
      apply bind_ok in Hf as (ps' & _ & Hf); apply bind_ok in Hf as (as' & _ & Hf); simpl in Hf;
      apply bind_ok in Hf as (y & _ & Hf); try (inv Hf; fail); apply bind_ok in Hf as (z & _ & Hf); inv Hf.
  - intros [[|] x] r (g & ps & arts & _ & Hf); simpl in Hf; try reflexivity.
    apply bind_ok in Hf as (ps' & _ & Hf). apply bind_ok in Hf as (as' & _ & Hf). simpl in Hf.
    apply bind_ok in Hf as (y & _ & Hf). inv Hf.
Qed.
Lemma dbl_declares : declares dblPr.
Proof. apply chain_declares; [|exact sim_declares|exact sim_declares]. intros tr r g sr id st2 H. inv H. reflexivity. Qed.

(** A protocol with one round and nothing to do. *)
Definition onePr : Proto (P := toyP) := {|
  St := unit; Rslt := unit; Shared := unit; Payload := unit; Artifact := unit;
  tinfo := fun _ => new_linear_terminating 1; cinfo := fun _ => regular sempty;
  mk_direct := fun _ _ _ => Ok (None, tt); mk_echo := fun _ _ => Ok None; mk_normal := fun _ _ => Ok None;
  receive := fun _ _ _ => Ok tt; finalize := fun _ _ _ _ => Ok (Finished_ tt); round_info := fun _ => None |}.
Definition oneJ : Join onePr onePr := @mkJoin toyP onePr onePr (rid_new 1) unit (fun _ _ _ _ _ => Ok tt).
Lemma one_round_parents : exists (P : Params) (P1 P2 : Proto) (j : Join P1 P2), names_parents P1 /\ names_parents P2 /\ ~ names_parents (chain j).
Proof.
  exists toyP, onePr, onePr, oneJ. assert (H : names_parents onePr) by (intros st st' (g & ps & arts & _ & Hf); discriminate).
  split; auto. split; auto. intros Hc.
  specialize (Hc (Chain1 oneJ (0%N : @Verifier toyP) tt [] tt : St (chain oneJ)) (Chain2 oneJ tt : St (chain oneJ))).
  rewrite (no_first_parents oneJ) in Hc. assert (false = true); [|discriminate]. apply Hc.
  exists g0, empty, empty. split; [|reflexivity]. split; intros v p Hp; rewrite get_empty in Hp; discriminate.
Qed.
