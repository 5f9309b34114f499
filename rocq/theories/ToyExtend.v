(** Extensions of the example protocol. Used only by [Example]s. *)
From Coq Require Import List NArith Bool.
From Verif Require Import Base BMap Errors RoundId Message Protocol Transcript Evidence Session Spec Exec Typed Simple Extend SpecExtend Toy ToySimple ToyChain.
Import ListNotations.
Set Implicit Arguments.

(** The calls of party 0 in the first [n] rounds (counting the echo round) of simple.rs with three honest parties; the last
    round ends with the report. *)
Section Calls.
  Context {Pr : Proto (P := toyP)}.
  Fixpoint calls (d : DState Pr) (cs : list (cmd (P := toyP))) : list (call (P := toyP)) :=
    match cs with
    | [] => []
    | c :: cs =>
        match c with
        | CPre from m => KPre from m
        | CProc n => match nth_error (d_todo d) n with Some vm => KProc vm | None => KRound end
        | CArt dest => KMake g0 dest
        | CFin => KFin g0
        end :: match exec1 g0 d c with Some (_, d') => calls d' cs | None => [] end
    end.
End Calls.
Definition sim_start : list (@Verifier toyP * DState simPr) := map (fun v : N => (v : @Verifier toyP, start (sim_session v))) [0; 1; 2]%N.
Definition sim_calls (n : nat) : list (call (P := toyP)) := calls (start (sim_session 0)) (play_cmds g0 n sim_start (0%N : @Verifier toyP)).

(** The direct messages a session makes, the rounds it finishes, and its result. *)
Inductive seen := Sent (b : body) | Entered | Result (r : N) | Other.
Definition look (ws : res LocalError (list (answer (P := toyP) N))) : list seen :=
  match ws with
  | Ok ws => flat_map (fun w => match w with
      | WMade _ (Ok (m, _)) => [Sent (sp_body (msg_direct m))]
      | WNext _ _ => [Entered]
      | WReport (Ok r) => match rep_outcome r with OResult x => [Result x] | _ => [Other] end
      | WReport _ => [Other]
      | _ => []
      end) ws
  | _ => []
  end.

(** Round 2 with wrong messages and a result increased by 100; a later registration for the same type; and one that
    overrides nothing. *)
Definition wrong2 : Ext simT SR2 :=
  mkExt (T := simT) (k := SR2) None None (Some (fun _ _ _ => Ok (mkPosition 7 7, tt)))
    (Some (fun g s ps arts => match t_finalize simT SR2 s g ps arts with Ok (Finished_ r) => Ok (Finished_ (r + 100)%N) | o => o end)).
Definition worse2 : Ext simT SR2 := mkExt (T := simT) (k := SR2) None None (Some (fun _ _ _ => Ok (mkPosition 8 8, tt))) None.
Definition idle (k : TK simT) : Ext simT k := mkExt (T := simT) (k := k) None None None None.
Definition wrong1 : Ext simT SR1 := mkExt (T := simT) (k := SR1) None None (Some (fun _ _ _ => Ok (mkPosition 9 9, tt))) None.
Definition an (k : TK simT) (e : Ext simT k) : AnyExt simT := existT _ k e.

(** The protocol started in its second round. *)
Definition lateEP : EntryPoint (wrap simT) :=
  @mkEP toyP (wrap simT) (rid_new 2) (fun _ _ id => Ok (simple_box SR2 (mkSimple2 0 (mkCtx (id : @Verifier toyP) (srem id sim_ids) (enum_positions (P := toyP) (elements sim_ids)))) : St (wrap simT))).
Lemma late_rounds (b : boxed simT) : enters lateEP b -> projT1 b = SR2.
Proof.
  induction 1 as [g sr id b H|[k r] g ps arts b' He IH Hf].
  - cbn [ep_make lateEP] in H. injection H as <-. reflexivity.
  - cbn [projT1] in IH. subst k. cbn [finalize wrap w_finalize] in Hf.
    apply bind_ok in Hf as (ps' & _ & Hf). apply bind_ok in Hf as (as' & _ & Hf). cbn in Hf.
    apply bind_ok in Hf as (y & _ & Hf). apply bind_ok in Hf as (z & _ & Hf). discriminate.
Qed.

(** The example protocol reporting only whether its result is even. *)
Definition evenPr : Proto (P := toyP) := {|
  St := St simPr; Rslt := bool; Shared := Shared simPr; Payload := Payload simPr; Artifact := Artifact simPr;
  tinfo := tinfo simPr; cinfo := cinfo simPr; mk_direct := mk_direct simPr; mk_echo := mk_echo simPr; mk_normal := mk_normal simPr;
  receive := receive simPr;
  finalize := fun st g ps arts => match finalize simPr st g ps arts with
    | Ok (AnotherRound st') => Ok (AnotherRound st') | Ok (Finished_ r) => Ok (Finished_ (N.even r)) | Err e => Err e | Panic => Panic end;
  round_info := round_info simPr |}.
Definition evenEP : EntryPoint evenPr := @mkEP toyP evenPr (ep_id simEP) (ep_make simEP).
Lemma even_alike (x : St simPr) (y : St evenPr) : y = x -> alike simPr evenPr (fun p => p) (fun a => a) N.even (fun x y => y = x) x y.
Proof.
  intros ->. constructor; intros; try reflexivity.
  - cbn [mk_direct evenPr]. destruct (mk_direct simPr x g v) as [[b a]| |]; reflexivity.
  - cbn [receive evenPr]. destruct (receive simPr x v m); reflexivity.
  - rewrite !map_values_id by reflexivity. cbn [finalize evenPr]. destruct (finalize simPr x g ps arts) as [[]| |]; cbn [orel]; auto.
Qed.
