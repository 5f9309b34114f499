(** An executable form of histories ([Spec.run]), used to build the concrete cases shown next to the theorems. *)
From Coq Require Import List NArith Bool.
From Verif Require Import Base BMap Errors RoundId Message Protocol Transcript Evidence Session Spec.
Import ListNotations.
Set Implicit Arguments.

Section WithParams.
  Context {P : Params}.
  Context {Pr : Proto}.

  Inductive cmd :=
  | CPre (from : Verifier) (m : Message)   (* preprocess a message *)
  | CProc (n : nat)                        (* process and add the n-th handed out message *)
  | CArt (dest : Verifier)                 (* make a message, add the artifact *)
  | CFin.                                  (* finalize *)

  Context (g : rng).

  Fixpoint take_nth {A} (n : nat) (l : list A) : option (list A * A * list A) :=
    match l, n with
    | [], _ => None
    | x :: l, O => Some ([], x, l)
    | x :: l, S n => match take_nth n l with Some (l1, y, l2) => Some (x :: l1, y, l2) | None => None end
    end.

  Lemma take_nth_ok {A} n (l : list A) l1 x l2 : take_nth n l = Some (l1, x, l2) -> l = l1 ++ x :: l2.
  Proof.
    revert n l1; induction l as [|y l IH]; intros [|n] l1; simpl; try discriminate.
    - intros H. inv H. reflexivity.
    - destruct (take_nth n l) as [[[l1' x'] l2']|] eqn:E; [|discriminate]. intros H. inv H.
      simpl. f_equal. now apply IH in E.
  Qed.

  Definition exec1 (d : DState Pr) (c : cmd) : option (event Pr * DState Pr) :=
    let '(DS s a todo) := d in
    match c with
    | CPre from m =>
        match preprocess_message s a from m with
        | (a', Ok o) => Some (EPre from m o, DS s a' (match o with ToProcess vm => vm :: todo | _ => todo end))
        | _ => None
        end
    | CProc n =>
        match take_nth n todo with
        | Some (t1, vm, t2) =>
            match add_processed s a (process_message s vm) with
            | (a', Ok tt) => Some (EProc vm, DS s a' (t1 ++ t2))
            | _ => None
            end
        | None => None
        end
    | CArt dest =>
        if mem dest (message_destinations s) then
          match make_message s g dest with
          | Ok (_, (dest', art)) =>
              if eqb dest' dest then
                match add_artifact a (dest, art) with
                | (a', Ok tt) => Some (EArt g dest art, DS s a' todo)
                | _ => None
                end
              else None
          | _ => None
          end
        else None
    | CFin =>
        match can_finalize a, finalize_round s g a with
        | Yes, Ok (ROAnother s' c) => Some (EFin g, DS s' (make_accumulator s') c)
        | _, _ => None
        end
    end.

  Fixpoint exec (d : DState Pr) (cs : list cmd) : option (list (event Pr) * DState Pr) :=
    match cs with
    | [] => Some ([], d)
    | c :: cs =>
        match exec1 d c with
        | Some (e, d1) => match exec d1 cs with Some (es, d2) => Some (e :: es, d2) | None => None end
        | None => None
        end
    end.

  Lemma exec1_step d c e d' : exec1 d c = Some (e, d') -> step d e d'.
  Proof.
    destruct d as [s a todo], c as [from m|n|dest|]; cbn [exec1].
    - destruct (preprocess_message s a from m) as [a' [o| |]] eqn:E; try discriminate. intros H. inv H. now constructor.
    - destruct (take_nth n todo) as [[[t1 vm] t2]|] eqn:Et; [|discriminate].
      destruct (add_processed _ _ _) as [a' [[]| |]] eqn:E; try discriminate. intros H. inv H.
      apply take_nth_ok in Et. subst. now constructor.
    - destruct (mem dest _) eqn:Em; [|discriminate].
      destruct (make_message s g dest) as [[m [dest' art]]| |] eqn:Emk; try discriminate.
      destruct (eqb_spec dest' dest) as [->|]; [|discriminate].
      destruct (add_artifact a (dest, art)) as [a' [[]| |]] eqn:E; try discriminate. intros H. inv H. econstructor; eauto.
    - destruct (can_finalize a) eqn:Ec; try discriminate.
      destruct (finalize_round s g a) as [[rep|s' c]| |] eqn:E; try discriminate. intros H. inv H. now constructor.
  Qed.

  Lemma exec_run_gen d0 es0 d cs es d' : run d0 es0 d -> exec d cs = Some (es, d') -> run d0 (es0 ++ es) d'.
  Proof.
    revert es0 d es. induction cs as [|c cs IH]; simpl; intros es0 d es Hr H.
    - inv H. now rewrite app_nil_r.
    - destruct (exec1 d c) as [[e d1]|] eqn:E; [|discriminate].
      destruct (exec d1 cs) as [[es1 d2]|] eqn:E2; [|discriminate]. inv H.
      replace (es0 ++ e :: es1) with ((es0 ++ [e]) ++ es1) by now rewrite <- app_assoc.
      eapply IH; eauto. econstructor; eauto. now apply exec1_step with c.
  Qed.

  Lemma exec_run d cs es d' : exec d cs = Some (es, d') -> run d es d'.
  Proof. intros H. change es with ([] ++ es). eapply exec_run_gen; eauto. constructor. Qed.

  Definition final (d : DState Pr) (cs : list cmd) : DState Pr := match exec d cs with Some (_, d') => d' | None => d end.
  Definition trace (d : DState Pr) (cs : list cmd) : list (event Pr) := match exec d cs with Some (es, _) => es | None => [] end.

  Lemma final_run d cs : exec d cs <> None -> run d (trace d cs) (final d cs).
  Proof.
    unfold final, trace. destruct (exec d cs) as [[es d']|] eqn:E; [|congruence]. intros _. now apply exec_run with cs.
  Qed.

  Lemma final_reachable s cs : initial s -> exec (start s) cs <> None -> reachable (final (start s) cs).
  Proof. intros Hi He. exists s, (trace (start s) cs). split; auto. now apply final_run. Qed.
End WithParams.
Arguments exec {P Pr} g d cs.
Arguments final {P Pr} g d cs.
Arguments trace {P Pr} g d cs.
