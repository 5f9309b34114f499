(** Property C134 (messages that their declared sender did not sign), and what C11 leads to. *)
From Coq Require Import List NArith Bool.
From Verif Require Import Base BMap Errors RoundId Message Protocol Transcript Evidence Session Spec IntakeFacts Network RunSync Driver SpecDriver
  Par SpecPar SpecForge ForgeFacts Exec Toy ToyNet ToyDriver ToyPar ToyStranger ToyForge.
Import ListNotations.
Set Implicit Arguments.

(** C11: a round that waits for a banned party, of whom no message is left to be processed, is never finished: it waits, whatever
    happens. *)
Theorem C11_waits_forever : forall (P : Params) (Pr : Proto) (d : DState Pr) v es d',
  reachable d -> mem v (a_waiting (d_a d)) = true -> banned (d_s d) (d_a d) v -> (forall vm, In vm (d_todo d) -> vm_from vm <> v) ->
  run d es d' -> in_round es /\ can_finalize (d_a d') = NotYet.
Proof. exact @waits_on. Qed.
Print Assumptions C11_waits_forever.

(** So both drivers finalize no round any more, and do not return a report unless they are cancelled. *)
Theorem C11_run_session_waits : forall (P : Params) (Pr : Proto) r (s0 : Session Pr) l1 s a v,
  initial s0 -> run_session r s0 l1 (DrvWait s a) -> mem v (a_waiting a) = true -> banned s a v -> blocked r (DrvWait s a).
Proof. exact (fun P Pr r s0 l1 s a v Hi H Hw Hb ls d' => @session_waits_on P Pr r s0 l1 s a v ls d' Hi H Hw Hb). Qed.
Print Assumptions C11_run_session_waits.

Theorem C11_par_run_session_waits : forall (P : Params) (Pr : Proto) r (s0 : Session Pr) l1 x v l2 p,
  initial s0 -> par_session r s0 l1 (PRun x) -> pp_phase x = Loop ->
  mem v (a_waiting (pp_a x)) = true -> banned (pp_s x) (pp_a x) v -> (forall vm, In vm (handed x) -> vm_from vm <> v) ->
  par_run r (PRun x) l2 p -> ~ In LCancel l2 ->
  (forall s a, ~ In (LFinalize s a) l2) /\ forall rep, p <> PStop (Ok rep).
Proof. exact @par_session_waits_on. Qed.
Print Assumptions C11_par_run_session_waits.

(** The three situations: party 1 has sent a message with a wrong session id. *)
Definition wrong_session : Message (P := toyP) := tforge 1 [8]%N (rid_new 1) None None None.
Definition bans_one {Pr : Proto (P := toyP)} (s : Session Pr) (a : Accum Pr) : bool :=
  (mem (1%N : @Verifier toyP) (a_waiting a) && contains (1%N : @Verifier toyP) (a_unprovable a))%bool.
Example C11_waits_case :
  (let d := tfinal cfg3n 0 [@CPre toyP 1%N wrong_session; pre cfg3n 2 0] in
   reachable d /\ bans_one (d_s d) (d_a d) = true /\ map vm_from (d_todo d) = [2%N : @Verifier toyP]) /\
  (let is := [@IGo toyP; @IGo toyP; @IRecv toyP 1%N wrong_session; rx cfg3n 2 0] in
   is_some (tdrive cfg3n 0 is) = true /\ match tdriver cfg3n 0 is with DrvWait s a => bans_one s a | _ => false end = true) /\
  (let acts := [@AReceive toyP 1%N wrong_session] in
   is_some (tpar cfg3n 0 acts) = true /\
   match tparty cfg3n 0 acts with PRun x => match pp_phase x, handed x with Loop, [] => bans_one (pp_s x) (pp_a x) | _, _ => false end | _ => false end = true).
Proof. split; [split; [apply toy_reachable; toy|split; toy]|]. split; split; vm_compute; reflexivity. Qed.

(** C134. The assumption of session/tokio.rs:43, that the sender of an incoming message has been authenticated, is needed although messages
    are signed: a message without any valid signature, said to come from party 2, makes [run_session] wait until it is cancelled; without this
    message it would have returned a result. *)
Theorem C134_authentication_needed : exists (P : Params) (Pr : Proto) r (s0 : Session Pr) ls s a from m a' ls' rep x,
  plain_ids Pr /\ (forall mt, ser_meta mt <> None) /\ initial s0 /\ run_session r s0 ls (DrvWait s a) /\ forged s from m /\
  drv_run r (DrvWait s a) ls' (DrvDone (Ok rep)) /\ rep_outcome rep = OResult x /\ ~ In LCancel ls' /\
  drv_step r (DrvWait s a) (IRecv from m) = Some ([LIn from m], DrvWait s a') /\ blocked r (DrvWait s a').
Proof. exact forgery_blocks_toy. Qed.
Print Assumptions C134_authentication_needed.

(** It is so for all protocols: whenever [run_session] waits for somebody, any message which this party has not signed for this session
    (for example an old one, of another session), if only it is said to come from there, has this effect. *)
Theorem C134_forgery_blocks : forall (P : Params) (Pr : Proto) r (s0 : Session Pr) ls s a from m,
  plain_ids Pr -> (forall mt, ser_meta mt <> None) -> initial s0 ->
  run_session r s0 ls (DrvWait s a) -> mem from (a_waiting a) = true -> ~ banned s a from -> forged s from m ->
  exists a', drv_step r (DrvWait s a) (IRecv from m) = Some ([LIn from m], DrvWait s a') /\ banned s a' from /\ blocked r (DrvWait s a').
Proof. exact @forged_blocks. Qed.
Print Assumptions C134_forgery_blocks.

Example C134_blocks_case : (forall (s : Session (toyPr cfg3n)) v, forged s (v : @Verifier toyP) forgery) /\
  is_some (tdrive cfg3n 0 stranger_before) = true /\
  match tdriver cfg3n 0 stranger_before with
  | DrvWait s a => (mem (2%N : @Verifier toyP) (a_waiting a) && negb (tr_is_banned (s_tr s) (2%N : @Verifier toyP) || a_is_banned a (2%N : @Verifier toyP)))%bool
  | _ => false end = true.
Proof. split; [intros; apply forgery_forged|]. split; vm_compute; reflexivity. Qed.

(** But the only effect of such a message is that an unprovable error is noted for the declared sender. *)
Theorem C134_only_effect : forall (P : Params) (Pr : Proto) (d : DState Pr) from m,
  plain_ids Pr -> (forall mt, ser_meta mt <> None) -> reachable d -> ~ banned (d_s d) (d_a d) from -> forged (d_s d) from m ->
  exists e a', preprocess_message (d_s d) (d_a d) from m = (a', Ok (PreError e)) /\ only_notes (d_a d) from e a'.
Proof. exact @forged_bans. Qed.
Print Assumptions C134_only_effect.

Example C134_case : let d := tfinal cfg3n 0 [pre cfg3n 1 0] in reachable d /\ forged (d_s d) (2%N : @Verifier toyP) forgery /\
  (tr_is_banned (s_tr (d_s d)) (2%N : @Verifier toyP) || a_is_banned (d_a d) (2%N : @Verifier toyP))%bool = false.
Proof. split; [apply toy_reachable; toy|]. split; [apply forgery_forged|toy]. Qed.
