(** Properties C120 and C121: what [run_session] does is determined by what it receives; the randomness of [run_async]. *)
From Coq Require Import List NArith Bool.
From Verif Require Import Base BMap Errors RoundId Message Protocol Transcript Evidence Session Spec Typed Network RunSync Simple Dining Driver
  SpecDriver Par SpecParFailure SpecDet DetFacts TestParams Toy ToyNet ToyDriver ToyCodec ToyDining ToyClone.
Import ListNotations.
Set Implicit Arguments.

(** C120. Two calls of [run_session] with the same session and the same random choices, of which the second has received all
    that the first has received, in the same order, and possibly more: either the first has done everything the second did so
    far, or the second has. They make the same messages and process the same messages in the same order, whenever these arrive;
    the number of messages somebody signs for a round does not matter (cf. C119). *)
Theorem C120_one_course : forall (P : Params) (Pr : Proto) r (s0 : Session Pr) ls d ls' d',
  run_session r s0 ls d -> run_session r s0 ls' d' -> undisturbed ls -> undisturbed ls' -> begins_with (inbox ls') (inbox ls) ->
  (exists rest, ls' = ls ++ rest /\ drv_run r d rest d') \/ (exists rest, ls = ls' ++ rest /\ drv_run r d' rest d).
Proof. exact @session_one_course. Qed.
Print Assumptions C120_one_course.

(** If both have returned, they have returned the same, and received the same. *)
Theorem C120_same_outcome : forall (P : Params) (Pr : Proto) r (s0 : Session Pr) ls o ls' o',
  run_session r s0 ls (DrvDone o) -> run_session r s0 ls' (DrvDone o') -> undisturbed ls -> undisturbed ls' ->
  begins_with (inbox ls') (inbox ls) -> ls' = ls /\ o' = o.
Proof. exact @session_same_outcome. Qed.
Print Assumptions C120_same_outcome.

(** A call that has returned, and one that is still waiting for the second of its four messages. *)
Example C120_case :
  let ls := tlabels cfg3n 0 (firstn 3 good_inputs) in let ls' := tlabels cfg3n 0 good_inputs in
  run_session rN (tsession cfg3n 0) ls (tdriver cfg3n 0 (firstn 3 good_inputs)) /\
  run_session rN (tsession cfg3n 0) ls' (tdriver cfg3n 0 good_inputs) /\
  undisturbed ls /\ undisturbed ls' /\ begins_with (inbox ls') (inbox ls) /\ (length (inbox ls), length (inbox ls')) = (1, 4) /\
  match tdriver cfg3n 0 good_inputs with DrvDone (Ok _) => true | _ => false end = true.
Proof.
  cbv zeta. split; [apply tdrive_run; vm_compute; reflexivity|]. split; [apply tdrive_run; vm_compute; reflexivity|].
  assert (U : forall ls : list (dlabel (toyPr cfg3n)),
    forallb (fun l => match l with LCancel | LClosed | LUnsent _ => false | _ => true end) ls = true -> undisturbed ls).
  { intros ls F. rewrite forallb_forall in F. split; [|split]; intros; intros H; discriminate (F _ H). }
  split; [apply U; vm_compute; reflexivity|]. split; [apply U; vm_compute; reflexivity|].
  split; [exists (skipn 1 (inbox (tlabels cfg3n 0 good_inputs))); vm_compute; reflexivity|]. split; vm_compute; reflexivity.
Qed.

(** C121 is false: [run_async] clones its generator for every node. A protocol (the dining cryptographers), two of its nodes, and
    a secret that the first draws (whether it has paid), such that everything the other sends in the first round tells the secret,
    whenever the nodes start with clones of one generator. *)
Theorem C121_independent_refuted : exists (P : Params) (Pr : Proto) (ep : EntryPoint Pr) (sk0 sk1 : Signer)
    (secret : St Pr -> bool) (told : Message -> bool),
  signer_key sk0 <> signer_key sk1 /\
  (forall b, exists r, cloned r /\ forall sid, exists st, ep_make ep (rsub 0 (nr_new r (signer_key sk0))) sid (signer_key sk0) = Ok st /\ secret st = b) /\
  forall r sid st s g dest m a, cloned r ->
    ep_make ep (rsub 0 (nr_new r (signer_key sk0))) sid (signer_key sk0) = Ok st ->
    session_new (nr_new r (signer_key sk1)) sid sk1 ep = Ok s -> make_message s g dest = Ok (m, a) -> told m = secret st.
Proof. exact told_witness. Qed.
Print Assumptions C121_independent_refuted.

(** For any parameters: if the diners start with clones of one generator, then the toss that diner 1 or 2 sends to its neighbour
    is whether diner 0 has paid. *)
Theorem C121_toss_tells : forall (P : Params) (diner : N -> Verifier) (num : Verifier -> N),
  (forall i, (i < 3)%N -> num (diner i) = i) ->
  forall (toss_codec reveal_codec : Codec bool) no_error,
  let T := dining diner num toss_codec reveal_codec no_error in
  let entry := dining_entry diner num toss_codec reveal_codec no_error in
  forall r sid toss paid sk i s g dest m a, cloned r ->
  ep_make entry (rsub 0 (nr_new r (diner 0%N))) sid (diner 0%N) = Ok (box T DR1 (mkDining1 (diner 0%N) toss paid) : St (wrap T)) ->
  signer_key sk = diner i -> i = 1%N \/ i = 2%N -> session_new (nr_new r (signer_key sk)) sid sk entry = Ok s ->
  make_message s g dest = Ok (m, a) -> sp_body (msg_direct m) = c_ser toss_codec paid.
Proof. exact @toss_tells. Qed.
Print Assumptions C121_toss_tells.

(** Diner 1 tells diner 2 that diner 0 has paid. *)
Example C121_case : cloned (clones true) /\
  ep_make test_diner (rsub 0 (nr_new (clones true) 0%N)) [7]%N 0%N = Ok (box test_dining DR1 (@mkDining1 testP 0%N true true) : St (wrap test_dining)) /\
  match session_new (P := testP) (nr_new (clones true) 1%N) [7]%N 1%N test_diner with
  | Ok s => match make_message s (fun _ => 3%N) 2%N with Ok (m, _) => told_toss m | _ => false end
  | _ => false
  end = true.
Proof. split; [intros u v; reflexivity|]. split; vm_compute; reflexivity. Qed.
