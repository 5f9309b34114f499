(** The dining cryptographers started with clones of one generator. Used by PropDet.v only. *)
From Coq Require Import List Arith NArith Bool Lia.
From Verif Require Import Base BMap Errors RoundId Message Protocol Transcript Evidence Session Spec Typed Network RunSync Simple Dining
  SpecDet DetFacts TestParams ToyCodec ToyDining.
Import ListNotations.
Set Implicit Arguments.

Definition has_paid (st : St (wrap test_dining)) : bool :=
  match st with existT _ DR1 x => d1_paid (P := testP) x | _ => false end.
Definition told_toss (m : Message (P := testP)) : bool :=
  match sp_body (msg_direct m) with
  | Some b => match c_deser test_bool b with Some x => x | None => false end
  | None => false
  end.
(** The draws are all 0, or all 1. *)
Definition clones (b : bool) : NetRng (P := testP) :=
  @mkNetRng testP (fun _ _ => if b then 0%N else 1%N) (fun _ _ _ _ => 0%N) (fun _ _ _ => 0%N).

Lemma told_witness : exists (P : Params) (Pr : Proto) (ep : EntryPoint Pr) (sk0 sk1 : Signer)
    (secret : St Pr -> bool) (told : Message -> bool),
  signer_key sk0 <> signer_key sk1 /\
  (forall b, exists r, cloned r /\ forall sid, exists st, ep_make ep (rsub 0 (nr_new r (signer_key sk0))) sid (signer_key sk0) = Ok st /\ secret st = b) /\
  forall r sid st s g dest m a, cloned r ->
    ep_make ep (rsub 0 (nr_new r (signer_key sk0))) sid (signer_key sk0) = Ok st ->
    session_new (nr_new r (signer_key sk1)) sid sk1 ep = Ok s -> make_message s g dest = Ok (m, a) -> told m = secret st.
Proof.
  exists testP, (wrap test_dining), test_diner, 0%N, 1%N, has_paid, told_toss.
  split; [discriminate|]. split.
  - intros b. exists (clones b). split; [intros u v; reflexivity|]. intros sid. eexists. split; [reflexivity|]. destruct b; reflexivity.
  - intros r sid st s g dest m a Hc H0 Hs Hm.
    assert (Hst : st = box test_dining DR1 (@mkDining1 testP 0%N (even (rsub 0 (nr_new r 0%N) [1])) (even (rsub 0 (nr_new r 0%N) [0])))).
    { apply (f_equal (fun x => match x with Ok y => y | _ => st end)) in H0. symmetry. exact H0. }
    rewrite Hst in *. cbn [has_paid box d1_paid].
    pose proof (@toss_tells testP (fun n => n) (fun v => v) (fun i _ => eq_refl) test_bool test_bool (fun _ => true) r sid _ _ 1%N 1%N s g dest m a
      Hc H0 eq_refl (or_introl eq_refl) Hs Hm) as E.
    unfold told_toss. rewrite E. destruct (even (rsub 0 (nr_new r 0%N) [0])); reflexivity.
Qed.
