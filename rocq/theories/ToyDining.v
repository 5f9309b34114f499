(** The dining cryptographers with the parameters of the example. Used by PropDining.v only. *)
From Coq Require Import List Arith NArith Bool Lia.
From Verif Require Import Base BMap Errors RoundId Message Protocol Transcript Evidence Session Spec Typed Network RunSync Simple Dining
  SpecCrypto SpecTyped SpecNet TestParams TestParamsFacts ToyTest ToyCodec DiningFacts.
Import ListNotations.
Set Implicit Arguments.

Lemma test_bool_ok : codec_ok test_bool.
Proof. intros x. eexists. split; [reflexivity|]. destruct x; reflexivity. Qed.

Definition test_diner : EntryPoint (wrap test_dining) := @dining_entry testP (fun n => n) (fun v => v) test_bool test_bool (fun _ => true).

Lemma test_main r sid picks :
  exists fuel0 reports results, (forall fuel, fuel0 <= fuel ->
      run_sync (P := testP) fuel r picks sid (map (fun v => (v, test_diner)) [0; 1; 2]%N) = Some (Ok reports)) /\
    exec_results reports = Some results /\
    forall v, if N.ltb v 3
      then exists b0 b1 b2, get v results = Some (b0, b1, b2) /\ xorb (xorb b0 b1) b2 = even (rsub 0 (nr_new r 0%N) [0])
      else get v results = None.
Proof.
  destruct (@dining_main testP (fun n => n) (fun v => v) (fun i _ => eq_refl) test_bool test_bool (fun _ => true) test_bool_ok test_bool_ok
    test_wire test_signatures (fun v => v) (fun v _ => eq_refl) r sid picks) as (fuel0 & reports & results & H1 & H2 & H3).
  exists fuel0, reports, results. split; [|split; [exact H2|]].
  - intros fuel Hf. exact (H1 fuel Hf).
  - intros v. specialize (H3 v). match type of H3 with if ?b then _ else _ => assert (E : b = N.ltb v 3) end.
    { apply eq_true_iff_eq. rewrite N.ltb_lt. split.
      - intros E. apply mem_set_of_list in E. simpl in E. destruct E as [<-|[<-|[<-|[]]]]; reflexivity.
      - intros Hl. exact (@HonestFacts.diners_at_table testP (fun n => n) v Hl). }
    rewrite E in H3. exact H3.
Qed.

Definition dinner (r : NetRng (P := testP)) (picks : nat -> nat) (ep : N -> EntryPoint (wrap test_dining)) : list (bool * bool * bool) :=
  match run_sync (P := testP) 40 r picks [1; 2]%N (map (fun v => (v, ep v)) [0; 1; 2]%N) with
  | Some (Ok reports) => flat_map (fun kv => match rep_outcome (snd kv) with OResult x => [x] | _ => [] end) (to_list reports)
  | _ => []
  end.
(** With the first of these draws diner 0 has paid, with the second one nobody has. *)
Definition draws (n : N) : NetRng (P := testP) := @mkNetRng testP (fun v _ => (v + n)%N) (fun v _ d _ => (v + 300 * d)%N) (fun _ _ _ => 7%N).

(** Diners with given tosses and payments. *)
Definition given (toss paid : N -> bool) (v : N) : EntryPoint (wrap test_dining) :=
  @mkEP testP (wrap test_dining) (rid_new 1) (fun _ _ id => Ok (box test_dining DR1 (@mkDining1 testP id (toss id) (paid id)) : St (wrap test_dining))).

Lemma main_case : even (rsub 0 (nr_new (draws 0) 0%N) [0]) = true /\
  dinner (draws 0) (fun k => k) (fun _ => test_diner) = [(true, true, true); (true, true, true); (true, true, true)] /\
  even (rsub 0 (nr_new (draws 1) 0%N) [0]) = false /\
  dinner (draws 1) (fun k => k) (fun _ => test_diner) = [(true, true, false); (false, true, true); (false, true, true)].
Proof. repeat split; vm_compute; reflexivity. Qed.

(** Diner 0 does not learn whether diner 2 paid, or diner 1. *)
Definition toss0 (v : N) : bool := N.eqb v 1.
Lemma anonymous_case :
  (forall v, ep_make (given toss0 (fun u => N.eqb u 2) v) (rsub 0 (nr_new (draws 1) v)) [1; 2]%N v =
     Ok (box test_dining DR1 (@mkDining1 testP v (toss0 v) (N.eqb v 2)) : St (wrap test_dining))) /\
  (forall v, ep_make (given (fun u => if N.eqb u 1 then negb (toss0 u) else toss0 u) (fun u => N.eqb u 1) v) (rsub 0 (nr_new (draws 0) v)) [1; 2]%N v =
     Ok (box test_dining DR1 (@mkDining1 testP v (if N.eqb v 1 then negb (toss0 v) else toss0 v) (N.eqb v 1)) : St (wrap test_dining))) /\
  dinner (draws 1) (fun k => k) (given toss0 (fun u => N.eqb u 2)) = [(true, false, false); (false, false, true); (false, true, false)] /\
  dinner (draws 0) S (given (fun u => if N.eqb u 1 then negb (toss0 u) else toss0 u) (fun u => N.eqb u 1)) = [(true, false, false); (false, false, true); (false, true, false)].
Proof. split; [reflexivity|]. split; [reflexivity|]. split; vm_compute; reflexivity. Qed.
