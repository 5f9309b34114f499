(** Networks of the example protocols with the concrete parameters of Toy.v. Used only by [Example]s and witnesses. *)
From Coq Require Import List NArith Bool Arith Lia.
From Verif Require Import Base BMap Errors RoundId Message Protocol Transcript Evidence Session Spec SpecCrypto Exec Typed SpecTyped Simple Dining
  IntakeFacts HistoryFacts Network SpecNet Toy ToyCrypto ToySimple HonestFacts.
Import ListNotations.
Set Implicit Arguments.

Definition rN : NetRng (P := toyP) := @mkNetRng toyP (fun _ => g0) (fun _ _ _ => g0) (fun _ _ => g0).
Definition persons (n : nat) : list N := map N.of_nat (seq 0 n).
Definition group (n : nat) : bset (@Verifier toyP) := set_of_list (persons n : list (@Verifier toyP)).
Definition key (v : @Verifier toyP) : @Signer toyP := v.

Section Play.
  Context {Pr : Proto (P := toyP)}.
  Fixpoint play (net : Net Pr) (xs : list (action (P := toyP))) : option (Net Pr) :=
    match xs with
    | [] => Some net
    | x :: xs => match act rN net x with Some (Ok net') => play net' xs | _ => None end
    end.
  Lemma play_schedule_from xs : forall net ys net1 net', schedule rN net ys net1 -> play net1 xs = Some net' -> schedule rN net (ys ++ xs) net'.
  Proof.
    induction xs as [|x xs IH]; simpl; intros net ys net1 net' Hs H.
    - inv H. now rewrite app_nil_r.
    - destruct (act rN net1 x) as [[net2| |]|] eqn:E; try discriminate.
      replace (ys ++ x :: xs) with ((ys ++ [x]) ++ xs) by now rewrite <- app_assoc. eapply IH; [|exact H]. econstructor; eauto.
  Qed.
  Lemma play_schedule net xs net' : play net xs = Some net' -> schedule rN net xs net'.
  Proof. intros H. apply (@play_schedule_from xs net [] net net'); [constructor|exact H]. Qed.

  (** Everybody sends everything, everything is delivered in the order it was sent and processed, everybody finalizes. *)
  Definition exchange (n : nat) : list (action (P := toyP)) :=
    flat_map (fun v => map (fun u => @ASend toyP v u) (filter (fun u => negb (N.eqb u v)) (persons n))) (persons n)
    ++ repeat (@ADeliver toyP 0) (n * (n - 1))
    ++ flat_map (fun v => repeat (@AProcess toyP v 0) (n - 1)) (persons n).
  Definition finish (n : nat) : list (action (P := toyP)) := map (fun v => @AFinalize toyP v) (persons n).

  (** Every one of three parties sends to the one [k] places further. *)
  Definition dine (k : N) : list (action (P := toyP)) :=
    map (fun v => @ASend toyP v (N.modulo (v + k) 3)) (persons 3) ++ repeat (@ADeliver toyP 0) 3 ++ map (fun v => @AProcess toyP v 0) (persons 3).

  Definition net_of (o : option (Net Pr)) : Net Pr := match o with Some net => net | None => mkNet empty [] end.
  Definition started (r : res LocalError (Net Pr)) : Net Pr := match r with Ok net => net | _ => mkNet empty [] end.
  Lemma play_ok net xs : is_some (play net xs) = true -> schedule rN net xs (net_of (play net xs)).
  Proof. intros H. apply play_schedule. destruct (play net xs); [reflexivity|discriminate]. Qed.
  Lemma started_ok (r : res LocalError (Net Pr)) : is_ok r = true -> r = Ok (started r).
  Proof. destruct r; [reflexivity|discriminate|discriminate]. Qed.
  Definition panics (net : Net Pr) (x : action (P := toyP)) : bool := match act rN net x with Some Panic => true | _ => false end.
  Lemma panics_ok net x : panics net x = true -> act rN net x = Some Panic.
  Proof. unfold panics. destruct (act rN net x) as [[| |]|]; try discriminate. reflexivity. Qed.
  Lemma panic_witness (start : res LocalError (Net Pr)) xs x :
    (is_ok start && is_some (play (started start) xs) && panics (net_of (play (started start) xs)) x)%bool = true ->
    exists net0 net, start = Ok net0 /\ schedule rN net0 xs net /\ act rN net x = Some Panic.
  Proof.
    intros H. apply andb_prop in H as [H H3]. apply andb_prop in H as [H1 H2]. eexists _, _.
    split; [exact (started_ok _ H1)|]. split; [exact (play_ok _ _ H2)|]. exact (panics_ok _ _ H3).
  Qed.
  Definition outcomes (net : Net Pr) : list (option (Rslt Pr)) :=
    map (fun kv => match snd kv with Ended rep => match rep_outcome rep with OResult x => Some x | _ => None end | Running _ => None end) (to_list (nodes net)).
End Play.

Lemma toy_wire : wire_total toyP.
Proof.
  constructor.
  - intros m. simpl. eauto.
  - intros r s d. simpl. eauto.
  - intros m. simpl. eexists. split; [reflexivity|]. apply toy_echo_round_trip.
Qed.
Lemma toy_signers n : signers (group n) key.
Proof. intros v _. reflexivity. Qed.
Lemma toy_simple_wire : codec_ok (sw_message1 toyW) /\ codec_ok (sw_echo1 toyW) /\ codec_ok (sw_broadcast1 toyW) /\ codec_ok (sw_message2 toyW).
Proof. repeat split; intros x; eexists; (split; [reflexivity|]); destruct x; reflexivity. Qed.
Lemma bool_codec_ok : codec_ok bool_codec.
Proof. intros [|]; eexists; (split; reflexivity). Qed.

(** A notation, so that the conversion test never has to compute with it. *)
Notation simple_net n := (@honest_net toyP (wrap (@simple toyP toyW)) rN sid0 (group n) key (fun _ => @simple_entry toyP toyW (group n))).
Notation dining_net := (@honest_net toyP (wrap dinT) rN sid0 (group 3) key (fun _ => dinEP)).

(** 17 parties in the second round. *)
Definition crowd : list (action (P := toyP)) := exchange 17 ++ finish 17 ++ exchange 17 ++ finish 17 ++ exchange 17.
Lemma crowd_check : (is_ok (simple_net 17) && is_some (play (started (simple_net 17)) crowd) &&
  panics (net_of (play (started (simple_net 17)) crowd)) (@AFinalize toyP 0%N))%bool = true.
Proof. vm_cast_no_check (eq_refl true). Qed.
Lemma crowd_overflows : exists (P : Params) W r sid parties sk net0 xs net v,
  (codec_ok (sw_message1 W) /\ codec_ok (sw_echo1 W) /\ codec_ok (sw_broadcast1 W) /\ codec_ok (sw_message2 W)) /\
  wire_total P /\ signatures_correct P /\ signers parties sk /\ length (elements parties) = 17 /\
  honest_net r sid parties sk (fun _ => simple_entry W parties) = Ok net0 /\
  schedule r net0 xs net /\ act r net (AFinalize v) = Some Panic.
Proof.
  destruct (@panic_witness (wrap (@simple toyP toyW)) (simple_net 17) crowd (@AFinalize toyP 0%N) crowd_check) as (net0 & net & H1 & H2 & H3).
  exists toyP, toyW, rN, sid0, (group 17), key, net0, crowd, net, (0%N : @Verifier toyP).
  split; [exact toy_simple_wire|]. split; [exact toy_wire|]. split; [exact toy_signatures|]. split; [exact (@toy_signers 17)|].
  split; [vm_compute; reflexivity|]. split; [exact H1|]. split; [exact H2|exact H3].
Qed.
