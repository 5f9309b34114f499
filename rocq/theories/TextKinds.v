(** The descriptions of evidence tell what it is about. *)
From Coq Require Import List NArith Bool String Ascii.
From Verif Require Import Base BMap Errors RoundId Message Protocol Transcript Evidence Text TextFacts.
Import ListNotations.
Set Implicit Arguments.
Local Open Scope string_scope.

Lemma prefix_split s t : String.prefix s t = true -> exists x, t = s ++ x.
Proof.
  revert t. induction s as [|c s IH]; intros t; [exists t; reflexivity|]. destruct t as [|d t]; cbn [String.prefix]; [discriminate|].
  destruct (ascii_dec c d) as [->|]; [|discriminate]. intros H. destruct (IH _ H) as (x & ->). exists x. reflexivity.
Qed.
Lemma prefix_iff s t : String.prefix s t = true <-> exists x, t = s ++ x.
Proof. split; [apply prefix_split|]. intros (x & ->). apply prefix_app. Qed.

Lemma sapp_assoc (a b c : string) : (a ++ b) ++ c = a ++ (b ++ c).
Proof. induction a as [|x a IH]; cbn [append]; congruence. Qed.

Section Kinds.
  Context {P : Params} {R : Type}.
  Variable tx : Texts (P := P) R.

  Lemma kinds (ev : Evidence) :
    (forall n, String.prefix ("Protocol error (Round " ++ show_N n ++ "): ") (describe tx ev) = true <->
       exists e, ev_body ev = EvProtocol e /\ n = match trigger_meta e with Some m => rid_round (m_round m) | None => 0%N end) /\
    (String.prefix "Direct message error: " (describe tx ev) = true <-> exists p, ev_body ev = EvDirect p) /\
    (String.prefix "Echo broadcast error: " (describe tx ev) = true <-> exists p, ev_body ev = EvEcho p) /\
    (String.prefix "Normal broadcast error: " (describe tx ev) = true <-> exists p, ev_body ev = EvNormal p) /\
    (describe tx ev = "Invalid message received among the ones echoed" <-> exists a b, ev_body ev = EvInvalidEcho a b) /\
    (describe tx ev = "The echoed message is different from the originally received one" <-> exists a b c, ev_body ev = EvMismatched a b c).
  Proof.
    unfold describe. destruct (ev_body ev) as [e|p|p|p|a b|a b c]; repeat split; intros H;
      try discriminate H; try (destruct H as (? & H); try destruct H as (? & H); try destruct H as (? & H); discriminate H); eauto;
      try (match goal with |- String.prefix ?s (?s ++ ?x) = true => exact (prefix_app s x) end).
    - apply prefix_split in H as (x & H). exists e. split; [reflexivity|].
      cbn [append] in H. injection H as H. rewrite sapp_assoc in H.
      apply digits_split in H as [H _]; auto using show_digits; try reflexivity. symmetry. exact (show_inj _ _ H).
    - destruct H as (e' & E & ->). injection E as <-.
      match goal with |- String.prefix ?s _ = true => apply prefix_iff end. exists (tx_error tx (pe_error e)).
      cbn [append]. rewrite sapp_assoc. reflexivity.
    - destruct H as (? & H & _). discriminate H.
    - destruct H as (? & H & _). discriminate H.
    - destruct H as (? & H & _). discriminate H.
    - destruct H as (? & H & _). discriminate H.
    - destruct H as (? & H & _). discriminate H.
  Qed.
End Kinds.
