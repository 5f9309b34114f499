(** The tests of examples/src/simple_test.rs with the concrete parameters of Toy.v. Used only by [Example]s. *)
From Coq Require Import List NArith Bool.
From Verif Require Import Base BMap Errors RoundId Message Protocol Transcript Evidence Session Typed Simple Extend SpecExtend Network RunSync Misbehave SimpleTest
  Toy ToySimple ToyNet.
Import ListNotations.
Set Implicit Arguments.

Definition make_entry_points (n : nat) : list (@Signer toyP * EntryPoint (wrap simT)) := @test_entry_points toyP toyW (group n) key.
Definition invalid1 : Ext simT SR1 := @SimpleTest.invalid1 toyP toyW.
Definition invalid2 : Ext simT SR2 := @SimpleTest.invalid2 toyP toyW.
Definition nothing2 : Ext simT SR2 := mkExt (T := simT) (k := SR2) None None None None.

(** The evidence consists of an error of the protocol in round [n]. *)
Definition in_round (n : N) (ev : Evidence (P := toyP)) : bool :=
  match ev_body ev with
  | EvProtocol e => match pe_direct e with Some p => eqb (m_round (sp_meta p)) (rid_new n) | None => false end
  | _ => false
  end.
Definition test (n : nat) (picks : nat -> nat) (k : SimpleK) (e : Ext simT k) (describes : Evidence -> bool) :=
  @check_evidence_with_extension toyP simT 40 rN picks sid0 (make_entry_points n) tt k e describes.
