(** examples/src/simple_test.rs: the tests of the example protocol. *)
From Coq Require Import List NArith Bool.
From Verif Require Import Base BMap Errors RoundId Message Protocol Transcript Typed Simple Extend Network SpecNet.
Import ListNotations.
Set Implicit Arguments.

Section WithParams.
  Context {P : Params}.
  Context (W : SimpleWire).

  (** simple_test.rs:17-30, for the signers [sk v] of any set of parties. [BTreeSet] orders the ids; the order of the signers
      is that of their ids. *)
  Definition test_entry_points (parties : bset Verifier) (sk : Verifier -> Signer) : list (Signer * EntryPoint (wrap (simple W))) :=
    map (fun v => (sk v, simple_entry W parties)) (elements parties).

  (** simple_test.rs:43-54, 76-87 *)
  Definition own_position (c : Ctx) : res LocalError (Position * unit) :=
    let* m := position c (cx_id c) in Ok (mkPosition m m, tt).
  Definition invalid1 : Ext (simple W) SR1 := mkExt (T := simple W) (k := SR1) None None (Some (fun _ c _ => own_position c)) None.
  Definition invalid2 : Ext (simple W) SR2 := mkExt (T := simple W) (k := SR2) None None (Some (fun _ s _ => own_position (s2_ctx s))) None.

  (** The expected descriptions ("(Round 1): Invalid position", "(Round 2): Invalid position") are those of a protocol error
      in this round. *)
  Definition accepts (describes : Evidence -> bool) (n : N) (error : Codec unit) : Prop :=
    forall ev e p, ev_body ev = EvProtocol e -> c_ser error tt = Some (pe_error e) -> pe_direct e = Some p ->
      m_round (sp_meta p) = rid_new n -> describes ev = true.
End WithParams.
