(** Vocabulary of the properties about extending composed protocols. No proofs here. *)
From Coq Require Import List NArith Bool.
From Verif Require Import Base BMap Errors RoundId Message Protocol Typed Chain Extend SpecExtend.
Import ListNotations.
Set Implicit Arguments.

Section WithParams.
  Context {P : Params}.

  (** A join given by the entry points it makes for the second protocol. *)
  Definition join_of {A B : Proto} (rid : RoundId) (J : Type) (mk : J -> Rslt A -> EntryPoint B) : Join A B :=
    @mkJoin P A B rid J (fun tr r g sr id => ep_make (mk tr r) g sr id).

  Context (T1 T2 : TProto).
  Context (rid : RoundId) (J : Type) (mk : J -> TRslt T1 -> EntryPoint (wrap T2)).

  (** The chain of two protocols, both of them extended, ... *)
  Definition chain_of_extended (l2 : list (AnyExt T2)) : Join (extended T1) (extended T2) :=
    @join_of (extended T1) (extended T2) rid J (fun tr r => extendable_entry (register (mk tr r) l2)).
  (** ... and of the two protocols rewritten by hand. *)
  Definition chain_of_patched (c1 : choice T1) (c2 : choice T2) : Join (wrap (patch c1)) (wrap (patch c2)) :=
    @join_of (wrap (patch c1)) (wrap (patch c2)) rid J (fun tr r => patched c2 (mk tr r)).
End WithParams.
Arguments chain_of_extended {P T1 T2} rid {J} mk l2.
Arguments chain_of_patched {P T1 T2} rid {J} mk c1 c2.
