(** Vocabulary of the properties about chained protocols. No proofs here. *)
From Coq Require Import List NArith Bool.
From Verif Require Import Base BMap Errors RoundId Message Protocol Transcript Evidence Session Spec.
Import ListNotations.
Set Implicit Arguments.

Section Runs.
  Context {P : Params}.

  (** ** Runs of a protocol, without sessions *)
  Section One.
    Context (Pr : Proto).

    (** Every payload is the answer of round [st] to some message; every artifact was made by round [st]. *)
    Definition genuine (st : St Pr) (ps : bmap Verifier (Payload Pr)) (arts : bmap Verifier (Artifact Pr)) : Prop :=
      (forall v p, get v ps = Some p -> exists m, receive Pr st v m = Ok p) /\
      (forall v x, get v arts = Some x -> exists g b, mk_direct Pr st g v = Ok (b, x)).

    (** Round [st] may be followed by round [st']; round [st] may produce result [r]. *)
    Definition next (st st' : St Pr) : Prop :=
      exists g ps arts, genuine st ps arts /\ finalize Pr st g ps arts = Ok (AnotherRound st').
    Definition ends (st : St Pr) (r : Rslt Pr) : Prop :=
      exists g ps arts, genuine st ps arts /\ finalize Pr st g ps arts = Ok (Finished_ r).

    (** The sequences of rounds starting with [st]. *)
    Inductive rounds : St Pr -> list (St Pr) -> Prop :=
    | rounds_one st : rounds st [st]
    | rounds_more st st' l : next st st' -> rounds st' l -> rounds st (st :: l).

    (** Its transitions are declared by the rounds. *)
    Definition declares : Prop :=
      (forall st st', next st st' -> mem (ti_id (tinfo Pr st')) (ti_children (tinfo Pr st)) = true) /\
      (forall st r, ends st r -> ti_result (tinfo Pr st) = true).
    (** And its rounds name the rounds they come from. *)
    Definition names_parents : Prop :=
      forall st st', next st st' -> mem (ti_id (tinfo Pr st)) (ti_parents (tinfo Pr st')) = true.

    (** The protocol round executed by a session (possibly being echoed at the moment). *)
    Definition executes (s : Session Pr) (st : St Pr) : Prop :=
      s_round s = RMain st \/ exists v e i ps arts, s_round s = REcho v e i (RMain st) ps arts.
  End One.

  (** Round [s] of protocol [A] sends, accepts and expects what round [st] of protocol [B] does; payloads and artifacts
      are wrapped by [fp] and [fa], round ids in errors are put in group [g]. *)
  Record acts_as {A B : Proto} (g : N) (fp : Payload B -> Payload A) (fa : Artifact B -> Artifact A) (s : St A) (st : St B) : Prop := {
    aa_comm : cinfo A s = cinfo B st;
    aa_id : ti_id (tinfo A s) = group_under (ti_id (tinfo B st)) g;
    aa_direct : forall r v, mk_direct A s r v = match mk_direct B st r v with Ok (b, x) => Ok (b, fa x) | Err e => Err e | Panic => Panic end;
    aa_echo : forall r, mk_echo A s r = mk_echo B st r;
    aa_normal : forall r, mk_normal A s r = mk_normal B st r;
    aa_receive : forall v m, receive A s v m = match receive B st v m with
                  | Ok p => Ok (fp p) | Err e => Err (re_group_under g e) | Panic => Panic end
  }.

  (** A map with all keys in group [g], and the same map with the group removed. *)
  Definition regrouped {V} (g : N) (m m' : bmap RoundId V) : Prop :=
    (forall r, get r m' = get (group_under r g) m) /\ (forall r, contains r m = true -> exists r', r = group_under r' g).

  (** Whatever the protocol, this evidence of a protocol error is judged by the round information of round [rid], given
      these messages. *)
  Definition judged_by (ev : Evidence) (rid : RoundId) (err sid : bytes) (m : EvMsg) (prev : bmap RoundId EvMsg)
      (comb : bmap RoundId (bmap Verifier body)) : Prop :=
    forall (Pr : Proto) (sd : Shared Pr), verify_evidence Pr ev sd =
      match round_info Pr rid with
      | Some ri => ri_verify ri rid err (ev_guilty ev) sid sd m prev comb
      | None => Err EE_Invalid
      end.
  (** Whatever the protocol, this evidence is rejected for the same reason. *)
  Definition malformed_for_all (ev : Evidence) : Prop :=
    exists e, forall (Pr : Proto) (sd : Shared Pr), verify_evidence Pr ev sd = Err e.

  (** [ri]'s answer to that. *)
  Definition accepts {Sh} (ri : RInfo Sh) (rid : RoundId) (err : bytes) (v : Verifier) (sid : bytes) (sd : Sh) (m : EvMsg)
      (prev : bmap RoundId EvMsg) (comb : bmap RoundId (bmap Verifier body)) : Prop :=
    ri_verify ri rid err v sid sd m prev comb = Ok tt.

  (** The malformed-part evidence types: the part, how it is judged in echo rounds, and how in protocol rounds. *)
  Definition part_evidence (ev : Evidence) (m : Meta) (b : body) (in_round : forall Sh, RInfo Sh -> body -> res EvidenceError unit) : Prop :=
    (exists p, ev_body ev = EvDirect p /\ part_signed (ev_guilty ev) p /\ m = sp_meta p /\ b = sp_body p /\ in_round = @ri_direct P) \/
    (exists p, ev_body ev = EvEcho p /\ part_signed (ev_guilty ev) p /\ m = sp_meta p /\ b = sp_body p /\ in_round = @ri_echo P) \/
    (exists p, ev_body ev = EvNormal p /\ part_signed (ev_guilty ev) p /\ m = sp_meta p /\ b = sp_body p /\ in_round = @ri_normal P).
End Runs.
