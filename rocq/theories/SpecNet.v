(** Vocabulary of the properties about networks of honest nodes. No proofs here. *)
From Coq Require Import List NArith Bool.
From Verif Require Import Base BMap Errors RoundId Message Protocol Transcript Evidence Session Spec SpecCrypto Typed Simple Network.
Import ListNotations.
Set Implicit Arguments.

(** The phases of an execution in their order: a round and its echo round. *)
Definition phase := (nat * bool)%type.
Definition before (g g' : phase) : Prop := fst g < fst g' \/ (fst g = fst g' /\ snd g = false /\ snd g' = true).

Section WithParams.
  Context {P : Params}.
  Context {Pr : Proto}.

  (** An execution of a protocol in lock step, without sessions, signatures or network. Rounds are numbered from 0 to
      [pl_last]; [pl_direct n u v] is what [u] sends to [v] in round [n], [pl_payload n v u] is what [v] makes of the
      message of [u]. *)
  Record Plan := mkPlan {
    pl_last : nat;
    pl_rid : nat -> RoundId;
    pl_part : nat -> Verifier -> EchoPart;        (* participation in the echo round *)
    pl_dest : nat -> Verifier -> bset Verifier;
    pl_from : nat -> Verifier -> bset Verifier;
    pl_state : nat -> Verifier -> St Pr;
    pl_echo : nat -> Verifier -> body;
    pl_normal : nat -> Verifier -> body;
    pl_direct : nat -> Verifier -> Verifier -> body;
    pl_artifact : nat -> Verifier -> Verifier -> Artifact Pr;
    pl_payload : nat -> Verifier -> Verifier -> Payload Pr;
    pl_result : Verifier -> Rslt Pr
  }.

  Variable r : NetRng.
  Variable sid : bytes.
  Variable parties : bset Verifier.
  Variable ep : Verifier -> EntryPoint Pr.
  Variable h : Plan.

  (** Does [v] have an echo round after round [n]; with whom does it exchange echos there; whose echo broadcasts does it
      expect to find in what the others have received? *)
  Definition echoes (n : nat) (v : Verifier) : bool :=
    match pl_part h n v with EPDefault => negb (is_none (pl_echo h n v)) | EPSend => false | EPReceive _ => true end.
  Definition partners (n : nat) (v : Verifier) : bset Verifier :=
    match pl_part h n v with EPReceive targets => targets | _ => pl_dest h n v end.
  Definition echoed (n : nat) (v : Verifier) : bset Verifier :=
    match pl_part h n v with EPReceive _ => pl_from h n v | _ => sadd v (pl_from h n v) end.

  (** The id under which round [n] is finalized by [v]: that of its echo round, if it has one. *)
  Definition final_rid (n : nat) (v : Verifier) : RoundId := if echoes n v then echo_of (pl_rid h n) else pl_rid h n.
  (** The randomness with which round [n] is entered. *)
  Definition entry_rng (n : nat) (v : Verifier) : rng :=
    match n with O => nr_new r v | S k => nr_fin r v (final_rid k v) end.
  Definition is_map {V} (m : bmap Verifier V) (dom : bset Verifier) (f : Verifier -> V) : Prop :=
    forall u, get u m = if mem u dom then Some (f u) else None.

  (** [h] is the execution of the protocol by [parties], and it succeeds. *)
  Record lock_step : Prop := {
    (* round ids: ordinary, all different, every round leads to the next *)
    hr_plain : forall n, n <= pl_last h -> rid_echo (pl_rid h n) = false;
    hr_distinct : forall n k, n <= pl_last h -> k <= pl_last h -> pl_rid h n = pl_rid h k -> n = k;
    hr_id : forall n v, n <= pl_last h -> mem v parties = true -> ti_id (tinfo Pr (pl_state h n v)) = pl_rid h n;
    hr_next : forall n v, n < pl_last h -> mem v parties = true ->
      mem (pl_rid h (S n)) (ti_children (tinfo Pr (pl_state h n v))) = true;
    (* who sends to whom *)
    hr_comm : forall n v, n <= pl_last h -> mem v parties = true ->
      cinfo Pr (pl_state h n v) = mkComm (pl_dest h n v) (pl_from h n v) (pl_part h n v);
    hr_dest : forall n v u, n <= pl_last h -> mem v parties = true -> mem u (pl_dest h n v) = true ->
      mem u parties = true /\ u <> v;
    hr_from : forall n v u, n <= pl_last h -> mem v parties = true -> mem u (pl_from h n v) = true ->
      mem u parties = true /\ u <> v;
    hr_agree : forall n u v, n <= pl_last h -> mem u parties = true -> mem v parties = true ->
      mem v (pl_dest h n u) = mem u (pl_from h n v);
    (* those who exchange echos agree about it, and about whose echo broadcasts they have received *)
    hr_partners : forall n v u, n <= pl_last h -> mem v parties = true -> echoes n v = true -> mem u (partners n v) = true ->
      mem u parties = true /\ u <> v /\ echoes n u = true /\ mem v (partners n u) = true;
    hr_echoed : forall n v u w, n <= pl_last h -> mem v parties = true -> echoes n v = true -> mem u (partners n v) = true ->
      mem w (srem u (echoed n v)) = (mem w (pl_from h n u) && negb (is_none (pl_echo h n w)))%bool;
    (* the execution *)
    hr_make : forall v, mem v parties = true -> ep_make (ep v) (rsub 0 (nr_new r v)) sid v = Ok (pl_state h 0 v);
    hr_mk_echo : forall n v, n <= pl_last h -> mem v parties = true ->
      (if is_empty (pl_dest h n v) then Ok None else mk_echo Pr (pl_state h n v) (rsub 0 (rsub 1 (entry_rng n v))))
        = Ok (pl_echo h n v);
    hr_mk_normal : forall n v, n <= pl_last h -> mem v parties = true ->
      (if is_empty (pl_dest h n v) then Ok None else mk_normal Pr (pl_state h n v) (rsub 2 (rsub 1 (entry_rng n v))))
        = Ok (pl_normal h n v);
    hr_mk_direct : forall n v u, n <= pl_last h -> mem v parties = true -> mem u (pl_dest h n v) = true ->
      mk_direct Pr (pl_state h n v) (rsub 0 (nr_msg r v (pl_rid h n) u)) u = Ok (pl_direct h n v u, pl_artifact h n v u);
    hr_receive : forall n v u, n <= pl_last h -> mem v parties = true -> mem u (pl_from h n v) = true ->
      receive Pr (pl_state h n v) u (mkDynMsg (pl_echo h n u) (pl_normal h n u) (pl_direct h n u v)) = Ok (pl_payload h n v u);
    hr_finalize : forall n v ps arts, n <= pl_last h -> mem v parties = true ->
      is_map ps (pl_from h n v) (pl_payload h n v) -> is_map arts (pl_dest h n v) (pl_artifact h n v) ->
      finalize Pr (pl_state h n v) (rsub 0 (nr_fin r v (final_rid n v))) ps arts
        = Ok (if Nat.ltb n (pl_last h) then AnotherRound (pl_state h (S n) v) else Finished_ (pl_result h v))
  }.

  (** A phase of the execution: a round, or its echo round ([true]). Whose messages does a party expect in it, and to whom
      does it send? *)
  Definition expects (g : phase) (v : Verifier) : bset Verifier :=
    if snd g then if echoes (fst g) v then partners (fst g) v else sempty else pl_from h (fst g) v.
  Definition sends (g : phase) (v : Verifier) : bset Verifier :=
    if snd g then if echoes (fst g) v then partners (fst g) v else sempty else pl_dest h (fst g) v.

  (** When [v] enters phase [g], [u] has certainly reached phase [q]: because everybody starts in the first round, because
      [u] is [v], or because [v] has heard in an earlier phase from somebody who knew that. *)
  Inductive certain : Verifier -> phase -> Verifier -> phase -> Prop :=
  | certain_start v g u : certain v g u (0, false)
  | certain_self v g q : q = g \/ before q g -> certain v g v q
  | certain_heard v g g' w u q : before g' g -> mem w (expects g' v) = true -> certain w g' u q -> certain v g u q.

  (** Nobody sends to a party that may still be too far behind: when [v] sends to [u] in a phase, [u] has certainly reached
      the last phase that it goes through before that one. *)
  Definition in_step : Prop := forall g v u, fst g <= pl_last h -> mem v parties = true -> mem u (sends g v) = true ->
    exists q, certain v g u q /\ forall g', before q g' -> before g' g -> snd g' = true /\ echoes (fst g') u = false.

  (** It suffices to have heard from those parties themselves: before [v] sends to [u] in the echo round of round [n], it
      has heard from [u] in round [n], or that is the first round; before it sends to [u] in the next round, it has heard
      from [u] in the echo round, if [u] has one, and in round [n] otherwise, unless that is the first round. *)
  Definition heard_from : Prop :=
    (forall n v u, n <= pl_last h -> mem v parties = true -> echoes n v = true -> mem u (partners n v) = true ->
       n = 0 \/ mem u (pl_from h n v) = true) /\
    (forall n v u, S n <= pl_last h -> mem v parties = true -> mem u (pl_dest h (S n) v) = true ->
       if echoes n u then echoes n v = true /\ mem u (partners n v) = true else n = 0 \/ mem u (pl_from h n v) = true).

  Definition honest_run : Prop := lock_step /\ in_step.

  (** In every round everybody sends to everybody else. *)
  Definition all_to_all : Prop := forall n v, n <= pl_last h -> mem v parties = true ->
    pl_dest h n v = srem v parties /\ pl_from h n v = srem v parties.
  (** In every round either everybody or nobody sends an echo broadcast, and everybody takes part in the echo round. *)
  Definition full_echo : Prop := forall n v, n <= pl_last h -> mem v parties = true ->
    pl_part h n v = EPDefault /\ forall u, mem u parties = true -> (pl_echo h n u = None <-> pl_echo h n v = None).

  (** A node has recorded nothing against anybody. *)
  Definition no_errors (nd : Node Pr) : Prop :=
    match nd with
    | Running d => a_provable (d_a d) = empty /\ a_unprovable (d_a d) = empty /\
                   tr_provable (s_tr (d_s d)) = empty /\ tr_unprovable (s_tr (d_s d)) = empty
    | Ended rep => rep_provable rep = empty /\ rep_unprovable rep = empty /\ rep_missing rep = empty
    end.

  (** Only the given parties have nodes, nobody has recorded an error, nobody is prevented from finalizing for good. *)
  Definition fine (net : Net Pr) : Prop := forall v nd, get v (nodes net) = Some nd ->
    mem v parties = true /\ no_errors nd /\ forall d, nd = Running d -> can_finalize (d_a d) <> Never.

  (** Everybody has the result of the plan. *)
  Definition all_ended (net : Net Pr) : Prop :=
    forall v, mem v parties = true -> exists rep, get v (nodes net) = Some (Ended rep) /\
      rep_outcome rep = OResult (pl_result h v) /\ no_errors (Ended rep).
End WithParams.
Arguments Plan {P} Pr.
Arguments all_to_all {P Pr} parties h.
Arguments full_echo {P Pr} parties h.
Arguments in_step {P Pr} parties h.
Arguments heard_from {P Pr} parties h.
Arguments expects {P Pr} h g v.
Arguments sends {P Pr} h g v.
Arguments certain {P Pr} h _ _ _ _.
Arguments hr_plain {P Pr r sid parties ep h} _ n _.
Arguments hr_distinct {P Pr r sid parties ep h} _ n k _ _ _.
Arguments hr_id {P Pr r sid parties ep h} _ n v _ _.
Arguments hr_next {P Pr r sid parties ep h} _ n v _ _.
Arguments hr_comm {P Pr r sid parties ep h} _ n v _ _.
Arguments hr_dest {P Pr r sid parties ep h} _ n v u _ _ _.
Arguments hr_from {P Pr r sid parties ep h} _ n v u _ _ _.
Arguments hr_agree {P Pr r sid parties ep h} _ n u v _ _ _.
Arguments hr_partners {P Pr r sid parties ep h} _ n v u _ _ _ _.
Arguments hr_echoed {P Pr r sid parties ep h} _ n v u w _ _ _ _.
Arguments hr_make {P Pr r sid parties ep h} _ v _.
Arguments hr_mk_echo {P Pr r sid parties ep h} _ n v _ _.
Arguments hr_mk_normal {P Pr r sid parties ep h} _ n v _ _.
Arguments hr_mk_direct {P Pr r sid parties ep h} _ n v u _ _ _.
Arguments hr_receive {P Pr r sid parties ep h} _ n v u _ _ _.
Arguments hr_finalize {P Pr r sid parties ep h} _ n v ps arts _ _ _ _.

(** The initial state of the network in which every party has signer [sk v] and entry point [ep v]. *)
Definition honest_net {P : Params} {Pr : Proto} (r : NetRng) (sid : bytes) (parties : bset Verifier) (sk : Verifier -> Signer)
    (ep : Verifier -> EntryPoint Pr) : res LocalError (Net Pr) :=
  net_start r sid (map (fun v => (sk v, ep v)) (elements parties)).
Definition signers {P : Params} (parties : bset Verifier) (sk : Verifier -> Signer) : Prop :=
  forall v, mem v parties = true -> signer_key (sk v) = v.

(** Signing, serialization of the library's own types: nothing fails, and what is written can be read back. *)
Record wire_total (P : Params) : Prop := {
  wt_meta : forall m, exists b, ser_meta m = Some b;
  wt_sign : forall r s d, exists g b, sign r s d = Some g /\ ser_sig g = Some b;
  wt_echo : forall m, exists b, ser_echo m = Some b /\ deser_echo b = Some m
}.

(** The sum of a list; the position of a party in simple.rs. *)
Definition nsum (l : list N) : N := fold_right N.add 0%N l.
Definition pos {P : Params} (parties : bset Verifier) (v : Verifier) : N :=
  match get v (enum_positions (elements parties)) with Some k => k | None => 0%N end.
