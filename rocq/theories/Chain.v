(** manul/src/combinators/chain.rs: two protocols executed one after the other. *)
From Coq Require Import List NArith Bool.
From Verif Require Import Base BMap Errors RoundId Message Protocol.
Import ListNotations.
Set Implicit Arguments.

Section WithParams.
  Context {P : Params}.
  Context (P1 P2 : Proto).

  (** [ChainedJoin] (chain.rs:269-281): a type with a method creating the second entry point, whose [make_round] is called
      right away; [j_entry] is the (static) [entry_round_id] of that entry point. *)
  Record Join := mkJoin {
    j_entry : RoundId;
    J : Type;
    j_make : J -> Rslt P1 -> rng -> bytes -> Verifier -> res LocalError (St P2)
  }.
  Context (j : Join).

  (** chain.rs:89-97 *)
  Definition ungroup (g : N) (r : RoundId) : res LocalError RoundId :=
    let* (g', r') := split_group r in if N.eqb g' g then Ok r' else Err LE_BadGroup.
  (** chain.rs:99-104 *)
  Definition ungroup_map {V} (g : N) (m : bmap RoundId V) : res LocalError (bmap RoundId V) :=
    let* l := map_res (fun kv => let* r := ungroup g (fst kv) in Ok (r, snd kv)) (to_list m) in Ok (of_list l).

  (** chain.rs:106-228: [RoundInfo1] ([g] = 1) and [RoundInfo2] ([g] = 2); [part] is the field of [ChainedSharedData]. *)
  Definition chain_info {Sh} (g : N) (part : Shared P1 * Shared P2 -> Sh) (ri : RInfo Sh) : RInfo (Shared P1 * Shared P2) :=
    mkRInfo (ri_direct ri) (ri_echo ri) (ri_normal ri)
      (fun rid e v sid sd m prev comb =>
         let* rid := map_err EE_Local (ungroup g rid) in
         let* prev := map_err EE_Local (ungroup_map g prev) in
         let* comb := map_err EE_Local (ungroup_map g comb) in
         ri_verify ri rid e v sid (part sd) m prev comb).

  (** chain.rs:238-249 *)
  Definition chain_round_info (rid : RoundId) : option (RInfo (Shared P1 * Shared P2)) :=
    match split_group rid with
    | Ok (g, r) =>
        if N.eqb g 1 then option_map (chain_info 1 fst) (round_info P1 r)
        else if N.eqb g 2 then option_map (chain_info 2 snd) (round_info P2 r)
        else None
    | _ => None
    end.

  (** [ChainState] (chain.rs:322-335) *)
  Inductive ChainSt :=
  | Chain1 (id : Verifier) (round : St P1) (shared_randomness : bytes) (transition : J j)
  | Chain2 (round : St P2).

  (** chain.rs:344-356 *)
  Definition chain_tinfo (s : ChainSt) : TransitionInfo :=
    match s with
    | Chain1 _ st _ _ =>
        let t := ti_group_under (tinfo P1 st) 1 in
        if ti_result t
        then mkTI (ti_id t) (ti_parents t) (ti_siblings t) (sadd (group_under (j_entry j) 2) (ti_children t)) false
        else t
    | Chain2 st => ti_group_under (tinfo P2 st) 2
    end.

  (** chain.rs:358-363 *)
  Definition chain_cinfo (s : ChainSt) : CommInfo :=
    match s with Chain1 _ st _ _ => cinfo P1 st | Chain2 st => cinfo P2 st end.

  (** The boxed payloads and artifacts are those of the inner rounds. *)
  Definition chain_direct (s : ChainSt) (g : rng) (dest : Verifier) : res LocalError (body * (Artifact P1 + Artifact P2)) :=
    match s with
    | Chain1 _ st _ _ => let* (b, a) := mk_direct P1 st g dest in Ok (b, inl a)
    | Chain2 st => let* (b, a) := mk_direct P2 st g dest in Ok (b, inr a)
    end.
  (** chain.rs:377-397 *)
  Definition chain_echo (s : ChainSt) (g : rng) : res LocalError body :=
    match s with Chain1 _ st _ _ => mk_echo P1 st g | Chain2 st => mk_echo P2 st g end.
  Definition chain_normal (s : ChainSt) (g : rng) : res LocalError body :=
    match s with Chain1 _ st _ _ => mk_normal P1 st g | Chain2 st => mk_normal P2 st g end.

  (** chain.rs:399-415 *)
  Definition chain_receive (s : ChainSt) (from : Verifier) (m : DynMsg) : res RecvErr (Payload P1 + Payload P2) :=
    match s with
    | Chain1 _ st _ _ => let* p := map_err (re_group_under 1) (receive P1 st from m) in Ok (inl p)
    | Chain2 st => let* p := map_err (re_group_under 2) (receive P2 st from m) in Ok (inr p)
    end.

  (** The downcasts made when the inner round is finalized; see [w_finalize]. *)
  Definition down_map {A B} (f : A -> res LocalError B) (m : bmap Verifier A) : res LocalError (bmap Verifier B) :=
    let* l := map_res (fun kv => let* y := f (snd kv) in Ok (fst kv, y)) (to_list m) in Ok (of_list l).
  Definition down_l {A B} (e : LocalError) (x : A + B) : res LocalError A := match x with inl a => Ok a | inr _ => Err e end.
  Definition down_r {A B} (e : LocalError) (x : A + B) : res LocalError B := match x with inr b => Ok b | inl _ => Err e end.

  (** chain.rs:417-460 *)
  Definition chain_finalize (s : ChainSt) (g : rng) (ps : bmap Verifier (Payload P1 + Payload P2))
      (arts : bmap Verifier (Artifact P1 + Artifact P2)) : res LocalError (Outcome ChainSt (Rslt P2)) :=
    match s with
    | Chain1 id st sr tr =>
        let* ps := down_map (down_l LE_PayloadDowncast) ps in
        let* arts := down_map (down_l LE_ArtifactDowncast) arts in
        let* o := finalize P1 st (rsub 0 g) ps arts in
        match o with
        | Finished_ r => let* st2 := j_make j tr r (rsub 1 g) sr id in Ok (AnotherRound (Chain2 st2))
        | AnotherRound st' => Ok (AnotherRound (Chain1 id st' sr tr))
        end
    | Chain2 st =>
        let* ps := down_map (down_r LE_PayloadDowncast) ps in
        let* arts := down_map (down_r LE_ArtifactDowncast) arts in
        let* o := finalize P2 st g ps arts in
        match o with
        | Finished_ r => Ok (Finished_ r)
        | AnotherRound st' => Ok (AnotherRound (Chain2 st'))
        end
    end.

  Definition chain : Proto := {|
    St := ChainSt; Rslt := Rslt P2; Shared := Shared P1 * Shared P2;
    Payload := Payload P1 + Payload P2; Artifact := Artifact P1 + Artifact P2;
    tinfo := chain_tinfo; cinfo := chain_cinfo;
    mk_direct := chain_direct; mk_echo := chain_echo; mk_normal := chain_normal;
    receive := chain_receive; finalize := chain_finalize; round_info := chain_round_info
  |}.

  (** chain.rs:283-311; [make_entry_point1] gives [ep] and [tr]. *)
  Definition chain_entry (ep : EntryPoint P1) (tr : J j) : EntryPoint chain :=
    @mkEP P chain (group_under (ep_id ep) 1)
      (fun g sr id => let* st := ep_make ep g sr id in Ok (Chain1 id st sr tr : St chain)).
End WithParams.
