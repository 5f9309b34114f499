(** examples/src/simple.rs as it behaves in a release build. Nothing in the workspace (Cargo.toml, examples/Cargo.toml)
    switches on [overflow-checks], so [u8] additions wrap there. Everything but the two additions is that of Simple.v. *)
From Coq Require Import List NArith Bool.
From Verif Require Import Base BMap Errors RoundId Message Protocol Typed Simple.
Import ListNotations.
Set Implicit Arguments.

(** [u8] addition and [Iterator::sum] of [u8]s without overflow checks. *)
Definition wrapping_add (a b : N) : N := N.modulo (a + b) 256.
Definition wrapping_sum (l : list N) : N := fold_left wrapping_add l 0%N.

Section WithParams.
  Context {P : Params}.
  Context (W : SimpleWire).

  (** simple.rs:245-246, 333-334 *)
  Definition release_total (c : Ctx) (ps : bmap Verifier N) : res LocalError N :=
    let* me := position c (cx_id c) in Ok (wrapping_add me (wrapping_sum (map snd (to_list ps)))).

  (** simple.rs:178-260, 274-342 *)
  Definition simple_release : TProto := {|
    TK := SimpleK; tk_dec := simple_k_dec; TyId := SimpleTy; ty_dec := simple_ty_dec; ty := simple_ty;
    noart := SNoArt; noart_val := tt; TRslt := N; TShared := unit; tst := simple_st;
    t_direct := simple_message W; t_echo := simple_echo W; t_normal := simple_normal W; t_err := simple_errors W;
    t_pay := fun _ => SPay; t_art := fun _ => SUnit;
    t_tinfo := simple_tinfo; t_cinfo := t_cinfo (simple W);
    t_mk_direct := t_mk_direct (simple W); t_mk_echo := t_mk_echo (simple W); t_mk_normal := t_mk_normal (simple W);
    t_receive := t_receive (simple W);
    t_finalize := fun k => match k return simple_st k -> rng -> bmap Verifier N -> bmap Verifier unit ->
        res LocalError (Outcome {k : SimpleK & simple_st k} N) with
      | SR1 => fun c _ ps _ => let* sum := release_total c ps in Ok (AnotherRound (simple_box SR2 (mkSimple2 sum c)))
      | SR2 => fun s _ ps _ => let* sum := release_total (s2_ctx s) ps in Ok (Finished_ (wrapping_add sum (s2_sum s)))
      end;
    t_info := t_info (simple W)
  |}.

  (** simple.rs:146-176 *)
  Definition release_entry (all_ids : bset Verifier) : EntryPoint (wrap simple_release) := {|
    ep_id := rid_new 1;
    ep_make := fun _ _ id =>
      Ok (simple_box SR1 (mkCtx id (srem id all_ids) (enum_positions (elements all_ids))) : St (wrap simple_release))
  |}.
End WithParams.
