(** examples/dining_cryptographers.rs, as typed rounds. *)
From Coq Require Import List NArith Bool.
From Verif Require Import Base BMap Errors RoundId Message Protocol Typed Simple.
Import ListNotations.
Set Implicit Arguments.

Section WithParams.
  Context {P : Params}.
  (** [DinerId] is a wrapper around [u8]: [DinerId::new] and [DinerId::id]. *)
  Context (diner : N -> Verifier) (num : Verifier -> N).
  (** The wire format for [Round1Message] and [Round2Message], and the deserialization of [NoProtocolErrors]. *)
  Context (toss_codec reveal_codec : Codec bool) (no_error : bytes -> bool).

  Inductive DiningK := DR1 | DR2.
  Inductive DiningTy := DBool | DUnit | DNoArt.
  Definition dining_k_dec (a b : DiningK) : {a = b} + {a <> b}. Proof. decide equality. Defined.
  Definition dining_ty_dec (a b : DiningTy) : {a = b} + {a <> b}. Proof. decide equality. Defined.
  Definition dining_ty (t : DiningTy) : Type := match t with DBool => bool | DUnit => unit | DNoArt => unit end.

  (** dining_cryptographers.rs:94-107 *)
  Record Dining1 := mkDining1 { d1_id : Verifier; d1_toss : bool; d1_paid : bool }.
  Record Dining2 := mkDining2 { d2_id : Verifier; d2_own : bool; d2_neighbour : bool; d2_paid : bool }.
  Definition dining_st (k : DiningK) : Type := match k with DR1 => Dining1 | DR2 => Dining2 end.

  Definition dining_direct (k : DiningK) : MType := match k with DR1 => msg toss_codec | DR2 => NoMsg end.
  Definition dining_normal (k : DiningK) : MType := match k with DR1 => NoMsg | DR2 => msg reveal_codec end.

  (** 121-123, 217-219 *)
  Definition dining_tinfo (k : DiningK) (_ : dining_st k) : TransitionInfo :=
    match k with
    | DR1 => mkTI (rid_new 1) sempty sempty (set_of_list [rid_new 2]) false
    | DR2 => new_linear_terminating 2
    end.

  (** 128-146, 225-242. [u8] overflow of the diner number (which is below 3) is not modelled. *)
  Definition dining_comm (k : DiningK) : dining_st k -> CommInfo :=
    match k with
    | DR1 => fun s => mkComm (set_of_list [diner (N.modulo (num (d1_id s) + 1) 3)])
                             (set_of_list [diner (N.modulo (num (d1_id s) + 2) 3)]) EPDefault
    | DR2 => fun s => let others := set_of_list (map diner (filter (fun i => negb (N.eqb i (num (d2_id s)))) [0; 1; 2]%N)) in
                      mkComm others others EPDefault
    end.

  (** 252-256; [!a ^ b] is [(!a) ^ b]. *)
  Definition dining_reveal (s : Dining2) : bool :=
    if d2_paid s then xorb (negb (d2_own s)) (d2_neighbour s) else xorb (d2_own s) (d2_neighbour s).
  (** 285-288 *)
  Definition dining_own_reveal (s : Dining2) : bool :=
    let r := xorb (d2_own s) (d2_neighbour s) in if d2_paid s then negb r else r.

  Definition dining_box (k : DiningK) (x : dining_st k) : {k : DiningK & dining_st k} := existT _ k x.
  Definition dining_errors (k : DiningK) : EType unit := NoErrors no_error.

  (** 109-200, 202-294 *)
  Definition dining : TProto := {|
    TK := DiningK; tk_dec := dining_k_dec; TyId := DiningTy; ty_dec := dining_ty_dec; ty := dining_ty;
    noart := DNoArt; noart_val := tt; TRslt := bool * bool * bool; TShared := unit; tst := dining_st;
    t_direct := dining_direct; t_echo := fun _ => NoMsg; t_normal := dining_normal; t_err := dining_errors;
    t_pay := fun _ => DBool; t_art := fun k => match k with DR1 => DUnit | DR2 => DNoArt end;
    t_tinfo := dining_tinfo;
    t_cinfo := dining_comm;
    t_mk_direct := fun k => match k return option (dining_st k -> rng -> Verifier ->
        res LocalError (mty (dining_direct k) * dining_ty match k with DR1 => DUnit | DR2 => DNoArt end)) with
      | DR1 => Some (fun s _ _ => Ok (d1_toss s, tt))
      | DR2 => None
      end;
    t_mk_echo := fun _ => None;
    t_mk_normal := fun k => match k return option (dining_st k -> rng -> res LocalError (mty (dining_normal k))) with
      | DR1 => None
      | DR2 => Some (fun s _ => Ok (dining_reveal s))
      end;
    t_receive := fun k => match k return dining_st k -> Verifier -> mty (dining_direct k) -> unit ->
        mty (dining_normal k) -> res (TRecvErr Empty_set) bool with
      | DR1 => fun _ _ m _ _ => Ok m
      | DR2 => fun _ _ _ _ m => Ok m
      end;
    t_finalize := fun k => match k return dining_st k -> rng -> bmap Verifier bool ->
        bmap Verifier (dining_ty match k with DR1 => DUnit | DR2 => DNoArt end) ->
        res LocalError (Outcome {k : DiningK & dining_st k} (bool * bool * bool)) with
      | DR1 => fun s _ ps _ =>
          match to_list ps with
          | [] => Err (LE_Protocol 0)
          | (_, b) :: _ => Ok (AnotherRound (dining_box DR2 (mkDining2 (d1_id s) (d1_toss s) b (d1_paid s))))
          end
      | DR2 => fun s _ ps _ =>
          match map snd (to_list ps) with
          | b0 :: b1 :: _ => Ok (Finished_ (b0, b1, dining_own_reveal s))
          | _ => Panic   (* bits[0], bits[1] *)
          end
      end;
    (* 82-88 *)
    t_info := fun rid => if eqb rid (rid_new 1) then Some DR1 else if eqb rid (rid_new 2) then Some DR2 else None
  |}.

  (** 321-339; the two calls of [next_u32] are the first draws of the generator (the first call is skipped for diners
      other than 0). *)
  Definition even (n : N) : bool := N.eqb (N.modulo n 2) 0.
  Definition dining_entry : EntryPoint (wrap dining) := {|
    ep_id := rid_new 1;
    ep_make := fun g _ id =>
      let s := if N.eqb (num id) 0 then mkDining1 id (even (g [1])) (even (g [0])) else mkDining1 id (even (g [0])) false in
      Ok (dining_box DR1 s : St (wrap dining))
  |}.
End WithParams.
