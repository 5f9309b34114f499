(** A typed round which gives each kind of answer; it uses the default methods for broadcasts. Used by PropWrap.v only. *)
From Coq Require Import List NArith Bool.
From Verif Require Import Base BMap Errors RoundId Message Protocol Transcript Evidence Session Typed Spec SpecTyped Toy SpecWrap.
Import ListNotations.
Set Implicit Arguments.

Definition judge_message : MType := Msg N (fun x => Some [x]) (fun b => match b with [x] => Some x | _ => None end).
Definition judge_errors : EType (P := toyP) unit :=
  Errors (P := toyP) N (fun x => Some [x; x]%list) (fun b => match b with x :: _ => Some x | _ => None end)
    (fun _ _ => mkRequired (mkReqParts false false true) None None) (fun _ _ _ _ _ _ => Ok tt).
Definition judge_receive (m : N) : res (TRecvErr N) unit :=
  (if N.eqb m 0 then Ok tt else if N.eqb m 1 then Err (TUnprovable (RE_Protocol 8)) else if N.eqb m 2 then Err (TLocal (LE_Protocol 5)) else Err (TProtocol m))%N.
Definition unit_dec (a b : unit) : {a = b} + {a <> b} := match a, b with tt, tt => left eq_refl end.
Definition judge : TProto (P := toyP) := {|
  TK := unit; tk_dec := unit_dec; TyId := unit; ty_dec := unit_dec; ty := fun _ => unit; noart := tt; noart_val := tt; TRslt := unit; TShared := unit;
  tst := fun _ => unit; t_direct := fun _ => judge_message; t_echo := fun _ => NoMsg; t_normal := fun _ => NoMsg; t_err := fun _ => judge_errors;
  t_pay := fun _ => tt; t_art := fun _ => tt;
  t_tinfo := fun _ _ => mkTI (rid_new 1) sempty sempty sempty true;
  t_cinfo := fun _ _ => mkComm sempty (set_of_list [1; 2]%N) EPDefault;
  t_mk_direct := fun _ => None; t_mk_echo := fun _ => None; t_mk_normal := fun _ => None;
  t_receive := fun _ _ _ m _ _ => judge_receive m;
  t_finalize := fun _ _ _ _ _ => Ok (Finished_ tt);
  t_info := fun _ => Some tt |}.
Definition judge_answer (m : N) : res (@RecvErr toyP) (any judge) :=
  receive (wrap judge) (box judge tt tt) (1%N : @Verifier toyP) (mkDynMsg None None (Some [m])).
Lemma judge_case :
  judge_answer 0 = Ok (existT _ tt tt) /\ judge_answer 1 = Err (RUnprovable (RE_Protocol 8)) /\ judge_answer 2 = Err (RL (LE_Protocol 5)) /\
  judge_answer 3 = Err (RProtocol (mkBoxedError (mkRequired (mkReqParts false false true) None None) (Some [3; 3]%N))) /\
  part_is judge_message (Some [3]%N) 3%N /\
  mk_direct (wrap judge) (box judge tt tt) (fun _ => 0%N) (1%N : @Verifier toyP) = Err LE_NotImplemented /\
  mk_echo (wrap judge) (box judge tt tt) (fun _ => 0%N) = Ok None.
Proof. repeat split; try reflexivity. exists [3]%N. auto. Qed.

(** The same in a session waiting for parties 1 and 2. *)
Definition judge_session : Session (wrap judge) :=
  ok_def (@mkSession toyP (wrap judge) [] 0%N 0%N (RMain (box judge tt tt : St (wrap judge))) (mkComm sempty sempty EPDefault) None dummy_part dummy_part
    (mkTI (rid_new 0) sempty sempty sempty false) tr_new)
   (session_new (fun _ => 0%N) [1]%N (0%N : @Signer toyP) (@mkEP toyP (wrap judge) (rid_new 1) (fun _ _ _ => Ok (box judge tt tt : St (wrap judge))))).
Definition judge_msg (m : N) : VMessage (P := toyP) :=
  mkVMessage (2%N : @Verifier toyP) (mkMeta [1]%N (rid_new 1)) (mkSPart [] (mkMeta [1]%N (rid_new 1)) (Some [m]))
    (mkSPart [] (mkMeta [1]%N (rid_new 1)) None) (mkSPart [] (mkMeta [1]%N (rid_new 1)) None).
Definition judge_add (m : N) := let (a, o) := add_processed judge_session (make_accumulator judge_session) (process_message judge_session (judge_msg m)) in
  (o, contains (2%N : @Verifier toyP) (a_payloads a), get (2%N : @Verifier toyP) (a_unprovable a), contains (2%N : @Verifier toyP) (a_provable a)).
Lemma judge_session_case :
  contains (2%N : @Verifier toyP) (a_payloads (make_accumulator judge_session)) = false /\ mem (2%N : @Verifier toyP) (a_waiting (make_accumulator judge_session)) = true /\
  judge_add 0 = (Ok tt, true, None, false) /\ judge_add 1 = (Ok tt, false, Some (RE_Protocol 8), false) /\
  judge_add 2 = (Err (LE_Protocol 5), false, None, false) /\ judge_add 3 = (Ok tt, false, None, true).
Proof. repeat split; vm_compute; reflexivity. Qed.
