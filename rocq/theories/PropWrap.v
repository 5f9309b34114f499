(** Property C128: what the methods of typed rounds return reaches the session. *)
From Coq Require Import List NArith Bool.
From Verif Require Import Base BMap Errors RoundId Message Protocol Transcript Evidence Session Typed SpecTyped SpecWrap WrapFacts Toy ToyWrap.
Import ListNotations.
Set Implicit Arguments.

(** C128. A message is turned down if one of its parts is not of the declared type (they are looked at in the order direct message,
    echo broadcast, normal broadcast); otherwise the round is asked, with these parts, and its answer is passed on. *)
Theorem C128_receive : forall (P : Params) (T : TProto) k (x : tst T k) from m,
  (no_part (t_direct T k) (dm_direct m) -> receive (wrap T) (box T k x) from m = Err RDirect) /\
  (forall d, part_is (t_direct T k) (dm_direct m) d ->
    (no_part (t_echo T k) (dm_echo m) -> receive (wrap T) (box T k x) from m = Err REchoB) /\
    (forall e, part_is (t_echo T k) (dm_echo m) e ->
      (no_part (t_normal T k) (dm_normal m) -> receive (wrap T) (box T k x) from m = Err RNormal) /\
      (forall n, part_is (t_normal T k) (dm_normal m) n ->
        passed_on x (t_receive T k x from d e n) (receive (wrap T) (box T k x) from m)))).
Proof. exact @receive_wrapped. Qed.
Print Assumptions C128_receive.

(** In a session that waits for this message: the payload is kept, or the sender is blamed with the error given by the round, or the
    local error of the round is returned. *)
Theorem C128_session : forall (P : Params) (T : TProto) (s : Session (wrap T)) (a : Accum (wrap T)) (m : VMessage) k (x : tst T k) d e n,
  s_round s = RMain (box T k x : St (wrap T)) -> contains (vm_from m) (a_payloads a) = false -> mem (vm_from m) (a_waiting a) = true ->
  part_is (t_direct T k) (sp_body (vm_direct m)) d -> part_is (t_echo T k) (sp_body (vm_echo m)) e -> part_is (t_normal T k) (sp_body (vm_normal m)) n ->
  let (a', o) := add_processed s a (process_message s m) in
  match t_receive T k x (vm_from m) d e n with
  | Ok p => o = Ok tt /\ get (vm_from m) (a_payloads a') = Some (PVal (pay p : Payload (wrap T))) /\ a_unprovable a' = a_unprovable a /\ a_provable a' = a_provable a
  | Err (TUnprovable r) => o = Ok tt /\ get (vm_from m) (a_unprovable a') = Some r /\ a_payloads a' = a_payloads a /\ a_provable a' = a_provable a
  | Err (TLocal r) => o = Err r /\ a_payloads a' = a_payloads a /\ a_provable a' = a_provable a /\ a_unprovable a' = a_unprovable a
  | Err (TProtocol _) => a_payloads a' = a_payloads a /\ a_unprovable a' = a_unprovable a
  | Panic => o = Panic
  end.
Proof. exact @session_wrapped. Qed.
Print Assumptions C128_session.

(** The message parts sent are the serialized messages made by the round; its errors are returned. *)
Theorem C128_send : forall (P : Params) (T : TProto) k (x : tst T k) g dest,
  (forall m a b, typed_direct T k x g dest = Ok (m, a) -> (made_of (t_direct T k) m b <-> mk_direct (wrap T) (box T k x) g dest = Ok (b, artf a))) /\
  (forall e, typed_direct T k x g dest = Err e -> mk_direct (wrap T) (box T k x) g dest = Err e) /\
  (forall m b, typed_echo T k x g = Ok m -> (made_of (t_echo T k) m b <-> mk_echo (wrap T) (box T k x) g = Ok b)) /\
  (forall e, typed_echo T k x g = Err e -> mk_echo (wrap T) (box T k x) g = Err e) /\
  (forall m b, typed_normal T k x g = Ok m -> (made_of (t_normal T k) m b <-> mk_normal (wrap T) (box T k x) g = Ok b)) /\
  (forall e, typed_normal T k x g = Err e -> mk_normal (wrap T) (box T k x) g = Err e).
Proof. exact @send_wrapped. Qed.
Print Assumptions C128_send.

(** Methods that are not implemented: a round without messages of this kind (and without artifacts) sends none, any other round gets an
    error. *)
Theorem C128_defaults : forall (P : Params) (T : TProto) k (x : tst T k) g dest,
  (t_mk_direct T k = None ->
     (t_direct T k <> NoMsg -> typed_direct T k x g dest = Err LE_NotImplemented) /\
     (t_direct T k = NoMsg -> t_art T k <> noart T -> typed_direct T k x g dest = Err LE_NotImplemented) /\
     (t_direct T k = NoMsg -> t_art T k = noart T -> mk_direct (wrap T) (box T k x) g dest = Ok (None, existT _ (noart T) (noart_val T)))) /\
  (t_mk_echo T k = None ->
     (t_echo T k <> NoMsg -> typed_echo T k x g = Err LE_NotImplemented) /\ (t_echo T k = NoMsg -> mk_echo (wrap T) (box T k x) g = Ok None)) /\
  (t_mk_normal T k = None ->
     (t_normal T k <> NoMsg -> typed_normal T k x g = Err LE_NotImplemented) /\ (t_normal T k = NoMsg -> mk_normal (wrap T) (box T k x) g = Ok None)).
Proof. exact @defaults. Qed.
Print Assumptions C128_defaults.

(** A round that gives each kind of answer, alone and in a session; it does not implement its methods for sending. *)
Example C128_case :
  judge_answer 0 = Ok (existT _ tt tt) /\ judge_answer 1 = Err (RUnprovable (RE_Protocol 8)) /\ judge_answer 2 = Err (RL (LE_Protocol 5)) /\
  judge_answer 3 = Err (RProtocol (mkBoxedError (mkRequired (mkReqParts false false true) None None) (Some [3; 3]%N))) /\
  part_is judge_message (Some [3]%N) 3%N /\
  mk_direct (wrap judge) (box judge tt tt) (fun _ => 0%N) (1%N : @Verifier toyP) = Err LE_NotImplemented /\
  mk_echo (wrap judge) (box judge tt tt) (fun _ => 0%N) = Ok None.
Proof. exact judge_case. Qed.
Example C128_session_case :
  contains (2%N : @Verifier toyP) (a_payloads (make_accumulator judge_session)) = false /\ mem (2%N : @Verifier toyP) (a_waiting (make_accumulator judge_session)) = true /\
  judge_add 0 = (Ok tt, true, None, false) /\ judge_add 1 = (Ok tt, false, Some (RE_Protocol 8), false) /\
  judge_add 2 = (Err (LE_Protocol 5), false, None, false) /\ judge_add 3 = (Ok tt, false, None, true).
Proof. exact judge_session_case. Qed.
