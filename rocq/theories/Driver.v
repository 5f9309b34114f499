(** session/tokio.rs: [run_session], which drives one session. The driver is a state machine: between two of its states
    it does one thing that can be seen from outside. *)
From Coq Require Import List NArith Bool.
From Verif Require Import Base BMap Errors RoundId Message Protocol Transcript Evidence Session Spec Network RunSync.
Import ListNotations.
Set Implicit Arguments.

Section WithParams.
  Context {P : Params}.
  Context {Pr : Proto}.

  (** Where the driver is: about to send to [dest], with [dests] still to come (tokio.rs:92-116); about to apply the
      cached message [vm] (118-125); at the top of the inner loop (127-139); has returned. *)
  Inductive Drv :=
  | DrvSend (s : Session Pr) (a : Accum Pr) (dest : Verifier) (dests : list Verifier) (cached : list VMessage)
  | DrvApply (s : Session Pr) (a : Accum Pr) (vm : VMessage) (cached : list VMessage)
  | DrvWait (s : Session Pr) (a : Accum Pr)
  | DrvDone (o : res LocalError (Report (Rslt Pr))).

  (** What happens around the driver: it goes on by itself; the message it makes cannot be sent, since the outgoing channel
      is closed; the incoming channel has a message for it, or is closed; it is cancelled. *)
  Inductive input := IGo | ISendFails | IRecv (from : Verifier) (m : Message) | IClosed | ICancel.

  (** What the driver does. *)
  Inductive dlabel :=
  | LEnter (s : Session Pr)                      (* a round begins *)
  | LOut (dest : Verifier) (m : Message)         (* a message is sent *)
  | LUnsent (dest : Verifier)                    (* making or sending a message fails *)
  | LApply (vm : VMessage)                       (* a cached message is processed *)
  | LIn (from : Verifier) (m : Message)          (* a message is taken from the channel *)
  | LClosed                                      (* the incoming channel is found closed *)
  | LCancel                                      (* the cancellation is noticed *)
  | LFinalize (s : Session Pr) (a : Accum Pr)
  | LGiveUp (s : Session Pr) (a : Accum Pr).     (* [terminate_due_to_errors] *)

  Definition drv_apply (s : Session Pr) (a : Accum Pr) (cached : list VMessage) : Drv :=
    match cached with [] => DrvWait s a | vm :: cached => DrvApply s a vm cached end.
  Definition drv_send (s : Session Pr) (a : Accum Pr) (dests : list Verifier) (cached : list VMessage) : Drv :=
    match dests with [] => drv_apply s a cached | dest :: dests => DrvSend s a dest dests cached end.
  (** tokio.rs:80-91 *)
  Definition drv_enter (s : Session Pr) (cached : list VMessage) : Drv :=
    drv_send s (make_accumulator s) (elements (message_destinations s)) cached.

  (** [?] *)
  Definition drv_try {A} (x : res LocalError A) (k : A -> Drv) : Drv :=
    match x with Ok y => k y | Err e => DrvDone (Err e) | Panic => DrvDone Panic end.

  (** [None]: this cannot happen now. *)
  Definition drv_step (r : NetRng) (d : Drv) (i : input) : option (list dlabel * Drv) :=
    match d with
    | DrvSend s a dest dests cached =>          (* tokio.rs:92-116 *)
        let made := make_message s (nr_msg r (s_verifier s) (s_round_id s) dest) dest in
        match i with
        | IGo =>
            Some (match made with
                  | Ok (m, pa) => ([LOut dest m], drv_try (acc_call (add_artifact a pa)) (fun x => drv_send s (fst x) dests cached))
                  | Err e => ([LUnsent dest], DrvDone (Err e))
                  | Panic => ([LUnsent dest], DrvDone Panic)
                  end)
        | ISendFails => Some ([LUnsent dest], drv_try made (fun _ => DrvDone (Err LE_Channel)))
        | _ => None
        end
    | DrvApply s a vm cached =>                 (* tokio.rs:118-125 *)
        match i with
        | IGo => Some ([LApply vm], drv_try (deliver_one s a vm) (fun a' => drv_apply s a' cached))
        | _ => None
        end
    | DrvWait s a =>
        match can_finalize a, i with
        | Yes, IGo =>                           (* tokio.rs:129, 170-179 *)
            match finalize_round s (nr_fin r (s_verifier s) (s_round_id s)) a with
            | Ok (ROFinished rep) => Some ([LFinalize s a], DrvDone (Ok rep))
            | Ok (ROAnother s' cached) => Some ([LFinalize s a; LEnter s'], drv_enter s' cached)
            | Err e => Some ([LFinalize s a], DrvDone (Err e))
            | Panic => Some ([LFinalize s a], DrvDone Panic)
            end
        | Never, IGo => Some ([LGiveUp s a], DrvDone (terminate_due_to_errors s a))   (* tokio.rs:134-137 *)
        | NotYet, IRecv from m =>               (* tokio.rs:141-143, 150-165 *)
            Some ([LIn from m], drv_try (acc_call (preprocess_message s a from m)) (fun x =>
              match snd x with
              | ToProcess vm => drv_try (deliver_one s (fst x) vm) (fun a' => DrvWait s a')
              | _ => DrvWait s (fst x)
              end))
        | NotYet, IClosed => Some ([LClosed], DrvDone (Err LE_Channel))               (* tokio.rs:143 *)
        | NotYet, ICancel => Some ([LCancel; LGiveUp s a], DrvDone (terminate_due_to_errors s a))   (* tokio.rs:145-147 *)
        | _, _ => None
        end
    | DrvDone _ => None
    end.

  (** Everything the driver did on the way from one state to another. *)
  Inductive drv_run (r : NetRng) : Drv -> list dlabel -> Drv -> Prop :=
  | drun_nil d : drv_run r d [] d
  | drun_snoc d ls d1 i ls' d2 : drv_run r d ls d1 -> drv_step r d1 i = Some (ls', d2) -> drv_run r d (ls ++ ls') d2.

  (** A call of [run_session] that has come to [d] and did [ls] on the way. *)
  Definition run_session (r : NetRng) (s : Session Pr) (ls : list dlabel) (d : Drv) : Prop :=
    exists ls', ls = LEnter s :: ls' /\ drv_run r (drv_enter s []) ls' d.

  (** ** Every node is driven by [run_session] (dev/tokio.rs)

      The messages sent by all the nodes wait in one place; each is handed to the node it is meant for, in any order. *)
  Record DNet := mkDNet { dn_nodes : bmap Verifier Drv; dn_flight : list (Verifier * Message) }.

  Definition outs (v : Verifier) (ls : list dlabel) : list (Verifier * Message) :=
    flat_map (fun l => match l with LOut _ m => [(v, m)] | _ => [] end) ls.

  Inductive daction := DGo (v : Verifier) | DDeliver (i : nat).
  (** [None]: this cannot happen now. A message for a node that has returned is dropped. *)
  Definition dact (r : NetRng) (net : DNet) (x : daction) : option DNet :=
    match x with
    | DGo v =>
        match get v (dn_nodes net) with
        | None => None
        | Some d =>
            match drv_step r d IGo with
            | None => None
            | Some (ls, d') => Some (mkDNet (insert v d' (dn_nodes net)) (dn_flight net ++ outs v ls))
            end
        end
    | DDeliver i =>
        match take_nth i (dn_flight net) with
        | None => None
        | Some ((from, m), rest) =>
            match get (msg_dest m) (dn_nodes net) with
            | None => None
            | Some (DrvDone o) => Some (mkDNet (dn_nodes net) rest)
            | Some d =>
                match drv_step r d (IRecv from m) with
                | None => None
                | Some (_, d') => Some (mkDNet (insert (msg_dest m) d' (dn_nodes net)) rest)
                end
            end
        end
    end.
  Inductive dschedule (r : NetRng) : DNet -> list daction -> DNet -> Prop :=
  | dsched_nil net : dschedule r net [] net
  | dsched_snoc net xs net1 x net2 : dschedule r net xs net1 -> dact r net1 x = Some net2 -> dschedule r net (xs ++ [x]) net2.

  (** One session per signer; every one is handed to [run_session]. *)
  Definition dnet_start (r : NetRng) (sid : bytes) (ps : list (Signer * EntryPoint Pr)) : res LocalError DNet :=
    let* l := map_res (fun p =>
      let* s := session_new (nr_new r (signer_key (fst p))) sid (fst p) (snd p) in
      Ok (signer_key (fst p), drv_enter s [])) ps in
    Ok (mkDNet (of_list l) []).
End WithParams.
Arguments Drv {P} Pr.
Arguments dlabel {P} Pr.
Arguments input {P}.
Arguments DNet {P} Pr.
Arguments daction {P}.
