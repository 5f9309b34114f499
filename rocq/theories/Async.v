(** dev/tokio.rs: [run_async] with [offload_processing = false], that is one task per node, each driven by [run_session],
    and the task of [message_dispatcher], which hands messages from node to node. The tasks are interleaved in any way. *)
From Coq Require Import List NArith Bool.
From Verif Require Import Base BMap Errors RoundId Message Protocol Transcript Evidence Session Spec Network RunSync Driver.
Import ListNotations.
Set Implicit Arguments.

Section WithParams.
  Context {P : Params}.
  Context {Pr : Proto}.

  (** [MessageOut] (session/tokio.rs:21-32): from, to, message. *)
  Record MsgOut := mkOut { mo_from : Verifier; mo_to : Verifier; mo_message : Message }.

  (** Where [message_dispatcher] is: waiting for the first message (tokio.rs:34); collecting what else is there (40-42); at
      the top of the inner loop (44-48); sending [out] (50-62); looking for one more message (67-69); it has returned.
      [messages] is its local list. *)
  Inductive Disp :=
  | DispRecv
  | DispDrain (messages : list MsgOut)
  | DispPick (messages : list MsgOut)
  | DispSend (messages : list MsgOut) (out : MsgOut)
  | DispPoll (messages : list MsgOut)
  | DispEnd (o : res LocalError unit).

  (** The tasks and the channels between them: [an_out] is the one into the dispatcher, [an_in] are those into the nodes
      (oldest message first). *)
  Record ANet := mkANet {
    an_nodes : bmap Verifier (Drv Pr);
    an_out : list MsgOut;
    an_disp : Disp;
    an_in : bmap Verifier (list (Verifier * Message))
  }.

  Definition drv_done (d : Drv Pr) : bool := match d with DrvDone _ => true | _ => false end.
  Definition disp_done (p : Disp) : bool := match p with DispEnd _ => true | _ => false end.
  Definition all_done (nodes : bmap Verifier (Drv Pr)) : bool := forallb (fun kv => drv_done (snd kv)) (to_list nodes).

  (** [Vec::swap_remove]: the last element takes the place of the one that is removed. *)
  Definition swap_remove {A} (i : nat) (l : list A) : option (A * list A) :=
    match nth_error l i with
    | None => None
    | Some x => Some (x, match rev l with
                         | [] => []
                         | last :: front => if Nat.eqb i (List.length front) then rev front
                                            else firstn i (rev front) ++ last :: skipn (S i) (rev front)
                         end)
    end.

  (** One step of the dispatcher. [i] is the index it draws (tokio.rs:47). [None]: it cannot go on now. A [send] waits
      while [cap] messages are in the channel, and fails if the node has returned, since the node's end of the channel is
      dropped then. *)
  Definition disp_step (cap : nat) (net : ANet) (i : nat) : option ANet :=
    let go := fun out p => Some (mkANet (an_nodes net) out p (an_in net)) in
    match an_disp net with
    | DispRecv =>
        match an_out net with
        | x :: out => go out (DispDrain [x])
        | [] => if all_done (an_nodes net) then go [] (DispEnd (Ok tt)) else None    (* every sender is dropped *)
        end
    | DispDrain messages =>
        match an_out net with
        | x :: out => go out (DispDrain (messages ++ [x]))
        | [] => go [] (DispPick messages)
        end
    | DispPick [] => go (an_out net) DispRecv
    | DispPick messages =>
        match swap_remove i messages with
        | Some (out, messages') => go (an_out net) (DispSend messages' out)
        | None => None
        end
    | DispSend messages out =>
        match get (mo_to out) (an_in net) with
        | None => go (an_out net) (DispEnd (Err LE_Channel))
        | Some q =>
            match get (mo_to out) (an_nodes net) with
            | None | Some (DrvDone _) => go (an_out net) (DispEnd (Err LE_Channel))
            | Some _ =>
                if Nat.ltb (List.length q) cap
                then Some (mkANet (an_nodes net) (an_out net) (DispPoll messages)
                             (insert (mo_to out) (q ++ [(mo_from out, mo_message out)]) (an_in net)))
                else None
            end
        end
    | DispPoll messages =>
        match an_out net with
        | x :: out => go out (DispPick (messages ++ [x]))
        | [] => go [] (DispPick messages)
        end
    | DispEnd _ => None
    end.

  (** What a node can meet in its next step: its [send] waits while [cap] messages are in the channel, and fails once the
      dispatcher has returned; its [recv] takes the oldest message, or finds the channel empty and closed. *)
  Definition node_input (cap : nat) (net : ANet) (v : Verifier) (d : Drv Pr) : option (input (P := P)) :=
    match d with
    | DrvSend _ _ _ _ _ =>
        if disp_done (an_disp net) then Some ISendFails
        else if Nat.ltb (List.length (an_out net)) cap then Some IGo else None
    | DrvApply _ _ _ _ => Some IGo
    | DrvWait _ a =>
        match can_finalize a with
        | NotYet =>
            match get v (an_in net) with
            | Some ((from, m) :: _) => Some (IRecv from m)
            | _ => if disp_done (an_disp net) then Some IClosed else None
            end
        | _ => Some IGo
        end
    | DrvDone _ => None
    end.

  Definition out_of (v : Verifier) (l : dlabel Pr) : list MsgOut := match l with LOut dest m => [mkOut v dest m] | _ => [] end.
  Definition takes (l : dlabel Pr) : bool := match l with LIn _ _ => true | _ => false end.

  Inductive aaction := ANode (v : Verifier) | ADisp (i : nat).
  (** What the nodes do is recorded, with the node that does it. *)
  Definition aact (r : NetRng) (cap : nat) (net : ANet) (x : aaction) : option (list (Verifier * dlabel Pr) * ANet) :=
    match x with
    | ANode v =>
        match get v (an_nodes net) with
        | None => None
        | Some d =>
            match node_input cap net v d with
            | None => None
            | Some i =>
                match drv_step r d i with
                | None => None
                | Some (ls, d') =>
                    Some (map (pair v) ls,
                          mkANet (insert v d' (an_nodes net)) (an_out net ++ flat_map (out_of v) ls) (an_disp net)
                            (match get v (an_in net) with
                             | Some q => if existsb takes ls then insert v (tl q) (an_in net) else an_in net
                             | None => an_in net
                             end))
                end
            end
        end
    | ADisp i => match disp_step cap net i with Some net' => Some ([], net') | None => None end
    end.
  Inductive aschedule (r : NetRng) (cap : nat) : ANet -> list (Verifier * dlabel Pr) -> ANet -> Prop :=
  | asched_nil net : aschedule r cap net [] net
  | asched_snoc net tr net1 x ls net2 : aschedule r cap net tr net1 -> aact r cap net1 x = Some (ls, net2) -> aschedule r cap net (tr ++ ls) net2.

  (** tokio.rs:87-127. The keys of the signers are different. *)
  Definition anet_start (r : NetRng) (sid : bytes) (ps : list (Signer * EntryPoint Pr)) : res LocalError ANet :=
    let* l := map_res (fun p =>
      let* s := session_new (nr_new r (signer_key (fst p))) sid (fst p) (snd p) in
      Ok (signer_key (fst p), s)) ps in
    Ok (mkANet (of_list (map (fun vs => (fst vs, drv_enter (snd vs) [])) l)) [] DispRecv
          (of_list (map (fun vs => (fst vs, [])) l))).

  (** tokio.rs:132-146: what [run_async] returns; [None] while it is waiting. It waits for the nodes in the order of their
      keys, and stops at the first that failed (or panicked); at the end it waits for the dispatcher. *)
  Fixpoint await_nodes (l : list (Verifier * Drv Pr)) (reports : bmap Verifier (Report (Rslt Pr)))
      : option (res LocalError (bmap Verifier (Report (Rslt Pr)))) :=
    match l with
    | [] => Some (Ok reports)
    | (v, DrvDone (Ok rep)) :: l => await_nodes l (insert v rep reports)
    | (_, DrvDone (Err e)) :: _ => Some (Err e)
    | (_, DrvDone Panic) :: _ => Some (Err LE_Join)
    | _ :: _ => None
    end.
  Definition async_returns (net : ANet) : option (res LocalError (bmap Verifier (Report (Rslt Pr)))) :=
    match await_nodes (to_list (an_nodes net)) empty, an_disp net with
    | Some (Ok reports), DispEnd (Ok _) => Some (Ok reports)
    | Some (Ok _), DispEnd (Err e) => Some (Err e)
    | Some (Ok _), DispEnd Panic => Some (Err LE_Join)
    | Some (Ok _), _ => None
    | x, _ => x
    end.
End WithParams.
Arguments ANet {P} Pr.
Arguments MsgOut {P}.
Arguments Disp {P}.
Arguments aaction {P}.
