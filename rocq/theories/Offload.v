(** dev/tokio.rs: [run_async] with [offload_processing = true], that is one task per node, each driven by [par_run_session],
    the tasks started by these, and the task of [message_dispatcher]. The tasks are interleaved in any way. *)
From Coq Require Import List NArith Bool.
From Verif Require Import Base BMap Errors RoundId Message Protocol Transcript Evidence Session Spec Network RunSync Driver Par Async.
Import ListNotations.
Set Implicit Arguments.

Section WithParams.
  Context {P : Params}.
  Context {Pr : Proto}.

  (** As in Async.v: [on_out] is the channel into the dispatcher, [on_in] are those into the nodes (oldest message first). *)
  Record ONet := mkONet {
    on_nodes : bmap Verifier (Par Pr);
    on_out : list MsgOut;
    on_disp : Disp;
    on_in : bmap Verifier (list (Verifier * Message))
  }.

  (** What the dispatcher and [run_async] itself can see of the nodes: which ones have returned, and what. *)
  Definition seen_node (p : Par Pr) : Drv Pr := match p with PRun x => DrvWait (pp_s x) (pp_a x) | PStop o => DrvDone o end.
  Definition seen (net : ONet) : ANet Pr := mkANet (map_values seen_node (on_nodes net)) (on_out net) (on_disp net) (on_in net).

  (** Something that a node does without its channels [tx] and [rx]; it sends a message; it receives one; the dispatcher
      goes on. The nodes are never cancelled: nobody uses the token (tokio.rs:101). *)
  Inductive oaction := OSelf (v : Verifier) (x : paction (P := P)) | OSend (v : Verifier) | ORecv (v : Verifier) | ODisp (i : nat).

  Definition by_itself (x : paction (P := P)) : bool :=
    match x with ACreate _ | AHandle _ | ATakeOut | ATakeProcessed | AGo => true | _ => false end.
  (** A [send] waits while [cap] messages are in the channel, and fails once the dispatcher has returned; a [recv] takes the
      oldest message, or finds the channel empty and closed. *)
  Definition node_action (cap : nat) (net : ONet) (x : oaction) : option (Verifier * paction (P := P)) :=
    match x with
    | OSelf v x => if by_itself x then Some (v, x) else None
    | OSend v =>
        if disp_done (on_disp net) then Some (v, APut false)
        else if Nat.ltb (List.length (on_out net)) cap then Some (v, APut true) else None
    | ORecv v =>
        match get v (on_in net) with
        | Some ((from, m) :: _) => Some (v, AReceive from m)
        | _ => if disp_done (on_disp net) then Some (v, AClosed) else None
        end
    | ODisp _ => None
    end.

  (** What the nodes do is recorded, with the node that does it. *)
  Definition oact (r : NetRng) (cap : nat) (net : ONet) (x : oaction) : option (list (Verifier * dlabel Pr) * ONet) :=
    match x with
    | ODisp i =>
        match disp_step cap (seen net) i with
        | Some b => Some ([], mkONet (on_nodes net) (an_out b) (an_disp b) (an_in b))
        | None => None
        end
    | _ =>
        match node_action cap net x with
        | None => None
        | Some (v, act) =>
            match get v (on_nodes net) with
            | None => None
            | Some p =>
                match par_step r p act with
                | None => None
                | Some (ls, p') =>
                    Some (map (pair v) ls,
                          mkONet (insert v p' (on_nodes net)) (on_out net ++ flat_map (out_of v) ls) (on_disp net)
                            (match get v (on_in net) with
                             | Some q => if existsb takes ls then insert v (tl q) (on_in net) else on_in net
                             | None => on_in net
                             end))
                end
            end
        end
    end.
  Inductive oschedule (r : NetRng) (cap : nat) : ONet -> list (Verifier * dlabel Pr) -> ONet -> Prop :=
  | osched_nil net : oschedule r cap net [] net
  | osched_snoc net tr net1 x ls net2 : oschedule r cap net tr net1 -> oact r cap net1 x = Some (ls, net2) -> oschedule r cap net (tr ++ ls) net2.

  (** tokio.rs:87-127. The keys of the signers are different. *)
  Definition onet_start (r : NetRng) (sid : bytes) (ps : list (Signer * EntryPoint Pr)) : res LocalError ONet :=
    let* l := map_res (fun p =>
      let* s := session_new (nr_new r (signer_key (fst p))) sid (fst p) (snd p) in
      Ok (signer_key (fst p), s)) ps in
    Ok (mkONet (of_list (map (fun vs => (fst vs, PRun (par_enter (snd vs) []))) l)) [] DispRecv
          (of_list (map (fun vs => (fst vs, [])) l))).

  (** tokio.rs:132-146: what [run_async] returns; [None] while it is waiting. *)
  Definition offload_returns (net : ONet) : option (res LocalError (bmap Verifier (Report (Rslt Pr)))) := async_returns (seen net).
End WithParams.
Arguments ONet {P} Pr.
Arguments oaction {P}.
