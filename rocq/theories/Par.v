(** session/tokio.rs: [par_run_session], which makes and processes messages in tasks of their own. The tasks hand their
    results to the driver over two bounded channels. A state of the driver together with its tasks; one step is one thing
    done by the driver or by one of the tasks. *)
From Coq Require Import List NArith Bool.
From Verif Require Import Base BMap Errors RoundId Message Protocol Transcript Evidence Session Spec Network RunSync Driver.
Import ListNotations.
Set Implicit Arguments.

Fixpoint set_nth {A} (i : nat) (y : A) (l : list A) : list A :=
  match i, l with
  | _, [] => []
  | O, _ :: l => y :: l
  | S i, x :: l => x :: set_nth i y l
  end.

(** tokio.rs:223-224: the capacity of both channels *)
Definition capacity : nat := 100.

Section WithParams.
  Context {P : Params}.
  Context {Pr : Proto}.

  (** tokio.rs:245-262: to make a message; to put it into the channel; finished, with this result. A task that panics has
      the result [Panic]. *)
  Inductive ctask :=
  | CMake (dest : Verifier)
  | CSend (dest : Verifier) (m : Message) (pa : Verifier * SArtifact Pr)
  | CEnd (o : res LocalError unit).
  (** tokio.rs:266-278, 317-327 *)
  Inductive ptask :=
  | PMake (vm : VMessage)
  | PSend (pm : Processed Pr)
  | PEnd (o : res LocalError unit).

  (** The inner loop (tokio.rs:280-338); waiting for the first of the remaining creation tasks (344-348); for the first
      of the remaining processing tasks (350-354); sending what is left in the channel (361-369), and then the end of
      the round (373-389). The boolean is [can_finalize]. *)
  Inductive phase := Loop | JoinC (b : bool) | JoinP (b : bool) | Drain (b : bool).

  Record PState := mkPState {
    pp_s : Session Pr;
    pp_a : Accum Pr;
    pp_c : list ctask;                                                  (* the creation tasks not yet joined *)
    pp_p : list ptask;                                                  (* the processing tasks not yet joined *)
    pp_out : list (Verifier * Message * (Verifier * SArtifact Pr));     (* [outgoing_rx] *)
    pp_hand : bool;                                             (* the first of these is not in the channel any more: it is being sent *)
    pp_proc : list (Processed Pr);                              (* [processed_rx] *)
    pp_phase : phase
  }.
  Inductive Par := PRun (x : PState) | PStop (o : res LocalError (Report (Rslt Pr))).

  Definition set_c (x : PState) c := mkPState (pp_s x) (pp_a x) c (pp_p x) (pp_out x) (pp_hand x) (pp_proc x) (pp_phase x).
  Definition set_p (x : PState) p := mkPState (pp_s x) (pp_a x) (pp_c x) p (pp_out x) (pp_hand x) (pp_proc x) (pp_phase x).
  Definition set_acc (x : PState) a := mkPState (pp_s x) a (pp_c x) (pp_p x) (pp_out x) (pp_hand x) (pp_proc x) (pp_phase x).
  Definition set_out (x : PState) o := mkPState (pp_s x) (pp_a x) (pp_c x) (pp_p x) o (pp_hand x) (pp_proc x) (pp_phase x).
  Definition set_hand (x : PState) b := mkPState (pp_s x) (pp_a x) (pp_c x) (pp_p x) (pp_out x) b (pp_proc x) (pp_phase x).
  Definition set_proc (x : PState) q := mkPState (pp_s x) (pp_a x) (pp_c x) (pp_p x) (pp_out x) (pp_hand x) q (pp_phase x).
  Definition set_phase (x : PState) ph := mkPState (pp_s x) (pp_a x) (pp_c x) (pp_p x) (pp_out x) (pp_hand x) (pp_proc x) ph.
  Definition in_channel (x : PState) : nat := if pp_hand x then pred (length (pp_out x)) else length (pp_out x).

  (** tokio.rs:221-278 *)
  Definition par_enter (s : Session Pr) (cached : list VMessage) : PState :=
    mkPState s (make_accumulator s) (map CMake (elements (message_destinations s))) (map PMake cached) [] false [] Loop.

  (** A creation or a processing task goes on; the driver takes a message from [outgoing_rx] and begins to send it; it has
      sent it ([sent]: the outgoing channel [tx] accepts the message); it takes something from [processed_rx]; a message
      arrives; the incoming channel is closed; the driver is cancelled; the driver goes on by itself. *)
  Inductive paction :=
  | ACreate (i : nat) | AHandle (i : nat)
  | ATakeOut | APut (sent : bool) | ATakeProcessed | AReceive (from : Verifier) (m : Message) | AClosed | ACancel
  | AGo.

  Definition par_try {A} (x : res LocalError A) (k : A -> Par) : Par :=
    match x with Ok y => k y | Err e => PStop (Err e) | Panic => PStop Panic end.

  (** Where the driver waits for [outgoing_rx]: in the inner loop (tokio.rs:295), and when it sends what is left (361). *)
  Definition looks (x : PState) : bool :=
    match pp_phase x with
    | Loop => match can_finalize (pp_a x) with NotYet => true | _ => false end
    | Drain _ => true
    | _ => false
    end.
  (** Sending the message (tokio.rs:297-308, 362-368). *)
  Definition put_out (x : PState) (sent : bool) : option (list (dlabel Pr) * Par) :=
    match pp_out x with
    | [] => None
    | (dest, m, pa) :: out =>
        Some (if sent then ([LOut dest m], par_try (acc_call (add_artifact (pp_a x) pa)) (fun y => PRun (set_acc (set_hand (set_out x out) false) (fst y))))
              else ([LUnsent dest], PStop (Err LE_Channel)))
    end.

  (** Joining a task with this result. *)
  Definition joined (o : res LocalError unit) (k : Par) : Par :=
    match o with Ok _ => k | Err e => PStop (Err e) | Panic => PStop (Err LE_Join) end.

  (** [None]: this cannot happen now. *)
  Definition par_step (r : NetRng) (p : Par) (act : paction) : option (list (dlabel Pr) * Par) :=
    match p with
    | PStop _ => None
    | PRun x =>
        let s := pp_s x in
        match act with
        | ACreate i =>                                       (* tokio.rs:245-261 *)
            match nth_error (pp_c x) i with
            | Some (CMake dest) =>
                Some ([], PRun (set_c x (set_nth i (match make_message s (nr_msg r (s_verifier s) (s_round_id s) dest) dest with
                                                    | Ok (m, pa) => CSend dest m pa
                                                    | Err e => CEnd (Err e)
                                                    | Panic => CEnd Panic
                                                    end) (pp_c x))))
            | Some (CSend dest m pa) =>
                if Nat.ltb (in_channel x) capacity
                then Some ([], PRun (set_out (set_c x (set_nth i (CEnd (Ok tt)) (pp_c x))) (pp_out x ++ [(dest, m, pa)])))
                else None
            | _ => None
            end
        | AHandle i =>                                       (* tokio.rs:270-276, 320-326 *)
            match nth_error (pp_p x) i with
            | Some (PMake vm) =>
                Some ([], PRun (set_p x (set_nth i (let pm := process_message s vm in
                                                    match pm_res pm with Panic => PEnd Panic | _ => PSend pm end) (pp_p x))))
            | Some (PSend pm) =>
                if Nat.ltb (length (pp_proc x)) capacity
                then Some ([], PRun (set_proc (set_p x (set_nth i (PEnd (Ok tt)) (pp_p x))) (pp_proc x ++ [pm])))
                else None
            | _ => None
            end
        | APut sent => if pp_hand x then put_out x sent else None
        | _ =>
            if pp_hand x then None else                      (* while the driver is sending a message it does nothing else *)
            match act with
            | ATakeOut =>                                    (* tokio.rs:295, 361 *)
                match pp_out x with
                | _ :: _ => if looks x then Some ([], PRun (set_hand x true)) else None
                | [] => None
                end
            | AGo =>
                match pp_phase x with
                | Loop =>                                        (* tokio.rs:281-288 *)
                    match can_finalize (pp_a x) with
                    | Yes => Some ([], PRun (set_phase x (JoinC true)))
                    | Never => Some ([], PRun (set_phase x (JoinC false)))
                    | NotYet => None
                    end
                | JoinC b =>                                     (* tokio.rs:344-348 *)
                    match pp_c x with
                    | [] => Some ([], PRun (set_phase x (JoinP b)))
                    | CEnd o :: c => Some ([], joined o (PRun (set_c x c)))
                    | _ => None
                    end
                | JoinP b =>                                     (* tokio.rs:350-354 *)
                    match pp_p x with
                    | [] => Some ([], PRun (set_phase x (Drain b)))
                    | PEnd o :: p => Some ([], joined o (PRun (set_p x p)))
                    | _ => None
                    end
                | Drain b =>                                     (* tokio.rs:361-389 *)
                    match pp_out x with
                    | _ :: _ => None
                    | [] =>
                        if b then
                          match finalize_round s (nr_fin r (s_verifier s) (s_round_id s)) (pp_a x) with
                          | Ok (ROFinished rep) => Some ([LFinalize s (pp_a x)], PStop (Ok rep))
                          | Ok (ROAnother s' cached) => Some ([LFinalize s (pp_a x); LEnter s'], PRun (par_enter s' cached))
                          | Err e => Some ([LFinalize s (pp_a x)], PStop (Err e))
                          | Panic => Some ([LFinalize s (pp_a x)], PStop Panic)
                          end
                        else Some ([LGiveUp s (pp_a x)], PStop (terminate_due_to_errors s (pp_a x)))
                    end
                end
            | ATakeProcessed =>                                  (* tokio.rs:291-294 *)
                match pp_phase x, can_finalize (pp_a x), pp_proc x with
                | Loop, NotYet, pm :: q =>
                    Some ([LApply (pm_msg pm)], par_try (acc_call (add_processed s (pp_a x) pm)) (fun y => PRun (set_acc (set_proc x q) (fst y))))
                | _, _, _ => None
                end
            | AReceive from m =>                                 (* tokio.rs:310-333 *)
                match pp_phase x, can_finalize (pp_a x) with
                | Loop, NotYet =>
                    Some ([LIn from m], par_try (acc_call (preprocess_message s (pp_a x) from m)) (fun y =>
                      PRun (match snd y with
                            | ToProcess vm => set_p (set_acc x (fst y)) (pp_p x ++ [PMake vm])
                            | _ => set_acc x (fst y)
                            end)))
                | _, _ => None
                end
            | AClosed =>                                         (* tokio.rs:311 *)
                match pp_phase x, can_finalize (pp_a x) with
                | Loop, NotYet => Some ([LClosed], PStop (Err LE_Channel))
                | _, _ => None
                end
            | ACancel =>                                         (* tokio.rs:334-336 *)
                match pp_phase x, can_finalize (pp_a x) with
                | Loop, NotYet => Some ([LCancel], PRun (set_phase x (JoinC false)))
                | _, _ => None
                end
            | _ => None
            end
        end
    end.

  Inductive par_run (r : NetRng) : Par -> list (dlabel Pr) -> Par -> Prop :=
  | prun_nil p : par_run r p [] p
  | prun_snoc p ls p1 act ls' p2 : par_run r p ls p1 -> par_step r p1 act = Some (ls', p2) -> par_run r p (ls ++ ls') p2.

  (** A call of [par_run_session] that has come to [p] and did [ls] on the way. *)
  Definition par_session (r : NetRng) (s : Session Pr) (ls : list (dlabel Pr)) (p : Par) : Prop :=
    exists ls', ls = LEnter s :: ls' /\ par_run r (PRun (par_enter s [])) ls' p.
End WithParams.
Arguments Par {P} Pr.
Arguments PState {P} Pr.
Arguments ctask {P} Pr.
Arguments ptask {P} Pr.
Arguments paction {P}.

(** ** Every node is driven by [par_run_session] (dev/tokio.rs, as for [DNet] in Driver.v) *)
Section Nets.
  Context {P : Params}.
  Context {Pr : Proto}.

  Record PNet := mkPNet { pn_nodes : bmap Verifier (Par Pr); pn_flight : list (Verifier * Message) }.

  (** What happens at a node without anything from outside. *)
  Definition own (x : paction (P := P)) : bool :=
    match x with ACreate _ | AHandle _ | ATakeOut | APut true | ATakeProcessed | AGo => true | _ => false end.

  Inductive naction := NStep (v : Verifier) (x : paction (P := P)) | NDeliver (i : nat).
  (** [None]: this cannot happen now. A message for a node that has returned is dropped. *)
  Definition nact (r : NetRng) (net : PNet) (y : naction) : option PNet :=
    match y with
    | NStep v x =>
        match get v (pn_nodes net), own x with
        | Some p, true =>
            match par_step r p x with
            | None => None
            | Some (ls, p') => Some (mkPNet (insert v p' (pn_nodes net)) (pn_flight net ++ outs v ls))
            end
        | _, _ => None
        end
    | NDeliver i =>
        match take_nth i (pn_flight net) with
        | None => None
        | Some ((from, m), rest) =>
            match get (msg_dest m) (pn_nodes net) with
            | None => None
            | Some (PStop o) => Some (mkPNet (pn_nodes net) rest)
            | Some p =>
                match par_step r p (AReceive from m) with
                | None => None
                | Some (_, p') => Some (mkPNet (insert (msg_dest m) p' (pn_nodes net)) rest)
                end
            end
        end
    end.
  Inductive nschedule (r : NetRng) : PNet -> list naction -> PNet -> Prop :=
  | nsched_nil net : nschedule r net [] net
  | nsched_snoc net xs net1 x net2 : nschedule r net xs net1 -> nact r net1 x = Some net2 -> nschedule r net (xs ++ [x]) net2.

  (** One session per signer; every one is handed to [par_run_session]. *)
  Definition pnet_start (r : NetRng) (sid : bytes) (ps : list (Signer * EntryPoint Pr)) : res LocalError PNet :=
    let* l := map_res (fun p =>
      let* s := session_new (nr_new r (signer_key (fst p))) sid (fst p) (snd p) in
      Ok (signer_key (fst p), PRun (par_enter s []))) ps in
    Ok (mkPNet (of_list l) []).
End Nets.
Arguments PNet {P} Pr.
Arguments naction {P}.
