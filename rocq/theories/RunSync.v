(** dev/run_sync.rs: executing all nodes in a single thread. *)
From Coq Require Import List NArith Bool Arith.
From Verif Require Import Base BMap Errors RoundId Message Protocol Transcript Evidence Session Spec Network.
Import ListNotations.
Set Implicit Arguments.

Definition is_nil {A} (l : list A) : bool := match l with [] => true | _ => false end.

(** [Vec::swap_remove]: the last element takes the place of the removed one. *)
Definition swap_remove {A} (i : nat) (l : list A) : option (A * list A) :=
  match take_nth i l with
  | None => None
  | Some (x, _) =>
      match take_nth (length l - 1) l with
      | None => None
      | Some (y, front) => Some (x, if Nat.eqb i (length l - 1) then front else firstn i front ++ y :: skipn (S i) front)
      end
  end.

Section WithParams.
  Context {P : Params}.

  (** run_sync.rs:24-28 *)
  Record RMsg := mkRMsg { rm_from : Verifier; rm_to : Verifier; rm_message : Message }.

  (** run_sync.rs:30-35 *)
  Inductive Messages := Ordered (m : bmap Verifier (list RMsg)) | Unordered (v : list RMsg).

  (** run_sync.rs:41-47 *)
  Definition q_new (ordered : bool) : Messages := if ordered then Ordered empty else Unordered [].

  (** run_sync.rs:50-62 *)
  Definition q_push (q : Messages) (x : RMsg) : Messages :=
    match q with
    | Ordered m => Ordered (insert (rm_from x) (match get (rm_from x) m with Some l => l ++ [x] | None => [x] end) m)
    | Unordered v => Unordered (v ++ [x])
    end.
  Definition q_extend (q : Messages) (l : list RMsg) : Messages := fold_left q_push l q.

  (** run_sync.rs:89-101 *)
  Definition q_is_empty (q : Messages) : bool :=
    match q with Ordered m => is_empty m | Unordered v => is_nil v end.
  Definition q_len (q : Messages) : nat := match q with Ordered m => length (keys m) | Unordered v => length v end.

  (** run_sync.rs:65-87. [gen_range(0..len)] panics for an empty range; otherwise it returns some number below [len],
      here that of [i] modulo [len]: every number is returned for some [i]. *)
  Definition q_pop (i : nat) (q : Messages) : option (RMsg * Messages) :=   (* None: a panic *)
    if Nat.eqb (q_len q) 0 then None else
    let idx := Nat.modulo i (q_len q) in
    match q with
    | Ordered m =>
        match nth_error (keys m) idx with
        | None => None
        | Some sender =>
            match get sender m with
            | Some (x :: rest) => Some (x, Ordered (if is_nil rest then remove sender m else insert sender rest m))
            | _ => None
            end
        end
    | Unordered v => match swap_remove idx v with Some (x, v') => Some (x, Unordered v') | None => None end
    end.

  Context {Pr : Proto}.

  (** run_sync.rs:16-22 *)
  Inductive NState := InProgress (s : Session Pr) (a : Accum Pr) | Finished (rep : Report (Rslt Pr)).

  (** A call that changes the accumulator, with [?]. *)
  Definition acc_call {B} (x : Accum Pr * res LocalError B) : res LocalError (Accum Pr * B) :=
    let '(a, r) := x in let* b := r in Ok (a, b).

  (** run_sync.rs:164-173, 199-208. Every session call draws from the generator of the caller; since no round is entered
      twice every stream of draws is covered by some [NetRng] (as in Network.v). *)
  Definition send_all (r : NetRng) (s : Session Pr) (a : Accum Pr) : res LocalError (Accum Pr * list RMsg) :=
    fold_res (fun (st : Accum Pr * list RMsg) dest =>
      let* (m, pa) := make_message s (nr_msg r (s_verifier s) (s_round_id s) dest) dest in
      let* (a', _) := acc_call (add_artifact (fst st) pa) in
      Ok (a', snd st ++ [mkRMsg (s_verifier s) dest m])) (a, []) (elements (message_destinations s)).

  (** run_sync.rs:132-140, 238-241 *)
  Definition deliver_one (s : Session Pr) (a : Accum Pr) (vm : VMessage) : res LocalError (Accum Pr) :=
    let* (a', _) := acc_call (add_processed s a (process_message s vm)) in Ok a'.

  (** run_sync.rs:105-177. A protocol may have infinitely many rounds that need no messages, so there is a bound on the
      number of iterations; [None] if it is exceeded. *)
  Fixpoint propagate (fuel : nat) (r : NetRng) (s : Session Pr) (a : Accum Pr) (messages : list RMsg)
    : option (res LocalError (NState * list RMsg)) :=
    match fuel with
    | O => None
    | S fuel =>
        match can_finalize a with
        | Yes =>
            match finalize_round s (nr_fin r (s_verifier s) (s_round_id s)) a with
            | Ok (ROFinished rep) => Some (Ok (Finished rep, messages))
            | Ok (ROAnother s' cached) =>
                match (let* a' := fold_res (deliver_one s') (make_accumulator s') cached in send_all r s' a') with
                | Ok (a', out) => propagate fuel r s' a' (messages ++ out)
                | Err e => Some (Err e)
                | Panic => Some Panic
                end
            | Err e => Some (Err e)
            | Panic => Some Panic
            end
        | NotYet => Some (Ok (InProgress s a, messages))
        | Never => Some (let* rep := terminate_due_to_errors s a in Ok (Finished rep, messages))
        end
    end.

  Definition obind {A B} (o : option (res LocalError A)) (f : A -> option (res LocalError B)) : option (res LocalError B) :=
    match o with None => None | Some (Ok x) => f x | Some (Err e) => Some (Err e) | Some Panic => Some Panic end.

  (** The state of the driver: the queue and the states of the nodes. *)
  Record Sync := mkSync { sy_queue : Messages; sy_states : bmap Verifier NState }.

  (** run_sync.rs:194-213 *)
  Definition sync_add (fuel : nat) (r : NetRng) (sid : bytes) (y : Sync) (p : Signer * EntryPoint Pr) : option (res LocalError Sync) :=
    let v := signer_key (fst p) in
    match (let* s := session_new (nr_new r v) sid (fst p) (snd p) in
           let* (a, out) := send_all r s (make_accumulator s) in Ok (s, a, out)) with
    | Ok (s, a, out) =>
        obind (propagate fuel r s a []) (fun z =>
          Some (Ok (mkSync (q_extend (q_extend (sy_queue y) out) (snd z)) (insert v (fst z) (sy_states y)))))
    | Err e => Some (Err e)
    | Panic => Some Panic
    end.
  Fixpoint sync_start (fuel : nat) (r : NetRng) (sid : bytes) (y : Sync) (ps : list (Signer * EntryPoint Pr)) : option (res LocalError Sync) :=
    match ps with
    | [] => Some (Ok y)
    | p :: ps => obind (sync_add fuel r sid y p) (fun y' => sync_start fuel r sid y' ps)
    end.

  (** One iteration of the loop, run_sync.rs:215-249. *)
  Definition sync_step (fuel : nat) (r : NetRng) (i : nat) (y : Sync) : option (res LocalError Sync) :=
    match q_pop i (sy_queue y) with
    | None => Some Panic
    | Some (x, q) =>
        match get (rm_to x) (sy_states y) with
        | None => Some Panic
        | Some (Finished rep) => Some (Ok (mkSync q (insert (rm_to x) (Finished rep) (remove (rm_to x) (sy_states y)))))
        | Some (InProgress s a) =>
            match (let* (a1, o) := acc_call (preprocess_message s a (rm_from x) (rm_message x)) in
                   match o with ToProcess vm => deliver_one s a1 vm | _ => Ok a1 end) with
            | Ok a2 =>
                obind (propagate fuel r s a2 []) (fun z =>
                  Some (Ok (mkSync (q_extend q (snd z)) (insert (rm_to x) (fst z) (remove (rm_to x) (sy_states y))))))
            | Err e => Some (Err e)
            | Panic => Some Panic
            end
        end
    end.

  (** run_sync.rs:215-255: [picks] are the random numbers, [k] the number of iterations so far. *)
  Fixpoint sync_loop (fuel : nat) (r : NetRng) (picks : nat -> nat) (k : nat) (y : Sync) : option (res LocalError Sync) :=
    match fuel with
    | O => None
    | S fuel =>
        obind (sync_step (S fuel) r (picks k) y) (fun y' =>
          if q_is_empty (sy_queue y') then Some (Ok y') else sync_loop fuel r picks (S k) y')
    end.

  (** run_sync.rs:257-266 *)
  Definition sync_report (st : NState) : res LocalError (Report (Rslt Pr)) :=
    match st with InProgress s a => terminate s a | Finished rep => Ok rep end.
  Definition sync_reports (y : Sync) : res LocalError (bmap Verifier (Report (Rslt Pr))) :=
    let* l := map_res (fun kv => let* rep := sync_report (snd kv) in Ok (fst kv, rep)) (to_list (sy_states y)) in
    Ok (of_list l).

  (** run_sync.rs:181-267; [fuel] bounds the loops. The session id is drawn at random (189). *)
  Definition run_sync (fuel : nat) (r : NetRng) (picks : nat -> nat) (sid : bytes) (ps : list (Signer * EntryPoint Pr))
    : option (res LocalError (bmap Verifier (Report (Rslt Pr)))) :=
    obind (sync_start fuel r sid (mkSync (q_new true) empty) ps) (fun y =>
    obind (sync_loop fuel r picks 0 y) (fun y' => Some (sync_reports y'))).

  (** run_sync.rs:285-305; the description of the failures is not modelled. *)
  Definition exec_results (reports : bmap Verifier (Report (Rslt Pr))) : option (bmap Verifier (Rslt Pr)) :=
    if forallb (fun kv => match rep_outcome (snd kv) with OResult _ => true | _ => false end) (to_list reports)
    then Some (of_list (flat_map (fun kv => match rep_outcome (snd kv) with OResult x => [(fst kv, x)] | _ => [] end) (to_list reports)))
    else None.
End WithParams.
Arguments RMsg {P}.
Arguments Messages {P}.
Arguments NState {P} Pr.
Arguments Sync {P} Pr.
