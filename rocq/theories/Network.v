(** A network of nodes that all run the library, driven the way session/tokio.rs and dev/run_sync.rs drive it: in every
    round a node makes one message per destination (tokio.rs:69-83, run_sync.rs:144-158), preprocesses what arrives,
    processes what it is told to process, and finalizes as soon as [can_finalize] says so. Which of the possible actions
    happens next is left to the schedule: messages may be delivered in any order and delayed arbitrarily. *)
From Coq Require Import List NArith Bool.
From Verif Require Import Base BMap Errors RoundId Message Protocol Transcript Evidence Session Spec.
Import ListNotations.
Set Implicit Arguments.

(** Element [i] of a list, and the rest. *)
Fixpoint take_nth {A} (i : nat) (l : list A) : option (A * list A) :=
  match i, l with
  | _, [] => None
  | O, x :: l => Some (x, l)
  | S i, x :: l => match take_nth i l with Some (y, l') => Some (y, x :: l') | None => None end
  end.

Section WithParams.
  Context {P : Params}.

  (** The randomness of every API call of every node: creating the session, making the message of a round for a
      destination, finalizing a round. *)
  Record NetRng := mkNetRng {
    nr_new : Verifier -> rng;
    nr_msg : Verifier -> RoundId -> Verifier -> rng;
    nr_fin : Verifier -> RoundId -> rng
  }.

  Context {Pr : Proto}.

  Inductive Node := Running (d : DState Pr) | Ended (rep : Report (Rslt Pr)).

  (** The nodes, and the messages in flight with their senders. *)
  Record Net := mkNet { nodes : bmap Verifier Node; flight : list (Verifier * Message) }.

  (** A node makes its message for a destination; a message in flight arrives; a node processes a message it holds;
      a node finalizes its round. *)
  Inductive action := ASend (v dest : Verifier) | ADeliver (i : nat) | AProcess (v : Verifier) (i : nat) | AFinalize (v : Verifier).

  Definition set_node (net : Net) (v : Verifier) (nd : Node) : Net := mkNet (insert v nd (nodes net)) (flight net).

  (** The result of a call that changes the accumulator. *)
  Definition with_accum {A B} (x : A * res LocalError B) (k : A -> B -> Net) : res LocalError Net :=
    let '(a, r) := x in let* b := r in Ok (k a b).

  Definition all_sent (d : DState Pr) : bool :=
    forallb (fun u => contains u (a_artifacts (d_a d))) (elements (message_destinations (d_s d))).

  (** [None]: the action is not possible in this state. [Some (Err _)], [Some Panic]: the library fails. *)
  Definition act (r : NetRng) (net : Net) (x : action) : option (res LocalError Net) :=
    match x with
    | ASend v dest =>
        match get v (nodes net) with
        | Some (Running d) =>
            if (mem dest (message_destinations (d_s d)) && negb (contains dest (a_artifacts (d_a d))))%bool then
              Some (let* (m, pa) := make_message (d_s d) (nr_msg r v (s_round_id (d_s d)) dest) dest in
                    with_accum (add_artifact (d_a d) pa) (fun a _ =>
                      mkNet (insert v (Running (DS (d_s d) a (d_todo d))) (nodes net)) (flight net ++ [(v, m)])))
            else None
        | _ => None
        end
    | ADeliver i =>
        match take_nth i (flight net) with
        | None => None
        | Some ((from, m), rest) =>
            match get (msg_dest m) (nodes net) with
            | None => Some Panic (* the [expect] of run_sync.rs:219-222 *)
            | Some (Ended rep) => Some (Ok (mkNet (nodes net) rest))
            | Some (Running d) =>
                Some (with_accum (preprocess_message (d_s d) (d_a d) from m) (fun a o =>
                  mkNet (insert (msg_dest m)
                           (Running (DS (d_s d) a (match o with ToProcess vm => vm :: d_todo d | _ => d_todo d end)))
                           (nodes net)) rest))
            end
        end
    | AProcess v i =>
        match get v (nodes net) with
        | Some (Running d) =>
            match take_nth i (d_todo d) with
            | None => None
            | Some (vm, todo) =>
                Some (with_accum (add_processed (d_s d) (d_a d) (process_message (d_s d) vm)) (fun a _ =>
                  set_node net v (Running (DS (d_s d) a todo))))
            end
        | _ => None
        end
    | AFinalize v =>
        match get v (nodes net) with
        | Some (Running d) =>
            match can_finalize (d_a d), all_sent d with
            | Yes, true =>
                Some (let* out := finalize_round (d_s d) (nr_fin r v (s_round_id (d_s d))) (d_a d) in
                      Ok (set_node net v (match out with
                                          | ROFinished rep => Ended rep
                                          | ROAnother s' c => Running (DS s' (make_accumulator s') c)
                                          end)))
            | _, _ => None
            end
        | _ => None
        end
    end.

  (** The sequence of actions [xs] leads from one state to another. *)
  Inductive schedule (r : NetRng) : Net -> list action -> Net -> Prop :=
  | sched_nil net : schedule r net [] net
  | sched_snoc net xs net1 x net2 :
      schedule r net xs net1 -> act r net1 x = Some (Ok net2) -> schedule r net (xs ++ [x]) net2.

  (** One node per signer, each with its own entry point; nothing in flight. *)
  Definition net_start (r : NetRng) (sid : bytes) (ps : list (Signer * EntryPoint Pr)) : res LocalError Net :=
    let* l := map_res (fun p =>
      let* s := session_new (nr_new r (signer_key (fst p))) sid (fst p) (snd p) in
      Ok (signer_key (fst p), Running (start s))) ps in
    Ok (mkNet (of_list l) []).
End WithParams.
Arguments Node {P} Pr.
Arguments Net {P} Pr.
Arguments NetRng {P}.
Arguments action {P}.
